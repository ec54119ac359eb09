(** Specification vocabulary for debug mode. *)
From Coq Require Import Strings.String NArith ZArith List Bool.
From Verif Require Import GoStr GoNum Syntax Value Util Model Sqlf Sqlb RefSem Spec_build Spec_mean.
Import ListNotations.
Open Scope string_scope.

(** The builder as it would be without Debug(). *)
Definition quiet (q : qb) : qb := set_debug q false.
(** A text built for builder [id], with at most [m] arguments, that util.Interpolate
    panics on: its placeholders are written for their values, no two are the same. *)
Definition unshowable (P : value -> bool) (dollar : bool) (h : list qb) (id m : nat) : Prop :=
  exists log t ph args er, means [builtins] h log (BQuery (Some id)) t /\ forallb P args = true /\
    NoDup (placeholders t) /\ List.length args <= m /\ (dollar = false -> List.length (placeholders t) <= List.length args) /\
    (forall j, In j (placeholders t) -> exists v, nth_error log j = Some v /\ denotes dollar args (ph j) v) /\
    interpolate (fun _ => "") (render ph t) args = RPanic er.
