(** Vocabulary for using a built query as a template. *)
From Coq Require Import Strings.String NArith ZArith List.
From Verif Require Import GoStr GoNum Syntax Value Model Sqlf Spec_syntax.
Import ListNotations.
Open Scope string_scope.

(** The numbers of the bind variables of a template, in its order. *)
Definition bind_index (x : aexpr) : list Z := match x with ABind _ i => [i] | _ => [] end.
Definition numbers (s : string) : list Z :=
  match parsed s with Some l => flat_map bind_index l | None => [] end.
(** Every argument is mentioned. *)
Definition mentions_all (s : string) (args : list value) : Prop :=
  forall k, 1 <= k <= List.length args -> In (Z.of_nat k) (numbers s).
(** Before a number comes up for the first time, the smaller ones do. *)
Definition in_order (l : list Z) : Prop :=
  forall l1 k l2, l = (l1 ++ k :: l2)%list -> forall j, (1 <= j < k)%Z -> In j l1.
(** Values equal to themselves: not NaN, nor anything with a NaN inside. *)
Definition reflexive (v : value) : Prop := go_eq v v = true.
(** More arguments behind those of a store. *)
Definition add_args (st : store) (l : list value) : store :=
  mkStore (st_dollar st) (st_args st ++ l)%list (st_dict st) (st_heap st).
