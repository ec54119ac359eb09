(** Vocabulary for selecting everything from a common table expression. *)
From Coq Require Import Strings.String ZArith List.
From Verif Require Import Spec_sql Spec_nest Spec_answer Spec_views Spec_exec.
Import ListNotations.
Open Scope string_scope.

(** Query [id] selects all columns of query [i], named [w] in its With and known
    as [a], and nothing else. *)
Definition selects_all (B : list xstmt) (id i : nat) (w a : string) : Prop :=
  a <> "" /\ NoDup (names_of B i) /\
  exists deps, nth_error B id = Some (mkX (mkStmt false (map (pair a) (names_of B i)) (w, a) [] [] [] [] 0 0) [mkWith w deps i true] [] []).
(** United queries have as many columns as the query they are united with. *)
Fixpoint matching (B : list xstmt) (d i : nat) : Prop :=
  match d, nth_error B i with
  | S d', Some y => forall j, In j (x_unions y) -> List.length (names_of B j) = List.length (names_of B i) /\ matching B d' j
  | _, _ => True
  end.
(** Any list is in order if no order is asked for. *)
Definition orderless (E : engine) : Prop := forall a b, d_before (e_data E) [] a b.
