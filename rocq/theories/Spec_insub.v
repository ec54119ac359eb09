(** Vocabulary for subqueries of which only the set of rows counts. *)
From Coq Require Import Strings.String List.
From Verif Require Import Spec_sql Spec_nest Spec_answer Spec_sqltok Spec_exec Spec_undistinct.

(** Tests of subqueries only ask which rows there are. *)
Definition setwise (E : engine) (sub_test : list token -> d_val (e_data E) -> list (list (d_val (e_data E))) -> bool) : Prop :=
  forall o v a a', (forall r, In r a <-> In r a') -> sub_test o v a = sub_test o v a'.
(** Only queries that have unions or are used as subqueries and united queries
    differ. *)
Definition redistinct_within (B B' : list xstmt) : Prop :=
  Forall2 redistinct B B' /\ forall x i, In x B -> In i (map w_id (emitted x)) -> kept B B' i.
