(** Which statements are in the grammar of SQL: the reader of Spec_nread.v also
    takes ORDER BY, LIMIT and OFFSET before UNION, and empty lists of values.
    SQL has the former only at the end of all united queries and needs at least
    one value in a list. *)
From Coq Require Import Strings.String Strings.Ascii NArith ZArith List Bool.
From Verif Require Import GoStr GoNum Syntax Value Util Model Sqlf Sqlb Spec_syntax RefSem Spec_build Spec_util Spec_eval Spec_query Spec_sql Spec_nest
  Spec_sqltok Spec_read Spec_nread.
Import ListNotations.
Open Scope string_scope.

(** ** Texts *)
Definition each_of {A} (P : A -> Prop) (l : list A) : Prop := fold_right (fun a R => P a /\ R) True l.
Definition simple_fine (x : simple) : Prop := match x with (_, Compares _, _) => True | (_, _, ls) => ls <> [] end.
Fixpoint grammatical (q : nreading) : Prop :=
  match q with
  | NR ws h cs us =>
    (us = [] \/ r_orders h = [] /\ r_limit h = None /\ r_offset h = None) /\
    each_of (fun w => grammatical (snd w)) ws /\
    each_of (fun c => match c with NSimple x => simple_fine x | NSub _ _ q => grammatical q end) cs /\
    each_of grammatical us
  end.
Definition in_sql (text : string) : Prop := exists q, read_statement (tokens false text) = Some q /\ grammatical q.

(** ** Statements *)
Definition values_given (c : xcond) : Prop :=
  match c with Plain (Compare _ _ _) | Sub _ _ _ => True | Plain x => cond_args x <> [] end.
Definition unions_last (x : xstmt) : Prop :=
  x_unions x = [] \/ m_orders (x_stmt x) = [] /\ (m_limit (x_stmt x) <= 0)%Z /\ (m_offset (x_stmt x) <= 0)%Z.
(** No query of the statement unites others and has an order or bounds itself,
    and no list of values is empty. *)
Definition in_grammar (B : list xstmt) (d id : nat) : Prop :=
  forall j x, In j (members B d id) -> nth_error B j = Some x -> unions_last x /\ Forall values_given (x_conds x).
