(** Executing the text of a statement of several queries: the reading
    (Spec_nread.v) is evaluated query by query.  Common table expressions become
    tables for what follows, subqueries give the rows a column is compared with,
    united queries give their rows together.  It is part of the specification,
    not a model of any code. *)
From Coq Require Import Strings.String Strings.Ascii NArith ZArith List Bool.
From Verif Require Import GoStr GoNum Syntax Value Util Model Sqlf Sqlb Spec_syntax RefSem Spec_build Spec_util Spec_eval Spec_query Spec_sql Spec_nest
  Spec_answer Spec_views Spec_sqltok Spec_read Spec_nread Spec_exec.
Import ListNotations.
Open Scope string_scope.

(** The names of the columns of the rows: the name after AS, or that of the
    column. *)
Definition columns (q : nreading) : list string :=
  match q with NR _ h _ _ => map (fun i => if is_empty (snd i) then snd (fst i) else snd i) (r_items h) end.

Section Execution.
Variable E : engine.
Let val := d_val (e_data E).
Let tables : Type := string -> list (row_of val).
Let listing : Type := list (list val).
(** Whether a value compared with the rows of a subquery passes, by the tokens of
    the operator. *)
Variable sub_test : list token -> val -> listing -> bool.
Variable args : list value.

Section Parts.
(** [run q T k k' rows]: the query has these rows if the tables are [T]; [k]
    question marks come before it and [k'] up to its end. *)
Variable run : nreading -> tables -> nat -> nat -> listing -> Prop.
Fixpoint run_withs (ws : list (string * nreading)) (T : tables) (k : nat) (T' : tables) (k' : nat) : Prop :=
  match ws with
  | [] => T' = T /\ k' = k
  | (n, q) :: ws' => exists a j, run q T k j a /\ run_withs ws' (bind_table (e_data E) n (map (Spec_views.named (e_data E) (columns q)) a) T) j T' k'
  end.
Fixpoint run_conds (cs : list ncond) (T : tables) (k : nat) (ts : list (Spec_answer.test (e_data E))) (k' : nat) : Prop :=
  match cs with
  | [] => ts = [] /\ k' = k
  | NSimple (c, t, ls) :: cs' =>
    exists vs ts', operand_values E args k ls = Some vs /\ run_conds cs' T (k + questions ls) ts' k' /\ ts = (c, fun v => e_test E t v vs) :: ts'
  | NSub c o q :: cs' =>
    exists a j ts', run q T k j a /\ run_conds cs' T j ts' k' /\ ts = (c, fun v => sub_test o v a) :: ts'
  end.
Fixpoint run_unions (us : list nreading) (T : tables) (k : nat) (ls : list listing) (k' : nat) : Prop :=
  match us with
  | [] => ls = [] /\ k' = k
  | q :: us' => exists a j ls', run q T k j a /\ run_unions us' T j ls' k' /\ ls = a :: ls'
  end.
End Parts.

Fixpoint run (q : nreading) (T : tables) (k k' : nat) (rows : listing) : Prop :=
  match q with
  | NR ws h cs us =>
    exists m T' k1 ts k2 l ls,
      meaning h = Some m /\
      run_withs run ws T k T' k1 /\
      run_conds run cs T' k1 ts k2 /\
      answers_where (with_rows (e_data E) T') m ts l /\
      run_unions run us T' k2 ls k' /\
      together (e_data E) (map fst l) ls rows
  end.
Definition executes_all (text : string) (rows : listing) : Prop :=
  exists q k, read_statement (tokens false text) = Some q /\ run q (d_rows (e_data E)) 0 k rows.
End Execution.

(** The answers of query [id], for an engine. *)
Definition book_answers (E : engine) (sub_test : list token -> d_val (e_data E) -> list (list (d_val (e_data E))) -> bool) (B : list xstmt) (d id : nat)
  (rows : list (list (d_val (e_data E)))) : Prop :=
  answer (database_of E) (fun o => sub_test (tokens false o)) B d (d_rows (e_data E)) id rows.
