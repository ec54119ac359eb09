(** The database behind util.Scan and util.Count: it executes what it is asked
    (Spec_exec.v, Spec_nexec.v).  Not a model of any code. *)
From Coq Require Import Strings.String Strings.Ascii NArith ZArith List Bool.
From Verif Require Import GoStr GoNum Syntax Value Util Model Sqlf Sqlb Scan Spec_syntax RefSem Spec_build Spec_util Spec_eval Spec_query Spec_sql Spec_nest
  Spec_answer Spec_views Spec_sqltok Spec_read Spec_nread Spec_exec Spec_nexec.
Import ListNotations.
Open Scope string_scope.

(** ** Scan *)
Definition item_name (i : col * string) : string := if is_empty (snd i) then snd (fst i) else snd i.
(** What is returned for a query are the rows of executing it, with the names of
    their columns; [show] is the value that Go gets.  The connection does not
    break while rows are read (see C53). *)
Definition serves (E : engine) (show : d_val (e_data E) -> value) (db : string -> list value -> Scan.rows + err) : Prop :=
  forall text args rw, db text args = inl rw -> exists r rows,
    read_select (tokens false text) = Some r /\ executes E args text rows /\
    rw_cols rw = inl (map item_name (r_items r)) /\ rw_rows rw = map (map show) rows.
(** Everything ordered by is selected. *)
Definition orders_selected (m : stmt) : Prop := incl (map fst (m_orders m)) (m_cols m).

(** ** Count *)
(** SELECT COUNT(1) FROM (statement) name: the number of its rows. *)
Definition count_head : list token := [TWord "SELECT"; TWord "COUNT"; TOp "("; TNum "1"; TOp ")"; TWord "FROM"; TOp "("].
Definition counts (E : engine) (sub_test : list token -> d_val (e_data E) -> list (list (d_val (e_data E))) -> bool) (args : list value) (text : string) (n : Z) : Prop :=
  exists inner a q k rows, tokens false text = (count_head ++ inner ++ [TOp ")"; TWord a])%list /\
    read_statement inner = Some q /\ run E sub_test args q (d_rows (e_data E)) 0 k rows /\ n = Z.of_nat (List.length rows).
Definition serves_counts (E : engine) (sub_test : list token -> d_val (e_data E) -> list (list (d_val (e_data E))) -> bool) (db : string -> list value -> qrow) : Prop :=
  forall text args, match db text args with QCount n => counts E sub_test args text n | QNoRows => False | QErr _ => True end.
