(** What it means to execute a text with its arguments: the text is read as a
    SELECT statement (Spec_read.v), operands are valued, and the answers are those
    of Spec_answer.v.  Not a model of any code; it stands for the database the
    texts are sent to. *)
From Coq Require Import Strings.String Strings.Ascii NArith ZArith List Bool.
From Verif Require Import GoStr GoNum Syntax Value Util Model Sqlf Sqlb Spec_syntax RefSem Spec_build Spec_util Spec_eval Spec_query Spec_sql Spec_answer Spec_sqltok Spec_read.
Import ListNotations.
Open Scope string_scope.

(** A database, the values that arguments and literals have in it, and when a
    test with operands holds of a value (the [d_holds] of [e_data] plays no role). *)
Record engine := mkEngine {
  e_data : database;
  e_bound : value -> d_val e_data;
  e_literal : list token -> d_val e_data;
  e_test : Spec_read.test -> d_val e_data -> list (d_val e_data) -> bool }.

(** ** The statement that a reading means *)
Definition kind_of (w : string) : option join_kind :=
  if String.eqb w "INNER" then Some JInner else if String.eqb w "LEFT" then Some JLeft
  else if String.eqb w "RIGHT" then Some JRight else if String.eqb w "FULL" then Some JFull else None.
Definition join_of (j : string * tname * col * col) : option join :=
  let '(w, t, a, b) := j in option_map (fun k => mkJoin k t a b) (kind_of w).
(** A name after AS stands for its expression in ORDER BY. *)
Definition order_col (items : list (col * string)) (c : col) : col :=
  match find (fun i => is_empty (fst c) && negb (is_empty (snd i)) && String.eqb (snd i) (snd c)) items with Some i => fst i | None => c end.
Definition token_eq_dec : forall a b : token, {a = b} + {a <> b}.
Proof. decide equality; first [apply string_dec|apply ascii_dec]. Defined.
Definition col_eqb (a b : col) : bool := String.eqb (fst a) (fst b) && String.eqb (snd a) (snd b).
(** The direction of an ordering, by its words. *)
Definition order_code (ts : list token) : option N :=
  find (fun o => if list_eq_dec token_eq_dec (tokens false (nth (N.to_nat o) order_words "")) ts then true else false) [0; 1; 2; 3; 4; 5]%N.
Definition order_of (items : list (col * string)) (o : col * list token) : option (col * N) :=
  option_map (fun n => (order_col items (fst o), n)) (order_code (snd o)).
Definition count_of (s : option string) : option Z :=
  match s with None => Some 0%Z | Some s => option_map Z.of_N (digits_val 0 s) end.
(** With DISTINCT, only what is selected can be ordered by. *)
Definition meaning {C} (r : reading C) : option stmt :=
  match each join_of (r_joins r), each (order_of (r_items r)) (r_orders r), count_of (r_limit r), count_of (r_offset r) with
  | Some js, Some os, Some li, Some off =>
    if r_distinct r && negb (forallb (fun o => existsb (col_eqb (fst o)) (map fst (r_items r))) os) then None
    else Some (mkStmt (r_distinct r) (map fst (r_items r)) (r_main r) js [] (r_groups r) os li off)
  | _, _, _, _ => None
  end.

Section Execution.
Variable E : engine.
Let val := d_val (e_data E).
Variable args : list value.
(** ** Operands *)
(** The [k]-th question mark stands for argument [k] (from zero), [$n] for
    argument [n] (from one); anything else is a literal. *)
Definition is_question (l : list token) : bool := match l with [TOp c] => Ascii.eqb c "?" | _ => false end.
Definition argument (d : string) : option value :=
  match digits_val 0 d with Some n => if (0 <? n)%N then nth_error args (N.to_nat n - 1) else None | None => None end.
Definition operand_value (k : nat) (l : list token) : option val :=
  match l with
  | [TOp "?"] => option_map (e_bound E) (nth_error args k)
  | [TOp "$"; TNum d] => option_map (e_bound E) (argument d)
  | _ => Some (e_literal E l)
  end.
Fixpoint operand_values (k : nat) (ls : list (list token)) : option (list val) :=
  match ls with
  | [] => Some []
  | l :: ls' =>
    match operand_value k l, operand_values (if is_question l then S k else k) ls' with
    | Some v, Some vs => Some (v :: vs)
    | _, _ => None
    end
  end.
Definition questions (ls : list (list token)) : nat := List.length (filter is_question ls).
Fixpoint tests_read (k : nat) (cs : list simple) : option (list (Spec_answer.test (e_data E))) :=
  match cs with
  | [] => Some []
  | (c, t, ls) :: cs' =>
    match operand_values k ls, tests_read (k + questions ls) cs' with
    | Some vs, Some ts => Some ((c, fun v => e_test E t v vs) :: ts)
    | _, _ => None
    end
  end.
(** ** Execution: the rows of values of what is selected. *)
Definition executes (text : string) (rows : list (list val)) : Prop :=
  exists r m ts l, read_select (tokens false text) = Some r /\ meaning r = Some m /\ tests_read 0 (r_conds r) = Some ts /\
    answers_where (e_data E) m ts l /\ rows = map fst l.
End Execution.

(** ** The answers of a statement, for an engine *)
Definition test_said (x : cond) : Spec_read.test :=
  match x with Compare _ o _ => Compares (tokens false o) | Among _ _ => IsIn | NotAmong _ _ => IsNotIn end.
Definition database_of (E : engine) : database :=
  let D := e_data E in
  mkDB (d_val D) (d_null D) (d_same D) (d_rows D) (d_equal D) (fun x v => e_test E (test_said x) v (map (e_bound E) (cond_args x))) (d_expr D) (d_before D) (d_same_ok D).
(** The rows: what is selected, and with DISTINCT the values ordered by. *)
Definition wide_row (m : stmt) {V : Type} (r : list V * list V) : list V := (fst r ++ (if m_distinct m then snd r else []))%list.
Definition listed_answers (E : engine) (m : stmt) (rows : list (list (d_val (e_data E)))) : Prop :=
  exists l, answers (database_of E) m l /\ rows = map (wide_row m) l.

(** Arguments that are equal in Go are the same value. *)
Definition by_value (E : engine) : Prop := forall v w, same_value v w -> e_bound E v = e_bound E w.
(** The literals of the values have the values as arguments have. *)
Definition reads_literals (E : engine) (ft : gotime -> string) (args : list value) : Prop :=
  forall v ts, In v args -> stands ft v ts -> e_literal E ts = e_bound E v.
