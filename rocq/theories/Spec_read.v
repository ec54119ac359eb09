(** A reader of SELECT statements: it recovers from the tokens of a text
    (Spec_sqltok.v) what is selected, from which tables, under which conditions
    and so on.  It is not a model of any code; it says what a text means to
    whoever reads it as SQL. *)
From Coq Require Import Strings.String Strings.Ascii NArith ZArith List Bool.
From Verif Require Import GoStr GoNum Syntax Value Util Model Sqlf Sqlb Spec_syntax RefSem Spec_build Spec_util Spec_eval Spec_query Spec_sql Spec_sqltok.
Import ListNotations.
Open Scope string_scope.

(** ** What a statement says *)
Inductive test := Compares (op : list token) | IsIn | IsNotIn.
(** Conditions are of type [C]. *)
Record reading (C : Type) := mkReading {
  r_distinct : bool;
  r_items : list (col * string);                     (* with the name after AS, or "" *)
  r_main : tname;
  r_joins : list (string * tname * col * col);       (* kind, table, the two columns of ON *)
  r_conds : list C;
  r_groups : list col;
  r_orders : list (col * list token);
  r_limit : option string; r_offset : option string }.
Arguments mkReading {C} r_distinct r_items r_main r_joins r_conds r_groups r_orders r_limit r_offset.
Arguments r_distinct {C} r. Arguments r_items {C} r. Arguments r_main {C} r. Arguments r_joins {C} r. Arguments r_conds {C} r.
Arguments r_groups {C} r. Arguments r_orders {C} r. Arguments r_limit {C} r. Arguments r_offset {C} r.
(** A condition of one query: column, test, operands. *)
Definition simple : Type := col * test * list (list token).

(** ** Reading *)
Definition kw (w : string) (t : token) : bool := match t with TWord x => String.eqb x w | _ => false end.
Definition op (c : ascii) (t : token) : bool := match t with TOp x => Ascii.eqb x c | _ => false end.
Definition any_of (ps : list (token -> bool)) (t : token) : bool := existsb (fun p => p t) ps.
(** The tokens before the first marked one, and the pieces that begin with the
    marked ones. *)
Fixpoint starting (p : token -> bool) (l : list token) : list token * list (list token) :=
  match l with
  | [] => ([], [])
  | t :: l' => let (a, r) := starting p l' in if p t then ([], (t :: a) :: r) else (t :: a, r)
  end.
(** Pieces between separators; between the words AND and the commas. *)
Definition pieces (p : token -> bool) (l : list token) : list (list token) :=
  let (a, r) := starting p l in a :: map (@tl token) r.
Fixpoint each {X A} (f : X -> option A) (l : list X) : option (list A) :=
  match l with
  | [] => Some []
  | x :: l' => match f x, each f l' with Some a, Some r => Some (a :: r) | _, _ => None end
  end.

Definition read_name (t : token) : option string :=
  match t with TWord w => Some w | TOp c => if Ascii.eqb c "*" then Some "*" else None | _ => None end.
(** A column, and what follows it. *)
Definition read_prefix (l : list token) : option (col * list token) :=
  match l with
  | TWord t :: TOp c :: n :: r =>
    if Ascii.eqb c "." then match read_name n with Some w => Some ((t, w), r) | None => None end
    else Some (("", t), TOp c :: n :: r)
  | n :: r => match read_name n with Some w => Some (("", w), r) | None => None end
  | [] => None
  end.
Definition read_col (l : list token) : option col :=
  match read_prefix l with Some (c, []) => Some c | _ => None end.
Definition read_item (l : list token) : option (col * string) :=
  match read_prefix l with
  | Some (c, []) => Some (c, "")
  | Some (c, [a; TWord w]) => if kw "AS" a then Some (c, w) else None
  | _ => None
  end.
Definition read_table (l : list token) : option tname :=
  match l with
  | [TWord n] => Some (n, "")
  | [TWord n; a; TWord w] => if kw "AS" a then Some (n, w) else None
  | _ => None
  end.
Definition read_join (l : list token) : option (string * tname * col * col) :=
  match l with
  | TWord k :: j :: r =>
    if kw "JOIN" j then
      match starting (kw "ON") r with
      | (t, [_ :: cond]) =>
        match starting (op "=") cond with
        | (a, [_ :: b]) =>
          match read_table t, read_col a, read_col b with
          | Some t, Some a, Some b => Some (k, t, a, b)
          | _, _, _ => None
          end
        | _ => None
        end
      | _ => None
      end
    else None
  | _ => None
  end.
Definition kinds : list (token -> bool) := [kw "INNER"; kw "LEFT"; kw "RIGHT"; kw "FULL"].
Definition read_from (l : list token) : option (tname * list (string * tname * col * col)) :=
  let (t, js) := starting (any_of kinds) l in
  match read_table t, each read_join js with Some t, Some js => Some (t, js) | _, _ => None end.
(** Operands: placeholders of either style, and the literals of util.Interpolate. *)
Definition is_operand (l : list token) : bool :=
  match l with
  | [TOp c] => Ascii.eqb c "?"
  | [TOp c; TNum _] => Ascii.eqb c "$" || Ascii.eqb c "-"
  | [TOp c; TWord w] => (Ascii.eqb c "-" || Ascii.eqb c "+") && String.eqb w "Inf"
  | [TWord w] => existsb (String.eqb w) ["NULL"; "TRUE"; "FALSE"; "NaN"]
  | [TNum _] | [TStr _] => true
  | _ => false
  end.
Definition read_operand (l : list token) : option (list token) := if is_operand l then Some l else None.
Definition read_operands (l : list token) : option (list (list token)) :=
  match starting (op ")") l with
  | ([], [[_]]) => Some []
  | (r, [[_]]) => each read_operand (pieces (op ",") r)
  | _ => None
  end.
(** Comparisons: operator characters, or one word. *)
Definition op_char (c : ascii) : bool := existsb (Ascii.eqb c) ["="; "<"; ">"; "!"; "~"; "|"; "&"; "^"; "%"; "@"; " "]%char.
Fixpoint read_op (l : list token) : list token * list token :=
  match l with
  | TOp c :: l' => if op_char c then let (o, v) := read_op l' in (TOp c :: o, v) else ([], l)
  | _ => ([], l)
  end.
Definition read_comparison (l : list token) : list token * list token :=
  match l with TWord w :: v => ([TWord w], v) | _ => read_op l end.
Definition read_cond (l : list token) : option simple :=
  match read_prefix l with
  | Some (c, a :: b :: r) =>
    if kw "IN" a && op "(" b then option_map (fun ms => (c, IsIn, ms)) (read_operands r)
    else if kw "NOT" a && kw "IN" b && match r with x :: _ => op "(" x | [] => false end
    then option_map (fun ms => (c, IsNotIn, ms)) (read_operands (tl r))
    else let (o, v) := read_comparison (a :: b :: r) in option_map (fun m => (c, Compares o, [m])) (read_operand v)
  | _ => None
  end.
Definition read_order (l : list token) : option (col * list token) := read_prefix l.
Definition read_number (l : list token) : option string := match l with [TNum d] => Some d | _ => None end.

Definition clauses : list (token -> bool) := [kw "FROM"; kw "WHERE"; kw "GROUP"; kw "ORDER"; kw "LIMIT"; kw "OFFSET"].
(** The clause that begins with the words, if it is the next one. *)
Fixpoint after_words (ws : list string) (l : list token) : option (list token) :=
  match ws, l with
  | [], _ => Some l
  | w :: ws', t :: l' => if kw w t then after_words ws' l' else None
  | _, [] => None
  end.
Definition clause {A} (ws : list string) (f : list token -> option A) (l : list (list token)) : option (option A * list (list token)) :=
  match l with
  | x :: l' =>
    match after_words ws x with
    | Some r => match f r with Some a => Some (Some a, l') | None => None end
    | None => Some (None, l)
    end
  | [] => Some (None, [])
  end.
Definition listed {A} (o : option (list A)) : list A := match o with Some l => l | None => [] end.
Definition read_select_by {C} (read_cond : list token -> option C) (l : list token) : option (reading C) :=
  let (s, cs) := starting (any_of clauses) l in
  match after_words ["SELECT"] s with
  | Some s =>
    let d := match after_words ["DISTINCT"] s with Some _ => true | None => false end in
    let s := match after_words ["DISTINCT"] s with Some r => r | None => s end in
    match each read_item (pieces (op ",") s), clause ["FROM"] read_from cs with
    | Some items, Some (Some (t, js), cs) =>
      match clause ["WHERE"] (fun l => each read_cond (pieces (kw "AND") l)) cs with
      | Some (wh, cs) =>
        match clause ["GROUP"; "BY"] (fun l => each read_col (pieces (op ",") l)) cs with
        | Some (gs, cs) =>
          match clause ["ORDER"; "BY"] (fun l => each read_order (pieces (op ",") l)) cs with
          | Some (os, cs) =>
            match clause ["LIMIT"] read_number cs with
            | Some (li, cs) =>
              match clause ["OFFSET"] read_number cs with
              | Some (off, []) => Some (mkReading d items t js (listed wh) (listed gs) (listed os) li off)
              | _ => None
              end
            | None => None
            end
          | None => None
          end
        | None => None
        end
      | None => None
      end
    | _, _ => None
    end
  | None => None
  end.
Definition read_select : list token -> option (reading simple) := read_select_by read_cond.

(** ** The statements that are read *)
(** Names are single words that are not used otherwise; a column may be a star. *)
Definition reserved : list string :=
  ["SELECT"; "DISTINCT"; "FROM"; "WHERE"; "GROUP"; "ORDER"; "LIMIT"; "OFFSET"; "BY"; "JOIN"; "INNER"; "LEFT"; "RIGHT"; "FULL"; "ON"; "AS"; "AND"; "IN"; "NOT"; "UNION"].
Definition name (s : string) : Prop := starts is_letter s = true /\ all in_word s = true /\ ~ In s reserved.
Definition col_named (c : col) : Prop := (fst c = "" \/ name (fst c)) /\ (snd c = "*" \/ name (snd c)).
Definition table_named (t : tname) : Prop := name (fst t) /\ (snd t = "" \/ name (snd t)).
(** Comparisons: operator characters, or one word between blanks. *)
Definition comparison (o : string) : Prop :=
  (all op_char o = true /\ all (fun c => Ascii.eqb c " ") o = false) \/ (exists w, o = " " ++ w ++ " " /\ name w).
Definition cond_named (x : cond) : Prop :=
  col_named (cond_col x) /\ match x with Compare _ o _ => comparison o | _ => True end.
Definition named (m : stmt) : Prop :=
  m_cols m <> [] /\ Forall col_named (m_cols m) /\ table_named (m_main m) /\
  Forall (fun j => table_named (j_table j) /\ col_named (j_left j) /\ col_named (j_right j)) (m_joins m) /\
  Forall cond_named (m_conds m) /\ Forall col_named (m_groups m) /\
  Forall (fun o => col_named (fst o) /\ (snd o <= 5)%N) (m_orders m).
(** Placeholders of either style. *)
Definition mark (s : string) : Prop := s = "?" \/ exists d, s = "$" ++ d /\ starts is_digit d = true /\ all is_digit d = true.
(** Placeholders, or literals of values that can be read back. *)
Definition operand (s : string) : Prop := mark s \/ exists ft v, literal ft v s /\ readable false ft v = true.

(** ** What a statement is read as *)
Definition kind_word (k : join_kind) : string :=
  match k with JInner => "INNER" | JLeft | JOptional _ => "LEFT" | JRight => "RIGHT" | JFull => "FULL" end.
Definition join_said (j : join) : string * tname * col * col := (kind_word (j_kind j), j_table j, j_left j, j_right j).
Definition cond_said (x : cond) (phs : list (list token)) : simple :=
  match x with
  | Compare c o _ => (c, Compares (tokens false o), phs)
  | Among c _ => (c, IsIn, phs)
  | NotAmong c _ => (c, IsNotIn, phs)
  end.
Fixpoint conds_said (cs : list cond) (phs : list (list token)) : list simple :=
  match cs with
  | [] => []
  | x :: cs' =>
    let k := List.length (cond_args x) in
    cond_said x (firstn k phs) :: conds_said cs' (skipn k phs)
  end.
Definition numbered (m : stmt) : list (nat * (col * N)) := combine (seq 1 (List.length (m_orders m))) (m_orders m).
Definition number_said (z : Z) : option string := if (0 <? z)%Z then Some (itoa z) else None.
Definition said_by {C} (m : stmt) (cs : list C) : reading C :=
  mkReading (m_distinct m)
    (map (fun c => (c, "")) (m_cols m) ++ (if m_distinct m then map (fun x => (fst (snd x), nth_alias (fst x))) (numbered m) else []))
    (m_main m) (map join_said (m_shown m)) cs (m_groups m)
    (map (fun x => (if m_distinct m then ("", nth_alias (fst x)) else fst (snd x), tokens false (nth (N.to_nat (snd (snd x))) order_words ""))) (numbered m))
    (number_said (m_limit m)) (number_said (m_offset m)).
(** [phs]: the tokens of the operands. *)
Definition said (m : stmt) (phs : list (list token)) : reading simple := said_by m (conds_said (m_conds m) phs).

(** ** Statements that say the same *)
(** Their arguments correspond by [R]. *)
Inductive same_cond (R : value -> value -> Prop) : cond -> cond -> Prop :=
| sc_compare c o o' v v' : tokens false o = tokens false o' -> R v v' -> same_cond R (Compare c o v) (Compare c o' v')
| sc_in c l l' : Forall2 R (flat l) (flat l') -> same_cond R (Among c l) (Among c l')
| sc_not_in c l l' : Forall2 R (flat l) (flat l') -> same_cond R (NotAmong c l) (NotAmong c l').
Definition same_stmt (R : value -> value -> Prop) (m m' : stmt) : Prop :=
  m_distinct m = m_distinct m' /\ m_cols m = m_cols m' /\ m_main m = m_main m' /\
  map join_said (m_shown m) = map join_said (m_shown m') /\ Forall2 (same_cond R) (m_conds m) (m_conds m') /\
  m_groups m = m_groups m' /\ m_orders m = m_orders m' /\
  Z.max 0 (m_limit m) = Z.max 0 (m_limit m') /\ Z.max 0 (m_offset m) = Z.max 0 (m_offset m').
(** Equal in Go to the same value. *)
Definition go_alike (v v' : value) : Prop := exists w, same_value v w /\ same_value v' w.
(** Shown by the same tokens. *)
Definition show_alike (ft : gotime -> string) (v v' : value) : Prop := exists ts, stands ft v ts /\ stands ft v' ts.
(** The tokens of a numbered placeholder that stands for [v]. *)
Definition dollar_operand (args : list value) (ts : list token) (v : value) : Prop :=
  exists k w, ts = [TOp "$"; TNum (dec (N.of_nat k))] /\ (1 <= k <= List.length args)%nat /\ nth_error args (k - 1) = Some w /\ same_value v w.
