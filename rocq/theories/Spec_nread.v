(** A reader of statements made of several queries (Spec_nest.v): common table
    expressions, subqueries in conditions, unions.  It pairs up parentheses,
    reads the outline with the reader of single queries (Spec_read.v), and reads
    what stands in parentheses in turn. *)
From Coq Require Import Strings.String Strings.Ascii NArith ZArith List Bool.
From Verif Require Import GoStr GoNum Syntax Value Util Model Sqlf Sqlb Spec_syntax RefSem Spec_build Spec_util Spec_eval Spec_query Spec_sql Spec_nest
  Spec_sqltok Spec_read.
Import ListNotations.
Open Scope string_scope.

(** ** What a statement says *)
Inductive nreading :=
| NR (withs : list (string * nreading)) (head : reading unit) (conds : list ncond) (unions : list nreading)
with ncond :=
| NSimple (x : simple)
| NSub (c : col) (o : list token) (q : nreading).

(** ** Parentheses *)
Inductive tree := Leaf (t : token) | Group (l : list tree).
(** [cur]: what has been read at this level, [up]: at the levels above it, the
    last first. *)
Fixpoint pair_up (l : list token) (cur : list tree) (up : list (list tree)) : option (list tree) :=
  match l with
  | [] => match up with [] => Some (rev cur) | _ :: _ => None end
  | t :: l' =>
    if op "(" t then pair_up l' [] (cur :: up)
    else if op ")" t then match up with p :: up' => pair_up l' (Group (rev cur) :: p) up' | [] => None end
    else pair_up l' (Leaf t :: cur) up
  end.
(** The tokens of a level, where an opening parenthesis stands for a group. *)
Definition outline (l : list tree) : list token := map (fun x => match x with Leaf t => t | Group _ => TOp "(" end) l.
Definition groups (l : list tree) : list (list tree) := flat_map (fun x => match x with Leaf _ => [] | Group g => [g] end) l.

(** ** Reading *)
(** A condition of the outline: an operand, or a group. *)
Inductive ocond := OValue (c : col) (o v : list token) | OGroup (c : col) (o : list token).
Definition read_ocond (l : list token) : option ocond :=
  match read_prefix l with
  | Some (c, r) =>
    match starting (op "(") r with
    | (o, [[_]]) => Some (OGroup c o)
    | (_, []) => let (o, v) := read_comparison r in option_map (OValue c o) (read_operand v)
    | _ => None
    end
  | None => None
  end.
Definition read_with (l : list token) : option string :=
  match l with [TWord n; a; g] => if kw "AS" a && op "(" g then Some n else None | _ => None end.
Definition read_withs (l : list token) : option (list string) :=
  match l with
  | [] => Some []
  | t :: r => if kw "With" t then each read_with (pieces (op ",") r) else None
  end.
Definition read_union (l : list token) : option unit :=
  match l with [_; g] => if op "(" g then Some tt else None | _ => None end.
(** The names of the common table expressions, the query itself, and one entry
    for every united query. *)
Definition read_outline (l : list token) : option (list string * reading ocond * list unit) :=
  let (main, us) := starting (kw "UNION") l in
  match starting (kw "SELECT") main with
  | (ws, [s]) =>
    match read_withs ws, read_select_by read_ocond s, each read_union us with
    | Some ns, Some r, Some us => Some (ns, r, us)
    | _, _, _ => None
    end
  | _ => None
  end.
(** What stands in parentheses: a query, or values. *)
Definition content : Type := nreading + list (list token).
Definition is_query (l : list tree) : bool := match l with Leaf t :: _ => kw "SELECT" t || kw "With" t | _ => false end.
Definition read_values (l : list token) : option (list (list token)) :=
  match l with [] => Some [] | _ => each read_operand (pieces (op ",") l) end.
(** The groups belong, in order, to the common table expressions, the
    conditions, the united queries. *)
Fixpoint take_queries {A} (l : list A) (gs : list content) : option (list (A * nreading) * list content) :=
  match l, gs with
  | [], _ => Some ([], gs)
  | a :: l', inl q :: gs' => match take_queries l' gs' with Some (r, gs') => Some ((a, q) :: r, gs') | None => None end
  | _ :: _, _ => None
  end.
Definition member_test (o : list token) : option test :=
  match o with
  | [a] => if kw "IN" a then Some IsIn else None
  | [a; b] => if kw "NOT" a && kw "IN" b then Some IsNotIn else None
  | _ => None
  end.
Fixpoint take_conds (l : list ocond) (gs : list content) : option (list ncond * list content) :=
  match l with
  | [] => Some ([], gs)
  | x :: l' =>
    match (match x, gs with
           | OValue c o v, _ => Some (NSimple (c, Compares o, [v]), gs)
           | OGroup c o, inl q :: gs' => Some (NSub c o q, gs')
           | OGroup c o, inr vs :: gs' => option_map (fun t => (NSimple (c, t, vs), gs')) (member_test o)
           | OGroup _ _, [] => None
           end) with
    | Some (y, gs) => match take_conds l' gs with Some (r, gs) => Some (y :: r, gs) | None => None end
    | None => None
    end
  end.
Definition no_conds {C} (r : reading C) : reading unit :=
  mkReading (r_distinct r) (r_items r) (r_main r) (r_joins r) [] (r_groups r) (r_orders r) (r_limit r) (r_offset r).
Definition assemble (ns : list string) (r : reading ocond) (us : list unit) (gs : list content) : option nreading :=
  match take_queries ns gs with
  | Some (ws, gs) =>
    match take_conds (r_conds r) gs with
    | Some (cs, gs) =>
      match take_queries us gs with
      | Some (us, []) => Some (NR ws (no_conds r) cs (map snd us))
      | _ => None
      end
    | None => None
    end
  | None => None
  end.
Definition read_content (read : list tree -> option nreading) (g : list tree) : option content :=
  if is_query g then option_map inl (read g) else option_map inr (read_values (outline g)).
(** [n] bounds the depth of the parentheses. *)
Fixpoint read_level (n : nat) (l : list tree) : option nreading :=
  match n with
  | O => None
  | S n' =>
    match read_outline (outline l), each (read_content (read_level n')) (groups l) with
    | Some (ns, r, us), Some gs => assemble ns r us gs
    | _, _ => None
    end
  end.
Definition read_statement (l : list token) : option nreading :=
  match pair_up l [] [] with Some ts => read_level (List.length l) ts | None => None end.

(** ** The statements that are read *)
(** Comparisons, memberships, and comparisons with a word such as ANY. *)
Definition sub_operator (o : string) : Prop :=
  comparison o \/ o = " IN " \/ o = " NOT IN " \/
  exists p w, o = p ++ w ++ " " /\ all op_char p = true /\ all (fun c => Ascii.eqb c " ") p = false /\ name w.
Definition xcond_named (x : xcond) : Prop :=
  match x with Plain x => cond_named x | Sub c o _ => col_named c /\ sub_operator o end.
Definition xnamed (x : xstmt) : Prop :=
  named (x_stmt x) /\ m_conds (x_stmt x) = [] /\ Forall (fun w => name (w_name w)) (x_withs x) /\ Forall xcond_named (x_conds x).

(** No quote, dollar sign or question mark in the names of common table
    expressions; util.Interpolate reads those. *)
Definition plain_names (x : xstmt) : Prop := Forall (fun w => plain_text (w_name w) = true) (x_withs x).

(** ** What a statement is read as *)
Fixpoint share_said {A C} (args : A -> list value) (f : A -> list (list token) -> C) (l : list A) (phs : list (list token)) : list C :=
  match l with
  | [] => []
  | a :: l' => let k := List.length (args a) in f a (firstn k phs) :: share_said args f l' (skipn k phs)
  end.
Definition xcond_said (sub : nat -> list (list token) -> nreading) (x : xcond) (phs : list (list token)) : ncond :=
  match x with Plain x => NSimple (cond_said x phs) | Sub c o id => NSub c (tokens false o) (sub id phs) end.
(** [phs]: the tokens of the operands, in the order of the text. *)
Fixpoint statement_said (B : list xstmt) (d : nat) (id : nat) (phs : list (list token)) : nreading :=
  match d, nth_error B id with
  | S d', Some x =>
    let nw := List.length (flat_map (fun w => args_of B d' (w_id w)) (emitted x)) in
    let nc := List.length (flat_map (xcond_args (args_of B d')) (x_conds x)) in
    NR (share_said (fun w => args_of B d' (w_id w)) (fun w phs => (w_name w, statement_said B d' (w_id w) phs)) (emitted x) (firstn nw phs))
       (said_by (x_stmt x) [])
       (share_said (xcond_args (args_of B d')) (xcond_said (statement_said B d')) (x_conds x) (firstn nc (skipn nw phs)))
       (share_said (args_of B d') (statement_said B d') (x_unions x) (skipn nc (skipn nw phs)))
  | _, _ => NR [] (mkReading false [] ("", "") [] [] [] [] None None) [] []
  end.

(** ** Statements that say the same *)
(** Query [id] of [B] and query [id'] of [B'] have the same common table
    expressions, conditions and so on; the arguments correspond by [R]. *)
Inductive same_query (R : value -> value -> Prop) (B B' : list xstmt) : nat -> nat -> Prop :=
| sq id id' x x' : nth_error B id = Some x -> nth_error B' id' = Some x' ->
    Forall2 (fun w w' => w_name w = w_name w' /\ same_query R B B' (w_id w) (w_id w')) (emitted x) (emitted x') ->
    same_stmt R (x_stmt x) (x_stmt x') ->
    Forall2 (same_xcond R B B') (x_conds x) (x_conds x') ->
    Forall2 (same_query R B B') (x_unions x) (x_unions x') ->
    same_query R B B' id id'
with same_xcond (R : value -> value -> Prop) (B B' : list xstmt) : xcond -> xcond -> Prop :=
| sx_plain x x' : same_cond R x x' -> same_xcond R B B' (Plain x) (Plain x')
| sx_sub c o o' id id' : tokens false o = tokens false o' -> same_query R B B' id id' -> same_xcond R B B' (Sub c o id) (Sub c o' id').
