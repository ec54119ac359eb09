(** What a text may stand for: a declarative account of the references. *)
From Coq Require Import Strings.String Strings.Ascii NArith ZArith List Bool.
From Verif Require Import GoStr GoNum Syntax Value Util Model Sqlf Sqlb Spec_syntax RefSem Spec_eval Spec_query.
Import ListNotations.
Open Scope string_scope.

Definition item {A} (l : list A) (i : Z) (x : A) : Prop :=
  (1 <= i)%Z /\ nth_error l (Z.to_nat (i - 1)) = Some x.

(** A join template at index [i]. *)
Definition at_index (i : Z) (x : expr) : expr :=
  match x with EFunc name p => ECall name [LInt i] p | _ => x end.

Definition first_index (idx : list lit) : Z :=
  match idx with [] => 1%Z | a :: _ => Z.max 1 (lit_int a) end.

(** A fragment body in its prefix and suffix. *)
Definition spaced (f : fragment) (t : text) : text :=
  if tempty (ttrim t) then tlit ""
  else tapp (tlit (if is_empty (f_prefix f) then "" else f_prefix f ++ " "))
         (tapp (ttrim t) (tlit (if is_empty (f_suffix f) then "" else " " ++ f_suffix f))).

(** The layout of a query, as [layout] of Spec_query.v but with placeholders. *)
Definition tany (t : text) : list text := if tempty t then [] else [t].
Definition tkeep (l : list text) : list text := filter (fun t => negb (tempty t)) l.
Definition twith (l : list (string * text)) : list text :=
  match filter (fun nt => negb (tempty (snd nt))) l with
  | [] => []
  | l' => [tapp (tlit "With ") (tjoin ", " (map (fun nt => tapp (tlit (fst nt ++ " AS (")) (tapp (snd nt) (tlit ")"))) l'))]
  end.
Definition tlayout (ctes : list (string * text)) (s hidden : text) (from : list text) (w g o : text)
  (limit offset : Z) (unions : option (list text)) : text :=
  let main := ttrim (tjoin " "
    (twith ctes ++
     [if tempty hidden then s else tapp s (tapp (tlit ", ") hidden)] ++
     [tapp (tlit "FROM ") (tjoin " " from)] ++
     tany w ++ tany g ++ tany o ++
     map tlit (number_clause "LIMIT " limit) ++ map tlit (number_clause "OFFSET " offset))) in
  match unions with
  | None => main
  | Some us => ttrim (tapp main (tapp (tlit " ") (tapp (tlit "UNION (") (tapp (tjoin ") UNION (" (tkeep us)) (tlit ")")))))
  end.

(** [k] copies of the hidden columns: each build of a query adds one. *)
Fixpoint copies {A} (k : nat) (l : list A) : list A :=
  match k with O => [] | S k' => (copies k' l ++ l)%list end.

(** [means e h log b t]: [t] is a possible expansion of [b] with the functions
    [e] and the query builders [h], where placeholder number [j] stands for the
    value [log[j]].  This is an account of references only: which argument or
    child a reference denotes, which part of a query a clause comes from, and
    that literal text is copied.  It leaves open how far a #join goes, which
    tables and common table expressions are kept, and how often a query has
    been built before. *)
Inductive means (e : env) (h : list qb) (log : list value) : builder -> text -> Prop :=
| M_nilfrag : means e h log BNilFrag (tlit "")
| M_frag : forall f es t, parse (f_raw f) = POk es ->
    means_clause e h log (f_args f) (f_frags f) es t -> means e h log (BFrag f) (spaced f t)
| M_col : forall f x es t, parse (f_raw f) = POk es ->
    means_clause e h log (f_args f) (f_frags f) es t -> means e h log (BCol (Some f) x) (spaced f t)
| M_nilcol : forall x, means e h log (BCol None x) (tlit "")
| M_table : forall s, means e h log (BTable s) (tlit s)
| M_aliased : forall s a, means e h log (BTabAl s a) (tlit (known_as (s, a)))
| M_nilquery : means e h log (BQuery None) (tlit "")
| M_query : forall id q k keep_cte keep_table ctes from w g o s hidden us,
    nth id h new_qb = q ->
    means_all e h log (map c_builder (filter keep_cte (q_ctes q))) ctes ->
    means_all e h log (map table_builder (filter keep_table (listed q))) from ->
    means e h log (BFrag (q_conds q)) w -> means e h log (BFrag (q_groups q)) g ->
    means e h log (BFrag (order_clause q)) o ->
    means e h log (BFrag (select_clause q)) s -> tempty s = false ->
    means e h log (BFrag (more_frags (q_touches q) (copies k (hidden_columns q)))) hidden ->
    means_all e h log (q_unions q) us ->
    means e h log (BQuery (Some id))
      (tlayout (combine (map c_name (filter keep_cte (q_ctes q))) ctes) s hidden from w g o (q_limit q) (q_offset q)
        (match q_unions q with [] => None | _ => Some us end))
with means_all (e : env) (h : list qb) (log : list value) : list builder -> list text -> Prop :=
| MA_nil : means_all e h log [] []
| MA_cons : forall b bs t ts, means e h log b t -> means_all e h log bs ts -> means_all e h log (b :: bs) (t :: ts)
with means_clause (e : env) (h : list qb) (log : list value) : list value -> list builder -> list expr -> text -> Prop :=
| MC_nil : forall a fs, means_clause e h log a fs [] (tlit "")
| MC_cons : forall a fs x es t u, means_expr e h log a fs x t -> means_clause e h log a fs es u ->
    means_clause e h log a fs (x :: es) (tapp t u)
with means_expr (e : env) (h : list qb) (log : list value) : list value -> list builder -> expr -> text -> Prop :=
| ME_plain : forall a fs s p, means_expr e h log a fs (EPlain s p) (tlit s)
| ME_bind : forall a fs k i p v j, item a i v -> nth_error log j = Some v ->
    means_expr e h log a fs (EBind k i p) (tph j)
| ME_arg : forall a fs name x p v j, lookup_fn e name = Some FnArg -> item a (lit_int x) v ->
    nth_error log j = Some v -> means_expr e h log a fs (ECall name [x] p) (tph j)
| ME_frag : forall a fs name x p b t, lookup_fn e name = Some FnFragment -> item fs (lit_int x) b ->
    means e h log b t -> means_expr e h log a fs (ECall name [x] p) t
| ME_join : forall a fs name tmpl sep idx p es ts, lookup_fn e name = Some FnJoin ->
    parse tmpl = POk es -> means_items e h log a fs es (first_index idx) ts ->
    means_expr e h log a fs (ECall name (LStr tmpl :: LStr sep :: idx) p) (tjoin sep (tkeep ts))
with means_items (e : env) (h : list qb) (log : list value) : list value -> list builder -> list expr -> Z -> list text -> Prop :=
| MI_nil : forall a fs es i, means_items e h log a fs es i []
| MI_cons : forall a fs es i t ts, means_clause e h log a fs (map (at_index i) es) t ->
    means_items e h log a fs es (i + 1)%Z ts -> means_items e h log a fs es i (t :: ts).
