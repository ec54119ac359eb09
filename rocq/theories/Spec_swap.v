(** Vocabulary for exchanging builders. *)
From Coq Require Import Strings.String Strings.Ascii NArith ZArith List Bool.
From Verif Require Import GoStr GoNum Syntax Value Util Model Sqlf Sqlb Spec_syntax.
Import ListNotations.
Open Scope string_scope.

(** [a] and [a'] cannot be told apart by building them: in every context and
    every state one finishes with a result (text, error or panic, and the new
    state) exactly if the other does. *)
Definition same (a a' : builder) : Prop := forall e st r, fst r <> RFuel ->
  (exists n, build n e a st = r) <-> (exists n, build n e a' st = r).
(** Results that differ at most in the text of an error. *)
Definition like (r r' : outcome string * store) : Prop :=
  snd r = snd r' /\
  match fst r, fst r' with
  | RErr e, RErr e' => is_invalid_index e = is_invalid_index e'
  | x, y => x = y
  end.
(** [a] and [a'] can be told apart by the texts of errors at most. *)
Definition alike (a a' : builder) : Prop := forall e st r, fst r <> RFuel ->
  ((exists n, build n e a st = r) -> exists n r', build n e a' st = r' /\ like r r') /\
  ((exists n, build n e a' st = r) -> exists n r', build n e a st = r' /\ like r r').
(** The tables named in a builder, in order.  There is none for nil fragments. *)
Inductive names : builder -> list string -> Prop :=
| ns_nil : names BNil []
| ns_nilcol : names BNilCol []
| ns_frag raw args l p s ts : names_all l ts -> names (BFrag (Frag raw args l p s)) ts
| ns_col fo t : t <> "" -> names (BCol fo t) [t]
| ns_expr raw args l p s ts : names_all l ts -> names (BCol (Some (Frag raw args l p s)) "") ts
| ns_table t : names (BTable t) [t]
| ns_aliased n a : names (BTabAl n a) [applied (n, a)]
| ns_query id : names (BQuery id) []
| ns_custom p : names (BCustom p) []
with names_all : list builder -> list string -> Prop :=
| na_nil : names_all [] []
| na_cons b l ts us : names b ts -> names_all l us -> names_all (b :: l) (ts ++ us)%list.
Definition same_names (a a' : builder) : Prop := forall ts, names a ts <-> names a' ts.

Section Swap.
Variable P : builder -> builder -> Prop.
(** Builders, fragments and query builders that differ in pairs of [P] at any
    number of places. *)
Inductive swap : builder -> builder -> Prop :=
| sw_pair a a' : P a a' -> swap a a'
| sw_same b : swap b b
| sw_frag raw args l l' p s : Forall2 swap l l' -> swap (BFrag (Frag raw args l p s)) (BFrag (Frag raw args l' p s))
| sw_col raw args l l' p s t : Forall2 swap l l' -> swap (BCol (Some (Frag raw args l p s)) t) (BCol (Some (Frag raw args l' p s)) t).
Definition swap_frag (f f' : fragment) : Prop :=
  f_raw f = f_raw f' /\ f_args f = f_args f' /\ Forall2 swap (f_frags f) (f_frags f') /\ f_prefix f = f_prefix f' /\ f_suffix f = f_suffix f'.
Definition swap_cte (c c' : cte) : Prop := c_name c = c_name c' /\ c_deps c = c_deps c' /\ swap (c_builder c) (c_builder c').
Definition swap_opt (f f' : option fragment) : Prop :=
  match f, f' with None, None => True | Some f, Some f' => swap_frag f f' | _, _ => False end.
Definition swap_table (x x' : from_table) : Prop :=
  ft_names x = ft_names x' /\ ft_optional x = ft_optional x' /\ swap_opt (ft_frag x) (ft_frag x').
Record swap_query (q q' : qb) : Prop := mkSQ {
  sq_ctes : Forall2 swap_cte (q_ctes q) (q_ctes q');
  sq_cdict : Forall2 (fun x x' => fst x = fst x' /\ swap_cte (snd x) (snd x')) (q_cdict q) (q_cdict q');
  sq_tobjs : Forall2 swap_table (q_tobjs q) (q_tobjs q');
  sq_tables : q_tables q = q_tables q';
  sq_tdict : q_tdict q = q_tdict q';
  sq_selects : swap_frag (q_selects q) (q_selects q');
  sq_touches : swap_frag (q_touches q) (q_touches q');
  sq_conds : swap_frag (q_conds q) (q_conds q');
  sq_orders : Forall2 (fun x x' => swap (fst x) (fst x') /\ snd x = snd x') (q_orders q) (q_orders q');
  sq_groups : swap_frag (q_groups q) (q_groups q');
  sq_distinct : q_distinct q = q_distinct q';
  sq_limit : q_limit q = q_limit q';
  sq_offset : q_offset q = q_offset q';
  sq_unions : Forall2 swap (q_unions q) (q_unions q');
  sq_errors : q_errors q = q_errors q';
  sq_debug : q_debug q = q_debug q' }.
(** The calls of two programs that differ only so. *)
Inductive swap_op : qop -> qop -> Prop :=
| so_same o : swap_op o o
| so_select l l' : Forall2 swap l l' -> swap_op (OSelect l) (OSelect l')
| so_group l l' : Forall2 swap l l' -> swap_op (OGroupBy l) (OGroupBy l')
| so_union l l' : Forall2 swap l l' -> swap_op (OUnion l) (OUnion l')
| so_join kind t f f' opt : swap_frag f f' -> swap_op (OJoin kind t (Some f) opt) (OJoin kind t (Some f') opt)
| so_where f f' : swap_frag f f' -> swap_op (OWhere (Some f)) (OWhere (Some f'))
| so_where2 c c' op v : swap c c' -> swap_op (OWhere2 c op v) (OWhere2 c' op v)
| so_in c c' v : swap c c' -> swap_op (OWhereIn c v) (OWhereIn c' v)
| so_not_in c c' v : swap c c' -> swap_op (OWhereNotIn c v) (OWhereNotIn c' v)
| so_order c c' o : swap c c' -> swap_op (OOrderBy c o) (OOrderBy c' o)
| so_with n b b' deps : swap b b' -> swap_op (OWith n b deps) (OWith n b' deps).
End Swap.

(** Templates that differ only in how bind variables are written, in the
    positions of their parts and in how texts are cut. *)
Definition unstyle (x : aexpr) : aexpr := match x with ABind _ i => ABind 0 i | x => x end.
Definition same_template (raw raw' : string) : Prop :=
  exists l l', parsed raw = Some l /\ parsed raw' = Some l' /\ map unstyle l = map unstyle l'.
(** A user builder that builds [b] and hands on what it gets. *)
Definition wrapped (b : builder) : builder :=
  BCustom (PBuild [] b (fun r => match r with ROk s => PRet s None | RErr e => PRet "" (Some e) | RPanic e => PPanicU e | RFuel => PPanicU (EMsg "") end)).
(** Builders of a fixed text. *)
Inductive fixed : builder -> string -> Prop :=
| fx_nil : fixed BNilFrag ""
| fx_query : fixed (BQuery None) ""
| fx_column t : fixed (BCol None t) ""
| fx_table t : fixed (BTable t) t
| fx_aliased n a : fixed (BTabAl n a) (applied (n, a))
| fx_custom t : fixed (BCustom (PRet t None)) t
| fx_frag t : plain_text t = true -> fixed (BFrag (F t)) (trim_space t)
| fx_expr t u : plain_text t = true -> fixed (BCol (Some (F t)) u) (trim_space t).
