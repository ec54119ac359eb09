(** When a defect can go unnoticed. *)
From Coq Require Import Strings.String Strings.Ascii NArith ZArith List Bool.
From Verif Require Import GoStr GoNum Syntax Value Util Model Sqlf Sqlb Spec_syntax Spec_base Spec_eval Spec_query Spec_blame Spec_sound.
Import ListNotations.
Open Scope string_scope.

(** No functions of the user are in scope. *)
Definition library (e : env) : Prop := forall nm f, lookup_fn e nm = Some f -> f = FnArg \/ f = FnFragment \/ f = FnJoin.
(** The numbers of a #join say where it ends. *)
Definition closing (nums : list lit) : Prop := exists x y, nums = [x; y] /\ (0 < lit_int y)%Z.
(** The lists that the parts of a join template run through all have [len]
    items; there are items unless there is only text besides. *)
Definition level (e : env) (na nf : nat) (l : list aexpr) (len : nat) : Prop :=
  (forall nm f c, In (AFunc nm) l -> lookup_fn e nm = Some f -> supply na nf f = Some c -> c = len) /\
  (1 <= len \/ forall x, In x l -> called_with x -> exists t, x = APlain t).
(** [ranged e na nf x]: the indexes and ranges that [x] gives to #arg, #fragment
    and #join exist; a #join that does not say where it ends runs through lists
    of the same length. *)
Inductive ranged (e : env) (na nf : nat) : aexpr -> Prop :=
| rg_plain t : ranged e na nf (APlain t)
| rg_bind st i : ranged e na nf (ABind st i)
| rg_value nm : ranged e na nf (AFunc nm)
| rg_unknown nm a : lookup_fn e nm = None -> ranged e na nf (ACall nm a)
| rg_arg nm a : lookup_fn e nm = Some FnArg -> (forall x, a = [x] -> inside (lit_int x) na) -> ranged e na nf (ACall nm a)
| rg_frag nm a : lookup_fn e nm = Some FnFragment -> (forall x, a = [x] -> inside (lit_int x) nf) -> ranged e na nf (ACall nm a)
| rg_join nm a : lookup_fn e nm = Some FnJoin ->
    (forall tmpl sep nums l len, a = LStr tmpl :: LStr sep :: nums -> parsed tmpl = Some l -> shortest e na nf l len ->
      (List.length nums <= 2 -> exists from to, available nums len from to) /\ (closing nums \/ level e na nf l len)) ->
    (forall tmpl sep nums l x, a = LStr tmpl :: LStr sep :: nums -> parsed tmpl = Some l -> In x l -> ranged e na nf x) ->
    ranged e na nf (ACall nm a).
(** [settled e b]: [b] is made of builders of the library other than query
    builders, and so are its parts; all templates are as above. *)
Inductive settled (e : env) : builder -> Prop :=
| se_nil : settled e BNil
| se_nilfrag : settled e BNilFrag
| se_frag raw args frags p s : (forall b, In b frags -> settled e b) ->
    (forall l x, parsed raw = Some l -> In x l -> ranged e (List.length args) (List.length frags) x) ->
    settled e (BFrag (Frag raw args frags p s))
| se_nilcol : settled e BNilCol
| se_nocolumn t : settled e (BCol None t)
| se_column f t : settled e (BFrag f) -> settled e (BCol (Some f) t)
| se_table t : settled e (BTable t)
| se_aliased n a : settled e (BTabAl n a)
| se_noquery : settled e (BQuery None).
(** [v] is among the arguments of [b] or of its parts. *)
Inductive carries (v : value) : builder -> Prop :=
| ca_here raw args frags p s : In v args -> carries v (BFrag (Frag raw args frags p s))
| ca_part raw args frags p s b : In b frags -> carries v b -> carries v (BFrag (Frag raw args frags p s))
| ca_column f t : carries v (BFrag f) -> carries v (BCol (Some f) t).
