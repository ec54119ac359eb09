(** Tidy builders: a condition on the templates under which every text built
    from them can be interpolated. *)
From Coq Require Import Strings.String Strings.Ascii NArith ZArith List Bool.
From Verif Require Import GoStr GoNum Syntax Value Util Model Sqlf Sqlb Spec_syntax RefSem Spec_eval Spec_util Spec_query Spec_mean Spec_interp.
Import ListNotations.
Open Scope string_scope.

(** Text that can follow a reference: not empty, and not beginning with a digit
    or a question mark. *)
Definition firm (s : string) : Prop := s <> "" /\ starts (fun a => Ascii.eqb a "?" || is_digit a) s = false.
(** Every reference ends the template or is followed by firm text. *)
Definition follows (es : list expr) : Prop :=
  match es with [] => True | EPlain s _ :: es' => firm s \/ (s = "" /\ es' = []) | _ => False end.
Fixpoint spread (es : list expr) : Prop :=
  match es with
  | [] => True
  | EPlain _ _ :: es' => spread es'
  | _ :: es' => follows es' /\ spread es'
  end.
(** Plain text is inert, the separator of a join is firm, and its template is
    tidy too. *)
Inductive tidy_expr : expr -> Prop :=
| te_plain s p : passive s -> tidy_expr (EPlain s p)
| te_bind k i p : tidy_expr (EBind k i p)
| te_call name args p :
    (forall tmpl sep idx, args = LStr tmpl :: LStr sep :: idx -> passive sep /\ firm sep) ->
    (forall tmpl sep idx es, args = LStr tmpl :: LStr sep :: idx -> parse tmpl = POk es -> spread es) ->
    (forall tmpl sep idx es, args = LStr tmpl :: LStr sep :: idx -> parse tmpl = POk es -> Forall tidy_expr es) ->
    tidy_expr (ECall name args p)
| te_func name p : tidy_expr (EFunc name p).
Inductive tidy : builder -> Prop :=
| td_nilfrag : tidy BNilFrag
| td_frag f : (forall es, parse (f_raw f) = POk es -> Forall tidy_expr es /\ spread es) -> passive (f_prefix f) -> passive (f_suffix f) ->
    Forall tidy (f_frags f) -> tidy (BFrag f)
| td_col f x : (forall es, parse (f_raw f) = POk es -> Forall tidy_expr es /\ spread es) -> passive (f_prefix f) -> passive (f_suffix f) ->
    Forall tidy (f_frags f) -> tidy (BCol (Some f) x)
| td_nilcol x : tidy (BCol None x)
| td_table s : passive s -> tidy (BTable s)
| td_aliased s a : passive (known_as (s, a)) -> tidy (BTabAl s a)
| td_query id : tidy (BQuery id).
(** All parts of a query builder. *)
Definition tidy_qb (q : qb) : Prop :=
  Forall (fun c => passive (c_name c) /\ tidy (c_builder c)) (q_ctes q) /\
  Forall (fun ft => tidy (table_builder ft)) (listed q) /\
  tidy (BFrag (q_conds q)) /\ tidy (BFrag (q_groups q)) /\ tidy (BFrag (order_clause q)) /\ tidy (BFrag (select_clause q)) /\
  tidy (BFrag (more_frags (q_touches q) (hidden_columns q))) /\ Forall tidy (q_unions q).
