(** Specification vocabulary for termination. *)
From Coq Require Import Strings.String Strings.Ascii NArith ZArith List Bool.
From Verif Require Import GoStr GoNum Syntax Value Util Model Sqlf Sqlb Spec_query.
Import ListNotations.
Open Scope string_scope.

(** User code that does not build anything. *)
Inductive leaf : prog -> Prop :=
| lf_ret s e : leaf (PRet s e)
| lf_panic e : leaf (PPanicU e)
| lf_commit v k : (forall s, leaf (k s)) -> leaf (PCommit v k)
| lf_args k : (forall l, leaf (k l)) -> leaf (PArgs k)
| lf_try p k : leaf p -> (forall r, leaf (k r)) -> leaf (PTry p k)
| lf_fresh z p k : leaf p -> (forall r, leaf (k r)) -> leaf (PFresh z p k).
(** User code that returns no string. *)
Inductive fails : prog -> Prop :=
| fl_err s e : fails (PRet s (Some e))
| fl_panic e : fails (PPanicU e)
| fl_commit v k : (forall s, fails (k s)) -> fails (PCommit v k)
| fl_args k : (forall l, fails (k l)) -> fails (PArgs k)
| fl_try p k : (forall r, fails (k r)) -> fails (PTry p k)
| fl_fresh z p k : (forall r, fails (k r)) -> fails (PFresh z p k).

(** A function that a #join may call with an index. *)
Definition takes_index (s : fsig) : bool :=
  match fs_ins s with [GNum] | [GCtx; GNum] => true | _ => false end.
(** A function that does not build and, if it takes an index, fails from some
    index on. *)
Definition bounded (f : func) : Prop :=
  match f with
  | FnCustom s body => (forall args, leaf (body args)) /\
      (takes_index s = true -> exists last, forall i, (last < i)%Z -> fails (body [LInt i]))
  | _ => True
  end.
Definition bounded_env (e : env) : Prop := forall layer nm f, In layer e -> In (nm, f) layer -> bounded f.

Section Rank.
(** The rank of a query builder. *)
Variable rank : nat -> nat.
(** Only query builders of rank below [k] and only bounded functions in it. *)
Inductive below (k : nat) : builder -> Prop :=
| bl_nil : below k BNil
| bl_nilfrag : below k BNilFrag
| bl_frag raw args frags p s : (forall b, In b frags -> below k b) -> below k (BFrag (Frag raw args frags p s))
| bl_nilcol : below k BNilCol
| bl_emptycol t : below k (BCol None t)
| bl_col raw args frags p s t : (forall b, In b frags -> below k b) -> below k (BCol (Some (Frag raw args frags p s)) t)
| bl_table t : below k (BTable t)
| bl_aliased n a : below k (BTabAl n a)
| bl_nilquery : below k (BQuery None)
| bl_query id : rank id < k -> below k (BQuery (Some id))
| bl_custom p : below_prog k p -> below k (BCustom p)
with below_prog (k : nat) : prog -> Prop :=
| bp_ret s e : below_prog k (PRet s e)
| bp_panic e : below_prog k (PPanicU e)
| bp_commit v c : (forall s, below_prog k (c s)) -> below_prog k (PCommit v c)
| bp_args c : (forall l, below_prog k (c l)) -> below_prog k (PArgs c)
| bp_build fs b c : (forall nm f, In (nm, f) fs -> bounded f) -> below k b -> (forall r, below_prog k (c r)) ->
    below_prog k (PBuild fs b c)
| bp_try p c : below_prog k p -> (forall r, below_prog k (c r)) -> below_prog k (PTry p c)
| bp_fresh z p c : below_prog k p -> (forall r, below_prog k (c r)) -> below_prog k (PFresh z p c).

(** Everything a query builder consists of is of lower rank. *)
Definition below_qb (k : nat) (q : qb) : Prop :=
  (forall c, In c (q_ctes q) -> below k (c_builder c)) /\
  (forall ft f, In ft (q_tobjs q) -> ft_frag ft = Some f -> below k (BFrag f)) /\
  below k (BFrag (q_selects q)) /\ below k (BFrag (q_touches q)) /\
  below k (BFrag (q_conds q)) /\ below k (BFrag (q_groups q)) /\
  (forall o, In o (q_orders q) -> below k (fst o)) /\
  (forall b, In b (q_unions q) -> below k b).
(** No query builder contains itself, directly or through others. *)
Definition acyclic (h : list qb) : Prop :=
  forall id q, nth_error h id = Some q -> below_qb (rank id) q.
(** The same of what a method call is given. *)
Definition below_op (k : nat) (o : qop) : Prop :=
  match o with
  | OSelect l | OGroupBy l | OUnion l => forall b, In b l -> below k b
  | OJoin _ _ (Some f) _ | OWhere (Some f) => below k (BFrag f)
  | OWhere2 b _ _ | OWhereIn b _ | OWhereNotIn b _ | OOrderBy b _ | OWith _ b _ => below k b
  | _ => True
  end.
End Rank.

(* ------------------------------------------------------------------ *)
(** * Programs that do not end *)

(** Rejects index 0, so #join accepts it, and never ends. *)
Definition endless : func :=
  FnCustom (mkSig [GNum] false [GStr false; GError])
    (fun args => match args with [LInt 0%Z] => PRet "" (Some (EInvalidIndex 0)) | _ => PRet "x" None end).
(** Builds a fragment that calls it again. *)
Definition again : func :=
  FnCustom (mkSig [GCtx] false [GStr false; GError])
    (fun _ => PBuild [] (BFrag (F "#again()")) (fun r => match r with ROk s => PRet s None | _ => PRet "" (Some (EMsg "again")) end)).
(** A query builder that is its own common table expression. *)
Definition itself : list qop :=
  [OWith "t" (BQuery (Some 0)) []; OSelect [BFrag (F "1")]; OFrom ("t", "")].
