(** What a build can reach. *)
From Coq Require Import Strings.String NArith ZArith List Bool.
From Verif Require Import GoStr GoNum Syntax Value Util Model Sqlf Sqlb.
Import ListNotations.
Open Scope string_scope.

(** A builder holds, at any depth and whatever its user code is told, no query
    builders but those of the set [R]. *)
Section Inside.
Variable R : nat -> Prop.
Inductive inside : builder -> Prop :=
| in_nil : inside BNil
| in_nilfrag : inside BNilFrag
| in_frag f : Forall inside (f_frags f) -> inside (BFrag f)
| in_nilcol : inside BNilCol
| in_col f t : Forall inside (f_frags f) -> inside (BCol (Some f) t)
| in_colnone t : inside (BCol None t)
| in_table t : inside (BTable t)
| in_tabal t a : inside (BTabAl t a)
| in_query id : R id -> inside (BQuery (Some id))
| in_nilquery : inside (BQuery None)
| in_custom p : inside_prog p -> inside (BCustom p)
with inside_prog : prog -> Prop :=
| ip_ret s e : inside_prog (PRet s e)
| ip_panic e : inside_prog (PPanicU e)
| ip_commit v k : (forall s, inside_prog (k s)) -> inside_prog (PCommit v k)
| ip_args k : (forall l, inside_prog (k l)) -> inside_prog (PArgs k)
| ip_build fs b k : Forall (fun x => inside_func (snd x)) fs -> inside b -> (forall r, inside_prog (k r)) -> inside_prog (PBuild fs b k)
| ip_try p k : inside_prog p -> (forall r, inside_prog (k r)) -> inside_prog (PTry p k)
| ip_fresh z p k : inside_prog p -> (forall r, inside_prog (k r)) -> inside_prog (PFresh z p k)
with inside_func : func -> Prop :=
| if_arg : inside_func FnArg
| if_fragment : inside_func FnFragment
| if_join : inside_func FnJoin
| if_custom sg body : (forall l, inside_prog (body l)) -> inside_func (FnCustom sg body).
Definition inside_env (e : env) : Prop := Forall (Forall (fun x => inside_func (snd x))) e.
Definition inside_frag (f : fragment) : Prop := Forall inside (f_frags f).
(** A query builder whose parts hold no others. *)
Record inside_qb (q : qb) : Prop := {
  iq_ctes : Forall (fun c => inside (c_builder c)) (q_ctes q);
  iq_tables : Forall (fun t => match ft_frag t with Some f => inside_frag f | None => True end) (q_tobjs q);
  iq_selects : inside_frag (q_selects q);
  iq_touches : inside_frag (q_touches q);
  iq_conds : inside_frag (q_conds q);
  iq_groups : inside_frag (q_groups q);
  iq_orders : Forall (fun o => inside (fst o)) (q_orders q);
  iq_unions : Forall inside (q_unions q) }.
(** The set leads nowhere else. *)
Definition closed (h : list qb) : Prop := forall id q, R id -> nth_error h id = Some q -> inside_qb q.
(** Two heaps agree on the set. *)
Definition agree (h h' : list qb) : Prop := forall id, R id -> nth_error h id = nth_error h' id.
(** Nothing but the set has changed. *)
Definition untouched (h h' : list qb) : Prop := List.length h = List.length h' /\ forall id, ~ R id -> nth_error h id = nth_error h' id.
End Inside.

(** No query builders at all. *)
Definition none (id : nat) : Prop := False.
(** Building a list of things one after the other, in any styles; what stays of the heap. *)
Definition after (n : nat) (h : list qb) (l : list (Z * builder)) : list qb :=
  fold_left (fun h x => snd (build_query n (fst x) h (snd x))) l h.

(** The arguments of a call hold no query builders but those of the set. *)
Definition inside_op (R : nat -> Prop) (o : qop) : Prop :=
  match o with
  | OSelect l | OGroupBy l | OUnion l => Forall (inside R) l
  | OJoin _ _ (Some f) _ | OWhere (Some f) => inside_frag R f
  | OWhere2 c _ _ | OWhereIn c _ | OWhereNotIn c _ | OOrderBy c _ | OWith _ c _ => inside R c
  | _ => True
  end.
