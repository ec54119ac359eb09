(** Building in related stores gives the same outcome. *)
From Coq Require Import Strings.String Strings.Ascii NArith ZArith List Bool Lia.
From Verif Require Import GoStr GoNum Syntax Value Util Model Sqlf Sqlb.
Import ListNotations.
Open Scope string_scope.

Definition rel {A S} (Q : S -> S -> Prop) (x y : outcome A * S) : Prop := fst x = fst y /\ Q (snd x) (snd y).

Section Rel.
Variable Q : store -> store -> Prop.
Hypothesis Qargs : forall s t, Q s t -> st_args s = st_args t.
Hypothesis Qcommit : forall v s t, Q s t -> rel Q (commit v s) (commit v t).
Hypothesis Qfresh : forall z s t, Q s t -> Q (new_store z (st_heap s)) (new_store z (st_heap t)).
Hypothesis Qback : forall s t s' t', Q s t -> Q s' t' -> Q (set_heap s (st_heap s')) (set_heap t (st_heap t')).

Definition QF (X Y : fstate) : Prop := Q (fs_st X) (fs_st Y) /\ fs_ua X = fs_ua Y /\ fs_uf X = fs_uf Y.

Section Rec.
Variable rb : env -> builder -> store -> outcome string * store.
Hypothesis Hrb : forall e b s t, Q s t -> rel Q (rb e b s) (rb e b t).

Lemma rel_prog : forall p e s t, Q s t -> rel Q (run_prog rb e p s) (run_prog rb e p t).
Proof.
  fix IH 1. intros p e s t H. destruct p as [r [er|]|er|v k|k|fs b k|p k|z p k]; cbn [run_prog]; try (split; [reflexivity|exact H]).
  - destruct (Qcommit v s t H) as [E1 E2]. destruct (commit v s) as [o s'], (commit v t) as [o' t']. cbn [fst snd] in *. subst o'.
    destruct o as [x|er|er|]; try (split; [reflexivity|exact E2]). apply IH. exact E2.
  - rewrite (Qargs s t H). apply IH. exact H.
  - destruct (check_funcs fs); [apply IH; exact H|].
    destruct (Hrb (match fs with [] => e | _ => fs :: e end) b s t H) as [E1 E2].
    destruct (rb _ b s) as [o s'], (rb _ b t) as [o' t']. cbn [fst snd] in *. subst o'.
    destruct o as [x|er|er|]; try (apply IH; exact E2). split; [reflexivity|exact E2].
  - destruct (IH p e s t H) as [E1 E2]. destruct (run_prog rb e p s) as [o s'], (run_prog rb e p t) as [o' t']. cbn [fst snd] in *. subst o'.
    destruct o as [x|er|er|]; try (apply IH; exact E2). split; [reflexivity|exact E2].
  - destruct (IH p [builtins] _ _ (Qfresh z s t H)) as [E1 E2].
    destruct (run_prog rb _ p (new_store z (st_heap s))) as [o s'], (run_prog rb _ p (new_store z (st_heap t))) as [o' t']. cbn [fst snd] in *. subst o'.
    pose proof (Qback s t s' t' H E2) as K. rewrite (Qargs s' t' E2). destruct o as [x|er|er|]; try (apply IH; exact K). split; [reflexivity|exact K].
Qed.

Variable rc : env -> frame -> list expr -> fstate -> outcome string * fstate.
Hypothesis Hrc : forall e fc es X Y, QF X Y -> rel QF (rc e fc es X) (rc e fc es Y).
Variable jf : nat.

Lemma rel_arg : forall fc i X Y, QF X Y -> rel QF (func_arg fc i X) (func_arg fc i Y).
Proof.
  intros fc i X Y H. unfold func_arg. destruct (nth1 _ _) as [v|]; [|split; [reflexivity|exact H]].
  destruct H as (H1 & H2 & H3). destruct (Qcommit v _ _ H1) as [E1 E2].
  destruct (commit v (fs_st X)) as [o s'], (commit v (fs_st Y)) as [o' t']. cbn [fst snd] in *. subst o'.
  split; [reflexivity|]. cbn. rewrite H2, H3. repeat split. exact E2.
Qed.
Lemma rel_fragment : forall e fc i X Y, QF X Y -> rel QF (func_fragment rb e fc i X) (func_fragment rb e fc i Y).
Proof.
  intros e fc i X Y H. unfold func_fragment. destruct (nth1 _ _) as [b|]; [|split; [reflexivity|exact H]].
  destruct H as (H1 & H2 & H3). destruct (Hrb e b _ _ H1) as [E1 E2].
  destruct (rb e b (fs_st X)) as [o s'], (rb e b (fs_st Y)) as [o' t']. cbn [fst snd] in *. subst o'.
  split; [reflexivity|]. cbn. rewrite H2, H3. repeat split. exact E2.
Qed.
Lemma rel_compat : forall name f s t, Q s t ->
  fst (join_compat rb name f s) = fst (join_compat rb name f t) /\ Q (snd (join_compat rb name f s)) (snd (join_compat rb name f t)).
Proof.
  intros name f s t H. unfold join_compat. destruct (negb _); [split; [reflexivity|exact H]|].
  destruct f as [| | |sg body]; try (split; [reflexivity|exact H]).
  destruct (rel_prog (body [LInt 0]) [[]] _ _ (Qfresh style_question s t H)) as [E1 E2].
  destruct (run_prog rb _ _ (new_store _ (st_heap s))) as [o s'], (run_prog rb _ _ (new_store _ (st_heap t))) as [o' t']. cbn [fst snd] in E1, E2. subst o'.
  pose proof (Qback s t s' t' H E2) as K. destruct (fst (safe _ _)); (split; [reflexivity|exact K]).
Qed.
Lemma rel_prep : forall e es s t, Q s t -> rel Q (join_prep rb e es s) (join_prep rb e es t).
Proof.
  intros e es. induction es as [|x es IH]; intros s t H; [split; [reflexivity|exact H]|].
  destruct x as [r p|a i p|name args p|name p]; cbn [join_prep]; try (apply IH; exact H).
  destruct (lookup_fn e name) as [f|]; [|split; [reflexivity|exact H]].
  destruct (rel_compat name f s t H) as [E1 E2]. destruct (join_compat rb name f s) as [[c z] s'], (join_compat rb name f t) as [[c' z'] t'].
  cbn [fst snd] in *. injection E1 as <- <-. destruct c; [|destruct z; (split; [reflexivity|exact E2])].
  destruct (IH s' t' E2) as [F1 F2]. destruct (join_prep rb e es s') as [o s2], (join_prep rb e es t') as [o' t2]. cbn [fst snd] in *. subst o'.
  destruct o; (split; [reflexivity|exact F2]).
Qed.
Lemma rel_loop : forall n e fc es sep from to i acc X Y, QF X Y ->
  rel QF (join_loop rc n e fc es sep from to i acc X) (join_loop rc n e fc es sep from to i acc Y).
Proof.
  induction n as [|n IH]; intros e fc es sep from to i acc X Y H; [split; [reflexivity|exact H]|]. cbn [join_loop].
  destruct (Hrc e fc (set_index i es) X Y H) as [E1 E2]. destruct (rc e fc (set_index i es) X) as [o X'], (rc e fc (set_index i es) Y) as [o' Y']. cbn [fst snd] in *. subst o'.
  destruct o as [r|er|er|]; try (split; [reflexivity|exact E2]).
  - destruct (_ && _); [split; [reflexivity|exact E2]|]. apply IH. exact E2.
  - destruct (is_invalid_index er); [destruct (_ || _)|]; (split; [reflexivity|exact E2]).
Qed.
Lemma rel_join : forall e fc tmpl sep idx X Y, QF X Y -> rel QF (func_join rb rc jf e fc tmpl sep idx X) (func_join rb rc jf e fc tmpl sep idx Y).
Proof.
  intros e fc tmpl sep idx X Y H. unfold func_join.
  destruct idx as [|a [|b [|c idx]]]; try (split; [reflexivity|exact H]).
  all: destruct (_ && _); [split; [reflexivity|exact H]|]; destruct (parse tmpl) as [es|p m| |]; try (split; [reflexivity|exact H]);
    destruct H as (H1 & H2 & H3); destruct (rel_prep e es _ _ H1) as [E1 E2];
    destruct (join_prep rb e es (fs_st X)) as [o s'], (join_prep rb e es (fs_st Y)) as [o' t']; cbn [fst snd] in E1, E2; subst o';
    assert (K : QF (mkFS s' (fs_ua X) (fs_uf X)) (mkFS t' (fs_ua Y) (fs_uf Y))) by (split; [exact E2|split; assumption]);
    destruct o as [[|k]|er|er|]; try (split; [reflexivity|exact K]); apply rel_loop; exact K.
Qed.
Lemma rel_safe : forall S (R : S -> S -> Prop) name (x y : outcome string * S), rel R x y -> rel R (safe name x) (safe name y).
Proof. intros S R name [o s] [o' t] [E H]. cbn in E. subst o'. destruct o; (split; [reflexivity|exact H]). Qed.
Lemma rel_call : forall e fc f args X Y, QF X Y -> rel QF (call_fn rb rc jf e fc f args X) (call_fn rb rc jf e fc f args Y).
Proof.
  intros e fc f args X Y H. destruct f as [| | |sg body]; cbn [call_fn].
  - apply rel_arg. exact H.
  - apply rel_fragment. exact H.
  - destruct args as [|[] [|[] idx]]; try (split; [reflexivity|exact H]). apply rel_join. exact H.
  - destruct H as (H1 & H2 & H3). destruct (rel_prog (body args) e _ _ H1) as [E1 E2].
    destruct (run_prog rb e _ (fs_st X)) as [o s'], (run_prog rb e _ (fs_st Y)) as [o' t']. cbn [fst snd] in *. subst o'.
    split; [reflexivity|]. split; [exact E2|split; assumption].
Qed.
Lemma rel_expr : forall e fc x X Y, QF X Y -> rel QF (eval_expr rb rc jf e fc x X) (eval_expr rb rc jf e fc x Y).
Proof.
  intros e fc x X Y H. destruct x as [t p|a i p|name args p|name p]; cbn [eval_expr]; try (split; [reflexivity|exact H]).
  - destruct (nth1 _ _); [apply rel_arg; exact H|split; [reflexivity|exact H]].
  - unfold eval_function. destruct (lookup_fn e name) as [f|]; [|split; [reflexivity|exact H]]. unfold eval_call.
    destruct (arity_ok _ _); [|split; [reflexivity|exact H]]. destruct (eval_args _ _); try (split; [reflexivity|exact H]).
    destruct (any_rejected _ _); apply rel_safe; [split; [reflexivity|exact H]|apply rel_call; exact H].
Qed.
Lemma rel_clause : forall e fc es X Y, QF X Y -> rel QF (clause rb rc jf e fc es X) (clause rb rc jf e fc es Y).
Proof.
  intros e fc es. induction es as [|x es IH]; intros X Y H; cbn [clause]; [split; [reflexivity|exact H]|].
  destruct (rel_expr e fc x X Y H) as [E1 E2]. destruct (eval_expr rb rc jf e fc x X) as [o X'], (eval_expr rb rc jf e fc x Y) as [o' Y']. cbn [fst snd] in *. subst o'.
  destruct o as [r|er|er|]; try (split; [reflexivity|exact E2]).
  destruct (IH X' Y' E2) as [F1 F2]. destruct (clause rb rc jf e fc es X') as [o X2], (clause rb rc jf e fc es Y') as [o' Y2]. cbn [fst snd] in *. subst o'.
  destruct o; (split; [reflexivity|exact F2]).
Qed.
End Rec.

Lemma rel_clause_n : forall rb, (forall e b s t, Q s t -> rel Q (rb e b s) (rb e b t)) ->
  forall n e fc es X Y, QF X Y -> rel QF (clause_n n rb e fc es X) (clause_n n rb e fc es Y).
Proof.
  intros rb Hrb. induction n as [|n IH]; intros e fc es X Y H; [split; [reflexivity|exact H]|]. cbn [clause_n].
  apply rel_clause; assumption.
Qed.
Lemma rel_frag : forall rb, (forall e b s t, Q s t -> rel Q (rb e b s) (rb e b t)) ->
  forall n e f s t, Q s t -> rel Q (build_frag n rb e f s) (build_frag n rb e f t).
Proof.
  intros rb Hrb n e f s t H. unfold build_frag. destruct (parse (f_raw f)) as [es|p m| |]; try (split; [reflexivity|exact H]).
  match goal with |- context [clause_n n rb e ?fc es (mkFS s ?u ?v)] =>
    destruct (rel_clause_n rb Hrb n e fc es (mkFS s u v) (mkFS t u v)) as [E1 (E2 & E3 & E4)]; [split; [exact H|split; reflexivity]|];
    destruct (clause_n n rb e fc es (mkFS s u v)) as [o X'], (clause_n n rb e fc es (mkFS t u v)) as [o' Y'] end.
  cbn [fst snd] in *. subst o'. destruct o as [r|er|er|]; try (split; [reflexivity|exact E2]).
  rewrite E3, E4. destruct (_ && _); [|split; [reflexivity|exact E2]]. cbn zeta. destruct (is_empty _); (split; [reflexivity|exact E2]).
Qed.

Hypothesis Qinternal : forall rb, (forall b s t, Q s t -> rel Q (rb b s) (rb b t)) ->
  forall id s t, Q s t -> rel Q (build_internal rb id s) (build_internal rb id t).

Theorem rel_build : forall n e b s t, Q s t -> rel Q (build n e b s) (build n e b t).
Proof.
  induction n as [|n IH]; intros e b s t H; [split; [reflexivity|exact H]|].
  destruct b as [| |f| |[f|] tb|tb|x a|[id|]|p]; cbn [build]; try (split; [reflexivity|exact H]).
  - apply rel_frag; [exact IH|exact H].
  - apply rel_frag; [exact IH|exact H].
  - apply Qinternal; [intros; apply IH; assumption|exact H].
  - apply rel_prog; [exact IH|exact H].
Qed.

(** The loops over the parts of a query. *)
Section Parts.
Variable rb : builder -> store -> outcome string * store.
Hypothesis Hrb : forall b s t, Q s t -> rel Q (rb b s) (rb b t).

Lemma rel_ctes : forall cs d s t, Q s t -> rel Q (build_ctes rb cs d s) (build_ctes rb cs d t).
Proof.
  assert (L : forall cs d s t, Q s t -> rel Q (build_ctes_loop rb cs d s) (build_ctes_loop rb cs d t)).
  { induction cs as [|c cs IH]; intros d s t H; cbn [build_ctes_loop]; [split; [reflexivity|exact H]|].
    destruct (dep_mem _ _); [|apply IH; exact H]. destruct (Hrb (c_builder c) s t H) as [E1 E2].
    destruct (rb (c_builder c) s) as [o s'], (rb (c_builder c) t) as [o' t']. cbn [fst snd] in *. subst o'.
    destruct o as [r|er|er|]; try (split; [reflexivity|exact E2]). destruct (IH d s' t' E2) as [F1 F2].
    destruct (build_ctes_loop rb cs d s') as [o s2], (build_ctes_loop rb cs d t') as [o' t2]. cbn [fst snd] in *. subst o'.
    destruct o; (split; [reflexivity|exact F2]). }
  intros cs d s t H. unfold build_ctes. destruct (L cs d s t H) as [E1 E2].
  destruct (build_ctes_loop rb cs d s) as [o s'], (build_ctes_loop rb cs d t) as [o' t']. cbn [fst snd] in *. subst o'.
  destruct o as [[|]|er|er|]; (split; [reflexivity|exact E2]).
Qed.
Lemma rel_from_loop : forall di fts d s t, Q s t -> rel Q (build_from_loop rb di fts d s) (build_from_loop rb di fts d t).
Proof.
  intros di. induction fts as [|ft fts IH]; intros d s t H; cbn [build_from_loop]; [split; [reflexivity|exact H]|].
  destruct (_ && _); [apply IH; exact H|].
  assert (rel Q (build_ofrag rb (ft_frag ft) s) (build_ofrag rb (ft_frag ft) t)) as [E1 E2] by (unfold build_ofrag; destruct (ft_frag ft); apply Hrb; exact H).
  destruct (build_ofrag rb (ft_frag ft) s) as [o s'], (build_ofrag rb (ft_frag ft) t) as [o' t']. cbn [fst snd] in *. subst o'.
  destruct o as [r|er|er|]; try (split; [reflexivity|exact E2]). destruct (IH d s' t' E2) as [F1 F2].
  destruct (build_from_loop rb di fts d s') as [o s2], (build_from_loop rb di fts d t') as [o' t2]. cbn [fst snd] in *. subst o'.
  destruct o; (split; [reflexivity|exact F2]).
Qed.
Lemma rel_union : forall bs s t, Q s t -> rel Q (build_union rb bs s) (build_union rb bs t).
Proof.
  assert (L : forall bs s t, Q s t -> rel Q (build_union_loop rb bs s) (build_union_loop rb bs t)).
  { induction bs as [|b bs IH]; intros s t H; cbn [build_union_loop]; [split; [reflexivity|exact H]|].
    destruct (Hrb b s t H) as [E1 E2].
    destruct (rb b s) as [o s'], (rb b t) as [o' t']. cbn [fst snd] in *. subst o'.
    destruct o as [r|er|er|]; try (split; [reflexivity|exact E2]). destruct (IH s' t' E2) as [F1 F2].
    destruct (build_union_loop rb bs s') as [o s2], (build_union_loop rb bs t') as [o' t2]. cbn [fst snd] in *. subst o'.
    destruct o; (split; [reflexivity|exact F2]). }
  intros bs s t H. unfold build_union. destruct (L bs s t H) as [E1 E2].
  destruct (build_union_loop rb bs s) as [o s'], (build_union_loop rb bs t) as [o' t']. cbn [fst snd] in *. subst o'.
  destruct o; (split; [reflexivity|exact E2]).
Qed.
Lemma rel_bind : forall x y k k', rel Q x y -> (forall r s t, Q s t -> rel Q (k r s) (k' r t)) -> rel Q (bind x k) (bind y k').
Proof.
  intros [o s] [o' t] k k' [E H] K. cbn [fst snd] in *. subst o'. destruct o; cbn [bind]; try (split; [reflexivity|exact H]). apply K. exact H.
Qed.
End Parts.
End Rel.
