(** More fuel never changes a result; stores only change in harmless ways. *)
From Coq Require Import Strings.String Strings.Ascii NArith ZArith List Bool Lia.
From Verif Require Import GoStr GoNum Syntax Value Util Model Sqlf Sqlb.
Import ListNotations.
Open Scope string_scope.

(* ------------------------------------------------------------------ *)
(** * Fuel monotonicity *)

Definition approx {A S} (x y : outcome A * S) : Prop := fst x = RFuel \/ x = y.

Lemma approx_refl : forall A S (x : outcome A * S), approx x x.
Proof. right. reflexivity. Qed.
Lemma approx_fuel : forall A S (s : S) (y : outcome A * S), approx (RFuel, s) y.
Proof. left. reflexivity. Qed.
Lemma approx_trans : forall A S (x y z : outcome A * S), approx x y -> approx y z -> approx x z.
Proof. intros A S x y z [H|<-] K; [left; exact H|exact K]. Qed.

Ltac ap := first [apply approx_refl|apply approx_fuel].

Section Mono.
Variables rb1 rb2 : env -> builder -> store -> outcome string * store.
Hypothesis Hrb : forall e b st, approx (rb1 e b st) (rb2 e b st).

Lemma mono_prog : forall p e st, approx (run_prog rb1 e p st) (run_prog rb2 e p st).
Proof.
  fix IH 1. intros p e st. destruct p as [s [er|]|er|v k|k|fs b k|p k|z p k]; cbn [run_prog]; try ap.
  - destruct (commit v st) as [[s|er|er|] st']; try ap. apply IH.
  - apply IH.
  - destruct (check_funcs fs); [apply IH|].
    destruct (Hrb (match fs with [] => e | _ => fs :: e end) b st) as [H|H].
    + destruct (rb1 _ b st) as [r st']. cbn in H. subst r. ap.
    + rewrite H. destruct (rb2 _ b st) as [[] st']; try ap; apply IH.
  - destruct (IH p e st) as [H|H].
    + destruct (run_prog rb1 e p st) as [r st']. cbn in H. subst r. ap.
    + rewrite H. destruct (run_prog rb2 e p st) as [[] st']; try ap; apply IH.
  - destruct (IH p [builtins] (new_store z (st_heap st))) as [H|H].
    + destruct (run_prog rb1 _ p _) as [r st']. cbn in H. subst r. ap.
    + rewrite H. destruct (run_prog rb2 _ p _) as [[] st']; try ap; apply IH.
Qed.

Variables rc1 rc2 : env -> frame -> list expr -> fstate -> outcome string * fstate.
Hypothesis Hrc : forall e fc es S, approx (rc1 e fc es S) (rc2 e fc es S).
Variables jf1 jf2 : nat.
Hypothesis Hj : jf1 <= jf2.

Lemma mono_safe : forall S name (x y : outcome string * S), approx x y -> approx (safe name x) (safe name y).
Proof. intros S name [o s] y [H|<-]; [|ap]. cbn in H. subst o. ap. Qed.

Lemma mono_fragment : forall e fc i S, approx (func_fragment rb1 e fc i S) (func_fragment rb2 e fc i S).
Proof.
  intros e fc i S. unfold func_fragment. destruct (nth1 (fr_frags fc) i) as [b|]; [|ap].
  destruct (Hrb e b (fs_st S)) as [H|H].
  - destruct (rb1 e b (fs_st S)) as [r st']. cbn in H. subst r. ap.
  - rewrite H. ap.
Qed.

Lemma mono_compat : forall name f st,
  snd (fst (join_compat rb1 name f st)) = true /\ fst (fst (join_compat rb1 name f st)) = false
  \/ join_compat rb1 name f st = join_compat rb2 name f st.
Proof.
  intros name f st. unfold join_compat. destruct (negb _); [auto|].
  destruct f as [| | |sg body]; auto.
  destruct (mono_prog (body [LInt 0]) [[]] (new_store style_question (st_heap st))) as [H|H].
  - left. destruct (run_prog rb1 _ _ _) as [r st']. cbn in H. subst r.
    destruct (fs_outs sg) as [|? [|]]; cbn; auto.
  - rewrite H. auto.
Qed.

Lemma mono_prep : forall e es st, approx (join_prep rb1 e es st) (join_prep rb2 e es st).
Proof.
  intros e es. induction es as [|x es IH]; intros st; [ap|].
  destruct x as [t p|a i p|name args p|name p]; cbn [join_prep]; try apply IH.
  destruct (lookup_fn e name) as [f|]; [|ap].
  destruct (mono_compat name f st) as [[H1 H2]|H].
  - destruct (join_compat rb1 name f st) as [[c o] st']. cbn in H1, H2. subst. ap.
  - rewrite H. destruct (join_compat rb2 name f st) as [[[] []] st']; try ap.
    + destruct (IH st') as [K|K].
      * destruct (join_prep rb1 e es st') as [r s2]. cbn in K. subst r. ap.
      * rewrite K. ap.
    + destruct (IH st') as [K|K].
      * destruct (join_prep rb1 e es st') as [r s2]. cbn in K. subst r. ap.
      * rewrite K. ap.
Qed.

Lemma mono_loop : forall n m e fc es sep from to i acc S, n <= m ->
  approx (join_loop rc1 n e fc es sep from to i acc S) (join_loop rc2 m e fc es sep from to i acc S).
Proof.
  induction n as [|n IH]; intros m e fc es sep from to i acc S H; [ap|].
  destruct m as [|m]; [lia|]. cbn [join_loop].
  destruct (Hrc e fc (set_index i es) S) as [K|K].
  - destruct (rc1 _ _ _ _) as [r S']. cbn in K. subst r. ap.
  - rewrite K. destruct (rc2 _ _ _ _) as [[] S']; try ap.
    destruct (_ && _); [ap|]. apply IH. lia.
Qed.

Lemma mono_join : forall e fc tmpl sep idx S,
  approx (func_join rb1 rc1 jf1 e fc tmpl sep idx S) (func_join rb2 rc2 jf2 e fc tmpl sep idx S).
Proof.
  intros e fc tmpl sep idx S. unfold func_join.
  destruct idx as [|a [|b [|c idx]]]; try ap.
  all: destruct (_ && _); [ap|]; destruct (parse tmpl) as [es|p m| |]; try ap;
    (destruct (mono_prep e es (fs_st S)) as [H|H];
     [destruct (join_prep rb1 e es (fs_st S)) as [r st']; cbn in H; subst r; ap
     |rewrite H; destruct (join_prep rb2 e es (fs_st S)) as [[[|k]|er|er|] st']; try ap; apply mono_loop; exact Hj]).
Qed.

Lemma mono_call : forall e fc f args S,
  approx (call_fn rb1 rc1 jf1 e fc f args S) (call_fn rb2 rc2 jf2 e fc f args S).
Proof.
  intros e fc f args S. destruct f as [| | |sg body]; cbn [call_fn].
  - ap.
  - apply mono_fragment.
  - destruct args as [|[] [|[] idx]]; try ap. apply mono_join.
  - destruct (mono_prog (body args) e (fs_st S)) as [H|H].
    + destruct (run_prog rb1 e _ _) as [r st']. cbn in H. subst r. left. cbn.
      destruct (fs_outs sg) as [|? [|]]; reflexivity.
    + rewrite H. ap.
Qed.

Lemma mono_expr : forall e fc x S,
  approx (eval_expr rb1 rc1 jf1 e fc x S) (eval_expr rb2 rc2 jf2 e fc x S).
Proof.
  intros e fc x S. destruct x as [t p|a i p|name args p|name p]; cbn [eval_expr]; try ap.
  unfold eval_function. destruct (lookup_fn e name) as [f|]; [|ap]. unfold eval_call.
  destruct (arity_ok _ _); [|ap]. destruct (eval_args _ _); try ap.
  destruct (any_rejected _ _); apply mono_safe; [ap|apply mono_call].
Qed.

Lemma mono_clause : forall e fc es S,
  approx (clause rb1 rc1 jf1 e fc es S) (clause rb2 rc2 jf2 e fc es S).
Proof.
  intros e fc es. induction es as [|x es IH]; intros S; cbn [clause]; [ap|].
  destruct (mono_expr e fc x S) as [H|H].
  - destruct (eval_expr rb1 rc1 jf1 e fc x S) as [r S']. cbn in H. subst r. ap.
  - rewrite H. destruct (eval_expr rb2 rc2 jf2 e fc x S) as [[] S']; try ap.
    destruct (IH S') as [K|K].
    + destruct (clause rb1 rc1 jf1 e fc es S') as [r S2]. cbn in K. subst r. ap.
    + rewrite K. ap.
Qed.
End Mono.

Lemma mono_clause_n : forall rb1 rb2, (forall e b st, approx (rb1 e b st) (rb2 e b st)) ->
  forall n m e fc es S, n <= m -> approx (clause_n n rb1 e fc es S) (clause_n m rb2 e fc es S).
Proof.
  intros rb1 rb2 Hrb. induction n as [|n IH]; intros m e fc es S H; [ap|].
  destruct m as [|m]; [lia|]. cbn [clause_n]. apply mono_clause; [exact Hrb| |lia].
  intros. apply IH. lia.
Qed.

Lemma mono_frag : forall rb1 rb2, (forall e b st, approx (rb1 e b st) (rb2 e b st)) ->
  forall n m e f st, n <= m -> approx (build_frag n rb1 e f st) (build_frag m rb2 e f st).
Proof.
  intros rb1 rb2 Hrb n m e f st H. unfold build_frag. destruct (parse (f_raw f)) as [es|p s| |]; try ap.
  match goal with |- context [clause_n n rb1 e ?fc es ?S] =>
    destruct (mono_clause_n rb1 rb2 Hrb n m e fc es S H) as [K|K];
    [destruct (clause_n n rb1 e fc es S) as [r S']; cbn in K; subst r; ap|rewrite K; ap] end.
Qed.

Section MonoQ.
Variables rb1 rb2 : builder -> store -> outcome string * store.
Hypothesis Hrb : forall b st, approx (rb1 b st) (rb2 b st).

Lemma mono_ctes_loop : forall cs d st, approx (build_ctes_loop rb1 cs d st) (build_ctes_loop rb2 cs d st).
Proof.
  induction cs as [|c cs IH]; intros d st; cbn [build_ctes_loop]; [ap|].
  destruct (dep_mem _ _); [|apply IH].
  destruct (Hrb (c_builder c) st) as [H|H].
  - destruct (rb1 (c_builder c) st) as [r s']. cbn in H. subst r. ap.
  - rewrite H. destruct (rb2 (c_builder c) st) as [[] s']; try ap.
    destruct (IH d s') as [K|K].
    + destruct (build_ctes_loop rb1 cs d s') as [r s2]. cbn in K. subst r. ap.
    + rewrite K. ap.
Qed.
Lemma mono_ctes : forall cs d st, approx (build_ctes rb1 cs d st) (build_ctes rb2 cs d st).
Proof.
  intros cs d st. unfold build_ctes. destruct (mono_ctes_loop cs d st) as [H|H].
  - destruct (build_ctes_loop rb1 cs d st) as [r s']. cbn in H. subst r. ap.
  - rewrite H. ap.
Qed.

Lemma mono_from_loop : forall di fts d st, approx (build_from_loop rb1 di fts d st) (build_from_loop rb2 di fts d st).
Proof.
  induction fts as [|ft fts IH]; intros d st; cbn [build_from_loop]; [ap|].
  destruct (_ && _); [apply IH|].
  assert (G : approx (build_ofrag rb1 (ft_frag ft) st) (build_ofrag rb2 (ft_frag ft) st)).
  { unfold build_ofrag. destruct (ft_frag ft); apply Hrb. }
  destruct G as [H|H].
  - destruct (build_ofrag rb1 (ft_frag ft) st) as [r s']. cbn in H. subst r. ap.
  - rewrite H. destruct (build_ofrag rb2 (ft_frag ft) st) as [[] s']; try ap.
    destruct (IH d s') as [K|K].
    + destruct (build_from_loop rb1 di fts d s') as [r s2]. cbn in K. subst r. ap.
    + rewrite K. ap.
Qed.
Lemma mono_from : forall q d st, approx (build_from rb1 q d st) (build_from rb2 q d st).
Proof.
  intros q d st. unfold build_from. destruct (mono_from_loop (q_distinct q) (from_tables q) d st) as [H|H].
  - destruct (build_from_loop rb1 _ _ d st) as [r s']. cbn in H. subst r. ap.
  - rewrite H. ap.
Qed.
Lemma mono_orders : forall id st, approx (build_orders rb1 id st) (build_orders rb2 id st).
Proof.
  intros id st. unfold build_orders. destruct (orders_loop _ _ _ _) as [q' items]. apply Hrb.
Qed.
Lemma mono_selects : forall id st, approx (build_selects rb1 id st) (build_selects rb2 id st).
Proof.
  intros id st. unfold build_selects.
  match goal with |- context [rb1 (BFrag ?sel) ?st1] => destruct (Hrb (BFrag sel) st1) as [H|H];
    [destruct (rb1 (BFrag sel) st1) as [r s']; cbn in H; subst r; ap
    |rewrite H; destruct (rb2 (BFrag sel) st1) as [[] s']; try ap] end.
  match goal with |- context [rb1 (BFrag ?sel) ?st1] => destruct (Hrb (BFrag sel) st1) as [K|K];
    [destruct (rb1 (BFrag sel) st1) as [r s2]; cbn in K; subst r; ap|rewrite K; ap] end.
Qed.
Lemma mono_union_loop : forall bs st, approx (build_union_loop rb1 bs st) (build_union_loop rb2 bs st).
Proof.
  induction bs as [|b bs IH]; intros st; cbn [build_union_loop]; [ap|].
  destruct (Hrb b st) as [H|H].
  - destruct (rb1 b st) as [r s']. cbn in H. subst r. ap.
  - rewrite H. destruct (rb2 b st) as [[] s']; try ap.
    destruct (IH s') as [K|K].
    + destruct (build_union_loop rb1 bs s') as [r s2]. cbn in K. subst r. ap.
    + rewrite K. ap.
Qed.
Lemma mono_union : forall bs st, approx (build_union rb1 bs st) (build_union rb2 bs st).
Proof.
  intros bs st. unfold build_union. destruct (mono_union_loop bs st) as [H|H].
  - destruct (build_union_loop rb1 bs st) as [r s']. cbn in H. subst r. ap.
  - rewrite H. ap.
Qed.
Lemma mono_bind : forall x y k1 k2, approx x y -> (forall s st, approx (k1 s st) (k2 s st)) ->
  approx (bind x k1) (bind y k2).
Proof.
  intros [o s] y k1 k2 [H|<-] Hk.
  - cbn in H. subst o. ap.
  - destruct o; cbn [bind]; try ap. apply Hk.
Qed.
Lemma mono_internal : forall id st, approx (build_internal rb1 id st) (build_internal rb2 id st).
Proof.
  intros id st. unfold build_internal. destruct (q_errors _); [|ap].
  destruct (collect_deps _); try ap.
  apply mono_bind; [apply mono_ctes|]. intros sq s1.
  apply mono_bind; [apply mono_from|]. intros fr s2.
  apply mono_bind; [apply Hrb|]. intros wh s3.
  apply mono_bind; [apply Hrb|]. intros gr s4.
  apply mono_bind; [apply mono_orders|]. intros ord s5. cbn zeta.
  apply mono_bind; [apply mono_selects|]. intros sel s6. cbn zeta.
  apply mono_bind; [|intros; ap].
  destruct (q_unions (get_q s6 id)); [ap|]. apply mono_bind; [apply mono_union|]. intros; ap.
Qed.
End MonoQ.

Lemma mono_build_S : forall n e b st, approx (build n e b st) (build (S n) e b st).
Proof.
  induction n as [|n IH]; intros e b st; [ap|].
  remember (S n) as m eqn:Em. rewrite Em at 1. cbn [build]. subst m.
  destruct b as [| |f| |[f|] t|t|x a|[id|]|p]; try ap.
  - apply mono_frag; [exact IH|lia].
  - apply mono_frag; [exact IH|lia].
  - apply mono_internal. intros b s. apply IH.
  - apply mono_prog. exact IH.
Qed.

Theorem mono_build : forall n m e b st, n <= m -> approx (build n e b st) (build m e b st).
Proof.
  intros n m e b st H. induction H as [|m H IH]; [ap|].
  eapply approx_trans; [exact IH|apply mono_build_S].
Qed.

(* ------------------------------------------------------------------ *)
(** * How a build may change the store *)

(** Changes a build makes to a query builder. *)
Definition selects_prefixed (q : qb) : qb :=
  set_selects q (with_prefix (q_selects q) (if q_distinct q then "SELECT DISTINCT" else "SELECT")).
Definition orders_done (q : qb) : qb := fst (orders_loop 0 (q_orders q) q []).

Section Step.
(** [R]: a reflexive and transitive relation that holds for every elementary step. *)
Variable R : store -> store -> Prop.
Hypothesis Rrefl : forall st, R st st.
Hypothesis Rtrans : forall a b c, R a b -> R b c -> R a c.
Hypothesis Rcommit : forall v st, R st (snd (commit v st)).
Hypothesis Rselects : forall st id, R st (set_q st id (selects_prefixed (get_q st id))).
Hypothesis Rorders : forall st id, R st (set_q st id (orders_done (get_q st id))).
(** User code may run in a fresh context. *)
Hypothesis Rfresh : forall z st st', R (new_store z (st_heap st)) st' ->
  R st (set_heap st (st_heap st')).

Section Rec.
Variable rb : env -> builder -> store -> outcome string * store.
Hypothesis Hrb : forall e b st, R st (snd (rb e b st)).

Lemma step_prog : forall p e st, R st (snd (run_prog rb e p st)).
Proof.
  fix IH 1. intros p e st. destruct p as [s [er|]|er|v k|k|fs b k|p k|z p k]; cbn [run_prog]; try apply Rrefl.
  - pose proof (Rcommit v st) as H. destruct (commit v st) as [[s|er|er|] st']; try exact H.
    eapply Rtrans; [exact H|apply IH].
  - apply IH.
  - destruct (check_funcs fs); [apply IH|].
    pose proof (Hrb (match fs with [] => e | _ => fs :: e end) b st) as H.
    destruct (rb _ b st) as [[] st']; try exact H; (eapply Rtrans; [exact H|apply IH]).
  - pose proof (IH p e st) as H. destruct (run_prog rb e p st) as [[] st']; try exact H; (eapply Rtrans; [exact H|apply IH]).
  - pose proof (Rfresh z st _ (IH p [builtins] (new_store z (st_heap st)))) as H.
    destruct (run_prog rb _ p _) as [[] st']; try exact H; (eapply Rtrans; [exact H|apply IH]).
Qed.

Variable rc : env -> frame -> list expr -> fstate -> outcome string * fstate.
Hypothesis Hrc : forall e fc es S, R (fs_st S) (fs_st (snd (rc e fc es S))).
Variable jf : nat.

Lemma step_arg : forall fc i S, R (fs_st S) (fs_st (snd (func_arg fc i S))).
Proof.
  intros fc i S. unfold func_arg. destruct (nth1 _ _) as [v|]; [|apply Rrefl].
  pose proof (Rcommit v (fs_st S)) as H. destruct (commit v (fs_st S)). exact H.
Qed.
Lemma step_fragment : forall e fc i S, R (fs_st S) (fs_st (snd (func_fragment rb e fc i S))).
Proof.
  intros e fc i S. unfold func_fragment. destruct (nth1 _ _) as [b|]; [|apply Rrefl].
  pose proof (Hrb e b (fs_st S)) as H. destruct (rb e b (fs_st S)). exact H.
Qed.
Lemma step_compat : forall name f st, R st (snd (join_compat rb name f st)).
Proof.
  intros name f st. unfold join_compat. destruct (negb _); [apply Rrefl|].
  destruct f as [| | |sg body]; try apply Rrefl.
  pose proof (step_prog (body [LInt 0]) [[]] (new_store style_question (st_heap st))) as H.
  destruct (run_prog rb _ _ _) as [r st']. cbn [snd] in H. apply Rfresh in H.
  destruct (fst (safe _ _)); exact H.
Qed.
Lemma step_prep : forall e es st, R st (snd (join_prep rb e es st)).
Proof.
  intros e es. induction es as [|x es IH]; intros st; [apply Rrefl|].
  destruct x as [t p|a i p|name args p|name p]; cbn [join_prep]; try apply IH.
  destruct (lookup_fn e name) as [f|]; [|apply Rrefl].
  pose proof (step_compat name f st) as H. destruct (join_compat rb name f st) as [[[] []] st']; try exact H.
  all: pose proof (IH st') as K; destruct (join_prep rb e es st') as [[] s2]; eapply Rtrans; eassumption.
Qed.
Lemma step_loop : forall n e fc es sep from to i acc S,
  R (fs_st S) (fs_st (snd (join_loop rc n e fc es sep from to i acc S))).
Proof.
  induction n as [|n IH]; intros e fc es sep from to i acc S; [apply Rrefl|]. cbn [join_loop].
  pose proof (Hrc e fc (set_index i es) S) as H. destruct (rc _ _ _ _) as [[] S']; try exact H.
  - destruct (_ && _); [exact H|]. eapply Rtrans; [exact H|apply IH].
  - destruct (is_invalid_index e0); [destruct (_ || _)|]; exact H.
Qed.
Lemma step_join : forall e fc tmpl sep idx S, R (fs_st S) (fs_st (snd (func_join rb rc jf e fc tmpl sep idx S))).
Proof.
  intros e fc tmpl sep idx S. unfold func_join.
  destruct idx as [|a [|b [|c idx]]]; try apply Rrefl.
  all: destruct (_ && _); [apply Rrefl|]; destruct (parse tmpl) as [es|p m| |]; try apply Rrefl;
    pose proof (step_prep e es (fs_st S)) as H;
    destruct (join_prep rb e es (fs_st S)) as [[[|k]|er|er|] st']; try exact H;
    (eapply Rtrans; [exact H|]);
    match goal with |- R _ (fs_st (snd (join_loop _ ?n ?ee ?ff ?ess ?sp ?from ?to ?i ?acc ?S2))) =>
      exact (step_loop n ee ff ess sp from to i acc S2) end.
Qed.
Lemma step_safe : forall name r (S : fstate), R (fs_st S) (fs_st (snd r)) -> R (fs_st S) (fs_st (snd (safe name r))).
Proof. intros name [[] S'] S H; exact H. Qed.
Lemma step_call : forall e fc f args S, R (fs_st S) (fs_st (snd (call_fn rb rc jf e fc f args S))).
Proof.
  intros e fc f args S. destruct f as [| | |sg body]; cbn [call_fn].
  - apply step_arg.
  - apply step_fragment.
  - destruct args as [|[] [|[] idx]]; try apply Rrefl. apply step_join.
  - pose proof (step_prog (body args) e (fs_st S)) as H. destruct (run_prog rb e _ _). exact H.
Qed.
Lemma step_expr : forall e fc x S, R (fs_st S) (fs_st (snd (eval_expr rb rc jf e fc x S))).
Proof.
  intros e fc x S. destruct x as [t p|a i p|name args p|name p]; cbn [eval_expr]; try apply Rrefl.
  - destruct (nth1 _ _); [apply step_arg|apply Rrefl].
  - unfold eval_function. destruct (lookup_fn e name) as [f|]; [|apply Rrefl]. unfold eval_call.
    destruct (arity_ok _ _); [|apply Rrefl]. destruct (eval_args _ _); try apply Rrefl.
    destruct (any_rejected _ _); apply step_safe; [apply Rrefl|apply step_call].
Qed.
Lemma step_clause : forall e fc es S, R (fs_st S) (fs_st (snd (clause rb rc jf e fc es S))).
Proof.
  intros e fc es. induction es as [|x es IH]; intros S; cbn [clause]; [apply Rrefl|].
  pose proof (step_expr e fc x S) as H. destruct (eval_expr rb rc jf e fc x S) as [[] S']; try exact H.
  pose proof (IH S') as K. destruct (clause rb rc jf e fc es S') as [[] S2]; eapply Rtrans; eassumption.
Qed.
End Rec.

Lemma step_clause_n : forall rb, (forall e b st, R st (snd (rb e b st))) ->
  forall n e fc es S, R (fs_st S) (fs_st (snd (clause_n n rb e fc es S))).
Proof.
  intros rb Hrb. induction n as [|n IH]; intros e fc es S; [apply Rrefl|]. cbn [clause_n].
  apply step_clause; assumption.
Qed.

Lemma step_frag : forall rb, (forall e b st, R st (snd (rb e b st))) ->
  forall n e f st, R st (snd (build_frag n rb e f st)).
Proof.
  intros rb Hrb n e f st. unfold build_frag. destruct (parse (f_raw f)) as [es|p s| |]; try apply Rrefl.
  match goal with |- context [clause_n n rb e ?fc es ?S] =>
    pose proof (step_clause_n rb Hrb n e fc es S) as H; destruct (clause_n n rb e fc es S) as [[] S'] end;
  try exact H.
  cbn [fs_st snd] in *. destruct (_ && _); [|exact H]. destruct (is_empty _); exact H.
Qed.

Section RecQ.
Variable rb : builder -> store -> outcome string * store.
Hypothesis Hrb : forall b st, R st (snd (rb b st)).

Lemma step_ctes_loop : forall cs d st, R st (snd (build_ctes_loop rb cs d st)).
Proof.
  induction cs as [|c cs IH]; intros d st; cbn [build_ctes_loop]; [apply Rrefl|].
  destruct (dep_mem _ _); [|apply IH].
  pose proof (Hrb (c_builder c) st) as H. destruct (rb (c_builder c) st) as [[] s']; try exact H.
  pose proof (IH d s') as K. destruct (build_ctes_loop rb cs d s') as [[] s2]; eapply Rtrans; eassumption.
Qed.
Lemma step_ctes : forall cs d st, R st (snd (build_ctes rb cs d st)).
Proof.
  intros cs d st. unfold build_ctes. pose proof (step_ctes_loop cs d st) as H.
  destruct (build_ctes_loop rb cs d st) as [[[|]| | |] s']; exact H.
Qed.
Lemma step_from_loop : forall di fts d st, R st (snd (build_from_loop rb di fts d st)).
Proof.
  induction fts as [|ft fts IH]; intros d st; cbn [build_from_loop]; [apply Rrefl|].
  destruct (_ && _); [apply IH|].
  assert (H : R st (snd (build_ofrag rb (ft_frag ft) st))) by (unfold build_ofrag; destruct (ft_frag ft); apply Hrb).
  destruct (build_ofrag rb (ft_frag ft) st) as [[] s']; try exact H.
  pose proof (IH d s') as K. destruct (build_from_loop rb di fts d s') as [[] s2]; eapply Rtrans; eassumption.
Qed.
Lemma step_from : forall q d st, R st (snd (build_from rb q d st)).
Proof.
  intros q d st. unfold build_from. pose proof (step_from_loop (q_distinct q) (from_tables q) d st) as H.
  destruct (build_from_loop rb _ _ d st) as [[] s']; exact H.
Qed.
Lemma step_orders : forall id st, R st (snd (build_orders rb id st)).
Proof.
  intros id st. unfold build_orders. pose proof (Rorders st id) as H. unfold orders_done in H.
  destruct (orders_loop _ _ _ _) as [q' items]. cbn [fst] in H. eapply Rtrans; [exact H|apply Hrb].
Qed.
Lemma step_selects : forall id st, R st (snd (build_selects rb id st)).
Proof.
  intros id st. unfold build_selects. pose proof (Rselects st id) as H0. unfold selects_prefixed in H0.
  match goal with |- context [rb (BFrag ?sel) ?st1] => pose proof (Hrb (BFrag sel) st1) as H;
    pose proof (Rtrans _ _ _ H0 H) as H1; destruct (rb (BFrag sel) st1) as [[] s'] end; try exact H1.
  match goal with |- context [rb (BFrag ?sel) ?st1] => pose proof (Hrb (BFrag sel) st1) as K;
    pose proof (Rtrans _ _ _ H1 K) as K1; destruct (rb (BFrag sel) st1) as [[] s2] end; try exact K1.
  destruct (is_empty _); [exact K1|]. destruct (is_empty _); exact K1.
Qed.
Lemma step_union_loop : forall bs st, R st (snd (build_union_loop rb bs st)).
Proof.
  induction bs as [|b bs IH]; intros st; cbn [build_union_loop]; [apply Rrefl|].
  pose proof (Hrb b st) as H. destruct (rb b st) as [[] s']; try exact H.
  pose proof (IH s') as K. destruct (build_union_loop rb bs s') as [[] s2]; eapply Rtrans; eassumption.
Qed.
Lemma step_union : forall bs st, R st (snd (build_union rb bs st)).
Proof.
  intros bs st. unfold build_union. pose proof (step_union_loop bs st) as H.
  destruct (build_union_loop rb bs st) as [[] s']; exact H.
Qed.
Lemma step_bind : forall st x k, R st (snd x) -> (forall s st', R st' (snd (k s st'))) -> R st (snd (bind x k)).
Proof. intros st [[] s'] k H Hk; cbn [bind]; try exact H. eapply Rtrans; [exact H|apply Hk]. Qed.
Lemma step_internal : forall id st, R st (snd (build_internal rb id st)).
Proof.
  intros id st. unfold build_internal. destruct (q_errors _); [|apply Rrefl].
  destruct (collect_deps _); try apply Rrefl.
  apply step_bind; [apply step_ctes|]. intros sq s1.
  apply step_bind; [apply step_from|]. intros fr s2.
  apply step_bind; [apply Hrb|]. intros wh s3.
  apply step_bind; [apply Hrb|]. intros gr s4.
  apply step_bind; [apply step_orders|]. intros ord s5. cbn zeta.
  apply step_bind; [apply step_selects|]. intros sel s6. cbn zeta.
  apply step_bind.
  - destruct (q_unions (get_q s6 id)); [apply Rrefl|]. apply step_bind; [apply step_union|]. intros; apply Rrefl.
  - intros s st'. destruct (q_debug _); [|apply Rrefl]. destruct (interpolate _ _ _); apply Rrefl.
Qed.
End RecQ.

Theorem step_build : forall n e b st, R st (snd (build n e b st)).
Proof.
  induction n as [|n IH]; intros e b st; cbn [build]; [apply Rrefl|].
  destruct b as [| |f| |[f|] t|t|x a|[id|]|p]; try apply Rrefl.
  - apply step_frag. exact IH.
  - apply step_frag. exact IH.
  - apply step_internal. intros b s. apply IH.
  - apply step_prog. exact IH.
Qed.
End Step.
