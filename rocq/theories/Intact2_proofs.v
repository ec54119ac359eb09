(** Closed parts give closed texts: building. *)
From Coq Require Import Strings.String Strings.Ascii NArith ZArith List Bool Lia.
From Verif Require Import GoStr GoNum Syntax Value Util Model Sqlf Sqlb Spec_base Spec_syntax Spec_eval Spec_query Spec_intact
  Lex_proofs Num_proofs Grammar_proofs Base_proofs Eval_proofs Use_proofs Query_proofs Clause_proofs Blame_proofs Intact_proofs.
Import ListNotations.
Open Scope string_scope.

(** The parts as they are read, before texts are merged. *)
Lemma reading_cons_text : forall t l d q, reading_parts d q (cons_text t l) = reading_parts d q (APlain t :: l).
Proof.
  intros t l d q. destruct l as [|[u|x i|n a|n] l]; cbn [cons_text];
    try (destruct (is_empty t) eqn:E; [destruct t; [reflexivity|discriminate]|reflexivity]).
  cbn [reading_parts]. rewrite reading_app. destruct (reading d q t) as [[d' q']|]; reflexivity.
Qed.
Lemma reading_norm : forall l d q, reading_parts d q (norm l) = reading_parts d q l.
Proof.
  induction l as [|x l IH]; intros d q; [reflexivity|]. destruct x as [t|s i|n a|n]; cbn [norm].
  - rewrite reading_cons_text. cbn [reading_parts]. destruct (reading d q t) as [[d' q']|]; [apply IH|reflexivity].
  - cbn [reading_parts]. destruct q; [reflexivity|apply IH].
  - cbn [reading_parts]. destruct q; [reflexivity|apply IH].
  - cbn [reading_parts]. destruct q; [reflexivity|apply IH].
Qed.
Lemma norm_call_in : forall l nm args, In (ACall nm args) l -> In (ACall nm args) (norm l).
Proof. intros l nm args H. apply (proj2 (norm_in _ (ACall nm args) Logic.I)). exact H. Qed.
Definition joins_ok (l : list aexpr) : Prop :=
  forall tmpl sep nums, In (ACall "join" (LStr tmpl :: LStr sep :: nums)) l ->
      enclosed sep /\ forall l', parsed tmpl = Some l' -> intact_parts l'.
Lemma intact_parse : forall raw es, parse raw = POk es -> (forall l, parsed raw = Some l -> intact_parts l) ->
  reading_parts 0 None (map strip es) = Some (0, None) /\ joins_ok (map strip es).
Proof.
  intros raw es Hp H. assert (E : parsed raw = Some (norm (map strip es))) by (unfold parsed; rewrite Hp; reflexivity).
  specialize (H _ E). inversion H as [l H1 H2]; subst. split; [rewrite <- (reading_norm (map strip es)); exact H1|].
  intros tmpl sep nums Hin. apply (H2 tmpl sep nums). apply norm_call_in. exact Hin.
Qed.
Lemma index_reading : forall i es d q, reading_parts d q (map strip (set_index i es)) = reading_parts d q (map strip es).
Proof.
  intros i. induction es as [|x es IH]; intros d q; [reflexivity|]. destruct x as [t p|s j p|n a p|n p]; cbn [set_index map strip reading_parts];
    try (destruct q; [reflexivity|apply IH]). destruct (reading d q t) as [[d' q']|]; [apply IH|reflexivity].
Qed.
Lemma index_joins : forall i es, joins_ok (map strip es) -> joins_ok (map strip (set_index i es)).
Proof.
  intros i es H tmpl sep nums Hin. apply (H tmpl sep nums). unfold set_index in Hin. rewrite map_map in Hin. apply in_map_iff in Hin as (x & E & Hx).
  apply in_map_iff. exists x. split; [|exact Hx]. destruct x; cbn in *; try exact E; discriminate.
Qed.

Definition heap_ok (st : store) : Prop := Forall intact_qb (st_heap st).
Definition fine (r : outcome string * store) : Prop := heap_ok (snd r) /\ forall s, fst r = ROk s -> enclosed s.
Definition fine_f (r : outcome string * fstate) : Prop := heap_ok (fs_st (snd r)) /\ forall s, fst r = ROk s -> enclosed s.
Lemma commit_fine : forall v st, heap_ok st -> fine (commit v st).
Proof.
  intros v st H. unfold commit. assert (K : forall i, enclosed ("$" ++ itoa_nat i)).
  { intros i. apply enclosed_idle. rewrite all_app, itoa_nat_idle. reflexivity. }
  destruct (st_dollar st); [|split; [exact H|intros s [= <-]; enc]].
  destruct (hashable v); [|split; [exact H|discriminate]]. destruct (dict_find _ _); (split; [exact H|intros s [= <-]; apply K]).
Qed.
Lemma lookup_intact : forall e name f, intact_env e -> lookup_fn e name = Some f -> intact_func name f.
Proof.
  assert (A : forall l name f, Forall (fun x => intact_func (fst x) (snd x)) l -> assoc name l = Some f -> intact_func name f).
  { induction l as [|[n g] l IH]; cbn; intros name f H E; [discriminate|]. inversion H as [|? ? H1 H2]; subst.
    destruct (String.eqb_spec name n) as [->|]; [injection E as <-; exact H1|]. eapply IH; eassumption. }
  induction e as [|l e IH]; intros name f H E; cbn in E; [discriminate|]. inversion H as [|? ? H1 H2]; subst.
  destruct (assoc name l) eqn:G; [injection E as <-; eapply A; eassumption|]. eapply IH; eassumption.
Qed.
Lemma builtins_intact : intact_env [builtins].
Proof. repeat (apply Forall_cons || apply Forall_nil); cbn [fst snd]; constructor. Qed.
Lemma nth1_mem : forall A (l : list A) i x, nth1 l i = Some x -> In x l.
Proof. intros A l i x H. unfold nth1 in H. destruct (_ && _) in H; [|discriminate]. apply nth_error_In in H. exact H. Qed.

Section Rec.
Variable rb : env -> builder -> store -> outcome string * store.
Hypothesis Hrb : forall e b st, intact_env e -> intact b -> heap_ok st -> fine (rb e b st).

Lemma prog_fine : forall p e st, intact_env e -> intact_prog p -> heap_ok st -> fine (run_prog rb e p st).
Proof.
  fix IH 1. intros p e st He Hp H. destruct p as [r [er|]|er|v k|k|fs b k|p k|z p k]; cbn [run_prog].
  - split; [exact H|discriminate].
  - inversion Hp; subst. split; [exact H|intros s [= <-]; assumption].
  - split; [exact H|discriminate].
  - inversion Hp as [| | |? ? Hk| | | |]; subst. destruct (commit_fine v st H) as [E1 E2]. destruct (commit v st) as [o st']. cbn [fst snd] in *.
    destruct o as [x|er|er|]; try (split; [exact E1|discriminate]). apply IH; [exact He|apply Hk, E2; reflexivity|exact E1].
  - inversion Hp as [| | | |? Hk| | |]; subst. apply IH; [exact He|apply Hk|exact H].
  - inversion Hp as [| | | | |? ? ? Hf Hb Hk| |]; subst. destruct (check_funcs fs); [apply IH; [exact He|apply Hk; discriminate|exact H]|].
    assert (He' : intact_env (match fs with [] => e | _ => fs :: e end)) by (destruct fs; [exact He|apply Forall_cons; assumption]).
    destruct (Hrb _ b st He' Hb H) as [E1 E2]. destruct (rb _ b st) as [o st']. cbn [fst snd] in *.
    destruct o as [x|er|er|]; try (apply IH; [exact He|apply Hk; exact E2|exact E1]). split; [exact E1|discriminate].
  - inversion Hp as [| | | | | |? ? Hq Hk|]; subst. destruct (IH p e st He Hq H) as [E1 E2]. destruct (run_prog rb e p st) as [o st']. cbn [fst snd] in *.
    destruct o as [x|er|er|]; try (apply IH; [exact He|apply Hk; exact E2|exact E1]). split; [exact E1|discriminate].
  - inversion Hp as [| | | | | | |? ? ? Hq Hk]; subst. destruct (IH p [builtins] (new_store z (st_heap st)) builtins_intact Hq H) as [E1 E2].
    destruct (run_prog rb _ p (new_store z (st_heap st))) as [o st']. cbn [fst snd] in *.
    assert (K : heap_ok (set_heap st (st_heap st'))) by exact E1. destruct o as [x|er|er|].
    + apply IH; [exact He| |exact K]. apply Hk. intros s l [= <- _]. apply E2. reflexivity.
    + apply IH; [exact He| |exact K]. apply Hk. discriminate.
    + apply IH; [exact He| |exact K]. apply Hk. discriminate.
    + split; [exact K|discriminate].
Qed.

Variable rc : env -> frame -> list expr -> fstate -> outcome string * fstate.
Variable jf : nat.
Definition frame_ok (fc : frame) : Prop := Forall intact (fr_frags fc).
Definition rc_ok : Prop := forall e fc es X, intact_env e -> frame_ok fc -> heap_ok (fs_st X) ->
  reading_parts 0 None (map strip es) = Some (0, None) -> joins_ok (map strip es) -> fine_f (rc e fc es X).
Hypothesis Hrc : rc_ok.

Lemma arg_fine : forall fc i X, heap_ok (fs_st X) -> fine_f (func_arg fc i X).
Proof.
  intros fc i X H. unfold func_arg. destruct (nth1 _ _) as [v|]; [|split; [exact H|discriminate]].
  destruct (commit_fine v _ H) as [E1 E2]. destruct (commit v (fs_st X)) as [o st']. split; [exact E1|exact E2].
Qed.
Lemma fragment_fine : forall e fc i X, intact_env e -> frame_ok fc -> heap_ok (fs_st X) -> fine_f (func_fragment rb e fc i X).
Proof.
  intros e fc i X He Hc H. unfold func_fragment. destruct (nth1 _ _) as [b|] eqn:N; [|split; [exact H|discriminate]].
  apply nth1_mem in N. pose proof (proj1 (Forall_forall _ _) Hc b N) as Hb.
  destruct (Hrb e b _ He Hb H) as [E1 E2]. destruct (rb e b (fs_st X)) as [o st']. split; [exact E1|exact E2].
Qed.
Lemma compat_heap : forall name f st, intact_func name f -> heap_ok st -> heap_ok (snd (join_compat rb name f st)).
Proof.
  intros name f st Hf H. unfold join_compat. destruct (negb _); [exact H|].
  destruct f as [| | |sg body]; try exact H. inversion Hf as [| | |? ? ? Hb]; subst.
  assert (He : intact_env [[]]) by (apply Forall_cons; apply Forall_nil).
  destruct (prog_fine (body [LInt 0]) [[]] (new_store style_question (st_heap st)) He (Hb _) H) as [E1 E2].
  destruct (run_prog rb _ _ _) as [o st']. cbn [fst snd] in E1, E2. destruct (fst (safe _ _)); exact E1.
Qed.
Lemma prep_heap : forall e es st, intact_env e -> heap_ok st -> heap_ok (snd (join_prep rb e es st)).
Proof.
  intros e es st He. revert st. induction es as [|x es IH]; intros st H; [exact H|].
  destruct x as [r p|a i p|name args p|name p]; cbn [join_prep]; try (apply IH; exact H).
  destruct (lookup_fn e name) as [f|] eqn:L; [|exact H].
  pose proof (compat_heap name f st (lookup_intact _ _ _ He L) H) as E. destruct (join_compat rb name f st) as [[c z] st']. cbn [snd] in E.
  destruct c; [|destruct z; exact E]. specialize (IH st' E). destruct (join_prep rb e es st') as [o st2]. destruct o; exact IH.
Qed.
Lemma loop_fine : forall n e fc es sep from to i acc X, intact_env e -> frame_ok fc -> heap_ok (fs_st X) ->
  reading_parts 0 None (map strip es) = Some (0, None) -> joins_ok (map strip es) -> enclosed sep -> enclosed acc ->
  fine_f (join_loop rc n e fc es sep from to i acc X).
Proof.
  induction n as [|n IH]; intros e fc es sep from to i acc X He Hc H Hr Hj Hs Ha; [split; [exact H|discriminate]|]. cbn [join_loop].
  destruct (Hrc e fc (set_index i es) X He Hc H) as [E1 E2]; [rewrite index_reading; exact Hr|apply index_joins; exact Hj|].
  destruct (rc e fc (set_index i es) X) as [o X']. cbn [fst snd] in *.
  destruct o as [r|er|er|]; try (split; [exact E1|discriminate]).
  - specialize (E2 r eq_refl). assert (K : enclosed (if is_empty r then acc else if is_empty acc then r else acc ++ sep ++ r)).
    { destruct (is_empty r); [exact Ha|]. destruct (is_empty acc); [exact E2|]. apply enclosed_app; [exact Ha|]. apply enclosed_app; assumption. }
    cbn zeta. destruct (_ && _); [split; [exact E1|intros s [= <-]; exact K]|]. apply IH; assumption.
  - destruct (is_invalid_index er); [destruct (_ || _)|]; (split; [exact E1|]); try discriminate. intros s [= <-]. exact Ha.
Qed.
Lemma join_fine : forall e fc tmpl sep idx X, intact_env e -> frame_ok fc -> heap_ok (fs_st X) ->
  enclosed sep -> (forall l, parsed tmpl = Some l -> intact_parts l) -> fine_f (func_join rb rc jf e fc tmpl sep idx X).
Proof.
  intros e fc tmpl sep idx X He Hc H Hs Ht. unfold func_join.
  destruct idx as [|a [|b [|c idx]]]; try (split; [exact H|discriminate]).
  all: destruct (_ && _); [split; [exact H|discriminate]|]; destruct (parse tmpl) as [es|p m| |] eqn:Ep; try (split; [exact H|discriminate]);
    destruct (intact_parse _ _ Ep Ht) as [T1 T2]; pose proof (prep_heap e es _ He H) as E; destruct (join_prep rb e es (fs_st X)) as [o st']; cbn [snd] in E;
    destruct o as [[|k]|er|er|]; try (split; [exact E|discriminate]); apply loop_fine; try assumption; apply en_empty.
Qed.
Lemma outs_fine : forall outs r s, (forall s, r = ROk s -> enclosed s) -> norm_outs outs r = ROk s -> enclosed s.
Proof.
  intros outs r s H E. destruct outs as [|x [|y outs]]; destruct r; cbn in E; try discriminate; try (injection E as <-; apply en_empty); injection E as <-; apply H; reflexivity.
Qed.
Lemma call_fine : forall e fc name f args X, intact_env e -> frame_ok fc -> intact_func name f -> heap_ok (fs_st X) ->
  (forall tmpl sep nums, name = "join" -> args = LStr tmpl :: LStr sep :: nums -> enclosed sep /\ forall l', parsed tmpl = Some l' -> intact_parts l') ->
  fine_f (call_fn rb rc jf e fc f args X).
Proof.
  intros e fc name f args X He Hc Hf H Hj. destruct f as [| | |sg body]; cbn [call_fn].
  - apply arg_fine. exact H.
  - apply fragment_fine; assumption.
  - inversion Hf; subst. destruct args as [|[] [|[] idx]]; try (split; [exact H|discriminate]). destruct (Hj _ _ _ eq_refl eq_refl) as [J1 J2]. apply join_fine; assumption.
  - inversion Hf as [| | |? ? ? Hb]; subst. destruct (prog_fine (body args) e _ He (Hb _) H) as [E1 E2].
    destruct (run_prog rb e _ (fs_st X)) as [o st']. cbn [fst snd] in *. split; [exact E1|]. cbn [fst]. intros s E. eapply outs_fine; eassumption.
Qed.
Lemma safe_fine : forall name r, fine_f r -> fine_f (safe name r).
Proof. intros name [[s|er|er|] X] [H1 H2]; cbn [safe]; (split; [exact H1|]); try discriminate. exact H2. Qed.
Lemma expr_fine : forall e fc x X, intact_env e -> frame_ok fc -> heap_ok (fs_st X) -> joins_ok [strip x] ->
  (exists t p, x = EPlain t p) \/ fine_f (eval_expr rb rc jf e fc x X).
Proof.
  intros e fc x X He Hc H Hj. destruct x as [t p|a i p|name args p|name p]; cbn [eval_expr]; [left; eauto|right|right|right].
  - destruct (nth1 _ _); [apply arg_fine; exact H|split; [exact H|discriminate]].
  - unfold eval_function. destruct (lookup_fn e name) as [f|] eqn:L; [|split; [exact H|discriminate]]. unfold eval_call.
    destruct (arity_ok _ _); [|split; [exact H|discriminate]]. destruct (eval_args _ _); try (split; [exact H|discriminate]).
    destruct (any_rejected _ _); apply safe_fine; [split; [exact H|discriminate]|]. apply (call_fine e fc name); try assumption; [eapply lookup_intact; eassumption|].
    intros tmpl sep nums -> ->. apply (Hj tmpl sep nums). left. reflexivity.
  - split; [exact H|discriminate].
Qed.
Lemma joins_cons : forall x l, joins_ok (x :: l) -> joins_ok [x] /\ joins_ok l.
Proof. intros x l H. split; intros tmpl sep nums Hin; apply (H tmpl sep nums); [destruct Hin as [Hin|[]]; left; exact Hin|right; exact Hin]. Qed.
Lemma clause_fine : forall e fc es X d q d' q', intact_env e -> frame_ok fc -> heap_ok (fs_st X) ->
  reading_parts d q (map strip es) = Some (d', q') -> joins_ok (map strip es) ->
  heap_ok (fs_st (snd (clause rb rc jf e fc es X))) /\ forall s, fst (clause rb rc jf e fc es X) = ROk s -> reading d q s = Some (d', q').
Proof.
  intros e fc es X d q d' q' He Hc. revert X d q. induction es as [|x es IH]; intros X d q H Hr Hj.
  { cbn in *. split; [exact H|]. intros s [= <-]. exact Hr. }
  cbn [map] in Hr, Hj. destruct (joins_cons _ _ Hj) as [J1 J2].
  destruct (expr_fine e fc x X He Hc H J1) as [(t & p & ->)|[E1 E2]].
  - cbn [clause eval_expr]. cbn [strip reading_parts] in Hr. destruct (reading d q t) as [[d1 q1]|] eqn:R; [|discriminate].
    destruct (IH X d1 q1 H Hr J2) as [F1 F2]. destruct (clause rb rc jf e fc es X) as [o X2]. cbn [fst snd] in *.
    destruct o as [r|er|er|]; cbn [fst snd]; (split; [exact F1|]); try discriminate. intros s [= <-]. rewrite reading_app, R. apply F2. reflexivity.
  - cbn [clause]. destruct x as [t p|a i p|name args p|name p].
    + cbn [eval_expr] in *. cbn [strip reading_parts] in Hr. destruct (reading d q t) as [[d1 q1]|] eqn:R; [|discriminate].
      destruct (IH X d1 q1 H Hr J2) as [F1 F2]. destruct (clause rb rc jf e fc es X) as [o X2]. cbn [fst snd] in *.
      destruct o as [r|er|er|]; cbn [fst snd]; (split; [exact F1|]); try discriminate. intros s [= <-]. rewrite reading_app, R. apply F2. reflexivity.
    + cbn [strip reading_parts] in Hr. destruct q; [discriminate|]. destruct (eval_expr rb rc jf e fc _ X) as [[s0|er|er|] X1]; cbn [fst snd] in *; try (split; [exact E1|discriminate]).
      destruct (IH X1 d None E1 Hr J2) as [F1 F2]. destruct (clause rb rc jf e fc es X1) as [o X2]. cbn [fst snd] in *.
      destruct o as [r|er|er|]; cbn [fst snd]; (split; [exact F1|]); try discriminate. intros s [= <-]. rewrite reading_app, (enclosed_reading s0 (E2 _ eq_refl)). apply F2. reflexivity.
    + cbn [strip reading_parts] in Hr. destruct q; [discriminate|]. destruct (eval_expr rb rc jf e fc _ X) as [[s0|er|er|] X1]; cbn [fst snd] in *; try (split; [exact E1|discriminate]).
      destruct (IH X1 d None E1 Hr J2) as [F1 F2]. destruct (clause rb rc jf e fc es X1) as [o X2]. cbn [fst snd] in *.
      destruct o as [r|er|er|]; cbn [fst snd]; (split; [exact F1|]); try discriminate. intros s [= <-]. rewrite reading_app, (enclosed_reading s0 (E2 _ eq_refl)). apply F2. reflexivity.
    + cbn [eval_expr] in *. split; [exact E1|discriminate].
Qed.
End Rec.

Lemma clause_n_fine : forall rb, (forall e b st, intact_env e -> intact b -> heap_ok st -> fine (rb e b st)) -> forall n, rc_ok (clause_n n rb).
Proof.
  intros rb Hrb. induction n as [|n IH]; intros e fc es X He Hc H Hr Hj; [split; [exact H|discriminate]|]. cbn [clause_n].
  destruct (clause_fine rb Hrb (clause_n n rb) n IH e fc es X 0 None 0 None He Hc H Hr Hj) as [E1 E2]. split; [exact E1|]. intros s Hs. apply enclosed_iff, E2, Hs.
Qed.
Lemma frag_fine : forall rb, (forall e b st, intact_env e -> intact b -> heap_ok st -> fine (rb e b st)) ->
  forall n e f st, intact_env e -> intact_frag f -> heap_ok st -> fine (build_frag n rb e f st).
Proof.
  intros rb Hrb n e f st He Hf H. destruct Hf as [raw args frags p s Hraw Hfr (d & B1 & B2)]. unfold build_frag. cbn [f_raw f_args f_frags f_prefix f_suffix].
  destruct (parse raw) as [es|o m| |] eqn:Ep; try (split; [exact H|discriminate]). destruct (intact_parse _ _ Ep Hraw) as [T1 T2].
  match goal with |- context [clause_n n rb e ?fc es ?X] => destruct (clause_n_fine rb Hrb n e fc es X He Hfr H T1 T2) as [E1 E2]; destruct (clause_n n rb e fc es X) as [o X'] end.
  cbn [fst snd] in *. destruct o as [body|er|er|]; try (split; [exact E1|discriminate]).
  destruct (_ && _); [|split; [exact E1|discriminate]]. cbn zeta. destruct (is_empty _) eqn:Eb; (split; [exact E1|]); intros x [= <-]; [apply en_empty|].
  pose proof (enclosed_trim _ (E2 body eq_refl)) as K. apply enclosed_iff.
  assert (P1 : reading 0 None (if is_empty p then "" else p ++ " ") = Some (d, None)).
  { destruct (is_empty p) eqn:Ez; [destruct p; [exact B1|discriminate]|]. rewrite reading_app, B1. reflexivity. }
  rewrite reading_app, P1, reading_app, (enclosed_reading _ K).
  destruct (is_empty s) eqn:Ez; [destruct s; [exact B2|discriminate]|]. exact B2.
Qed.
