(** Placeholders and arguments of built queries. *)
From Coq Require Import Strings.String Strings.Ascii NArith ZArith List Bool Lia.
From Verif Require Import GoStr GoNum Syntax Value Util Model Sqlf Sqlb Spec_syntax RefSem Spec_build
  Text_proofs Sim_proofs Fuel_proofs Order_proofs Store_proofs Map_proofs.
Import ListNotations.
Open Scope string_scope.

(** Arguments that can be committed in the given style. *)
Definition okv (dollar : bool) : value -> bool := if dollar then hashable else all_values.

Lemma build_general : forall P n e b st, lib_env e = true -> lib P b = true ->
  forallb (lib_qb P) (st_heap st) = true ->
  (st_dollar st = true -> forall v, P v = true -> hashable v = true) ->
  let r := gbuild n e b (mkG [] (st_heap st)) in
  let log := g_log (snd r) in
  build n e b st = (omap (render (shown st log)) (fst r), set_heap (replay st log) (g_heap (snd r)))
  /\ forallb P log = true /\ okT log (fst r).
Proof.
  intros P n e b st He Hb Hh HP r log.
  pose proof (sim_build P st HP n e b (mkG [] (st_heap st)) He Hb) as H.
  destruct H as (_ & [H1 _] & H2 & H3).
  { split; [reflexivity|exact Hh]. }
  assert (Ei : inst st (mkG [] (st_heap st)) = st) by (unfold inst; cbn; apply set_heap_same).
  rewrite Ei in H3. split; [exact H3|]. split; [exact H1|exact H2].
Qed.

Lemma shown_denotes : forall st log j v, sound_store st -> (st_dollar st = true -> forallb hashable log = true) ->
  nth_error log j = Some v ->
  denotes (st_dollar st) (st_args (replay st log)) (shown st log j) v.
Proof.
  intros st log j v Hs Hh Hn. unfold denotes. destruct (st_dollar st) eqn:Ed.
  - destruct (shown_number st log j v) as [k [w [H1 [H2 [H3 H4]]]]].
    + split; [exact Ed|exact (Hs Ed)].
    + apply Hh. reflexivity.
    + exact Hn.
    + exists k, w. split; [exact H1|]. split; [exact H2|]. split; [exact H3|]. destruct H4 as [->|H4]; [left; reflexivity|right; exact H4].
  - apply shown_question; [exact Ed|]. apply nth_error_Some. congruence.
Qed.

Lemma render_question : forall st log t, st_dollar st = false -> covers log t ->
  render (shown st log) t = render qmark t.
Proof. intros st log t Hd Hc. apply render_ext. intros j Hj. apply shown_question; [exact Hd|exact (Hc j Hj)]. Qed.

Lemma okv_hash : forall st, st_dollar st = true -> forall v, okv (st_dollar st) v = true -> hashable v = true.
Proof. intros st -> v H. exact H. Qed.

Theorem local_refs : forall n e b st, lib_env e = true ->
  lib (okv (st_dollar st)) b = true -> forallb (lib_qb (okv (st_dollar st))) (st_heap st) = true ->
  sound_store st ->
  let alone := build n e b (new_store style_question (st_heap st)) in
  let inside := build n e b st in
  st_heap (snd inside) = st_heap (snd alone) /\
  (st_dollar st = false -> st_args (snd inside) = (st_args st ++ st_args (snd alone))%list) /\
  match fst alone with
  | ROk s0 => exists t q, s0 = render qmark t /\ fst inside = ROk (render q t) /\
      forall j, In j (placeholders t) -> exists v,
        nth_error (st_args (snd alone)) j = Some v /\
        denotes (st_dollar st) (st_args (snd inside)) (q j) v
  | RErr er => fst inside = RErr er
  | RPanic er => fst inside = RPanic er
  | RFuel => fst inside = RFuel
  end.
Proof.
  intros n e b st He Hb Hh Hs alone inside.
  destruct (build_general _ n e b st He Hb Hh (okv_hash st)) as [E1 [G1 C1]].
  assert (Ea := build_general (okv (st_dollar st)) n e b (new_store style_question (st_heap st)) He Hb Hh).
  destruct Ea as [E2 [_ _]]; [discriminate|].
  cbn [st_heap new_store] in E2.
  set (r := gbuild n e b (mkG [] (st_heap st))) in *. set (log := g_log (snd r)) in *.
  assert (Q := replay_question log (new_store style_question (st_heap st)) eq_refl). destruct Q as [Q1 _].
  cbn [new_store st_args app] in Q1.
  unfold alone, inside. rewrite E1, E2. cbn [snd fst set_heap st_heap st_args].
  split; [reflexivity|]. split.
  { intros Hd. rewrite Q1. apply replay_question. exact Hd. }
  destruct (fst r) as [t|er|er|]; cbn [omap okT] in *; try reflexivity.
  exists t, (shown st log). split.
  { apply render_question; [reflexivity|exact C1]. }
  split; [reflexivity|]. intros j Hj. rewrite Q1.
  destruct (nth_error log j) as [v|] eqn:En.
  - exists v. split; [reflexivity|]. apply shown_denotes; [exact Hs| |exact En].
    intros Hd. rewrite Hd in G1. exact G1.
  - apply nth_error_None in En. specialize (C1 j Hj). lia.
Qed.

(* ------------------------------------------------------------------ *)
(** * Both styles *)

Lemma hash_lib : forall b, lib hashable b = true -> lib (okv true) b = true.
Proof. auto. Qed.

Theorem both_styles : forall n h b, lib hashable b = true -> forallb (lib_qb hashable) h = true ->
  let d := build_query n style_dollar h b in
  let q := build_query n style_question h b in
  snd d = snd q /\
  match fst q with
  | ROk (sq, aq) => exists t p ad, sq = render qmark t /\ fst d = ROk (render p t, ad) /\
      forall j, In j (placeholders t) -> exists v, nth_error aq j = Some v /\ dollar_denotes ad (p j) v
  | RErr er => fst d = RErr er
  | RPanic er => fst d = RPanic er
  | RFuel => fst d = RFuel
  end.
Proof.
  intros n h b Hb Hh d q.
  assert (H := local_refs n [builtins] b (new_store style_dollar h) eq_refl Hb Hh).
  destruct H as [H1 [_ H2]]. { intros _ v k Hk. discriminate Hk. }
  unfold d, q, build_query. cbn [st_heap new_store] in *.
  destruct (build n [builtins] b (mkStore (style_question =? style_dollar)%Z [] [] h)) as [rq stq] eqn:Eq.
  change (mkStore (style_question =? style_dollar)%Z [] [] h) with (new_store style_question h) in Eq.
  cbn [snd fst] in *. 
  change (mkStore (style_dollar =? style_dollar)%Z [] [] h) with (new_store style_dollar h) in *.
  rewrite Eq in *. cbn [fst snd] in *.
  destruct (build n [builtins] b (new_store style_dollar h)) as [rd std]. cbn [fst snd] in *.
  split; [exact H1|]. destruct rq as [sq|er|er|].
  - destruct H2 as [t [p [Es [Ed Hj]]]]. exists t, p, (st_args std). split; [exact Es|]. subst rd. split; [reflexivity|].
    exact Hj.
  - subst rd. reflexivity.
  - subst rd. reflexivity.
  - subst rd. reflexivity.
Qed.

(* ------------------------------------------------------------------ *)
(** * Argument values do not reach the text *)

Theorem values_inert : forall m n style h b,
  style <> style_dollar -> lib all_values b = true -> forallb (lib_qb all_values) h = true ->
  build_query n style (map (map_qb m) h) (map_b m b) =
  (match fst (build_query n style h b) with
   | ROk (s, args) => ROk (s, map m args)
   | RErr er => RErr er | RPanic er => RPanic er | RFuel => RFuel
   end, map (map_qb m) (snd (build_query n style h b))).
Proof.
  intros m n style h b Hst Hb Hh. unfold build_query.
  assert (Hd : forall x, st_dollar (new_store style x) = false).
  { intros x. unfold new_store. cbn [st_dollar]. apply Z.eqb_neq. exact Hst. }
  destruct (build_general all_values n [builtins] b (new_store style h) eq_refl Hb Hh) as [E1 [_ C1]].
  { rewrite Hd. discriminate. }
  destruct (build_general all_values n [builtins] (map_b m b) (new_store style (map (map_qb m) h)) eq_refl) as [E2 [_ C2]].
  { apply map_lib. exact Hb. }
  { cbn [new_store st_heap]. rewrite forallb_forall in Hh |- *. intros q Hq. apply in_map_iff in Hq as [q' [<- Hq']].
    apply map_lib_qb. apply Hh. exact Hq'. }
  { rewrite Hd. discriminate. }
  cbn [new_store st_heap] in *. rewrite E1, E2. clear E1 E2.
  change (mkG [] (map (map_qb m) h)) with (mapg m (mkG [] h)) in *. rewrite map_gbuild in *.
  unfold mr in *. cbn [fst snd] in *.
  set (r := gbuild n [builtins] b (mkG [] h)) in *. cbn [mapg g_log g_heap] in *.
  set (log := g_log (snd r)) in *.
  change (mkStore (style =? style_dollar)%Z [] [] h) with (new_store style h).
  change (mkStore (style =? style_dollar)%Z [] [] (map (map_qb m) h)) with (new_store style (map (map_qb m) h)).
  cbn [set_heap st_heap st_args]. f_equal.
  destruct (replay_question log (new_store style h) (Hd _)) as [Q1 _].
  destruct (replay_question (map m log) (new_store style (map (map_qb m) h)) (Hd _)) as [Q2 _].
  rewrite Q1, Q2. destruct (fst r) as [t|er|er|]; cbn [omap okT] in *; try reflexivity.
  rewrite (render_question _ _ _ (Hd _) C1), (render_question _ _ _ (Hd _) C2). reflexivity.
Qed.

(* ------------------------------------------------------------------ *)
(** * The store during a build, including user code *)

Theorem store_grows : forall n e b st, grows st (snd (build n e b st)).
Proof.
  intros n e b st. apply (step_build grows).
  - apply grows_refl.
  - apply grows_trans.
  - intros v s. apply grows_commit.
  - intros s id. unfold set_q. apply (grows_refl s).
  - intros s id. unfold set_q. apply (grows_refl s).
  - intros z s s' _. apply (grows_refl s).
Qed.

(* ------------------------------------------------------------------ *)
(** * Sequences of commits *)

Lemma dict_find_eq : forall v w d, go_eq v w = true -> dict_find v d = dict_find w d.
Proof.
  intros v w d H. induction d as [|[x i] d IH]; [reflexivity|]. rewrite !dict_find_cons. rewrite IH.
  assert (E : go_eq v x = go_eq w x); [|rewrite E; reflexivity].
  apply bool_iff. split; intros K.
  - apply go_eq_trans with v; [rewrite go_eq_sym; exact H|exact K].
  - apply go_eq_trans with w; assumption.
Qed.

(** What is known after committing [seen] (latest first). *)
Definition tracks (seen : list value) (st : store) : Prop :=
  dollar_ok st /\
  (forall v, existsb (go_eq v) seen = true <-> exists k, dict_find v (st_dict st) = Some k).

Lemma commit_all_args : forall vs seen st, tracks seen st -> forallb hashable vs = true ->
  st_args (snd (commit_all vs st)) = (st_args st ++ firsts seen vs)%list.
Proof.
  induction vs as [|v vs IH]; intros seen st [Ho Ht] Hh; [cbn; rewrite app_nil_r; reflexivity|].
  cbn in Hh. apply andb_prop in Hh as [Hv Hvs].
  assert (Hnext : tracks (v :: seen) (snd (commit v st)) /\
     st_args (snd (commit v st)) = (st_args st ++ (if existsb (go_eq v) seen then [] else [v]))%list).
  { pose proof (commit_dollar_ok v st Ho) as Ho'. destruct Ho as [Hd Hf]. unfold commit in *. rewrite Hd, Hv in *.
    destruct (dict_find v (st_dict st)) as [k|] eqn:Ek; cbn [snd] in *.
    - assert (Es : existsb (go_eq v) seen = true) by (apply Ht; eauto). rewrite Es.
      split; [|rewrite app_nil_r; reflexivity]. split; [exact Ho'|]. intros w. cbn [existsb]. split.
      + intros H. apply orb_prop in H as [H|H]; [exists k; rewrite (dict_find_eq w v); auto|apply Ht; exact H].
      + intros H. apply Ht in H. rewrite H. apply orb_true_r.
    - assert (Es : existsb (go_eq v) seen = false).
      { destruct (existsb (go_eq v) seen) eqn:Es; [|reflexivity]. apply Ht in Es as [k Hk]. congruence. }
      rewrite Es. split; [|reflexivity]. split; [exact Ho'|]. intros w. cbn [existsb st_dict]. rewrite dict_find_cons. split.
      + intros H. destruct (go_eq w v) eqn:Ew; [eauto|]. apply Ht. exact H.
      + intros [k Hk]. destruct (go_eq w v) eqn:Ew; [reflexivity|]. cbn [orb]. apply Ht. eauto. }
  destruct Hnext as [Hn Ea].
  cbn [commit_all firsts]. destruct (commit v st) as [r st'] eqn:Ec. cbn [snd] in *.
  specialize (IH _ _ Hn Hvs). destruct (commit_all vs st') as [rs st2] eqn:Er. cbn [snd] in *.
  rewrite IH, Ea. rewrite <- app_assoc. f_equal. destruct (existsb (go_eq v) seen); reflexivity.
Qed.

(** The number given to each commit. *)
Lemma commit_all_nums : forall vs st, dollar_ok st -> forallb hashable vs = true ->
  exists ks, fst (commit_all vs st) = map (fun k => ROk ("$" ++ dec (N.of_nat k))) ks /\
    List.length ks = List.length vs /\
    (forall i k v, nth_error ks i = Some k -> nth_error vs i = Some v ->
       (forall w, go_eq v w = true -> dict_find w (st_dict (snd (commit_all vs st))) = Some k)) /\
    (forall i j k v w, nth_error ks i = Some k -> nth_error ks j = Some k -> i < j ->
       nth_error vs i = Some v -> nth_error vs j = Some w -> go_eq w v = true) /\
    (forall i k w, nth_error ks i = Some k -> nth_error vs i = Some w -> k <= List.length (st_args st) ->
       exists x, nth_error (st_args st) (k - 1) = Some x /\ go_eq w x = true).
Proof.
  induction vs as [|v vs IH]; intros st Ho Hh.
  { exists []. repeat apply conj; try reflexivity; intros i; destruct i; discriminate. }
  cbn in Hh. apply andb_prop in Hh as [Hv Hvs].
  pose proof (commit_dollar_ok v st Ho) as Ho'.
  destruct (IH (snd (commit v st)) Ho' Hvs) as [ks [K1 [K2 [K3 [K4 K5]]]]].
  assert (Hc : exists k, fst (commit v st) = ROk ("$" ++ dec (N.of_nat k)) /\
    (forall w, go_eq v w = true -> dict_find w (st_dict (snd (commit v st))) = Some k) /\
    k <= List.length (st_args (snd (commit v st))) /\
    (exists x, nth_error (st_args (snd (commit v st))) (k - 1) = Some x /\ (x = v \/ go_eq v x = true)) /\
    (k <= List.length (st_args st) -> exists x, nth_error (st_args st) (k - 1) = Some x /\ go_eq v x = true)).
  { destruct Ho as [Hd Hf]. unfold commit. rewrite Hd, Hv.
    destruct (dict_find v (st_dict st)) as [k|] eqn:Ek; cbn [fst snd].
    - exists k. rewrite itoa_nat_dec. split; [reflexivity|].
      destruct (Hf _ _ Ek) as [Hk1 [x [Hx1 Hx2]]].
      split; [intros w Hw; rewrite <- (dict_find_eq v w _ Hw); exact Ek|].
      split. { assert (k - 1 < List.length (st_args st)) by (apply nth_error_Some; congruence). lia. }
      split; [exists x; auto|]. intros _. exists x. auto.
    - exists (S (List.length (st_args st))). rewrite itoa_nat_dec. split; [reflexivity|].
      cbn [st_dict st_args]. split.
      { intros w Hw. rewrite dict_find_cons. rewrite go_eq_sym, Hw. reflexivity. }
      split; [rewrite app_length; cbn; lia|]. split; [|lia].
      exists v. split; [|left; reflexivity]. rewrite nth_error_app2 by lia.
      replace (S (List.length (st_args st)) - 1 - List.length (st_args st)) with 0 by lia. reflexivity. }
  destruct Hc as [k [C1 [C2 [C3 [C4 C5]]]]].
  pose proof (grows_commit v st) as Hg.
  assert (Hg2 : grows (snd (commit v st)) (snd (commit_all vs (snd (commit v st))))).
  { clear. generalize (snd (commit v st)). induction vs as [|w vs IH]; intros s; [apply grows_refl|].
    cbn [commit_all]. pose proof (grows_commit w s) as H1. destruct (commit w s) as [r s']. cbn [snd] in H1.
    specialize (IH s'). destruct (commit_all vs s') as [rs s2]. cbn [snd] in *. eapply grows_trans; eassumption. }
  cbn [commit_all]. destruct (commit v st) as [r st'] eqn:Ec. cbn [snd fst] in *.
  destruct (commit_all vs st') as [rs st2] eqn:Er. cbn [snd fst] in *.
  exists (k :: ks). split; [subst r rs; reflexivity|]. split; [cbn; congruence|]. split; [|split].
  - intros [|i] k0 v0 E1 E2 w Hw; cbn in E1, E2.
    + inversion E1; inversion E2; subst. apply Hg2. apply C2. exact Hw.
    + eapply K3; eassumption.
  - intros [|i] [|j] k0 v0 w0 E1 E2 Hij E3 E4; cbn in E1, E2, E3, E4; try lia.
    + inversion E1; inversion E3; subst. destruct (K5 _ _ _ E2 E4 C3) as [x [Hx1 Hx2]].
      destruct C4 as [y [Hy1 Hy2]]. assert (x = y) by congruence. subst y.
      destruct Hy2 as [->|Hy2]; [exact Hx2|]. apply go_eq_trans with x; [exact Hx2|rewrite go_eq_sym; exact Hy2].
    + apply (K4 i j k0 v0 w0); auto. lia.
  - intros [|i] k0 w E1 E2 Hle; cbn in E1, E2.
    + inversion E1; inversion E2; subst. apply C5. exact Hle.
    + destruct Hg as (_ & [z Hz] & _).
      destruct (K5 _ _ _ E1 E2) as [x [Hx1 Hx2]]; [rewrite Hz, app_length; lia|].
      exists x. split; [|exact Hx2]. rewrite Hz in Hx1.
      destruct (Nat.eq_dec k0 0) as [->|Hk].
      * (* a number is never 0 *)
        cbn in *. destruct (st_args st); [cbn in Hle|exact Hx1].
        exfalso. cbn in Hx1. 
        assert (D : dollar_ok st2).
        { clear -Er Ho'. revert st' rs st2 Er Ho'. induction vs as [|a vs IHv]; intros s rs s2 E D; cbn in E.
          - inversion E; subst. exact D.
          - pose proof (commit_dollar_ok a s D) as D'. destruct (commit a s) as [r' s']. cbn [snd] in D'.
            destruct (commit_all vs s') as [rs' s3] eqn:E3. inversion E; subst. eapply IHv; eassumption. }
        specialize (K3 _ _ _ E1 E2 x Hx2). destruct D as [_ D]. apply D in K3. lia.
      * rewrite nth_error_app1 in Hx1 by lia. exact Hx1.
Qed.

Theorem commits_dedup : forall h vs i j v w ri rj, forallb hashable vs = true ->
  let r := commit_all vs (new_store style_dollar h) in
  st_args (snd r) = firsts [] vs /\
  (nth_error vs i = Some v -> nth_error vs j = Some w -> nth_error (fst r) i = Some ri -> nth_error (fst r) j = Some rj ->
   (ri = rj <-> i = j \/ go_eq v w = true)).
Proof.
  intros h vs i j v w ri rj Hh r.
  split.
  { unfold r. rewrite (commit_all_args vs [] (new_store style_dollar h)); [reflexivity| |exact Hh].
    split; [apply new_dollar_ok|]. intros u. cbn. split; [discriminate|intros [k Hk]; discriminate]. }
  destruct (commit_all_nums vs (new_store style_dollar h) (new_dollar_ok h) Hh) as [ks [K1 [K2 [K3 [K4 _]]]]].
  fold r in K1, K3. rewrite K1. intros Ei Ej Ri Rj. rewrite nth_error_map in Ri, Rj.
  destruct (nth_error ks i) as [ki|] eqn:Ki; [|discriminate]. destruct (nth_error ks j) as [kj|] eqn:Kj; [|discriminate].
  cbn in Ri, Rj. injection Ri as <-. injection Rj as <-. split.
  - intros E. assert (ki = kj).
    { assert (E' : "$" ++ dec (N.of_nat ki) = "$" ++ dec (N.of_nat kj)) by congruence.
      cbn in E'. injection E' as E'. apply Num_proofs.dec_inj in E'. lia. }
    subst kj. destruct (Nat.lt_trichotomy i j) as [L|[L|L]]; [right|left; exact L|right].
    + rewrite go_eq_sym. exact (K4 _ _ _ _ _ Ki Kj L Ei Ej).
    + exact (K4 _ _ _ _ _ Kj Ki L Ej Ei).
  - intros [->|E]; [congruence|].
    pose proof (K3 _ _ _ Ki Ei w E) as H1.
    assert (E2 : go_eq w w = true) by (apply go_eq_trans with v; [rewrite go_eq_sym; exact E|exact E]).
    pose proof (K3 _ _ _ Kj Ej w E2) as H2. congruence.
Qed.

(* ------------------------------------------------------------------ *)
(** * More fuel never changes a result *)

Theorem fuel_irrelevant : forall n m e b st, n <= m -> fst (build n e b st) <> RFuel ->
  build m e b st = build n e b st.
Proof.
  intros n m e b st Hle Hf. destruct (mono_build n m e b st Hle) as [H|H]; [contradiction|]. symmetry. exact H.
Qed.

(** Soundness is preserved by every build. *)
Definition keeps_sound (st st' : store) : Prop :=
  st_dollar st' = st_dollar st /\ (sound_store st -> sound_store st').
Theorem reached_sound : forall n e b style h, sound_store (snd (build n e b (new_store style h))).
Proof.
  intros n e b style h.
  assert (H : keeps_sound (new_store style h) (snd (build n e b (new_store style h)))).
  { apply (step_build keeps_sound).
    - intros st. split; auto.
    - intros x y z [H1 H2] [K1 K2]. split; [congruence|auto].
    - intros v st. split; [apply commit_dollar|]. intros Hs Hd. rewrite commit_dollar in Hd.
      apply (commit_dollar_ok v st). split; [exact Hd|exact (Hs Hd)].
    - intros st id. split; [reflexivity|]. intros Hs. exact Hs.
    - intros st id. split; [reflexivity|]. intros Hs. exact Hs.
    - intros z st st' _. split; [reflexivity|]. intros Hs. exact Hs. }
  apply H. intros _ v k Hk. discriminate Hk.
Qed.
