(** Embedding a statement built on its own. *)
From Coq Require Import Strings.String Strings.Ascii NArith ZArith List Bool Lia.
From Verif Require Import GoStr GoNum Syntax Value Util Model Sqlf Sqlb RefSem Spec_build Sim_proofs Store_proofs Build_proofs Spec_user.
Import ListNotations.
Open Scope string_scope.

Lemma own_query_run : forall rb e style b k st, run_prog rb e (own_query style b k) st =
  let '(r, st') := rb [builtins] b (new_store style (st_heap st)) in
  let st2 := set_heap st (st_heap st') in
  match r with
  | ROk s => run_prog rb e (k (ROk (s, st_args st'))) st2
  | RErr er => run_prog rb e (k (RErr er)) st2
  | RPanic er => run_prog rb e (k (RPanic er)) st2
  | RFuel => (RFuel, st2)
  end.
Proof.
  intros rb e style b k st. unfold own_query. cbn [run_prog check_funcs forallb]. destruct (rb [builtins] b _) as [[] st']; reflexivity.
Qed.
Lemma hand_over_run : forall rb e l s st, (st_dollar st = true -> forallb hashable l = true) ->
  run_prog rb e (hand_over l s) st = (ROk s, replay st l).
Proof.
  intros rb e. induction l as [|v l IH]; intros s st H; [reflexivity|]. cbn [hand_over run_prog replay].
  assert (K : exists x, fst (commit v st) = ROk x).
  { unfold commit. destruct (st_dollar st); [|eexists; reflexivity]. specialize (H eq_refl). cbn in H. apply andb_prop in H as [-> _].
    destruct (dict_find v (st_dict st)); eexists; reflexivity. }
  destruct K as [x K]. pose proof (commit_dollar v st) as D. destruct (commit v st) as [o st']. cbn [fst snd] in *. subst o. apply IH. rewrite D. intros Hd. specialize (H Hd). cbn in H.
  apply andb_prop in H. apply H.
Qed.
Lemma replay_set_heap : forall l st h, replay (set_heap st h) l = set_heap (replay st l) h.
Proof. induction l as [|v l IH]; intros st h; [reflexivity|]. cbn [replay]. rewrite commit_heap. cbn [snd]. apply IH. Qed.
Lemma set_heap_twice : forall st h h', set_heap (set_heap st h) h' = set_heap st h'.
Proof. reflexivity. Qed.

Theorem embed_question : forall n st b, st_dollar st = false -> lib (fun _ => true) b = true -> forallb (lib_qb (fun _ => true)) (st_heap st) = true ->
  let x := build n [builtins] b st in let y := build (S n) [builtins] (embed style_question b) st in
  fst y = fst x /\ st_heap (snd y) = st_heap (snd x) /\ (forall s, fst x = ROk s -> snd y = snd x).
Proof.
  intros n st b Hd Hb Hh. cbn zeta. unfold embed. cbn [build]. rewrite own_query_run.
  destruct (build_general (fun _ => true) n [builtins] b st eq_refl Hb Hh) as (E1 & _ & C1); [intros K; congruence|].
  destruct (build_general (fun _ => true) n [builtins] b (new_store style_question (st_heap st)) eq_refl Hb Hh) as (E2 & _ & _); [intros K; discriminate K|].
  cbn [st_heap new_store] in E2. set (r := gbuild n [builtins] b (mkG [] (st_heap st))) in *. set (log := g_log (snd r)) in *.
  rewrite E1, E2. cbn [fst snd set_heap st_heap st_args].
  destruct (replay_question log (new_store style_question (st_heap st)) eq_refl) as [Q1 _]. cbn [new_store st_args app] in Q1. rewrite Q1.
  destruct (fst r) as [t|er|er|]; cbn [omap okT run_prog fst snd set_heap st_heap] in *; try (repeat split; discriminate).
  change (mkStore (st_dollar st) (st_args st) (st_dict st) (g_heap (snd r))) with (set_heap st (g_heap (snd r))).
  rewrite hand_over_run by (intros K; cbn in K; congruence). rewrite replay_set_heap. cbn [fst snd].
  change (mkStore (style_question =? style_dollar)%Z [] [] (st_heap st)) with (new_store style_question (st_heap st)).
  rewrite (render_question st log t Hd C1), (render_question (new_store style_question (st_heap st)) log t eq_refl C1). repeat split.
Qed.

Lemma replay_added : forall log st, exists l, st_args (replay st log) = (st_args st ++ l)%list /\ replay st l = replay st log /\
  (forallb hashable log = true -> forallb hashable l = true).
Proof.
  induction log as [|v log IH]; intros st; [exists []; cbn; rewrite app_nil_r; auto|]. cbn [replay].
  assert (K : snd (commit v st) = st \/ st_args (snd (commit v st)) = (st_args st ++ [v])%list).
  { unfold commit. destruct (st_dollar st); [|right; reflexivity]. destruct (hashable v); [|left; reflexivity].
    destruct (dict_find v (st_dict st)); [left; reflexivity|right; reflexivity]. }
  destruct K as [K|K].
  - rewrite K. destruct (IH st) as (l & L1 & L2 & L3). exists l. repeat split; try assumption. intros H. apply L3. cbn in H. apply andb_prop in H. apply H.
  - destruct (IH (snd (commit v st))) as (l & L1 & L2 & L3). exists (v :: l). rewrite K, <- app_assoc in L1. split; [exact L1|]. split; [exact L2|].
    cbn. intros H. apply andb_prop in H as [-> H]. apply L3. exact H.
Qed.
Theorem embed_first : forall n style h b, lib (okv (style =? style_dollar)%Z) b = true -> forallb (lib_qb (okv (style =? style_dollar)%Z)) h = true ->
  build_query (S n) style h (embed style b) = build_query n style h b.
Proof.
  intros n style h b Hb Hh. unfold build_query, embed. cbn [build]. rewrite own_query_run. cbn [new_store st_heap].
  destruct (build_general (okv (style =? style_dollar)%Z) n [builtins] b (new_store style h) eq_refl Hb Hh) as (E1 & G1 & _).
  { intros K v Hv. cbn in K. unfold okv in Hv. rewrite K in Hv. exact Hv. }
  cbn [st_heap new_store] in E1. set (r := gbuild n [builtins] b (mkG [] h)) in *. set (log := g_log (snd r)) in *.
  rewrite E1. cbn [set_heap st_heap st_args].
  destruct (replay_added log (new_store style h)) as (l & L1 & L2 & L3). cbn [new_store st_args app] in L1. rewrite L1.
  assert (A : st_args (replay (mkStore (style =? style_dollar)%Z [] [] h) log) = l) by exact L1.
  destruct (fst r) as [t|er|er|]; cbn [omap run_prog]; try reflexivity.
  change (set_heap (mkStore (style =? style_dollar)%Z [] [] h) (g_heap (snd r))) with (set_heap (new_store style h) (g_heap (snd r))).
  rewrite hand_over_run.
  - rewrite replay_set_heap, L2. cbn [set_heap st_args st_heap]. change (new_store style h) with (mkStore (style =? style_dollar)%Z [] [] h). rewrite A. reflexivity.
  - intros K. cbn in K. apply L3. unfold okv in G1. rewrite K in G1. exact G1.
Qed.
