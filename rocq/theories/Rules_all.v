(** The rules are what is computed. *)
From Coq Require Import Strings.String Strings.Ascii NArith ZArith List Bool Lia.
From Verif Require Import GoStr GoNum Syntax Value Util Model Sqlf Sqlb Spec_syntax RefSem Spec_build Spec_eval Spec_base Spec_query
  Fuel_proofs Eval_proofs Use_proofs Join_proofs Base_proofs Again_proofs Deps_proofs Query_proofs Query2_proofs Query3_proofs Ops_proofs Blame_proofs Spec_keep Keep_proofs Spec_steps Steps_proofs
  Spec_rules Rules_proofs Rules_query.
Import ListNotations.
Open Scope string_scope.

Lemma collect_no_index : forall q er, collect_deps q = RErr er \/ collect_deps q = RPanic er -> is_invalid_index er = false.
Proof.
  intros q er H. unfold collect_deps in H. fold (clause_builders q) in H. unfold extract_tables in H.
  pose proof (extract_list_spec (clause_builders q) []) as X. unfold extracts in X.
  destruct (extract_list (clause_builders q) []) as [ts|]; [|destruct H as [H|H]; [discriminate H|injection H as <-; reflexivity]].
  destruct (q_tables q) as [|id ids] eqn:Et; [destruct H as [H|H]; [discriminate H|injection H as <-; reflexivity]|].
  destruct (nth_error (q_tobjs q) id) as [ft|] eqn:Eo; [|destruct H as [H|H]; [discriminate H|injection H as <-; reflexivity]].
  assert (Hm : main_of q = Some ft) by (unfold main_of; rewrite Et; exact Eo).
  pose proof (deps_tables_blame q ft Hm (deps_fuel q) ts [ft_names ft] (or_introl eq_refl)) as K.
  assert (Hn : forall t, In t ts -> needed q t).
  { intros t Ht. apply (proj1 X t) in Ht. destruct Ht as [[]|(b & Hb & Hm')]. eapply nd_clause; eassumption. }
  specialize (K Hn). destruct (deps_tables (deps_fuel q) q ts [ft_names ft]) as [d|er'|er'|]; try (destruct H; discriminate).
  - pose proof (deps_ctes_blame (deps_fuel q) q (id :: ids) d) as C. rewrite Et in C. specialize (C (fun i H => H)).
    destruct (deps_ctes _ _ _ _) as [d'|er'|er'|]; try (destruct H; discriminate); [destruct C|]. destruct C as [-> C].
    destruct H as [H|H]; [discriminate H|injection H as <-; reflexivity].
  - destruct K as (u & H1 & H2 & ->). destruct H as [H|H]; [injection H as <-; reflexivity|discriminate H].
  - destruct K as [-> K]. destruct H as [H|H]; [discriminate H|injection H as <-; reflexivity].
Qed.

Lemma job_evolves : forall id j st, evolves st (job_state id j st).
Proof. intros id [b| | |] st; cbn [job_state]; try apply evolves_refl; apply evolves_set; [apply evolved_orders|apply evolved_select]. Qed.

Lemma jobs_evolve : forall n e id jobs st o st', do_all (do_job (build n e) id) jobs st = (o, st') -> evolves st st'.
Proof.
  intros n e id. induction jobs as [|j jobs IH]; intros st o st' E; cbn [do_all] in E; [injection E as <- <-; apply evolves_refl|].
  destruct (do_job (build n e) id j st) as [oj st2] eqn:Ej. assert (Vj : evolves st st2).
  { eapply evolves_trans; [apply job_evolves|]. unfold do_job in Ej. pose proof (evolves_build n e (job_builder id j st) (job_state id j st)) as V. rewrite Ej in V. exact V. }
  destruct oj as [s|er|er|]; try (injection E as <- <-; exact Vj).
  destruct (do_all (do_job (build n e) id) jobs st2) as [o2 st3] eqn:E2. apply IH in E2.
  destruct o2; injection E as <- <-; (eapply evolves_trans; eassumption).
Qed.

(* ------------------------------------------------------------------ *)
(** * What follows the rules is computed *)

Scheme makes_mind := Minimality for makes Sort Prop
  with part_mind := Minimality for part Sort Prop
  with parts_mind := Minimality for parts Sort Prop
  with turns_mind := Minimality for turns Sort Prop
  with series_mind := Minimality for series Sort Prop.
Combined Scheme rules_ind from makes_mind, part_mind, parts_mind, turns_mind, series_mind.

Definition fin (e : env) (b : builder) (st : store) (r : result) (st' : store) : Prop :=
  match r with Gives s => finishes e b st (ROk s) st' | Lacks => exists o, finishes e b st o st' /\ wanting o end.
Definition told_by (r : option (list string)) (o : outcome (list string)) : Prop :=
  match r with Some l => o = ROk l | None => exists er, (o = RErr er \/ o = RPanic er) /\ is_invalid_index er = true end.

Lemma finishes_evolves : forall e b st o st', finishes e b st o st' -> evolves st st'.
Proof. intros e b st o st' (n & E & _). pose proof (evolves_build n e b st) as V. rewrite E in V. exact V. Qed.
Lemma fin_evolves : forall e b st r st', fin e b st r st' -> evolves st st'.
Proof. intros e b st [s|] st' H; [|destruct H as (o & H & _)]; eapply finishes_evolves; exact H. Qed.
Lemma returns_evolves : forall e p st o st', returns e p st o st' -> evolves st st'.
Proof. intros e p st o st' (n & E & _). pose proof (prog_evolves n p e st) as V. rewrite E in V. exact V. Qed.
Lemma accepts_evolves : forall e l st st', accepts e l st st' -> evolves st st'.
Proof.
  intros e l st st' H. induction H as [st|nm l st st' L H IH|nm sg body l st o st1 st' L J R W H IH]; [apply evolves_refl|exact IH|].
  eapply evolves_trans; [|exact IH]. apply (evolves_fresh style_question). eapply returns_evolves. exact R.
Qed.
Lemma commit_evolves : forall v st s st', commit v st = (ROk s, st') -> evolves st st'.
Proof. intros v st s st' H. pose proof (evolves_commit v st) as V. rewrite H in V. exact V. Qed.
Lemma fin_at : forall e b st r st', fin e b st r st' -> exists N, forall n, N <= n -> exists o, build n e b st = (o, st') /\
  match r with Gives s => o = ROk s | Lacks => exists er, (o = RErr er \/ o = RPanic er) /\ is_invalid_index er = true end.
Proof.
  intros e b st [s|] st' H.
  - apply finishes_at in H as (N & H). exists N. intros n L. exists (ROk s). auto.
  - destruct H as (o & H & (er & O & B)). apply finishes_at in H as (N & H). exists N. intros n L. exists o. split; [auto|]. exists er. split; [exact O|]. apply index_iff. exact B.
Qed.
Lemma same_head : forall A (a a' b b' : list A), List.length a = List.length a' -> (a ++ b = a' ++ b')%list -> a = a' /\ b = b'.
Proof.
  induction a as [|x a IH]; intros [|y a'] b b' L H; try discriminate L; cbn [app] in H; [auto|].
  injection H as -> H. injection L as L. destruct (IH a' b b' L H) as [-> ->]. auto.
Qed.
Lemma same_last : forall A (a a' : list A) w g o s h w' g' o' s' h', (a ++ [w; g; o; s; h] = a' ++ [w'; g'; o'; s'; h'])%list ->
  a = a' /\ w = w' /\ g = g' /\ o = o' /\ s = s' /\ h = h'.
Proof.
  intros A a a' w g o s h w' g' o' s' h' H. assert (L : List.length a = List.length a').
  { apply (f_equal (@List.length A)) in H. rewrite !app_length in H. cbn in H. lia. }
  destruct (same_head A a a' _ _ L H) as [-> K]. injection K as -> -> -> -> ->. repeat split.
Qed.

Section Complete.
Variable e : env.
Hypothesis He : proper_env e.

(** A query builder with its dependencies settled. *)
Lemma query_at : forall id st q kt kc, heap_ok st -> q = get_q st id -> q_errors q = [] -> sound_query q -> choice q kt kc ->
  exists kc', (forall c, In c (q_ctes q) -> kc' c = kc c) /\ filter kc' (q_ctes q) = filter kc (q_ctes q) /\ forall n,
    match do_all (do_job (build n e) id) (clause_jobs q kt kc) st with
    | (ROk l, st1) => concluded (build n e) q kc' l st1 (build (S n) e (BQuery (Some id)) st)
    | y => fails_as (build (S n) e (BQuery (Some id)) st) y
    end.
Proof.
  intros id st q kt kc Ok Eq Er Hs Ch. subst q. destruct (Ok id) as (Ht & Hc & Hd). destruct (choice_dec _ Ht Hc Hs) as (d & Ed).
  pose proof (collect_choice _ d Ht Hc Ed) as Ch'. destruct (choice_filter _ _ _ _ _ Ch Ch') as [F1 F2].
  exists (fun c => dep_mem (c_name c, "") d). split.
  { intros c Hin. destruct Ch as [_ C1], Ch' as [_ C2]. specialize (C1 c Hin). specialize (C2 c Hin). cbv beta in C2.
    destruct (dep_mem (c_name c, "") d), (kc c); try reflexivity; [symmetry; apply C1; apply C2; reflexivity|apply C2; apply C1; reflexivity]. }
  split; [symmetry; exact F2|]. intros n. unfold clause_jobs. rewrite F1, F2.
  exact (internal_series (build n e) (fun b s => evolves_build n e b s) id st d Er Ed Hd).
Qed.

Lemma series_at : forall n id q st1, do_all (build n e) (q_unions q) st1 = do_all (do_job (build n e) id) (union_jobs q) st1.
Proof. intros n id q st1. unfold union_jobs. rewrite do_all_map. apply do_all_ext. reflexivity. Qed.

Theorem rules_complete :
  (forall b st r st', makes e b st r st' -> heap_ok st -> fin e b st r st') /\
  (forall args frags x st r ua uf st', part e args frags x st r ua uf st' -> heap_ok st -> steps e args frags x st r ua uf st' /\ evolves st st') /\
  (forall args frags l st r ua uf st', parts e args frags l st r ua uf st' -> heap_ok st -> steps_all e args frags l st r ua uf st' /\ evolves st st') /\
  (forall args frags tl from to i st r ua uf st', turns e args frags tl from to i st r ua uf st' -> heap_ok st ->
     rounds e args frags tl from to i st r ua uf st' /\ evolves st st') /\
  (forall id jobs st r st', series e id jobs st r st' -> heap_ok st ->
     (exists N, forall n, N <= n -> exists o, do_all (do_job (build n e) id) jobs st = (o, st') /\ told_by r o) /\ evolves st st').
Proof.
  apply rules_ind.
  - (* nothing *) intros b st H _. exists 1. split; [|discriminate]. destruct H as [<-|[<-|[]]]; reflexivity.
  - intros t st _. exists 1. split; [reflexivity|discriminate].
  - intros t st _. exists 1. split; [reflexivity|discriminate].
  - intros n a st _. exists 1. split; [reflexivity|discriminate].
  - (* fragment *) intros raw args frags p s st l body ua uf st' Pa _ IH C1 C2 Ok. destruct (IH Ok) as [S1 _].
    apply fragment_steps; [exact He|]. exists l, body, ua, uf. auto.
  - intros raw args frags p s st l ua uf st' Pa _ IH Ok. destruct (IH Ok) as [S1 _]. apply fragment_lacks; [exact He|]. exists l, ua, uf. auto.
  - (* column *) intros f t st r st' _ IH Ok. specialize (IH Ok).
    assert (K : forall o, finishes e (BFrag f) st o st' -> finishes e (BCol (Some f) t) st o st').
    { intros o ([|n] & E & N); [exists 0; auto|]. exists (S n). split; [exact E|exact N]. }
    destruct r as [s|]; [apply K; exact IH|]. destruct IH as (o & H & W). exists o. split; [apply K; exact H|exact W].
  - (* user code *) intros p st s st' (n & E & _) _. exists (S n). split; [exact E|discriminate].
  - intros p st o st' (n & E & N) W _. exists o. split; [|exact W]. exists (S n). split; [exact E|exact N].
  - (* query *) intros id st q kt kc ctexts froms w g o s h us st1 st2 Eq Er Hs Ch _ IH1 Lc Ns _ IH2 Ok.
    destruct (IH1 Ok) as [(N1 & H1) V1]. destruct (IH2 (heap_evolves _ _ V1 Ok)) as [(N2 & H2) V2].
    destruct (query_at id st q kt kc Ok Eq Er Hs Ch) as (kc' & _ & Fc & Q). set (n := N1 + N2). specialize (Q n).
    destruct (H1 n ltac:(lia)) as (o1 & E1 & T1). destruct (H2 n ltac:(lia)) as (o2 & E2 & T2). cbn [told_by] in T1, T2. subst o1 o2.
    rewrite E1 in Q. destruct Q as (ct & fr & w' & g' & o' & s' & h' & El & Lc' & Q). rewrite Fc in Lc', Q.
    destruct (same_head _ ctexts ct _ _ ltac:(congruence) El) as [<- El']. apply same_last in El' as (<- & <- & <- & <- & <- & <-).
    destruct (is_empty s) eqn:Es; [apply is_empty_iff in Es; contradiction|]. rewrite (series_at n id), E2 in Q.
    exists (S n). split; [exact Q|discriminate].
  - (* a clause lacks something *) intros id st q kt kc st1 Eq Er Hs Ch _ IH1 Ok. destruct (IH1 Ok) as [(N1 & H1) V1].
    destruct (query_at id st q kt kc Ok Eq Er Hs Ch) as (kc' & _ & Fc & Q). specialize (Q N1).
    destruct (H1 N1 (le_n N1)) as (o1 & E1 & (er & O & B)). rewrite E1 in Q. destruct O as [-> | ->]; cbn [fails_as] in Q.
    + destruct Q as (er' & Q & B'). exists (RErr er'). split; [exists (S N1); split; [exact Q|discriminate]|]. exists er'. split; [auto|]. apply index_iff. congruence.
    + exists (RPanic er). split; [exists (S N1); split; [exact Q|discriminate]|]. exists er. split; [auto|]. apply index_iff. exact B.
  - (* a union lacks something *) intros id st q kt kc before w g o s h st1 st2 Eq Er Hs Ch _ IH1 Ns _ IH2 Ok.
    destruct (IH1 Ok) as [(N1 & H1) V1]. destruct (IH2 (heap_evolves _ _ V1 Ok)) as [(N2 & H2) V2].
    destruct (query_at id st q kt kc Ok Eq Er Hs Ch) as (kc' & _ & Fc & Q). set (n := N1 + N2). specialize (Q n).
    destruct (H1 n ltac:(lia)) as (o1 & E1 & T1). destruct (H2 n ltac:(lia)) as (o2 & E2 & (er & O & B)). cbn [told_by] in T1. subst o1.
    rewrite E1 in Q. destruct Q as (ct & fr & w' & g' & o' & s' & h' & El & Lc' & Q). rewrite app_assoc in El.
    apply same_last in El as (-> & <- & <- & <- & <- & <-).
    destruct (is_empty s) eqn:Es; [apply is_empty_iff in Es; contradiction|]. rewrite (series_at n id), E2 in Q.
    destruct O as [-> | ->]; cbn [fails_as] in Q.
    + destruct Q as (er' & Q & B'). exists (RErr er'). split; [exists (S n); split; [exact Q|discriminate]|]. exists er'. split; [auto|]. apply index_iff. congruence.
    + exists (RPanic er). split; [exists (S n); split; [exact Q|discriminate]|]. exists er. split; [auto|]. apply index_iff. exact B.
  - (* parts *) intros args frags t st _. split; [constructor|apply evolves_refl].
  - intros args frags sty i v st s st' Hv Hc _. split; [eapply st_bind; eassumption|eapply commit_evolves; exact Hc].
  - intros args frags nm a v st s st' L N Hv Hc _. split; [eapply st_arg; eassumption|eapply commit_evolves; exact Hc].
  - intros args frags nm a st L N Hv _. split; [eapply st_no_arg; eassumption|apply evolves_refl].
  - intros args frags nm a b st s st' L N Hv _ IH Ok. specialize (IH Ok). split; [eapply st_frag; eassumption|eapply fin_evolves; exact IH].
  - intros args frags nm a st L N Hv _. split; [eapply st_no_frag; eassumption|apply evolves_refl].
  - intros args frags nm a b st st' L N Hv _ IH Ok. specialize (IH Ok). split; [|eapply fin_evolves; exact IH].
    destruct IH as (o & H & W). eapply st_frag_lacks; eassumption.
  - intros args frags nm sg body l st o s st' L Su R No _. split; [eapply st_custom; eassumption|eapply returns_evolves; exact R].
  - intros args frags nm sg body l st o st' L Su R W _. split; [eapply st_custom_lacks; eassumption|eapply returns_evolves; exact R].
  - intros args frags nm tmpl sep nums tl from to st st1 ss ua uf st' L Hn Li Pa Ne Ac _ IH Ok. pose proof (accepts_evolves _ _ _ _ Ac) as V.
    destruct (IH (heap_evolves _ _ V Ok)) as [R V2]. split; [eapply st_join; eassumption|eapply evolves_trans; eassumption].
  - intros args frags nm tmpl sep nums tl from to st st1 ua uf st' L Hn Li Pa Ne Ac _ IH Ok. pose proof (accepts_evolves _ _ _ _ Ac) as V.
    destruct (IH (heap_evolves _ _ V Ok)) as [R V2]. split; [eapply st_join_lacks; eassumption|eapply evolves_trans; eassumption].
  - intros args frags st _. split; [constructor|apply evolves_refl].
  - intros args frags x l st s ua uf st1 s2 ua2 uf2 st2 _ IH1 _ IH2 Ok. destruct (IH1 Ok) as [S1 V1]. destruct (IH2 (heap_evolves _ _ V1 Ok)) as [S2 V2].
    split; [eapply sa_cons; eassumption|eapply evolves_trans; eassumption].
  - intros args frags x l st ua uf st1 _ IH1 Ok. destruct (IH1 Ok) as [S1 V1]. split; [eapply sa_here; eassumption|exact V1].
  - intros args frags x l st s ua uf st1 ua2 uf2 st2 _ IH1 _ IH2 Ok. destruct (IH1 Ok) as [S1 V1]. destruct (IH2 (heap_evolves _ _ V1 Ok)) as [S2 V2].
    split; [eapply sa_later; eassumption|eapply evolves_trans; eassumption].
  - intros args frags tl from to i st s ua uf st' T1 T2 _ IH1 Ok. destruct (IH1 Ok) as [S1 V1]. split; [apply rd_last; assumption|exact V1].
  - intros args frags tl from to i st s ua uf st1 r ua2 uf2 st2 T _ IH1 _ IH2 Ok. destruct (IH1 Ok) as [S1 V1]. destruct (IH2 (heap_evolves _ _ V1 Ok)) as [S2 V2].
    split; [eapply rd_more; eassumption|eapply evolves_trans; eassumption].
  - intros args frags tl from to i st ua uf st' T1 T2 _ IH1 Ok. destruct (IH1 Ok) as [S1 V1]. split; [apply rd_end; assumption|exact V1].
  - intros args frags tl from to i st ua uf st' T _ IH1 Ok. destruct (IH1 Ok) as [S1 V1]. split; [apply rd_lacks; assumption|exact V1].
  - (* jobs *) intros id st _. split; [|apply evolves_refl]. exists 0. intros n _. exists (ROk []). split; reflexivity.
  - intros id j l st s st1 r st2 _ IH1 _ IH2 Ok. pose proof (job_evolves id j st) as Vj. specialize (IH1 (heap_evolves _ _ Vj Ok)).
    pose proof (evolves_trans _ _ _ Vj (fin_evolves _ _ _ _ _ IH1)) as V1. destruct (IH2 (heap_evolves _ _ V1 Ok)) as [(N2 & H2) V2].
    split; [|eapply evolves_trans; eassumption]. apply fin_at in IH1 as (N1 & H1). exists (N1 + N2). intros n Hn.
    destruct (H1 n ltac:(lia)) as (o1 & E1 & ->). destruct (H2 n ltac:(lia)) as (o2 & E2 & T2). cbn [do_all]. unfold do_job at 1. rewrite E1, E2.
    destruct r as [ss|]; cbn [told_by option_map] in T2 |- *.
    + subst o2. exists (ROk (s :: ss)). split; reflexivity.
    + destruct T2 as (er & [-> | ->] & B); (eexists; split; [reflexivity|]); exists er; auto.
  - intros id j l st st1 _ IH1 Ok. pose proof (job_evolves id j st) as Vj. specialize (IH1 (heap_evolves _ _ Vj Ok)).
    split; [|eapply evolves_trans; [exact Vj|eapply fin_evolves; exact IH1]]. apply fin_at in IH1 as (N1 & H1). exists N1. intros n Hn.
    destruct (H1 n Hn) as (o1 & E1 & (er & O & B)). cbn [do_all]. unfold do_job at 1. rewrite E1.
    destruct O as [-> | ->]; (eexists; split; [reflexivity|]); exists er; auto.
Qed.
End Complete.

(* ------------------------------------------------------------------ *)
(** * What is computed follows the rules *)

Section Sound.
Variable e : env.
Hypothesis He : proper_env e.

Lemma series_sound : forall n id, below e n -> forall jobs st o st', heap_ok st -> do_all (do_job (build n e) id) jobs st = (o, st') ->
  match o with
  | ROk l => series e id jobs st (Some l) st'
  | RErr er | RPanic er => is_invalid_index er = true -> series e id jobs st None st'
  | RFuel => True
  end.
Proof.
  intros n id Hb. induction jobs as [|j jobs IH]; intros st o st' Ok H; cbn [do_all] in H; [injection H as <- <-; constructor|].
  destruct (do_job (build n e) id j st) as [oj st1] eqn:Ej. unfold do_job in Ej. pose proof (evolves_build n e (job_builder id j st) (job_state id j st)) as Ev.
  rewrite Ej in Ev. cbn [snd] in Ev. assert (Okj : heap_ok (job_state id j st)) by (eapply heap_evolves; [apply job_evolves|exact Ok]).
  apply Hb in Ej; [|exact Okj]. destruct oj as [s|er|er|]; cbn [done] in Ej.
  - destruct (do_all (do_job (build n e) id) jobs st1) as [o2 st2] eqn:E2. apply IH in E2; [|exact (heap_evolves _ _ Ev Okj)].
    destruct o2 as [l|er|er|]; injection H as <- <-.
    + exact (sr_more e id j jobs st s st1 (Some l) _ Ej E2).
    + intros Q. exact (sr_more e id j jobs st s st1 None _ Ej (E2 Q)).
    + intros Q. exact (sr_more e id j jobs st s st1 None _ Ej (E2 Q)).
    + exact Logic.I.
  - injection H as <- <-. intros Q. apply sr_lacks. apply Ej. exact Q.
  - injection H as <- <-. intros Q. apply sr_lacks. apply Ej. exact Q.
  - injection H as <- <-. exact Logic.I.
Qed.

Lemma frag_sound : forall n f st o st', below e n -> heap_ok st -> build_frag n (build n) e f st = (o, st') -> done (makes e (BFrag f) st) o st'.
Proof.
  intros n [raw args frags p s] st o st' Hb Ok E. unfold build_frag in E. cbn [f_raw f_args f_frags f_prefix f_suffix] in E.
  destruct (parse raw) as [es|k m| |] eqn:Ep; try (injection E as <- <-; cbn [done]; first [exact Logic.I|intros Q; discriminate Q]).
  assert (Pa : parsed raw = Some (norm (map strip es))) by (unfold parsed; rewrite Ep; reflexivity).
  destruct (clause_n n (build n) e (mkFrame args frags) es _) as [r X'] eqn:Ec. rewrite <- clause_n_parsed in Ec.
  apply (clause_n_sound e He args frags n Hb) in Ec; [|exact Ok]. cbn zeta in E.
  destruct r as [body|er|er|]; cbn [told fs_st fs_ua fs_uf] in Ec.
  - destruct Ec as (ua & uf & S1 & A1 & F1).
    destruct (all_used (fs_ua X') && all_used (fs_uf X')) eqn:U.
    + assert (C : covers ua args /\ covers uf frags).
      { destruct (proj1 (proj2 (proj2 (rules_complete e He))) _ _ _ _ _ _ _ _ S1 Ok) as [O1 _].
        destruct (proj1 (proj2 (used_inside e args frags)) _ _ _ _ _ _ O1) as [B1 B2].
        rewrite A1, F1, !used_flags in U. apply andb_prop in U as [U1 U2]. split; [exact (proj1 (marks_all ua _ B1) U1)|exact (proj1 (marks_all uf _ B2) U2)]. }
      destruct C as [C1 C2]. assert (E' : (o, st') = (ROk (wrapped p (trim_space body) s), fs_st X')).
      { rewrite <- E. unfold wrapped. destruct (is_empty (trim_space body)); reflexivity. }
      injection E' as -> ->. cbn [done]. eapply mk_fragment; eassumption.
    + injection E as <- <-. cbn [done]. intros Q. unfold in_frag, unused in Q. destruct (all_used (fs_ua X')); cbn in Q; discriminate Q.
  - injection E as <- <-. cbn [done]. intros Q. destruct (Ec Q) as (ua & uf & S1 & _). eapply mk_fragment_lacks; eassumption.
  - injection E as <- <-. cbn [done]. intros Q. congruence.
  - injection E as <- <-. exact Logic.I.
Qed.

Lemma query_sound : forall n id st o st', below e n -> heap_ok st -> build_internal (build n e) id st = (o, st') ->
  done (makes e (BQuery (Some id)) st) o st'.
Proof.
  intros n id st o st' Hb Ok E. destruct (Ok id) as (Ht & Hc & Hd).
  destruct (q_errors (get_q st id)) as [|er0 ers] eqn:Er.
  2: { unfold build_internal in E. rewrite Er in E. injection E as <- <-. cbn [done]. intros Q. discriminate Q. }
  destruct (collect_deps (get_q st id)) as [d|er|er|] eqn:Ed.
  2,3,4: unfold build_internal in E; rewrite Er, Ed in E; injection E as <- <-; cbn [done]; try exact Logic.I;
    intros Q; rewrite (collect_no_index (get_q st id) er) in Q by (first [left; exact Ed|right; exact Ed]); discriminate Q.
  pose proof (choice_sound _ d Ht Hc Ed) as Hs. pose proof (collect_choice _ d Ht Hc Ed) as Ch.
  pose proof (internal_series (build n e) (fun b s => evolves_build n e b s) id st d Er Ed Hd) as K. cbv zeta in K. rewrite E in K.
  set (kt := Deps_proofs.kept (get_q st id) d) in *. set (kc := fun c => dep_mem (c_name c, "") d) in *.
  destruct (do_all (do_job (build n e) id) (clause_jobs (get_q st id) kt kc) st) as [o1 st1] eqn:E1.
  assert (V1 : evolves st st1) by (eapply jobs_evolve; exact E1).
  pose proof (series_sound n id Hb _ _ _ _ Ok E1) as S1. destruct o1 as [l|er|er|].
  - destruct K as (ct & fr & w & g & oo & s & h & -> & Lc & K). destruct (is_empty s) eqn:Es.
    + destruct K as (er & K & B). injection K as -> ->. cbn [done]. intros Q. congruence.
    + assert (Ns : s <> "") by (intros ->; discriminate Es). rewrite (series_at e n id) in K.
      destruct (do_all (do_job (build n e) id) (union_jobs (get_q st id)) st1) as [o2 st2] eqn:E2.
      pose proof (series_sound n id Hb _ _ _ _ (heap_evolves _ _ V1 Ok) E2) as S2. rewrite app_assoc in S1.
      destruct o2 as [us|er|er|]; cbn [fails_as] in K.
      * injection K as -> ->. cbn [done]. rewrite <- app_assoc in S1. eapply mk_query; try eassumption; reflexivity.
      * destruct K as (er' & K & B). injection K as -> ->. cbn [done]. intros Q. rewrite B in Q. eapply mk_union_lacks; try eassumption; [reflexivity|]. exact (S2 Q).
      * injection K as -> ->. cbn [done]. intros Q. eapply mk_union_lacks; try eassumption; [reflexivity|]. exact (S2 Q).
      * injection K as -> ->. exact Logic.I.
  - destruct K as (er' & K & B). injection K as -> ->. cbn [done]. intros Q. rewrite B in Q. eapply mk_query_lacks; try eassumption; [reflexivity|]. exact (S1 Q).
  - cbn [fails_as] in K. injection K as -> ->. cbn [done]. intros Q. eapply mk_query_lacks; try eassumption; [reflexivity|]. exact (S1 Q).
  - cbn [fails_as] in K. injection K as -> ->. exact Logic.I.
Qed.

Theorem build_sound : forall n, below e n.
Proof.
  induction n as [|n IH]; intros b st o st' Ok E; [injection E as <- <-; exact Logic.I|].
  destruct b as [| |f| |[f|] t|t|x a|[id|]|p]; cbn [build] in E.
  - injection E as <- <-. cbn [done]. intros Q. discriminate Q.
  - injection E as <- <-. apply mk_none. left. reflexivity.
  - eapply frag_sound; eassumption.
  - injection E as <- <-. cbn [done]. intros Q. discriminate Q.
  - pose proof (frag_sound n f st o st' IH Ok E) as K. destruct o as [s|er|er|]; cbn [done] in K |- *; try exact Logic.I.
    + apply mk_column. exact K.
    + intros Q. apply mk_column. exact (K Q).
    + intros Q. apply mk_column. exact (K Q).
  - injection E as <- <-. apply mk_no_column.
  - injection E as <- <-. apply mk_table.
  - injection E as <- <-. apply mk_aliased.
  - eapply query_sound; eassumption.
  - injection E as <- <-. apply mk_none. right. left. reflexivity.
  - assert (R : o <> RFuel -> returns e p st o st') by (intros N; exists n; auto).
    destruct o as [s|er|er|]; cbn [done].
    + apply mk_custom. apply R. discriminate.
    + intros Q. eapply mk_custom_lacks; [apply R; discriminate|]. exists er. split; [auto|]. apply index_iff. exact Q.
    + intros Q. eapply mk_custom_lacks; [apply R; discriminate|]. exists er. split; [auto|]. apply index_iff. exact Q.
    + exact Logic.I.
Qed.
End Sound.

(* ------------------------------------------------------------------ *)
(** * The rules are what is computed *)

Theorem makes_text : forall e b st s st', proper_env e -> heap_ok st -> (finishes e b st (ROk s) st' <-> makes e b st (Gives s) st').
Proof.
  intros e b st s st' He Ok. split.
  - intros (n & E & _). exact (build_sound e He n b st _ st' Ok E).
  - intros H. exact (proj1 (rules_complete e He) b st _ st' H Ok).
Qed.
Theorem makes_lacks : forall e b st st', proper_env e -> heap_ok st -> ((exists o, finishes e b st o st' /\ wanting o) <-> makes e b st Lacks st').
Proof.
  intros e b st st' He Ok. split.
  - intros (o & (n & E & _) & (er & O & B)). pose proof (build_sound e He n b st _ st' Ok E) as K. apply index_iff in B.
    destruct O as [-> | ->]; exact (K B).
  - intros H. exact (proj1 (rules_complete e He) b st _ st' H Ok).
Qed.
Theorem makes_one : forall e b st r st1 r2 st2, proper_env e -> heap_ok st -> makes e b st r st1 -> makes e b st r2 st2 -> r = r2 /\ st1 = st2.
Proof.
  intros e b st r st1 r2 st2 He Ok H1 H2. apply (proj1 (rules_complete e He)) in H1; [|exact Ok]. apply (proj1 (rules_complete e He)) in H2; [|exact Ok].
  apply fin_at in H1 as (N1 & H1). apply fin_at in H2 as (N2 & H2). destruct (H1 (N1 + N2) ltac:(lia)) as (o1 & E1 & T1). destruct (H2 (N1 + N2) ltac:(lia)) as (o2 & E2 & T2).
  rewrite E1 in E2. injection E2 as <- <-. split; [|reflexivity]. destruct r as [s|], r2 as [s2|]; try reflexivity.
  - congruence.
  - destruct T2 as (er & O & _). subst o1. destruct O; discriminate.
  - destruct T1 as (er & O & _). subst o1. destruct O; discriminate.
Qed.
Theorem heap_stays : forall e b st o st', finishes e b st o st' -> heap_ok st -> heap_ok st'.
Proof. intros e b st o st' H. apply heap_evolves. eapply finishes_evolves. exact H. Qed.

(** BuildQuery. *)
Lemma builtins_proper : proper_env [builtins].
Proof.
  intros nm f H. cbn in H. repeat match type of H with context [if ?c then _ else _] => destruct c end; try discriminate H; injection H as <-; intros _; discriminate.
Qed.
Theorem makes_query : forall style h b s vs h', heap_ok (new_store style h) ->
  ((exists n, build_query n style h b = (ROk (s, vs), h')) <->
   exists st', makes [builtins] b (new_store style h) (Gives s) st' /\ st_args st' = vs /\ st_heap st' = h').
Proof.
  intros style h b s vs h' Ok. split.
  - intros (n & E). unfold build_query in E. destruct (build n [builtins] b (new_store style h)) as [[t|er|er|] st'] eqn:Eb; try discriminate E.
    injection E as -> <- <-. exists st'. split; [|auto]. apply makes_text; [exact builtins_proper|exact Ok|]. exists n. split; [exact Eb|discriminate].
  - intros (st' & H & <- & <-). apply makes_text in H; [|exact builtins_proper|exact Ok]. destruct H as (n & E & _). exists n. unfold build_query. rewrite E. reflexivity.
Qed.

(** What a fragment comes to depends on its fragments through what they come to. *)
Definition comes_to_same (e : env) (b b' : builder) : Prop := forall st r st', makes e b st r st' <-> makes e b' st r st'.
Lemma same_length : forall A B (R : A -> B -> Prop) l l', Forall2 R l l' -> List.length l = List.length l'.
Proof. intros A B R l l' F. induction F as [|x y l l' H F IH]; cbn [List.length]; congruence. Qed.
Lemma nth1_same : forall e frags frags' i b, Forall2 (comes_to_same e) frags frags' -> nth1 frags i = Some b ->
  exists b', nth1 frags' i = Some b' /\ comes_to_same e b b'.
Proof.
  intros e frags frags' i b F H. unfold nth1 in *. rewrite <- (same_length _ _ _ _ _ F). destruct (_ && _); [|discriminate]. revert i H.
  assert (K : forall k, nth_error frags k = Some b -> exists b', nth_error frags' k = Some b' /\ comes_to_same e b b').
  { induction F as [|x y l l' Hx F IH]; intros [|k] H; try discriminate H; cbn [nth_error] in *; [injection H as ->; eauto|apply IH; exact H]. }
  intros i H. apply K. exact H.
Qed.
Lemma nth1_same_none : forall e frags frags' i, Forall2 (comes_to_same e) frags frags' -> nth1 frags i = None -> nth1 frags' i = None.
Proof.
  intros e frags frags' i F H. destruct (nth1 frags' i) as [b|] eqn:E; [|reflexivity].
  assert (F' : Forall2 (comes_to_same e) frags' frags) by (clear - F; induction F; constructor; try assumption; intros st r st'; symmetry; auto).
  destruct (nth1_same e frags' frags i b F' E) as (b' & K & _). congruence.
Qed.
Lemma parts_same : forall e,
  (forall b st r st', makes e b st r st' -> True) /\
  (forall args frags x st r ua uf st', part e args frags x st r ua uf st' -> forall frags', Forall2 (comes_to_same e) frags frags' -> part e args frags' x st r ua uf st') /\
  (forall args frags l st r ua uf st', parts e args frags l st r ua uf st' -> forall frags', Forall2 (comes_to_same e) frags frags' -> parts e args frags' l st r ua uf st') /\
  (forall args frags tl from to i st r ua uf st', turns e args frags tl from to i st r ua uf st' -> forall frags', Forall2 (comes_to_same e) frags frags' ->
     turns e args frags' tl from to i st r ua uf st') /\
  (forall id jobs st r st', series e id jobs st r st' -> True).
Proof.
  intros e. apply rules_ind; intros; try exact Logic.I; try (econstructor; eauto; fail).
  - destruct (nth1_same _ _ _ _ _ ltac:(eassumption) ltac:(eassumption)) as (b' & Hb & Hs). eapply pt_frag; try eassumption. apply Hs. assumption.
  - eapply pt_no_frag; try eassumption. eapply nth1_same_none; eassumption.
  - destruct (nth1_same _ _ _ _ _ ltac:(eassumption) ltac:(eassumption)) as (b' & Hb & Hs). eapply pt_frag_lacks; try eassumption. apply Hs. assumption.
Qed.
Theorem fragment_same : forall e raw args frags frags' p s, Forall2 (comes_to_same e) frags frags' ->
  comes_to_same e (BFrag (Frag raw args frags p s)) (BFrag (Frag raw args frags' p s)).
Proof.
  assert (K : forall e raw args frags frags' p s, Forall2 (comes_to_same e) frags frags' -> forall st r st',
    makes e (BFrag (Frag raw args frags p s)) st r st' -> makes e (BFrag (Frag raw args frags' p s)) st r st').
  { intros e raw args frags frags' p s F st r st' H. inversion H; subst.
    - match goal with K : In _ _ |- _ => destruct K as [K|[K|[]]]; discriminate K end.
    - eapply mk_fragment; try eassumption.
      + eapply (proj1 (proj2 (proj2 (parts_same e)))); eassumption.
      + unfold covers in *. rewrite <- (same_length _ _ _ _ _ F). assumption.
    - eapply mk_fragment_lacks; try eassumption. eapply (proj1 (proj2 (proj2 (parts_same e)))); eassumption. }
  intros e raw args frags frags' p s F st r st'. split; [apply K; exact F|]. apply K.
  clear - F. induction F; constructor; try assumption. intros st r st'. symmetry. auto.
Qed.

(** Descriptions without Debug. *)
Theorem heap_described : forall style h, Forall (fun q => exists os, Forall op_ok os /\ existsb is_debug os = false /\ apply_ops os new_qb = ROk q) h ->
  heap_ok (new_store style h).
Proof.
  intros style h F id. unfold get_q. cbn [new_store st_heap].
  assert (K : forall q, (exists os, Forall op_ok os /\ existsb is_debug os = false /\ apply_ops os new_qb = ROk q) -> tables_ok q /\ ctes_ok q /\ q_debug q = false).
  { intros q (os & H1 & H2 & H3). destruct (ops_ok os q H1 H3) as [Ht Hc]. split; [exact Ht|]. split; [exact Hc|].
    pose proof (ds_debug _ _ _ (ops_described os new_qb q H3)) as D. rewrite D, H2. reflexivity. }
  destruct (nth_in_or_default id h new_qb) as [H|H].
  - apply K. rewrite Forall_forall in F. apply F. exact H.
  - rewrite H. apply K. exists []. repeat split. constructor.
Qed.
