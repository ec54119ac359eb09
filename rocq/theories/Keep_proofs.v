(** Exactly which tables and common table expressions a query keeps. *)
From Coq Require Import Strings.String Strings.Ascii NArith ZArith List Bool Lia.
From Verif Require Import GoStr GoNum Syntax Value Util Model Sqlf Sqlb Spec_syntax Spec_eval Fuel_proofs Spec_query Deps_proofs Query_proofs Ops_proofs Query2_proofs Spec_steps Steps_proofs Spec_keep.
Import ListNotations.
Open Scope string_scope.

Section Keep.
Variable q : qb.
Hypothesis Hc : ctes_ok q.

(** A path from one common table expression to another outside [d]. *)
Inductive around (d : deps) : string -> string -> Prop :=
| ar_self c : ~ In (c, "") d -> around d c c
| ar_step c e x y : ~ In (c, "") d -> cte_of q c = Some e -> In x (c_deps e) -> cte_of q x <> None -> around d x y -> around d c y.
Lemma around_more : forall d d' c y, incl d d' -> around d' c y -> around d c y.
Proof.
  intros d d' c y Hi R. induction R as [c N|c e x y N E I0 D R IH].
  - apply ar_self. intros K. apply N, Hi, K.
  - eapply ar_step; try eassumption. intros K. apply N, Hi, K.
Qed.
Lemma cte_avoids : forall n nm c d, cte_of q nm = Some c ->
  match deps_cte n q c d with ROk d' => forall x, In x d' -> In x d \/ exists y, x = (y, "") /\ around d nm y | _ => True end.
Proof.
  induction n as [|n IH]; intros nm c d Hn; [exact I|]. rewrite deps_cte_S. rewrite (proj1 Hc nm c Hn).
  destruct (dep_mem (nm, "") d) eqn:M; [intros x Hx; left; exact Hx|]. apply dep_mem_not in M.
  assert (G : forall l d0, incl l (c_deps c) -> incl d d0 ->
    match cte_go n q l d0 with ROk d' => forall x, In x d' -> In x d0 \/ exists y, x = (y, "") /\ around d nm y | _ => True end).
  { induction l as [|x l IHl]; intros d0 Hl Hi; cbn [cte_go]; [intros x Hx; left; exact Hx|].
    assert (Hl' : incl l (c_deps c)) by (intros y Hy; apply Hl; right; exact Hy).
    destruct (assoc x (q_cdict q)) as [cx|] eqn:Ex; [|apply IHl; assumption].
    pose proof (IH x cx d0 Ex) as A. pose proof (deps_cte_post q Hc n x cx d0 Ex) as P.
    destruct (deps_cte n q cx d0) as [d1|er|er|]; try exact I. destruct P as (I1 & _).
    specialize (IHl d1 Hl' (incl_tran Hi I1)). destruct (cte_go n q l d1) as [d2|er|er|]; try exact I.
    intros y Hy. destruct (IHl y Hy) as [K|K]; [|right; exact K]. destruct (A y K) as [K2|(z & -> & R)]; [left; exact K2|].
    right. exists z. split; [reflexivity|]. eapply ar_step; [exact M|exact Hn|apply Hl; left; reflexivity|unfold cte_of; congruence|].
    eapply around_more; [exact Hi|exact R]. }
  specialize (G (c_deps c) ((nm, "") :: d) (incl_refl _) (fun x H => or_intror H)).
  destruct (cte_go n q (c_deps c) ((nm, "") :: d)) as [d'|er|er|]; try exact I.
  intros x Hx. destruct (G x Hx) as [[<-|K]|K]; [right|left; exact K|right; exact K]. exists nm. split; [reflexivity|]. apply ar_self. exact M.
Qed.

Hypothesis Ht : tables_ok q.
Variable m : from_table.
Variable d0 : deps.
Hypothesis Hm : main_of q = Some m.
Hypothesis Hd : table_deps q m d0.

Lemma bare_iff : forall c, bare q c <-> In (c, "") d0.
Proof.
  intros c. rewrite (Hd (c, "")). split.
  - intros (ft & [Ef|(t & N & T)] & E); [left; congruence|right; eauto].
  - intros [E|(t & ft & N & T & E)]; [exists m; split; [left; exact Hm|congruence]|exists ft; split; [right; eauto|exact E]].
Qed.
Lemma used_iff : forall ft, option_map ft_names (main_of q) = Some (ft_names ft) \/
  (exists t ft', needed q t /\ table_of q t = Some ft' /\ ft_names ft' = ft_names ft) <-> In (ft_names ft) d0.
Proof.
  intros ft. rewrite (Hd (ft_names ft)), Hm. cbn [option_map]. split; (intros [E|E]; [left; congruence|right; exact E]).
Qed.
Lemma kept_iff : forall d ft, kept q d ft = true <-> q_distinct q = false \/ ft_optional ft = false \/ In (ft_names ft) d.
Proof.
  intros d ft. unfold kept. rewrite <- dep_mem_iff, negb_true_iff. destruct (q_distinct q), (ft_optional ft), (dep_mem (ft_names ft) d); cbn; split; try tauto; try discriminate.
  intros [K|[K|K]]; discriminate.
Qed.
Definition found (d : deps) : Prop := forall x, In x d -> In x d0 \/ exists c, x = (c, "") /\ followed q c.
Lemma kept_found : forall d ft, incl d0 d -> found d -> kept q d ft = true -> belongs q ft \/ (exists c, ft_names ft = (c, "") /\ followed q c /\ In (c, "") d).
Proof.
  intros d ft Hi Hf K. apply kept_iff in K. destruct K as [K|[K|K]]; [left; left; exact K|left; right; left; exact K|].
  destruct (Hf _ K) as [L|(c & L & F)]; [left; right; right; apply used_iff; exact L|right]. exists c. rewrite <- L. auto.
Qed.
Lemma belongs_kept : forall d ft, incl d0 d -> belongs q ft -> kept q d ft = true.
Proof.
  intros d ft Hi [B|[B|B]]; apply kept_iff; [left; exact B|right; left; exact B|right; right]. apply Hi, used_iff. exact B.
Qed.
Lemma around_followed : forall d c y, incl d0 d -> around d c y -> followed q c -> followed q y.
Proof.
  intros d c y Hi R. induction R as [c N|c e x y N E I0 D R IH]; intros F; [exact F|]. apply IH. eapply fo_dep; try eassumption.
  rewrite bare_iff. intros K. apply Hi in K. clear - R K. destruct R; contradiction.
Qed.

Lemma loop_followed : forall n ids d, incl ids (q_tables q) -> incl d0 d -> found d -> cclosed q d0 d ->
  forall d', deps_ctes n q ids d = ROk d' ->
  incl d d' /\ found d' /\ cclosed q d0 d' /\
  (forall id ft, In id ids -> nth_error (q_tobjs q) id = Some ft -> belongs q ft -> cte_of q (fst (ft_names ft)) <> None -> In (fst (ft_names ft), "") d').
Proof.
  intros n. induction ids as [|id ids IH]; intros d Hs Hi Hf Hcl d' E.
  - cbn [deps_ctes] in E. injection E as <-. split; [apply incl_refl|]. split; [exact Hf|]. split; [exact Hcl|]. intros id ft [].
  - assert (Hs' : incl ids (q_tables q)) by (intros y Hy; apply Hs; right; exact Hy).
    destruct (nth_error (q_tobjs q) id) as [ft|] eqn:N; [|cbn [deps_ctes] in E; rewrite N in E; discriminate].
    rewrite (deps_ctes_cons q n id ids d ft N) in E.
    assert (Rest : forall d1, incl d d1 -> found d1 -> cclosed q d0 d1 -> deps_ctes n q ids d1 = ROk d' ->
      (belongs q ft -> cte_of q (fst (ft_names ft)) <> None -> In (fst (ft_names ft), "") d1) ->
      incl d d' /\ found d' /\ cclosed q d0 d' /\
      (forall id' ft, In id' (id :: ids) -> nth_error (q_tobjs q) id' = Some ft -> belongs q ft -> cte_of q (fst (ft_names ft)) <> None -> In (fst (ft_names ft), "") d')).
    { intros d1 I1 F1 C1 E1 K1. destruct (IH d1 Hs' (incl_tran Hi I1) F1 C1 d' E1) as (J1 & J2 & J3 & J4).
      split; [exact (incl_tran I1 J1)|]. split; [exact J2|]. split; [exact J3|].
      intros id' ft' [<-|Hid] N' B' C'; [|eapply J4; eassumption]. assert (ft' = ft) by congruence. subst ft'. apply J1, K1; assumption. }
    destruct (kept q d ft) eqn:K.
    + destruct (cte_of q (fst (ft_names ft))) as [c|] eqn:Cc.
      * pose proof (deps_cte_post q Hc n _ c d Cc) as P. pose proof (cte_avoids n _ c d Cc) as A.
        destruct (deps_cte n q c d) as [d1|er|er|] eqn:Ed; try discriminate. destruct P as (I1 & V & C & _).
        apply (Rest d1); [exact I1| | |exact E|intros _ _; exact V].
        -- intros x Hx. destruct (A x Hx) as [L|(y & -> & R)]; [apply Hf; exact L|]. right. exists y. split; [reflexivity|].
           assert (Nd : ~ In (fst (ft_names ft), "") d) by (destruct R; assumption).
           apply (around_followed d _ y Hi R). destruct (kept_found d ft Hi Hf K) as [B|(x & Ex & _ & Hx')].
           ++ apply fo_table; [|exact B|congruence|].
              ** apply (in_listed q ft Ht). exists id. split; [apply Hs; left; reflexivity|exact N].
              ** rewrite bare_iff. intros L. apply Nd, Hi, L.
           ++ exfalso. apply Nd. rewrite Ex. exact Hx'.
        -- intros c1 e1 y E1 A1 B1 Dy Ny. destruct (dep_mem (c1, "") d) eqn:D1.
           ++ apply dep_mem_iff in D1. apply I1. eapply Hcl; eassumption.
           ++ apply dep_mem_not in D1. eapply C; eassumption.
      * apply (Rest d); [apply incl_refl|exact Hf|exact Hcl|exact E|congruence].
    + apply (Rest d); [apply incl_refl|exact Hf|exact Hcl|exact E|]. intros B. rewrite (belongs_kept d ft Hi B) in K. discriminate.
Qed.
Lemma loop_all : forall n d', deps_ctes n q (q_tables q) d0 = ROk d' -> forall x, In x d' <-> In x d0 \/ exists c, x = (c, "") /\ followed q c.
Proof.
  intros n d' E. destruct (loop_followed n (q_tables q) d0 (incl_refl _) (incl_refl _)) with (d' := d') as (J1 & J2 & J3 & J4); [|  |exact E|].
  - intros x Hx. left. exact Hx.
  - intros c1 e1 x1 _ A B. contradiction.
  - intros x. split; [apply J2|]. intros [K|(c & -> & F)]; [apply J1; exact K|].
    induction F as [ft Hl B D Nb|c e x F IH E1 I1 D Nb].
    + apply (in_listed q ft Ht) in Hl. destruct Hl as (id & Hid & N). eapply J4; eassumption.
    + eapply J3; try eassumption. rewrite <- bare_iff. destruct F; assumption.
Qed.
End Keep.

Theorem collect_choice : forall q d, tables_ok q -> ctes_ok q -> collect_deps q = ROk d ->
  choice q (kept q d) (fun c => dep_mem (c_name c, "") d).
Proof.
  intros q d Ht Hc H. destruct (collect_ok q d H) as (m & Hm & Hn). rewrite collect_unfold in H.
  pose proof (extract_list_spec (clause_builders q) []) as Ex. unfold extract_tables in H.
  destruct (extract_list (clause_builders q) []) as [ts|] eqn:Et; [|discriminate].
  pose proof Hm as Hm'. unfold main_of in Hm'. destruct (q_tables q) as [|id0 l0] eqn:Eq; [discriminate|]. rewrite Hm' in H.
  pose proof (clause_deps q m ts Ht Hm Et) as P. destruct (deps_tables (deps_fuel q) q ts [ft_names m]) as [d0|er|er|]; try discriminate.
  destruct P as [Td _]. rewrite <- Eq in H. pose proof (loop_all q Hc Ht m d0 Hm Td (deps_fuel q) d H) as A.
  assert (I0 : incl d0 d) by (intros x Hx; apply A; left; exact Hx). split.
  - intros ft Hl. split.
    + intros K. destruct (kept_found q m d0 Hm Td d ft I0 (fun x => proj1 (A x)) K) as [B|(c & E & F & _)]; [left; exact B|right].
      rewrite E. split; [reflexivity|exact F].
    + intros [B|[E F]]; [exact (belongs_kept q m d0 Hm Td d ft I0 B)|]. apply kept_iff. right. right. apply A. right. exists (fst (ft_names ft)).
      split; [|exact F]. destruct (ft_names ft) as [a b]. cbn in E |- *. congruence.
  - intros c Hcc. rewrite dep_mem_iff, (A (c_name c, "")). unfold keeps_cte. rewrite (bare_iff q m d0 Hm Td). split.
    + intros [K|(x & E & F)]; [left; exact K|right]. injection E as ->. exact F.
    + intros [K|F]; [left; exact K|right; eauto].
Qed.
Lemma choice_filter : forall q kt kc kt' kc', choice q kt kc -> choice q kt' kc' ->
  filter kt (listed q) = filter kt' (listed q) /\ filter kc (q_ctes q) = filter kc' (q_ctes q).
Proof.
  intros q kt kc kt' kc' [A B] [A' B']. split; apply filter_ext_in.
  - intros ft Hi. specialize (A ft Hi). specialize (A' ft Hi). destruct (kt ft), (kt' ft); try reflexivity; [symmetry|]; tauto.
  - intros c Hi. specialize (B c Hi). specialize (B' c Hi). destruct (kc c), (kc' c); try reflexivity; [symmetry|]; tauto.
Qed.
Lemma assembled_filter : forall rb id st kt kc kt' kc' secs st',
  filter kt (listed (get_q st id)) = filter kt' (listed (get_q st id)) -> filter kc (q_ctes (get_q st id)) = filter kc' (q_ctes (get_q st id)) ->
  assembled rb kt kc id st secs st' -> assembled rb kt' kc' id st secs st'.
Proof.
  intros rb id st kt kc kt' kc' secs st' Et Ec A. destruct A as [q ct fr w g o s h us a1 a2 a3 a4 a5 a6 a7 a8 Eq H0 H1 H2 H3 H4 H5 H6 H7 H8 H9].
  subst q. rewrite Ec in H1 |- *. rewrite Et in H2. econstructor; try eassumption; try reflexivity.
Qed.
Lemma choice_dec : forall q, tables_ok q -> ctes_ok q -> sound_query q -> exists d, collect_deps q = ROk d.
Proof.
  intros q Ht Hc (Hm & Hn & Hu). destruct (main_of q) as [m|] eqn:Em; [|congruence]. pose proof (collect_outcome q m Ht Hc Em Hn) as P.
  destruct (collect_deps q) as [d|er|er|]; try contradiction; [eauto|]. destruct P as (t & N & U). exfalso. exact (Hu t N U).
Qed.
Lemma choice_sound : forall q d, tables_ok q -> ctes_ok q -> collect_deps q = ROk d -> sound_query q.
Proof.
  intros q d Ht Hc H. destruct (collect_ok q d H) as (m & Hm & Hn). split; [congruence|]. split; [exact Hn|].
  pose proof (collect_outcome q m Ht Hc Hm Hn) as P. rewrite H in P. exact (proj1 P).
Qed.
(** The text of a query builder, exactly. *)
Theorem query_exact : forall n e id st sql st', let q := get_q st id in tables_ok q -> ctes_ok q -> q_debug q = false ->
  (build (S n) e (BQuery (Some id)) st = (ROk sql, st') <->
   sound_query q /\ exists kt kc secs, choice q kt kc /\ assembled (build n e) kt kc id st secs st' /\ sql = layout secs).
Proof.
  intros n e id st sql st' q Ht Hc Hd. cbn [build]. rewrite internal_ok by (intros b s; apply evolves_build). fold q. split.
  - intros (d & secs & Ed & A & E & _). split; [eapply choice_sound; eassumption|].
    exists (kept q d), (fun c => dep_mem (c_name c, "") d), secs. split; [apply collect_choice; assumption|]. split; [exact A|exact E].
  - intros (Hs & kt & kc & secs & Ch & A & E). destruct (choice_dec q Ht Hc Hs) as (d & Ed). exists d, secs. split; [exact Ed|].
    destruct (choice_filter q _ _ _ _ Ch (collect_choice q d Ht Hc Ed)) as [F1 F2]. split; [|split; [exact E|left; exact Hd]].
    eapply assembled_filter; [exact F1|exact F2|exact A].
Qed.
Theorem choice_exists : forall q, tables_ok q -> ctes_ok q -> sound_query q -> exists kt kc, choice q kt kc.
Proof. intros q Ht Hc Hs. destruct (choice_dec q Ht Hc Hs) as (d & Ed). eauto using collect_choice. Qed.

(** No table in use bears the name of a common table expression. *)
Theorem followed_needed : forall q c, followed q c -> tables_ok q -> cte_needed q c.
Proof.
  intros q c F Ht. induction F as [ft Hl B D Nb|c e x F IH E1 I1 D Nb].
  - apply (in_listed q ft Ht) in Hl. destruct Hl as (id & Hid & N). eapply cn_table; eassumption.
  - eapply cn_dep; eassumption.
Qed.
Theorem needed_followed : forall q c, tables_ok q -> (forall x, cte_of q x <> None -> ~ bare q x) -> cte_needed q c -> followed q c.
Proof.
  intros q c Ht Hb N. induction N as [id ft Hid N B D|c e x N IH E1 I1 D].
  - apply fo_table; [apply (in_listed q ft Ht); eauto|exact B|exact D|apply Hb; exact D].
  - eapply fo_dep; try eassumption. apply Hb. exact D.
Qed.
Theorem keep_all : forall q c, tables_ok q -> ctes_ok q -> (forall x, cte_of q x <> None -> ~ bare q x) -> In c (q_ctes q) ->
  (keeps_cte q c <-> cte_needed q (c_name c)).
Proof.
  intros q c Ht Hc Hb Hi. split.
  - intros [K|F]; [exfalso; exact (Hb (c_name c) (proj2 Hc c Hi) K)|]. apply followed_needed; assumption.
  - intros N. right. apply needed_followed; assumption.
Qed.
(** What one that is followed depends on is kept as well. *)
Lemma bare_dec : forall q c, tables_ok q -> ctes_ok q -> sound_query q -> bare q c \/ ~ bare q c.
Proof.
  intros q c Ht Hc Hs. destruct (choice_dec q Ht Hc Hs) as (d & H). destruct (collect_ok q d H) as (m & Hm & Hn). rewrite collect_unfold in H.
  unfold extract_tables in H. destruct (extract_list (clause_builders q) []) as [ts|] eqn:Et; [|discriminate].
  pose proof Hm as Hm'. unfold main_of in Hm'. destruct (q_tables q) as [|id0 l0] eqn:Eq; [discriminate|]. rewrite Hm' in H.
  pose proof (clause_deps q m ts Ht Hm Et) as P. destruct (deps_tables (deps_fuel q) q ts [ft_names m]) as [d0|er|er|]; try discriminate.
  destruct P as [Td _]. rewrite (bare_iff q m d0 Hm Td). destruct (dep_mem (c, "") d0) eqn:M; [left; apply dep_mem_iff; exact M|right; apply dep_mem_not; exact M].
Qed.
Theorem followed_deps : forall q c d x y, tables_ok q -> ctes_ok q -> sound_query q -> followed q c -> cte_of q c = Some d -> In x (c_deps d) ->
  cte_of q x = Some y -> keeps_cte q y.
Proof.
  intros q c d x y Ht Hc Hs F E I1 D. unfold keeps_cte. rewrite (proj1 Hc x y D). destruct (bare_dec q x Ht Hc Hs) as [B|B]; [left; exact B|].
  right. eapply fo_dep; try eassumption. congruence.
Qed.
