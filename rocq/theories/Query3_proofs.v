(** The properties of query builders put together. *)
From Coq Require Import Strings.String Strings.Ascii NArith ZArith List Bool Lia.
From Verif Require Import GoStr GoNum Syntax Value Util Model Sqlf Sqlb Spec_syntax Spec_eval Spec_query
  Query_proofs Ops_proofs Query2_proofs Ops2_proofs.
Import ListNotations.
Open Scope string_scope.

Theorem ops_ok : forall os q, Forall op_ok os -> apply_ops os new_qb = ROk q -> tables_ok q /\ ctes_ok q.
Proof. intros os q F H. split; [exact (tables_ok_ops _ _ _ F tables_ok_new H)|exact (ctes_ok_ops _ _ H)]. Qed.

(** Mentions of kept joins. *)
Theorem kept_mentions : forall q kt kc ft f u, tables_ok q -> selection q kt kc -> ctes_aliased q -> q_distinct q = true ->
  In ft (listed q) -> kt ft = true -> ft_optional ft = true -> option_map ft_names (main_of q) <> Some (ft_names ft) ->
  table_of q (applied (ft_names ft)) = Some ft -> ft_frag ft = Some f -> mentions (BFrag f) u -> needed q u.
Proof.
  intros q kt kc ft f u T (_ & _ & S3) Ha Hd Hi Hk Ho Hm Ht Hf Hu. destruct (S3 Ha) as [S4 _].
  destruct (proj1 (S4 ft Hi) Hk) as [B|[B|[B|(t & ft' & N & B1 & B2)]]]; try congruence.
  eapply nd_join; [exact N|exact B1|rewrite B2; exact Hm| |exact Hu].
  assert (E : t = applied (ft_names ft)).
  { unfold table_of in B1. destruct (assoc t (q_tdict q)) as [i|] eqn:Ea; [|discriminate]. destruct T as [T _].
    destruct (T _ _ Ea) as (ft2 & f2 & K1 & K2 & _). rewrite K1 in B1. injection B1 as ->. rewrite <- B2. symmetry. exact K2. }
  subst t. congruence.
Qed.

(** LIMIT and OFFSET. *)
Theorem limits_ok : forall os q n e id st sql st', apply_ops os new_qb = ROk q -> get_q st id = q ->
  build n e (BQuery (Some id)) st = (ROk sql, st') ->
  exists secs, sql = layout secs /\ s_limit secs = last_positive (limits os) /\ s_offset secs = last_positive (offsets os).
Proof.
  intros os q n e id st sql st' Ho Hq H. destruct (query_ok _ _ _ _ _ _ H) as (n' & kt & kc & secs & _ & A & E & _). exists secs. split; [exact E|].
  pose proof (ops_described _ _ _ Ho) as D. inversion A as [q0 ctexts froms w g o s h us st1 st2 st3 st4 st5 st6 st7 st8 Eq Ee A1 A2 A3 A4 A5 A6 A7 A8 A9 Es Est].
  cbn [s_limit s_offset]. subst q0. rewrite Hq. rewrite (ds_limit _ _ _ D), (ds_offset _ _ _ D). split; reflexivity.
Qed.
(** Errors stay. *)
Theorem nameless_fails : forall os q id st, apply_ops os new_qb = ROk q -> existsb nameless os = true -> get_q st id = q ->
  forall st2, evolves st st2 -> forall n e, exists er, build (S n) e (BQuery (Some id)) st2 = (RErr er, st2).
Proof.
  intros os q id st Ho Hn Hq st2 V n e. apply query_errors. apply (evolves_errors st); [exact V|]. rewrite Hq.
  destruct (errors_ops os new_qb q Ho) as (l & E & N). rewrite E. cbn. exact (N Hn).
Qed.
Theorem empty_panics : forall os q id st n e, apply_ops os new_qb = ROk q -> existsb is_from os = false -> existsb is_join os = false -> existsb nameless os = false ->
  get_q st id = q -> exists er, build (S n) e (BQuery (Some id)) st = (RPanic er, st).
Proof.
  intros os q id st n e Ho Hf Hj Hn Hq. apply query_no_tables.
  - rewrite Hq. exact (no_tables_ops os new_qb q Hf Hj eq_refl Ho).
  - rewrite Hq. clear Hq. assert (G : forall q0, q_errors q0 = [] -> apply_ops os q0 = ROk q -> q_errors q = []); [|exact (G new_qb eq_refl Ho)].
    clear Ho. revert Hf Hj Hn. induction os as [|o os IH]; intros Hf Hj Hn q0 E0 Ho; cbn [apply_ops existsb] in *; [congruence|].
    apply orb_false_elim in Hf, Hj, Hn. destruct (apply_op o q0) as [q1|er|er|] eqn:E; try discriminate. apply (IH (proj2 Hf) (proj2 Hj) (proj2 Hn) q1); [|exact Ho].
    destruct (is_table_op o) eqn:T; [|pose proof (tables_other o q0 q1 T E) as K; unfold tables_of in K; congruence].
    destruct o; try discriminate; cbn [is_from is_join nameless] in *; destruct Hf as [Hf _]; destruct Hj as [Hj _]; destruct Hn as [Hn _]; rewrite Hn in *; discriminate.
Qed.
(** The clauses of a described query. *)
Theorem described_clauses : forall os q, apply_ops os new_qb = ROk q ->
  q_selects q = joined_by ", " "SELECT" (last (selected os) []) /\
  q_conds q = joined_by " AND " "WHERE" (conditions os) /\
  q_groups q = joined_by ", " "GROUP BY" (grouped os) /\
  q_orders q = ordered os /\ q_unions q = united os /\ q_ctes q = withs os /\
  q_limit q = last_positive (limits os) /\ q_offset q = last_positive (offsets os) /\
  q_distinct q = existsb is_distinct os /\ q_debug q = existsb is_debug os /\ q_touches q = joined_by ", " "" [].
Proof.
  intros os q H. pose proof (ops_described _ _ _ H) as [A1 A2 A3 A4 A5 A6 A7 A8 A9 A10 A11 A12].
  rewrite A1, A2, A3, A4, A5, A6, A7, A8, A9, A10, A12. repeat apply conj; reflexivity.
Qed.
(** Unions. *)
Theorem union_all_empty : forall s us, s_union s = Some us -> nonempty_items us = [] ->
  layout s = trim_space (layout (mkSections (s_with s) (s_select s) (s_hidden s) (s_from s) (s_where s) (s_group s) (s_order s) (s_limit s) (s_offset s) None) ++ " UNION ()").
Proof. intros s us H1 H2. unfold layout. cbn [s_with s_select s_hidden s_from s_where s_group s_order s_limit s_offset s_union]. rewrite H1, H2. reflexivity. Qed.

Theorem union_texts : forall n e id st sql st', build n e (BQuery (Some id)) st = (ROk sql, st') ->
  exists secs, sql = layout secs /\ (q_unions (get_q st id) = [] -> s_union secs = None) /\
    (q_unions (get_q st id) <> [] -> exists n' s0 us, n = S n' /\ do_all (build n' e) (q_unions (get_q st id)) s0 = (ROk us, st') /\ s_union secs = Some us).
Proof.
  intros n e id st sql st' H. destruct (query_ok _ _ _ _ _ _ H) as (n' & kt & kc & secs & -> & A & E & _). exists secs. split; [exact E|].
  inversion A as [q0 ctexts froms w g o s h us st1 st2 st3 st4 st5 st6 st7 st8 Eq Ee A1 A2 A3 A4 A5 A6 A7 A8 A9 Es Est]. subst q0.
  cbn [s_union]. split; intros K; [rewrite K; reflexivity|]. exists n', st7, us. split; [reflexivity|]. split; [exact A9|]. destruct (q_unions (get_q st id)); [congruence|reflexivity].
Qed.

(** A second From. *)
Theorem from_twice : forall q t1 t2, tables_ok q -> fst t1 <> "" -> fst t2 <> "" -> applied t1 <> applied t2 ->
  let q' := qb_from t2 (qb_from t1 q) in
  listed q' = main_table t2 :: tl (listed q) /\ ~ undefined q' (applied t1) /\ table_of q' (applied t1) = Some (main_table t1).
Proof.
  intros q t1 t2 T H1 H2 Hne q'. pose proof (tables_ok_op (OFrom t1) q _ I T eq_refl) as T1.
  assert (K : table_of q' (applied t1) = Some (main_table t1)) by (unfold q'; rewrite known_other by assumption; apply known_from; exact H1).
  split; [unfold q'; rewrite listed_from by assumption; rewrite listed_from by assumption; reflexivity|]. split; [unfold undefined; congruence|exact K].
Qed.
(** Joining a name of a table that From replaced. *)
Theorem join_lost : forall q t1 t2 kind t on opt q', tables_ok q -> fst t1 <> "" -> fst t2 <> "" -> fst t <> "" -> applied t1 <> applied t2 -> applied t = applied t1 ->
  apply_op (OJoin kind t (Some on) opt) (qb_from t2 (qb_from t1 q)) = ROk q' ->
  listed q' = listed (qb_from t2 (qb_from t1 q)).
Proof.
  intros q t1 t2 kind t on opt q' T H1 H2 H3 Hne Ht H. pose proof (tables_ok_op (OFrom t1) q _ I T eq_refl) as T1. cbn beta in T1.
  pose proof (tables_ok_op (OFrom t2) _ _ I T1 eq_refl) as T2. set (q2 := qb_from t2 (qb_from t1 q)) in *.
  assert (E1 : is_empty (fst t1) = false) by (destruct (fst t1); [congruence|reflexivity]).
  assert (E2 : is_empty (fst t2) = false) by (destruct (fst t2); [congruence|reflexivity]).
  assert (A : assoc (applied t) (q_tdict q2) = Some (List.length (q_tobjs q))).
  { unfold q2, qb_from. rewrite E1, E2. cbn [set_tables q_tdict assoc]. rewrite Ht.
    destruct (String.eqb (applied t1) (applied t2)) eqn:E; [apply String.eqb_eq in E; congruence|]. rewrite String.eqb_refl. reflexivity. }
  assert (N : ~ In (List.length (q_tobjs q)) (q_tables q2)).
  { unfold q2, qb_from. rewrite E1, E2. cbn [set_tables q_tables q_tobjs]. rewrite app_length. destruct T as [_ L]. destruct (q_tables q) as [|i l]; cbn [In].
    - intros [K|[]]. cbn in K. lia.
    - intros [K|K]; [cbn in K; lia|]. specialize (L _ (or_intror K)). lia. }
  assert (Ne : q_tables q2 <> []) by (unfold q2, qb_from; rewrite E1, E2; cbn [set_tables q_tables]; destruct (q_tables q); discriminate).
  destruct (listed_join_known kind t on opt q2 q' _ T2 H3 Ne A H) as (E & _ & _). rewrite E. unfold listed. apply map_ext_in. intros i Hi.
  destruct (Nat.eqb i (List.length (q_tobjs q))) eqn:Ei; [apply Nat.eqb_eq in Ei; subst i; contradiction|reflexivity].
Qed.

Theorem joins_kept : forall n e id st sql st', build n e (BQuery (Some id)) st = (ROk sql, st') ->
  let q := get_q st id in tables_ok q -> ctes_ok q ->
  exists n' keep_table keep_cte secs, n = S n' /\ assembled (build n' e) keep_table keep_cte id st secs st' /\ sql = layout secs /\
    (forall ft, In ft (listed q) -> belongs q ft -> keep_table ft = true) /\
    (ctes_aliased q -> forall ft, In ft (listed q) -> (keep_table ft = true <-> belongs q ft)).
Proof.
  intros n e id st sql st' H q T C. destruct (query_ok _ _ _ _ _ _ H) as (n' & kt & kc & secs & E1 & A & E & K). destruct (K T C) as [(S1 & S2 & S3) _].
  exists n', kt, kc, secs. repeat (split; [assumption|]). intros Ha. exact (proj1 (S3 Ha)).
Qed.
Theorem needed_kept : forall n e id st sql st', build n e (BQuery (Some id)) st = (ROk sql, st') ->
  let q := get_q st id in tables_ok q -> ctes_ok q ->
  exists n' keep_table keep_cte secs, n = S n' /\ assembled (build n' e) keep_table keep_cte id st secs st' /\ sql = layout secs /\
    forall t, needed q t -> exists ft, table_of q t = Some ft /\ (In ft (listed q) -> keep_table ft = true).
Proof.
  intros n e id st sql st' H q T C. destruct (query_ok _ _ _ _ _ _ H) as (n' & kt & kc & secs & E1 & A & E & K). destruct (K T C) as [(S1 & S2 & S3) N].
  exists n', kt, kc, secs. repeat (split; [assumption|]). intros t Ht. specialize (N t Ht). unfold undefined in N. fold q in N. destruct (table_of q t) as [ft|] eqn:Et; [|congruence].
  exists ft. split; [reflexivity|]. intros Hi. apply S1; [exact Hi|]. right. right. right. exists t, ft. auto.
Qed.
Theorem optional_closed : forall n e id st sql st', build n e (BQuery (Some id)) st = (ROk sql, st') ->
  let q := get_q st id in tables_ok q -> ctes_ok q -> ctes_aliased q -> q_distinct q = true ->
  exists n' keep_table keep_cte secs, n = S n' /\ assembled (build n' e) keep_table keep_cte id st secs st' /\ sql = layout secs /\
    forall ft f t, In ft (listed q) -> keep_table ft = true -> ft_optional ft = true -> option_map ft_names (main_of q) <> Some (ft_names ft) ->
      table_of q (applied (ft_names ft)) = Some ft -> ft_frag ft = Some f -> mentions (BFrag f) t -> needed q t.
Proof.
  intros n e id st sql st' H q T C Ha Hd. destruct (query_ok _ _ _ _ _ _ H) as (n' & kt & kc & secs & E1 & A & E & K). destruct (K T C) as [S0 _].
  exists n', kt, kc, secs. repeat (split; [assumption|]). intros ft f t. eapply kept_mentions; eassumption.
Qed.
Lemma do_all_len : forall A (step : A -> store -> outcome string * store) l st ss st', do_all step l st = (ROk ss, st') -> List.length ss = List.length l.
Proof.
  intros A step. induction l as [|x l IH]; intros st ss st' H; cbn [do_all] in H; [injection H as <- _; reflexivity|].
  destruct (step x st) as [[s|er|er|] st1]; try discriminate. destruct (do_all step l st1) as [[ss1|er|er|] st2] eqn:E; try discriminate. injection H as <- _.
  cbn. f_equal. exact (IH _ _ _ E).
Qed.
Lemma fst_combine : forall A B (l : list A) (l' : list B), List.length l' = List.length l -> map fst (combine l l') = l.
Proof. intros A B. induction l as [|x l IH]; intros [|y l'] H; cbn in *; try discriminate; [reflexivity|]. f_equal. apply IH. congruence. Qed.
Theorem ctes_kept : forall n e id st sql st', build n e (BQuery (Some id)) st = (ROk sql, st') ->
  let q := get_q st id in tables_ok q -> ctes_ok q ->
  exists n' keep_table keep_cte secs, n = S n' /\ assembled (build n' e) keep_table keep_cte id st secs st' /\ sql = layout secs /\
    map fst (s_with secs) = map c_name (filter keep_cte (q_ctes q)) /\
    (forall ft c, In ft (listed q) -> keep_table ft = true -> In c (q_ctes q) -> c_name c = fst (ft_names ft) -> keep_cte c = true) /\
    (ctes_aliased q -> forall c, In c (q_ctes q) -> (keep_cte c = true <-> cte_needed q (c_name c))).
Proof.
  intros n e id st sql st' H q T C. destruct (query_ok _ _ _ _ _ _ H) as (n' & kt & kc & secs & E1 & A & E & K). destruct (K T C) as [(S1 & S2 & S3) _].
  exists n', kt, kc, secs. split; [exact E1|]. split; [exact A|]. split; [exact E|].
  split; [|split; [exact S2|intros Ha; exact (proj2 (S3 Ha))]].
  inversion A as [q0 ctexts froms w g o s h us st1 st2 st3 st4 st5 st6 st7 st8 Eq Ee A1 A2 A3 A4 A5 A6 A7 A8 A9 Es Est]. cbn [s_with]. rewrite Eq in *. fold q.
  apply fst_combine. rewrite map_length. exact (do_all_len _ _ _ _ _ _ A1).
Qed.
Theorem order_words_iff : forall o, order_word o = None <-> (6 <= o)%N.
Proof. intros o. unfold order_word. rewrite nth_error_None. cbn [order_words List.length]. lia. Qed.
Theorem nil_on_panics_cross : forall t q, fst t <> "" -> apply_op (OCrossJoin t) q = RPanic nil_deref.
Proof. intros t q H. cbn [apply_op OCrossJoin]. unfold qb_join. destruct (fst t) eqn:E; [congruence|]. reflexivity. Qed.
