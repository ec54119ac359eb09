(** Properties of building query builders. *)
From Coq Require Import Strings.String Strings.Ascii NArith ZArith List Bool Lia.
From Verif Require Import GoStr GoNum Syntax Value Util Model Sqlf Sqlb Spec_syntax Spec_eval Fuel_proofs Spec_query Deps_proofs Query_proofs Ops_proofs Rel_proofs.
Import ListNotations.
Open Scope string_scope.

(* ------------------------------------------------------------------ *)
(** * Success *)

Lemma in_listed : forall q ft, tables_ok q -> In ft (listed q) <-> exists id, In id (q_tables q) /\ nth_error (q_tobjs q) id = Some ft.
Proof.
  intros q ft [_ Hl]. unfold listed. rewrite in_map_iff. split.
  - intros (id & E & Hi). exists id. split; [exact Hi|]. rewrite <- E. apply nth_error_nth'. auto.
  - intros (id & Hi & E). exists id. split; [|exact Hi]. apply nth_error_nth. exact E.
Qed.
Lemma collect_ok : forall q d, collect_deps q = ROk d -> exists m, main_of q = Some m /\ forall b, In b (clause_builders q) -> ~ has_nil b.
Proof.
  intros q d H. rewrite collect_unfold in H. pose proof (extract_list_spec (clause_builders q) []) as Ex. unfold extract_tables in H.
  destruct (extract_list (clause_builders q) []) as [ts|]; [|discriminate]. destruct Ex as [_ Ex].
  unfold main_of. destruct (q_tables q); [discriminate|]. destruct (nth_error (q_tobjs q) n); [|discriminate]. eauto.
Qed.
Lemma deps_selection : forall q d, tables_ok q -> ctes_ok q -> collect_deps q = ROk d ->
  selection q (kept q d) (fun c => dep_mem (c_name c, "") d) /\ forall t, needed q t -> ~ undefined q t.
Proof.
  intros q d Ht Hc H. destruct (collect_ok q d H) as (m & Hm & Hn). pose proof (collect_outcome q m Ht Hc Hm Hn) as P. rewrite H in P.
  destruct P as (P1 & P2 & P3 & P4). split; [|exact P1]. split; [|split].
  - intros ft Hi [B|[B|[B|B]]]; unfold kept.
    + rewrite B. reflexivity.
    + rewrite B, andb_false_r. reflexivity.
    + rewrite Hm in B. cbn in B. injection B as B. rewrite (proj2 (dep_mem_iff (ft_names ft) d)); [rewrite andb_false_r; reflexivity|]. apply P2. auto.
    + rewrite (proj2 (dep_mem_iff (ft_names ft) d)); [rewrite andb_false_r; reflexivity|]. apply P2. auto.
  - intros ft c Hi K Hcc E. apply dep_mem_iff. rewrite E. apply (in_listed q ft Ht) in Hi. destruct Hi as (id & Hi & Hid).
    apply (P3 id ft Hi Hid K). rewrite <- E. apply (proj2 Hc). exact Hcc.
  - intros Ha. destruct (P4 Ha) as [A1 A2]. split.
    + intros ft Hi. apply (in_listed q ft Ht) in Hi. destruct Hi as (id & Hi & Hid). exact (A1 id ft Hi Hid).
    + intros c Hcc. rewrite dep_mem_iff. apply A2. apply (proj2 Hc). exact Hcc.
Qed.
Theorem query_ok : forall n e id st sql st', build n e (BQuery (Some id)) st = (ROk sql, st') ->
  exists n' keep_table keep_cte secs, n = S n' /\ assembled (build n' e) keep_table keep_cte id st secs st' /\ sql = layout secs /\
    (tables_ok (get_q st id) -> ctes_ok (get_q st id) -> selection (get_q st id) keep_table keep_cte /\
       forall t, needed (get_q st id) t -> ~ undefined (get_q st id) t).
Proof.
  intros [|n] e id st sql st' H; [discriminate|]. cbn [build] in H. apply internal_ok in H; [|intros b s; apply evolves_build].
  destruct H as (d & secs & Hd & A & E & _). exists n, (kept (get_q st id) d), (fun c => dep_mem (c_name c, "") d), secs.
  split; [reflexivity|]. split; [exact A|]. split; [exact E|]. intros Ht Hc. apply deps_selection; assumption.
Qed.
Theorem query_builds : forall id st m, let q := get_q st id in
  tables_ok q -> ctes_ok q -> main_of q = Some m -> (forall b, In b (clause_builders q) -> ~ has_nil b) ->
  (forall t, needed q t -> ~ undefined q t) -> q_debug q = false ->
  exists keep_table keep_cte, selection q keep_table keep_cte /\
    forall n e secs st', assembled (build n e) keep_table keep_cte id st secs st' ->
      build (S n) e (BQuery (Some id)) st = (ROk (layout secs), st').
Proof.
  intros id st m q Ht Hc Hm Hn Hu Hd. pose proof (collect_outcome q m Ht Hc Hm Hn) as P.
  destruct (collect_deps q) as [d|er|er|] eqn:E; try contradiction.
  2:{ destruct P as (t & N & U). exfalso. exact (Hu t N U). }
  exists (kept q d), (fun c => dep_mem (c_name c, "") d). split; [apply deps_selection; assumption|].
  intros n e secs st' A. cbn [build]. apply internal_ok; [intros b s; apply evolves_build|]. exists d, secs.
  split; [exact E|]. split; [exact A|]. split; [reflexivity|]. left. exact Hd.
Qed.
Theorem query_undefined : forall n e id st m t, let q := get_q st id in
  tables_ok q -> ctes_ok q -> main_of q = Some m -> (forall b, In b (clause_builders q) -> ~ has_nil b) ->
  needed q t -> undefined q t -> exists er, build (S n) e (BQuery (Some id)) st = (RErr er, st).
Proof.
  intros n e id st m t q Ht Hc Hm Hn N U. pose proof (collect_outcome q m Ht Hc Hm Hn) as P. cbn [build]. unfold build_internal. fold q.
  destruct (q_errors q); [|eauto]. destruct (collect_deps q) as [d|er|er|]; try contradiction; [|eauto].
  destruct P as (P1 & _). exfalso. exact (P1 t N U).
Qed.
Theorem query_errors : forall n e id st, q_errors (get_q st id) <> [] -> exists er, build (S n) e (BQuery (Some id)) st = (RErr er, st).
Proof. intros n e id st H. cbn [build]. unfold build_internal. destruct (q_errors (get_q st id)); [congruence|eauto]. Qed.
Lemma evolves_errors : forall st st' id, evolves st st' -> q_errors (get_q st id) <> [] -> q_errors (get_q st' id) <> [].
Proof.
  intros st st' id [_ H] N. destruct (H id) as (s & bs & es & -> & _). cbn. destruct (q_errors (get_q st id)); [congruence|discriminate].
Qed.
Theorem query_no_tables : forall n e id st, q_tables (get_q st id) = [] -> q_errors (get_q st id) = [] ->
  exists er, build (S n) e (BQuery (Some id)) st = (RPanic er, st).
Proof.
  intros n e id st Ht He. cbn [build]. unfold build_internal. rewrite He, collect_unfold, Ht. destruct (extract_tables _); eauto.
Qed.

Lemma query_in_heap : forall n e id st sql st', build n e (BQuery (Some id)) st = (ROk sql, st') -> id < List.length (st_heap st).
Proof.
  intros [|n] e id st sql st' H; [discriminate|]. destruct (Nat.lt_ge_cases id (List.length (st_heap st))) as [L|L]; [exact L|].
  assert (Q : get_q st id = new_qb) by (unfold get_q; apply nth_overflow; exact L).
  destruct (query_no_tables n e id st) as (er & E); [rewrite Q; reflexivity|rewrite Q; reflexivity|]. congruence.
Qed.
(** What a successful build leaves in the builder. *)
Theorem query_leaves : forall n e id st sql st', build n e (BQuery (Some id)) st = (ROk sql, st') ->
  exists bs bs' es es', q_touches (get_q st' id) = append_frags (q_touches (get_q st id)) (bs ++ hidden_columns (get_q st id) ++ bs') /\
    q_errors (get_q st' id) = (es ++ order_errors (get_q st id) ++ es')%list.
Proof.
  intros n e id st sql st' H. pose proof (query_in_heap _ _ _ _ _ _ H) as In_h. apply query_ok in H. destruct H as (n' & kt & kc & secs & -> & A & _).
  destruct A as [q ctexts froms w g o s h us st1 st2 st3 st4 st5 st6 st7 st8 Hq Er H1 H2 H3 H4 H5 E6 Es E7 Hu].
  assert (Hrb : forall b s, evolves s (snd (build n' e b s))) by (intros; apply evolves_build).
  assert (V4 : evolves st st4).
  { pose proof (do_all_evolves _ Hrb _ c_builder (filter kc (q_ctes q)) st) as K1. rewrite H1 in K1.
    pose proof (do_all_evolves _ Hrb _ table_builder (filter kt (listed q)) st1) as K2. rewrite H2 in K2.
    pose proof (Hrb (BFrag (q_conds q)) st2) as K3. rewrite H3 in K3. pose proof (Hrb (BFrag (q_groups q)) st3) as K4. rewrite H4 in K4.
    cbn [snd] in *. eapply evolves_trans; [exact K1|]. eapply evolves_trans; [exact K2|]. eapply evolves_trans; [exact K3|]. exact K4. }
  assert (V8 : evolves (set_q st4 id (with_orders (get_q st4 id))) st8).
  { pose proof (Hrb (BFrag (order_clause q)) (set_q st4 id (with_orders (get_q st4 id)))) as K1. rewrite H5 in K1.
    pose proof (Hrb (BFrag (select_clause q)) (set_q st5 id (with_select (get_q st5 id)))) as K2. rewrite E6 in K2.
    pose proof (Hrb (BFrag (q_touches (get_q st6 id))) st6) as K3. rewrite E7 in K3.
    pose proof (do_all_evolves _ Hrb _ (fun b => b) (q_unions q) st7) as K4. cbv beta in K4. change (fun x : builder => build n' e x) with (build n' e) in K4. rewrite Hu in K4.
    cbn [snd] in *. eapply evolves_trans; [exact K1|]. eapply evolves_trans; [apply evolves_set, evolved_select|]. eapply evolves_trans; [exact K2|].
    eapply evolves_trans; [exact K3|]. exact K4. }
  rewrite Hq in *. clear Hq q.
  destruct V4 as [L4 V4]. specialize (V4 id). destruct V8 as [_ V8]. specialize (V8 id).
  rewrite get_set_q, Nat.eqb_refl in V8. assert (L : (id <? List.length (st_heap st4))%nat = true) by (apply Nat.ltb_lt; lia). rewrite L in V8. cbn [andb] in V8.
  pose proof (evolved_fixed _ _ V4) as Fx.
  assert (Hh : hidden_columns (get_q st4 id) = hidden_columns (get_q st id)).
  { unfold hidden_columns. destruct Fx as (_ & _ & _ & _ & _ & _ & -> & _ & -> & _). reflexivity. }
  assert (He : order_errors (get_q st4 id) = order_errors (get_q st id)).
  { unfold order_errors. destruct Fx as (_ & _ & _ & _ & _ & _ & -> & _). reflexivity. }
  destruct V4 as (x & bs & es & V4 & _). destruct V8 as (y & bs' & es' & V8 & _).
  exists bs, bs', (q_errors (get_q st id) ++ es)%list, es'. rewrite V8. unfold with_orders. rewrite Hh, He.
  cbn [q_touches q_errors set_errors set_touches set_selects]. rewrite V4. cbn [q_touches q_errors set_errors set_touches set_selects].
  rewrite !append_frags_app, <- !app_assoc. split; reflexivity.
Qed.

(** An order outside the constants makes every later build fail. *)
Lemma order_errors_nil : forall q, order_errors q = [] <-> forall b o, In (b, o) (q_orders q) -> order_word o <> None.
Proof.
  intros q. unfold order_errors. induction (q_orders q) as [|[b o] l IH]; cbn [flat_map snd]; [split; [intros _ b o []|reflexivity]|].
  destruct (order_word o) eqn:E.
  - cbn [app]. rewrite IH. split; [|intros H b' o' Hi; apply (H b' o'); right; exact Hi].
    intros H b' o' [K|K]; [injection K as <- <-; congruence|exact (H b' o' K)].
  - split; [discriminate|]. intros H. exfalso. apply (H b o); [left; reflexivity|exact E].
Qed.
Theorem query_invalid_order : forall n e id st sql st' b o, build n e (BQuery (Some id)) st = (ROk sql, st') ->
  In (b, o) (q_orders (get_q st id)) -> order_word o = None ->
  forall st2, evolves st' st2 -> forall n2 e2, exists er, build (S n2) e2 (BQuery (Some id)) st2 = (RErr er, st2).
Proof.
  intros n e id st sql st' b o H Hi Hw st2 V n2 e2. apply query_errors. eapply evolves_errors; [exact V|].
  destruct (query_leaves _ _ _ _ _ _ H) as (bs & bs' & es & es' & _ & E). rewrite E.
  destruct (order_errors (get_q st id)) eqn:En; [|destruct es; discriminate].
  exfalso. exact (proj1 (order_errors_nil _) En b o Hi Hw).
Qed.

(* ------------------------------------------------------------------ *)
(** * Building again *)

Definition alike (s t : store) : Prop :=
  st_dollar s = st_dollar t /\ st_args s = st_args t /\ st_dict s = st_dict t /\ map with_select (st_heap s) = map with_select (st_heap t).
Lemma alike_get : forall s t id, alike s t -> with_select (get_q s id) = with_select (get_q t id).
Proof.
  intros s t id (_ & _ & _ & H). unfold get_q. rewrite <- !(map_nth with_select). rewrite H. reflexivity.
Qed.
Lemma map_upd : forall A B (f : A -> B) i x l, map f (upd i x l) = upd i (f x) (map f l).
Proof. intros A B f. induction i as [|i IH]; intros x [|y l]; cbn; try reflexivity. rewrite IH. reflexivity. Qed.
Lemma alike_set : forall s t id q p, alike s t -> with_select q = with_select p -> alike (set_q s id q) (set_q t id p).
Proof.
  intros s t id q p (H1 & H2 & H3 & H4) H. repeat split; try assumption. unfold set_q. cbn [st_heap set_heap]. rewrite !map_upd, H, H4. reflexivity.
Qed.
(** What is the same in builders that agree up to the prefix of SELECT. *)
Lemma alike_fields : forall q p, with_select q = with_select p ->
  fixed q p /\ q_touches p = q_touches q /\ q_errors p = q_errors q.
Proof.
  intros q p H. unfold with_select in H.
  pose proof (f_equal q_ctes H) as E1. pose proof (f_equal q_cdict H) as E2. pose proof (f_equal q_tobjs H) as E3. pose proof (f_equal q_tables H) as E4.
  pose proof (f_equal q_tdict H) as E5. pose proof (f_equal q_selects H) as E6. pose proof (f_equal q_touches H) as E7. pose proof (f_equal q_conds H) as E8.
  pose proof (f_equal q_orders H) as E9. pose proof (f_equal q_groups H) as E10. pose proof (f_equal q_distinct H) as E11. pose proof (f_equal q_limit H) as E12.
  pose proof (f_equal q_offset H) as E13. pose proof (f_equal q_unions H) as E14. pose proof (f_equal q_errors H) as E15. pose proof (f_equal q_debug H) as E16.
  cbn in *. unfold fixed. repeat apply conj; symmetry; assumption.
Qed.
Lemma extract_prefix : forall f p acc, extract1 (BFrag (with_prefix f p)) acc = extract1 (BFrag f) acc.
Proof. intros [raw args frags q s] p acc. reflexivity. Qed.
Lemma deps_table_fields : forall p q, q_tobjs p = q_tobjs q -> q_tdict p = q_tdict q -> forall n t d, deps_table n p t d = deps_table n q t d.
Proof.
  intros p q E1 E2. induction n as [|n IH]; intros t d; [reflexivity|]. rewrite !deps_table_S, E1, E2.
  destruct (assoc t (q_tdict q)); [|reflexivity]. destruct (nth_error _ _); [|reflexivity]. destruct (dep_mem _ _); [reflexivity|].
  destruct (ft_frag _); [|reflexivity]. destruct (extract_frag _ _) as [ts|]; [|reflexivity]. generalize (ft_names f :: d).
  induction ts as [|u ts IHt]; intros d'; cbn [deps_go]; [reflexivity|]. destruct (String.eqb u t); [apply IHt|]. rewrite IH. destruct (deps_table n q u d'); try reflexivity. apply IHt.
Qed.
Lemma deps_cte_fields : forall p q, q_cdict p = q_cdict q -> forall n c d, deps_cte n p c d = deps_cte n q c d.
Proof.
  intros p q E. induction n as [|n IH]; intros c d; [reflexivity|]. rewrite !deps_cte_S. destruct (dep_mem _ _); [reflexivity|].
  generalize ((c_name c, "") :: d). induction (c_deps c) as [|x l IHl]; intros d'; cbn [cte_go]; [reflexivity|]. rewrite E.
  destruct (assoc x (q_cdict q)); [|apply IHl]. rewrite IH. destruct (deps_cte n q c0 d'); try reflexivity. apply IHl.
Qed.
Lemma alike_collect : forall q p, with_select q = with_select p -> collect_deps q = collect_deps p.
Proof.
  intros q p H. destruct (alike_fields q p H) as ((F1 & F2 & F3 & F4 & F5 & F6 & F7 & F8 & F9 & F10 & F11 & F12 & F13 & F14) & F15 & F16).
  rewrite !collect_unfold.
  assert (E : extract_tables (clause_builders q) = extract_tables (clause_builders p)).
  { unfold clause_builders, extract_tables. rewrite F7, F6, F8, F15. cbn [app extract_list].
    rewrite <- (extract_prefix (q_selects q) (if q_distinct q then "SELECT DISTINCT" else "SELECT")).
    rewrite <- (extract_prefix (q_selects p) (if q_distinct p then "SELECT DISTINCT" else "SELECT")).
    change (with_prefix (q_selects q) (if q_distinct q then "SELECT DISTINCT" else "SELECT")) with (select_clause q). change (with_prefix (q_selects p) (if q_distinct p then "SELECT DISTINCT" else "SELECT")) with (select_clause p). rewrite F14. reflexivity. }
  rewrite E, F4, F3. unfold deps_fuel. rewrite F3, F2. destruct (extract_tables (clause_builders p)); [|reflexivity]. destruct (q_tables q) as [|i ids]; [reflexivity|].
  destruct (nth_error (q_tobjs q) i); [|reflexivity].
  assert (T : forall n ts d, deps_tables n q ts d = deps_tables n p ts d).
  { intros n ts. induction ts as [|t ts IH]; intros d; cbn [deps_tables]; [reflexivity|]. rewrite (deps_table_fields q p) by congruence.
    destruct (deps_table n p t d); try reflexivity. apply IH. }
  rewrite T. destruct (deps_tables _ p _ _); try reflexivity. generalize (i :: ids). intros ids'. revert a.
  induction ids' as [|j ids' IH]; intros d; cbn [deps_ctes]; [reflexivity|]. rewrite F3, F9, F2. destruct (nth_error (q_tobjs q) j); [|reflexivity].
  destruct (_ && _); [apply IH|]. destruct (assoc _ _); [|apply IH]. rewrite (deps_cte_fields q p) by congruence. destruct (deps_cte _ p _ _); try reflexivity. apply IH.
Qed.
Lemma alike_orders : forall q p, with_select q = with_select p -> with_select (with_orders q) = with_select (with_orders p) /\ order_items q = order_items p.
Proof.
  intros q p H. destruct (alike_fields q p H) as ((F1 & F2 & F3 & F4 & F5 & F6 & F7 & F8 & F9 & F10 & F11 & F12 & F13 & F14) & F15 & F16).
  assert (E1 : hidden_columns q = hidden_columns p) by (unfold hidden_columns; rewrite F7, F9; reflexivity).
  assert (E2 : order_errors q = order_errors p) by (unfold order_errors; rewrite F7; reflexivity).
  split; [|unfold order_items; rewrite F7, F9; reflexivity].
  unfold with_select, with_orders. unfold select_clause. rewrite E1, E2, <- F15, <- F16.
  apply qb_ext; cbn; try congruence. unfold select_clause in F14. congruence.
Qed.
Lemma alike_rel : forall n e b s t, alike s t -> rel alike (build n e b s) (build n e b t).
Proof.
  apply rel_build.
  - intros s t (_ & H & _). exact H.
  - intros v s t H. pose proof H as (H1 & H2 & H3 & H4). unfold commit. rewrite H1, H2, H3. destruct (st_dollar t).
    + destruct (hashable v); [|split; [reflexivity|exact H]]. destruct (dict_find v (st_dict t)); [split; [reflexivity|exact H]|]. split; [reflexivity|]. repeat split; cbn; exact H4.
    + split; [reflexivity|]. repeat split; cbn; assumption.
  - intros z s t (H1 & H2 & H3 & H4). repeat split. exact H4.
  - intros s t s' t' (H1 & H2 & H3 & H4) (K1 & K2 & K3 & K4). repeat split; assumption.
  - intros rb Hrb id s t H. unfold build_internal.
    pose proof (alike_get s t id H) as G. destruct (alike_fields _ _ G) as ((F1 & _) & _ & F16). rewrite F16, F1, (alike_collect _ _ G).
    destruct (q_errors (get_q s id)); [|split; [reflexivity|exact H]]. destruct (collect_deps (get_q t id)) as [d|er|er|]; try (split; [reflexivity|exact H]).
    apply rel_bind; [apply rel_ctes; assumption|]. clear H G F1 F16. intros sq s1 t1 H.
    apply rel_bind.
    { pose proof (alike_get s1 t1 id H) as G. destruct (alike_fields _ _ G) as ((F1 & F2 & F3 & F4 & F5 & F6 & F7 & F8 & F9 & _) & _).
      unfold build_from, from_tables. rewrite F9, F3, F4.
      match goal with |- context [build_from_loop rb ?di ?fts d s1] => destruct (rel_from_loop alike rb Hrb di fts d s1 t1 H) as [E1 E2];
        destruct (build_from_loop rb di fts d s1) as [o s2], (build_from_loop rb di fts d t1) as [o' t2] end.
      cbn [fst snd] in *. subst o'. destruct o; (split; [reflexivity|exact E2]). }
    clear s1 t1 H. intros fr s2 t2 H.
    apply rel_bind.
    { pose proof (alike_get s2 t2 id H) as G. destruct (alike_fields _ _ G) as ((F1 & F2 & F3 & F4 & F5 & F6 & _) & _). rewrite F6. apply Hrb. exact H. }
    clear s2 t2 H. intros wh s3 t3 H.
    apply rel_bind.
    { pose proof (alike_get s3 t3 id H) as G. destruct (alike_fields _ _ G) as ((F1 & F2 & F3 & F4 & F5 & F6 & F7 & F8 & _) & _). rewrite F8. apply Hrb. exact H. }
    clear s3 t3 H. intros gr s4 t4 H.
    apply rel_bind.
    { pose proof (alike_get s4 t4 id H) as G. destruct (alike_orders _ _ G) as [A1 A2]. unfold build_orders. rewrite !orders_spec, A2. apply Hrb.
      apply alike_set; assumption. }
    clear s4 t4 H. intros ord s5 t5 H. cbn zeta.
    pose proof (alike_get s5 t5 id H) as G. destruct (alike_fields _ _ G) as ((F1 & F2 & F3 & F4 & F5 & F6 & F7 & F8 & F9 & F10 & F11 & F12 & F13 & F14) & F15 & F16).
    rewrite F10, F11.
    apply rel_bind.
    { unfold build_selects. change (with_prefix (q_selects (get_q s5 id)) (if q_distinct (get_q s5 id) then "SELECT DISTINCT" else "SELECT")) with (select_clause (get_q s5 id)). change (with_prefix (q_selects (get_q t5 id)) (if q_distinct (get_q t5 id) then "SELECT DISTINCT" else "SELECT")) with (select_clause (get_q t5 id)). fold (with_select (get_q s5 id)). fold (with_select (get_q t5 id)).
      rewrite F14, G. pose proof (alike_set s5 t5 id (with_select (get_q t5 id)) (with_select (get_q t5 id)) H eq_refl) as K.
      destruct (Hrb (BFrag (select_clause (get_q s5 id))) _ _ K) as [E1 E2].
      destruct (rb (BFrag (select_clause (get_q s5 id))) (set_q s5 id _)) as [o s6], (rb (BFrag (select_clause (get_q s5 id))) (set_q t5 id _)) as [o' t6]. cbn [fst snd] in *. subst o'.
      destruct o as [r|er|er|]; try (split; [reflexivity|exact E2]).
      pose proof (alike_get s6 t6 id E2) as G6. destruct (alike_fields _ _ G6) as (_ & F15' & _). rewrite F15'.
      destruct (Hrb (BFrag (q_touches (get_q s6 id))) _ _ E2) as [D1 D2].
      destruct (rb _ s6) as [o s7], (rb _ t6) as [o' t7]. cbn [fst snd] in *. subst o'. destruct o as [r2|er|er|]; try (split; [reflexivity|exact D2]).
      destruct (is_empty r); [split; [reflexivity|exact D2]|]. destruct (is_empty r2); (split; [reflexivity|exact D2]). }
    clear F1 F2 F3 F4 F5 F6 F7 F8 F9 F12 F13 F14 F15 F16 G. 
    intros sel s6 t6 H6. apply rel_bind.
    { pose proof (alike_get s6 t6 id H6) as G. destruct (alike_fields _ _ G) as ((F1 & F2 & F3 & F4 & F5 & F6 & F7 & F8 & F9 & _ & _ & F12 & _) & _). rewrite F12.
      destruct (q_unions (get_q s6 id)); [split; [reflexivity|exact H6]|]. apply rel_bind; [apply rel_union; assumption|].
      intros r s8 t8 K. split; [reflexivity|exact K]. }
    intros r s7 t7 H7. pose proof (alike_get s7 t7 id H7) as G. destruct (alike_fields _ _ G) as ((F1 & F2 & F3 & F4 & F5 & F6 & F7 & F8 & F9 & _ & _ & F12 & F13 & _) & _).
    rewrite F13. pose proof H7 as (_ & Ha & _). rewrite Ha. destruct (q_debug (get_q s7 id)); [|split; [reflexivity|exact H7]].
    destruct (interpolate _ _ _); (split; [reflexivity|exact H7]).
Qed.

(** Builders whose build adds nothing. *)
Lemma steady_alike : forall q p, with_select q = with_select p -> steady q -> steady p.
Proof.
  intros q p H [H1 H2]. destruct (alike_fields q p H) as ((F1 & F2 & F3 & F4 & F5 & F6 & F7 & F8 & F9 & _) & _).
  split; [rewrite F9, F7; exact H1|]. unfold order_errors. rewrite F7. exact H2.
Qed.
Lemma steady_orders : forall q, steady q -> with_orders q = q.
Proof.
  intros q [H1 H2]. unfold with_orders. rewrite H2, app_nil_r. replace (hidden_columns q) with (@nil builder).
  - rewrite append_frags_nil, set_touches_same, set_errors_same. reflexivity.
  - unfold hidden_columns. destruct H1 as [-> | ->]; [reflexivity|]. destruct (q_distinct q); reflexivity.
Qed.
Definition keeps (s t : store) : Prop := Forall steady (st_heap s) -> map with_select (st_heap t) = map with_select (st_heap s).
Lemma steady_heap : forall h h', map with_select h' = map with_select h -> Forall steady h -> Forall steady h'.
Proof.
  intros h h' E. revert h E. induction h' as [|q h' IH]; intros [|p h] E F; try discriminate; [constructor|].
  cbn [map] in E. pose proof (f_equal (hd new_qb) E) as E1. pose proof (f_equal (@tl qb) E) as E2. cbn [hd tl] in E1, E2. clear E. inversion F; subst. constructor; [eapply steady_alike; [symmetry; exact E1|assumption]|eapply IH; eassumption].
Qed.
Lemma steady_get : forall h id, Forall steady h -> steady (nth id h new_qb).
Proof.
  intros h id F. destruct (Nat.lt_ge_cases id (List.length h)) as [L|L].
  - rewrite Forall_forall in F. apply F. apply nth_In. exact L.
  - rewrite nth_overflow by exact L. split; [left|]; reflexivity.
Qed.
Lemma with_select_twice : forall q, with_select (with_select q) = with_select q.
Proof. intros q. unfold with_select, select_clause. cbn. destruct (q_selects q). reflexivity. Qed.
Theorem keeps_build : forall n e b st, keeps st (snd (build n e b st)).
Proof.
  apply step_build.
  - intros st _. reflexivity.
  - intros a b c H1 H2 F. specialize (H1 F). rewrite H2; [exact H1|]. eapply steady_heap; eassumption.
  - intros v st F. rewrite commit_heap. reflexivity.
  - intros st id F. unfold set_q. cbn [st_heap set_heap]. rewrite map_upd. change (with_prefix (q_selects (get_q st id)) (if q_distinct (get_q st id) then "SELECT DISTINCT" else "SELECT")) with (select_clause (get_q st id)).
    change (selects_prefixed (get_q st id)) with (with_select (get_q st id)). rewrite with_select_twice. unfold get_q. rewrite <- (map_nth with_select). apply upd_same.
  - intros st id F. unfold orders_done. rewrite orders_spec. cbn [fst]. rewrite steady_orders by (apply steady_get; exact F).
    unfold set_q. cbn [st_heap set_heap]. unfold get_q. rewrite upd_same. reflexivity.
  - intros z st st' H F. cbn [st_heap set_heap]. apply H. exact F.
Qed.
Theorem rebuild : forall n style h b, Forall steady h ->
  map with_select (snd (build_query n style h b)) = map with_select h /\
  forall h', map with_select h' = map with_select h -> fst (build_query n style h' b) = fst (build_query n style h b).
Proof.
  intros n style h b F. split.
  - unfold build_query. pose proof (keeps_build n [builtins] b (new_store style h) F) as K. destruct (build n [builtins] b (new_store style h)) as [r st]. exact K.
  - intros h' E. unfold build_query. assert (A : alike (new_store style h') (new_store style h)) by (repeat split; exact E).
    destruct (alike_rel n [builtins] b _ _ A) as [E1 (E2 & E3 & _)].
    destruct (build n [builtins] b (new_store style h')) as [r st], (build n [builtins] b (new_store style h)) as [r' st']. cbn [fst snd] in *. subst r'. rewrite E3. reflexivity.
Qed.
