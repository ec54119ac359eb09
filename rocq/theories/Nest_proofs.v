(** Proofs for statements made of several queries. *)
From Coq Require Import Strings.String Strings.Ascii NArith ZArith List Bool Lia.
From Verif Require Import GoStr GoNum Syntax Value Util Model Sqlf Sqlb Spec_syntax Spec_eval Spec_query Spec_sql Spec_nest
  Lex_proofs Num_proofs Grammar_proofs Text_proofs Sim_proofs Eval_proofs Use_proofs Join_proofs Join2_proofs
  Deps_proofs Query_proofs Ops_proofs Query2_proofs Clause_proofs Ops2_proofs Query3_proofs Spec_build Store_proofs Build_proofs Sql_proofs.
Import ListNotations.
Open Scope string_scope.

(* ------------------------------------------------------------------ *)
(** * Conditions with subqueries *)

Lemma sub_build : forall n op b c st t1 st1 t2 st2, plain_text op = true -> starts is_digit op = false ->
  build (S n) E0 b st = (ROk t1, st1) -> build (S n) E0 c st1 = (ROk t2, st2) ->
  build (S (S n)) E0 (BFrag (Ff ("#f1" ++ op ++ "(#f2)") [b; c])) st = (ROk (trim_space (t1 ++ op ++ "(" ++ t2 ++ ")")), st2).
Proof.
  intros n op b c st t1 st1 t2 st2 Hop Hd H1 H2.
  assert (E : "#f1" ++ op ++ "(#f2)" = print [Indexed "f" 1; Text (op ++ "("); Indexed "f" 2; Text ")"]).
  { cbn [print print1]. change (dec 1) with "1". change (dec 2) with "2". rewrite !append_assoc. reflexivity. }
  assert (Hd2 : forall s, starts is_digit (op ++ "(" ++ s) = false) by (intro s; destruct op; [reflexivity|exact Hd]).
  unfold Ff. rewrite E, build_parts; [|unfold wf; cbn [wf_at wf1 follow print print1]|reflexivity].
  2:{ change (dec 2) with "2". rewrite !append_assoc, Hd2, plain_app, Hop. reflexivity. }
  cbn [denote print1 map]. rewrite clause_cons.
  rewrite (eval_f1 _ _ _ E0 (mkFrame [] [b; c]) b [c] _ eq_refl eq_refl). cbn [fs_st]. rewrite H1. cbn [safe andthen].
  rewrite clause_cons. cbn [unstrip eval_expr andthen]. rewrite clause_cons.
  change (ECall "f" [LNum (float_of_N 2)] _) with (unstrip (ACall "f" [LNum (float_of_N 2)])).
  rewrite (eval_f2 _ _ _ E0 (mkFrame [] [b; c]) b c [] _ eq_refl eq_refl). cbn [fs_st]. rewrite H2.
  cbn [safe andthen]. rewrite clause_cons. cbn [unstrip eval_expr andthen].
  cbn [safe andthen clause mark map all_used forallb fs_ua fs_uf finish fs_st andb]. rewrite ?append_nil_r, !append_assoc. rewrite wrapped_none. reflexivity.
Qed.
Definition xcond_builder (x : xcond) : builder := hd BNil (condition (xcond_call x)).
Lemma xconditions_calls : forall cs, conditions (map xcond_call cs) = map xcond_builder cs.
Proof. induction cs as [|x cs IH]; [reflexivity|]. unfold conditions in *. cbn [map flat_map]. rewrite IH. destruct x as [[]|]; reflexivity. Qed.
Lemma xcond_mentions : forall x t, mentions (xcond_builder x) t -> t = fst (xcond_col x) /\ t <> "".
Proof.
  intros [x|c op id] t H; [apply (cond_mentions x t H)|]. cbn in H. inversion H; subst.
  match goal with K : In _ _ |- _ => destruct K as [<-|[<-|[]]] end; [apply col_mentions; assumption|].
  match goal with K : mentions (query _) _ |- _ => inversion K end.
Qed.
Lemma xcond_mentioned : forall x, fst (xcond_col x) <> "" -> mentions (xcond_builder x) (fst (xcond_col x)).
Proof. intros [x|c op id] H; [exact (cond_mentioned x H)|]. cbn. eapply mn_frag; [left; reflexivity|apply col_mentioned; exact H]. Qed.
Lemma xcond_no_nil : forall x, ~ has_nil (xcond_builder x).
Proof.
  intros [x|c op id] H; [apply (cond_no_nil x H)|]. cbn in H. inversion H; subst.
  match goal with K : In _ _ |- _ => destruct K as [<-|[<-|[]]] end; [eapply col_no_nil; eassumption|].
  match goal with K : has_nil (query _) |- _ => inversion K end.
Qed.
Lemma xcalls_work : forall os x, xstmt_ok x -> xdescribes os x -> Forall works os.
Proof.
  intros os x (_ & _ & Hc & _) (_ & Ht & Hw & _). apply Forall_forall. intros o Ho q.
  destruct (is_table_op o) eqn:T.
  { assert (K : In o (filter is_table_op os)) by (apply filter_In; split; assumption). rewrite Ht in K. destruct K as [<-|K]; [cbn; eauto|].
    apply in_map_iff in K as (j & <- & _). unfold join_call. destruct (j_kind j); cbn [apply_op OInnerJoin OLeftJoin ORightJoin OFullJoin OLeftJoinOptional]; unfold qb_join, join_on;
      (destruct (is_empty _); [eauto|]); (destruct (assoc _ _); eauto). }
  destruct (is_where o) eqn:W.
  { assert (K : In o (filter is_where os)) by (apply filter_In; split; assumption). rewrite Hw in K.
    apply in_map_iff in K as (y & <- & Hx). rewrite Forall_forall in Hc. specialize (Hc y Hx). destruct y as [y|c op id]; [|cbn; eauto]. destruct Hc as [_ C].
    destruct y as [c op v|c l|c l]; cbn [xcond_call cond_call apply_op]; [eauto|..]; destruct C as (vs & E); unfold where_in; rewrite E; eauto. }
  destruct o as [|[|b cols]|z|z|cols|bs|t|kind t on opt|[f|]|col op v|col l|col l|col o|nm b deps|]; try discriminate T; try discriminate W; cbn [apply_op]; eauto.
Qed.

(* ------------------------------------------------------------------ *)
(** * Common table expressions *)

Definition the_cte (w : with_item) : cte := mkCte (w_name w) (w_deps w) (query (w_id w)).
Lemma assoc_ctes : forall ws w, NoDup (map w_name ws) -> In w ws -> assoc (w_name w) (rev (map (fun c => (c_name c, c)) (map the_cte ws))) = Some (the_cte w).
Proof.
  intros ws w Hn Hw. assert (G : forall l : list (string * cte), NoDup (map fst l) -> forall k v, In (k, v) l -> assoc k l = Some v).
  { induction l as [|[k0 v0] l IH]; intros N k v H; [destruct H|]. cbn [map fst] in N. inversion N as [|? ? N1 N2]; subst. cbn [assoc].
    destruct H as [H|H]; [injection H as -> ->; rewrite String.eqb_refl; reflexivity|].
    destruct (String.eqb k k0) eqn:E; [|apply IH; assumption]. apply String.eqb_eq in E. subst k0. exfalso. apply N1. apply in_map_iff. exists (k, v). auto. }
  apply G.
  - rewrite map_rev, !map_map. apply NoDup_rev. cbn [fst c_name the_cte]. exact Hn.
  - apply -> in_rev. rewrite map_map. apply in_map_iff. exists w. auto.
Qed.
Lemma ctes_kept : forall x q kt kc, withs_ok x -> selection q kt kc ->
  q_ctes q = map the_cte (x_withs x) -> q_cdict q = rev (map (fun c => (c_name c, c)) (map the_cte (x_withs x))) ->
  map ft_names (q_tobjs q) = all_sources (x_stmt x) -> listed q = q_tobjs q -> (forall id, In id (q_tables q) <-> id < List.length (q_tobjs q)) ->
  (forall t, In t (sources (x_stmt x)) <-> exists ft, In ft (listed q) /\ belongs q ft /\ ft_names ft = t) ->
  filter kc (q_ctes q) = map the_cte (emitted x).
Proof.
  intros x q kt kc [Hn Hw] (S1 & S2 & S3) Hc Hd Hs Hl Ht Ho. rewrite Hc. unfold emitted.
  assert (Hof : forall w, In w (x_withs x) -> cte_of q (w_name w) = Some (the_cte w)) by (intros w H; unfold cte_of; rewrite Hd; apply assoc_ctes; assumption).
  assert (Hno : forall c, cte_of q c <> None -> exists w, In w (x_withs x) /\ w_name w = c).
  { intros c H. unfold cte_of in H. rewrite Hd in H. destruct (assoc c _) as [d|] eqn:E; [|congruence]. apply assoc_in in E. apply in_rev in E. rewrite map_map in E.
    apply in_map_iff in E as (w & E & K). injection E as E _. eauto. }
  assert (G : forall w, In w (x_withs x) -> kc (the_cte w) = w_emitted w).
  { intros w Hi. assert (Hq : In (the_cte w) (q_ctes q)) by (rewrite Hc; apply in_map; exact Hi).
    destruct Hw as [[_ Hw]|[Ha Hw]].
    - destruct (Hw w Hi) as (E & t & K & F). rewrite E. apply Ho in K as (ft & K & Kb & Kf).
      apply (S2 ft (the_cte w) K); [apply S1; auto|exact Hq|]. rewrite Kf, F. reflexivity.
    - destruct S3 as [_ S4].
      { intros c id ft H1 H2 H3. destruct (Hno c H1) as (v & V1 & V2). apply (Ha v V1). rewrite <- Hs. apply in_map_iff. exists ft. rewrite V2. split; [exact H3|eapply nth_error_In; exact H2]. }
      specialize (S4 (the_cte w) Hq). cbn [c_name the_cte] in S4. specialize (Hw w Hi).
      assert (W : cte_needed q (w_name w) <-> wanted x (w_name w)).
      { split.
        - clear - Ho Hl Hno Hof. intros N. assert (K : forall c, cte_needed q c -> wanted x c); [|apply K, N]. clear N w. intros c N. induction N as [id ft I1 I2 I3 I4|c d y N IH E1 E2 E3].
          + destruct (Hno _ I4) as (v & V1 & V2). rewrite <- V2. apply (wt_table x (ft_names ft) v); [|exact V1|exact V2].
            apply Ho. exists ft. split; [rewrite Hl; eapply nth_error_In; exact I2|]. split; [exact I3|reflexivity].
          + destruct (Hno _ E3) as (v & V1 & V2). destruct (Hno c) as (u & U1 & U2); [congruence|]. subst c y. rewrite (Hof u U1) in E1. injection E1 as <-.
            apply (wt_dep x u v); assumption.
        - clear - Ho Hl Ht Hof. intros N. assert (K : forall c, wanted x c -> cte_needed q c); [|apply K, N]. clear N w. intros c N. induction N as [t w T1 T2 T3|w v N IH I1 I2 I3].
          + apply Ho in T1 as (ft & F2 & Fb & F1). subst t. pose proof F2 as F3. rewrite Hl in F3. apply In_nth_error in F3 as (id & F3).
            rewrite T3. apply (cn_table q id ft); [apply Ht, nth_error_Some; congruence|exact F3|exact Fb|]. rewrite <- T3, (Hof w T2). discriminate.
          + apply (cn_dep q (w_name w) (the_cte w)); [exact IH|apply Hof, I1|exact I3|]. rewrite (Hof v I2). discriminate. }
      destruct (kc (the_cte w)), (w_emitted w); try reflexivity; exfalso.
      + assert (K : false = true) by (apply Hw, W, S4; reflexivity). discriminate K.
      + assert (K : false = true) by (apply S4, W, Hw; reflexivity). discriminate K. }
  clear - G. induction (x_withs x) as [|w ws IH]; [reflexivity|]. cbn [map filter]. rewrite (G w (or_introl eq_refl)).
  destruct (w_emitted w); cbn [map]; rewrite IH by (intros v Hv; apply G; right; exact Hv); reflexivity.
Qed.

(* ------------------------------------------------------------------ *)
(** * One query *)

Lemma get_own : forall st id r, id < List.length (st_heap st) -> get_q (set_q st id r) id = r.
Proof. intros st id r H. rewrite get_set_q, Nat.eqb_refl. apply Nat.ltb_lt in H. rewrite H. reflexivity. Qed.
Lemma union_clauses : forall us, us <> [] -> Forall vis_str us ->
  str_join " " (map (fun u => "UNION (" ++ u ++ ")") us) = "UNION (" ++ str_join ") UNION (" (nonempty_items us) ++ ")".
Proof.
  intros us H V. rewrite nonempty_vis by exact V. clear V. induction us as [|u us IH]; [congruence|]. destruct us as [|v us]; [reflexivity|].
  change (map (fun u => "UNION (" ++ u ++ ")") (u :: v :: us)) with (("UNION (" ++ u ++ ")") :: map (fun u => "UNION (" ++ u ++ ")") (v :: us)).
  cbn [str_join map] in *. cbn [str_join map] in IH. rewrite IH by discriminate. rewrite !append_assoc. reflexivity.
Qed.
Lemma with_clause_text : forall x ws, List.length ws = List.length (emitted x) -> Forall vis_str ws ->
  with_clause (combine (map c_name (map the_cte (emitted x))) ws) =
  list_clause "With" ", " (map (fun wt => w_name (fst wt) ++ " AS (" ++ snd wt ++ ")") (combine (emitted x) ws)).
Proof.
  intros x ws. rewrite map_map. cbn [c_name the_cte]. generalize (emitted x). intros l L V.
  assert (G : filter (fun nt : string * string => negb (is_empty (snd nt))) (combine (map (fun w => w_name w) l) ws) = combine (map (fun w => w_name w) l) ws /\
              map (fun nt : string * string => fst nt ++ " AS (" ++ snd nt ++ ")") (combine (map (fun w => w_name w) l) ws) = map (fun wt => w_name (fst wt) ++ " AS (" ++ snd wt ++ ")") (combine l ws)).
  { revert ws L V. induction l as [|w l IH]; intros [|s ws] L V; try discriminate L; [split; reflexivity|]. inversion V as [|? ? V1 V2]; subst. injection L as L.
    cbn [map combine filter fst snd]. rewrite (vis_not_empty s V1). cbn [negb]. destruct (IH ws L V2) as [E1 E2]. rewrite E1, E2. split; reflexivity. }
  destruct G as [G1 G2]. unfold with_clause. rewrite G1, <- G2. unfold list_clause.
  destruct (combine (map (fun w => w_name w) l) ws); reflexivity.
Qed.
Lemma union_vis : forall us, Forall vis_str (map (fun u => "UNION (" ++ u ++ ")") us).
Proof.
  intros us. apply Forall_forall. intros s H. apply in_map_iff in H as (u & <- & _). split; [eexists _, _; split; reflexivity|].
  exists ("UNION (" ++ u), ")"%char. rewrite append_assoc. split; reflexivity.
Qed.
Lemma with_vis : forall l ws, Forall vis_str (list_clause "With" ", " (map (fun wt : with_item * string => w_name (fst wt) ++ " AS (" ++ snd wt ++ ")") (combine l ws))).
Proof.
  intros l ws. destruct (combine l ws) as [|p r] using rev_ind; [constructor|]. clear IHr. rewrite map_app. cbn [map].
  assert (E : exists y, list_clause "With" ", " (map (fun wt : with_item * string => w_name (fst wt) ++ " AS (" ++ snd wt ++ ")") r ++ [w_name (fst p) ++ " AS (" ++ snd p ++ ")"]) = ["With " ++ y ++ ")"]).
  { destruct r as [|p0 r]; [exists (w_name (fst p) ++ " AS (" ++ snd p); cbn [map app list_clause str_join]; rewrite !append_assoc; reflexivity|].
    exists (str_join ", " (map (fun wt : with_item * string => w_name (fst wt) ++ " AS (" ++ snd wt ++ ")") (p0 :: r)) ++ ", " ++ w_name (fst p) ++ " AS (" ++ snd p).
    cbn [map app list_clause]. cbn [map] in *. rewrite app_comm_cons, join_split by discriminate. cbn [str_join map]. rewrite !append_assoc. reflexivity. }
  destruct E as (y & ->). constructor; [|constructor]. split; [eexists _, _; split; reflexivity|]. exists ("With " ++ y), ")"%char. rewrite append_assoc. split; reflexivity.
Qed.

Theorem query_text : forall x os q q2 id k st0 ws st1 cs st2 us st8, xstmt_ok x -> xdescribes os x -> apply_ops os new_qb = ROk q ->
  id < List.length (st_heap st0) -> List.length (st_heap st2) = List.length (st_heap st0) ->
  get_q st0 id = q -> get_q st2 id = q2 -> with_select q2 = with_select q -> m_size (x_stmt x) + List.length (x_conds x) <= k ->
  do_all (fun w => build (S (S (S (S k)))) E0 (query (w_id w))) (emitted x) st0 = (ROk ws, st1) -> List.length ws = List.length (emitted x) -> Forall vis_str ws ->
  do_all (build (S (S (S k))) E0) (map xcond_builder (x_conds x)) st1 = (ROk cs, st2) -> Forall vis_str cs ->
  do_all (build (S (S (S (S k)))) E0) (map query (x_unions x)) (set_q st2 id (with_select (with_orders q))) = (ROk us, st8) ->
  (us = [] -> x_unions x = []) -> (x_unions x = [] -> us = []) -> Forall vis_str us ->
  build (S (S (S (S (S k))))) E0 (query id) st0 = (ROk (xtext x ws cs us), st8) /\ vis_str (xtext x ws cs us).
Proof.
  intros x os q q2 id k st0 ws st1 cs st2 us st8 Hok Hdesc Hq Hid Hlen Hg0 Hg2 Hq2 Hk Bw Lw Vw Bc Vc Bu Eu Eu2 Vu.
  destruct Hok as (ONames & Hm0 & Hcond & Hcol & Hwith & OShown). set (m := x_stmt x) in *.
  destruct (tables_made m ONames) as (q0 & Hq0 & T0). destruct Hdesc as (D1 & D2 & D3 & D4 & D5 & D6 & D7 & D8 & D9 & D10 & D11). fold m in D1, D2, D4, D5, D6, D7, D8.
  assert (T : tables_are q (main_table (m_main m) :: map jt (m_joins m))).
  { unfold tables_are in *. rewrite <- T0. rewrite <- D2 in Hq0. exact (tables_ops os new_qb new_qb q q0 eq_refl Hq Hq0). }
  clear q0 Hq0 T0. pose proof ONames as (O1 & O2 & O3 & O4 & O5 & O6 & O7).
  set (l := main_table (m_main m) :: map jt (m_joins m)) in *.
  assert (T1 : q_tobjs q = l) by exact (f_equal (fun x => fst (fst (fst x))) T).
  assert (T2 : q_tables q = seq 0 (List.length l)) by exact (f_equal (fun x => snd (fst (fst x))) T).
  assert (T3 : q_tdict q = rev (with_names l)) by exact (f_equal (fun x => snd (fst x)) T).
  assert (T4 : q_errors q = []) by exact (f_equal snd T).
  destruct (described_clauses os q Hq) as (C1 & C2 & C3 & C4 & C5 & C6 & C7 & C8 & C9 & C10 & C11).
  assert (C12 : q_cdict q = rev (map (fun c => (c_name c, c)) (map the_cte (x_withs x)))).
  { rewrite (ds_cdict _ _ _ (ops_described _ _ _ Hq)), D11. cbn [new_qb q_cdict]. rewrite app_nil_r. reflexivity. }
  rewrite D1 in C1. rewrite conditions_where, D3, xconditions_calls in C2. rewrite D4 in C3. rewrite D5 in C4. rewrite D10 in C5. rewrite D11 in C6.
  rewrite D6 in C7. rewrite D7 in C8. rewrite D8 in C9. rewrite D9 in C10.
  assert (Hops : Forall op_ok os).
  { apply Forall_forall. intros o Ho. destruct (is_table_op o) eqn:Et; [|destruct o; try exact I; discriminate Et].
    assert (K : In o (filter is_table_op os)) by (apply filter_In; split; assumption). rewrite D2 in K. destruct K as [<-|K]; [exact I|].
    apply in_map_iff in K as (j & <- & _). apply join_call_ok. }
  destruct (ops_ok os q Hops Hq) as [Tok Cok].
  assert (Hlist : listed q = l).
  { unfold listed. rewrite T1, T2. clear. generalize l. intro l0. transitivity (map (fun id => nth id l0 no_table) (seq 0 (List.length l0))); [reflexivity|].
    induction l0 as [|y l0 IH]; [reflexivity|]. cbn [List.length seq map nth]. f_equal. rewrite <- seq_shift, map_map. exact IH. }
  assert (Hmain : main_of q = Some (main_table (m_main m))) by (unfold main_of; rewrite T2, T1; reflexivity).
  assert (Hnames : map (fun ft => known_as (ft_names ft)) l = m_tables m).
  { unfold l, m_tables. cbn [map]. rewrite map_map. reflexivity. }
  assert (Hknown : forall t, In t (m_tables m) -> exists ft, table_of q t = Some ft).
  { intros t Hi. rewrite <- Hnames in Hi. apply in_map_iff in Hi as (ft & <- & Hi). exists ft. exact (shown_known m q ONames T ft Hi). }
  assert (Hused : forall c, In c (m_used m) -> col_ok c = true /\ (fst c = "" \/ In (fst c) (m_tables m))) by (rewrite Forall_forall in O5; exact O5).
  assert (U1 : forall c, In c (m_cols m) -> In c (m_used m)) by (intros c H; unfold m_used; apply in_or_app; left; exact H).
  assert (U3 : forall c, In c (m_groups m) -> In c (m_used m)) by (intros c H; unfold m_used; do 2 (apply in_or_app; right); apply in_or_app; left; exact H).
  assert (U4 : forall c, In c (map fst (m_orders m)) -> In c (m_used m)) by (intros c H; unfold m_used; do 3 (apply in_or_app; right); apply in_or_app; left; exact H).
  assert (U5 : forall c, In c (map j_left (m_joins m)) -> In c (m_used m)) by (intros c H; unfold m_used; do 4 (apply in_or_app; right); apply in_or_app; left; exact H).
  assert (U6 : forall c, In c (map j_right (m_joins m)) -> In c (m_used m)) by (intros c H; unfold m_used; do 5 (apply in_or_app; right); exact H).
  assert (Hclauses : forall t, (exists b, In b (clause_builders q) /\ mentions b t) <->
    (exists c, In c (m_cols m ++ map xcond_col (x_conds x) ++ m_groups m ++ map fst (m_orders m))%list /\ t = fst c /\ t <> "")).
  { intros t. unfold clause_builders. rewrite C1, C11, C2, C3, C4, map_map. cbn [fst app]. split.
    - intros (b & Hb & Hm). destruct Hb as [<-|[<-|[<-|[<-|Hb]]]].
      + apply joined_mentions in Hm as (b & Hb & Hm). apply in_map_iff in Hb as (c & <- & Hc). apply col_mentions in Hm. exists c. split; [apply in_or_app; left; exact Hc|exact Hm].
      + apply joined_mentions in Hm as (b & [] & _).
      + apply joined_mentions in Hm as (b & Hb & Hm). apply in_map_iff in Hb as (y & <- & Hx). apply xcond_mentions in Hm. exists (xcond_col y). split; [|exact Hm].
        apply in_or_app; right; apply in_or_app; left; apply in_map; exact Hx.
      + apply joined_mentions in Hm as (b & Hb & Hm). apply in_map_iff in Hb as (c & <- & Hc). apply col_mentions in Hm. exists c. split; [|exact Hm].
        do 2 (apply in_or_app; right); apply in_or_app; left; exact Hc.
      + apply in_map_iff in Hb as (o & <- & Ho). apply col_mentions in Hm. exists (fst o). split; [|exact Hm]. do 3 (apply in_or_app; right). apply in_map. exact Ho.
    - intros (c & Hc & -> & Hne). apply in_app_or in Hc as [Hc|Hc]; [|apply in_app_or in Hc as [Hc|Hc]; [|apply in_app_or in Hc as [Hc|Hc]]].
      + eexists. split; [left; reflexivity|]. eapply joined_mentioned; [apply in_map; exact Hc|apply col_mentioned, Hne].
      + apply in_map_iff in Hc as (y & <- & Hx). eexists. split; [right; right; left; reflexivity|]. eapply joined_mentioned; [apply in_map; exact Hx|apply xcond_mentioned, Hne].
      + eexists. split; [right; right; right; left; reflexivity|]. eapply joined_mentioned; [apply in_map; exact Hc|apply col_mentioned, Hne].
      + apply in_map_iff in Hc as (o & <- & Ho). exists (col_call (fst o)). split; [|apply col_mentioned, Hne]. do 4 right. apply (in_map (fun y => col_call (fst y))). exact Ho. }
  assert (Hneed : forall t, needed q t -> In t (m_tables m)).
  { intros t Hi. apply (shown_needed m (map xcond_col (x_conds x)) q ONames T Hclauses) in Hi. apply (shown_defined m _ ONames t Hi).
    intros c Hc. apply in_app_or in Hc as [Hc|Hc]; [|apply in_app_or in Hc as [Hc|Hc]; [|apply in_app_or in Hc as [Hc|Hc]]].
    - apply Hused, U1, Hc.
    - apply in_map_iff in Hc as (y & <- & Hy). rewrite Forall_forall in Hcol. exact (Hcol y Hy).
    - apply Hused, U3, Hc.
    - apply Hused, U4, Hc. }
  assert (Hnil : forall b, In b (clause_builders q) -> ~ has_nil b).
  { intros b Hb. unfold clause_builders in Hb. rewrite C1, C11, C2, C3, C4, map_map in Hb. cbn [fst app] in Hb.
    destruct Hb as [<-|[<-|[<-|[<-|Hb]]]].
    - apply joined_no_nil. intros b Hb. apply in_map_iff in Hb as (c & <- & _). apply col_no_nil.
    - apply joined_no_nil. intros b [].
    - apply joined_no_nil. intros b Hb. apply in_map_iff in Hb as (c & <- & _). apply xcond_no_nil.
    - apply joined_no_nil. intros b Hb. apply in_map_iff in Hb as (c & <- & _). apply col_no_nil.
    - apply in_map_iff in Hb as (o & <- & _). apply col_no_nil. }
  destruct (query_builds id st0 (main_table (m_main m))) as (kt & kc & Sel & Build); try (rewrite Hg0).
  { exact Tok. } { exact Cok. } { exact Hmain. } { exact Hnil. }
  { intros t Ht Hu. destruct (Hknown t (Hneed t Ht)) as (ft & E). unfold undefined in Hu. congruence. }
  { exact C10. }
  rewrite Hg0 in Sel.
  assert (Hsrc : forall t, In t (sources (x_stmt x)) <-> exists ft, In ft (listed q) /\ belongs q ft /\ ft_names ft = t).
  { intros t. rewrite Hlist. unfold sources. fold m. split.
    - intros [<-|Ht]; [exists (main_table (m_main m)); split; [left; reflexivity|]; split; [right; right; left; rewrite Hmain; reflexivity|reflexivity]|].
      apply in_map_iff in Ht as (j & <- & Hj). apply filter_In in Hj as [Hj Ha]. exists (jt j). split; [right; apply in_map, Hj|]. split; [|reflexivity].
      apply (shown_belongs m (map xcond_col (x_conds x)) q ONames OShown T C9 Hclauses j Hj). exact Ha.
    - intros (ft & [<-|Hf] & Hb & <-); [left; reflexivity|]. right. apply in_map_iff in Hf as (j & <- & Hj). apply in_map_iff. exists j. split; [reflexivity|].
      apply filter_In. split; [exact Hj|]. apply (shown_belongs m (map xcond_col (x_conds x)) q ONames OShown T C9 Hclauses j Hj). exact Hb. }
  assert (Hctes : filter kc (q_ctes q) = map the_cte (emitted x)).
  { apply (ctes_kept x q kt kc Hwith Sel C6 C12).
    - rewrite T1. unfold l, all_sources. fold m. cbn [map]. rewrite map_map. reflexivity.
    - rewrite T1. exact Hlist.
    - intros i. rewrite T2, T1, in_seq. lia.
    - exact Hsrc. }
  assert (Hkept : filter kt (listed q) = main_table (m_main m) :: map jt (m_shown m)).
  { apply (shown_filter m (map xcond_col (x_conds x)) q ONames OShown T C9 Hclauses kt kc Hlist Sel).
    destruct Hwith as [Hn [[Hw _]|[Hw _]]]; [right; exact Hw|left]. intros c i ft K1 K2 K3. unfold cte_of in K1. rewrite C12 in K1.
    destruct (assoc c _) as [cd|] eqn:E; [|congruence]. apply assoc_in in E. apply in_rev in E. rewrite map_map in E. apply in_map_iff in E as (w & E & Hi). injection E as <- _.
    apply (Hw w Hi). unfold all_sources. fold m. cbn [c_name the_cte] in K3. rewrite <- K3. apply nth_error_In in K2. rewrite T1 in K2.
    apply (in_map ft_names) in K2. unfold l in K2. cbn [map] in K2. rewrite map_map in K2. exact K2. }
  (* the texts *)
  assert (Lk : List.length (m_cols m) <= k /\ List.length (x_conds x) <= k /\ List.length (m_groups m) <= k /\ List.length (m_orders m) <= k) by (unfold m_size in Hk; fold m in Hk; lia).
  clear Hk. destruct Lk as (L1 & L2 & L4 & L5).
  assert (Fcols : Forall (fun c => col_ok c = true) (m_cols m)) by (apply Forall_forall; intros c Hc; apply Hused, U1, Hc).
  assert (Fgroups : Forall (fun c => col_ok c = true) (m_groups m)) by (apply Forall_forall; intros c Hc; apply Hused, U3, Hc).
  assert (Forders : Forall (fun o => col_ok (fst o) = true) (m_orders m)) by (apply Forall_forall; intros o Ho; apply Hused, U4, in_map, Ho).
  assert (Fl : Forall (fun c => col_ok c = true) (map j_left (m_joins m))) by (apply Forall_forall; intros c Hc; apply Hused, U5, Hc).
  assert (Fr : Forall (fun c => col_ok c = true) (map j_right (m_joins m))) by (apply Forall_forall; intros c Hc; apply Hused, U6, Hc).
  assert (Vcols : forall cs, Forall (fun c => col_ok c = true) cs -> Forall vis_str (map col_text cs)).
  { intros cs0 Fc. apply Forall_forall. intros s Hs. apply in_map_iff in Hs as (c & <- & Hc). apply col_vis. rewrite Forall_forall in Fc. exact (Fc c Hc). }
  assert (Hsub : forall j, In j (m_shown m) -> In j (m_joins m)) by (intros j Hj; apply filter_In in Hj; apply Hj).
  destruct (froms_build k (m_shown m) st1) as [Bj Vj].
  { rewrite Forall_forall in *. auto. } { rewrite Forall_map, Forall_forall in *. auto. } { rewrite Forall_map, Forall_forall in *. auto. }
  assert (Bm : build (S (S (S (S k)))) E0 (table_builder (main_table (m_main m))) st1 = (ROk (table_text (m_main m)), st1)).
  { pose proof (table_vis _ O2) as Vm. unfold table_ok in O2. apply andb_true_iff in O2 as [W1 W2].
    change (table_builder (main_table (m_main m))) with (BFrag (F (table_and_alias (m_main m)))). rewrite main_text; [change (table_and_alias (m_main m)) with (table_text (m_main m)); rewrite trim_vis by exact Vm; reflexivity|apply word_plain_text, W1|].
    apply orb_true_iff in W2 as [W|W]; [apply empty_plain, W|apply word_plain_text, W]. }
  set (P := if m_distinct m then "SELECT DISTINCT" else "SELECT").
  assert (HP : vis_str P).
  { unfold P. destruct (m_distinct m); (split; [eexists _, _; split; [reflexivity|reflexivity]|]).
    - exists "SELECT DISTINC", "T"%char. split; reflexivity.
    - exists "SELEC", "T"%char. split; reflexivity. }
  rewrite <- Hlen in Hid.
  destruct (alike_orders _ _ Hq2) as [Ho2 _].
  set (sa := set_q st2 id (with_orders q2)). set (sb := set_q sa id (with_select (with_orders q))).
  assert (G2 : get_q sa id = with_orders q2) by (apply get_own; exact Hid).
  assert (Hid2 : id < List.length (st_heap sa)) by (unfold sa, set_q; cbn [st_heap set_heap]; rewrite upd_len; exact Hid).
  assert (G3 : get_q sb id = with_select (with_orders q)) by (apply get_own; exact Hid2).
  assert (Esb : sb = set_q st2 id (with_select (with_orders q))).
  { unfold sb, sa, set_q. cbn [st_heap set_heap]. unfold set_heap. cbn. f_equal. clear. generalize (st_heap st2). intros h. revert id. induction h as [|y h IH]; intros [|i]; cbn; try reflexivity. f_equal. apply IH. }
  rewrite <- Esb in Bu.
  destruct (ord_build k (m_distinct m) (m_orders m) 1 sa Forders O7) as [Bo Vo].
  destruct (hid_build k (m_orders m) 1 sb Forders O7) as [Bh Vh].
  assert (Vhid : Forall vis_str (hidden_texts m)) by (unfold hidden_texts; destruct (m_distinct m); [exact Vh|constructor]).
  assert (Hsel : select_clause q = joined_by ", " P (map col_call (m_cols m))) by (unfold select_clause; rewrite C1, C9; reflexivity).
  assert (Htouch : q_touches (get_q sb id) = joined_by ", " "" (hidden_columns q)).
  { rewrite G3. cbn [with_select with_orders set_selects set_errors set_touches q_touches]. rewrite C11. reflexivity. }
  assert (Hord : order_clause q = joined_by ", " "ORDER BY" (ord_items (m_distinct m) 1 (m_orders m))).
  { unfold order_clause, order_items, ord_items. rewrite C4, C9. reflexivity. }
  eassert (A : assembled (build (S (S (S (S k)))) E0) kt kc id st0 _ st8).
  { eapply (asm _ kt kc id st0 q ws) with (us := us).
    - symmetry. exact Hg0.
    - exact T4.
    - rewrite Hctes. clear - Bw. assert (K : forall l0 s0 s9 r, do_all (fun w => build (S (S (S (S k)))) E0 (query (w_id w))) l0 s0 = (ROk r, s9) ->
        do_all (fun c => build (S (S (S (S k)))) E0 (c_builder c)) (map the_cte l0) s0 = (ROk r, s9)).
      { induction l0 as [|w l0 IH]; intros s0 s9 r H; cbn [do_all map] in *; [exact H|]. cbn [c_builder the_cte].
        destruct (build _ E0 (query (w_id w)) s0) as [[s|er|er|] s1]; try discriminate H.
        destruct (do_all _ l0 s1) as [[ss|er|er|] s2] eqn:E; try discriminate H. rewrite (IH _ _ _ E). exact H. }
      apply K. exact Bw.
    - rewrite Hkept. cbn [do_all]. rewrite Bm, Bj. reflexivity.
    - rewrite C2. apply (joined_clause (S k) " AND " "WHERE" _ st1 cs st2); [right; reflexivity|reflexivity|exact Bc|exact Vc|rewrite map_length; lia].
    - rewrite C3. apply (joined_clause (S k) ", " "GROUP BY" _ st2 (map col_text (m_groups m)) st2); [left; reflexivity|reflexivity|apply cols_build, Fgroups|apply Vcols, Fgroups|rewrite map_length; lia].
    - rewrite Hg2. fold sa. rewrite Hord.
      apply (joined_clause (S k) ", " "ORDER BY" _ sa (ord_texts (m_distinct m) 1 (m_orders m)) sa); [left; reflexivity|reflexivity|exact Bo|exact Vo|rewrite ord_len by exact O7; lia].
    - rewrite G2, Ho2. fold sb. rewrite Hsel.
      apply (joined_clause (S k) ", " P _ sb (map col_text (m_cols m)) sb); [left; reflexivity|apply vis_not_empty, HP|apply cols_build, Fcols|apply Vcols, Fcols|rewrite map_length; lia].
    - destruct (m_cols m); [congruence|]. cbn [map]. unfold P. destruct (m_distinct m); reflexivity.
    - rewrite Htouch. apply (joined_hidden (S k) _ sb (hidden_texts m) sb); [|exact Vhid|].
      + unfold hidden_columns, hidden_texts. rewrite C9, C4. destruct (m_distinct m); [exact Bh|reflexivity].
      + unfold hidden_columns. rewrite C9, C4. destruct (m_distinct m); [fold (hid_items 1 (m_orders m)); rewrite hid_len by exact O7; lia|cbn; lia].
    - rewrite C5. exact Bu. }
  rewrite C5, Hctes in A.
  pose proof (Build _ _ _ _ A) as BB. unfold query at 1. rewrite BB. clear BB.
  unfold layout. cbn [s_with s_select s_hidden s_from s_where s_group s_order s_limit s_offset s_union].
  rewrite C7, C8. rewrite !if_any_clause by (assumption || (apply Vcols; assumption)). rewrite with_clause_text by assumption.
  assert (X : (if is_empty (str_join ", " (hidden_texts m)) then match map col_text (m_cols m) with [] => "" | _ => P ++ " " ++ str_join ", " (map col_text (m_cols m)) end
    else match map col_text (m_cols m) with [] => "" | _ => P ++ " " ++ str_join ", " (map col_text (m_cols m)) end ++ ", " ++ str_join ", " (hidden_texts m))
    = P ++ " " ++ str_join ", " (map col_text (m_cols m) ++ hidden_texts m)).
  { destruct (map col_text (m_cols m)) as [|c cs0] eqn:E; [destruct (m_cols m); [congruence|discriminate E]|].
    destruct (hidden_texts m) as [|h hs] eqn:Eh; [rewrite app_nil_r; reflexivity|].
    rewrite vis_not_empty by (apply vis_join; [exact Vhid|discriminate]).
    rewrite (join_split ", " (c :: cs0) (h :: hs)) by discriminate. rewrite !append_assoc. reflexivity. }
  rewrite X. clear X.
  assert (Y : list_clause P ", " (map col_text (m_cols m) ++ hidden_texts m) = [P ++ " " ++ str_join ", " (map col_text (m_cols m) ++ hidden_texts m)]).
  { unfold list_clause. destruct (map col_text (m_cols m)) as [|c cs0] eqn:E; [destruct (m_cols m); [congruence|discriminate E]|]. reflexivity. }
  rewrite <- Y.
  set (main := (list_clause "With" ", " (map (fun wt => (w_name (fst wt) ++ " AS (" ++ snd wt ++ ")")%string) (combine (emitted x) ws)) ++
     list_clause P ", " (map col_text (m_cols m) ++ hidden_texts m) ++
     [("FROM " ++ str_join " " (table_text (m_main m) :: map join_sql (m_shown m)))%string] ++
     list_clause "WHERE" " AND " cs ++ list_clause "GROUP BY" ", " (map col_text (m_groups m)) ++
     list_clause "ORDER BY" ", " (ord_texts (m_distinct m) 1 (m_orders m)) ++
     number_clause "LIMIT " (m_limit m) ++ number_clause "OFFSET " (m_offset m))%list).
  assert (Ext : xtext x ws cs us = str_join " " (main ++ map (fun u => "UNION (" ++ u ++ ")") us)).
  { unfold xtext. fold m. fold P. unfold main. rewrite <- !app_assoc. reflexivity. }
  assert (Hne : main <> []) by (unfold main; rewrite Y; intro K; apply app_eq_nil in K as [_ K]; discriminate K).
  assert (Vmain : Forall vis_str main).
  { unfold main. repeat (apply Forall_app; apply conj); try (constructor; fail).
    + apply with_vis.
    + apply list_clause_vis; [exact HP|]. apply Forall_app. split; [apply Vcols, Fcols|exact Vhid].
    + constructor; [|constructor]. apply (vis_app "FROM" " "); [split; [eexists _, _; split; [reflexivity|reflexivity]|exists "FRO", "M"%char; split; reflexivity]|].
      apply vis_join; [|discriminate]. constructor; [apply table_vis, O2|exact Vj].
    + apply list_clause_vis; [|exact Vc]. split; [eexists _, _; split; [reflexivity|reflexivity]|exists "WHER", "E"%char; split; reflexivity].
    + apply list_clause_vis; [|apply Vcols, Fgroups]. split; [eexists _, _; split; [reflexivity|reflexivity]|exists "GROUP B", "Y"%char; split; reflexivity].
    + apply list_clause_vis; [|exact Vo]. split; [eexists _, _; split; [reflexivity|reflexivity]|exists "ORDER B", "Y"%char; split; reflexivity].
    + apply number_vis. eexists _, _. split; reflexivity.
    + apply number_vis. eexists _, _. split; reflexivity. }
  assert (Vall : vis_str (xtext x ws cs us)).
  { rewrite Ext. apply vis_join; [apply Forall_app; split; [exact Vmain|apply union_vis]|]. intro K. apply app_eq_nil in K as [K _]. exact (Hne K). }
  split; [|exact Vall]. f_equal. f_equal. change (str_join " " _) with (str_join " " main) at 1.
  destruct (x_unions x) as [|u0 ur] eqn:Ex.
  - rewrite (Eu2 eq_refl) in *. rewrite Ext. cbn [map]. rewrite app_nil_r. fold main. apply trim_vis, vis_join; assumption.
  - cbn [map]. destruct us as [|u us]; [discriminate (Eu eq_refl)|]. fold main. rewrite (trim_vis (str_join " " main)) by (apply vis_join; assumption).
    rewrite Ext. rewrite join_split; [|exact Hne|discriminate]. rewrite union_clauses; [|discriminate|exact Vu]. rewrite Ext in Vall.
    rewrite join_split in Vall; [|exact Hne|discriminate]. rewrite union_clauses in Vall; [|discriminate|exact Vu].
    exact (trim_vis _ Vall).
Qed.

Lemma changes_steady : forall x os q, xstmt_ok x -> xdescribes os x -> apply_ops os new_qb = ROk q ->
  m_distinct (x_stmt x) && negb (Nat.eqb (List.length (m_orders (x_stmt x))) 0) = false -> steady q.
Proof.
  intros x os q Hok (D1 & D2 & D3 & D4 & D5 & D6 & D7 & D8 & D9 & D10 & D11) Hq Hc. set (m := x_stmt x) in *.
  destruct Hok as ((O1 & O2 & O3 & O4 & O5 & O6 & O7) & _).
  destruct (described_clauses os q Hq) as (C1 & C2 & C3 & C4 & C5 & C6 & C7 & C8 & C9 & C10 & C11).
  rewrite D5 in C4. rewrite D8 in C9. fold m in C4, C9. split.
  - rewrite C9, C4. destruct (m_distinct m); [|left; reflexivity]. right. cbn [andb] in Hc. destruct (m_orders m); [reflexivity|discriminate Hc].
  - apply order_errors_nil. rewrite C4. intros b o H. apply in_map_iff in H as (y & E & Hy). injection E as _ <-. rewrite Forall_forall in O7. pose proof (O7 y Hy) as K. intro W. apply Query3_proofs.order_words_iff in W. lia.
Qed.
Lemma do_all_rel : forall A (step : A -> store -> outcome string * store) l, (forall a s t, alike s t -> Rel_proofs.rel alike (step a s) (step a t)) ->
  forall s t r s', alike s t -> do_all step l s = (ROk r, s') -> exists t', do_all step l t = (ROk r, t') /\ alike s' t'.
Proof.
  intros A step l H. induction l as [|a l IH]; intros s t r s' Al E; cbn [do_all] in *.
  - injection E as <- <-. exists t. auto.
  - destruct (H a s t Al) as [E1 E2]. destruct (step a s) as [o s1], (step a t) as [o' t1]. cbn [fst snd] in *. subst o'.
    destruct o as [x|er|er|]; try discriminate E. destruct (do_all step l s1) as [[xs|er|er|] s2] eqn:E3; try discriminate E. injection E as <- <-.
    destruct (IH _ _ _ _ E2 E3) as (t2 & E4 & E5). exists t2. rewrite E4. auto.
Qed.
Lemma alike_sym : forall s t, alike s t -> alike t s.
Proof. intros s t (H1 & H2 & H3 & H4). unfold alike. rewrite H1, H2, H3, H4. auto. Qed.
Theorem query_text2 : forall x os q id k st0 ws st1 cs st2 us st8, xstmt_ok x -> xdescribes os x -> apply_ops os new_qb = ROk q ->
  id < List.length (st_heap st0) -> List.length (st_heap st2) = List.length (st_heap st0) ->
  with_select (get_q st0 id) = with_select q -> with_select (get_q st2 id) = with_select q -> m_size (x_stmt x) + List.length (x_conds x) <= k ->
  do_all (fun w => build (S (S (S (S k)))) E0 (query (w_id w))) (emitted x) st0 = (ROk ws, st1) -> List.length ws = List.length (emitted x) -> Forall vis_str ws ->
  do_all (build (S (S (S k))) E0) (map xcond_builder (x_conds x)) st1 = (ROk cs, st2) -> Forall vis_str cs ->
  do_all (build (S (S (S (S k)))) E0) (map query (x_unions x)) (set_q st2 id (with_select (with_orders q))) = (ROk us, st8) ->
  (us = [] -> x_unions x = []) -> (x_unions x = [] -> us = []) -> Forall vis_str us ->
  exists h, build (S (S (S (S (S k))))) E0 (query id) st0 = (ROk (xtext x ws cs us), set_heap st8 h) /\ vis_str (xtext x ws cs us) /\
    map with_select h = map with_select (st_heap st8).
Proof.
  intros x os q id k st0 ws st1 cs st2 us st8 Hok Hdesc Hq Hid Hlen Hg0 Hg2 Hk Bw Lw Vw Bc Vc Bu Eu Eu2 Vu.
  set (s0 := set_q st0 id q).
  assert (A0 : alike st0 s0).
  { unfold s0, set_q. repeat split. cbn [st_heap set_heap]. rewrite map_upd, <- Hg0. unfold get_q. rewrite <- (map_nth with_select). symmetry. apply upd_same. }
  destruct (do_all_rel _ (fun w => build (S (S (S (S k)))) E0 (query (w_id w))) (emitted x) (fun a s t => alike_rel _ E0 (query (w_id a)) s t) _ _ _ _ A0 Bw) as (s1 & Bw1 & A1).
  destruct (do_all_rel _ (build (S (S (S k))) E0) (map xcond_builder (x_conds x)) (fun a s t => alike_rel _ E0 a s t) _ _ _ _ A1 Bc) as (s2 & Bc1 & A2).
  pose proof (alike_set st2 s2 id (with_select (with_orders q)) (with_select (with_orders q)) A2 eq_refl) as A3.
  destruct (do_all_rel _ (build (S (S (S (S k)))) E0) (map query (x_unions x)) (fun a s t => alike_rel _ E0 a s t) _ _ _ _ A3 Bu) as (s8 & Bu1 & A8).
  assert (L : forall s t, alike s t -> List.length (st_heap s) = List.length (st_heap t)) by (intros s t (_ & _ & _ & K); pose proof (f_equal (@List.length qb) K) as K'; rewrite !map_length in K'; exact K').
  destruct (query_text x os q (get_q s2 id) id k s0 ws s1 cs s2 us s8 Hok Hdesc Hq) as [E V]; try assumption.
  { rewrite <- (L _ _ A0). exact Hid. } { rewrite <- (L _ _ A0), <- (L _ _ A2). exact Hlen. } { apply get_own. exact Hid. } { reflexivity. }
  { rewrite <- (alike_get _ _ id A2). exact Hg2. }
  destruct (alike_rel (S (S (S (S (S k))))) E0 (query id) _ _ A0) as [E1 E2]. rewrite E in E1, E2. cbn [fst snd] in E1, E2.
  destruct (build (S (S (S (S (S k))))) E0 (query id) st0) as [o t8] eqn:Et. cbn [fst snd] in E1, E2. subst o.
  exists (st_heap t8). destruct A8 as (K1 & K2 & K3 & K4), E2 as (J1 & J2 & J3 & J4).
  split; [|split; [exact V|congruence]]. f_equal. destruct st8, t8, s8. cbn in *. unfold set_heap. cbn. congruence.
Qed.

(* ------------------------------------------------------------------ *)
(** * Queries inside queries *)

Definition ws_at (h : list qb) (j : nat) : option qb := option_map with_select (nth_error h j).
Definition same_but (h h' : list qb) (l : list nat) : Prop := List.length h' = List.length h /\ forall j, ~ In j l -> ws_at h' j = ws_at h j.
Lemma same_refl : forall h l, same_but h h l.
Proof. intros h l. split; reflexivity. Qed.
Lemma same_trans : forall a b c l l', same_but a b l -> same_but b c l' -> same_but a c (l ++ l').
Proof.
  intros a b c l l' [L1 E1] [L2 E2]. split; [congruence|]. intros j H. rewrite E2, E1; [reflexivity|..]; intro K; apply H, in_or_app; auto.
Qed.
Lemma same_incl : forall a b l l', same_but a b l -> incl l l' -> same_but a b l'.
Proof. intros a b l l' [L E] H. split; [exact L|]. intros j K. apply E. intro J. apply K, H, J. Qed.
Lemma NoDup_parts : forall (a b : list nat), NoDup (a ++ b) -> NoDup a /\ NoDup b /\ forall j, In j a -> ~ In j b.
Proof.
  induction a as [|x a IH]; intros b H; [split; [constructor|split; [exact H|intros j []]]|]. cbn [app] in H. inversion H as [|? ? N1 N2]; subst.
  destruct (IH b N2) as (A & Bn & D). split; [constructor; [intro K; apply N1, in_or_app; auto|exact A]|]. split; [exact Bn|].
  intros j [<-|K]; [intro J; apply N1, in_or_app; auto|apply D, K].
Qed.
Lemma set_heap_twice : forall st h h', set_heap (set_heap st h) h' = set_heap st h'.
Proof. reflexivity. Qed.

Section Tree.
Variable B : list xstmt.
Definition fresh (h : list qb) (l : list nat) : Prop := forall j, In j l -> exists x os q,
  nth_error B j = Some x /\ xstmt_ok x /\ xdescribes os x /\ apply_ops os new_qb = ROk q /\ ws_at h j = Some (with_select q).
Lemma fresh_incl : forall h l l', fresh h l -> incl l' l -> fresh h l'.
Proof. intros h l l' H K j J. apply H, K, J. Qed.
Lemma fresh_same : forall h h' l l', fresh h l -> same_but h h' l' -> (forall j, In j l -> ~ In j l') -> fresh h' l.
Proof. intros h h' l l' H [_ S] D j J. destruct (H j J) as (x & os & q & H1 & H2 & H3 & H4 & H5). exists x, os, q. rewrite (S j (D j J)). auto. Qed.
Notation chg l := (filter (changes B) l).
Lemma chg_apart : forall a b j, NoDup (chg (a ++ b)) -> In j b -> ~ In j (chg a).
Proof.
  intros a b j N J K. rewrite filter_app in N. apply NoDup_parts in N as (_ & _ & D). apply (D j K). apply filter_In. apply filter_In in K. split; [exact J|apply K].
Qed.
Lemma chg_parts : forall a b, NoDup (chg (a ++ b)) -> NoDup (chg a) /\ NoDup (chg b).
Proof. intros a b N. rewrite filter_app in N. apply NoDup_parts in N as (N1 & N2 & _). auto. Qed.

(** What building [a] does. *)
Definition good {A} (step : A -> store -> outcome string * store) (args : A -> list value) (text : A -> list string -> string) (mem : A -> list nat) (a : A) : Prop :=
  forall st phs st', fresh (st_heap st) (mem a) -> do_all commit (args a) st = (ROk phs, st') ->
  exists h', step a st = (ROk (text a phs), set_heap st' h') /\ vis_str (text a phs) /\ same_but (st_heap st) h' (chg (mem a)).
Lemma good_list : forall A (step : A -> store -> outcome string * store) args text mem l, (forall a, In a l -> good step args text mem a) -> NoDup (chg (flat_map mem l)) ->
  forall st phs st', fresh (st_heap st) (flat_map mem l) -> do_all commit (flat_map args l) st = (ROk phs, st') ->
  exists h', do_all step l st = (ROk (share args text l phs), set_heap st' h') /\ Forall vis_str (share args text l phs) /\ same_but (st_heap st) h' (chg (flat_map mem l)).
Proof.
  intros A step args text mem. induction l as [|a l IH]; intros G N st phs st' Hf H; cbn [flat_map share do_all] in *.
  - injection H as <- <-. exists (st_heap st). split; [destruct st; reflexivity|]. split; [constructor|apply same_refl].
  - pose proof (fun j => chg_apart _ _ j N) as D. apply chg_parts in N as [_ N]. apply do_all_split in H as (st1 & H1 & H2).
    destruct (G a (or_introl eq_refl) st _ st1 (fresh_incl _ _ _ Hf (incl_appl _ (incl_refl _))) H1) as (h1 & E1 & V1 & S1).
    pose proof (commits_heap _ _ _ _ h1 H2) as H3.
    assert (Fr : fresh (st_heap (set_heap st1 h1)) (flat_map mem l)).
    { cbn [st_heap set_heap]. apply (fresh_same (st_heap st) h1 _ (chg (mem a))); [exact (fresh_incl _ _ _ Hf (incl_appr _ (incl_refl _)))|exact S1|]. exact D. }
    destruct (IH (fun b Hb => G b (or_intror Hb)) N (set_heap st1 h1) _ (set_heap st' h1) Fr H3) as (h2 & E2 & V2 & S2).
    exists h2. rewrite E1, E2. split; [reflexivity|]. split; [constructor; assumption|]. rewrite filter_app. eapply same_trans; [exact S1|exact S2].
Qed.
Lemma share_len : forall A (args : A -> list value) text l phs, List.length (share args text l phs) = List.length l.
Proof. intros A args text. induction l as [|a l IH]; intro phs; cbn [share List.length]; [reflexivity|]. rewrite IH. reflexivity. Qed.

Lemma sub_plain : forall op, operator op = true -> plain_text op = true /\ starts is_digit op = false.
Proof. exact operator_plain. Qed.
Lemma flat_map_map : forall X Y Z (g : Y -> list Z) (f : X -> Y) l, flat_map g (map f l) = flat_map (fun y => g (f y)) l.
Proof. intros X Y Z g f. induction l as [|a l IH]; [reflexivity|]. cbn [map flat_map]. rewrite IH. reflexivity. Qed.
Lemma sum_in : forall X (f : X -> nat) l a, In a l -> f a <= list_sum (map f l).
Proof. intros X f. induction l as [|b l IH]; intros a []; cbn [map list_sum fold_right]; [subst; lia|]. specialize (IH a H). unfold list_sum in IH. lia. Qed.

Definition cond_mem (d : nat) (c : xcond) : list nat := match c with Plain _ => [] | Sub _ _ id => members B d id end.
Lemma members_refs : forall d x, flat_map (members B d) (refs x) =
  (flat_map (fun w => members B d (w_id w)) (emitted x) ++ flat_map (cond_mem d) (x_conds x) ++ flat_map (members B d) (x_unions x))%list.
Proof.
  intros d x. unfold refs. rewrite !flat_map_app, flat_map_map. f_equal. f_equal. induction (x_conds x) as [|c cs IH]; [reflexivity|].
  cbn [flat_map]. rewrite flat_map_app, IH. f_equal. destruct c; cbn [flat_map cond_mem]; [reflexivity|apply app_nil_r].
Qed.
Lemma NoDup_flat : forall X (f : X -> list nat) l a, NoDup (chg (flat_map f l)) -> In a l -> NoDup (chg (f a)).
Proof.
  intros X f. induction l as [|b l IH]; intros a H []; cbn [flat_map] in H; apply chg_parts in H as [N1 N2]; [subst; exact N1|apply IH; assumption].
Qed.

Theorem tree : forall d id, complete B d id -> used_once B d id ->
  forall n, size_of B d id <= n -> good (fun id => build n E0 (query id)) (args_of B d) (text_of B d) (members B d) id.
Proof.
  induction d as [|d IH]; intros id Hc Hn n Hs st phs st' Hf H; [destruct Hc|].
  assert (Hm : In id (members B (S d) id)) by (cbn [members complete] in *; destruct (nth_error B id); [left; reflexivity|destruct Hc]).
  destruct (Hf id Hm) as (x & os & q & X1 & X2 & X3 & X4 & X5).
  cbn [complete members size_of args_of text_of] in *. rewrite X1 in *. clear Hm.
  unfold used_once in Hn. cbn [members] in Hn. rewrite X1 in Hn. rewrite members_refs in Hn, Hf |- *.
  assert (N0 : changes B id = true -> ~ In id (chg (flat_map (fun w => members B d (w_id w)) (emitted x) ++ flat_map (cond_mem d) (x_conds x) ++ flat_map (members B d) (x_unions x)))).
  { intros Ci. cbn [filter] in Hn. rewrite Ci in Hn. inversion Hn; assumption. }
  assert (N : NoDup (chg (flat_map (fun w => members B d (w_id w)) (emitted x) ++ flat_map (cond_mem d) (x_conds x) ++ flat_map (members B d) (x_unions x)))).
  { cbn [filter] in Hn. destruct (changes B id); [inversion Hn; assumption|exact Hn]. }
  clear Hn. pose proof (fun j => chg_apart _ _ j N) as Dw. apply chg_parts in N as [Nw N]. pose proof (fun j => chg_apart _ _ j N) as Dc. apply chg_parts in N as [Nc Nu].
  assert (Hr : forall j, In j (refs x) -> size_of B d j <= list_sum (map (size_of B d) (refs x))) by (intros j Hj; apply sum_in; exact Hj).
  set (L := list_sum (map (size_of B d) (refs x))) in *.
  assert (Hk : exists k, n = S (S (S (S (S k)))) /\ x_size x + L <= k) by (exists (n - 5); lia). destruct Hk as (k & -> & Hk). clear Hs.
  assert (Rw : forall w, In w (emitted x) -> In (w_id w) (refs x)) by (intros w Hw; unfold refs; apply in_or_app; left; apply in_map; exact Hw).
  assert (Rc : forall c op j, In (Sub c op j) (x_conds x) -> In j (refs x)) by (intros c op j Hj; unfold refs; apply in_or_app; right; apply in_or_app; left; apply in_flat_map; exists (Sub c op j); split; [exact Hj|left; reflexivity]).
  assert (Ru : forall u, In u (x_unions x) -> In u (refs x)) by (intros u Hu; unfold refs; do 2 (apply in_or_app; right); exact Hu).
  assert (GW : forall w, In w (emitted x) -> good (fun w => build (S (S (S (S k)))) E0 (query (w_id w))) (fun w => args_of B d (w_id w)) (fun w => text_of B d (w_id w)) (fun w => members B d (w_id w)) w).
  { intros w Hw. apply (IH (w_id w)); [apply Hc, Rw, Hw|exact (NoDup_flat _ _ _ _ Nw Hw)|]. specialize (Hr _ (Rw w Hw)). lia. }
  assert (GU : forall u, In u (x_unions x) -> good (fun u => build (S (S (S (S k)))) E0 (query u)) (args_of B d) (text_of B d) (members B d) u).
  { intros u Hu. apply (IH u); [apply Hc, Ru, Hu|exact (NoDup_flat _ _ _ _ Nu Hu)|]. specialize (Hr _ (Ru u Hu)). lia. }
  assert (GC : forall c, In c (x_conds x) -> good (fun c => build (S (S (S k))) E0 (xcond_builder c)) (xcond_args (args_of B d)) (xcond_text (text_of B d)) (cond_mem d) c).
  { intros c Hi sa ps sb Fa C. pose proof X2 as (_ & _ & Oc & _). rewrite Forall_forall in Oc. specialize (Oc c Hi). destruct c as [y|c op j].
    - destruct (cond_build k y sa ps sb Oc C) as [E V].
      { unfold x_size in Hk. pose proof (sum_in _ (fun c => match c with Plain x => List.length (cond_args x) | Sub _ _ _ => 0 end) _ _ Hi) as K. cbn beta iota in K. lia. }
      exists (st_heap sb). split; [destruct sb; exact E|]. split; [exact V|].
      assert (K : st_heap sb = st_heap sa). { clear - C. cbn [xcond_args] in C. revert sa ps C. induction (cond_args y) as [|v vs IHv]; intros sa ps C; cbn [do_all] in C; [injection C as _ <-; reflexivity|].
        pose proof (Query_proofs.commit_heap v sa) as K. destruct (commit v sa) as [[ph|er|er|] s1]; try discriminate C. destruct (do_all commit vs s1) as [[p2|er|er|] s2] eqn:E; try discriminate C.
        injection C as _ <-. rewrite (IHv _ _ E). exact K. }
      rewrite K. apply same_refl.
    - destruct Oc as [Oc Oo]. destruct (operator_plain _ Oo) as [P1 P2].
      destruct (IH j (Hc j (Rc _ _ _ Hi)) (NoDup_flat _ _ _ _ Nc Hi) (S (S k)) ltac:(specialize (Hr _ (Rc _ _ _ Hi)); lia) sa ps sb Fa C) as (h' & E & V & Sm).
      exists h'. assert (Vs : vis_str (xcond_text (text_of B d) (Sub c op j) ps)).
      { cbn [xcond_text]. pose proof (col_vis _ Oc) as [V1 _]. split; [destruct V1 as (a & r & Ea & Va); rewrite Ea; eexists a, _; split; [reflexivity|exact Va]|].
        exists (col_text c ++ op ++ "(" ++ text_of B d j ps), ")"%char. rewrite !append_assoc. split; reflexivity. }
      split; [|split; [exact Vs|exact Sm]]. cbn [xcond_builder xcond_call condition hd].
      rewrite (sub_build (S k) op (col_call c) (query j) sa (col_text c) sa (text_of B d j ps) (set_heap sb h') P1 P2); [|apply col_build, Oc|exact E].
      rewrite trim_vis by exact Vs. reflexivity. }
  apply do_all_split in H as (sw & Hw & H). apply do_all_split in H as (sc & Hcc & Hu).
  set (nw := List.length (flat_map (fun w => args_of B d (w_id w)) (emitted x))) in *.
  set (nc := List.length (flat_map (xcond_args (args_of B d)) (x_conds x))) in *.
  assert (F1 : fresh (st_heap st) (flat_map (fun w => members B d (w_id w)) (emitted x))).
  { eapply fresh_incl; [exact Hf|]. apply incl_tl, incl_appl, incl_refl. }
  destruct (good_list _ _ _ _ _ (emitted x) GW Nw st _ sw F1 Hw) as (hw & Ew & Vw & Sw).
  pose proof (commits_heap _ _ _ _ hw Hcc) as Hcc'.
  assert (Fw : fresh hw (flat_map (cond_mem d) (x_conds x) ++ flat_map (members B d) (x_unions x))).
  { eapply fresh_same; [eapply fresh_incl; [exact Hf|apply incl_tl, incl_appr, incl_refl]|exact Sw|]. exact Dw. }
  assert (F2 : fresh (st_heap (set_heap sw hw)) (flat_map (cond_mem d) (x_conds x))).
  { cbn [st_heap set_heap]. eapply fresh_incl; [exact Fw|]. apply incl_appl, incl_refl. }
  destruct (good_list _ _ _ _ _ (x_conds x) GC Nc (set_heap sw hw) _ _ F2 Hcc') as (hc & Ec & Vc & Sc).
  cbn [st_heap set_heap] in Sc. rewrite set_heap_twice in Ec.
  set (st2 := set_heap sc hc) in *. set (su := set_q st2 id (with_select (with_orders q))).
  assert (Hid : id < List.length (st_heap st)) by (apply nth_error_Some; intro K; unfold ws_at in X5; rewrite K in X5; discriminate X5).
  assert (Hlen : List.length hc = List.length (st_heap st)) by (destruct Sw as [? _], Sc as [? _]; congruence).
  assert (Nin : forall l, (forall j, In j l -> In j (flat_map (fun w => members B d (w_id w)) (emitted x) ++ flat_map (cond_mem d) (x_conds x) ++ flat_map (members B d) (x_unions x))) -> ~ In id (chg l)).
  { intros l Hl K. apply filter_In in K as [K1 K2]. apply (N0 K2). apply filter_In. split; [apply Hl, K1|exact K2]. }
  assert (Hq2 : ws_at hc id = Some (with_select q)).
  { destruct Sc as [_ Sc], Sw as [_ Sw]. rewrite Sc, Sw; [exact X5|..]; apply Nin; intros j J; [apply in_or_app; left|apply in_or_app; right; apply in_or_app; left]; exact J. }
  assert (Shu : same_but hc (st_heap su) (chg [id])).
  { unfold su, set_q. cbn [st_heap set_heap st2]. split; [apply upd_len|]. intros j J. unfold ws_at. rewrite nth_error_upd. destruct (Nat.eqb_spec j id) as [->|K].
    2:{ reflexivity. }
    rewrite ?Nat.eqb_refl. fold (ws_at hc id). rewrite Hq2. destruct (nth_error hc id) eqn:En; [|unfold ws_at in Hq2; rewrite En in Hq2; discriminate Hq2]. cbn [andb]. rewrite (proj2 (Nat.ltb_lt _ _)) by (rewrite Hlen; exact Hid). cbn [option_map]. rewrite with_select_twice. f_equal. f_equal.
    apply steady_orders. apply (changes_steady x os q X2 X3 X4). cbn [filter] in J. destruct (changes B id) eqn:Ci; [exfalso; apply J; left; reflexivity|].
    unfold changes in Ci. rewrite X1 in Ci. exact Ci. }
  pose proof (commits_heap _ _ _ _ (st_heap su) Hu) as Hu'.
  assert (F3 : fresh (st_heap (set_heap sc (st_heap su))) (flat_map (members B d) (x_unions x))).
  { cbn [st_heap set_heap]. eapply fresh_same; [eapply fresh_same; [eapply fresh_incl; [exact Fw|apply incl_appr, incl_refl]|exact Sc|exact Dc]|exact Shu|].
    intros j J K. apply filter_In in K as [[<-|[]] K]. apply (Nin (flat_map (members B d) (x_unions x))); [|apply filter_In; split; assumption].
    intros i Hi. apply in_or_app; right; apply in_or_app; right. exact Hi. }
  destruct (good_list _ _ _ _ _ (x_unions x) GU Nu (set_heap sc (st_heap su)) _ _ F3 Hu') as (hu & Eu & Vu & Su).
  rewrite set_heap_twice in Eu. cbn [st_heap set_heap] in Su.
  assert (Gq : forall s, ws_at (st_heap s) id = Some (with_select q) -> with_select (get_q s id) = with_select q).
  { intros s E. unfold ws_at in E. destruct (nth_error (st_heap s) id) eqn:En; [|discriminate E]. unfold get_q. rewrite (nth_error_nth _ _ _ En). cbn [option_map] in E. congruence. }
  destruct (query_text2 x os q id k st (share (fun w => args_of B d (w_id w)) (fun w => text_of B d (w_id w)) (emitted x) (firstn nw phs)) (set_heap sw hw)
    (share (xcond_args (args_of B d)) (xcond_text (text_of B d)) (x_conds x) (firstn nc (skipn nw phs))) st2
    (share (args_of B d) (text_of B d) (x_unions x) (skipn nc (skipn nw phs))) (set_heap st' hu) X2 X3 X4) as (h9 & E & V & A9).
  { exact Hid. } { exact Hlen. } { apply Gq, X5. } { apply Gq. exact Hq2. } { unfold x_size in Hk. lia. }
  { exact Ew. } { apply share_len. } { exact Vw. }
  { rewrite <- Ec. clear. generalize (set_heap sw hw). induction (x_conds x) as [|c cs IHc]; intro s; [reflexivity|]. cbn [map do_all].
    destruct (build (S (S (S k))) E0 (xcond_builder c) s) as [[t|er|er|] s1]; try reflexivity. rewrite IHc. reflexivity. }
  { exact Vc. }
  { fold su. replace su with (set_heap sc (st_heap su)) by reflexivity. rewrite <- Eu. clear. generalize (set_heap sc (st_heap su)). induction (x_unions x) as [|c cs IHc]; intro s; [reflexivity|]. cbn [map do_all].
    destruct (build (S (S (S (S k)))) E0 (query c) s) as [[t|er|er|] s1]; try reflexivity. rewrite IHc. reflexivity. }
  { intro K. apply (f_equal (@List.length string)) in K. rewrite share_len in K. destruct (x_unions x); [reflexivity|discriminate K]. }
  { intro K. rewrite K. reflexivity. }
  { exact Vu. }
  exists h9. split; [exact E|]. split; [exact V|].
  assert (S9 : same_but hu h9 []).
  { split; [pose proof (f_equal (@List.length qb) A9) as K; rewrite !map_length in K; exact K|]. intros j _. unfold ws_at. rewrite <- !nth_error_map. rewrite A9. reflexivity. }
  eapply same_incl; [eapply same_trans; [exact Sw|eapply same_trans; [exact Sc|eapply same_trans; [exact Shu|eapply same_trans; [exact Su|exact S9]]]]|].
  intros j J.
  assert (K : In j (chg (id :: flat_map (fun w => members B d (w_id w)) (emitted x) ++ flat_map (cond_mem d) (x_conds x) ++ flat_map (members B d) (x_unions x)))); [|exact K].
  rewrite app_nil_r in J. apply filter_In. assert (M : forall l, In j (chg l) -> In j l /\ changes B j = true) by (intros l Hl; apply filter_In in Hl; exact Hl).
  apply in_app_or in J as [J|J]; [apply M in J as [J1 J2]; split; [right; apply in_or_app; left; exact J1|exact J2]|].
  apply in_app_or in J as [J|J]; [apply M in J as [J1 J2]; split; [right; apply in_or_app; right; apply in_or_app; left; exact J1|exact J2]|].
  apply in_app_or in J as [J|J]; [apply (M [id]) in J as [[<-|[]] J2]; split; [left; reflexivity|exact J2]|].
  apply M in J as [J1 J2]; split; [right; apply in_or_app; right; apply in_or_app; right; exact J1|exact J2].
Qed.
End Tree.

Lemma book_made : forall oss B, book oss B -> exists qs, made oss qs.
Proof.
  intros oss B H. induction H as [|os x oss B [H1 H2] _ (qs & IH)]; [exists []; constructor|].
  destruct (works_all os (xcalls_work os x H1 H2) new_qb) as (q & Hq). exists (q :: qs). constructor; assumption.
Qed.
Lemma book_fresh : forall oss B qs l, book oss B -> made oss qs -> (forall j, In j l -> nth_error B j <> None) -> fresh B qs l.
Proof.
  intros oss B qs l Hb Hm Hl j Hj. specialize (Hl j Hj). clear Hj. revert qs Hm j Hl. induction Hb as [|os x oss B [H1 H2] _ IH]; intros qs Hm j Hl; [destruct j; exfalso; apply Hl; reflexivity|].
  inversion Hm as [|? q ? qs' M1 M2]; subst. destruct j as [|j]; [exists x, os, q; unfold ws_at; cbn [nth_error option_map]; auto|]. cbn [nth_error] in *. exact (IH qs' M2 j Hl).
Qed.
Lemma members_in : forall B d id j, In j (members B d id) -> nth_error B j <> None.
Proof.
  intros B. induction d as [|d IH]; intros id j H; [destruct H|]. cbn [members] in H. destruct (nth_error B id) eqn:E; [|destruct H]. destruct H as [<-|H]; [congruence|].
  apply in_flat_map in H as (i & _ & H). exact (IH i j H).
Qed.
Theorem nest_sql : forall B oss style d id, book oss B -> complete B d id -> used_once B d id ->
  exists qs, made oss qs /\ forall phs st', do_all commit (args_of B d id) (new_store style []) = (ROk phs, st') ->
    forall n, size_of B d id <= n -> fst (build_query n style qs (query id)) = ROk (text_of B d id phs, st_args st').
Proof.
  intros B oss style d id Hb Hc Hn. destruct (book_made oss B Hb) as (qs & Hm). exists qs. split; [exact Hm|]. intros phs st' H n Hs.
  pose proof (commits_heap _ _ _ _ qs H) as H'. change (set_heap (new_store style []) qs) with (new_store style qs) in H'.
  destruct (tree B d id Hc Hn n Hs (new_store style qs) phs _ (book_fresh oss B qs _ Hb Hm (members_in B d id)) H') as (h' & E & _ & _).
  unfold build_query. unfold E0 in E. rewrite E. reflexivity.
Qed.
Theorem nest_question : forall B oss style d id, style <> style_dollar -> book oss B -> complete B d id -> used_once B d id ->
  exists qs, made oss qs /\ forall n, size_of B d id <= n ->
    fst (build_query n style qs (query id)) = ROk (text_of B d id (map (fun _ => "?") (args_of B d id)), args_of B d id).
Proof.
  intros B oss style d id Hs Hb Hc Hn. assert (D : st_dollar (new_store style []) = false) by (cbn; apply Z.eqb_neq; exact Hs).
  destruct (commit_question (args_of B d id) _ D) as (st' & E & A & _). cbn [new_store st_args app] in A.
  destruct (nest_sql B oss style d id Hb Hc Hn) as (qs & Hm & H). exists qs. split; [exact Hm|]. specialize (H _ st' E). rewrite A in H. exact H.
Qed.
Theorem nest_dollar : forall B oss d id, book oss B -> complete B d id -> used_once B d id -> forallb hashable (args_of B d id) = true ->
  exists qs phs, made oss qs /\ Forall2 (dollar_denotes (firsts [] (args_of B d id))) phs (args_of B d id) /\
    forall n, size_of B d id <= n -> fst (build_query n style_dollar qs (query id)) = ROk (text_of B d id phs, firsts [] (args_of B d id)).
Proof.
  intros B oss d id Hb Hc Hn Hh. set (vs := args_of B d id) in *. destruct (commits_succeed vs (new_store style_dollar []) eq_refl Hh) as (phs & st' & E).
  destruct (nest_sql B oss style_dollar d id Hb Hc Hn) as (qs & Hm & H). exists qs, phs. split; [exact Hm|]. specialize (H _ st' E).
  pose proof (do_all_commits _ _ _ _ E) as C. destruct (commits_dedup [] vs 0 0 VNil VNil RFuel RFuel Hh) as [A _]. rewrite C in A. cbn [snd] in A.
  destruct (commits_denote vs (new_store style_dollar []) phs st' eq_refl ltac:(intros _ v k K; discriminate K) E) as (x & _ & G). rewrite A in G, H. split; [exact G|exact H].
Qed.
