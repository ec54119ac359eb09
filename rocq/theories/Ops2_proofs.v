(** Tables: From and joins. *)
From Coq Require Import Strings.String Strings.Ascii NArith ZArith List Bool Lia.
From Verif Require Import GoStr GoNum Syntax Value Util Model Sqlf Sqlb Spec_syntax Spec_eval Spec_query
  Query_proofs Ops_proofs Query2_proofs.
Import ListNotations.
Open Scope string_scope.

Lemma listed_app : forall objs x ids, (forall id, In id ids -> id < List.length objs) ->
  map (fun id => nth id (objs ++ [x]) no_table) ids = map (fun id => nth id objs no_table) ids.
Proof. intros objs x ids H. apply map_ext_in. intros id Hi. apply app_nth1. auto. Qed.

Theorem listed_from : forall t q, tables_ok q -> fst t <> "" -> listed (qb_from t q) = main_table t :: tl (listed q).
Proof.
  intros t q [_ Hl] Ht. unfold qb_from. destruct (is_empty (fst t)) eqn:E; [destruct (fst t); [congruence|discriminate]|].
  unfold listed. cbn [set_tables q_tobjs q_tables]. fold no_table. destruct (q_tables q) as [|id ids].
  - cbn [map]. rewrite app_nth2, Nat.sub_diag by lia. reflexivity.
  - cbn [map tl]. rewrite app_nth2, Nat.sub_diag by lia. rewrite listed_app by (intros i Hi; apply Hl; right; exact Hi). reflexivity.
Qed.
Theorem known_from : forall t q, fst t <> "" -> table_of (qb_from t q) (applied t) = Some (main_table t) /\
  main_of (qb_from t q) = Some (main_table t).
Proof.
  intros t q Ht. unfold qb_from. destruct (is_empty (fst t)) eqn:E; [destruct (fst t); [congruence|discriminate]|].
  unfold table_of, main_of. cbn [set_tables q_tobjs q_tables q_tdict assoc]. rewrite String.eqb_refl.
  assert (H : nth_error (q_tobjs q ++ [main_table t]) (List.length (q_tobjs q)) = Some (main_table t)) by (rewrite nth_error_app2, Nat.sub_diag by lia; reflexivity).
  split; [exact H|]. destruct (q_tables q); exact H.
Qed.
Theorem known_other : forall t u q, tables_ok q -> u <> applied t -> table_of (qb_from t q) u = table_of q u.
Proof.
  intros t u q [Hd _] Hu. unfold qb_from. destruct (is_empty (fst t)) eqn:E; [reflexivity|].
  unfold table_of. cbn [set_tables q_tobjs q_tables q_tdict assoc]. destruct (String.eqb u (applied t)) eqn:Eu; [apply String.eqb_eq in Eu; congruence|].
  destruct (assoc u (q_tdict q)) as [id|] eqn:Ea; [|reflexivity]. destruct (Hd _ _ Ea) as (ft & f & K & _).
  rewrite nth_error_app1 by (apply nth_error_Some; congruence). reflexivity.
Qed.
(** A join of a new name is added at the end. *)
Theorem listed_join_new : forall kind t on opt q q', tables_ok q -> fst t <> "" -> undefined q (applied t) ->
  apply_op (OJoin kind t (Some on) opt) q = ROk q' ->
  listed q' = (match q_tables q with [] => [no_table] | _ => listed q end ++ [join_table kind t on opt])%list /\
  table_of q' (applied t) = Some (join_table kind t on opt).
Proof.
  intros kind t on opt q q' [Hd Hl] Ht Hu H. cbn [apply_op] in H. unfold qb_join in H.
  destruct (is_empty (fst t)) eqn:E; [destruct (fst t); [congruence|discriminate]|].
  assert (Ha : assoc (applied t) (q_tdict q) = None).
  { unfold undefined, table_of in Hu. destruct (assoc _ _) as [id|] eqn:Ea; [|reflexivity]. destruct (Hd _ _ Ea) as (ft & f & K & _). congruence. }
  change (mkFT t (Some (Ff (join_raw kind t) [BFrag (with_prefix on "ON")])) opt) with (join_table kind t on opt) in H. destruct (q_tables q) as [|id0 ids] eqn:Et; cbn [set_tables q_tdict q_tables q_tobjs] in H; rewrite Ha in H; injection H as <-.
  - unfold listed, table_of. cbn [set_tables q_tdict q_tables q_tobjs assoc app map]. rewrite String.eqb_refl. fold no_table.
    rewrite nth_error_app2, Nat.sub_diag by lia. split; [|reflexivity]. cbn [nth_error].
    rewrite app_nth1 by (rewrite app_length; cbn; lia). rewrite app_nth2, Nat.sub_diag by lia.
    rewrite app_nth2, Nat.sub_diag by lia. reflexivity.
  - unfold listed, table_of. cbn [set_tables q_tdict q_tables q_tobjs assoc]. rewrite Et, String.eqb_refl. fold no_table.
    rewrite nth_error_app2, Nat.sub_diag by lia. split; [|reflexivity].
    rewrite map_app, listed_app by exact Hl. cbn [map]. rewrite app_nth2, Nat.sub_diag by lia. reflexivity.
Qed.
(** A join of a known name replaces the table of that name. *)
Theorem listed_join_known : forall kind t on opt q q' id, tables_ok q -> fst t <> "" -> q_tables q <> [] -> assoc (applied t) (q_tdict q) = Some id ->
  apply_op (OJoin kind t (Some on) opt) q = ROk q' ->
  listed q' = map (fun i => if Nat.eqb i id then join_table kind t on opt else nth i (q_tobjs q) no_table) (q_tables q) /\
  q_tables q' = q_tables q /\ table_of q' (applied t) = Some (join_table kind t on opt).
Proof.
  intros kind t on opt q q' id [Hd Hl] Ht Hne Ha H. cbn [apply_op] in H. unfold qb_join in H.
  destruct (is_empty (fst t)) eqn:E; [destruct (fst t); [congruence|discriminate]|].
  change (mkFT t (Some (Ff (join_raw kind t) [BFrag (with_prefix on "ON")])) opt) with (join_table kind t on opt) in H. destruct (q_tables q) as [|id0 ids] eqn:Et; [congruence|]. rewrite Ha in H. injection H as <-.
  destruct (Hd _ _ Ha) as (ft & f & K & _). assert (Lid : id < List.length (q_tobjs q)) by (apply nth_error_Some; congruence).
  unfold listed, table_of. cbn [set_tables q_tdict q_tables q_tobjs]. rewrite Ha, Et. fold no_table.
  assert (G : forall i, nth_error (upd id (join_table kind t on opt) (q_tobjs q)) i = if Nat.eqb i id then Some (join_table kind t on opt) else nth_error (q_tobjs q) i).
  { clear - Lid. revert id Lid. generalize (q_tobjs q). induction l as [|y l IH]; intros id Lid i; [cbn in Lid; lia|].
    destruct id as [|id]; destruct i as [|i]; cbn; try reflexivity. apply IH. cbn in Lid. lia. }
  split; [|split; [reflexivity|]].
  - apply map_ext_in. intros i Hi. specialize (Hl i Hi).
    assert (G2 := G i). destruct (Nat.eqb i id).
    + apply nth_error_nth. exact G2.
    + destruct (nth_error (q_tobjs q) i) as [y|] eqn:Ey; [|apply nth_error_None in Ey; lia].
      rewrite (nth_error_nth _ _ no_table G2). symmetry. exact (nth_error_nth _ _ no_table Ey).
  - rewrite G, Nat.eqb_refl. reflexivity.
Qed.

(** With joins but no From the main table is missing. *)
Definition headless (q : qb) : Prop :=
  (q_tables q = [] /\ q_tdict q = []) \/
  exists id l, q_tables q = id :: l /\ nth_error (q_tobjs q) id = Some no_table /\ forall t, assoc t (q_tdict q) <> Some id.
Lemma headless_op : forall o q q', is_from o = false -> headless q -> tables_ok q -> apply_op o q = ROk q' -> headless q'.
Proof.
  intros o q q' Hf Hh [Hd Hl] H. destruct (is_table_op o) eqn:T.
  2:{ pose proof (tables_other o q q' T H) as E. unfold tables_of in E. injection E as E1 E2 E3 _. unfold headless. rewrite E1, E2, E3. exact Hh. }
  destruct o as [|cols|z|z|cols|bs|t|kind t on opt|f|col op v|col l|col l|col o|nm b deps|]; try discriminate; cbn [apply_op is_from] in *.
  - injection H as <-. apply negb_false_iff in Hf. unfold qb_from. rewrite Hf. exact Hh.
  - unfold qb_join in H. destruct (is_empty (fst t)); [injection H as <-; exact Hh|]. destruct on as [on|]; [|discriminate].
    change (mkFT t (Some (Ff (join_raw kind t) [BFrag (with_prefix on "ON")])) opt) with (join_table kind t on opt) in H. destruct Hh as [[E1 E2]|(id & l & E1 & E2 & E3)].
    + rewrite E1 in H. cbn [set_tables q_tdict q_tables q_tobjs] in H. rewrite E2 in H. cbn [assoc] in H. injection H as <-. right.
      exists (List.length (q_tobjs q)). eexists. cbn [set_tables q_tdict q_tables q_tobjs app]. split; [reflexivity|]. fold no_table. split.
      * rewrite nth_error_app1 by (rewrite app_length; cbn; lia). rewrite nth_error_app2, Nat.sub_diag by lia. reflexivity.
      * intros u K. cbn [assoc] in K. destruct (String.eqb u (applied t)); [|discriminate]. injection K as K. rewrite app_length in K. cbn in K. lia.
    + rewrite E1 in H. assert (L0 : id < List.length (q_tobjs q)) by (apply nth_error_Some; congruence).
      destruct (assoc (applied t) (q_tdict q)) as [j|] eqn:Ea; injection H as <-; right; exists id; eexists; cbn [set_tables q_tdict q_tables q_tobjs].
      * split; [exact E1|]. split; [|exact E3]. assert (j <> id) by (intros ->; exact (E3 _ Ea)).
        clear - E2 H. revert j id H E2. generalize (q_tobjs q) as objs. intros objs. induction objs as [|y objs IH]; intros j id H E; [destruct id; discriminate|].
        destruct j as [|j]; destruct id as [|id]; cbn in *; try congruence. apply IH; congruence.
      * rewrite E1. split; [reflexivity|]. split; [rewrite nth_error_app1 by exact L0; exact E2|].
        intros u K. cbn [assoc] in K. destruct (String.eqb u (applied t)); [injection K as K; lia|exact (E3 _ K)].
Qed.
Lemma headless_ops : forall os q q', existsb is_from os = false -> Forall op_ok os -> headless q -> tables_ok q -> apply_ops os q = ROk q' -> headless q'.
Proof.
  induction os as [|o os IH]; intros q q' Hf Ho Hh Ht H; cbn [apply_ops] in H.
  - injection H as <-. exact Hh.
  - cbn [existsb] in Hf. apply orb_false_elim in Hf. destruct Hf as [Hf1 Hf2]. inversion Ho; subst.
    destruct (apply_op o q) as [q1|er|er|] eqn:E; try discriminate. eapply IH; [exact Hf2|assumption| | |exact H].
    + eapply headless_op; eassumption.
    + eapply tables_ok_op; eassumption.
Qed.
(** Without From a query with joins has nothing between FROM and the first join. *)
Theorem query_headless : forall os q n e id st sql st', existsb is_from os = false -> Forall op_ok os -> apply_ops os new_qb = ROk q ->
  get_q st id = q -> build n e (BQuery (Some id)) st = (ROk sql, st') ->
  exists n' kt kc secs l, n = S n' /\ assembled (build n' e) kt kc id st secs st' /\ sql = layout secs /\ s_from secs = "" :: l.
Proof.
  intros os q n e id st sql st' Hf Ho Hos Hq H. destruct (query_ok _ _ _ _ _ _ H) as (n' & kt & kc & secs & -> & A & E & K).
  pose proof (tables_ok_ops _ _ _ Ho tables_ok_new Hos) as T. pose proof (ctes_ok_ops _ _ Hos) as C.
  assert (Hh : headless q) by (apply (headless_ops os new_qb q Hf Ho); [left; split; reflexivity|exact tables_ok_new|exact Hos]).
  rewrite Hq in K. destruct (K T C) as [(K1 & _ & _) _]. exists n', kt, kc, secs.
  inversion A as [q0 ctexts froms w g o s h us st1 st2 st3 st4 st5 st6 st7 st8 Eq Ee A1 A2 A3 A4 A5 A6 A7 A8 A9 Es Est]. rewrite Hq in Eq. subst q0.
  destruct Hh as [[E1 _]|(i & l & E1 & E2 & _)].
  { exfalso. assert (Hd : q_errors (get_q st id) = []) by (rewrite Hq; exact Ee).
    destruct (query_no_tables n' e id st) as (er & X); [rewrite Hq; exact E1|exact Hd|]. rewrite X in H. discriminate. }
  assert (L : listed q = no_table :: map (fun id => nth id (q_tobjs q) no_table) l).
  { unfold listed. rewrite E1. cbn [map]. fold no_table. rewrite (nth_error_nth _ _ no_table E2). reflexivity. }
  assert (Kt : kt no_table = true).
  { apply K1; [rewrite L; left; reflexivity|]. right. left. reflexivity. }
  rewrite L in A2. cbn [filter] in A2. rewrite Kt in A2. cbn [do_all table_builder no_table ft_frag] in A2.
  destruct n' as [|n']; [discriminate A2|]. change (build (S n') e BNilFrag st1) with (@ROk string "", st1) in A2. cbv iota beta in A2.
  match type of A2 with (match ?x with _ => _ end) = _ => destruct x as [[ss|er|er|] s9] end; try discriminate A2. injection A2 as A2 _.
  exists ss. rewrite Es. split; [reflexivity|]. split; [exact A|]. split; [exact E|]. rewrite <- Es. cbn [s_from]. symmetry. exact A2.
Qed.
