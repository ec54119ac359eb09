(** The methods of query builders that describe a query. *)
From Coq Require Import Strings.String Strings.Ascii NArith ZArith List Bool Lia.
From Verif Require Import GoStr GoNum Syntax Value Util Model Sqlf Sqlb Spec_syntax Spec_eval Fuel_proofs Spec_query Deps_proofs Query_proofs.
Import ListNotations.
Open Scope string_scope.

Lemma last_cons : forall A (l : list A) x d, last (x :: l) d = last l x.
Proof.
  intros A. induction l as [|y l IH]; intros x d; [reflexivity|]. change (last (x :: y :: l) d) with (last (y :: l) d).
  rewrite !IH. reflexivity.
Qed.
Lemma last_app : forall A (a b : list A) d, last (a ++ b) d = last b (last a d).
Proof.
  intros A. induction a as [|x a IH]; intros b d; [reflexivity|]. cbn [app]. rewrite !last_cons. apply IH.
Qed.

(* ------------------------------------------------------------------ *)
(** * Fields *)

Record described (q : qb) (os : list qop) (q' : qb) : Prop := mkDesc {
  ds_selects : q_selects q' = with_frags (q_selects q) (last (selected os) (f_frags (q_selects q)));
  ds_touches : q_touches q' = q_touches q;
  ds_conds : q_conds q' = append_frags (q_conds q) (conditions os);
  ds_orders : q_orders q' = (q_orders q ++ ordered os)%list;
  ds_groups : q_groups q' = append_frags (q_groups q) (grouped os);
  ds_distinct : q_distinct q' = q_distinct q || existsb is_distinct os;
  ds_limit : q_limit q' = last (filter (fun z => (0 <? z)%Z) (limits os)) (q_limit q);
  ds_offset : q_offset q' = last (filter (fun z => (0 <? z)%Z) (offsets os)) (q_offset q);
  ds_unions : q_unions q' = (q_unions q ++ united os)%list;
  ds_ctes : q_ctes q' = (q_ctes q ++ withs os)%list;
  ds_cdict : q_cdict q' = (rev (map (fun c => (c_name c, c)) (withs os)) ++ q_cdict q)%list;
  ds_debug : q_debug q' = q_debug q || existsb is_debug os }.

Lemma with_frags_same : forall f, with_frags f (f_frags f) = f. Proof. intros []. reflexivity. Qed.
Lemma with_frags_twice : forall f a b, with_frags (with_frags f a) b = with_frags f b. Proof. intros [] a b. reflexivity. Qed.
Lemma f_frags_with : forall f a, f_frags (with_frags f a) = a. Proof. intros [] a. reflexivity. Qed.
Lemma described_nil : forall q, described q [] q.
Proof.
  intros q. constructor; cbn; rewrite ?append_frags_nil, ?app_nil_r, ?orb_false_r, ?with_frags_same; reflexivity.
Qed.
Lemma described_app : forall a os b os' c, described a os b -> described b os' c -> described a (os ++ os') c.
Proof.
  intros a os b os' c [H1 H2 H3 H4 H5 H6 H7 H8 H9 H10 H11 H12] [K1 K2 K3 K4 K5 K6 K7 K8 K9 K10 K11 K12].
  constructor; unfold selected, conditions, ordered, grouped, limits, offsets, united, withs in *; rewrite ?flat_map_app, ?filter_app, ?existsb_app.
  - rewrite K1, H1, with_frags_twice, f_frags_with, last_app. reflexivity.
  - congruence.
  - rewrite K3, H3, append_frags_app. reflexivity.
  - rewrite K4, H4, app_assoc. reflexivity.
  - rewrite K5, H5, append_frags_app. reflexivity.
  - rewrite K6, H6, orb_assoc. reflexivity.
  - rewrite K7, H7, last_app. reflexivity.
  - rewrite K8, H8, last_app. reflexivity.
  - rewrite K9, H9, app_assoc. reflexivity.
  - rewrite K10, H10, app_assoc. reflexivity.
  - rewrite K11, H11, map_app, rev_app_distr, app_assoc. reflexivity.
  - rewrite K12, H12, orb_assoc. reflexivity.
Qed.
Lemma described_same : forall q q' o, q_selects q' = q_selects q -> q_touches q' = q_touches q -> q_conds q' = q_conds q -> q_orders q' = q_orders q ->
  q_groups q' = q_groups q -> q_distinct q' = q_distinct q -> q_limit q' = q_limit q -> q_offset q' = q_offset q -> q_unions q' = q_unions q ->
  q_ctes q' = q_ctes q -> q_cdict q' = q_cdict q -> q_debug q' = q_debug q ->
  selected [o] = [] -> conditions [o] = [] -> ordered [o] = [] -> grouped [o] = [] -> is_distinct o = false -> filter (fun z => (0 <? z)%Z) (limits [o]) = [] ->
  filter (fun z => (0 <? z)%Z) (offsets [o]) = [] ->
  united [o] = [] -> withs [o] = [] -> is_debug o = false -> described q [o] q'.
Proof.
  intros q q' o H1 H2 H3 H4 H5 H6 H7 H8 H9 H10 H11 H12 E1 E2 E3 E4 E5 E6 E7 E8 E9 E10. constructor; rewrite ?E1, ?E2, ?E3, ?E4, ?E6, ?E7, ?E8, ?E9; cbn [last existsb map rev app];
    rewrite ?E5, ?E10, ?append_frags_nil, ?app_nil_r, ?with_frags_same; cbn [orb]; rewrite ?orb_false_r; assumption.
Qed.
Lemma apply_described : forall o q q', apply_op o q = ROk q' -> described q [o] q'.
Proof.
  intros o q q' H. destruct o as [|[|c cols]|z|z|cols|bs|t|kind t on opt|[f|]|col op v|col l|col l|col o|nm b deps|]; cbn [apply_op] in H.
  - injection H as <-. constructor; cbn; rewrite ?append_frags_nil, ?app_nil_r, ?with_frags_same, ?orb_true_r, ?orb_false_r; reflexivity.
  - injection H as <-. apply described_same; reflexivity.
  - injection H as <-. constructor; cbn; rewrite ?append_frags_nil, ?app_nil_r, ?with_frags_same, ?orb_true_r, ?orb_false_r; reflexivity.
  - injection H as <-. destruct (0 <? z)%Z eqn:E.
    + constructor; cbn; rewrite ?append_frags_nil, ?app_nil_r, ?with_frags_same, ?orb_true_r, ?orb_false_r, ?E; reflexivity.
    + apply described_same; try reflexivity. cbn. rewrite E. reflexivity.
  - injection H as <-. destruct (0 <? z)%Z eqn:E.
    + constructor; cbn; rewrite ?append_frags_nil, ?app_nil_r, ?with_frags_same, ?orb_true_r, ?orb_false_r, ?E; reflexivity.
    + apply described_same; try reflexivity. cbn. rewrite E. reflexivity.
  - injection H as <-. constructor; cbn [selected conditions condition ordered grouped limits offsets united withs flat_map existsb is_distinct is_debug last filter set_groups q_selects q_touches q_conds q_orders q_groups q_distinct q_limit q_offset q_unions q_ctes q_cdict q_debug map rev app];
    rewrite ?append_frags_nil, ?app_nil_r, ?with_frags_same, ?orb_true_r, ?orb_false_r; reflexivity.
  - injection H as <-. constructor; cbn; rewrite ?append_frags_nil, ?app_nil_r, ?with_frags_same, ?orb_true_r, ?orb_false_r; reflexivity.
  - injection H as <-. unfold qb_from. destruct (is_empty (fst t)); [apply described_same; reflexivity|]. apply described_same; reflexivity.
  - unfold qb_join in H. destruct (is_empty (fst t)); [injection H as <-; apply described_same; reflexivity|].
    destruct on as [f|]; [|discriminate]. destruct (q_tables q); destruct (assoc _ _); injection H as <-; apply described_same; reflexivity.
  - injection H as <-. constructor; cbn [selected conditions condition ordered grouped limits offsets united withs flat_map existsb is_distinct is_debug last filter add_cond set_conds q_selects q_touches q_conds q_orders q_groups q_distinct q_limit q_offset q_unions q_ctes q_cdict q_debug map rev app];
    rewrite ?append_frags_nil, ?app_nil_r, ?with_frags_same, ?orb_true_r, ?orb_false_r; reflexivity.
  - injection H as <-. apply described_same; reflexivity.
  - injection H as <-. constructor; cbn [selected conditions condition ordered grouped limits offsets united withs flat_map existsb is_distinct is_debug last filter add_cond set_conds q_selects q_touches q_conds q_orders q_groups q_distinct q_limit q_offset q_unions q_ctes q_cdict q_debug map rev app];
    rewrite ?append_frags_nil, ?app_nil_r, ?with_frags_same, ?orb_true_r, ?orb_false_r; reflexivity.
  - unfold where_in in H. destruct (args_flatted [l]) as [a|er|er|] eqn:E; try discriminate.
    injection H as <-. constructor; cbn [selected conditions condition ordered grouped limits offsets united withs flat_map existsb is_distinct is_debug last filter add_cond set_conds q_selects q_touches q_conds q_orders q_groups q_distinct q_limit q_offset q_unions q_ctes q_cdict q_debug map rev app]; unfold flat; rewrite ?E;
    rewrite ?append_frags_nil, ?app_nil_r, ?with_frags_same, ?orb_true_r, ?orb_false_r; reflexivity.
  - unfold where_in in H. destruct (args_flatted [l]) as [a|er|er|] eqn:E; try discriminate.
    injection H as <-. constructor; cbn [selected conditions condition ordered grouped limits offsets united withs flat_map existsb is_distinct is_debug last filter add_cond set_conds q_selects q_touches q_conds q_orders q_groups q_distinct q_limit q_offset q_unions q_ctes q_cdict q_debug map rev app]; unfold flat; rewrite ?E;
    rewrite ?append_frags_nil, ?app_nil_r, ?with_frags_same, ?orb_true_r, ?orb_false_r; reflexivity.
  - injection H as <-. constructor; cbn; rewrite ?append_frags_nil, ?app_nil_r, ?with_frags_same, ?orb_true_r, ?orb_false_r; reflexivity.
  - injection H as <-. constructor; cbn; rewrite ?append_frags_nil, ?app_nil_r, ?with_frags_same, ?orb_true_r, ?orb_false_r; reflexivity.
  - injection H as <-. constructor; cbn; rewrite ?append_frags_nil, ?app_nil_r, ?with_frags_same, ?orb_true_r, ?orb_false_r; reflexivity.
Qed.
Theorem ops_described : forall os q q', apply_ops os q = ROk q' -> described q os q'.
Proof.
  induction os as [|o os IH]; intros q q' H; cbn [apply_ops] in H.
  - injection H as <-. apply described_nil.
  - destruct (apply_op o q) as [q1|er|er|] eqn:E; try discriminate. change (o :: os) with ([o] ++ os)%list.
    eapply described_app; [apply apply_described; exact E|apply IH; exact H].
Qed.

(* ------------------------------------------------------------------ *)
(** * Tables *)

Definition tstate : Type := list from_table * list nat * list (string * nat) * list err.
Definition tables_of (q : qb) : tstate := (q_tobjs q, q_tables q, q_tdict q, q_errors q).
Lemma tables_other : forall o q q', is_table_op o = false -> apply_op o q = ROk q' -> tables_of q' = tables_of q.
Proof.
  intros o q q' Ht H. destruct o as [|[|c cols]|z|z|cols|bs|t|kind t on opt|[f|]|col op v|col l|col l|col o|nm b deps|]; cbn [apply_op] in H;
    try discriminate; try (injection H as <-; reflexivity).
  - injection H as <-. destruct (0 <? z)%Z; reflexivity.
  - injection H as <-. destruct (0 <? z)%Z; reflexivity.
  - unfold where_in in H. destruct (args_flatted [l]); try discriminate. injection H as <-. reflexivity.
  - unfold where_in in H. destruct (args_flatted [l]); try discriminate. injection H as <-. reflexivity.
Qed.
Lemma tables_same : forall o p q p' q', is_table_op o = true -> tables_of p = tables_of q -> apply_op o p = ROk p' -> apply_op o q = ROk q' ->
  tables_of p' = tables_of q'.
Proof.
  intros o p q p' q' Ht E Hp Hq. unfold tables_of in E. injection E as E1 E2 E3 E4.
  destruct o as [|cols|z|z|cols|bs|t|kind t on opt|f|col op v|col l|col l|col o|nm b deps|]; try discriminate; cbn [apply_op] in Hp, Hq.
  - injection Hp as <-. injection Hq as <-. unfold qb_from, tables_of. destruct (is_empty (fst t)); cbn; rewrite E1, E2, E3, E4; reflexivity.
  - unfold qb_join in Hp, Hq. destruct (is_empty (fst t)).
    + injection Hp as <-. injection Hq as <-. unfold tables_of. cbn. rewrite E1, E2, E3, E4. reflexivity.
    + destruct on as [f|]; [|discriminate]. rewrite E2 in Hp. destruct (q_tables q) as [|i l] eqn:Et; cbn [q_tdict q_tobjs q_tables set_tables] in Hp, Hq;
        rewrite E3 in Hp; destruct (assoc _ _); injection Hp as <-; injection Hq as <-; unfold tables_of; cbn; rewrite ?E1, ?E2, ?E3, ?E4, ?Et; reflexivity.
Qed.
Lemma tables_ops : forall os p q p' q', tables_of p = tables_of q -> apply_ops os p = ROk p' -> apply_ops (filter is_table_op os) q = ROk q' ->
  tables_of p' = tables_of q'.
Proof.
  induction os as [|o os IH]; intros p q p' q' E Hp Hq; cbn [apply_ops filter] in *.
  - congruence.
  - destruct (apply_op o p) as [p1|er|er|] eqn:Ep; try discriminate. destruct (is_table_op o) eqn:T.
    + cbn [apply_ops] in Hq. destruct (apply_op o q) as [q1|er|er|] eqn:Eq; try discriminate. eapply IH; [|exact Hp|exact Hq].
      eapply tables_same; eassumption.
    + eapply IH; [|exact Hp|exact Hq]. rewrite (tables_other o p p1 T Ep). exact E.
Qed.
(** A table operation fails or not whatever the builder. *)
Lemma table_op_ok : forall o p p' q, is_table_op o = true -> apply_op o p = ROk p' -> exists q', apply_op o q = ROk q'.
Proof.
  intros o p p' q Ht H. destruct o as [|cols|z|z|cols|bs|t|kind t on opt|f|col op v|col l|col l|col o|nm b deps|]; try discriminate; cbn [apply_op] in *; eauto.
  unfold qb_join in *. destruct (is_empty (fst t)); [eauto|]. destruct on as [f|]; [|discriminate]. destruct (assoc _ (q_tdict (match q_tables q with [] => _ | _ => _ end))); eauto.
Qed.
Lemma table_ops_ok : forall os p p' q, apply_ops os p = ROk p' -> exists q', apply_ops (filter is_table_op os) q = ROk q'.
Proof.
  induction os as [|o os IH]; intros p p' q H; cbn [apply_ops filter] in *; [eauto|].
  destruct (apply_op o p) as [p1|er|er|] eqn:Ep; try discriminate. destruct (is_table_op o) eqn:T; [|eapply IH; exact H].
  destruct (table_op_ok o p p1 q T Ep) as (q1 & E). cbn [apply_ops]. rewrite E. eapply IH; exact H.
Qed.

Lemma qb_ext : forall p q, q_ctes p = q_ctes q -> q_cdict p = q_cdict q -> q_tobjs p = q_tobjs q -> q_tables p = q_tables q -> q_tdict p = q_tdict q -> q_selects p = q_selects q -> q_touches p = q_touches q -> q_conds p = q_conds q -> q_orders p = q_orders q -> q_groups p = q_groups q -> q_distinct p = q_distinct q -> q_limit p = q_limit q -> q_offset p = q_offset q -> q_unions p = q_unions q -> q_errors p = q_errors q -> q_debug p = q_debug q -> p = q.
Proof. intros [] []. cbn. intros. subst. reflexivity. Qed.
(** Two descriptions that say the same about each clause make the same builder. *)
Theorem ops_determined : forall os os' q q', apply_ops os new_qb = ROk q -> apply_ops os' new_qb = ROk q' ->
  filter is_table_op os = filter is_table_op os' -> last (selected os) [] = last (selected os') [] -> conditions os = conditions os' ->
  ordered os = ordered os' -> grouped os = grouped os' -> united os = united os' -> withs os = withs os' ->
  last_positive (limits os) = last_positive (limits os') -> last_positive (offsets os) = last_positive (offsets os') ->
  existsb is_distinct os = existsb is_distinct os' -> existsb is_debug os = existsb is_debug os' -> q = q'.
Proof.
  intros os os' q q' H H' E1 E2 E3 E4 E5 E6 E7 E8 E9 E10 E11.
  pose proof (ops_described _ _ _ H) as [A1 A2 A3 A4 A5 A6 A7 A8 A9 A10 A11 A12].
  pose proof (ops_described _ _ _ H') as [B1 B2 B3 B4 B5 B6 B7 B8 B9 B10 B11 B12].
  destruct (table_ops_ok os _ _ new_qb H) as (qt & Ht). pose proof Ht as Ht'. rewrite E1 in Ht'.
  pose proof (tables_ops os _ _ _ _ eq_refl H Ht) as T1. pose proof (tables_ops os' _ _ _ _ eq_refl H' Ht') as T2.
  rewrite <- T2 in T1. unfold tables_of in T1. injection T1 as T1 T3 T4 T5.
  unfold last_positive in *. cbn [new_qb q_limit q_offset] in *.
  assert (Sel : last (selected os) (f_frags (q_selects new_qb)) = last (selected os') (f_frags (q_selects new_qb))) by exact E2.
  apply qb_ext.
  - rewrite A10, B10, E7. reflexivity.
  - rewrite A11, B11, E7. reflexivity.
  - exact T1.
  - exact T3.
  - exact T4.
  - rewrite A1, B1, Sel. reflexivity.
  - rewrite A2, B2. reflexivity.
  - rewrite A3, B3, E3. reflexivity.
  - rewrite A4, B4, E4. reflexivity.
  - rewrite A5, B5, E5. reflexivity.
  - rewrite A6, B6, E10. reflexivity.
  - rewrite A7, B7. exact E8.
  - rewrite A8, B8. exact E9.
  - rewrite A9, B9, E6. reflexivity.
  - exact T5.
  - rewrite A12, B12, E11. reflexivity.
Qed.

Lemma has_nil_prefix : forall f p, has_nil (BFrag (with_prefix f p)) -> has_nil (BFrag f).
Proof. intros [raw args frags q s] p H. inversion H; subst. econstructor; eassumption. Qed.
Lemma nth_error_upd : forall A (l : list A) i x j, nth_error (upd i x l) j = if (j =? i)%nat && (j <? List.length l)%nat then Some x else nth_error l j.
Proof.
  intros A. induction l as [|y l IH]; intros [|i] x [|j]; cbn; try reflexivity.
  - destruct (_ =? _)%nat; reflexivity.
  - rewrite IH. reflexivity.
Qed.
Lemma tables_ok_op : forall o q q', op_ok o -> tables_ok q -> apply_op o q = ROk q' -> tables_ok q'.
Proof.
  intros o q q' Ho [Hd Hl] H. destruct (is_table_op o) eqn:T.
  2:{ pose proof (tables_other o q q' T H) as E. unfold tables_of in E. injection E as E1 E2 E3 _. split.
      - intros t id A. rewrite E3 in A. destruct (Hd t id A) as (ft & f & K). exists ft, f. rewrite E1. exact K.
      - rewrite E1, E2. exact Hl. }
  destruct o as [|cols|z|z|cols|bs|t|kind t on opt|f|col op v|col l|col l|col o|nm b deps|]; try discriminate; cbn [apply_op] in H.
  - injection H as <-. unfold qb_from. destruct (is_empty (fst t)); [split; assumption|]. split; cbn [set_tables q_tdict q_tobjs q_tables].
    + intros u id A. cbn [assoc] in A. destruct (String.eqb u (applied t)) eqn:E.
      * injection A as <-. apply String.eqb_eq in E. subst u. eexists _, _. split; [rewrite nth_error_app2, Nat.sub_diag by lia; reflexivity|].
        cbn. split; [reflexivity|]. split; [reflexivity|]. intros K. inversion K; subst. contradiction.
      * destruct (Hd u id A) as (ft & f & K1 & K2). exists ft, f. split; [|exact K2]. rewrite nth_error_app1; [exact K1|]. apply nth_error_Some. congruence.
    + intros id Hi. rewrite app_length. cbn [List.length]. destruct (q_tables q) as [|i l]; destruct Hi as [<-|Hi]; try lia.
      * destruct Hi.
      * specialize (Hl id (or_intror Hi)). lia.
  - unfold qb_join in H. destruct (is_empty (fst t)); [injection H as <-; split; assumption|]. destruct on as [f|]; [|discriminate].
    set (q1 := match q_tables q with [] => _ | _ => q end) in H.
    assert (tables_ok q1) as [Hd1 Hl1].
    { subst q1. destruct (q_tables q) as [|i l] eqn:Et; [|split; [exact Hd|rewrite Et; exact Hl]]. split; cbn [set_tables q_tdict q_tobjs q_tables].
      - intros u id A. destruct (Hd u id A) as (ft & g & K1 & K2). exists ft, g. split; [|exact K2]. rewrite nth_error_app1; [exact K1|]. apply nth_error_Some. congruence.
      - intros id [<-|[]]. rewrite app_length. cbn. lia. }
    clearbody q1. clear Hd Hl. 
    assert (Nn : ~ has_nil (BFrag (Ff (join_raw kind t) [BFrag (with_prefix f "ON")]))).
    { intros K. inversion K; subst. match goal with K : In _ [_] |- _ => destruct K as [<-|[]] end. apply Ho. eapply has_nil_prefix; eassumption. }
    destruct (assoc (applied t) (q_tdict q1)) as [id0|] eqn:A0; injection H as <-; split; cbn [set_tables q_tdict q_tobjs q_tables].
    + intros u id A. destruct (Hd1 u id A) as (ft & g & K1 & K2 & K3 & K4). destruct (Nat.eqb id id0) eqn:E.
      * apply Nat.eqb_eq in E. subst id0. destruct (Hd1 _ _ A0) as (ft0 & g0 & J1 & J2 & _). rewrite nth_error_upd.
        rewrite Nat.eqb_refl. assert (L : (id <? List.length (q_tobjs q1))%nat = true) by (apply Nat.ltb_lt, nth_error_Some; congruence). rewrite L. cbn [andb].
        eexists _, _. split; [reflexivity|]. cbn. split; [change known_as with applied in *; congruence|]. split; [reflexivity|]. exact Nn.
      * exists ft, g. rewrite nth_error_upd, E. cbn [andb]. auto.
    + intros id Hi. rewrite upd_len. auto.
    + intros u id A. cbn [assoc] in A. destruct (String.eqb u (applied t)) eqn:E.
      * injection A as <-. apply String.eqb_eq in E. subst u. eexists _, _. split; [rewrite nth_error_app2, Nat.sub_diag by lia; reflexivity|].
        cbn. split; [reflexivity|]. split; [reflexivity|]. exact Nn.
      * destruct (Hd1 u id A) as (ft & g & K1 & K2). exists ft, g. split; [|exact K2]. rewrite nth_error_app1; [exact K1|]. apply nth_error_Some. congruence.
    + intros id Hi. rewrite app_length. cbn [List.length]. apply in_app_or in Hi. destruct Hi as [Hi|[<-|[]]]; [specialize (Hl1 id Hi); lia|lia].
Qed.
Theorem tables_ok_ops : forall os q q', Forall op_ok os -> tables_ok q -> apply_ops os q = ROk q' -> tables_ok q'.
Proof.
  induction os as [|o os IH]; intros q q' F Hq H; cbn [apply_ops] in H.
  - injection H as <-. exact Hq.
  - inversion F; subst. destruct (apply_op o q) as [q1|er|er|] eqn:E; try discriminate. eapply IH; [assumption| |exact H].
    eapply tables_ok_op; eassumption.
Qed.
Lemma tables_ok_new : tables_ok new_qb.
Proof. split; [intros t id H; discriminate|intros id []]. Qed.
Lemma ctes_ok_ops : forall os q, apply_ops os new_qb = ROk q -> ctes_ok q.
Proof.
  intros os q H. pose proof (ops_described _ _ _ H) as D. destruct D. split.
  - intros c d E. unfold cte_of in E. apply assoc_in in E. rewrite ds_cdict0 in E. cbn [new_qb q_cdict] in E. rewrite app_nil_r in E.
    apply in_rev in E. apply in_map_iff in E. destruct E as (c0 & E & _). congruence.
  - intros c Hc. rewrite ds_ctes0 in Hc. cbn in Hc. unfold cte_of. rewrite ds_cdict0. cbn [new_qb q_cdict]. rewrite app_nil_r.
    assert (In (c_name c, c) (rev (map (fun c => (c_name c, c)) (withs os)))) as Hi by (apply -> in_rev; apply in_map_iff; eauto).
    revert Hi. generalize (rev (map (fun c => (c_name c, c)) (withs os))). induction l as [|[k v] l IH]; [intros []|]. cbn [assoc].
    destruct (String.eqb (c_name c) k) eqn:E; [discriminate|]. intros [K|K]; [injection K as -> ->; rewrite String.eqb_refl in E; discriminate|auto].
Qed.

(** Errors stay. *)
Lemma errors_op : forall o q q', apply_op o q = ROk q' -> exists l, q_errors q' = (q_errors q ++ l)%list /\ (nameless o = true -> l <> []).
Proof.
  intros o q q' H. destruct (is_table_op o) eqn:T.
  2:{ pose proof (tables_other o q q' T H) as E. unfold tables_of in E. injection E as _ _ _ E. exists []. rewrite app_nil_r. split; [exact E|].
      destruct o; discriminate. }
  destruct o as [|cols|z|z|cols|bs|t|kind t on opt|f|col op v|col l|col l|col o|nm b deps|]; try discriminate; cbn [apply_op nameless] in *.
  - injection H as <-. unfold qb_from. destruct (is_empty (fst t)); [eexists; split; [reflexivity|discriminate]|exists []; split; [cbn; rewrite app_nil_r; reflexivity|discriminate]].
  - unfold qb_join in H. destruct (is_empty (fst t)); [injection H as <-; eexists; split; [reflexivity|discriminate]|].
    destruct on as [f|]; [|discriminate]. exists []. split; [|discriminate]. rewrite app_nil_r.
    destruct (q_tables q); destruct (assoc _ _); injection H as <-; reflexivity.
Qed.
Lemma errors_ops : forall os q q', apply_ops os q = ROk q' -> exists l, q_errors q' = (q_errors q ++ l)%list /\ (existsb nameless os = true -> l <> []).
Proof.
  induction os as [|o os IH]; intros q q' H; cbn [apply_ops] in H.
  - injection H as <-. exists []. rewrite app_nil_r. split; [reflexivity|discriminate].
  - destruct (apply_op o q) as [q1|er|er|] eqn:E; try discriminate. destruct (errors_op o q q1 E) as (l1 & E1 & N1). destruct (IH q1 q' H) as (l2 & E2 & N2).
    exists (l1 ++ l2)%list. rewrite E2, E1, app_assoc. split; [reflexivity|]. cbn [existsb]. intros K. apply orb_prop in K. destruct K as [K|K].
    + specialize (N1 K). destruct l1; [congruence|discriminate].
    + specialize (N2 K). destruct l1; [exact N2|discriminate].
Qed.
Lemma no_tables_ops : forall os q q', existsb is_from os = false -> existsb is_join os = false -> q_tables q = [] -> apply_ops os q = ROk q' -> q_tables q' = [].
Proof.
  induction os as [|o os IH]; intros q q' Hf Hj Hq H; cbn [apply_ops] in H.
  - injection H as <-. exact Hq.
  - cbn [existsb] in Hf, Hj. apply orb_false_elim in Hf, Hj. destruct (apply_op o q) as [q1|er|er|] eqn:E; try discriminate. eapply IH; [tauto|tauto| |exact H].
    destruct (is_table_op o) eqn:T; [|pose proof (tables_other o q q1 T E) as K; unfold tables_of in K; congruence].
    destruct Hf as [Hf _], Hj as [Hj _].
    destruct o as [|cols|z|z|cols|bs|t|kind t on opt|f|col op v|col l|col l|col o|nm b deps|]; try discriminate; cbn [apply_op is_from is_join] in *.
    + injection E as <-. unfold qb_from. apply negb_false_iff in Hf. rewrite Hf. exact Hq.
    + unfold qb_join in E. apply negb_false_iff in Hj. rewrite Hj in E. injection E as <-. exact Hq.
Qed.
