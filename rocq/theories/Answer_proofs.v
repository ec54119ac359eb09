(** Proofs for the answers of statements. *)
From Coq Require Import Strings.String NArith ZArith List Bool Sorting.Permutation Sorting.Sorted.
From Verif Require Import GoStr GoNum Syntax Value Util Model Sqlf Sqlb Spec_query Spec_sql Spec_answer Sql_proofs.
Import ListNotations.
Open Scope string_scope.

Lemma empty_eq : forall s, is_empty s = true -> s = "".
Proof. intros [|a s] H; [reflexivity|discriminate H]. Qed.

Section Trim.
Variable D : database.
Variable m : stmt.
Variable ts : list (test D).
Hypothesis Hshown : shown_ok m (map fst ts).
Hypothesis Hclosed : closed m.
Hypothesis Hless : tableless_cols D (m_used m ++ map fst ts).

Definition hidden (a : string) : Prop := exists j, In j (m_joins m) /\ appears j = false /\ known_as (j_table j) = a.
Definition agree (e e' : rows_of (d_val D)) : Prop := forall a, ~ hidden a -> e a = e' a.
Definition safe_col (c : col) : Prop := In c (m_used m ++ map fst ts)%list /\ (fst c <> "" -> ~ hidden (fst c)).

Lemma agree_col : forall e e' g g' c, agree e e' -> safe_col c -> col_value D (e :: g) c = col_value D (e' :: g') c.
Proof.
  intros e e' g g' c A [U H]. unfold col_value. destruct (is_empty (fst c)) eqn:E.
  - apply Hless; [exact U|apply empty_eq, E].
  - cbn [hd]. rewrite A; [reflexivity|]. apply H. intro K. rewrite K in E. discriminate E.
Qed.
Lemma agree_bind : forall a r e e', agree e e' -> agree (bind D a r e) (bind D a r e').
Proof. intros a r e e' A x H. unfold bind. destruct (String.eqb x a); [reflexivity|apply A, H]. Qed.
Lemma agree_bind_hidden : forall a r e e', hidden a -> agree e e' -> agree (bind D a r e) e'.
Proof.
  intros a r e e' Hh A x H. unfold bind. destruct (String.eqb_spec x a) as [->|N]; [destruct (H Hh)|apply A, H].
Qed.

Lemma needs_shown : forall t, m_distinct m = true -> needs m (map fst ts) t -> ~ hidden t.
Proof.
  intros t Hd Hn (j & Hj & Ha & <-). specialize (Hshown j Hj). assert (K : appears j = true); [|congruence]. apply Hshown.
  destruct (j_kind j); try exact I. intros _. exact Hn.
Qed.
Lemma distinct_hidden : forall t, hidden t -> m_distinct m = true.
Proof.
  intros t (j & Hj & Ha & _). destruct (m_distinct m) eqn:E; [reflexivity|]. specialize (Hshown j Hj). assert (K : appears j = true); [|congruence].
  apply Hshown. destruct (j_kind j); try exact I. congruence.
Qed.
Lemma clause_safe : forall c, In c (m_cols m ++ map fst ts ++ m_groups m ++ map fst (m_orders m))%list -> safe_col c.
Proof.
  intros c Hc. split.
  - unfold m_used. apply in_app_or in Hc as [Hc|Hc]; [|apply in_app_or in Hc as [Hc|Hc]; [|apply in_app_or in Hc as [Hc|Hc]]].
    + apply in_or_app; left; apply in_or_app; left; exact Hc.
    + apply in_or_app; right; exact Hc.
    + apply in_or_app; left. do 2 (apply in_or_app; right); apply in_or_app; left; exact Hc.
    + apply in_or_app; left. do 3 (apply in_or_app; right); apply in_or_app; left; exact Hc.
  - intros Hn Hh. exact (needs_shown (fst c) (distinct_hidden _ Hh) (ns_col m _ c Hc Hn) Hh).
Qed.
Lemma join_safe : forall j c, In j (m_joins m) -> appears j = true -> c = j_left j \/ c = j_right j -> safe_col c.
Proof.
  intros j c Hj Ha Hc. split.
  - apply in_or_app; left. unfold m_used. do 4 (apply in_or_app; right). apply in_or_app. destruct Hc as [->| ->]; [left|right]; apply in_map; exact Hj.
  - intros Hn Hh. destruct (j_kind j) eqn:K.
    5:{ apply (needs_shown (fst c) (distinct_hidden _ Hh)); [|exact Hh]. apply (ns_join m _ j c); [|exact Hj|exact Hc|exact Hn].
        pose proof (proj1 (Hshown j Hj) Ha) as S. rewrite K in S. apply S. exact (distinct_hidden _ Hh). }
    all: destruct Hh as (i & Hi & Hf & E); assert (X : appears i = true);
      [apply (Hclosed j i Hj Hi); [rewrite K; exact I|rewrite E; destruct Hc as [->| ->]; auto]|congruence].
Qed.

(** The rows agree on the tables that appear. *)
Definition sim (l l' : list (rows_of (d_val D))) : Prop :=
  (forall e, In e l -> exists e', In e' l' /\ agree e e') /\ (forall e', In e' l' -> exists e, In e l /\ agree e e').
Lemma on_same : forall j e e' r, In j (m_joins m) -> appears j = true -> agree e e' -> on_holds D j e r = on_holds D j e' r.
Proof.
  intros j e e' r Hj Ha A. unfold on_holds. pose proof (agree_bind (known_as (j_table j)) r e e' A) as B.
  rewrite (agree_col _ _ [] [] (j_left j) B), (agree_col _ _ [] [] (j_right j) B); [reflexivity|..]; apply (join_safe j); auto.
Qed.
Lemma partners_same : forall j e e', In j (m_joins m) -> appears j = true -> agree e e' -> partners D j e = partners D j e'.
Proof. intros j e e' Hj Ha A. unfold partners. apply filter_ext. intro r. apply on_same; assumption. Qed.
Lemma sim_flat : forall (f : rows_of (d_val D) -> list (rows_of (d_val D))) l l', sim l l' ->
  (forall e e', agree e e' -> sim (f e) (f e')) -> sim (flat_map f l) (flat_map f l').
Proof.
  intros f l l' [A B] H. split.
  - intros x Hx. apply in_flat_map in Hx as (e & He & Hx). destruct (A e He) as (e' & He' & G). destruct (H e e' G) as [H1 _].
    destruct (H1 x Hx) as (x' & Hx' & Gx). exists x'. split; [apply in_flat_map; eauto|exact Gx].
  - intros x Hx. apply in_flat_map in Hx as (e' & He' & Hx). destruct (B e' He') as (e & He & G). destruct (H e e' G) as [_ H2].
    destruct (H2 x Hx) as (x' & Hx' & Gx). exists x'. split; [apply in_flat_map; eauto|exact Gx].
Qed.
Lemma sim_binds : forall a (rs : list (row_of (d_val D))) e e', agree e e' -> sim (map (fun r => bind D a r e) rs) (map (fun r => bind D a r e') rs).
Proof.
  intros a rs e e' A. split; intros x Hx; apply in_map_iff in Hx as (r & <- & Hr); eexists; (split; [apply in_map_iff; eauto|]); apply agree_bind, A.
Qed.
Lemma sim_app : forall a b c d, sim a b -> sim c d -> sim (a ++ c) (b ++ d).
Proof.
  intros a b c d [A1 A2] [B1 B2]. split; intros x Hx; apply in_app_or in Hx as [Hx|Hx].
  - destruct (A1 x Hx) as (y & Hy & G). exists y. split; [apply in_or_app; auto|exact G].
  - destruct (B1 x Hx) as (y & Hy & G). exists y. split; [apply in_or_app; auto|exact G].
  - destruct (A2 x Hx) as (y & Hy & G). exists y. split; [apply in_or_app; auto|exact G].
  - destruct (B2 x Hx) as (y & Hy & G). exists y. split; [apply in_or_app; auto|exact G].
Qed.
Lemma sim_refl : forall l, sim l l.
Proof. intros l. split; intros e He; exists e; (split; [exact He|intros a _; reflexivity]). Qed.
Lemma matched_sim : forall j l l', In j (m_joins m) -> appears j = true -> sim l l' -> sim (matched D j l) (matched D j l').
Proof.
  intros j l l' Hj Ha S. apply sim_flat; [exact S|]. intros e e' A. rewrite (partners_same j e e' Hj Ha A). apply sim_binds, A.
Qed.
Lemma matched_null_sim : forall j l l', In j (m_joins m) -> appears j = true -> sim l l' -> sim (matched_or_null D j l) (matched_or_null D j l').
Proof.
  intros j l l' Hj Ha S. apply sim_flat; [exact S|]. intros e e' A. rewrite (partners_same j e e' Hj Ha A).
  destruct (partners D j e') as [|r rs]; [apply (sim_binds _ [no_row D]), A|apply (sim_binds _ (r :: rs)), A].
Qed.
Lemma strangers_same : forall j l l', In j (m_joins m) -> appears j = true -> sim l l' -> strangers D j l = strangers D j l'.
Proof.
  intros j l l' Hj Ha [S1 S2]. unfold strangers. f_equal. apply filter_ext. intro r. f_equal.
  apply Bool.eq_true_iff_eq. rewrite !existsb_exists. split.
  - intros (e & He & H). destruct (S1 e He) as (e' & He' & A). exists e'. split; [exact He'|]. rewrite <- (on_same j e e' r Hj Ha A). exact H.
  - intros (e' & He' & H). destruct (S2 e' He') as (e & He & A). exists e. split; [exact He|]. rewrite (on_same j e e' r Hj Ha A). exact H.
Qed.
Lemma kept_sim : forall j l l', In j (m_joins m) -> appears j = true -> sim l l' -> sim (join_rows D l j) (join_rows D l' j).
Proof.
  intros j l l' Hj Ha S. unfold join_rows. destruct (j_kind j).
  - apply matched_sim; assumption.
  - apply matched_null_sim; assumption.
  - rewrite (strangers_same j l l' Hj Ha S). apply sim_app; [apply matched_sim; assumption|apply sim_refl].
  - rewrite (strangers_same j l l' Hj Ha S). apply sim_app; [apply matched_null_sim; assumption|apply sim_refl].
  - apply matched_null_sim; assumption.
Qed.
Lemma left_out_sim : forall j l l', In j (m_joins m) -> appears j = false -> sim l l' -> sim (join_rows D l j) l'.
Proof.
  intros j l l' Hj Ha [S1 S2]. assert (Hh : hidden (known_as (j_table j))) by (exists j; auto).
  assert (E : join_rows D l j = matched_or_null D j l) by (unfold join_rows, appears in *; destruct (j_kind j); try discriminate Ha; reflexivity). rewrite E.
  split.
  - intros x Hx. apply in_flat_map in Hx as (e & He & Hx). destruct (S1 e He) as (e' & He' & A). exists e'. split; [exact He'|].
    destruct (partners D j e) as [|r rs].
    + destruct Hx as [<-|[]]. apply agree_bind_hidden; assumption.
    + apply in_map_iff in Hx as (r0 & <- & _). apply agree_bind_hidden; assumption.
  - intros e' He'. destruct (S2 e' He') as (e & He & A). destruct (partners D j e) as [|r rs] eqn:P.
    + exists (bind D (known_as (j_table j)) (no_row D) e). split; [|apply agree_bind_hidden; assumption]. apply in_flat_map. exists e. split; [exact He|]. rewrite P. left. reflexivity.
    + exists (bind D (known_as (j_table j)) r e). split; [|apply agree_bind_hidden; assumption]. apply in_flat_map. exists e. split; [exact He|]. rewrite P. left. reflexivity.
Qed.
Lemma joins_sim : forall js l l', incl js (m_joins m) -> sim l l' -> sim (fold_left (join_rows D) js l) (fold_left (join_rows D) (filter appears js) l').
Proof.
  induction js as [|j js IH]; intros l l' Hi S; [exact S|]. cbn [fold_left filter]. assert (Hj : In j (m_joins m)) by (apply Hi; left; reflexivity).
  assert (Hi' : incl js (m_joins m)) by (intros x Hx; apply Hi; right; exact Hx).
  destruct (appears j) eqn:E; cbn [fold_left]; apply IH; try exact Hi'; [apply kept_sim|apply left_out_sim]; assumption.
Qed.
Lemma from_sim : sim (from_rows D m) (from_rows D (trimmed m)).
Proof. unfold from_rows. cbn [m_joins m_main trimmed]. apply joins_sim; [apply incl_refl|apply sim_refl]. Qed.
Lemma where_sim : sim (where_rows D m ts) (where_rows D (trimmed m) ts).
Proof.
  destruct from_sim as [S1 S2]. unfold where_rows.
  assert (G : forall e e', agree e e' -> forallb (fun t => snd t (col_value D [e] (fst t))) ts = forallb (fun t => snd t (col_value D [e'] (fst t))) ts).
  { intros e e' A. apply Bool.eq_true_iff_eq. rewrite !forallb_forall. assert (K : forall x, In x ts -> col_value D [e] (fst x) = col_value D [e'] (fst x)).
    { intros x Hx. apply agree_col; [exact A|]. apply clause_safe. apply in_or_app; right; apply in_or_app; left; apply in_map; exact Hx. }
    split; intros H x Hx; [rewrite <- (K x Hx)|rewrite (K x Hx)]; apply H, Hx. }
  split.
  - intros e He. apply filter_In in He as [He F]. destruct (S1 e He) as (e' & He' & A). exists e'. split; [|exact A]. apply filter_In. split; [exact He'|]. rewrite <- (G e e' A). exact F.
  - intros e' He'. apply filter_In in He' as [He' F]. destruct (S2 e' He') as (e & He & A). exists e. split; [|exact A]. apply filter_In. split; [exact He|]. rewrite (G e e' A). exact F.
Qed.
End Trim.

(** With everything selected grouped by, the rows of the result are those of
    single rows. *)
Section Groups.
Variable D : database.
Variable m : stmt.
Hypothesis Hless : tableless D m.
Definition row_result (m : stmt) (e : rows_of (d_val D)) : result_row D :=
  (map (col_value D [e]) (m_cols m), map (fun o => col_value D [e] (fst o)) (m_orders m)).
Lemma add_groups : forall cs es gs,
  (forall g, In g gs -> g <> []) ->
  let gs' := fold_left (fun gs e => add_to D cs e gs) es gs in
  (forall g, In g gs' -> g <> [] /\ ((exists g0, In g0 gs /\ hd (no_rows D) g = hd (no_rows D) g0) \/ In (hd (no_rows D) g) es)) /\
  (forall g0, In g0 gs -> exists g, In g gs' /\ hd (no_rows D) g = hd (no_rows D) g0) /\
  (forall e, In e es -> exists g, In g gs' /\ (same_key D cs (hd (no_rows D) g) e = true \/ hd (no_rows D) g = e)).
Proof.
  intros cs. induction es as [|e es IH]; intros gs Hne; cbn [fold_left]; cbv zeta.
  - split; [intros g Hg; split; [apply Hne, Hg|left; eauto]|]. split; [eauto|intros e []].
  - assert (K : forall gs, (forall g, In g gs -> g <> []) ->
      (forall g, In g (add_to D cs e gs) -> g <> [] /\ ((exists g0, In g0 gs /\ hd (no_rows D) g = hd (no_rows D) g0) \/ hd (no_rows D) g = e)) /\
      (forall g0, In g0 gs -> exists g, In g (add_to D cs e gs) /\ hd (no_rows D) g = hd (no_rows D) g0) /\
      (exists g, In g (add_to D cs e gs) /\ (same_key D cs (hd (no_rows D) g) e = true \/ hd (no_rows D) g = e))).
    { clear. induction gs as [|g gs IH]; intro Hne; cbn [add_to].
      - split; [intros g [<-|[]]; split; [discriminate|right; reflexivity]|]. split; [intros g []|]. exists [e]. split; [left; reflexivity|right; reflexivity].
      - assert (Hh : hd (no_rows D) (g ++ [e]) = hd (no_rows D) g) by (specialize (Hne g (or_introl eq_refl)); destruct g; [congruence|reflexivity]).
        destruct (same_key D cs (hd (no_rows D) g) e) eqn:E.
        + split; [|split].
          * intros x [<-|Hx]; [split; [destruct g; discriminate|left; exists g; split; [left; reflexivity|exact Hh]]|].
            split; [apply Hne; right; exact Hx|left; exists x; split; [right; exact Hx|reflexivity]].
          * intros x [<-|Hx]; [exists (g ++ [e])%list; split; [left; reflexivity|exact Hh]|exists x; split; [right; exact Hx|reflexivity]].
          * exists (g ++ [e])%list. split; [left; reflexivity|left]. rewrite Hh. exact E.
        + destruct IH as (I1 & I2 & I3); [intros x Hx; apply Hne; right; exact Hx|]. split; [|split].
          * intros x [<-|Hx]; [split; [apply Hne; left; reflexivity|left; exists g; split; [left; reflexivity|reflexivity]]|].
            destruct (I1 x Hx) as [N [(g0 & Hg & E0)|E0]]; (split; [exact N|]); [left; exists g0; split; [right; exact Hg|exact E0]|right; exact E0].
          * intros x [<-|Hx]; [exists g; split; [left; reflexivity|reflexivity]|]. destruct (I2 x Hx) as (y & Hy & Ey). exists y. split; [right; exact Hy|exact Ey].
          * destruct I3 as (y & Hy & Ey). exists y. split; [right; exact Hy|exact Ey]. }
    destruct (K gs Hne) as (K1 & K2 & K3). destruct (IH (add_to D cs e gs)) as (I1 & I2 & I3); [intros g Hg; apply K1, Hg|]. cbv zeta in I1, I2, I3. split; [|split].
    + intros g Hg. destruct (I1 g Hg) as [N [(g1 & Hg1 & E1)|E1]]; (split; [exact N|]); [|right; right; exact E1].
      destruct (K1 g1 Hg1) as [_ [(g0 & Hg0 & E0)|E0]]; [left; exists g0; split; [exact Hg0|congruence]|right; left; congruence].
    + intros g0 Hg0. destruct (K2 g0 Hg0) as (g1 & Hg1 & E1). destruct (I2 g1 Hg1) as (g & Hg & E). exists g. split; [exact Hg|congruence].
    + intros x [<-|Hx]; [|apply I3, Hx]. destruct K3 as (g1 & Hg1 & E1). destruct (I2 g1 Hg1) as (g & Hg & E). exists g. split; [exact Hg|]. rewrite E. exact E1.
Qed.
Lemma hd_value : forall g c, g <> [] -> In c (m_used m) -> col_value D g c = col_value D [hd (no_rows D) g] c.
Proof.
  intros g c Hg Hc. unfold col_value. destruct (is_empty (fst c)) eqn:E; [apply Hless; [exact Hc|apply empty_eq, E]|]. destruct g; [congruence|reflexivity].
Qed.
Lemma same_values : forall cs a b c, same_key D cs a b = true -> In c cs -> col_value D [a] c = col_value D [b] c.
Proof. intros cs a b c H Hc. unfold same_key in H. rewrite forallb_forall in H. apply (d_same_ok D). apply H, Hc. Qed.
Lemma results_rows : forall m' ts, m_cols m' = m_cols m -> m_orders m' = m_orders m -> m_groups m' = m_groups m -> by_groups m ->
  forall x, In x (results_where D m' ts) <-> exists e, In e (where_rows D m' ts) /\ x = row_result m e.
Proof.
  intros m' ts E1 E2 E3 Hg x. unfold results_where. rewrite E1, E2. unfold groups_of. rewrite E3.
  assert (U : forall c, In c (m_cols m ++ map fst (m_orders m))%list -> In c (m_used m)).
  { intros c Hc. unfold m_used. apply in_app_or in Hc as [Hc|Hc]; [apply in_or_app; left; exact Hc|]. do 3 (apply in_or_app; right). apply in_or_app. left. exact Hc. }
  assert (R : forall g e, (forall c, In c (m_cols m ++ map fst (m_orders m))%list -> col_value D g c = col_value D [e] c) ->
    (map (col_value D g) (m_cols m), map (fun o => col_value D g (fst o)) (m_orders m)) = row_result m e).
  { intros g e H. unfold row_result. f_equal.
    - apply map_ext_in. intros c Hc. apply H, in_or_app. left. exact Hc.
    - apply map_ext_in. intros o Ho. apply H, in_or_app. right. apply in_map. exact Ho. }
  destruct (m_groups m) as [|c0 cs0] eqn:Eg.
  - rewrite map_map. split.
    + intro H. apply in_map_iff in H as (e & <- & He). exists e. split; [exact He|reflexivity].
    + intros (e & He & ->). apply in_map_iff. exists e. split; [reflexivity|exact He].
  - destruct Hg as [Hg|Hg]; [congruence|]. rewrite Eg in Hg. set (cs := c0 :: cs0) in *.
    destruct (add_groups cs (where_rows D m' ts) [] ltac:(intros ? [])) as (G1 & _ & G3). cbv zeta in G1, G3. split.
    + intro H. apply in_map_iff in H as (g & <- & Hi). destruct (G1 g Hi) as [N [(g0 & [] & _)|He]]. exists (hd (no_rows D) g). split; [exact He|].
      apply R. intros c Hc. apply hd_value; [exact N|apply U, Hc].
    + intros (e & He & ->). destruct (G3 e He) as (g & Hi & K). apply in_map_iff. exists g. split; [|exact Hi].
      apply R. intros c Hc. rewrite (hd_value g c); [|apply G1, Hi|apply U, Hc].
      destruct K as [K| ->]; [|reflexivity]. apply (same_values cs _ _ c K). apply Hg, Hc.
Qed.
End Groups.

Theorem trimmed_results : forall D m ts, shown_ok m (map fst ts) -> closed m -> tableless_cols D (m_used m ++ map fst ts) -> by_groups m ->
  forall x, In x (results_where D (trimmed m) ts) <-> In x (results_where D m ts).
Proof.
  intros D m ts Hs Hc Hl Hg x. assert (Hl' : tableless D m) by (intros c g g' Hi; apply Hl, in_or_app; left; exact Hi).
  rewrite (results_rows D m Hl' m ts eq_refl eq_refl eq_refl Hg x).
  rewrite (results_rows D m Hl' (trimmed m) ts eq_refl eq_refl eq_refl Hg x).
  destruct (where_sim D m ts Hs Hc Hl) as [S1 S2].
  assert (G : forall e e', agree D m e e' -> row_result D m e = row_result D m e').
  { intros e e' A. unfold row_result. f_equal; apply map_ext_in.
    - intros c Hi. apply (agree_col D m ts Hl); [exact A|]. apply (clause_safe D m ts Hs). apply in_or_app. left. exact Hi.
    - intros o Hi. apply (agree_col D m ts Hl); [exact A|]. apply (clause_safe D m ts Hs). do 3 (apply in_or_app; right). apply in_map. exact Hi. }
  split.
  - intros (e' & He' & ->). destruct (S2 e' He') as (e & He & A). exists e. split; [exact He|]. symmetry. apply G, A.
  - intros (e & He & ->). destruct (S1 e He) as (e' & He' & A). exists e'. split; [exact He'|]. apply G, A.
Qed.
Lemma trimmed_plain : forall m cs, shown_ok m cs -> m_distinct m = false -> trimmed m = m.
Proof.
  intros m cs Hs Hd. assert (E : m_shown m = m_joins m).
  { unfold m_shown. assert (G : forall js, incl js (m_joins m) -> filter appears js = js).
    { induction js as [|j js IH]; intro Hi; [reflexivity|]. cbn [filter]. assert (A : appears j = true).
      { apply (Hs j); [apply Hi; left; reflexivity|]. destruct (j_kind j); try exact I. congruence. }
      rewrite A. f_equal. apply IH. intros x Hx. apply Hi. right. exact Hx. }
    apply G, incl_refl. }
  unfold trimmed. rewrite E. destruct m; reflexivity.
Qed.
Theorem trimmed_where : forall D m ts, shown_ok m (map fst ts) -> closed m -> by_groups m -> tableless_cols D (m_used m ++ map fst ts) ->
  forall l, answers_where D (trimmed m) ts l <-> answers_where D m ts l.
Proof.
  intros D m ts Hs Hc Hg Hl l. destruct (m_distinct m) eqn:Hd; [|rewrite (trimmed_plain m _ Hs Hd); reflexivity].
  pose proof (trimmed_results D m ts Hs Hc Hl Hg) as R. unfold answers_where. cbn [m_distinct m_orders trimmed]. rewrite Hd.
  change (@cut (result_row D) (trimmed m)) with (@cut (result_row D) m).
  split; intros (s & [N H] & S & E); exists s; (split; [split; [exact N|]|split; [exact S|exact E]]); intro x; rewrite H; [apply R|symmetry; apply R].
Qed.
Theorem trimmed_answers : forall m, stmt_ok m -> closed m -> by_groups m -> forall D, tableless D m ->
  forall l, answers D (trimmed m) l <-> answers D m l.
Proof.
  intros m [_ Hs] Hc Hg D Hl l. assert (E : map fst (tests D m) = map cond_col (m_conds m)) by (unfold tests; rewrite map_map; reflexivity).
  unfold answers. change (tests D (trimmed m)) with (tests D m). apply trimmed_where; [rewrite E; exact Hs|exact Hc|exact Hg|].
  rewrite E. intros c g g' Hi. apply Hl. apply in_app_or in Hi as [Hi|Hi]; [exact Hi|]. unfold m_used. apply in_or_app; right; apply in_or_app; left; exact Hi.
Qed.
Theorem trimmed_sql : forall m phs, sql (trimmed m) phs = sql m phs.
Proof.
  intros m phs. assert (E : m_shown (trimmed m) = m_shown m).
  { unfold m_shown, trimmed. cbn [m_joins]. unfold m_shown. induction (m_joins m) as [|j js IH]; [reflexivity|]. cbn [filter]. destruct (appears j) eqn:A; [cbn [filter]; rewrite A, IH; reflexivity|exact IH]. }
  unfold sql. rewrite E. reflexivity.
Qed.
Theorem trimmed_text : forall m os style, style <> style_dollar -> stmt_ok m -> describes os m ->
  exists q, apply_ops os new_qb = ROk q /\
    forall n, 5 + m_size m <= n ->
      fst (build_query n style [q] (BQuery (Some 0))) = ROk (sql (trimmed m) (map (fun _ => "?") (m_args m)), m_args m).
Proof. intros m os style Hs Hok Hd. rewrite trimmed_sql. exact (query_sql_question m os style Hs Hok Hd). Qed.
