(** Proofs for Prop_joinorder.v: the order of joins. *)
From Coq Require Import Strings.String Strings.Ascii NArith ZArith List Bool Lia Sorting.Permutation Sorting.Sorted.
From Verif Require Import GoStr GoNum Syntax Value Util Model Sqlf Sqlb Spec_syntax RefSem Spec_build
  Spec_util Spec_eval Spec_query Spec_sql Spec_interp Sql_proofs Spec_answer Answer_proofs Exec_proofs Dedup_proofs Regroup_proofs Spec_sqltok Spec_read Spec_exec Spec_joinorder.
Import ListNotations.
Open Scope string_scope.
Open Scope list_scope.

(** ** Lists *)
Lemma flat_cons : forall A C (h : A -> C) k l, Permutation (flat_map (fun y => h y :: k y) l) (map h l ++ flat_map k l).
Proof.
  intros A C h k l. induction l as [|y l IH]; [constructor|]. cbn [flat_map map app]. constructor.
  rewrite IH. rewrite !app_assoc. apply Permutation_app_tail, Permutation_app_comm.
Qed.
Lemma flat_product : forall A B C (f : A -> B -> C) X Y, Permutation (flat_map (fun x => map (f x) Y) X) (flat_map (fun y => map (fun x => f x y) X) Y).
Proof.
  intros A B C f X Y. induction X as [|x X IH]; cbn [flat_map map].
  - induction Y as [|y Y IH]; [constructor|exact IH].
  - rewrite IH. symmetry. apply (flat_cons _ _ (f x) (fun y => map (fun x => f x y) X)).
Qed.
Lemma flat_of_map : forall A B C (f : B -> list C) (g : A -> B) l, flat_map f (map g l) = flat_map (fun x => f (g x)) l.
Proof. intros A B C f g l. induction l as [|x l IH]; [reflexivity|]. cbn [map flat_map]. rewrite IH. reflexivity. Qed.
Lemma flat_of_flat : forall A B C (f : B -> list C) (g : A -> list B) l, flat_map f (flat_map g l) = flat_map (fun x => flat_map f (g x)) l.
Proof. intros A B C f g l. induction l as [|x l IH]; [reflexivity|]. cbn [flat_map]. rewrite flat_map_app, IH. reflexivity. Qed.
Lemma flat_ext_in : forall A C (f g : A -> list C) l, (forall x, f x = g x) -> flat_map f l = flat_map g l.
Proof. intros A C f g l H. induction l as [|x l IH]; [reflexivity|]. cbn [flat_map]. rewrite H, IH. reflexivity. Qed.

(** ** Rows in another order *)
Section Db.
Variable D : database.
Let rows := rows_of (d_val D).
Definition same (e e' : rows) : Prop := forall a, e a = e' a.
Definition still (c : col) : Prop := fst c = "" -> forall g g', d_expr D (snd c) g = d_expr D (snd c) g'.
Inductive moved : list rows -> list rows -> Prop :=
| mv_nil : moved [] []
| mv_skip x y l l' : same x y -> moved l l' -> moved (x :: l) (y :: l')
| mv_swap x y l : moved (x :: y :: l) (y :: x :: l)
| mv_trans a b c : moved a b -> moved b c -> moved a c.
Lemma same_refl : forall e, same e e.
Proof. intros e a. reflexivity. Qed.
Lemma mv_refl : forall l, moved l l.
Proof. induction l; constructor; [apply same_refl|assumption]. Qed.
Lemma mv_perm : forall l l', Permutation l l' -> moved l l'.
Proof. intros l l' P. induction P; [constructor|apply mv_skip; [apply same_refl|assumption]|apply mv_swap|eapply mv_trans; eassumption]. Qed.
Lemma mv_app : forall a a' b b', moved a a' -> moved b b' -> moved (a ++ b) (a' ++ b').
Proof.
  intros a a' b b' F G. apply mv_trans with (a' ++ b).
  - induction F as [|x y l l' S F IH|x y l|x y z _ IH1 _ IH2]; cbn [app]; [apply mv_refl|apply mv_skip; assumption|apply mv_swap|eapply mv_trans; eassumption].
  - clear F. induction a' as [|x a' IH]; [exact G|]. cbn [app]. constructor; [apply same_refl|exact IH].
Qed.
Lemma mv_flat : forall f l l', (forall x y, same x y -> moved (f x) (f y)) -> moved l l' -> moved (flat_map f l) (flat_map f l').
Proof.
  intros f l l' H F. induction F as [|x y l l' S F IH|x y l|x y z _ IH1 _ IH2]; cbn [flat_map]; [constructor|apply mv_app; auto| |eapply mv_trans; eassumption].
  apply mv_perm. rewrite !app_assoc. apply Permutation_app_tail, Permutation_app_comm.
Qed.
Lemma mv_flat_ext : forall A (f g : A -> list rows) l, (forall x, moved (f x) (g x)) -> moved (flat_map f l) (flat_map g l).
Proof. intros A f g l H. induction l; cbn [flat_map]; [constructor|apply mv_app; auto]. Qed.
Lemma mv_maps : forall A (f g : A -> rows) l, (forall x, same (f x) (g x)) -> moved (map f l) (map g l).
Proof. intros A f g l H. induction l; cbn [map]; constructor; auto. Qed.
Lemma mv_filter : forall p l l', (forall x y, same x y -> p x = p y) -> moved l l' -> moved (filter p l) (filter p l').
Proof.
  intros p l l' H F. induction F as [|x y l l' S F IH|x y l|x y z _ IH1 _ IH2]; cbn [filter]; [constructor| | |eapply mv_trans; eassumption].
  - rewrite (H x y S). destruct (p y); [constructor; assumption|assumption].
  - destruct (p x), (p y); try (apply mv_refl). apply mv_swap.
Qed.
Lemma mv_exists : forall p l l', (forall x y, same x y -> p x = p y) -> moved l l' -> existsb p l = existsb p l'.
Proof.
  intros p l l' H F. induction F as [|x y l l' S F IH|x y l|x y z _ IH1 _ IH2]; cbn [existsb]; [reflexivity| | |congruence].
  - rewrite (H x y S), IH. reflexivity.
  - destruct (p x), (p y); reflexivity.
Qed.
Lemma mv_map : forall A (f : rows -> A) l l', (forall x y, same x y -> f x = f y) -> moved l l' -> Permutation (map f l) (map f l').
Proof.
  intros A f l l' H F. induction F as [|x y l l' S F IH|x y l|x y z _ IH1 _ IH2]; cbn [map]; [constructor| |apply perm_swap|etransitivity; eassumption].
  rewrite (H x y S). constructor. exact IH.
Qed.

(** ** Joins *)
Lemma same_bind : forall a r e e', same e e' -> same (bind D a r e) (bind D a r e').
Proof. intros a r e e' H x. unfold bind. destruct (String.eqb x a); [reflexivity|apply H]. Qed.
Lemma same_col : forall c e e', still c -> same e e' -> col_value D [e] c = col_value D [e'] c.
Proof.
  intros c e e' S H. unfold col_value. destruct (is_empty (fst c)) eqn:E; [apply S; destruct (fst c); [reflexivity|discriminate]|]. cbn [hd]. rewrite (H (fst c)). reflexivity.
Qed.
Definition still_join (j : join) : Prop := still (j_left j) /\ still (j_right j).
Lemma same_on : forall j e e' r, still_join j -> same e e' -> on_holds D j e r = on_holds D j e' r.
Proof.
  intros j e e' r [Sl Sr] H. unfold on_holds. cbv zeta. pose proof (same_bind (known_as (j_table j)) r e e' H) as K.
  apply (f_equal2 (d_equal D)); apply same_col; assumption.
Qed.
Lemma same_partners : forall j e e', still_join j -> same e e' -> partners D j e = partners D j e'.
Proof. intros j e e' S H. apply filter_ext. intros r. apply same_on; assumption. Qed.
Lemma join_moved : forall j es es', still_join j -> moved es es' -> moved (join_rows D es j) (join_rows D es' j).
Proof.
  intros j es es' S F.
  assert (M : moved (matched D j es) (matched D j es')).
  { apply mv_flat; [|exact F]. intros x y H. rewrite (same_partners j x y S H). apply mv_maps. intros r. apply same_bind, H. }
  assert (N : moved (matched_or_null D j es) (matched_or_null D j es')).
  { apply mv_flat; [|exact F]. intros x y H. rewrite (same_partners j x y S H). destruct (partners D j y) as [|r rs]; [constructor; [apply same_bind, H|constructor]|].
    apply (mv_maps _ _ _ (r :: rs)). intros r'. apply same_bind, H. }
  assert (K : strangers D j es = strangers D j es').
  { unfold strangers. f_equal. apply filter_ext. intros r. f_equal. apply mv_exists; [|exact F]. intros x y H. apply same_on; assumption. }
  unfold join_rows. destruct (j_kind j); try assumption; rewrite K; apply mv_app; try assumption; apply mv_refl.
Qed.
Definition choices (j : join) (e : rows) : list (row_of (d_val D)) :=
  match j_kind j with JInner => partners D j e | _ => match partners D j e with [] => [no_row D] | rs => rs end end.
Lemma join_choices : forall j es, one_sided j -> join_rows D es j = flat_map (fun e => map (fun r => bind D (known_as (j_table j)) r e) (choices j e)) es.
Proof.
  intros [k t l r] es O. unfold one_sided in O. cbn [j_kind] in O. unfold join_rows, choices, matched, matched_or_null. cbn [j_kind].
  destruct k; try (destruct O; fail); try reflexivity; apply flat_ext_in; intros e; destruct (partners D _ e); reflexivity.
Qed.
Lemma col_apart : forall c b r a x e, still c -> fst c <> b -> col_value D [bind D a x (bind D b r e)] c = col_value D [bind D a x e] c.
Proof.
  intros c b r a x e S N. unfold col_value. destruct (is_empty (fst c)) eqn:E; [apply S; destruct (fst c); [reflexivity|discriminate]|]. cbn [hd]. unfold bind.
  destruct (String.eqb (fst c) a); [reflexivity|]. destruct (String.eqb (fst c) b) eqn:K; [apply String.eqb_eq in K; contradiction|reflexivity].
Qed.
Lemma choices_apart : forall j b r e, still_join j -> ~ mentions j b -> choices j (bind D b r e) = choices j e.
Proof.
  intros j b r e [Sl Sr] N. assert (P : partners D j (bind D b r e) = partners D j e).
  { apply filter_ext. intros x. unfold on_holds. cbv zeta. apply (f_equal2 (d_equal D)); apply col_apart; try assumption; intros K; apply N; [left|right]; exact K. }
  unfold choices. rewrite P. reflexivity.
Qed.
Lemma bind_apart : forall a b r r' e, a <> b -> same (bind D a r (bind D b r' e)) (bind D b r' (bind D a r e)).
Proof.
  intros a b r r' e N x. unfold bind. destruct (String.eqb x a) eqn:Ea, (String.eqb x b) eqn:Eb; try reflexivity.
  apply String.eqb_eq in Ea, Eb. congruence.
Qed.
Lemma joins_swap : forall j1 j2 es, still_join j1 -> still_join j2 -> one_sided j1 -> one_sided j2 -> known_as (j_table j1) <> known_as (j_table j2) ->
  ~ mentions j1 (known_as (j_table j2)) -> ~ mentions j2 (known_as (j_table j1)) ->
  moved (join_rows D (join_rows D es j1) j2) (join_rows D (join_rows D es j2) j1).
Proof.
  intros j1 j2 es S1 S2 O1 O2 N M1 M2. rewrite (join_choices j1 es O1), (join_choices j2 es O2), (join_choices j1 _ O1), (join_choices j2 _ O2), !flat_of_flat.
  apply mv_flat_ext. intros e. rewrite !flat_of_map.
  rewrite (flat_ext_in _ _ _ (fun r => map (fun r' => bind D (known_as (j_table j2)) r' (bind D (known_as (j_table j1)) r e)) (choices j2 e)) (choices j1 e)); [|intros r; rewrite (choices_apart j2 _ r e S2 M2); reflexivity].
  rewrite (flat_ext_in _ _ _ (fun r' => map (fun r => bind D (known_as (j_table j1)) r (bind D (known_as (j_table j2)) r' e)) (choices j1 e)) (choices j2 e)); [|intros r; rewrite (choices_apart j1 _ r e S1 M1); reflexivity].
  eapply mv_trans; [apply mv_perm, (flat_product _ _ _ (fun r r' => bind D (known_as (j_table j2)) r' (bind D (known_as (j_table j1)) r e)))|].
  apply mv_flat_ext. intros r'. apply mv_maps. intros r. apply bind_apart. intros K. apply N. symmetry. exact K.
Qed.
Lemma joins_moved_cong : forall js es es', Forall still_join js -> moved es es' -> moved (fold_left (join_rows D) js es) (fold_left (join_rows D) js es').
Proof. induction js as [|j js IH]; intros es es' S F; [exact F|]. inversion S; subst. cbn [fold_left]. apply IH; [assumption|]. apply join_moved; assumption. Qed.
Lemma rejoined_perm : forall js js', rejoined js js' -> Permutation js js'.
Proof. intros js js' R. induction R; [reflexivity|apply Permutation_app_head, perm_swap|etransitivity; eassumption]. Qed.
Lemma rejoined_rows : forall js js', rejoined js js' -> Forall still_join js -> NoDup (map (fun j => known_as (j_table j)) js) -> forall es, moved (fold_left (join_rows D) js es) (fold_left (join_rows D) js' es).
Proof.
  intros js js' R. induction R as [js|pre j1 j2 post O1 O2 M1 M2|a b c R1 IH1 R2 IH2]; intros S N es.
  - apply mv_refl.
  - rewrite !fold_left_app. cbn [fold_left]. apply Forall_app in S. destruct S as [_ S]. inversion S as [|? ? S1 S']; subst. inversion S' as [|? ? S2 S3]; subst. apply joins_moved_cong; [exact S3|].
    apply joins_swap; try assumption. rewrite map_app in N. apply NoDup_remove_2 in N. cbn [map] in N. intros K. apply N. apply in_or_app. right. left. symmetry. exact K.
  - pose proof (rejoined_perm _ _ R1) as P. eapply mv_trans; [apply IH1; assumption|]. apply IH2.
    + rewrite Forall_forall in *. intros j Hj. apply S. apply (Permutation_in j (Permutation_sym P) Hj).
    + apply (Permutation_NoDup (Permutation_map _ P)), N.
Qed.

(** ** Results *)
Lemma in_keys : forall cs (es : list rows) k, In k (map (key D cs) (fold_left (fun gs e => add_to D cs e gs) es [])) <-> In k (map (fun e => map (col_value D [e]) cs) es).
Proof.
  intros cs es k. destruct (add_groups D cs es [] ltac:(intros ? [])) as (G1 & _ & G3). cbv zeta in G1, G3. rewrite !in_map_iff. split.
  - intros (g & <- & Hg). destruct (G1 g Hg) as [_ [(g0 & [] & _)|He]]. exists (hd (no_rows D) g). split; [reflexivity|exact He].
  - intros (e & <- & He). destruct (G3 e He) as (g & Hg & K). exists g. split; [|exact Hg]. unfold key. destruct K as [K| ->]; [apply (same_key_iff D); exact K|reflexivity].
Qed.
Lemma moved_results : forall m m', m_cols m' = m_cols m -> m_groups m' = m_groups m -> m_orders m' = m_orders m -> m_conds m' = m_conds m -> by_groups m ->
  (forall c, In c (m_cols m ++ map cond_col (m_conds m) ++ m_groups m ++ map fst (m_orders m)) -> still c) ->
  moved (from_rows D m) (from_rows D m') -> Permutation (results D m') (results D m).
Proof.
  intros m m' Es Eg Eo Ec By St F. symmetry.
  assert (W : moved (where_rows D m (tests D m)) (where_rows D m' (tests D m'))).
  { unfold where_rows. replace (tests D m') with (tests D m) by (unfold tests; rewrite Ec; reflexivity). apply mv_filter; [|exact F]. intros x y H. unfold tests.
    assert (Q : forall l, incl l (m_conds m) -> forallb (fun t => snd t (col_value D [x] (fst t))) (map (fun c => (cond_col c, d_holds D c)) l) = forallb (fun t => snd t (col_value D [y] (fst t))) (map (fun c => (cond_col c, d_holds D c)) l)).
    { intros l. induction l as [|c l IH]; intros Hl; [reflexivity|]. cbn [map forallb fst snd]. rewrite IH; [|intros z Hz; apply Hl; right; exact Hz]. f_equal. f_equal. apply same_col; [|exact H].
      apply St. rewrite !in_app_iff. right. left. apply in_map, Hl. left. reflexivity. }
    apply Q, incl_refl. }
  unfold results, results_where. rewrite Es, Eo.
  set (f := fun g : list rows => (map (col_value D g) (m_cols m), map (fun o => col_value D g (fst o)) (m_orders m))).
  assert (Sc : forall c, In c (m_cols m ++ map fst (m_orders m)) -> still c) by (intros c Hc; apply St; rewrite !in_app_iff in *; tauto).
  assert (Ff : forall g g', (forall c, In c (m_cols m ++ map fst (m_orders m)) -> col_value D g c = col_value D g' c) -> f g = f g').
  { intros g g' H. unfold f. f_equal; apply map_ext_in; intros c Hc; apply H, in_or_app; [left; exact Hc|right; apply in_map, Hc]. }
  unfold groups_of. rewrite Eg. destruct (m_groups m) as [|c cs] eqn:Egs.
  - rewrite !map_map. apply (mv_map _ (fun e => f [e])); [|exact W]. intros x y H. apply Ff. intros c Hc. apply same_col; [apply Sc, Hc|exact H].
  - set (gs := c :: cs) in *. destruct By as [By|By]; [subst gs; congruence|]. rewrite Egs in By.
    set (G := fold_left (fun gs0 e => add_to D gs e gs0) (where_rows D m (tests D m)) []). set (G' := fold_left (fun gs0 e => add_to D gs e gs0) (where_rows D m' (tests D m')) []).
    destruct (groups_apart D gs (where_rows D m (tests D m)) [] (fun g H => match H with end) (NoDup_nil _)) as [N Fu].
    destruct (groups_apart D gs (where_rows D m' (tests D m')) [] (fun g H => match H with end) (NoDup_nil _)) as [N' Fu'].
    cbv zeta in N, N', Fu, Fu'. fold G in N, Fu. fold G' in N', Fu'.
    assert (P : Permutation (map (key D gs) G) (map (key D gs) G')).
    { apply NoDup_Permutation; [exact N|exact N'|]. intros k. unfold G, G'. rewrite !in_keys.
      assert (Z : Permutation (map (fun e => map (col_value D [e]) gs) (where_rows D m (tests D m))) (map (fun e => map (col_value D [e]) gs) (where_rows D m' (tests D m')))).
      { apply mv_map; [|exact W]. intros x y H. apply map_ext_in. intros z Hz. apply same_col; [apply St; rewrite !in_app_iff; tauto|exact H]. }
      split; intros K; [exact (Permutation_in k Z K)|exact (Permutation_in k (Permutation_sym Z) K)]. }
    apply Permutation_map_inv in P. destruct P as (G2 & E & P). change (Permutation (map f G) (map f G')). apply Permutation_trans with (map f G2); [|apply Permutation_map, Permutation_sym, P].
    assert (Fu2 : forall g, In g G2 -> g <> []) by (intros g Hg; apply Fu'; exact (Permutation_in g (Permutation_sym P) Hg)).
    clear P N N' Fu'. clearbody G G'. revert G2 E Fu2. induction G as [|g G IH]; intros [|g2 G2] E Fu2; try discriminate E; [constructor|]. cbn [map] in *. assert (E1 : key D gs g = key D gs g2) by (exact (f_equal (fun l => hd [] l) E)). assert (E2 : map (key D gs) G = map (key D gs) G2) by (exact (f_equal (fun l => tl l) E)).
    rewrite (Ff g g2); [apply perm_skip, IH; [intros x Hx; apply Fu; right; exact Hx|exact E2|intros x Hx; apply Fu2; right; exact Hx]|].
    intros z Hz. assert (Hz' : In z gs) by (apply By, Hz).
    assert (Hd : forall h : list rows, h <> [] -> col_value D h z = col_value D [hd (no_rows D) h] z).
    { intros h Hh. unfold col_value. destruct (is_empty (fst z)) eqn:Ez; [apply (Sc z Hz); destruct (fst z); [reflexivity|discriminate]|destruct h; [congruence|reflexivity]]. }
    rewrite (Hd g (Fu g (or_introl eq_refl))), (Hd g2 (Fu2 g2 (or_introl eq_refl))). exact (maps_agree _ _ _ _ gs E1 z Hz').
Qed.
End Db.

Lemma rejoined_filter : forall p js js', rejoined js js' -> rejoined (filter p js) (filter p js').
Proof.
  intros p js js' R. induction R as [js|pre j1 j2 post O1 O2 M1 M2|a b c R1 IH1 R2 IH2]; [apply rj_same| |eapply rj_more; eassumption].
  rewrite !filter_app. cbn [filter]. destruct (p j1), (p j2); try apply rj_same. apply rj_swap; assumption.
Qed.
Lemma listed_joins : forall E m m' rows, stmt_ok m -> by_groups m -> joins_moved m m' -> tableless (database_of E) m ->
  listed_answers E (trimmed m') rows <-> listed_answers E (trimmed m) rows.
Proof.
  intros E m m' rows [N _] By (Ed & Es & Em & Ej & Ec & Eg & Eo & El & Ef) Tl.
  assert (St : forall c, In c (m_used m) -> still (database_of E) c) by (intros c Hc K g g'; apply (Tl c g g' Hc K)).
  assert (F : moved (database_of E) (from_rows (database_of E) (trimmed m)) (from_rows (database_of E) (trimmed m'))).
  { unfold from_rows. cbn [trimmed m_main m_joins]. rewrite Em. apply rejoined_rows; [apply rejoined_filter, Ej| |].
    - rewrite Forall_forall. intros j Hj. apply filter_In in Hj. destruct Hj as [Hj _]. split; apply St; unfold m_used; rewrite !in_app_iff; do 4 right; [left|right]; apply in_map, Hj.
    - destruct N as (_ & _ & _ & N & _). unfold m_tables in N. inversion N as [|? ? _ N']; subst. unfold m_shown. clear -N'. induction (m_joins m) as [|j js IH]; [constructor|]. cbn [map] in N'. inversion N' as [|? ? Nx N2]; subst.
      cbn [filter]. destruct (appears j); [|apply IH, N2]. cbn [map]. constructor; [|apply IH, N2]. intros K. apply Nx. apply in_map_iff in K. destruct K as (x & Ex & Hx). apply filter_In in Hx. apply in_map_iff. exists x. split; [exact Ex|apply Hx]. }
  assert (P : Permutation (results (database_of E) (trimmed m')) (results (database_of E) (trimmed m))).
  { apply moved_results; cbn [trimmed m_cols m_groups m_orders m_conds]; try assumption. intros c Hc. apply St. unfold m_used. rewrite !in_app_iff in *. tauto. }
  assert (A : forall l, answers (database_of E) (trimmed m') l <-> answers (database_of E) (trimmed m) l).
  { intros l. unfold answers, answers_where. fold (results (database_of E) (trimmed m')). fold (results (database_of E) (trimmed m)). cbn [trimmed m_distinct m_orders]. rewrite Ed, Eo.
    assert (C : forall s : list (result_row (database_of E)), cut (trimmed m') s = cut (trimmed m) s) by (intros s; unfold cut; cbn [trimmed m_limit m_offset]; rewrite El, Ef; reflexivity).
    split; intros (s & H1 & H2 & ->); exists s; (split; [|split; [exact H2|]]); try (apply C); try (symmetry; apply C); (destruct (m_distinct m); [destruct H1 as [H0 H1]; split; [exact H0|]; intros x; rewrite (H1 x)|]).
    - split; intros K; [exact (Permutation_in x P K)|exact (Permutation_in x (Permutation_sym P) K)].
    - etransitivity; eassumption.
    - split; intros K; [exact (Permutation_in x (Permutation_sym P) K)|exact (Permutation_in x P K)].
    - etransitivity; [exact H1|symmetry; exact P]. }
  unfold listed_answers. split; intros (l & H & ->); exists l; (split; [apply A; exact H|]); unfold wide_row; cbn [trimmed m_distinct]; rewrite Ed; reflexivity.
Qed.
Lemma moved_args : forall m m', joins_moved m m' -> m_args m' = m_args m.
Proof. intros m m' (_ & _ & _ & _ & E & _). unfold m_args. rewrite E. reflexivity. Qed.
Theorem joins_question : forall m m' os os' style, style <> style_dollar -> stmt_ok m -> named m -> describes os m -> stmt_ok m' -> named m' -> describes os' m' -> joins_moved m m' -> by_groups m ->
  exists q q', apply_ops os new_qb = ROk q /\ apply_ops os' new_qb = ROk q' /\ forall n, 5 + m_size m <= n -> 5 + m_size m' <= n -> exists s args s' args',
    fst (build_query n style [q] (BQuery (Some 0))) = ROk (s, args) /\ fst (build_query n style [q'] (BQuery (Some 0))) = ROk (s', args') /\
    forall E rows, tableless (database_of E) m -> executes E args' s' rows <-> executes E args s rows.
Proof.
  intros m m' os os' style Hs S Nm D S' Nm' D' B By. destruct (exec_question m os style Hs S Nm D) as (q & A1 & H). destruct (exec_question m' os' style Hs S' Nm' D') as (q' & A1' & H').
  exists q, q'. split; [exact A1|]. split; [exact A1'|]. intros n Hn Hn'. destruct (H n Hn) as (s & args & B1 & X). destruct (H' n Hn') as (s' & args' & B1' & X').
  exists s, args, s', args'. split; [exact B1|]. split; [exact B1'|]. intros E rows Tl. rewrite (X E rows), (X' E rows). apply listed_joins; assumption.
Qed.
Theorem joins_dollar : forall m m' os os', stmt_ok m -> named m -> describes os m -> stmt_ok m' -> named m' -> describes os' m' -> joins_moved m m' -> by_groups m -> forallb hashable (m_args m) = true ->
  exists q q', apply_ops os new_qb = ROk q /\ apply_ops os' new_qb = ROk q' /\ forall n, 5 + m_size m <= n -> 5 + m_size m' <= n -> exists s args s' args',
    fst (build_query n style_dollar [q] (BQuery (Some 0))) = ROk (s, args) /\ fst (build_query n style_dollar [q'] (BQuery (Some 0))) = ROk (s', args') /\
    forall E rows, by_value E -> tableless (database_of E) m -> executes E args' s' rows <-> executes E args s rows.
Proof.
  intros m m' os os' S Nm D S' Nm' D' B By Hh. assert (Hh' : forallb hashable (m_args m') = true) by (rewrite (moved_args m m' B); exact Hh).
  destruct (exec_dollar m os S Nm D Hh) as (q & A1 & H). destruct (exec_dollar m' os' S' Nm' D' Hh') as (q' & A1' & H').
  exists q, q'. split; [exact A1|]. split; [exact A1'|]. intros n Hn Hn'. destruct (H n Hn) as (s & args & B1 & X). destruct (H' n Hn') as (s' & args' & B1' & X').
  exists s, args, s', args'. split; [exact B1|]. split; [exact B1'|]. intros E rows Hv Tl. rewrite (X E rows Hv), (X' E rows Hv). apply listed_joins; assumption.
Qed.
