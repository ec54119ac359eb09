(** Without DISTINCT it does not matter which joins are optional. *)
From Coq Require Import Strings.String Strings.Ascii NArith ZArith List Bool Lia.
From Verif Require Import GoStr GoNum Syntax Value Util Model Sqlf Sqlb Spec_syntax Spec_eval Fuel_proofs Spec_query Deps_proofs Query_proofs Ops_proofs Rel_proofs Query2_proofs Spec_required.
Import ListNotations.
Open Scope string_scope.

Definition plain_ft (ft : from_table) : from_table := mkFT (ft_names ft) (ft_frag ft) false.
Definition retab (q : qb) (o : list from_table) : qb := set_tables q o (q_tables q) (q_tdict q).
Definition sameq (q p : qb) : Prop :=
  exists o, p = retab q o /\ map plain_ft o = map plain_ft (q_tobjs q) /\ (q_distinct q = true -> o = q_tobjs q).
Lemma retab_same : forall q, retab q (q_tobjs q) = q.
Proof. intros [? ? ? ? ? ? ? ? ? ? ? ? ? ? ? ?]. reflexivity. Qed.
Lemma sameq_refl : forall q, sameq q q.
Proof. intros q. exists (q_tobjs q). rewrite retab_same. repeat apply conj; reflexivity. Qed.
Definition near (s t : store) : Prop :=
  st_dollar s = st_dollar t /\ st_args s = st_args t /\ st_dict s = st_dict t /\ Forall2 sameq (st_heap s) (st_heap t).
Lemma forall2_nth : forall (h h' : list qb) id, Forall2 sameq h h' -> sameq (nth id h new_qb) (nth id h' new_qb).
Proof.
  intros h h' id H. revert id. induction H as [|q p h h' Q H IH]; intros [|id]; cbn; try apply sameq_refl; [exact Q|apply IH].
Qed.
Lemma near_get : forall s t id, near s t -> sameq (get_q s id) (get_q t id).
Proof. intros s t id (_ & _ & _ & H). apply forall2_nth. exact H. Qed.
Lemma forall2_upd : forall (h h' : list qb) id q p, Forall2 sameq h h' -> sameq q p -> Forall2 sameq (upd id q h) (upd id p h').
Proof.
  intros h h' id q p H Q. revert id. induction H as [|x y h h' X H IH]; intros [|id]; cbn; constructor; try assumption. apply IH.
Qed.
Lemma near_set : forall s t id q p, near s t -> sameq q p -> near (set_q s id q) (set_q t id p).
Proof.
  intros s t id q p (H1 & H2 & H3 & H4) H. apply conj; [exact H1|]. apply conj; [exact H2|]. apply conj; [exact H3|]. apply forall2_upd; assumption.
Qed.

Lemma plain_nth : forall o o' i, map plain_ft o = map plain_ft o' ->
  match nth_error o i, nth_error o' i with
  | Some a, Some b => ft_names a = ft_names b /\ ft_frag a = ft_frag b
  | None, None => True
  | _, _ => False
  end.
Proof.
  intros o o' i E. pose proof (f_equal (fun l => nth_error l i) E) as N. cbn beta in N. rewrite !nth_error_map in N.
  destruct (nth_error o i), (nth_error o' i); cbn [option_map] in N; try discriminate; [|exact Logic.I].
  injection N as N1 N2. split; [exact N1|exact N2].
Qed.
Section Same.
Variables (q : qb) (o : list from_table).
Hypothesis E : map plain_ft o = map plain_ft (q_tobjs q).
Hypothesis D : q_distinct q = true -> o = q_tobjs q.

Lemma same_table : forall n t d, deps_table n (retab q o) t d = deps_table n q t d.
Proof.
  induction n as [|n IH]; intros t d; [reflexivity|]. rewrite !deps_table_S. change (q_tdict (retab q o)) with (q_tdict q). change (q_tobjs (retab q o)) with o.
  destruct (assoc t (q_tdict q)) as [i|]; [|reflexivity]. pose proof (plain_nth o (q_tobjs q) i E) as N.
  destruct (nth_error o i) as [a|], (nth_error (q_tobjs q) i) as [b|]; try contradiction; [|reflexivity]. destruct N as [N1 N2]. rewrite N1, N2.
  destruct (dep_mem _ _); [reflexivity|].
  destruct (ft_frag b) as [f|]; [|reflexivity]. destruct (extract_frag _ _) as [ts|]; [|reflexivity]. generalize (ft_names b :: d).
  induction ts as [|u ts IHt]; intros d'; cbn [deps_go]; [reflexivity|]. destruct (String.eqb u t); [apply IHt|]. rewrite IH. destruct (deps_table n q u d'); try reflexivity. apply IHt.
Qed.
Lemma same_left : forall a b i d, nth_error o i = Some a -> nth_error (q_tobjs q) i = Some b ->
  q_distinct q && ft_optional a && negb (dep_mem (ft_names a) d) = q_distinct q && ft_optional b && negb (dep_mem (ft_names b) d).
Proof.
  intros a b i d A B. destruct (q_distinct q) eqn:Q; [|reflexivity]. rewrite (D eq_refl), B in A. inversion A. reflexivity.
Qed.
Lemma same_ctes : forall n ids d, deps_ctes n (retab q o) ids d = deps_ctes n q ids d.
Proof.
  intros n. induction ids as [|i ids IH]; intros d; cbn [deps_ctes]; [reflexivity|]. change (q_tobjs (retab q o)) with o. change (q_distinct (retab q o)) with (q_distinct q). change (q_cdict (retab q o)) with (q_cdict q).
  pose proof (plain_nth o (q_tobjs q) i E) as N.
  destruct (nth_error o i) as [a|] eqn:A, (nth_error (q_tobjs q) i) as [b|] eqn:B; try contradiction; [|reflexivity]. destruct N as [N1 N2].
  rewrite (same_left a b i d A B), N1. destruct (_ && _); [apply IH|]. destruct (assoc _ _); [|apply IH].
  rewrite (deps_cte_fields (retab q o) q) by reflexivity. destruct (deps_cte _ _ _ _); try reflexivity. apply IH.
Qed.
Lemma same_collect : collect_deps (retab q o) = collect_deps q.
Proof.
  rewrite !collect_unfold. change (clause_builders (retab q o)) with (clause_builders q). change (q_tables (retab q o)) with (q_tables q).
  assert (F : deps_fuel (retab q o) = deps_fuel q).
  { unfold deps_fuel. cbn [retab set_tables q_tobjs q_cdict]. rewrite <- (map_length plain_ft o), E, map_length. reflexivity. }
  rewrite F. destruct (extract_tables (clause_builders q)); [|reflexivity]. destruct (q_tables q) as [|i ids]; [reflexivity|].
  change (q_tobjs (retab q o)) with o. pose proof (plain_nth o (q_tobjs q) i E) as N.
  destruct (nth_error o i) as [a|], (nth_error (q_tobjs q) i) as [b|]; try contradiction; [|reflexivity]. destruct N as [N1 _]. rewrite N1.
  assert (T : forall n ts d, deps_tables n (retab q o) ts d = deps_tables n q ts d).
  { intros n ts. induction ts as [|t ts IH]; intros d; cbn [deps_tables]; [reflexivity|]. rewrite same_table.
    destruct (deps_table n q t d); try reflexivity. apply IH. }
  rewrite T. destruct (deps_tables _ q _ _); try reflexivity. apply same_ctes.
Qed.
Lemma same_from : forall rb d s, build_from rb (retab q o) d s = build_from rb q d s.
Proof.
  intros rb d s. unfold build_from. change (q_distinct (retab q o)) with (q_distinct q).
  assert (L : forall s, build_from_loop rb (q_distinct q) (from_tables (retab q o)) d s = build_from_loop rb (q_distinct q) (from_tables q) d s); [|rewrite L; reflexivity].
  clear s. unfold from_tables. change (q_tables (retab q o)) with (q_tables q). change (q_tobjs (retab q o)) with o.
  destruct (q_distinct q) eqn:Q; [rewrite (D eq_refl); reflexivity|].
  induction (q_tables q) as [|i ids IH]; intros s; cbn [map build_from_loop andb]; [reflexivity|].
  assert (N : ft_frag (nth i o (mkFT ("", "") None false)) = ft_frag (nth i (q_tobjs q) (mkFT ("", "") None false))).
  { pose proof (f_equal (fun l => ft_frag (nth i l (plain_ft (mkFT ("", "") None false)))) E) as N. cbn beta in N. rewrite !map_nth in N. exact N. }
  assert (N2 : ft_names (nth i o (mkFT ("", "") None false)) = ft_names (nth i (q_tobjs q) (mkFT ("", "") None false))).
  { pose proof (f_equal (fun l => ft_names (nth i l (plain_ft (mkFT ("", "") None false)))) E) as N2. cbn beta in N2. rewrite !map_nth in N2. exact N2. }
  unfold in_from. rewrite N, N2. destruct (build_ofrag rb _ s) as [[]]; try reflexivity. rewrite IH. reflexivity.
Qed.
End Same.

Lemma sameq_orders : forall q p, sameq q p -> sameq (with_orders q) (with_orders p) /\ order_items p = order_items q.
Proof.
  intros q p (o & -> & E & D). split; [|reflexivity]. exists o. apply conj; [reflexivity|]. apply conj; assumption.
Qed.

Lemma near_rel : forall n e b s t, near s t -> rel near (build n e b s) (build n e b t).
Proof.
  apply rel_build.
  - intros s t (_ & H & _). exact H.
  - intros v s t H. pose proof H as (H1 & H2 & H3 & H4). unfold commit. rewrite H1, H2, H3. destruct (st_dollar t).
    + destruct (hashable v); [|split; [reflexivity|exact H]]. destruct (dict_find v (st_dict t)); [split; [reflexivity|exact H]|]. split; [reflexivity|]. repeat split; cbn; exact H4.
    + split; [reflexivity|]. repeat split; cbn; assumption.
  - intros z s t (H1 & H2 & H3 & H4). repeat split. exact H4.
  - intros s t s' t' (H1 & H2 & H3 & H4) (K1 & K2 & K3 & K4). repeat split; assumption.
  - intros rb Hrb id s t H. unfold build_internal.
    destruct (near_get s t id H) as (o & G & E & D). rewrite G, (same_collect _ _ E D).
    change (q_errors (retab (get_q s id) o)) with (q_errors (get_q s id)). change (q_ctes (retab (get_q s id) o)) with (q_ctes (get_q s id)).
    destruct (q_errors (get_q s id)); [|split; [reflexivity|exact H]]. destruct (collect_deps (get_q s id)) as [d|er|er|]; try (split; [reflexivity|exact H]).
    apply rel_bind; [apply rel_ctes; assumption|]. clear H G E D. intros sq s1 t1 H.
    apply rel_bind.
    { destruct (near_get s1 t1 id H) as (o1 & G & E & D). rewrite G, (same_from _ _ E D). unfold build_from.
      match goal with |- context [build_from_loop rb ?di ?fts d s1] => destruct (rel_from_loop near rb Hrb di fts d s1 t1 H) as [E1 E2];
        destruct (build_from_loop rb di fts d s1) as [r s2], (build_from_loop rb di fts d t1) as [r' t2] end.
      cbn [fst snd] in *. subst r'. destruct r; (split; [reflexivity|exact E2]). }
    clear s1 t1 H. intros fr s2 t2 H.
    apply rel_bind.
    { destruct (near_get s2 t2 id H) as (o2 & G & _). rewrite G. cbn [retab set_tables q_conds]. apply Hrb. exact H. }
    clear s2 t2 H. intros wh s3 t3 H.
    apply rel_bind.
    { destruct (near_get s3 t3 id H) as (o3 & G & _). rewrite G. cbn [retab set_tables q_groups]. apply Hrb. exact H. }
    clear s3 t3 H. intros gr s4 t4 H.
    apply rel_bind.
    { destruct (sameq_orders _ _ (near_get s4 t4 id H)) as [A1 A2]. unfold build_orders. rewrite !orders_spec, A2. apply Hrb.
      apply near_set; assumption. }
    clear s4 t4 H. intros ord s5 t5 H. cbn zeta.
    destruct (near_get s5 t5 id H) as (o5 & G & E & D).
    assert (Q5 : q_limit (get_q t5 id) = q_limit (get_q s5 id) /\ q_offset (get_q t5 id) = q_offset (get_q s5 id)) by (rewrite G; split; reflexivity).
    destruct Q5 as [L1 L2]. rewrite L1, L2.
    apply rel_bind.
    { unfold build_selects. rewrite G. cbn [retab set_tables q_selects q_distinct].
      assert (K : near (set_q s5 id (set_selects (get_q s5 id) (with_prefix (q_selects (get_q s5 id)) (if q_distinct (get_q s5 id) then "SELECT DISTINCT" else "SELECT"))))
        (set_q t5 id (set_selects (retab (get_q s5 id) o5) (with_prefix (q_selects (get_q s5 id)) (if q_distinct (get_q s5 id) then "SELECT DISTINCT" else "SELECT"))))).
      { apply near_set; [exact H|]. exists o5. apply conj; [reflexivity|]. apply conj; assumption. }
      destruct (Hrb (BFrag (with_prefix (q_selects (get_q s5 id)) (if q_distinct (get_q s5 id) then "SELECT DISTINCT" else "SELECT"))) _ _ K) as [E1 E2].
      cbn [retab set_tables] in *.
      match goal with |- rel _ (match ?x with _ => _ end) (match ?y with _ => _ end) => destruct x as [r s6]; destruct y as [r' t6] end. cbn [fst snd] in *. subst r'.
      destruct r as [r|er|er|]; try (split; [reflexivity|exact E2]).
      destruct (near_get s6 t6 id E2) as (o6 & G6 & _). rewrite G6. cbn [retab set_tables q_touches].
      destruct (Hrb (BFrag (q_touches (get_q s6 id))) _ _ E2) as [D1 D2].
      destruct (rb _ s6) as [r2 s7], (rb _ t6) as [r' t7]. cbn [fst snd] in *. subst r'. destruct r2 as [r2|er|er|]; try (split; [reflexivity|exact D2]).
      destruct (is_empty r); [split; [reflexivity|exact D2]|]. destruct (is_empty r2); (split; [reflexivity|exact D2]). }
    intros sel s6 t6 H6. apply rel_bind.
    { destruct (near_get s6 t6 id H6) as (o6 & G6 & _). rewrite G6. cbn [retab set_tables q_unions].
      destruct (q_unions (get_q s6 id)); [split; [reflexivity|exact H6]|]. apply rel_bind; [apply rel_union; assumption|].
      intros r s8 t8 K. split; [reflexivity|exact K]. }
    intros r s7 t7 H7. destruct (near_get s7 t7 id H7) as (o7 & G7 & _). rewrite G7. cbn [retab set_tables q_debug].
    pose proof H7 as (_ & Ha & _). rewrite Ha. destruct (q_debug (get_q s7 id)); [|split; [reflexivity|exact H7]].
    destruct (interpolate _ _ _); (split; [reflexivity|exact H7]).
Qed.

Theorem near_query : forall n style h h' b, Forall2 sameq h h' ->
  fst (build_query n style h' b) = fst (build_query n style h b) /\ Forall2 sameq (snd (build_query n style h b)) (snd (build_query n style h' b)).
Proof.
  intros n style h h' b H. unfold build_query. assert (A : near (new_store style h) (new_store style h')) by (repeat split; exact H).
  destruct (near_rel n [builtins] b _ _ A) as [E1 (E2 & E3 & E4 & E5)].
  destruct (build n [builtins] b (new_store style h)) as [r st], (build n [builtins] b (new_store style h')) as [r' st']. cbn [fst snd] in *. subst r'. rewrite E3.
  split; [reflexivity|exact E5].
Qed.

(** * The calls *)
Lemma upd_plain : forall i a b o o', map plain_ft o = map plain_ft o' -> plain_ft a = plain_ft b -> map plain_ft (upd i a o) = map plain_ft (upd i b o').
Proof. intros i a b o o' E A. rewrite !map_upd, E, A. reflexivity. Qed.
Definition loosely (q p : qb) : Prop := exists o, p = retab q o /\ map plain_ft o = map plain_ft (q_tobjs q).
Definition outcomes (x y : outcome qb) : Prop :=
  match x, y with ROk q, ROk p => loosely q p | _, _ => x = y end.
Lemma outcomes_refl : forall x, outcomes x x.
Proof. intros [q| | |]; cbn; try reflexivity. exists (q_tobjs q). rewrite retab_same. split; reflexivity. Qed.
Lemma plain_length : forall o o', map plain_ft o = map plain_ft o' -> List.length o = List.length o'.
Proof. intros o o' E. rewrite <- (map_length plain_ft o), E. apply map_length. Qed.
Lemma op_plain : forall a b q p, same_but_optional a b -> loosely q p -> outcomes (apply_op a q) (apply_op b p).
Proof.
  intros a b q p S (o & -> & E).
  assert (J : forall kind t on x y, outcomes (qb_join kind t on x q) (qb_join kind t on y (retab q o))).
  { intros kind t on x y. unfold qb_join. destruct (is_empty (fst t)); [exists o; split; [reflexivity|exact E]|].
    destruct on as [on|]; [|reflexivity]. cbn [retab set_tables q_tables q_tobjs q_tdict].
    destruct (q_tables q) as [|i0 ids] eqn:T; cbn [retab set_tables q_tdict q_tobjs q_tables].
    - destruct (assoc (applied t) (q_tdict q)) as [i|].
      + cbn [outcomes]. exists (upd i (mkFT t (Some (Ff (join_raw kind t) [BFrag (with_prefix on "ON")])) y) (o ++ [mkFT ("", "") None false])%list).
        rewrite (plain_length _ _ E). split; [reflexivity|]. cbn [set_tables q_tobjs]. apply upd_plain; [rewrite !map_app, E; reflexivity|reflexivity].
      + cbn [outcomes]. exists ((o ++ [mkFT ("", "") None false]) ++ [mkFT t (Some (Ff (join_raw kind t) [BFrag (with_prefix on "ON")])) y])%list.
        rewrite !List.app_length, (plain_length _ _ E). split; [reflexivity|]. cbn [set_tables q_tobjs]. rewrite !map_app, E. reflexivity.
    - destruct (assoc (applied t) (q_tdict q)) as [i|].
      + cbn [outcomes]. exists (upd i (mkFT t (Some (Ff (join_raw kind t) [BFrag (with_prefix on "ON")])) y) o).
        rewrite ?T. split; [unfold retab, set_tables; cbn; rewrite ?T; reflexivity|]. cbn [set_tables q_tobjs]. apply upd_plain; [exact E|reflexivity].
      + cbn [outcomes]. exists (o ++ [mkFT t (Some (Ff (join_raw kind t) [BFrag (with_prefix on "ON")])) y])%list.
        rewrite ?T, (plain_length _ _ E). split; [unfold retab, set_tables; cbn; rewrite ?T; reflexivity|]. cbn [set_tables q_tobjs]. rewrite !map_app, E. reflexivity. }
  destruct S as [a|kind t on x y]; [|apply J].
  assert (W : forall raw col l, outcomes (where_in raw col l q) (where_in raw col l (retab q o))).
  { intros raw col l. unfold where_in. destruct (args_flatted [l]); try reflexivity. exists o. split; [reflexivity|exact E]. }
  destruct a as [|[|c cols]|n|n|cols|bs|t|kind t on x|[f|]|col op v|col l|col l|col w|name b deps|]; cbn [apply_op]; try (exists o; split; [reflexivity|exact E]); try apply W; try apply J.
  - destruct (0 <? n)%Z; exists o; (split; [reflexivity|exact E]).
  - destruct (0 <? n)%Z; exists o; (split; [reflexivity|exact E]).
  - unfold qb_from. destruct (is_empty (fst t)); [exists o; split; [reflexivity|exact E]|]. cbn [retab set_tables q_tables q_tobjs q_tdict outcomes].
    exists (o ++ [mkFT t (Some (F (table_and_alias t))) false])%list. rewrite (plain_length _ _ E). split; [reflexivity|].
    cbn [set_tables q_tobjs]. rewrite !map_app, E. reflexivity.
Qed.
Lemma ops_plain : forall os os', Forall2 same_but_optional os os' -> forall q p, loosely q p -> outcomes (apply_ops os q) (apply_ops os' p).
Proof.
  intros os os' H. induction H as [|a b os os' A H IH]; intros q p L; [exact L|]. cbn [apply_ops].
  pose proof (op_plain a b q p A L) as O. destruct (apply_op a q) as [q1| | |], (apply_op b p) as [p1| | |]; cbn [outcomes] in O; try discriminate; try (cbn; exact O).
  apply IH. exact O.
Qed.
Lemma op_distinct : forall o q q', apply_op o q = ROk q' -> asks_distinct o = false -> q_distinct q' = q_distinct q.
Proof.
  intros o q q' H A. destruct o as [|[|c cols]|n|n|cols|bs|t|kind t on x|[f|]|col op v|col l|col l|col w|name b deps|]; cbn [apply_op asks_distinct] in *; try discriminate;
    try (inversion H; subst; reflexivity).
  - destruct (0 <? n)%Z; inversion H; subst; reflexivity.
  - destruct (0 <? n)%Z; inversion H; subst; reflexivity.
  - inversion H; subst. unfold qb_from. destruct (is_empty (fst t)); reflexivity.
  - unfold qb_join in H. destruct (is_empty (fst t)); [inversion H; subst; reflexivity|]. destruct on; [|discriminate].
    destruct (q_tables q); cbn [set_tables q_tdict q_tobjs q_tables] in H; destruct (assoc _ _); inversion H; subst; reflexivity.
  - unfold where_in in H. destruct (args_flatted [l]); inversion H; subst; reflexivity.
  - unfold where_in in H. destruct (args_flatted [l]); inversion H; subst; reflexivity.
Qed.
Lemma ops_distinct : forall os q q', apply_ops os q = ROk q' -> existsb asks_distinct os = false -> q_distinct q' = q_distinct q.
Proof.
  induction os as [|o os IH]; intros q q' H A; [inversion H; reflexivity|]. cbn [apply_ops existsb] in *. apply orb_false_iff in A as [A1 A2].
  destruct (apply_op o q) as [q1| | |] eqn:Q; try discriminate. rewrite (IH _ _ H A2). eapply op_distinct; eassumption.
Qed.
Theorem described_alike : forall os os', same_description os os' ->
  match apply_ops os new_qb, apply_ops os' new_qb with
  | ROk q, ROk q' => sameq q q'
  | x, y => x = y
  end.
Proof.
  intros os os' [<- | [A H]].
  - destruct (apply_ops os new_qb); try reflexivity. apply sameq_refl.
  - pose proof (ops_plain os os' H new_qb new_qb) as O. specialize (O (ex_intro _ [] (conj eq_refl eq_refl))).
    destruct (apply_ops os new_qb) as [q| | |] eqn:Q; destruct (apply_ops os' new_qb) as [p| | |]; cbn [outcomes] in O; try exact O.
    destruct O as (o & -> & E). exists o. apply conj; [reflexivity|]. apply conj; [exact E|]. rewrite (ops_distinct _ _ _ Q A). discriminate.
Qed.

(** Descriptions that both work, or both end in the same way. *)
Theorem same_calls : forall os os', same_description os os' -> 
  match apply_ops os new_qb with
  | ROk _ => exists q', apply_ops os' new_qb = ROk q'
  | r => apply_ops os' new_qb = r
  end.
Proof.
  intros os os' H. pose proof (described_alike os os' H) as A. destruct (apply_ops os new_qb), (apply_ops os' new_qb); try discriminate; try (symmetry; exact A).
  eexists. reflexivity.
Qed.
Theorem same_builds : forall oss oss' h h' n style b, Forall2 same_description oss oss' ->
  Forall2 (fun os q => apply_ops os new_qb = ROk q) oss h -> Forall2 (fun os q => apply_ops os new_qb = ROk q) oss' h' ->
  fst (build_query n style h' b) = fst (build_query n style h b).
Proof.
  intros oss oss' h h' n style b S H H'. apply near_query. revert h h' H H'.
  induction S as [|os os' oss oss' A S IH]; intros h h' H H'; inversion H; inversion H'; subst; constructor.
  - pose proof (described_alike os os' A) as D. match goal with K : apply_ops os new_qb = _, K' : apply_ops os' new_qb = _ |- _ => rewrite K, K' in D; exact D end.
  - apply IH; assumption.
Qed.
