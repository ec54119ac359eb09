(** Building query builders. *)
From Coq Require Import Strings.String Strings.Ascii NArith ZArith List Bool Lia.
From Verif Require Import GoStr GoNum Syntax Value Util Model Sqlf Sqlb Spec_syntax Spec_eval Fuel_proofs Spec_query Deps_proofs.
Import ListNotations.
Open Scope string_scope.

(* ------------------------------------------------------------------ *)
(** * The heap *)

Lemma nth_upd : forall A (l : list A) i j x d, nth j (upd i x l) d = if (j =? i)%nat && (j <? List.length l)%nat then x else nth j l d.
Proof.
  intros A. induction l as [|y l IH]; intros i j x d.
  - destruct i, j; cbn; try reflexivity. destruct (_ =? _)%nat; reflexivity.
  - destruct i, j; cbn; try reflexivity. rewrite IH. reflexivity.
Qed.
Lemma upd_len : forall A (l : list A) i x, List.length (upd i x l) = List.length l.
Proof. intros A. induction l as [|y l IH]; intros [|i] x; cbn; auto. Qed.
Lemma upd_same : forall A (l : list A) i d, upd i (nth i l d) l = l.
Proof. intros A. induction l as [|y l IH]; intros [|i] d; cbn; [reflexivity|reflexivity|reflexivity|]. f_equal. apply IH. Qed.
Lemma get_set_q : forall st i j q, get_q (set_q st i q) j =
  if (j =? i)%nat && (j <? List.length (st_heap st))%nat then q else get_q st j.
Proof. intros st i j q. unfold get_q, set_q. cbn [st_heap set_heap]. apply nth_upd. Qed.

(* ------------------------------------------------------------------ *)
(** * What a build changes *)

Lemma append_frags_nil : forall f, append_frags f [] = f.
Proof. intros [raw args frags p s]. unfold append_frags, with_frags. cbn [f_raw f_args f_frags f_prefix f_suffix]. rewrite app_nil_r. reflexivity. Qed.
Lemma append_frags_app : forall f a b, append_frags (append_frags f a) b = append_frags f (a ++ b).
Proof. intros [raw args frags p s] a b. unfold append_frags, with_frags. cbn [f_raw f_args f_frags f_prefix f_suffix]. rewrite app_assoc. reflexivity. Qed.
Lemma evolved_refl : forall q, evolved q q.
Proof. intros q. exists (q_selects q), [], []. split; [|auto]. change more_frags with append_frags. rewrite append_frags_nil, app_nil_r. destruct q. reflexivity. Qed.
Lemma with_prefix_twice : forall f p p', with_prefix (with_prefix f p) p' = with_prefix f p'.
Proof. intros [raw args frags q s] p p'. reflexivity. Qed.
Lemma evolved_trans : forall a b c, evolved a b -> evolved b c -> evolved a c.
Proof.
  intros a b c (s & bs & es & -> & Hs) (s' & bs' & es' & -> & Hs'). exists s', (bs ++ bs')%list, (es ++ es')%list. split.
  - cbn. change more_frags with append_frags. rewrite append_frags_app, app_assoc. reflexivity.
  - destruct Hs' as [-> | ->]; [exact Hs|]. right. unfold select_clause. cbn. destruct Hs as [-> | ->]; [reflexivity|].
    unfold select_clause. apply with_prefix_twice.
Qed.

Lemma order_word_max : forall o, order_word o = if N.ltb max_order o then None else Some (order_str o).
Proof.
  intros o. unfold order_word, max_order. destruct (N.ltb 5 o) eqn:E.
  - apply N.ltb_lt in E. apply nth_error_None. cbn. lia.
  - apply N.ltb_ge in E. assert (o = 0 \/ o = 1 \/ o = 2 \/ o = 3 \/ o = 4 \/ o = 5)%N as H by lia.
    decompose [or] H; subst o; reflexivity.
Qed.
Definition items_of (q : qb) (l : list (nat * builder * string)) : list builder :=
  map (fun x => let '(i, b, w) := x in
    if q_distinct q then BFrag (F (order_alias i ++ " " ++ w)) else BFrag (Ff ("#f1 " ++ w) [b])) l.
Definition hidden_of (q : qb) (l : list (nat * builder * string)) : list builder :=
  if q_distinct q then map (fun x => let '(i, b, w) := x in BFrag (Ff ("#f1 AS " ++ order_alias i) [b])) l else [].
Definition errors_of (os : list (builder * N)) : list err :=
  flat_map (fun x => match order_word (snd x) with Some _ => [] | None => [bad_order (snd x)] end) os.
Lemma set_touches_same : forall q, set_touches q (q_touches q) = q. Proof. intros []. reflexivity. Qed.
Lemma set_errors_same : forall q, set_errors q (q_errors q) = q. Proof. intros []. reflexivity. Qed.
Lemma set_selects_same : forall q, set_selects q (q_selects q) = q. Proof. intros []. reflexivity. Qed.
Lemma orders_loop_spec : forall os i q items, orders_loop i os q items =
  (set_errors (set_touches q (append_frags (q_touches q) (hidden_of q (valid_orders (S i) os)))) (q_errors q ++ errors_of os)%list,
   (items ++ items_of q (valid_orders (S i) os))%list).
Proof.
  induction os as [|[b o] os IH]; intros i q items; cbn [orders_loop valid_orders errors_of flat_map snd].
  - unfold hidden_of. cbn. replace (if q_distinct q then [] else @nil builder) with (@nil builder) by (destruct (q_distinct q); reflexivity).
    rewrite append_frags_nil, set_touches_same, app_nil_r, app_nil_r, set_errors_same. reflexivity.
  - rewrite order_word_max. destruct (N.ltb max_order o) eqn:E.
    + rewrite IH. unfold push_error. cbn [q_errors q_touches set_errors set_touches hidden_of q_distinct items_of]. rewrite <- app_assoc. reflexivity.
    + destruct (q_distinct q) eqn:D; rewrite IH.
      * unfold hidden_of, items_of, order_alias. cbn [q_distinct set_touches]. rewrite D. cbn [map app]. cbn [q_touches q_errors set_touches].
        rewrite append_frags_app. cbn [app]. f_equal. rewrite <- app_assoc. reflexivity.
      * unfold hidden_of, items_of. rewrite D. cbn [map app]. rewrite <- app_assoc. reflexivity.
Qed.
Lemma orders_spec : forall q, orders_loop 0 (q_orders q) q [] = (with_orders q, order_items q).
Proof. intros q. rewrite orders_loop_spec. reflexivity. Qed.

Lemma evolves_refl : forall st, evolves st st.
Proof. intros st. split; [reflexivity|]. intros id. apply evolved_refl. Qed.
Lemma evolves_trans : forall a b c, evolves a b -> evolves b c -> evolves a c.
Proof.
  intros a b c [H1 H2] [H3 H4]. split; [congruence|]. intros id. eapply evolved_trans; [apply H2|apply H4].
Qed.
Lemma evolved_orders : forall q, evolved q (with_orders q).
Proof.
  intros q. exists (q_selects q), (hidden_columns q), (order_errors q). rewrite set_selects_same. auto.
Qed.
Lemma evolved_select : forall q, evolved q (with_select q).
Proof.
  intros q. exists (select_clause q), [], []. split; [|auto]. change more_frags with append_frags. rewrite append_frags_nil, app_nil_r. destruct q. reflexivity.
Qed.
Lemma evolves_set : forall st id q, evolved (get_q st id) q -> evolves st (set_q st id q).
Proof.
  intros st id q H. split; [cbn; apply upd_len|]. intros j. rewrite get_set_q. destruct (_ && _) eqn:E; [|apply evolved_refl].
  apply andb_prop in E. destruct E as [E _]. apply Nat.eqb_eq in E. subst j. exact H.
Qed.
Lemma commit_heap : forall v st, st_heap (snd (commit v st)) = st_heap st.
Proof. intros v st. unfold commit. destruct (st_dollar st), (hashable v), (dict_find v (st_dict st)); reflexivity. Qed.
Lemma evolves_heap : forall a b b', st_heap b = st_heap b' -> evolves a b -> evolves a b'.
Proof. intros a b b' H [E1 E2]. split; [congruence|]. intros id. unfold get_q. rewrite <- H. apply E2. Qed.
Theorem evolves_build : forall n e b st, evolves st (snd (build n e b st)).
Proof.
  apply step_build.
  - exact evolves_refl.
  - exact evolves_trans.
  - intros v st. eapply evolves_heap; [symmetry; apply commit_heap|apply evolves_refl].
  - intros st id. apply evolves_set. apply evolved_select.
  - intros st id. apply evolves_set. unfold orders_done. rewrite orders_spec. apply evolved_orders.
  - intros z st st' H. apply (evolves_heap st st'); [reflexivity|]. destruct H as [H1 H2]. split; [exact H1|]. exact H2.
Qed.

(* ------------------------------------------------------------------ *)
(** * Clauses *)

Section Clauses.
Variable rb : builder -> store -> outcome string * store.
Hypothesis Hrb : forall b st, evolves st (snd (rb b st)).

Lemma do_all_evolves : forall A (f : A -> builder) l st, evolves st (snd (do_all (fun x => rb (f x)) l st)).
Proof.
  intros A f. induction l as [|x l IH]; intros st; cbn [do_all]; [apply evolves_refl|]. pose proof (Hrb (f x) st) as H.
  destruct (rb (f x) st) as [[s|er|er|] st']; try exact H. specialize (IH st').
  destruct (do_all _ l st') as [[ss|er|er|] st2]; (eapply evolves_trans; [exact H|exact IH]).
Qed.

(** Outcomes of the loops. *)
Lemma ctes_loop_ok : forall d cs st l st', build_ctes_loop rb cs d st = (ROk l, st') <->
  exists ts, do_all (fun c => rb (c_builder c)) (filter (fun c => dep_mem (c_name c, "") d) cs) st = (ROk ts, st') /\
    l = map (fun nt => fst nt ++ " AS (" ++ snd nt ++ ")")
          (filter (fun nt => negb (is_empty (snd nt))) (combine (map c_name (filter (fun c => dep_mem (c_name c, "") d) cs)) ts)).
Proof.
  intros d. induction cs as [|c cs IH]; intros st l st'; cbn [build_ctes_loop filter].
  - cbn. split; [intros H; injection H as <- <-; exists []; auto|]. intros (ts & H & ->). injection H as <- <-. reflexivity.
  - destruct (dep_mem (c_name c, "") d); [|apply IH]. cbn [do_all map].
    destruct (rb (c_builder c) st) as [[s|er|er|] st1] eqn:E; try (split; [discriminate|intros (ts & H & _); discriminate]).
    destruct (build_ctes_loop rb cs d st1) as [[l1|er|er|] st2] eqn:E1.
    + destruct (proj1 (IH st1 l1 st2) E1) as (ts & H & ->). rewrite H. split.
      * intros K. injection K as <- <-. exists (s :: ts). split; [reflexivity|]. cbn [combine filter snd]. destruct (is_empty s); reflexivity.
      * intros (ts' & K & ->). injection K as <- <-. cbn [combine filter snd]. destruct (is_empty s); reflexivity.
    + split; [discriminate|]. intros (ts' & K & _). destruct (do_all _ _ st1) as [[ts|er'|er'|] st3] eqn:D; try discriminate.
      rewrite (proj2 (IH st1 _ st3) (ex_intro _ ts (conj D eq_refl))) in E1. discriminate.
    + split; [discriminate|]. intros (ts' & K & _). destruct (do_all _ _ st1) as [[ts|er'|er'|] st3] eqn:D; try discriminate.
      rewrite (proj2 (IH st1 _ st3) (ex_intro _ ts (conj D eq_refl))) in E1. discriminate.
    + split; [discriminate|]. intros (ts' & K & _). destruct (do_all _ _ st1) as [[ts|er'|er'|] st3] eqn:D; try discriminate.
      rewrite (proj2 (IH st1 _ st3) (ex_intro _ ts (conj D eq_refl))) in E1. discriminate.
Qed.
Lemma ctes_ok_iff : forall d cs st s st', build_ctes rb cs d st = (ROk s, st') <->
  exists ts, do_all (fun c => rb (c_builder c)) (filter (fun c => dep_mem (c_name c, "") d) cs) st = (ROk ts, st') /\
    s = str_join " " (with_clause (combine (map c_name (filter (fun c => dep_mem (c_name c, "") d) cs)) ts)).
Proof.
  intros d cs st s st'. unfold build_ctes, with_clause. destruct (build_ctes_loop rb cs d st) as [[l|er|er|] st1] eqn:E.
  - destruct (proj1 (ctes_loop_ok d cs st l st1) E) as (ts & H & ->).
    destruct (filter (fun nt => negb (is_empty (snd nt))) (combine (map c_name (filter (fun c => dep_mem (c_name c, "") d) cs)) ts)) as [|x l] eqn:Ef.
    + cbn [map]. split.
      * intros K. injection K as <- <-. exists ts. rewrite Ef. auto.
      * intros (ts' & K & ->). rewrite H in K. injection K as <- <-. rewrite Ef. reflexivity.
    + cbn [map]. split.
      * intros K. injection K as <- <-. exists ts. rewrite Ef. auto.
      * intros (ts' & K & ->). rewrite H in K. injection K as <- <-. rewrite Ef. reflexivity.
  - split; [discriminate|]. intros (ts' & K & _). rewrite (proj2 (ctes_loop_ok d cs st _ st') (ex_intro _ ts' (conj K eq_refl))) in E. discriminate.
  - split; [discriminate|]. intros (ts' & K & _). rewrite (proj2 (ctes_loop_ok d cs st _ st') (ex_intro _ ts' (conj K eq_refl))) in E. discriminate.
  - split; [discriminate|]. intros (ts' & K & _). rewrite (proj2 (ctes_loop_ok d cs st _ st') (ex_intro _ ts' (conj K eq_refl))) in E. discriminate.
Qed.
Lemma build_ofrag_table : forall ft st, build_ofrag rb (ft_frag ft) st = rb (table_builder ft) st.
Proof. intros [n [f|] o] st; reflexivity. Qed.
Lemma from_loop_ok : forall di d fts st l st', build_from_loop rb di fts d st = (ROk l, st') <->
  do_all (fun ft => rb (table_builder ft)) (filter (fun ft => negb (di && ft_optional ft && negb (dep_mem (ft_names ft) d))) fts) st = (ROk l, st').
Proof.
  intros di d. induction fts as [|ft fts IH]; intros st l st'; cbn [build_from_loop filter]; [cbn; tauto|].
  destruct (di && ft_optional ft && negb (dep_mem (ft_names ft) d)); cbn [negb]; [apply IH|]. cbn [do_all]. rewrite build_ofrag_table.
  destruct (rb (table_builder ft) st) as [[s|er|er|] st1]; try (split; discriminate).
  destruct (build_from_loop rb di fts d st1) as [[l1|er|er|] st2] eqn:E1.
  - rewrite (proj1 (IH st1 l1 st2) E1). tauto.
  - split; [discriminate|]. intros K. destruct (do_all _ _ st1) as [[ts|er'|er'|] st3] eqn:D; try discriminate.
    rewrite (proj2 (IH st1 _ st3) D) in E1. discriminate.
  - split; [discriminate|]. intros K. destruct (do_all _ _ st1) as [[ts|er'|er'|] st3] eqn:D; try discriminate.
    rewrite (proj2 (IH st1 _ st3) D) in E1. discriminate.
  - split; [discriminate|]. intros K. destruct (do_all _ _ st1) as [[ts|er'|er'|] st3] eqn:D; try discriminate.
    rewrite (proj2 (IH st1 _ st3) D) in E1. discriminate.
Qed.
Lemma from_ok_iff : forall q d st s st', build_from rb q d st = (ROk s, st') <->
  exists l, do_all (fun ft => rb (table_builder ft)) (filter (kept q d) (listed q)) st = (ROk l, st') /\ s = "FROM " ++ str_join " " l.
Proof.
  intros q d st s st'. unfold build_from.
  change (filter (kept q d) (listed q)) with (filter (fun ft => negb (q_distinct q && ft_optional ft && negb (dep_mem (ft_names ft) d))) (from_tables q)).
  destruct (build_from_loop rb (q_distinct q) (from_tables q) d st) as [[l|er|er|] st1] eqn:E.
  - pose proof (proj1 (from_loop_ok _ d _ st l st1) E) as H. rewrite H. split.
    + intros K. injection K as <- <-. eauto.
    + intros (l' & K & ->). injection K as <- <-. reflexivity.
  - split; [discriminate|]. intros (l & K & _). apply from_loop_ok in K. congruence.
  - split; [discriminate|]. intros (l & K & _). apply from_loop_ok in K. congruence.
  - split; [discriminate|]. intros (l & K & _). apply from_loop_ok in K. congruence.
Qed.
Lemma union_loop_ok : forall bs st l st', build_union_loop rb bs st = (ROk l, st') <->
  exists us, do_all rb bs st = (ROk us, st') /\ l = nonempty_items us.
Proof.
  induction bs as [|b bs IH]; intros st l st'; cbn [build_union_loop do_all].
  - split; [intros H; injection H as <- <-; exists []; auto|]. intros (us & H & ->). injection H as <- <-. reflexivity.
  - destruct (rb b st) as [[s|er|er|] st1]; try (split; [discriminate|intros (us & H & _); discriminate]).
    destruct (build_union_loop rb bs st1) as [[l1|er|er|] st2] eqn:E1.
    + destruct (proj1 (IH st1 l1 st2) E1) as (us & H & ->). rewrite H. split.
      * intros K. injection K as <- <-. exists (s :: us). split; [reflexivity|]. unfold nonempty_items. cbn [filter]. destruct (is_empty s); reflexivity.
      * intros (us' & K & ->). injection K as <- <-. unfold nonempty_items. cbn [filter]. destruct (is_empty s); reflexivity.
    + split; [discriminate|]. intros (us' & K & _). destruct (do_all rb bs st1) as [[ts|er'|er'|] st3] eqn:D; try discriminate.
      rewrite (proj2 (IH st1 _ st3) (ex_intro _ ts (conj D eq_refl))) in E1. discriminate.
    + split; [discriminate|]. intros (us' & K & _). destruct (do_all rb bs st1) as [[ts|er'|er'|] st3] eqn:D; try discriminate.
      rewrite (proj2 (IH st1 _ st3) (ex_intro _ ts (conj D eq_refl))) in E1. discriminate.
    + split; [discriminate|]. intros (us' & K & _). destruct (do_all rb bs st1) as [[ts|er'|er'|] st3] eqn:D; try discriminate.
      rewrite (proj2 (IH st1 _ st3) (ex_intro _ ts (conj D eq_refl))) in E1. discriminate.
Qed.
Lemma union_ok_iff : forall bs st s st', build_union rb bs st = (ROk s, st') <->
  exists us, do_all rb bs st = (ROk us, st') /\ s = "UNION (" ++ str_join ") UNION (" (nonempty_items us) ++ ")".
Proof.
  intros bs st s st'. unfold build_union. destruct (build_union_loop rb bs st) as [[l|er|er|] st1] eqn:E.
  - destruct (proj1 (union_loop_ok bs st l st1) E) as (us & H & ->). rewrite H. split.
    + intros K. injection K as <- <-. eauto.
    + intros (us' & K & ->). injection K as <- <-. reflexivity.
  - split; [discriminate|]. intros (us & K & _). rewrite (proj2 (union_loop_ok bs st _ st') (ex_intro _ us (conj K eq_refl))) in E. discriminate.
  - split; [discriminate|]. intros (us & K & _). rewrite (proj2 (union_loop_ok bs st _ st') (ex_intro _ us (conj K eq_refl))) in E. discriminate.
  - split; [discriminate|]. intros (us & K & _). rewrite (proj2 (union_loop_ok bs st _ st') (ex_intro _ us (conj K eq_refl))) in E. discriminate.
Qed.

(** Fields that building leaves alone. *)
Definition fixed (q q' : qb) : Prop :=
  q_ctes q' = q_ctes q /\ q_cdict q' = q_cdict q /\ q_tobjs q' = q_tobjs q /\ q_tables q' = q_tables q /\ q_tdict q' = q_tdict q /\
  q_conds q' = q_conds q /\ q_orders q' = q_orders q /\ q_groups q' = q_groups q /\ q_distinct q' = q_distinct q /\
  q_limit q' = q_limit q /\ q_offset q' = q_offset q /\ q_unions q' = q_unions q /\ q_debug q' = q_debug q /\
  select_clause q' = select_clause q.
Lemma evolved_fixed : forall q q', evolved q q' -> fixed q q'.
Proof.
  intros q q' (s & bs & es & -> & Hs). unfold fixed. cbn. repeat split. unfold select_clause. cbn. destruct Hs as [-> | ->]; [reflexivity|].
  apply with_prefix_twice.
Qed.
Lemma fixed_kept : forall q q' d ft, fixed q q' -> kept q' d ft = kept q d ft.
Proof. intros q q' d ft H. unfold kept. destruct H as (_ & _ & _ & _ & _ & _ & _ & _ & -> & _). reflexivity. Qed.
Lemma fixed_listed : forall q q', fixed q q' -> listed q' = listed q.
Proof. intros q q' H. unfold listed. destruct H as (_ & _ & -> & -> & _). reflexivity. Qed.
Lemma fixed_orders : forall q q', fixed q q' -> order_clause q' = order_clause q.
Proof. intros q q' H. unfold order_clause, order_items. destruct H as (_ & _ & _ & _ & _ & _ & -> & _ & -> & _). reflexivity. Qed.

Lemma is_empty_iff : forall s, is_empty s = true <-> s = "". Proof. intros [|a s]; cbn; split; congruence. Qed.
Lemma nonempty_with : forall l, nonempty (str_join " " (with_clause l)) = with_clause l.
Proof. intros l. unfold with_clause. destruct (filter _ l); reflexivity. Qed.
Lemma from_nonempty : forall l, nonempty ("FROM " ++ str_join " " l) = ["FROM " ++ str_join " " l].
Proof. reflexivity. Qed.
Lemma bind_ok : forall (r : outcome string * store) k s st', bind r k = (ROk s, st') <-> exists t st1, r = (ROk t, st1) /\ k t st1 = (ROk s, st').
Proof.
  intros [[t|er|er|] st1] k s st'; cbn [bind]; split; try discriminate; try (intros (t' & st2 & H & _); discriminate).
  - eauto.
  - intros (t' & st2 & H & K). injection H as <- <-. exact K.
Qed.

Definition debug_ok (q : qb) (sql : string) (st : store) : Prop :=
  q_debug q = false \/ match interpolate (fun _ => "") sql (st_args st) with RPanic _ | RFuel => False | _ => True end.
Theorem internal_ok : forall id st sql st', build_internal rb id st = (ROk sql, st') <->
  exists d secs, collect_deps (get_q st id) = ROk d /\
    assembled rb (kept (get_q st id) d) (fun c => dep_mem (c_name c, "") d) id st secs st' /\ sql = layout secs /\
    debug_ok (get_q st id) sql st'.
Proof.
  intros id st sql st'. set (q := get_q st id). 
  assert (Fx : forall a, evolves st a -> fixed q (get_q a id)) by (intros a [_ H]; apply evolved_fixed; apply H).
  unfold build_internal. fold q. split.
  - destruct (q_errors q) eqn:Er; [|discriminate]. destruct (collect_deps q) as [d|er|er|] eqn:Ed; try discriminate. intros H.
    apply bind_ok in H. destruct H as (wt & st1 & H1 & H). apply ctes_ok_iff in H1. destruct H1 as (ctexts & H1 & ->).
    assert (V1 : evolves st st1) by (pose proof (do_all_evolves _ c_builder (filter (fun c => dep_mem (c_name c, "") d) (q_ctes q)) st) as K; rewrite H1 in K; exact K).
    apply bind_ok in H. destruct H as (ft & st2 & H2 & H). apply from_ok_iff in H2. destruct H2 as (froms & H2 & ->).
    rewrite (fixed_listed q) in H2 by (apply Fx; exact V1).
    rewrite (filter_ext _ (kept q d)) in H2 by (intros x; apply fixed_kept, Fx; exact V1).
    assert (V2 : evolves st st2) by (pose proof (do_all_evolves _ table_builder (filter (kept q d) (listed q)) st1) as K; rewrite H2 in K; eapply evolves_trans; eassumption).
    apply bind_ok in H. destruct H as (w & st3 & H3 & H). destruct (Fx st2 V2) as (_ & _ & _ & _ & _ & Q & _). rewrite Q in H3. clear Q.
    assert (V3 : evolves st st3) by (pose proof (Hrb (BFrag (q_conds q)) st2) as K; rewrite H3 in K; eapply evolves_trans; eassumption).
    apply bind_ok in H. destruct H as (g & st4 & H4 & H). destruct (Fx st3 V3) as (_ & _ & _ & _ & _ & _ & _ & Q & _). rewrite Q in H4. clear Q.
    assert (V4 : evolves st st4) by (pose proof (Hrb (BFrag (q_groups q)) st3) as K; rewrite H4 in K; eapply evolves_trans; eassumption).
    apply bind_ok in H. destruct H as (o & st5 & H5 & H). unfold build_orders in H5. rewrite orders_spec in H5.
    change (Frag join_comma [] (order_items (get_q st4 id)) "ORDER BY" "") with (order_clause (get_q st4 id)) in H5.
    rewrite (fixed_orders q) in H5 by (apply Fx; exact V4).
    assert (V5 : evolves st st5).
    { pose proof (Hrb (BFrag (order_clause q)) (set_q st4 id (with_orders (get_q st4 id)))) as K; rewrite H5 in K.
      eapply evolves_trans; [exact V4|]. eapply evolves_trans; [|exact K]. apply evolves_set, evolved_orders. }
    apply bind_ok in H. destruct H as (sl & st7 & H6 & H). unfold build_selects in H6.
    change (with_prefix (q_selects (get_q st5 id)) (if q_distinct (get_q st5 id) then "SELECT DISTINCT" else "SELECT")) with (select_clause (get_q st5 id)) in H6. fold (with_select (get_q st5 id)) in H6.
    destruct (Fx st5 V5) as (_ & _ & _ & _ & _ & _ & _ & _ & _ & QL & QO & _ & _ & QS). rewrite QS in H6. 
    destruct (rb (BFrag (select_clause q)) (set_q st5 id (with_select (get_q st5 id)))) as [[s|er|er|] st6] eqn:E6; try discriminate.
    destruct (rb (BFrag (q_touches (get_q st6 id))) st6) as [[h|er|er|] st7'] eqn:E7; try discriminate.
    destruct (is_empty s) eqn:Es; [discriminate|].
    assert (st7' = st7 /\ sl = if is_empty h then s else s ++ ", " ++ h) as [-> ->].
    { destruct (is_empty h); injection H6 as <- <-; auto. }
    clear H6.
    assert (V7 : evolves st st7).
    { pose proof (Hrb (BFrag (select_clause q)) (set_q st5 id (with_select (get_q st5 id)))) as K; rewrite E6 in K.
      pose proof (Hrb (BFrag (q_touches (get_q st6 id))) st6) as K2; rewrite E7 in K2.
      eapply evolves_trans; [exact V5|]. eapply evolves_trans; [|exact K2]. eapply evolves_trans; [|exact K]. apply evolves_set, evolved_select. }
    rewrite QL, QO in H. clear QL QO QS. rewrite nonempty_with, from_nonempty in H.
    destruct (Fx st7 V7) as (_ & _ & _ & _ & _ & _ & _ & _ & _ & _ & _ & QU & _). rewrite QU in H. clear QU.
    change (nonempty w) with (if_any w) in H. change (nonempty g) with (if_any g) in H. change (nonempty o) with (if_any o) in H.
    change (if (0 <? q_limit q)%Z then ["LIMIT " ++ itoa (q_limit q)] else []) with (number_clause "LIMIT " (q_limit q)) in H.
    change (if (0 <? q_offset q)%Z then ["OFFSET " ++ itoa (q_offset q)] else []) with (number_clause "OFFSET " (q_offset q)) in H.
    apply bind_ok in H. destruct H as (query & st8 & H8 & H).
    assert (exists us, do_all rb (q_unions q) st7 = (ROk us, st8) /\
      query = layout (mkSections (combine (map c_name (filter (fun c => dep_mem (c_name c, "") d) (q_ctes q))) ctexts) s h froms w g o (q_limit q) (q_offset q)
        (match q_unions q with [] => None | _ => Some us end))) as (us & Hu & ->).
    { unfold layout. cbn [s_with s_select s_hidden s_from s_where s_group s_order s_limit s_offset s_union]. 
      destruct (q_unions q) as [|u us0].
      - exists []. cbn. injection H8 as <- <-. auto.
      - apply bind_ok in H8. destruct H8 as (ut & st9 & K1 & K2). apply union_ok_iff in K1. destruct K1 as (us & K1 & ->).
        injection K2 as <- <-. exists us. split; [exact K1|]. reflexivity. }
    assert (V8 : evolves st st8) by (pose proof (do_all_evolves _ (fun b => b) (q_unions q) st7) as K; cbv beta in K; change (fun x : builder => rb x) with rb in K; rewrite Hu in K; eapply evolves_trans; eassumption).
    destruct (Fx st8 V8) as (_ & _ & _ & _ & _ & _ & _ & _ & _ & _ & _ & _ & QD & _). rewrite QD in H. clear QD.
    exists d. eexists. split; [reflexivity|]. split; [|split].
    + assert (st8 = st') as <- by (destruct (q_debug q); [destruct (interpolate _ _ _)|]; congruence).
      econstructor; try eassumption. reflexivity.
    + destruct (q_debug q); [destruct (interpolate _ _ _)|]; congruence.
    + unfold debug_ok. destruct (q_debug q); [|auto]. right. destruct (interpolate _ _ _) eqn:Ei; try discriminate; injection H as <- <-; rewrite Ei; exact I.
  - intros (d & secs & Ed & A & -> & Dbg). destruct A as [q0 ctexts froms w g o s h us st1 st2 st3 st4 st5 st6 st7 st8 Hq Er H1 H2 H3 H4 H5 E6 Es E7 Hu].
    fold q in Hq. subst q0. rewrite Er, Ed.
    apply bind_ok. eexists _, st1. split; [apply ctes_ok_iff; exists ctexts; split; [exact H1|reflexivity]|].
    assert (V1 : evolves st st1) by (pose proof (do_all_evolves _ c_builder (filter (fun c => dep_mem (c_name c, "") d) (q_ctes q)) st) as K; rewrite H1 in K; exact K).
    assert (V2 : evolves st st2) by (pose proof (do_all_evolves _ table_builder (filter (kept q d) (listed q)) st1) as K; rewrite H2 in K; eapply evolves_trans; eassumption).
    apply bind_ok. eexists _, st2. split.
    { apply from_ok_iff. exists froms. split; [|reflexivity]. rewrite (fixed_listed q) by (apply Fx; exact V1).
      rewrite (filter_ext _ (kept q d)) by (intros x; apply fixed_kept, Fx; exact V1). exact H2. }
    assert (V3 : evolves st st3) by (pose proof (Hrb (BFrag (q_conds q)) st2) as K; rewrite H3 in K; eapply evolves_trans; eassumption).
    apply bind_ok. exists w, st3. split; [destruct (Fx st2 V2) as (_ & _ & _ & _ & _ & Q & _); rewrite Q; exact H3|].
    assert (V4 : evolves st st4) by (pose proof (Hrb (BFrag (q_groups q)) st3) as K; rewrite H4 in K; eapply evolves_trans; eassumption).
    apply bind_ok. exists g, st4. split; [destruct (Fx st3 V3) as (_ & _ & _ & _ & _ & _ & _ & Q & _); rewrite Q; exact H4|].
    apply bind_ok. exists o, st5. split.
    { unfold build_orders. rewrite orders_spec. fold (order_clause (get_q st4 id)).
      change (Frag join_comma [] (order_items (get_q st4 id)) "ORDER BY" "") with (order_clause (get_q st4 id)).
      rewrite (fixed_orders q) by (apply Fx; exact V4). exact H5. }
    assert (V5 : evolves st st5).
    { pose proof (Hrb (BFrag (order_clause q)) (set_q st4 id (with_orders (get_q st4 id)))) as K; rewrite H5 in K.
      eapply evolves_trans; [exact V4|]. eapply evolves_trans; [|exact K]. apply evolves_set, evolved_orders. }
    assert (V7 : evolves st st7).
    { pose proof (Hrb (BFrag (select_clause q)) (set_q st5 id (with_select (get_q st5 id)))) as K; rewrite E6 in K.
      pose proof (Hrb (BFrag (q_touches (get_q st6 id))) st6) as K2; rewrite E7 in K2.
      eapply evolves_trans; [exact V5|]. eapply evolves_trans; [|exact K2]. eapply evolves_trans; [|exact K]. apply evolves_set, evolved_select. }
    destruct (Fx st5 V5) as (_ & _ & _ & _ & _ & _ & _ & _ & _ & QL & QO & _ & _ & QS).
    apply bind_ok. exists (if is_empty h then s else s ++ ", " ++ h), st7. split.
    { unfold build_selects. change (with_prefix (q_selects (get_q st5 id)) (if q_distinct (get_q st5 id) then "SELECT DISTINCT" else "SELECT")) with (select_clause (get_q st5 id)). fold (with_select (get_q st5 id)). rewrite QS, E6, E7, Es. destruct (is_empty h); reflexivity. }
    rewrite QL, QO, nonempty_with, from_nonempty.
    destruct (Fx st7 V7) as (_ & _ & _ & _ & _ & _ & _ & _ & _ & _ & _ & QU & _). rewrite QU.
    assert (V8 : evolves st st8) by (pose proof (do_all_evolves _ (fun b => b) (q_unions q) st7) as K; cbv beta in K; change (fun x : builder => rb x) with rb in K; rewrite Hu in K; eapply evolves_trans; eassumption).
    match goal with |- bind _ _ = (ROk (layout ?secs), _) => set (sc := secs) in * end.
    apply bind_ok. exists (layout sc), st8. split.
    { subst sc. unfold layout. cbn [s_with s_select s_hidden s_from s_where s_group s_order s_limit s_offset s_union]. 
      destruct (q_unions q) as [|u us0].
      - cbn in Hu. injection Hu as <- <-. reflexivity.
      - apply bind_ok. eexists _, st8. split; [apply union_ok_iff; exists us; split; [exact Hu|reflexivity]|]. reflexivity. }
    destruct (Fx st8 V8) as (_ & _ & _ & _ & _ & _ & _ & _ & _ & _ & _ & _ & QD & _). rewrite QD.
    destruct Dbg as [-> |Dbg]; [reflexivity|]. destruct (q_debug q); [|reflexivity]. destruct (interpolate _ _ _); try contradiction; reflexivity.
Qed.
End Clauses.
