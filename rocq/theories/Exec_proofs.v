(** Proofs for Prop_exec.v: executing what was built gives the answers of the
    statement that was described. *)
From Coq Require Import Strings.String Strings.Ascii NArith ZArith List Bool Lia Sorting.Permutation Sorting.Sorted.
From Verif Require Import GoStr GoNum Syntax Value Util Model Sqlf Sqlb Spec_syntax Num_proofs Store_proofs RefSem Spec_build
  Spec_util Spec_eval Spec_query Spec_sql Spec_interp Sql_proofs Interp_proofs Spec_answer Answer_proofs Sqltok_proofs Read_proofs Read2_proofs Spec_sqltok Spec_read Spec_exec.
Import ListNotations.
Open Scope string_scope.
Open Scope list_scope.

(** ** The statement a reading means *)
Definition required (j : join) : join := mkJoin (match j_kind j with JOptional _ => JLeft | k => k end) (j_table j) (j_left j) (j_right j).
Definition as_read (m : stmt) : stmt :=
  mkStmt (m_distinct m) (m_cols m ++ (if m_distinct m then map fst (m_orders m) else [])) (m_main m) (map required (m_shown m)) [] (m_groups m) (m_orders m)
    (Z.max 0 (m_limit m)) (Z.max 0 (m_offset m)).
Lemma each_map : forall X A C (f : A -> option C) (g : X -> A) (h : X -> C) l, (forall x, In x l -> f (g x) = Some (h x)) -> each f (map g l) = Some (map h l).
Proof.
  intros X A C f g h l. induction l as [|x l IH]; intros H; [reflexivity|]. cbn [map each]. rewrite (H x (or_introl eq_refl)), (IH (fun y Hy => H y (or_intror Hy))). reflexivity.
Qed.
Lemma join_of_said : forall j, join_of (join_said j) = Some (required j).
Proof. intros [k t a b]. destruct k; reflexivity. Qed.
Lemma order_code_words : forall o, (o <= 5)%N -> order_code (tokens false (nth (N.to_nat o) order_words "")) = Some o.
Proof.
  intros o H. assert (C : In o [0; 1; 2; 3; 4; 5]%N) by (cbn [In]; lia). cbn [In] in C.
  repeat (destruct C as [<-|C]; [vm_compute; reflexivity|]). destruct C.
Qed.
Lemma count_said : forall z, count_of (number_said z) = Some (Z.max 0 z).
Proof.
  intros z. unfold number_said. destruct (0 <? z)%Z eqn:Q.
  - apply Z.ltb_lt in Q. destruct z as [|p|p]; try lia. cbn [count_of]. change (itoa (Zpos p)) with (dec (Npos p)). rewrite digits_val_dec. reflexivity.
  - apply Z.ltb_ge in Q. cbn [count_of]. f_equal. lia.
Qed.
Lemma alias_inj : forall i j, nth_alias i = nth_alias j -> i = j.
Proof. intros i j H. apply itoa_nat_inj. unfold nth_alias in H. cbn [append] in H. injection H as H. exact H. Qed.
Lemma find_alias : forall (l : list (nat * (col * N))) x, NoDup (map fst l) -> In x l ->
  find (fun i : col * string => is_empty (fst (("", nth_alias (fst x)) : col)) && negb (is_empty (snd i)) && String.eqb (snd i) (snd (("", nth_alias (fst x)) : col)))
    (map (fun x => (fst (snd x), nth_alias (fst x))) l) = Some (fst (snd x), nth_alias (fst x)).
Proof.
  intros l x. induction l as [|y l IH]; intros Nd H; [destruct H|]. inversion Nd as [|? ? Ny Nd']; subst. cbn [map find fst snd is_empty andb].
  assert (Z : is_empty (nth_alias (fst y)) = false) by reflexivity. rewrite Z. cbn [negb andb]. destruct (String.eqb (nth_alias (fst y)) (nth_alias (fst x))) eqn:Q.
  - apply String.eqb_eq in Q. apply alias_inj in Q. destruct H as [->|H]; [reflexivity|]. destruct Ny. rewrite Q. apply in_map. exact H.
  - destruct H as [->|H]; [rewrite String.eqb_refl in Q; discriminate|]. apply IH; assumption.
Qed.
Lemma find_skip : forall A (p : A -> bool) a b, forallb (fun x => negb (p x)) a = true -> find p (a ++ b) = find p b.
Proof. intros A p a b. induction a as [|x a IH]; intros H; [reflexivity|]. cbn [forallb app find] in *. apply andb_prop in H. destruct H as [H1 H2]. destruct (p x); [discriminate|]. apply IH, H2. Qed.
Lemma numbered_nodup : forall m, NoDup (map fst (numbered m)).
Proof.
  intros m. unfold numbered. assert (G : forall (l : list (col * N)) s, map fst (combine (seq s (List.length l)) l) = seq s (List.length l)).
  { induction l as [|x l IH]; intros s; [reflexivity|]. cbn [List.length seq combine map fst]. rewrite IH. reflexivity. }
  rewrite G. apply seq_NoDup.
Qed.
Lemma col_eqb_refl : forall c, col_eqb c c = true.
Proof. intros [a b]. unfold col_eqb. cbn [fst snd]. rewrite !String.eqb_refl. reflexivity. Qed.
Theorem meaning_said : forall C m (cs : list C), named m -> meaning (said_by m cs) = Some (as_read m).
Proof.
  intros C m cs (_ & _ & _ & _ & _ & _ & No). unfold meaning, said_by. cbn [r_joins r_items r_orders r_limit r_offset r_distinct r_main r_groups].
  rewrite (each_map _ _ _ join_of join_said required) by (intros j _; apply join_of_said). rewrite !count_said.
  set (its := (map (fun c => (c, ""%string)) (m_cols m) ++ (if m_distinct m then map (fun x => (fst (snd x), nth_alias (fst x))) (numbered m) else []))).
  assert (O : each (order_of its) (map (fun x => (if m_distinct m then (""%string, nth_alias (fst x)) else fst (snd x), tokens false (nth (N.to_nat (snd (snd x))) order_words ""))) (numbered m)) =
    Some (map snd (numbered m))).
  { apply each_map. intros x Hx. unfold order_of. cbn [fst snd].
    assert (Hi : In (snd x) (m_orders m)) by (unfold numbered in Hx; destruct x as [i o]; apply in_combine_r in Hx; exact Hx).
    rewrite Forall_forall in No. destruct (No _ Hi) as [Nc Nn]. match goal with |- context [order_code ?t] => replace (order_code t) with (Some (snd (snd x))) by (symmetry; exact (order_code_words _ Nn)) end. cbn [option_map]. f_equal.
    assert (Q : order_col its (if m_distinct m then (""%string, nth_alias (fst x)) else fst (snd x)) = fst (snd x)); [|transitivity (fst (snd x), snd (snd x)); [f_equal; exact Q|destruct (snd x); reflexivity]].
    unfold order_col, its. rewrite find_skip.
    - destruct (m_distinct m); [|reflexivity]. rewrite (find_alias _ x (numbered_nodup m) Hx). reflexivity.
    - apply forallb_forall. intros i Hin. apply in_map_iff in Hin. destruct Hin as (c & <- & _). cbn [snd is_empty negb]. rewrite andb_false_r. reflexivity. }
  assert (NM : map snd (numbered m) = m_orders m) by exact (eq_trans (numbered_map _ (fun x => x) m) (map_id _)). rewrite O, NM.
  assert (S1 : map fst its = m_cols m ++ (if m_distinct m then map fst (m_orders m) else [])).
  { unfold its. rewrite map_app, map_map. cbn [fst]. rewrite map_id. f_equal. destruct (m_distinct m); [|reflexivity]. rewrite <- NM, !map_map. reflexivity. }
  rewrite S1. assert (G : m_distinct m && negb (forallb (fun o : col * N => existsb (col_eqb (fst o)) (m_cols m ++ (if m_distinct m then map fst (m_orders m) else []))) (m_orders m)) = false).
  { destruct (m_distinct m); [|reflexivity]. cbn [andb]. apply negb_false_iff. apply forallb_forall. intros o Ho. apply existsb_exists. exists (fst o). split; [|apply col_eqb_refl].
    apply in_or_app. right. apply in_map. exact Ho. }
  rewrite G. reflexivity.
Qed.

(** ** Its answers *)
Section Widen.
Variable D : database.
Definition widen (m : stmt) (r : result_row D) : result_row D := (wide_row m r, snd r).
Lemma required_rows : forall js es, fold_left (join_rows D) (map required js) es = fold_left (join_rows D) js es.
Proof. induction js as [|j js IH]; intros es; [reflexivity|]. cbn [map fold_left]. rewrite IH. f_equal. destruct j as [[| | | |b] t a c]; reflexivity. Qed.
Lemma as_read_results : forall m ts, results_where D (as_read m) ts = map (widen m) (results_where D (trimmed m) ts).
Proof.
  intros m ts. unfold results_where.
  assert (G : groups_of D (as_read m) ts = groups_of D (trimmed m) ts).
  { unfold groups_of, where_rows, from_rows. cbn [as_read trimmed m_groups m_joins m_main]. rewrite required_rows. reflexivity. }
  rewrite G, map_map. apply map_ext. intros g. unfold widen, wide_row. cbn [as_read trimmed m_cols m_orders fst snd]. f_equal.
  rewrite map_app. f_equal. destruct (m_distinct m); [|reflexivity]. rewrite map_map. reflexivity.
Qed.
Lemma app_same_tail : forall A (a b c d : list A), List.length a = List.length c -> a ++ b = c ++ d -> a = c.
Proof. induction a as [|x a IH]; intros b [|y c] d L H; try discriminate; [reflexivity|]. cbn [app] in H. injection H as -> H. f_equal. apply (IH b c d); [|exact H]. cbn [List.length] in L. lia. Qed.
Lemma widen_inj : forall m x y, List.length (fst x) = List.length (fst y) -> widen m x = widen m y -> x = y.
Proof. intros m [a b] [c d] L H. unfold widen, wide_row in H. cbn [fst snd] in *. inversion H; subst. f_equal. eapply app_same_tail; eassumption. Qed.
Lemma results_length : forall m ts x, In x (results_where D m ts) -> List.length (fst x) = List.length (m_cols m).
Proof. intros m ts x H. unfold results_where in H. apply in_map_iff in H. destruct H as (g & <- & _). apply map_length. Qed.
Lemma cut_map : forall A C (f : A -> C) m l, cut m (map f l) = map f (cut m l).
Proof. intros A C f m l. unfold cut. destruct (0 <? m_offset m)%Z; destruct (0 <? m_limit m)%Z; rewrite ?skipn_map, ?firstn_map; reflexivity. Qed.
Lemma cut_as_read : forall A m (l : list A), cut (as_read m) l = cut (trimmed m) l.
Proof.
  intros A m l. unfold cut, as_read, trimmed. cbn [m_offset m_limit].
  assert (P : forall z, (0 <? Z.max 0 z)%Z = (0 <? z)%Z) by (intros z; destruct (Z.ltb_spec 0 z), (Z.ltb_spec 0 (Z.max 0 z)); lia || reflexivity).
  rewrite !P. assert (N : forall z, (0 <? z)%Z = true -> Z.max 0 z = z) by (intros z H; apply Z.ltb_lt in H; lia).
  destruct (0 <? m_offset m)%Z eqn:Q1; destruct (0 <? m_limit m)%Z eqn:Q2; rewrite ?(N _ Q1), ?(N _ Q2); reflexivity.
Qed.
Lemma preimages : forall A C (f : A -> C) s R, (forall x, In x s -> In x (map f R)) -> exists s0, s = map f s0 /\ incl s0 R.
Proof.
  intros A C f s R. induction s as [|x s IH]; intros H; [exists []; split; [reflexivity|intros y []]|].
  destruct (IH (fun y Hy => H y (or_intror Hy))) as (s0 & -> & I0). specialize (H x (or_introl eq_refl)). apply in_map_iff in H. destruct H as (y & <- & Hy).
  exists (y :: s0). split; [reflexivity|]. intros z [<-|Hz]; [exact Hy|apply I0, Hz].
Qed.
Lemma sorted_widen : forall m (R : result_row D -> result_row D -> Prop) s, (forall a b, R (widen m a) (widen m b) <-> R a b) -> StronglySorted R (map (widen m) s) <-> StronglySorted R s.
Proof.
  intros m R s H. induction s as [|x s IH]; [split; intros _; constructor|]. cbn [map]. split; intros K; inversion K as [|? ? K1 K2]; subst; constructor.
  - apply IH, K1.
  - rewrite Forall_forall in *. intros y Hy. apply H, K2, in_map, Hy.
  - apply IH, K1.
  - rewrite Forall_forall in *. intros y Hy. apply in_map_iff in Hy. destruct Hy as (z & <- & Hz). apply H, K2, Hz.
Qed.
Theorem as_read_answers : forall m ts l', answers_where D (as_read m) ts l' <-> exists l, answers_where D (trimmed m) ts l /\ l' = map (widen m) l.
Proof.
  intros m ts l'. unfold answers_where. rewrite as_read_results. change (m_distinct (as_read m)) with (m_distinct m). change (m_distinct (trimmed m)) with (m_distinct m).
  change (m_orders (as_read m)) with (m_orders m). change (m_orders (trimmed m)) with (m_orders m).
  set (R := results_where D (trimmed m) ts). set (le := fun a b : result_row D => d_before D (map snd (m_orders m)) (snd a) (snd b)).
  assert (Hle : forall a b, le (widen m a) (widen m b) <-> le a b) by (intros a b; reflexivity).
  assert (Lr : forall x, In x R -> List.length (fst x) = List.length (m_cols m)) by (intros x Hx; apply (results_length _ _ _ Hx)).
  split.
  - intros (s & H & So & ->). assert (P : exists s0, s = map (widen m) s0 /\ (if m_distinct m then NoDup s0 /\ (forall x, In x s0 <-> In x R) else Permutation s0 R)).
    { destruct (m_distinct m).
      - destruct H as [Nd Hs]. destruct (preimages _ _ (widen m) s R (fun x Hx => proj1 (Hs x) Hx)) as (s0 & -> & I0). exists s0. split; [reflexivity|].
        split; [eapply NoDup_map_inv; exact Nd|]. intros x. split; [apply I0|]. intros Hx.
        assert (K : In (widen m x) (map (widen m) s0)) by (apply Hs, in_map, Hx). apply in_map_iff in K. destruct K as (y & Ey & Hy).
        assert (y = x) by (apply (widen_inj m); [rewrite (Lr y (I0 y Hy)), (Lr x Hx); reflexivity|exact Ey]). subst y. exact Hy.
      - apply Permutation_map_inv in H. destruct H as (s0 & -> & P). exists s0. split; [reflexivity|]. symmetry. exact P. }
    destruct P as (s0 & -> & P). exists (cut (trimmed m) s0). rewrite cut_as_read, cut_map. split; [|reflexivity]. exists s0. split; [exact P|]. split; [|reflexivity].
    apply (sorted_widen m le s0 Hle). exact So.
  - intros (l & (s & H & So & ->) & ->). exists (map (widen m) s). split; [|split; [apply (sorted_widen m le s Hle); exact So|rewrite cut_as_read, cut_map; reflexivity]].
    destruct (m_distinct m).
    + destruct H as [Nd Hs]. split.
      * assert (J : incl s R) by (intros x Hx; apply Hs, Hx). clear -Nd J Lr. induction Nd as [|x s Nx Nd IH]; [constructor|]. cbn [map]. constructor; [|apply IH; intros y Hy; apply J; right; exact Hy].
        intros K. apply in_map_iff in K. destruct K as (y & Ey & Hy). apply Nx.
        assert (y = x) by (apply (widen_inj m); [rewrite (Lr y (J y (or_intror Hy))), (Lr x (J x (or_introl eq_refl))); reflexivity|exact Ey]). subst y. exact Hy.
      * intros x. split; intros K; apply in_map_iff in K; destruct K as (y & <- & Hy); apply in_map, Hs, Hy.
    + apply Permutation_map. exact H.
Qed.
End Widen.

(** ** Operands *)
Section Operands.
Variable E : engine.
Lemma values_app : forall args a k b, operand_values E args k (a ++ b) =
  match operand_values E args k a, operand_values E args (k + questions a) b with Some x, Some y => Some (x ++ y) | _, _ => None end.
Proof.
  intros args a. induction a as [|l a IH]; intros k b; [cbn; rewrite Nat.add_0_r; destruct (operand_values E args k b); reflexivity|].
  cbn [app operand_values]. rewrite IH. unfold questions. cbn [filter]. destruct (operand_value E args k l) as [v|]; [|reflexivity].
  assert (K : (if is_question l then Datatypes.S k else k) + List.length (filter is_question a) = k + List.length (if is_question l then l :: filter is_question a else filter is_question a)) by (destruct (is_question l); cbn [List.length]; lia).
  rewrite <- K. destruct (operand_values E args (if is_question l then Datatypes.S k else k) a) as [x|]; [|reflexivity].
  destruct (operand_values E args _ b); reflexivity.
Qed.
Lemma values_len : forall args ls k vs, operand_values E args k ls = Some vs -> List.length vs = List.length ls.
Proof.
  intros args ls. induction ls as [|l ls IH]; intros k vs H; cbn [operand_values] in H; [injection H as <-; reflexivity|].
  destruct (operand_value E args k l); [|discriminate]. destruct (operand_values E args _ ls) as [w|] eqn:Q; [|discriminate]. injection H as <-. cbn [List.length]. rewrite (IH _ _ Q). reflexivity.
Qed.
Lemma app_split : forall A (a b c d : list A), List.length a = List.length c -> a ++ b = c ++ d -> a = c /\ b = d.
Proof. induction a as [|x a IH]; intros b [|y c] d L H; try discriminate; [auto|]. cbn [app] in H. injection H as -> H. destruct (IH b c d ltac:(cbn in L; lia) H) as [-> ->]. auto. Qed.
Theorem tests_said : forall args cs k phs, List.length phs = List.length (flat_map cond_args cs) -> operand_values E args k phs = Some (map (e_bound E) (flat_map cond_args cs)) ->
  tests_read E args k (conds_said cs phs) = Some (map (fun x => (cond_col x, fun v => e_test E (test_said x) v (map (e_bound E) (cond_args x)))) cs).
Proof.
  intros args cs. induction cs as [|x cs IH]; intros k phs L V; [reflexivity|]. cbn [flat_map] in L, V. rewrite app_length in L. cbn [conds_said map].
  set (n := List.length (cond_args x)) in *. rewrite <- (firstn_skipn n phs) in V. rewrite values_app, map_app in V.
  destruct (operand_values E args k (firstn n phs)) as [a|] eqn:Qa; [|discriminate]. destruct (operand_values E args (k + questions (firstn n phs)) (skipn n phs)) as [b|] eqn:Qb; [|discriminate].
  injection V as V. apply app_split in V; [|rewrite (values_len _ _ _ _ Qa), map_length, firstn_length_le; [reflexivity|lia]]. destruct V as [-> ->].
  assert (Ls : List.length (skipn n phs) = List.length (flat_map cond_args cs)) by (rewrite skipn_length; lia).
  specialize (IH _ _ Ls Qb). destruct x as [c o v|c l|c l]; cbn [cond_said tests_read cond_col test_said]; rewrite Qa, IH; reflexivity.
Qed.
Lemma question_values : forall (done args : list value), operand_values E (done ++ args) (List.length done) (map (fun _ => [TOp "?"]) args) = Some (map (e_bound E) args).
Proof.
  intros done args. revert done. induction args as [|v args IH]; intros done; [reflexivity|]. cbn [map operand_values operand_value is_question Ascii.eqb Bool.eqb].
  rewrite nth_error_app2 by lia. rewrite Nat.sub_diag. cbn [nth_error option_map].
  specialize (IH (done ++ [v])). rewrite app_length, <- app_assoc in IH. cbn [List.length app] in IH. replace (List.length done + 1) with (Datatypes.S (List.length done)) in IH by lia. rewrite IH. reflexivity.
Qed.
Lemma dollar_values : forall args phs l k, by_value E -> Forall2 (dollar_operand args) phs l -> operand_values E args k phs = Some (map (e_bound E) l).
Proof.
  intros args phs l k Hv F. revert k. induction F as [|ts v phs l (n & w & -> & Hn & Nw & Sv) F IH]; intros k; [reflexivity|].
  cbn [operand_values operand_value is_question map]. unfold argument. rewrite digits_val_dec.
  assert (P : (0 <? N.of_nat n)%N = true) by (apply N.ltb_lt; lia). rewrite P, Nat2N.id, Nw. cbn [option_map]. rewrite IH, (Hv v w Sv). reflexivity.
Qed.
Lemma literal_value : forall ft v ts k args, stands ft v ts -> operand_value E args k ts = Some (e_literal E ts) /\ is_question ts = false.
Proof.
  intros ft v ts k args H. induction H as [|ty r w ts H IH|t Ht|t Ht|ty r s|ty|ty|ty z|ty f ts H|ty s]; try (split; reflexivity); [exact IH| |].
  - unfold signed. destruct (z <? 0)%Z; split; reflexivity.
  - destruct H as [f neg d _ _| |neg]; [unfold signed; destruct neg; split; reflexivity|split; reflexivity|destruct neg; split; reflexivity].
Qed.
Lemma literal_values : forall ft all args l vs k, reads_literals E ft all -> incl l all -> Forall2 (stands ft) l vs -> operand_values E args k vs = Some (map (e_bound E) l).
Proof.
  intros ft all args l vs k Hr Hi F. revert k. induction F as [|v ts l vs H F IH]; intros k; [reflexivity|]. cbn [operand_values map].
  destruct (literal_value ft v ts k args H) as [-> ->]. rewrite (IH (fun y Hy => Hi y (or_intror Hy))), (Hr v ts (Hi v (or_introl eq_refl)) H). reflexivity.
Qed.
Theorem executed : forall args m text phs rows, named m -> List.length phs = List.length (m_args m) -> read_select (tokens false text) = Some (said m phs) ->
  operand_values E args 0 phs = Some (map (e_bound E) (m_args m)) -> executes E args text rows <-> listed_answers E (trimmed m) rows.
Proof.
  intros args m text phs rows Nm L R V. pose proof (meaning_said _ m (conds_said (m_conds m) phs) Nm) as M. pose proof (tests_said args (m_conds m) 0 phs L V) as T.
  unfold executes, listed_answers. split.
  - intros (r & m' & ts & l & H1 & H2 & H3 & H4 & ->). rewrite R in H1. injection H1 as <-. unfold said in H2. rewrite M in H2. injection H2 as <-. cbn [said said_by r_conds] in H3. rewrite T in H3. injection H3 as <-.
    apply as_read_answers in H4. destruct H4 as (l0 & H4 & ->). exists l0. split; [exact H4|]. rewrite map_map. reflexivity.
  - intros (l & H & ->). exists (said m phs), (as_read m), (map (fun x => (cond_col x, fun v => e_test E (test_said x) v (map (e_bound E) (cond_args x)))) (m_conds m)), (map (widen (e_data E) m) l).
    split; [exact R|]. split; [exact M|]. split; [exact T|]. split; [|rewrite map_map; reflexivity]. apply as_read_answers. exists l. split; [exact H|reflexivity].
Qed.
End Operands.

(** ** Built statements *)
Theorem exec_question : forall m os style, style <> style_dollar -> stmt_ok m -> named m -> describes os m ->
  exists q, apply_ops os new_qb = ROk q /\ forall n, 5 + m_size m <= n -> exists text args,
    fst (build_query n style [q] (BQuery (Some 0))) = ROk (text, args) /\ forall E rows, executes E args text rows <-> listed_answers E (trimmed m) rows.
Proof.
  intros m os style Hs Ok Nm D. destruct (question_read m os style Hs Ok Nm D) as (q & A & H). exists q. split; [exact A|].
  intros n Hn. destruct (H n Hn) as (text & B & R). exists text, (m_args m). split; [exact B|]. intros E rows. apply (executed E _ m text _ rows Nm (map_length _ _) R). apply (question_values E []).
Qed.
Theorem exec_dollar : forall m os, stmt_ok m -> named m -> describes os m -> forallb hashable (m_args m) = true ->
  exists q, apply_ops os new_qb = ROk q /\ forall n, 5 + m_size m <= n -> exists text args,
    fst (build_query n style_dollar [q] (BQuery (Some 0))) = ROk (text, args) /\ forall E rows, by_value E -> executes E args text rows <-> listed_answers E (trimmed m) rows.
Proof.
  intros m os Ok Nm D Hh. destruct (dollar_read m os Ok Nm D Hh) as (q & phs & A & F & H). exists q. split; [exact A|].
  intros n Hn. destruct (H n Hn) as (text & B & R). exists text, (firsts [] (m_args m)). split; [exact B|]. intros E rows Hv.
  apply (executed E _ m text phs rows Nm (f2_len _ _ _ F) R). apply dollar_values; assumption.
Qed.
Theorem exec_shown : forall ft m os style lits, style <> style_dollar -> stmt_ok m -> named m -> describes os m ->
  Forall2 (literal ft) (m_args m) lits -> forallb (readable false ft) (m_args m) = true ->
  exists q, apply_ops os new_qb = ROk q /\ forall n, 5 + m_size m <= n -> exists s args out,
    fst (build_query n style [q] (BQuery (Some 0))) = ROk (s, args) /\ interpolate ft s args = ROk out /\
    forall E any rows, reads_literals E ft (m_args m) -> executes E any out rows <-> executes E args s rows.
Proof.
  intros ft m os style lits Hs Ok Nm D F Rd. destruct (question_shown_read ft m os style lits Hs Ok Nm D F Rd) as (q & vs & A & V & H).
  destruct (exec_question m os style Hs Ok Nm D) as (q' & A' & H'). assert (q' = q) by congruence. subst q'. exists q. split; [exact A|].
  intros n Hn. destruct (H n Hn) as (s & args & out & B & I & R). destruct (H' n Hn) as (s' & args' & B' & X). rewrite B in B'. injection B' as <- <-.
  exists s, args, out. split; [exact B|]. split; [exact I|]. intros E any rows Hr. rewrite X. apply (executed E any m out vs rows Nm (eq_sym (f2_len _ _ _ V)) R).
  apply (literal_values E ft (m_args m)); [exact Hr|apply incl_refl|exact V].
Qed.
Theorem exec_shown_dollar : forall ft m os lits, stmt_ok m -> named m -> describes os m -> forallb hashable (m_args m) = true ->
  (Z.of_nat (List.length (m_args m)) < 9223372036854775808)%Z -> Forall2 (literal ft) (m_args m) lits -> literal_by_value ft (m_args m) ->
  forallb (readable false ft) (m_args m) = true ->
  exists q, apply_ops os new_qb = ROk q /\ forall n, 5 + m_size m <= n -> exists s args out,
    fst (build_query n style_dollar [q] (BQuery (Some 0))) = ROk (s, args) /\ interpolate ft s args = ROk out /\
    forall E any rows, by_value E -> reads_literals E ft (m_args m) -> executes E any out rows <-> executes E args s rows.
Proof.
  intros ft m os lits Ok Nm D Hh Hz F Hl Rd. destruct (dollar_shown_read ft m os lits Ok Nm D Hh Hz F Hl Rd) as (q & vs & A & V & H).
  destruct (exec_dollar m os Ok Nm D Hh) as (q' & A' & H'). assert (q' = q) by congruence. subst q'. exists q. split; [exact A|].
  intros n Hn. destruct (H n Hn) as (s & args & out & B & I & R). destruct (H' n Hn) as (s' & args' & B' & X). rewrite B in B'. injection B' as <- <-.
  exists s, args, out. split; [exact B|]. split; [exact I|]. intros E any rows Hb Hr. rewrite (X E rows Hb). apply (executed E any m out vs rows Nm (eq_sym (f2_len _ _ _ V)) R).
  apply (literal_values E ft (m_args m)); [exact Hr|apply incl_refl|exact V].
Qed.
Theorem exec_styles : forall m os style, style <> style_dollar -> stmt_ok m -> named m -> describes os m -> forallb hashable (m_args m) = true ->
  exists q, apply_ops os new_qb = ROk q /\ forall n, 5 + m_size m <= n -> exists s args s' args',
    fst (build_query n style [q] (BQuery (Some 0))) = ROk (s, args) /\ fst (build_query n style_dollar [q] (BQuery (Some 0))) = ROk (s', args') /\
    forall E rows, by_value E -> executes E args s rows <-> executes E args' s' rows.
Proof.
  intros m os style Hs Ok Nm D Hh. destruct (exec_question m os style Hs Ok Nm D) as (q & A & H). destruct (exec_dollar m os Ok Nm D Hh) as (q' & A' & H'). assert (q' = q) by congruence. subst q'.
  exists q. split; [exact A|]. intros n Hn. destruct (H n Hn) as (s & args & B & X). destruct (H' n Hn) as (s' & args' & B' & X').
  exists s, args, s', args'. split; [exact B|]. split; [exact B'|]. intros E rows Hv. rewrite X, (X' E rows Hv). reflexivity.
Qed.
(** With the conditions of C76, the answers of the statement with all its joins. *)
Theorem listed_trimmed : forall m, stmt_ok m -> closed m -> by_groups m -> forall E, tableless (database_of E) m -> forall rows, listed_answers E (trimmed m) rows <-> listed_answers E m rows.
Proof.
  intros m Ok Hc Hg E Ht rows. unfold listed_answers. split; intros (l & H & ->); exists l; (split; [|reflexivity]); apply (trimmed_answers m Ok Hc Hg _ Ht); exact H.
Qed.
