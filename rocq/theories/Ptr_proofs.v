(** Proofs about fragments as objects. *)
From Coq Require Import Strings.String Strings.Ascii NArith ZArith List Bool Lia.
From Verif Require Import GoStr GoNum Syntax Value Util Model Sqlf Sqlb Ptr Spec_ptr Spec_query Spec_term Term_proofs.
Import ListNotations.
Open Scope string_scope.

(* ------------------------------------------------------------------ *)
(** * Children that build alike *)

Lemma f2_len : forall A B (R : A -> B -> Prop) l l', Forall2 R l l' -> List.length l = List.length l'.
Proof. intros A B R l l' H. induction H; cbn; congruence. Qed.

Section Congruence.
Variable rb : env -> builder -> store -> outcome string * store.
Definition alike (b b' : builder) : Prop := forall e st, rb e b st = rb e b' st.

Lemma alike_nth1 : forall l l' i, Forall2 alike l l' ->
  match nth1 l i, nth1 l' i with
  | Some b, Some b' => alike b b'
  | None, None => True
  | _, _ => False
  end.
Proof.
  intros l l' i H. unfold nth1. rewrite (f2_len _ _ _ _ _ H).
  destruct ((1 <=? i)%Z && (i <=? Z.of_nat (List.length l'))%Z); [|exact I].
  generalize (Z.to_nat (i - 1)) as k. induction H as [|b b' l l' Hb Hl IH]; intros [|k]; cbn; auto.
  apply IH.
Qed.

Section C.
Variable rc : env -> frame -> list expr -> fstate -> outcome string * fstate.
Variable jf : nat.
Variables fr fr' : list builder.
Variable args : list value.
Hypothesis Hfr : Forall2 alike fr fr'.
Hypothesis Hrc : forall e es T, rc e (mkFrame args fr) es T = rc e (mkFrame args fr') es T.
Let fc := mkFrame args fr.
Let fc' := mkFrame args fr'.

Lemma func_fragment_alike : forall e i T, func_fragment rb e fc i T = func_fragment rb e fc' i T.
Proof.
  intros e i T. unfold func_fragment. cbn [fr_frags fc fc']. pose proof (alike_nth1 fr fr' i Hfr) as H.
  destruct (nth1 fr i), (nth1 fr' i); try contradiction; [|reflexivity]. rewrite (H e (fs_st T)). reflexivity.
Qed.
Lemma join_loop_alike : forall n e es sep from to i acc T,
  join_loop rc n e fc es sep from to i acc T = join_loop rc n e fc' es sep from to i acc T.
Proof.
  induction n as [|n IH]; intros e es sep from to i acc T; cbn [join_loop]; [reflexivity|].
  unfold fc at 1. rewrite Hrc. fold fc'. destruct (rc e fc' (set_index i es) T) as [[s|er|er|] T']; try reflexivity.
  destruct ((0 <? to)%Z && (to <=? i)%Z); [reflexivity|]. apply IH.
Qed.
Lemma func_join_alike : forall e tmpl sep idx T, func_join rb rc jf e fc tmpl sep idx T = func_join rb rc jf e fc' tmpl sep idx T.
Proof.
  intros e tmpl sep idx T.
  assert (G : forall from to, 
    (if (0 <? to)%Z && (to <? from)%Z then (RErr (bad_range from to), T) else
    match parse tmpl with
    | PErr o m => (RErr (bad_template tmpl o m), T)
    | PPanic => (RPanic index_range, T)
    | PFuel => (RFuel, T)
    | POk es =>
      let '(r, st') := join_prep rb e es (fs_st T) in
      let T' := mkFS st' (fs_ua T) (fs_uf T) in
      match r with
      | ROk O => (RErr (no_function tmpl), T')
      | ROk _ => join_loop rc jf e fc es sep from to (if (from <=? 0)%Z then 1%Z else from) "" T'
      | RErr er => (RErr er, T')
      | RPanic er => (RPanic er, T')
      | RFuel => (RFuel, T')
      end
    end) = 
    (if (0 <? to)%Z && (to <? from)%Z then (RErr (bad_range from to), T) else
    match parse tmpl with
    | PErr o m => (RErr (bad_template tmpl o m), T)
    | PPanic => (RPanic index_range, T)
    | PFuel => (RFuel, T)
    | POk es =>
      let '(r, st') := join_prep rb e es (fs_st T) in
      let T' := mkFS st' (fs_ua T) (fs_uf T) in
      match r with
      | ROk O => (RErr (no_function tmpl), T')
      | ROk _ => join_loop rc jf e fc' es sep from to (if (from <=? 0)%Z then 1%Z else from) "" T'
      | RErr er => (RErr er, T')
      | RPanic er => (RPanic er, T')
      | RFuel => (RFuel, T')
      end
    end)).
  { intros from to. destruct ((0 <? to)%Z && (to <? from)%Z); [reflexivity|].
    destruct (parse tmpl) as [es|o m| |]; try reflexivity.
    destruct (join_prep rb e es (fs_st T)) as [[[|k]|er|er|] st']; try reflexivity. apply join_loop_alike. }
  unfold func_join. destruct idx as [|a [|b [|c idx]]]; try reflexivity; apply G.
Qed.
Lemma call_fn_alike : forall e f al T, call_fn rb rc jf e fc f al T = call_fn rb rc jf e fc' f al T.
Proof.
  intros e f al T. destruct f; cbn [call_fn]; try reflexivity.
  - apply func_fragment_alike.
  - destruct al as [|[] [|[] al]]; try reflexivity. apply func_join_alike.
Qed.
Lemma eval_expr_alike : forall e x T, eval_expr rb rc jf e fc x T = eval_expr rb rc jf e fc' x T.
Proof.
  intros e x T. destruct x; cbn [eval_expr]; try reflexivity.
  unfold eval_function. destruct (lookup_fn e name) as [f|]; [|reflexivity]. unfold eval_call.
  destruct (arity_ok _ _); [|reflexivity]. destruct (eval_args _ _); try reflexivity.
  destruct (any_rejected _ _); [reflexivity|]. rewrite call_fn_alike. reflexivity.
Qed.
Lemma clause_alike : forall e es T, clause rb rc jf e fc es T = clause rb rc jf e fc' es T.
Proof.
  intros e es. induction es as [|x es IH]; intros T; cbn [clause]; [reflexivity|].
  rewrite eval_expr_alike. destruct (eval_expr rb rc jf e fc' x T) as [[s|er|er|] T']; try reflexivity. rewrite IH. reflexivity.
Qed.
End C.

Lemma clause_n_alike : forall n e args fr fr' es T, Forall2 alike fr fr' ->
  clause_n n rb e (mkFrame args fr) es T = clause_n n rb e (mkFrame args fr') es T.
Proof.
  induction n as [|n IH]; intros e args fr fr' es T H; cbn [clause_n]; [reflexivity|].
  apply clause_alike; [exact H|]. intros. apply IH. exact H.
Qed.
Lemma build_frag_alike : forall n e raw args fr fr' p s st, Forall2 alike fr fr' ->
  build_frag n rb e (Frag raw args fr p s) st = build_frag n rb e (Frag raw args fr' p s) st.
Proof.
  intros n e raw args fr fr' p s st H. unfold build_frag. cbn [f_raw f_args f_frags f_prefix f_suffix].
  destruct (parse raw) as [es|o m| |]; try reflexivity.
  assert (M : map (fun _ : builder => false) fr = map (fun _ => false) fr').
  { clear -H. induction H; cbn; congruence. }
  rewrite M. rewrite (clause_n_alike n e args fr fr' es _ H). reflexivity.
Qed.
End Congruence.

Lemma frag_compositional : forall n e raw args fr fr' p s st,
  Forall2 (fun b b' => forall e st, build n e b st = build n e b' st) fr fr' ->
  build (S n) e (BFrag (Frag raw args fr p s)) st = build (S n) e (BFrag (Frag raw args fr' p s)) st.
Proof. intros. cbn [build]. apply build_frag_alike. assumption. Qed.
Lemma col_compositional : forall n e raw args fr fr' p s t st,
  Forall2 (fun b b' => forall e st, build n e b st = build n e b' st) fr fr' ->
  build (S n) e (BCol (Some (Frag raw args fr p s)) t) st = build (S n) e (BCol (Some (Frag raw args fr' p s)) t) st.
Proof. intros. cbn [build]. apply build_frag_alike. assumption. Qed.

Lemma unfold_deep : forall n d d' h e r st, n <= d -> n <= d' ->
  build n e (unfold_ref d h r) st = build n e (unfold_ref d' h r) st.
Proof.
  induction n as [|n IH]; intros d d' h e r st Hd Hd'; [reflexivity|].
  destruct d as [|d]; [lia|]. destruct d' as [|d']; [lia|].
  assert (K : forall l, Forall2 (fun b b' => forall e st, build n e b st = build n e b' st) (map (unfold_ref d h) l) (map (unfold_ref d' h) l)).
  { induction l as [|x l IL]; cbn; constructor; [|exact IL]. intros. apply IH; lia. }
  destruct r as [| |[a|]|[a|] t|b]; cbn [unfold_ref]; try reflexivity.
  - apply frag_compositional, K.
  - apply col_compositional, K.
Qed.

(* ------------------------------------------------------------------ *)
(** * Trees *)

Scheme sf_ind := Induction for stands_for Sort Prop
with sfo_ind := Induction for stands_for_obj Sort Prop
with sfl_ind := Induction for stand_for Sort Prop.
Combined Scheme stands_ind from sf_ind, sfo_ind, sfl_ind.

Lemma contents_read : forall A (arrs : list (list A)) s l, contents arrs s l -> read arrs s = l.
Proof.
  intros A arrs s l [Hl He]. unfold read.
  set (a := skipn (s_off s) (nth (s_arr s) arrs [])).
  assert (He' : forall i x, nth_error l i = Some x -> nth_error a i = Some x).
  { intros i x H. apply He in H as [_ H]. unfold a. rewrite <- H. clear. generalize (s_off s) as k. generalize (nth (s_arr s) arrs []) as m.
    induction m as [|y m IH]; intros [|k]; cbn; try reflexivity. - destruct i; reflexivity. - apply IH. }
  rewrite <- Hl. clearbody a. clear -He'. revert a He'. induction l as [|x l IH]; intros a He'; [reflexivity|].
  destruct a as [|y a]; [specialize (He' 0 x eq_refl); discriminate He'|]. cbn. f_equal.
  - specialize (He' 0 x eq_refl). cbn in He'. congruence.
  - apply IH. intros i z H. exact (He' (S i) z H).
Qed.
Lemma read_contents : forall A (arrs : list (list A)) s, in_array arrs s -> contents arrs s (read arrs s).
Proof.
  intros A arrs s [Hc Ha]. unfold contents, read.
  assert (L : s_off s + s_len s <= List.length (nth (s_arr s) arrs []) \/ s_len s = 0) by lia.
  assert (L2 : List.length (firstn (s_len s) (skipn (s_off s) (nth (s_arr s) arrs []))) = s_len s).
  { rewrite firstn_length, skipn_length. lia. }
  split; [exact L2|]. intros i x H.
  assert (Hi : i < s_len s) by (rewrite <- L2; apply nth_error_Some; congruence). split; [exact Hi|].
  revert H Hi. generalize (s_off s) as k. generalize (nth (s_arr s) arrs []) as m. clear.
  intros m k H Hi. rewrite <- H. clear H. transitivity (nth_error (skipn k m) i).
  - revert k. induction m as [|y m IH]; intros [|k]; cbn; try reflexivity; [destruct i; reflexivity|apply IH].
  - generalize (skipn k m) as l. revert i Hi. generalize (s_len s) as n. induction n as [|n IH]; intros i Hi l; [lia|].
    destruct l as [|y l]; [destruct i; reflexivity|]. destruct i as [|i]; cbn; [reflexivity|]. apply IH. lia.
Qed.
Lemma elem_read : forall A (arrs : list (list A)) s i x, nth_error (read arrs s) i = Some x -> elem arrs s i x.
Proof.
  intros A arrs s i x H. unfold read in H.
  assert (Hi : i < s_len s). { apply Nat.lt_le_trans with (List.length (firstn (s_len s) (skipn (s_off s) (nth (s_arr s) arrs [])))); [apply nth_error_Some; congruence|rewrite firstn_length; lia]. }
  split; [exact Hi|]. revert H Hi. generalize (s_off s) as k. generalize (nth (s_arr s) arrs []) as m. clear.
  intros m k H Hi. rewrite <- H. clear H. transitivity (nth_error (skipn k m) i).
  - revert k. induction m as [|y m IH]; intros [|k]; cbn; try reflexivity; [destruct i; reflexivity|apply IH].
  - generalize (skipn k m) as l. revert i Hi. generalize (s_len s) as n. induction n as [|n IH]; intros i Hi l; [lia|].
    destruct l as [|y l]; [destruct i; reflexivity|]. destruct i as [|i]; cbn; [reflexivity|]. apply IH. lia.
Qed.
Lemma child_in : forall h a r, In r (frags_of h a) -> child h a r.
Proof. intros h a r H. apply In_nth_error in H as [i H]. exists i. apply elem_read. exact H. Qed.

(** A tree is what deep unfolding gives. *)
Lemma tree_unfold : forall h,
  (forall r b, stands_for h r b -> exists d0, forall d, d0 <= d -> unfold_ref d h r = b) /\
  (forall a f, stands_for_obj h a f -> exists d0, forall d, d0 <= d ->
     Frag (o_raw (get_obj h a)) (args_of h a) (map (unfold_ref d h) (frags_of h a)) (o_prefix (get_obj h a)) (o_suffix (get_obj h a)) = f) /\
  (forall rs bs, stand_for h rs bs -> exists d0, forall d, d0 <= d -> map (unfold_ref d h) rs = bs).
Proof.
  intros h. apply stands_ind.
  - exists 0. intros [|d] _; reflexivity.
  - exists 0. intros [|d] _; reflexivity.
  - exists 0. intros [|d] _; reflexivity.
  - intros t. exists 0. intros [|d] _; reflexivity.
  - intros b. exists 0. intros [|d] _; reflexivity.
  - intros a f _ [d0 H]. exists (S d0). intros [|d] Hd; [lia|]. cbn [unfold_ref]. f_equal. apply H. lia.
  - intros a t f _ [d0 H]. exists (S d0). intros [|d] Hd; [lia|]. cbn [unfold_ref]. f_equal. f_equal. apply H. lia.
  - intros a o args rs frags Ho Ha Hr _ [d0 H]. exists d0. intros d Hd. unfold args_of, frags_of, get_obj. rewrite Ho.
    rewrite (contents_read _ _ _ _ Ha), (contents_read _ _ _ _ Hr), (H d Hd). reflexivity.
  - exists 0. reflexivity.
  - intros r rs b bs _ [d1 H1] _ [d2 H2]. exists (d1 + d2). intros d Hd. cbn [map]. rewrite H1, H2 by lia. reflexivity.
Qed.

Lemma build_tree : forall n h e r b st, stands_for h r b -> build_ref n h e r st = build n e b st.
Proof.
  intros n h e r b st H. destruct (proj1 (tree_unfold h) r b H) as [d0 Hd]. unfold build_ref.
  rewrite (unfold_deep n n (d0 + n) h e r st) by lia. rewrite Hd by lia. reflexivity.
Qed.

Lemma stands_det : forall h,
  (forall r b, stands_for h r b -> forall b', stands_for h r b' -> b = b').
Proof.
  intros h r b H b' H'. destruct (proj1 (tree_unfold h) _ _ H) as [d D], (proj1 (tree_unfold h) _ _ H') as [d' D'].
  rewrite <- (D (d + d')), <- (D' (d + d')) by lia. reflexivity.
Qed.

Lemma sound_get : forall h a, sound_heap h -> in_array (h_vals h) (o_args (get_obj h a)) /\ in_array (h_refs h) (o_frags (get_obj h a)).
Proof.
  intros h a H. unfold get_obj. destruct (nth_in_or_default a (h_objs h) zero_obj) as [Hi|He].
  - unfold sound_heap in H. rewrite Forall_forall in H. apply H, Hi.
  - rewrite He. cbn. split; split; cbn; auto.
Qed.

Lemma stand_for_map : forall h (f : ref -> builder) rs, (forall r, In r rs -> stands_for h r (f r)) -> stand_for h rs (map f rs).
Proof. intros h f rs. induction rs as [|r rs IH]; intros H; cbn; constructor; [apply H; left; reflexivity|apply IH; intros; apply H; right; assumption]. Qed.

Lemma acyclic_tree : forall h r, sound_heap h -> no_cycle h -> exists b, stands_for h r b.
Proof.
  intros h r Hs [rank Hr].
  assert (G : forall d r, (forall a, points r a -> rank a < d) -> stands_for h r (unfold_ref d h r)).
  { induction d as [|d IH]; intros r' Hd.
    - destruct r' as [| |[a|]|[a|] t|b]; cbn [unfold_ref]; try constructor.
      + specialize (Hd a (pt_frag a)). lia.
      + specialize (Hd a (pt_col a t)). lia.
    - assert (K : forall a, points r' a -> stands_for_obj h a
        (Frag (o_raw (get_obj h a)) (args_of h a) (map (unfold_ref d h) (frags_of h a)) (o_prefix (get_obj h a)) (o_suffix (get_obj h a)))).
      { intros a Ha. destruct (sound_get h a Hs) as [S1 S2]. apply sf_obj with (rs := frags_of h a); try (apply read_contents; assumption); [reflexivity|].
        apply stand_for_map. intros x Hx. apply IH. intros b Hb. specialize (Hr a x b (child_in _ _ _ Hx) Hb). specialize (Hd a Ha). lia. }
      destruct r' as [| |[a|]|[a|] t|b]; cbn [unfold_ref]; try constructor; apply K; constructor. }
  destruct r as [| |[a|]|[a|] t|b]; try (eexists; constructor; fail).
  - exists (unfold_ref (S (rank a)) h (PFrag (Some a))). apply G. intros b Hb. inversion Hb. lia.
  - exists (unfold_ref (S (rank a)) h (PCol (Some a) t)). apply G. intros b Hb. inversion Hb. lia.
Qed.

(** Cycles. *)
Lemma read_elem : forall A (arrs : list (list A)) s i x, elem arrs s i x -> nth_error (read arrs s) i = Some x.
Proof.
  intros A arrs s i x [Hi H]. rewrite <- H. unfold read. revert Hi. generalize (s_off s) as k. generalize (nth (s_arr s) arrs []) as m. clear.
  intros m k Hi. symmetry. transitivity (nth_error (skipn k m) i).
  - revert k. induction m as [|y m IH]; intros [|k]; cbn; try reflexivity; [destruct i; reflexivity|apply IH].
  - generalize (skipn k m) as l. revert i Hi. generalize (s_len s) as n. induction n as [|n IH]; intros i Hi l; [lia|].
    destruct l as [|y l]; [destruct i; reflexivity|]. destruct i as [|i]; cbn; [reflexivity|]. apply IH. lia.
Qed.
Lemma begins_never : forall rb rc jf fc es k b T, begins_with es k -> nth_error (fr_frags fc) k = Some b ->
  (forall st, fst (rb [builtins] b st) = RFuel) -> fst (clause rb rc jf [builtins] fc es T) = RFuel.
Proof.
  intros rb rc jf fc es k b T H Hk Hb. revert T. induction H as [t p es k H IH|name v p es k Hn Hv [x ->]]; intros T.
  - cbn [clause eval_expr]. specialize (IH Hk T). destruct (clause rb rc jf [builtins] fc es T) as [o T']. cbn in IH. rewrite IH. reflexivity.
  - cbn [clause eval_expr]. unfold eval_function.
    assert (L : lookup_fn [builtins] name = Some FnFragment) by (destruct Hn; subst name; reflexivity).
    rewrite L. unfold eval_call. cbn [sig_of]. change (arity_ok _ _) with true. cbn [eval_args].
    change (eval_args _ _) with (@ROk unit tt). change (any_rejected _ _) with false. cbn iota. cbn [call_fn]. rewrite Hv. unfold func_fragment.
    assert (N1 : nth1 (fr_frags fc) (Z.of_nat (S k)) = Some b).
    { unfold nth1. assert (k < List.length (fr_frags fc)) by (apply nth_error_Some; congruence).
      replace (1 <=? Z.of_nat (S k))%Z with true by (symmetry; apply Z.leb_le; lia).
      replace (Z.of_nat (S k) <=? Z.of_nat (List.length (fr_frags fc)))%Z with true by (symmetry; apply Z.leb_le; lia).
      cbn [andb]. replace (Z.to_nat (Z.of_nat (S k) - 1)) with k by lia. exact Hk. }
    rewrite N1. specialize (Hb (fs_st T)). destruct (rb [builtins] b (fs_st T)) as [o st']. cbn in Hb. rewrite Hb. reflexivity.
Qed.
Lemma endless_never_ptr : forall h C, endless_set h C -> forall n r a st, points r a -> C a ->
  fst (build_ref n h [builtins] r st) = RFuel.
Proof.
  intros h C HC. unfold build_ref. induction n as [|n IH]; intros r a st Hr Ha; [reflexivity|].
  destruct (HC a Ha) as (es & k & r' & b & Hp & Hb & He & Hpt & Hcb).
  assert (G : fst (build_frag n (build n) [builtins] (Frag (o_raw (get_obj h a)) (args_of h a) (map (unfold_ref n h) (frags_of h a)) (o_prefix (get_obj h a)) (o_suffix (get_obj h a))) st) = RFuel).
  { unfold build_frag. cbn [f_raw f_args f_frags]. unfold get_obj at 1. rewrite Hp.
    set (fc := mkFrame _ _). set (T := mkFS _ _ _).
    assert (Q : fst (clause_n n (build n) [builtins] fc es T) = RFuel).
    { destruct n as [|m]; [reflexivity|]. cbn [clause_n]. apply begins_never with (k := k) (b := unfold_ref (S m) h r'); [exact Hb| |].
      - unfold fc. cbn [fr_frags]. apply map_nth_error. apply read_elem. exact He.
      - intros st'. apply IH with (a := b); assumption. }
    destruct (clause_n n (build n) [builtins] fc es T) as [o T']. cbn in Q. rewrite Q. reflexivity. }
  destruct Hr; cbn [unfold_ref build]; exact G.
Qed.

(** Termination without cycles. *)
Lemma below_tree : forall rank k h,
  (forall b, (exists l, In l (h_refs h) /\ In (POther b) l) -> below rank k b) ->
  (forall r b, stands_for h r b -> (forall b0, r = POther b0 -> below rank k b0) -> below rank k b) /\
  (forall a f, stands_for_obj h a f -> below rank k (BFrag f) /\ forall t, below rank k (BCol (Some f) t)) /\
  (forall rs bs, stand_for h rs bs -> (forall b0, In (POther b0) rs -> below rank k b0) -> forall b, In b bs -> below rank k b).
Proof.
  intros rank k h Ho. apply stands_ind.
  - intros. apply bl_nil.
  - intros. apply bl_nilcol.
  - intros. apply bl_nilfrag.
  - intros. apply bl_emptycol.
  - intros b H. apply H. reflexivity.
  - intros a f _ [H _] _. exact H.
  - intros a t f _ [_ H] _. apply H.
  - intros a o args rs frags _ _ Hr _ H.
    assert (K : forall b, In b frags -> below rank k b).
    { apply H. intros b0 Hb. apply In_nth_error in Hb as [i Hi]. apply Hr in Hi as [_ Hi]. apply Ho.
      exists (nth (s_arr (o_frags o)) (h_refs h) []). split; [|apply nth_error_In with (1 := Hi)].
      destruct (nth_in_or_default (s_arr (o_frags o)) (h_refs h) []) as [E|E]; [exact E|]. rewrite E in Hi. destruct (s_off (o_frags o) + i); discriminate Hi. }
    split; [apply bl_frag; exact K|intros t; apply bl_col; exact K].
  - intros _ b [].
  - intros r rs b bs _ H1 _ H2 Hq b' [<-|Hb].
    + apply H1. intros b0 E. apply Hq. left. exact E.
    + apply H2; [|exact Hb]. intros b0 Hb0. apply Hq. right. exact Hb0.
Qed.
Lemma ref_halts : forall rank k h e r st, sound_heap h -> no_cycle h ->
  (forall b, (r = POther b \/ exists l, In l (h_refs h) /\ In (POther b) l) -> below rank k b) ->
  acyclic rank (st_heap st) -> bounded_env e ->
  exists n, fst (build_ref n h e r st) <> RFuel /\ forall m, n <= m -> build_ref m h e r st = build_ref n h e r st.
Proof.
  intros rank k h e r st Hs Hc Hb Ha He. destruct (acyclic_tree h r Hs Hc) as [b Hr].
  assert (B : below rank k b).
  { apply (proj1 (below_tree rank k h (fun b H => Hb b (or_intror H)))) with (r := r); [exact Hr|]. intros b0 E. apply Hb. left. exact E. }
  destruct (build_halts rank k e b st Ha He B) as (n & N1 & N2). exists n. split.
  - rewrite (build_tree n h e r b st Hr). exact N1.
  - intros m Hm. rewrite (build_tree m h e r b st Hr), (build_tree n h e r b st Hr). apply N2, Hm.
Qed.

(* ------------------------------------------------------------------ *)
(** * Methods *)

Lemma upd_same : forall A (l : list A) i x d, i < List.length l -> nth i (upd i x l) d = x.
Proof. induction l as [|y l IH]; intros i x d H; [cbn in H; lia|]. destruct i as [|i]; cbn; [reflexivity|]. apply IH. cbn in H. lia. Qed.
Lemma upd_other : forall A (l : list A) i j x d, i <> j -> nth j (upd i x l) d = nth j l d.
Proof.
  induction l as [|y l IH]; intros i j x d H; [destruct i; reflexivity|]. destruct i as [|i], j as [|j]; cbn; try reflexivity; [congruence|].
  apply IH. congruence.
Qed.
Lemma upd_length : forall A (l : list A) i x, List.length (upd i x l) = List.length l.
Proof. induction l as [|y l IH]; intros [|i] x; cbn; congruence. Qed.

Lemma method_objs : forall c a h h', sets c a -> exec c h = ROk h' ->
  h_vals h' = h_vals h /\ h_refs h' = h_refs h /\ (forall b, b <> a -> get_obj h' b = get_obj h b).
Proof.
  intros c a h h' Hs H. destruct Hs; cbn [exec on_obj] in H; injection H as <-; (apply conj; [reflexivity|apply conj; [reflexivity|]]);
    intros b Hb; unfold get_obj, set_obj; cbn [h_objs]; apply upd_other; congruence.
Qed.

(** Heaps that agree except on the object at [a]. *)
Definition same_but (a : nat) (h h' : fheap) : Prop :=
  forall b, b <> a -> get_obj h' b = get_obj h b /\
    (forall l, contents (h_vals h) (o_args (get_obj h b)) l -> contents (h_vals h') (o_args (get_obj h b)) l) /\
    (forall l, contents (h_refs h) (o_frags (get_obj h b)) l -> contents (h_refs h') (o_frags (get_obj h b)) l).
Lemma tree_same_but : forall h h' a, same_but a h h' ->
  (forall r b, stands_for h r b -> ~ reaches h r a -> stands_for h' r b) /\
  (forall a' f, stands_for_obj h a' f -> a' <> a -> (forall r, child h a' r -> ~ reaches h r a) -> stands_for_obj h' a' f) /\
  (forall rs bs, stand_for h rs bs -> (forall r, In r rs -> ~ reaches h r a) -> stand_for h' rs bs).
Proof.
  intros h h' a Ho. apply stands_ind; try (intros; constructor; fail).
  - intros b f _ H N. apply sf_frag. apply H.
    + intros ->. apply N. apply rc_here. constructor.
    + intros r Hc Hd. apply N. apply rc_down with (b := b) (r' := r); [constructor|exact Hc|exact Hd].
  - intros b t f _ H N. apply sf_col. apply H.
    + intros ->. apply N. apply rc_here. constructor.
    + intros r Hc Hd. apply N. apply rc_down with (b := b) (r' := r); [constructor|exact Hc|exact Hd].
  - intros b o args rs frags E Ha Hf _ H Hne Hc. destruct (Ho b Hne) as (O1 & O2 & O3). unfold get_obj in O1, O2, O3. rewrite E in O2, O3. apply sf_obj with (rs := rs).
    + rewrite O1. exact E.
    + apply O2. exact Ha.
    + apply O3. exact Hf.
    + apply H. intros r Hi. apply Hc. apply In_nth_error in Hi as [i Hi]. exists i. rewrite E. apply Hf. exact Hi.
  - intros r rs b bs _ H1 _ H2 N. constructor; [apply H1, N; left; reflexivity|apply H2; intros; apply N; right; assumption].
Qed.
Lemma method_same : forall c a h h', sets c a -> exec c h = ROk h' -> same_but a h h'.
Proof.
  intros c a h h' Hs H. destruct (method_objs c a h h' Hs H) as (V & R & O). intros b Hb. rewrite V, R, (O b Hb). auto.
Qed.
Lemma method_local : forall c a h h' r b, sets c a -> exec c h = ROk h' -> ~ reaches h r a -> stands_for h r b -> stands_for h' r b.
Proof. intros c a h h' r b Hs H N T. apply (proj1 (tree_same_but h h' a (method_same c a h h' Hs H))); assumption. Qed.

(** The size of a tree. *)
Fixpoint bsize (b : builder) : nat :=
  match b with
  | BFrag f | BCol (Some f) _ => S (fsize f)
  | _ => 0
  end
with fsize (f : fragment) : nat :=
  match f with Frag _ _ frags _ _ => (fix go l := match l with [] => 0 | b :: l' => bsize b + go l' end) frags end.
Definition lsize (l : list builder) : nat := (fix go l := match l with [] => 0 | b :: l' => bsize b + go l' end) l.
Lemma in_size : forall b l, In b l -> bsize b <= lsize l.
Proof. intros b l. induction l as [|x l IH]; intros H; [destruct H|].
  change (lsize (x :: l)) with (bsize x + lsize l). destruct H as [->|H]; [lia|]. specialize (IH H). lia. Qed.

Lemma stand_for_nth : forall h rs bs, stand_for h rs bs -> forall i r, nth_error rs i = Some r -> exists b, nth_error bs i = Some b /\ stands_for h r b.
Proof.
  intros h rs bs H. induction H as [|r rs b bs H1 H2 IH]; intros i r' Hi; [destruct i; discriminate|].
  destruct i as [|i]; cbn in Hi; [injection Hi as <-; exists b; auto|]. apply IH. exact Hi.
Qed.
Lemma contents_elem : forall A (arrs : list (list A)) s l i x, contents arrs s l -> elem arrs s i x -> nth_error l i = Some x.
Proof.
  intros A arrs s l i x [Hl Hc] [Hi He]. destruct (nth_error l i) as [y|] eqn:E.
  - apply Hc in E as [_ E]. congruence.
  - apply nth_error_None in E. lia.
Qed.
Lemma child_tree : forall h a f r, stands_for_obj h a f -> child h a r -> exists b, stands_for h r b /\ bsize b <= fsize f.
Proof.
  intros h a f r H [i Hi]. destruct H as [a o args rs frags E Ha Hr Hf]. rewrite E in Hi.
  pose proof (contents_elem _ _ _ _ _ _ Hr Hi) as N. destruct (stand_for_nth h rs frags Hf i r N) as (b & Hb & Hs).
  exists b. split; [exact Hs|]. apply nth_error_In in Hb. apply in_size in Hb. exact Hb.
Qed.
Lemma reach_tree : forall h r a, reaches h r a -> forall b, stands_for h r b -> exists f, stands_for_obj h a f /\ S (fsize f) <= bsize b.
Proof.
  intros h r a H. induction H as [r a Hp|r b0 r' a Hp Hc Hr IH]; intros b Hb.
  - destruct Hp; inversion Hb; subst; eexists; (split; [eassumption|]); cbn; lia.
  - assert (K : exists f0, stands_for_obj h b0 f0 /\ S (fsize f0) = bsize b).
    { destruct Hp; inversion Hb; subst; eexists; (split; [eassumption|]); reflexivity. }
    destruct K as (f0 & K1 & K2). destruct (child_tree h b0 f0 r' K1 Hc) as (b' & Hb' & Hle).
    destruct (IH b' Hb') as (f & F1 & F2). exists f. split; [exact F1|]. lia.
Qed.
Lemma obj_det : forall h a f f', stands_for_obj h a f -> stands_for_obj h a f' -> f = f'.
Proof.
  intros h a f f' H H'. pose proof (stands_det h _ _ (sf_frag h a f H) _ (sf_frag h a f' H')) as E. congruence.
Qed.
Lemma tree_no_self : forall h a f r, stands_for_obj h a f -> child h a r -> ~ reaches h r a.
Proof.
  intros h a f r H Hc Hr. destruct (child_tree h a f r H Hc) as (b & Hb & Hle).
  destruct (reach_tree h r a Hr b Hb) as (f' & F1 & F2). rewrite (obj_det h a f f' H F1) in Hle. lia.
Qed.

Lemma obj_same_but : forall h h' a f raw args rs frags p s, same_but a h h' -> stands_for_obj h a f ->
  contents (h_vals h') (o_args (get_obj h' a)) args -> contents (h_refs h') (o_frags (get_obj h' a)) rs -> stand_for h rs frags ->
  (forall r, In r rs -> ~ reaches h r a) -> o_raw (get_obj h' a) = raw -> o_prefix (get_obj h' a) = p -> o_suffix (get_obj h' a) = s ->
  stands_for_obj h' a (Frag raw args frags p s).
Proof.
  intros h h' a f raw args rs frags p s Hs Hf Ha Hr Hb Hn <- <- <-. apply sf_obj with (rs := rs); [reflexivity|exact Ha|exact Hr|].
  apply (proj2 (proj2 (tree_same_but h h' a Hs))); assumption.
Qed.

Lemma get_set : forall h a o, a < List.length (h_objs h) -> get_obj (set_obj h a o) a = o.
Proof. intros h a o H. unfold get_obj, set_obj. cbn [h_objs]. apply upd_same, H. Qed.
Lemma obj_children : forall h a raw args frags p s, stands_for_obj h a (Frag raw args frags p s) ->
  exists rs, contents (h_vals h) (o_args (get_obj h a)) args /\ contents (h_refs h) (o_frags (get_obj h a)) rs /\ stand_for h rs frags /\
    (forall r, In r rs -> ~ reaches h r a) /\ o_raw (get_obj h a) = raw /\ o_prefix (get_obj h a) = p /\ o_suffix (get_obj h a) = s.
Proof.
  intros h a raw args frags p s H. assert (H' := H). inversion H as [a' o args' rs frags' E Ha Hr Hf]. subst. exists rs.
  apply conj; [exact Ha|]. apply conj; [exact Hr|]. apply conj; [exact Hf|]. apply conj; [|auto].
  intros r Hi. apply (tree_no_self h a _ r H'). apply In_nth_error in Hi as [i Hi]. exists i. apply Hr. exact Hi.
Qed.

Lemma prefix_seen : forall h h' a raw args frags p0 s p, a < List.length (h_objs h) -> stands_for_obj h a (Frag raw args frags p0 s) ->
  exec (CPrefix (Some a) p) h = ROk h' -> stands_for_obj h' a (Frag raw args frags p s).
Proof.
  intros h h' a raw args frags p0 s p Hl Hf H. pose proof (method_same _ _ _ _ (st_prefix a p) H) as Hs.
  destruct (obj_children _ _ _ _ _ _ _ Hf) as (rs & C1 & C2 & C3 & C4 & <- & <- & <-).
  cbn [exec on_obj] in H. injection H as <-.
  apply obj_same_but with (h := h) (rs := rs) (f := Frag (o_raw (get_obj h a)) args frags (o_prefix (get_obj h a)) (o_suffix (get_obj h a)));
    try rewrite get_set by exact Hl; auto.
Qed.
Lemma suffix_seen : forall h h' a raw args frags p s0 s, a < List.length (h_objs h) -> stands_for_obj h a (Frag raw args frags p s0) ->
  exec (CSuffix (Some a) s) h = ROk h' -> stands_for_obj h' a (Frag raw args frags p s).
Proof.
  intros h h' a raw args frags p s0 s Hl Hf H. pose proof (method_same _ _ _ _ (st_suffix a s) H) as Hs.
  destruct (obj_children _ _ _ _ _ _ _ Hf) as (rs & C1 & C2 & C3 & C4 & <- & <- & <-).
  cbn [exec on_obj] in H. injection H as <-.
  apply obj_same_but with (h := h) (rs := rs) (f := Frag (o_raw (get_obj h a)) args frags (o_prefix (get_obj h a)) (o_suffix (get_obj h a)));
    try rewrite get_set by exact Hl; auto.
Qed.
Lemma args_seen : forall h h' a raw args0 args frags p s sl, a < List.length (h_objs h) -> stands_for_obj h a (Frag raw args0 frags p s) ->
  contents (h_vals h) sl args -> exec (CArgs (Some a) sl) h = ROk h' -> stands_for_obj h' a (Frag raw args frags p s).
Proof.
  intros h h' a raw args0 args frags p s sl Hl Hf Hc H. pose proof (method_same _ _ _ _ (st_args a sl) H) as Hs.
  destruct (obj_children _ _ _ _ _ _ _ Hf) as (rs & C1 & C2 & C3 & C4 & <- & <- & <-).
  cbn [exec on_obj] in H. injection H as <-.
  apply obj_same_but with (h := h) (rs := rs) (f := Frag (o_raw (get_obj h a)) args0 frags (o_prefix (get_obj h a)) (o_suffix (get_obj h a)));
    try rewrite get_set by exact Hl; auto.
Qed.
Lemma frags_seen : forall h h' a raw args frags0 frags p s sl rs, a < List.length (h_objs h) -> stands_for_obj h a (Frag raw args frags0 p s) ->
  contents (h_refs h) sl rs -> stand_for h rs frags -> (forall r, In r rs -> ~ reaches h r a) ->
  exec (CFrags (Some a) sl) h = ROk h' -> stands_for_obj h' a (Frag raw args frags p s).
Proof.
  intros h h' a raw args frags0 frags p s sl rs Hl Hf Hc Hb Hn H. pose proof (method_same _ _ _ _ (st_frags a sl) H) as Hs.
  destruct (obj_children _ _ _ _ _ _ _ Hf) as (rs0 & C1 & C2 & C3 & C4 & <- & <- & <-).
  cbn [exec on_obj] in H. injection H as <-.
  apply obj_same_but with (h := h) (rs := rs) (f := Frag (o_raw (get_obj h a)) args frags0 (o_prefix (get_obj h a)) (o_suffix (get_obj h a)));
    try rewrite get_set by exact Hl; auto.
Qed.
Lemma holder_sees : forall h a i b f raw args frags p s, elem (h_refs h) (o_frags (nth b (h_objs h) zero_obj)) i (PFrag (Some a)) ->
  stands_for_obj h a f -> stands_for_obj h b (Frag raw args frags p s) -> nth_error frags i = Some (BFrag f).
Proof.
  intros h a i b f raw args frags p s He Hf Hb. destruct (obj_children _ _ _ _ _ _ _ Hb) as (rs & _ & C2 & C3 & _).
  pose proof (contents_elem _ _ _ _ _ _ C2 He) as N. destruct (stand_for_nth h rs frags C3 i _ N) as (t & Ht & Hs).
  rewrite Ht. f_equal. apply (stands_det h _ _ Hs). apply sf_frag. exact Hf.
Qed.
Lemma nil_panics : forall c h, nil_method c -> exec c h = RPanic nil_deref.
Proof. intros c h H. destruct H; reflexivity. Qed.

(* ------------------------------------------------------------------ *)
(** * Appending *)

Lemma upd_nth_error : forall A (l : list A) i j x, nth_error (upd i x l) j = if (i =? j)%nat && (j <? List.length l)%nat then Some x else nth_error l j.
Proof.
  induction l as [|y l IH]; intros i j x.
  - rewrite andb_false_r by (destruct j; reflexivity). destruct i; reflexivity.
  - destruct i as [|i], j as [|j]; try reflexivity. cbn [upd nth_error List.length]. rewrite IH. reflexivity.
Qed.
Lemma write_length : forall A (xs l : list A) i, List.length (write i xs l) = List.length l.
Proof. induction xs as [|x xs IH]; intros l i; cbn [write]; [reflexivity|]. rewrite IH, upd_length. reflexivity. Qed.
Lemma write_before : forall A (xs l : list A) i j, j < i \/ i + List.length xs <= j -> nth_error (write i xs l) j = nth_error l j.
Proof.
  induction xs as [|x xs IH]; intros l i j H; cbn [write]; [reflexivity|]. cbn [List.length] in H. rewrite IH by lia.
  rewrite upd_nth_error. replace (i =? j)%nat with false by (symmetry; apply Nat.eqb_neq; lia). reflexivity.
Qed.
Lemma write_at : forall A (xs l : list A) i k, i + List.length xs <= List.length l -> k < List.length xs -> nth_error (write i xs l) (i + k) = nth_error xs k.
Proof.
  induction xs as [|x xs IH]; intros l i k Hl Hk; cbn [List.length] in Hl, Hk; [lia|]. cbn [write]. destruct k as [|k].
  - rewrite write_before by lia. rewrite upd_nth_error. rewrite Nat.add_0_r, Nat.eqb_refl.
    replace (i <? List.length l)%nat with true by (symmetry; apply Nat.ltb_lt; lia). reflexivity.
  - replace (i + S k) with (S i + k) by lia. cbn [nth_error]. apply IH; [rewrite upd_length; lia|lia].
Qed.

Section Append.
Context {A : Type}.
Variables (zero : A) (arrs arrs' : list (list A)) (s s' : slice) (xs : list A) (extra : nat).
Hypothesis Happ : append_slice zero arrs s xs extra = (arrs', s').

Lemma append_new : in_array arrs s -> forall l, contents arrs s l -> contents arrs' s' (l ++ xs)%list.
Proof.
  intros [Hs1 Hs2] l [Hl Hc]. unfold append_slice in Happ.
  destruct (s_len s + List.length xs <=? s_cap s)%nat eqn:E.
  - apply Nat.leb_le in E. injection Happ as <- <-. split; [cbn [s_len]; rewrite app_length; lia|].
    intros i x Hi. assert (Hlt : i < List.length (l ++ xs)) by (apply nth_error_Some; congruence). rewrite app_length in Hlt.
    split; [cbn [s_len]; lia|]. cbn [s_arr s_off].
    destruct Hs2 as [Hz|[Ha Hb]]; [lia|]. rewrite upd_same by exact Ha.
    destruct (Nat.lt_ge_cases i (s_len s)) as [Hi2|Hi2].
    + rewrite write_before by lia. rewrite nth_error_app1 in Hi by lia. apply Hc in Hi as [_ Hi]. exact Hi.
    + rewrite nth_error_app2 in Hi by lia. replace (s_off s + i) with (s_off s + s_len s + (i - s_len s)) by lia.
      rewrite write_at by lia. rewrite <- Hi. f_equal. lia.
  - injection Happ as <- <-. split; [cbn [s_len]; rewrite app_length; lia|].
    intros i x Hi. assert (Hlt : i < List.length (l ++ xs)) by (apply nth_error_Some; congruence). rewrite app_length in Hlt.
    split; [cbn [s_len]; lia|]. cbn [s_arr s_off]. rewrite app_nth2, Nat.sub_diag by lia. cbn [nth Nat.add].
    rewrite (contents_read _ _ _ _ (conj Hl Hc)). rewrite app_assoc, nth_error_app1; [exact Hi|]. rewrite app_length. lia.
Qed.
Lemma append_others : forall t m, in_array arrs t -> untouched t s (List.length xs) -> contents arrs t m -> contents arrs' t m.
Proof.
  intros t m [Ht1 Ht2] Hu [Hl Hc]. unfold append_slice in Happ.
  assert (K : forall i, i < s_len t -> nth_error (nth (s_arr t) arrs' []) (s_off t + i) = nth_error (nth (s_arr t) arrs []) (s_off t + i)).
  { intros i Hi. destruct (s_len s + List.length xs <=? s_cap s)%nat eqn:E.
    - apply Nat.leb_le in E. injection Happ as <- <-. destruct (Nat.eq_dec (s_arr s) (s_arr t)) as [Ea|Ea]; [|rewrite upd_other by exact Ea; reflexivity].
      rewrite Ea. destruct Hu as [Hu|[Hu|Hu]]; [lia|congruence|]. specialize (Hu i Hi).
      destruct (Nat.lt_ge_cases (s_arr t) (List.length arrs)) as [Hx|Hx]; [|lia].
      rewrite upd_same by exact Hx. apply write_before. lia.
    - injection Happ as <- <-. destruct Ht2 as [Hz|[Ha _]]; [lia|]. rewrite app_nth1 by exact Ha. reflexivity. }
  split; [exact Hl|]. intros i x Hi. destruct (Hc i x Hi) as [H1 H2]. split; [exact H1|]. rewrite K by exact H1. exact H2.
Qed.
Lemma append_in_array : forall t, in_array arrs t -> in_array arrs' t.
Proof.
  intros t [Ht1 Ht2]. split; [exact Ht1|]. destruct Ht2 as [Hz|[Ha Hb]]; [left; exact Hz|right]. unfold append_slice in Happ.
  destruct (s_len s + List.length xs <=? s_cap s)%nat eqn:E; injection Happ as <- <-.
  - rewrite upd_length. split; [exact Ha|]. destruct (Nat.eq_dec (s_arr s) (s_arr t)) as [Ea|Ea].
    + rewrite Ea, upd_same, write_length by exact Ha. exact Hb.
    + rewrite upd_other by exact Ea. exact Hb.
  - rewrite app_length, app_nth1 by exact Ha. split; [lia|exact Hb].
Qed.
Lemma append_new_in_array : in_array arrs s -> in_array arrs' s'.
Proof.
  intros Hs. pose proof (append_in_array s Hs) as Hs'. destruct Hs as [H1 H2]. unfold append_slice in Happ.
  destruct (s_len s + List.length xs <=? s_cap s)%nat eqn:E.
  - apply Nat.leb_le in E. injection Happ as Ea <-. destruct Hs' as [G1 G2]. split; cbn [s_len s_cap s_arr s_off]; [exact E|exact G2].
  - injection Happ as <- <-. split; cbn [s_len s_cap s_arr s_off]; [lia|]. right. rewrite app_length, app_nth2, Nat.sub_diag by lia. cbn [nth List.length].
    rewrite !app_length, repeat_length. pose proof (read_contents _ _ _ (conj H1 H2)) as [L _]. rewrite L. lia.
Qed.
End Append.

Lemma in_array_upd : forall A (arrs : list (list A)) k (l : list A) t, List.length l = List.length (nth k arrs []) ->
  in_array arrs t -> in_array (upd k l arrs) t.
Proof.
  intros A arrs k l t Hl [H1 H2]. split; [exact H1|]. destruct H2 as [H2|[H2 H3]]; [left; exact H2|right]. rewrite upd_length. split; [exact H2|].
  destruct (Nat.eq_dec k (s_arr t)) as [E|E].
  - subst k. rewrite upd_same by exact H2. rewrite Hl. exact H3.
  - rewrite upd_other by exact E. exact H3.
Qed.
Lemma in_array_more : forall A (arrs : list (list A)) m t, in_array arrs t -> in_array (arrs ++ m) t.
Proof.
  intros A arrs m t [H1 H2]. split; [exact H1|]. destruct H2 as [H2|[H2 H3]]; [left; exact H2|right]. rewrite app_length, app_nth1 by exact H2. split; [lia|exact H3].
Qed.
Lemma upd_in : forall A (l : list A) i x y, In y (upd i x l) -> y = x \/ In y l.
Proof.
  induction l as [|z l IH]; intros i x y H; [destruct i; destruct H|]. destruct i as [|i]; cbn in H.
  - destruct H as [H|H]; [left; congruence|right; right; exact H].
  - destruct H as [H|H]; [right; left; exact H|]. apply IH in H as [H|H]; [left; exact H|right; right; exact H].
Qed.
Lemma exec_sound : forall c h h', sound_heap h -> given_in_array h c -> exec c h = ROk h' -> sound_heap h'.
Proof.
  intros c h h' Hs Hg H. unfold sound_heap in *. rewrite Forall_forall in *.
  assert (Hget : forall a, in_array (h_vals h) (o_args (get_obj h a)) /\ in_array (h_refs h) (o_frags (get_obj h a))).
  { intros a. apply sound_get. unfold sound_heap. rewrite Forall_forall. exact Hs. }
  destruct c as [l k|l k|arr i v|arr i r|o|a p|a p|a s|a s|a vs x|a rs x]; cbn [exec] in H.
  - injection H as <-. intros o Ho. destruct (Hs o Ho). split; [apply in_array_more|]; assumption.
  - injection H as <-. intros o Ho. destruct (Hs o Ho). split; [|apply in_array_more]; assumption.
  - injection H as <-. intros o Ho. destruct (Hs o Ho). split; [apply in_array_upd; [apply upd_length|]|]; assumption.
  - injection H as <-. intros o Ho. destruct (Hs o Ho). split; [|apply in_array_upd; [apply upd_length|]]; assumption.
  - injection H as <-. intros o' Ho. cbn [h_objs] in Ho. apply in_app_or in Ho as [Ho|[<-|[]]]; [apply Hs, Ho|exact Hg].
  - destruct a as [a|]; cbn [on_obj] in H; [injection H as <-|discriminate H]. intros o Ho. apply upd_in in Ho as [->|Ho]; [exact (Hget a)|exact (Hs o Ho)].
  - destruct a as [a|]; cbn [on_obj] in H; [injection H as <-|discriminate H]. intros o Ho. apply upd_in in Ho as [->|Ho]; [exact (Hget a)|exact (Hs o Ho)].
  - destruct a as [a|]; cbn [on_obj] in H; [injection H as <-|discriminate H]. intros o Ho. apply upd_in in Ho as [->|Ho]; [split; [exact Hg|exact (proj2 (Hget a))]|exact (Hs o Ho)].
  - destruct a as [a|]; cbn [on_obj] in H; [injection H as <-|discriminate H]. intros o Ho. apply upd_in in Ho as [->|Ho]; [split; [exact (proj1 (Hget a))|exact Hg]|exact (Hs o Ho)].
  - destruct a as [a|]; cbn [on_obj] in H; [|discriminate H]. destruct (append_slice VNil (h_vals h) (o_args (get_obj h a)) vs x) as [vals s] eqn:E.
    injection H as <-. intros o Ho. cbn [h_objs h_vals h_refs] in *. apply upd_in in Ho as [->|Ho].
    + split; [exact (append_new_in_array _ _ _ _ _ _ _ E (proj1 (Hget a)))|exact (proj2 (Hget a))].
    + destruct (Hs o Ho) as [H1 H2]. split; [exact (append_in_array _ _ _ _ _ _ _ E _ H1)|exact H2].
  - destruct a as [a|]; cbn [on_obj] in H; [|discriminate H]. destruct (append_slice PNil (h_refs h) (o_frags (get_obj h a)) rs x) as [refs s] eqn:E.
    injection H as <-. intros o Ho. cbn [h_objs h_vals h_refs] in *. apply upd_in in Ho as [->|Ho].
    + split; [exact (proj1 (Hget a))|exact (append_new_in_array _ _ _ _ _ _ _ E (proj2 (Hget a)))].
    + destruct (Hs o Ho) as [H1 H2]. split; [exact H1|exact (append_in_array _ _ _ _ _ _ _ E _ H2)].
Qed.

(** AppendArgs and AppendFragments. *)
Lemma app_args_own : forall h h' a vs x l, sound_heap h -> a < List.length (h_objs h) -> exec (CAppArgs (Some a) vs x) h = ROk h' ->
  contents (h_vals h) (o_args (nth a (h_objs h) zero_obj)) l ->
  contents (h_vals h') (o_args (nth a (h_objs h') zero_obj)) (l ++ vs)%list.
Proof.
  intros h h' a vs x l Hs Ha H Hl. cbn [exec on_obj] in H. destruct (append_slice VNil (h_vals h) (o_args (get_obj h a)) vs x) as [vals s] eqn:E.
  injection H as <-. cbn [h_objs h_vals]. rewrite upd_same by exact Ha. cbn [o_args].
  apply (append_new _ _ _ _ _ _ _ E); [apply (sound_get h a Hs)|exact Hl].
Qed.
Lemma app_args_rest : forall h h' a vs x, exec (CAppArgs (Some a) vs x) h = ROk h' ->
  h_refs h' = h_refs h /\ (forall b, b <> a -> nth b (h_objs h') zero_obj = nth b (h_objs h) zero_obj) /\
  o_raw (get_obj h' a) = o_raw (get_obj h a) /\ o_frags (get_obj h' a) = o_frags (get_obj h a) /\
  o_prefix (get_obj h' a) = o_prefix (get_obj h a) /\ o_suffix (get_obj h' a) = o_suffix (get_obj h a).
Proof.
  intros h h' a vs x H. cbn [exec on_obj] in H. destruct (append_slice VNil (h_vals h) (o_args (get_obj h a)) vs x) as [vals s] eqn:E.
  injection H as <-. cbn [h_refs h_objs]. apply conj; [reflexivity|]. apply conj.
  - intros b Hb. apply upd_other. congruence.
  - unfold get_obj. cbn [h_objs]. destruct (Nat.lt_ge_cases a (List.length (h_objs h))) as [L|L].
    + rewrite upd_same by exact L. cbn. auto.
    + rewrite !nth_overflow by (try rewrite upd_length; exact L). auto.
Qed.
Lemma app_args_others : forall h h' a vs x t m, sound_heap h -> exec (CAppArgs (Some a) vs x) h = ROk h' ->
  in_array (h_vals h) t -> untouched t (o_args (nth a (h_objs h) zero_obj)) (List.length vs) ->
  contents (h_vals h) t m -> contents (h_vals h') t m.
Proof.
  intros h h' a vs x t m Hs H Ht Hu Hm. cbn [exec on_obj] in H. destruct (append_slice VNil (h_vals h) (o_args (get_obj h a)) vs x) as [vals s] eqn:E.
  injection H as <-. cbn [h_vals]. apply (append_others _ _ _ _ _ _ _ E); assumption.
Qed.
Lemma app_frags_own : forall h h' a rs x l, sound_heap h -> a < List.length (h_objs h) -> exec (CAppFrags (Some a) rs x) h = ROk h' ->
  contents (h_refs h) (o_frags (nth a (h_objs h) zero_obj)) l ->
  contents (h_refs h') (o_frags (nth a (h_objs h') zero_obj)) (l ++ rs)%list.
Proof.
  intros h h' a rs x l Hs Ha H Hl. cbn [exec on_obj] in H. destruct (append_slice PNil (h_refs h) (o_frags (get_obj h a)) rs x) as [refs s] eqn:E.
  injection H as <-. cbn [h_objs h_refs]. rewrite upd_same by exact Ha. cbn [o_frags].
  apply (append_new _ _ _ _ _ _ _ E); [apply (sound_get h a Hs)|exact Hl].
Qed.
Lemma app_frags_rest : forall h h' a rs x, exec (CAppFrags (Some a) rs x) h = ROk h' ->
  h_vals h' = h_vals h /\ (forall b, b <> a -> nth b (h_objs h') zero_obj = nth b (h_objs h) zero_obj) /\
  o_raw (get_obj h' a) = o_raw (get_obj h a) /\ o_args (get_obj h' a) = o_args (get_obj h a) /\
  o_prefix (get_obj h' a) = o_prefix (get_obj h a) /\ o_suffix (get_obj h' a) = o_suffix (get_obj h a).
Proof.
  intros h h' a rs x H. cbn [exec on_obj] in H. destruct (append_slice PNil (h_refs h) (o_frags (get_obj h a)) rs x) as [refs s] eqn:E.
  injection H as <-. cbn [h_vals h_objs]. apply conj; [reflexivity|]. apply conj.
  - intros b Hb. apply upd_other. congruence.
  - unfold get_obj. cbn [h_objs]. destruct (Nat.lt_ge_cases a (List.length (h_objs h))) as [L|L].
    + rewrite upd_same by exact L. cbn. auto.
    + rewrite !nth_overflow by (try rewrite upd_length; exact L). auto.
Qed.
Lemma app_frags_others : forall h h' a rs x t m, sound_heap h -> exec (CAppFrags (Some a) rs x) h = ROk h' ->
  in_array (h_refs h) t -> untouched t (o_frags (nth a (h_objs h) zero_obj)) (List.length rs) ->
  contents (h_refs h) t m -> contents (h_refs h') t m.
Proof.
  intros h h' a rs x t m Hs H Ht Hu Hm. cbn [exec on_obj] in H. destruct (append_slice PNil (h_refs h) (o_frags (get_obj h a)) rs x) as [refs s] eqn:E.
  injection H as <-. cbn [h_refs]. apply (append_others _ _ _ _ _ _ _ E); assumption.
Qed.

Lemma app_args_same : forall h h' a vs x, sound_heap h -> exec (CAppArgs (Some a) vs x) h = ROk h' ->
  (forall b, b <> a -> untouched (o_args (nth b (h_objs h) zero_obj)) (o_args (nth a (h_objs h) zero_obj)) (List.length vs)) -> same_but a h h'.
Proof.
  intros h h' a vs x Hs H Hu b Hb. destruct (app_args_rest _ _ _ _ _ H) as (R1 & R2 & _).
  apply conj; [exact (R2 b Hb)|]. apply conj.
  - intros l Hl. apply (app_args_others h h' a vs x); try assumption; [apply (sound_get h b Hs)|exact (Hu b Hb)].
  - intros l Hl. rewrite R1. exact Hl.
Qed.
Lemma app_frags_same : forall h h' a rs x, sound_heap h -> exec (CAppFrags (Some a) rs x) h = ROk h' ->
  (forall b, b <> a -> untouched (o_frags (nth b (h_objs h) zero_obj)) (o_frags (nth a (h_objs h) zero_obj)) (List.length rs)) -> same_but a h h'.
Proof.
  intros h h' a rs x Hs H Hu b Hb. destruct (app_frags_rest _ _ _ _ _ H) as (R1 & R2 & _).
  apply conj; [exact (R2 b Hb)|]. apply conj.
  - intros l Hl. rewrite R1. exact Hl.
  - intros l Hl. apply (app_frags_others h h' a rs x); try assumption; [apply (sound_get h b Hs)|exact (Hu b Hb)].
Qed.
Lemma app_args_tree : forall h h' a vs x raw args frags p s, sound_heap h -> a < List.length (h_objs h) -> exec (CAppArgs (Some a) vs x) h = ROk h' ->
  (forall b, b <> a -> untouched (o_args (nth b (h_objs h) zero_obj)) (o_args (nth a (h_objs h) zero_obj)) (List.length vs)) ->
  stands_for_obj h a (Frag raw args frags p s) ->
  stands_for_obj h' a (Frag raw (args ++ vs)%list frags p s) /\
  forall r b, ~ reaches h r a -> stands_for h r b -> stands_for h' r b.
Proof.
  intros h h' a vs x raw args frags p s Hs Ha H Hu Hf. pose proof (app_args_same _ _ _ _ _ Hs H Hu) as Sb.
  destruct (app_args_rest _ _ _ _ _ H) as (R1 & R2 & R3 & R4 & R5 & R6).
  destruct (obj_children _ _ _ _ _ _ _ Hf) as (rs & C1 & C2 & C3 & C4 & C5 & C6 & C7).
  split; [|intros r b N T; apply (proj1 (tree_same_but h h' a Sb)); assumption].
  apply obj_same_but with (h := h) (rs := rs) (f := Frag raw args frags p s); try congruence; try assumption.
  - apply (app_args_own h h' a vs x); assumption.
Qed.
Lemma app_frags_tree : forall h h' a rs bs x raw args frags p s, sound_heap h -> a < List.length (h_objs h) -> exec (CAppFrags (Some a) rs x) h = ROk h' ->
  (forall b, b <> a -> untouched (o_frags (nth b (h_objs h) zero_obj)) (o_frags (nth a (h_objs h) zero_obj)) (List.length rs)) ->
  stands_for_obj h a (Frag raw args frags p s) -> stand_for h rs bs -> (forall r, In r rs -> ~ reaches h r a) ->
  stands_for_obj h' a (Frag raw args (frags ++ bs)%list p s) /\
  forall r b, ~ reaches h r a -> stands_for h r b -> stands_for h' r b.
Proof.
  intros h h' a rs bs x raw args frags p s Hs Ha H Hu Hf Hb Hn. pose proof (app_frags_same _ _ _ _ _ Hs H Hu) as Sb.
  destruct (app_frags_rest _ _ _ _ _ H) as (R1 & R2 & R3 & R4 & R5 & R6).
  destruct (obj_children _ _ _ _ _ _ _ Hf) as (rs0 & C1 & C2 & C3 & C4 & C5 & C6 & C7).
  split; [|intros r b N T; apply (proj1 (tree_same_but h h' a Sb)); assumption].
  apply obj_same_but with (h := h) (rs := (rs0 ++ rs)%list) (f := Frag raw args frags p s); try congruence; try assumption.
  - apply (app_frags_own h h' a rs x); assumption.
  - clear -C3 Hb. induction C3 as [|r rs0 b bs0 H1 H2 IH]; [exact Hb|]. cbn. constructor; assumption.
  - intros r Hr. apply in_app_or in Hr as [Hr|Hr]; [apply C4, Hr|apply Hn, Hr].
Qed.

(** A write to an element by whoever holds the slice. *)
Lemma write_seen : forall h h' arr i v s j, exec (CSetVal arr i v) h = ROk h' -> s_arr s = arr -> s_off s + j = i ->
  arr < List.length (h_vals h) -> i < List.length (nth arr (h_vals h) []) -> j < s_len s -> elem (h_vals h') s j v.
Proof.
  intros h h' arr i v s j H <- <- Ha Hi Hj. cbn [exec] in H. injection H as <-. split; [exact Hj|]. cbn [h_vals]. rewrite upd_same by exact Ha.
  rewrite upd_nth_error, Nat.eqb_refl. apply Nat.ltb_lt in Hi. rewrite Hi. reflexivity.
Qed.

(* ------------------------------------------------------------------ *)
(** * Join conditions *)

Definition on_prefixed (J : list nat) (h h' : fheap) : Prop :=
  h_vals h' = h_vals h /\ h_refs h' = h_refs h /\ List.length (h_objs h') = List.length (h_objs h) /\
  (forall b, ~ In b J -> get_obj h' b = get_obj h b) /\
  (forall b, In b J -> b < List.length (h_objs h) ->
     get_obj h' b = mkObj (o_raw (get_obj h b)) (o_args (get_obj h b)) (o_frags (get_obj h b)) "ON" (o_suffix (get_obj h b))).

Lemma prefixed_more : forall J h h1 h2 a, on_prefixed J h h1 -> exec (CPrefix (Some a) "ON") h1 = ROk h2 -> on_prefixed (a :: J) h h2.
Proof.
  intros J h h1 h2 a (V & R & L & O1 & O2) H. cbn [exec on_obj] in H. injection H as <-.
  apply conj; [exact V|]. apply conj; [exact R|]. apply conj; [cbn [set_obj h_objs]; rewrite upd_length; exact L|]. apply conj.
  - intros b Hb. unfold get_obj, set_obj. cbn [h_objs]. rewrite upd_other by (intros ->; apply Hb; left; reflexivity).
    apply O1. intros K. apply Hb. right. exact K.
  - intros b Hb Hl. destruct (Nat.eq_dec a b) as [->|Hne].
    + rewrite get_set by (rewrite L; exact Hl). destruct (in_dec Nat.eq_dec b J) as [I1|I1].
      * rewrite (O2 b I1 Hl). reflexivity.
      * rewrite (O1 b I1). reflexivity.
    + destruct Hb as [Hb|Hb]; [congruence|]. unfold get_obj, set_obj. cbn [h_objs]. rewrite upd_other by exact Hne. apply O2; assumption.
Qed.
Lemma prefixed_ext : forall J K h h', (forall b, In b J <-> In b K) -> on_prefixed J h h' -> on_prefixed K h h'.
Proof.
  intros J K h h' E (V & R & L & O1 & O2). apply conj; [exact V|]. apply conj; [exact R|]. apply conj; [exact L|]. apply conj.
  - intros b Hb. apply O1. intros I1. apply Hb, E, I1.
  - intros b Hb. apply O2, E, Hb.
Qed.
Lemma run_prefixed : forall os J h h1 h', on_prefixed J h h1 -> run_steps (map SCall os) h1 = ROk h' ->
  on_prefixed (flat_map on_of os ++ J) h h' /\ Forall (fun o => match o with QJoin _ (String _ _, _) None _ => False | _ => True end) os.
Proof.
  induction os as [|o os IH]; intros J h h1 h' HJ H; cbn [map run_steps] in H.
  - injection H as <-. split; [exact HJ|constructor].
  - assert (Same : on_of o = [] -> (match o with QJoin _ (String _ _, _) None _ => False | _ => True end) -> call_effect o h1 = ROk h1 ->
      on_prefixed (flat_map on_of (o :: os) ++ J) h h' /\ Forall (fun o => match o with QJoin _ (String _ _, _) None _ => False | _ => True end) (o :: os)).
    { intros E1 E2 E3. rewrite E3 in H. destruct (IH J h h1 h' HJ H) as [G1 G2]. cbn [flat_map]. rewrite E1. split; [exact G1|constructor; [exact E2|exact G2]]. }
    destruct o as [|l|z|z|l|l|t|kind t on opt|f|c op v|c v|c v|c n|nm b dp]; try (apply Same; [reflexivity|exact I|reflexivity]; fail).
    destruct t as [[|ch nm] al]; [apply Same; [reflexivity|exact I|reflexivity]|].
    cbn [call_effect fst is_empty] in H. destruct on as [a|]; [|discriminate H].
    destruct (exec (CPrefix (Some a) "ON") h1) as [h2|er|er|] eqn:E; try discriminate H.
    destruct (IH (a :: J) h h2 h' (prefixed_more J h h1 h2 a HJ E) H) as [G1 G2]. split; [|constructor; [exact I|exact G2]].
    apply prefixed_ext with (2 := G1). intros b. cbn [flat_map on_of]. rewrite !in_app_iff. cbn. tauto.
Qed.
Lemma run_fails : forall os h, (forall h', run_steps (map SCall os) h <> ROk h') ->
  exists kind ch nm al opt, In (QJoin kind (String ch nm, al) None opt) os.
Proof.
  induction os as [|o os IH]; intros h H; [exfalso; exact (H h eq_refl)|]. cbn [map run_steps] in H.
  assert (Next : forall h1, call_effect o h = ROk h1 -> exists kind ch nm al opt, In (QJoin kind (String ch nm, al) None opt) (o :: os)).
  { intros h1 E. rewrite E in H. destruct (IH h1 H) as (kind & ch & nm & al & opt & G). exists kind, ch, nm, al, opt. right. exact G. }
  destruct o as [|l|z|z|l|l|t|kind t on opt|f|c op v|c v|c v|c n|nm b dp]; try (apply (Next h); reflexivity; fail).
  destruct t as [[|ch nm] al]; [apply (Next h); reflexivity|]. destruct on as [a|].
  - eapply Next. reflexivity.
  - exists kind, ch, nm, al, opt. left. reflexivity.
Qed.

Lemma unfold_prefixed : forall J h h', on_prefixed J h h' -> forall d r, (forall a, In a J -> ~ reaches h r a) -> unfold_ref d h' r = unfold_ref d h r.
Proof.
  intros J h h' (V & R & L & O1 & O2). induction d as [|d IH]; intros r Hr.
  - destruct r as [| |[a|]|[a|] t|b]; reflexivity.
  - assert (K : forall a, points r a -> get_obj h' a = get_obj h a /\ args_of h' a = args_of h a /\ map (unfold_ref d h') (frags_of h' a) = map (unfold_ref d h) (frags_of h a)).
    { intros a Ha. assert (N : ~ In a J) by (intros I1; apply (Hr a I1), rc_here, Ha). specialize (O1 a N).
      apply conj; [exact O1|]. apply conj; [unfold args_of; rewrite O1, V; reflexivity|].
      unfold frags_of. rewrite O1, R. apply map_ext_in. intros x Hx. apply IH. intros a' I' Q. apply (Hr a' I').
      apply rc_down with (b := a) (r' := x); [exact Ha|apply child_in, Hx|exact Q]. }
    destruct r as [| |[a|]|[a|] t|b]; try reflexivity.
    + destruct (K a (pt_frag a)) as (K1 & K2 & K3). cbn [unfold_ref]. rewrite K1, K2, K3. reflexivity.
    + destruct (K a (pt_col a t)) as (K1 & K2 & K3). cbn [unfold_ref]. rewrite K1, K2, K3. reflexivity.
Qed.
Lemma tree_prefixed : forall J h h' d a, on_prefixed J h h' -> In a J -> a < List.length (h_objs h) ->
  (forall r b, child h a r -> In b J -> ~ reaches h r b) -> tree_of d h' a = with_prefix (tree_of d h a) "ON".
Proof.
  intros J h h' d a HJ Ia La Hc. pose proof HJ as (V & R & L & O1 & O2). specialize (O2 a Ia La). unfold tree_of. cbn [unfold_ref].
  unfold args_of, frags_of. rewrite O2, V, R. cbn [o_raw o_args o_frags o_prefix o_suffix]. unfold with_prefix. cbn [f_raw f_args f_frags f_prefix f_suffix]. f_equal.
  apply map_ext_in. intros x Hx. apply unfold_prefixed with (1 := HJ). intros b Ib. apply Hc; [|exact Ib]. apply child_in. exact Hx.
Qed.
Lemma join_kept_on : forall kind t f opt q, join_kept kind t (Some (with_prefix f "ON")) opt q = qb_join kind t (Some f) opt q.
Proof. reflexivity. Qed.

Lemma papply_same : forall d h h' os o q, on_apart h os -> on_prefixed (flat_map on_of os) h h' -> In o os ->
  match o with QJoin _ (String _ _, _) None _ => False | _ => True end ->
  papply d h' o q = apply_op (at_build d h o) q.
Proof.
  intros d h h' os o q Ha HJ Ho Hn.
  assert (U : forall r, In r (refs_of o) -> unfold_ref d h' r = unfold_ref d h r).
  { intros r Hr. apply unfold_prefixed with (1 := HJ). intros a I1. apply (Ha a I1). apply in_flat_map. exists o. auto. }
  assert (UL : forall l, refs_of o = l -> map (unfold_ref d h') l = map (unfold_ref d h) l).
  { intros l E. apply map_ext_in. intros x Hx. apply U. rewrite E. exact Hx. }
  destruct o as [|l|z|z|l|l|t|kind t on opt|f|c op v|c v|c v|c n|nm b dp]; cbn [papply at_build]; try reflexivity.
  - rewrite (UL l eq_refl). reflexivity.
  - rewrite (UL l eq_refl). reflexivity.
  - rewrite (UL l eq_refl). reflexivity.
  - destruct t as [[|ch nm] al]; [reflexivity|]. destruct on as [a|]; [|contradiction]. cbn [option_map apply_op].
    assert (I1 : In a (flat_map on_of os)) by (apply in_flat_map; eexists; split; [exact Ho|left; reflexivity]).
    rewrite (tree_prefixed _ h h' d a HJ I1 (proj1 (Ha a I1))); [apply join_kept_on|].
    intros r b Hc Ib. apply (Ha b Ib) with (1 := I1). exact Hc.
  - destruct f as [a|]; [|reflexivity]. cbn [option_map]. unfold tree_of.
    rewrite (unfold_prefixed _ h h' HJ (S d) (PFrag (Some a))); [reflexivity|].
    intros b Ib. apply (Ha b Ib). apply in_flat_map. exists (QWhere (Some a)). split; [exact Ho|left; reflexivity].
  - rewrite (U c (or_introl eq_refl)). reflexivity.
  - rewrite (U c (or_introl eq_refl)). reflexivity.
  - rewrite (U c (or_introl eq_refl)). reflexivity.
  - rewrite (U c (or_introl eq_refl)). reflexivity.
  - rewrite (U b (or_introl eq_refl)). reflexivity.
Qed.

Lemma apply_nil_join : forall kind ch nm al opt d h os q q', In (QJoin kind (String ch nm, al) None opt) os ->
  apply_ops (map (at_build d h) os) q <> ROk q'.
Proof.
  intros kind ch nm al opt d h os. induction os as [|o os IH]; intros q q' Hi H; [destruct Hi|]. cbn [map apply_ops] in H.
  destruct Hi as [->|Hi]; [cbn [at_build option_map apply_op qb_join fst is_empty] in H; discriminate H|].
  destruct (apply_op (at_build d h o) q) as [q1|er|er|]; try discriminate H. exact (IH q1 q' Hi H).
Qed.

Lemma program_sound : forall d os h q, on_apart h os ->
  (final_qb d (map SCall os) h = ROk q <-> apply_ops (map (at_build d h) os) new_qb = ROk q).
Proof.
  intros d os h q Ha. unfold final_qb.
  assert (C : calls_of (map SCall os) = os).
  { unfold calls_of. induction os as [|o os' IH]; [reflexivity|]. cbn. f_equal. apply IH.
    intros a I1. destruct (Ha a) as (A1 & A2 & A3). { cbn. apply in_or_app. right. exact I1. }
    apply conj; [exact A1|]. apply conj.
    - intros r Hr. apply A2. cbn. apply in_or_app. right. exact Hr.
    - intros b r Hb. apply A3. cbn. apply in_or_app. right. exact Hb. }
  destruct (run_steps (map SCall os) h) as [h'|er|er|] eqn:E.
  - destruct (run_prefixed os [] h h h') as [HJ Hn]; [|exact E|].
    { apply conj; [reflexivity|]. apply conj; [reflexivity|]. apply conj; [reflexivity|]. apply conj; [reflexivity|intros b []]. }
    rewrite app_nil_r in HJ. rewrite C.
    assert (G : forall l q0, incl l os -> papplys d h' l q0 = apply_ops (map (at_build d h) l) q0).
    { induction l as [|o l IH]; intros q0 Hl; [reflexivity|]. cbn [papplys map apply_ops].
      rewrite (papply_same d h h' os o q0 Ha HJ (Hl o (or_introl eq_refl))).
      - destruct (apply_op (at_build d h o) q0) as [q1|er|er|]; try reflexivity. apply IH. intros x Hx. apply Hl. right. exact Hx.
      - rewrite Forall_forall in Hn. apply Hn, Hl. left. reflexivity. }
    rewrite (G os new_qb (incl_refl os)). reflexivity.
  - split; [discriminate|]. intros H. exfalso. destruct (run_fails os h) as (k & c & nm & al & op & Hi); [rewrite E; discriminate|].
    exact (apply_nil_join _ _ _ _ _ _ _ _ _ _ Hi H).
  - split; [discriminate|]. intros H. exfalso. destruct (run_fails os h) as (k & c & nm & al & op & Hi); [rewrite E; discriminate|].
    exact (apply_nil_join _ _ _ _ _ _ _ _ _ _ Hi H).
  - split; [discriminate|]. intros H. exfalso. destruct (run_fails os h) as (k & c & nm & al & op & Hi); [rewrite E; discriminate|].
    exact (apply_nil_join _ _ _ _ _ _ _ _ _ _ Hi H).
Qed.
Lemma join_marks : forall kind t a opt h h', fst t <> "" -> a < List.length (h_objs h) ->
  run_steps [SCall (QJoin kind t (Some a) opt)] h = ROk h' -> o_prefix (nth a (h_objs h') zero_obj) = "ON".
Proof.
  intros kind t a opt h h' Ht Ha H. cbn [run_steps call_effect] in H. destruct (is_empty (fst t)) eqn:E; [destruct (fst t); [congruence|discriminate E]|].
  cbn [exec on_obj] in H. injection H as <-. unfold set_obj. cbn [h_objs]. rewrite upd_same by exact Ha. reflexivity.
Qed.

(* ------------------------------------------------------------------ *)
(** * The calls a program makes *)

Lemma named : forall h o op, names h o op -> exists d0, forall d, d0 <= d -> at_build d h o = op.
Proof.
  intros h o op H. destruct (tree_unfold h) as (T1 & T2 & T3).
  assert (K : forall a f, stands_for_obj h a f -> exists d0, forall d, d0 <= d -> tree_of d h a = f).
  { intros a f Hf. destruct (T2 a f Hf) as [d0 D]. exists d0. intros d Hd. unfold tree_of. cbn [unfold_ref]. apply D. exact Hd. }
  destruct H; try (exists 0; intros; reflexivity).
  all: first [ destruct (T3 _ _ H) as [d0 D] | destruct (K _ _ H) as [d0 D] | destruct (T1 _ _ H) as [d0 D] ];
    exists d0; intros d Hd; cbn [at_build option_map]; rewrite (D d Hd); reflexivity.
Qed.
Lemma all_named : forall h os ops, Forall2 (names h) os ops -> exists d0, forall d, d0 <= d -> map (at_build d h) os = ops.
Proof.
  intros h os ops H. induction H as [|o op os ops H _ [d0 IH]]; [exists 0; reflexivity|]. destruct (named h o op H) as [d1 D].
  exists (d0 + d1). intros d Hd. cbn [map]. rewrite D, IH by lia. reflexivity.
Qed.
Theorem program_trees : forall os ops h, Forall2 (names h) os ops -> on_apart h os ->
  exists d0, forall d q, d0 <= d -> (final_qb d (map SCall os) h = ROk q <-> apply_ops ops new_qb = ROk q).
Proof.
  intros os ops h H Ha. destruct (all_named h os ops H) as [d0 D]. exists d0. intros d q Hd. rewrite <- (D d Hd). apply program_sound. exact Ha.
Qed.
Lemma with_same_prefix : forall f, f_prefix f = "ON" -> with_prefix f "ON" = f.
Proof. intros [r a fs p s] H. cbn in H. subst p. reflexivity. Qed.
Theorem program_final : forall l h h' ops, run_steps l h = ROk h' -> Forall2 (names h') (calls_of l) ops -> Forall on_marked ops ->
  exists d0, forall d, d0 <= d -> final_qb d l h = apply_ops ops new_qb.
Proof.
  intros l h h' ops R N M. destruct (all_named h' _ _ N) as [d0 D]. exists d0. intros d Hd. unfold final_qb. rewrite R. specialize (D d Hd). subst ops. clear N R Hd.
  generalize new_qb. induction (calls_of l) as [|o os IH]; intros q; [reflexivity|]. cbn [map papplys apply_ops] in *. inversion M as [|? ? M1 M2]; subst.
  replace (papply d h' o q) with (apply_op (at_build d h' o) q); [destruct (apply_op (at_build d h' o) q); try reflexivity; apply IH; exact M2|].
  destruct o as [|rs|z|z|rs|rs|t|kind t on opt|f|c op v|c v|c v|c n|nm b dp]; try reflexivity. cbn [at_build apply_op papply] in *.
  destruct on as [a|]; [|reflexivity]. cbn [option_map on_marked] in *. destruct M1 as [M1|M1].
  - unfold join_kept, qb_join. rewrite M1. reflexivity.
  - rewrite <- join_kept_on, with_same_prefix by exact M1. reflexivity.
Qed.
