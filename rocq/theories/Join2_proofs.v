(** Facts about #join in a build. *)
From Coq Require Import Strings.String Strings.Ascii NArith ZArith List Bool Lia.
From Verif Require Import GoStr GoNum Syntax Value Util Model Sqlf Sqlb Spec_syntax ByteLex Lex_proofs Grammar_proofs
  Lossless_proofs Num_proofs RefSem Spec_build Spec_eval Text_proofs Sim_proofs Fuel_proofs Order_proofs Store_proofs Build_proofs
  Eval_proofs Use_proofs Join_proofs.
Import ListNotations.
Open Scope string_scope.

(* ------------------------------------------------------------------ *)
(** * Joining the fragments, joining the arguments *)

Section Frags.
Variable rb : env -> builder -> store -> outcome string * store.
Variables k jf : nat.
Variable e : env.
Variable fc : frame.
Variables jn nm sep : string.
Hypothesis Hj : lookup_fn e jn = Some FnJoin.
Hypothesis Hw : wf_name nm = true.
Hypothesis Hfn : lookup_fn e nm = Some FnFragment.
Let it (i : Z) (X : fstate) := safe nm (func_fragment rb e fc i X).
Let Hit : forall es i X, norm (map strip es) = [AFunc nm] -> clause_n (S k) rb e fc (set_index i es) X = it i X.
Proof. intros. apply frag_item; assumption. Qed.
Let items := fr_frags fc.
Let len := Z.of_nat (List.length items).
Let call := join_call rb k jf e fc jn nm sep.
Let after (from to : Z) (st : store) (X : fstate) : fstate :=
  mkFS st (fs_ua X) (mark_from (Z.to_nat (from - 1)) (Z.to_nat (to - from + 1)) (fs_uf X)).

Theorem frags_range : forall nums from to X ss st', Forall is_num nums ->
  range (map lit_int nums) len from to -> (1 <= from <= to)%Z -> (to <= len)%Z ->
  do_all (rb e) (slice from to items) (fs_st X) = (ROk ss, st') -> Z.to_nat (to - from + 1) < jf ->
  call nums X = (ROk (str_join sep (nonempty_items ss)), after from to st' X).
Proof.
  intros nums from to X ss st' H1 H2 H3 H4 H5 H6. unfold call.
  rewrite (single_range builder items (rb e) noflag mark rb k jf e fc jn nm sep Hj Hw (compat_builtin rb _ _ (or_introl Hfn)) it Hit)
    with (from := from) (to := to) (ss := ss) (st' := st'); auto.
  - rewrite iter_mark_no, iter_mark_mark. reflexivity.
  - intros. eapply frag_ok; eassumption.
  - intros. apply frag_out; assumption.
Qed.
Theorem frags_none : forall nums X, Forall is_num nums -> items = [] ->
  match map lit_int nums with [] => True | [a] => (a <= 0)%Z | [a; b] => (a <= 0 /\ b <= 0)%Z | _ => False end ->
  0 < jf -> call nums X = (ROk "", X).
Proof.
  intros. unfold call. apply (single_none builder items rb k jf e fc jn nm sep Hj Hw (compat_builtin rb _ _ (or_introl Hfn)) it Hit); auto.
  intros. apply frag_out; assumption.
Qed.
Theorem frags_fail : forall nums from to X o er st', Forall is_num nums ->
  range (map lit_int nums) len from to -> (1 <= from)%Z -> (from <= to)%Z ->
  let hi := Z.min to len in
  do_all (rb e) (slice from hi items) (fs_st X) = (o, st') -> o = RErr er \/ o = RPanic er ->
  is_invalid_index er = false -> Z.to_nat (hi - from + 1) < jf ->
  exists er2 X', call nums X = (RErr er2, X') /\ fs_st X' = st' /\ is_invalid_index er2 = false.
Proof.
  intros nums from to X o er st' H1 H2 H3 H4 hi H5 H6 H7 H8. unfold call.
  eapply (single_fails builder items (rb e) noflag mark rb k jf e fc jn nm sep Hj Hw (compat_builtin rb _ _ (or_introl Hfn)) it Hit); eauto.
  - intros. eapply frag_ok; eassumption.
  - intros. eapply frag_bad; eassumption.
Qed.
Theorem frags_swallow : forall X pre x post ss st1 o er st2, items = (pre ++ x :: post)%list ->
  do_all (rb e) pre (fs_st X) = (ROk ss, st1) -> rb e x st1 = (o, st2) -> o = RErr er \/ o = RPanic er ->
  is_invalid_index er = true -> List.length items < jf ->
  exists X', call [] X = (ROk (str_join sep (nonempty_items ss)), X') /\ fs_st X' = st2.
Proof.
  intros. unfold call.
  eapply (single_swallows builder items (rb e) noflag mark rb k jf e fc jn nm sep Hj Hw (compat_builtin rb _ _ (or_introl Hfn)) it Hit); eauto.
  - intros. eapply frag_ok; eassumption.
  - intros. eapply frag_bad; eassumption.
Qed.
Theorem frags_beyond : forall a b X ss st', is_num a -> is_num b -> let from := Z.max 1 (lit_int a) in
  (from <= len + 1)%Z -> (len < lit_int b)%Z -> (lit_int a <= lit_int b)%Z -> (0 < lit_int b)%Z ->
  do_all (rb e) (slice from len items) (fs_st X) = (ROk ss, st') -> Z.to_nat (len - from + 1) < jf ->
  call [a; b] X = (RErr (index_error jn nm (len + 1)), after from len st' X).
Proof.
  intros a b X ss st' H1 H2 from H3 H4 H5 H6 H7 H8. unfold call.
  rewrite (single_beyond builder items (rb e) noflag mark rb k jf e fc jn nm sep Hj Hw (compat_builtin rb _ _ (or_introl Hfn)) it Hit) with (ss := ss) (st' := st'); auto.
  - rewrite iter_mark_no, iter_mark_mark. reflexivity.
  - intros. eapply frag_ok; eassumption.
  - intros. apply frag_out; assumption.
Qed.
End Frags.

Section Args.
Variable rb : env -> builder -> store -> outcome string * store.
Variables k jf : nat.
Variable e : env.
Variable fc : frame.
Variables jn nm sep : string.
Hypothesis Hj : lookup_fn e jn = Some FnJoin.
Hypothesis Hw : wf_name nm = true.
Hypothesis Hfn : lookup_fn e nm = Some FnArg.
Let it (i : Z) (X : fstate) := safe nm (func_arg fc i X).
Let Hit : forall es i X, norm (map strip es) = [AFunc nm] -> clause_n (S k) rb e fc (set_index i es) X = it i X.
Proof. intros. apply arg_item; assumption. Qed.
Let items := fr_args fc.
Let len := Z.of_nat (List.length items).
Let call := join_call rb k jf e fc jn nm sep.
Let after (from to : Z) (st : store) (X : fstate) : fstate :=
  mkFS st (mark_from (Z.to_nat (from - 1)) (Z.to_nat (to - from + 1)) (fs_ua X)) (fs_uf X).

Theorem args_range : forall nums from to X ss st', Forall is_num nums ->
  range (map lit_int nums) len from to -> (1 <= from <= to)%Z -> (to <= len)%Z ->
  do_all commit (slice from to items) (fs_st X) = (ROk ss, st') -> Z.to_nat (to - from + 1) < jf ->
  call nums X = (ROk (str_join sep (nonempty_items ss)), after from to st' X).
Proof.
  intros nums from to X ss st' H1 H2 H3 H4 H5 H6. unfold call.
  rewrite (single_range value items commit mark noflag rb k jf e fc jn nm sep Hj Hw (compat_builtin rb _ _ (or_intror Hfn)) it Hit)
    with (from := from) (to := to) (ss := ss) (st' := st'); auto.
  - rewrite iter_mark_no, iter_mark_mark. reflexivity.
  - intros. eapply arg_ok; eassumption.
  - intros. apply arg_out; assumption.
Qed.
Theorem args_none : forall nums X, Forall is_num nums -> items = [] ->
  match map lit_int nums with [] => True | [a] => (a <= 0)%Z | [a; b] => (a <= 0 /\ b <= 0)%Z | _ => False end ->
  0 < jf -> call nums X = (ROk "", X).
Proof.
  intros. unfold call. apply (single_none value items rb k jf e fc jn nm sep Hj Hw (compat_builtin rb _ _ (or_intror Hfn)) it Hit); auto.
  intros. apply arg_out; assumption.
Qed.
Theorem args_fail : forall nums from to X o er st', Forall is_num nums ->
  range (map lit_int nums) len from to -> (1 <= from)%Z -> (from <= to)%Z ->
  let hi := Z.min to len in
  do_all commit (slice from hi items) (fs_st X) = (o, st') -> o = RErr er \/ o = RPanic er ->
  is_invalid_index er = false -> Z.to_nat (hi - from + 1) < jf ->
  exists er2 X', call nums X = (RErr er2, X') /\ fs_st X' = st' /\ is_invalid_index er2 = false.
Proof.
  intros nums from to X o er st' H1 H2 H3 H4 hi H5 H6 H7 H8. unfold call.
  eapply (single_fails value items commit mark noflag rb k jf e fc jn nm sep Hj Hw (compat_builtin rb _ _ (or_intror Hfn)) it Hit); eauto.
  - intros. eapply arg_ok; eassumption.
  - intros. eapply arg_bad; eassumption.
Qed.
Theorem args_beyond : forall a b X ss st', is_num a -> is_num b -> let from := Z.max 1 (lit_int a) in
  (from <= len + 1)%Z -> (len < lit_int b)%Z -> (lit_int a <= lit_int b)%Z -> (0 < lit_int b)%Z ->
  do_all commit (slice from len items) (fs_st X) = (ROk ss, st') -> Z.to_nat (len - from + 1) < jf ->
  call [a; b] X = (RErr (index_error jn nm (len + 1)), after from len st' X).
Proof.
  intros a b X ss st' H1 H2 from H3 H4 H5 H6 H7 H8. unfold call.
  rewrite (single_beyond value items commit mark noflag rb k jf e fc jn nm sep Hj Hw (compat_builtin rb _ _ (or_intror Hfn)) it Hit) with (ss := ss) (st' := st'); auto.
  - rewrite iter_mark_no, iter_mark_mark. reflexivity.
  - intros. eapply arg_ok; eassumption.
  - intros. apply arg_out; assumption.
Qed.
End Args.

(* ------------------------------------------------------------------ *)
(** * A fragment that is a single join *)

Lemma nth_mark_from : forall k i l j, nth_error (mark_from i k l) j =
  if ((i <=? j) && (j <? i + k) && (j <? List.length l))%nat then Some true else nth_error l j.
Proof.
  induction k as [|k IH]; intros i l j.
  - cbn [mark_from]. replace ((i <=? j) && (j <? i + 0))%nat with false; [reflexivity|].
    symmetry. destruct (Nat.leb_spec i j), (Nat.ltb_spec j (i + 0)); try reflexivity; lia.
  - cbn [mark_from]. rewrite IH, length_mark. destruct (Nat.eq_dec i j) as [->|Hn].
    + replace (S j <=? j)%nat with false by (symmetry; apply Nat.leb_gt; lia). cbn [andb].
      replace (j <=? j)%nat with true by (symmetry; apply Nat.leb_le; lia).
      replace (j <? j + S k)%nat with true by (symmetry; apply Nat.ltb_lt; lia). cbn [andb].
      destruct (Nat.ltb_spec j (List.length l)) as [Hl|Hl].
      * clear - Hl. revert j Hl. induction l as [|b l IH]; intros [|j] Hl; cbn in *; try lia; [reflexivity|]. apply IH. lia.
      * rewrite !(proj2 (nth_error_None _ _)); rewrite ?length_mark; auto.
    + rewrite nth_error_mark_same by exact Hn.
      replace (S i <=? j)%nat with (i <=? j)%nat by (destruct (Nat.leb_spec i j), (Nat.leb_spec (S i) j); try reflexivity; lia).
      replace (j <? S i + k)%nat with (j <? i + S k)%nat; [reflexivity|]. f_equal. lia.
Qed.
Lemma all_used_all : forall l, (forall j, j < List.length l -> nth_error l j = Some true) -> all_used l = true.
Proof.
  induction l as [|b l IH]; intros H; [reflexivity|]. cbn. pose proof (H 0 ltac:(cbn; lia)) as H0. cbn in H0. injection H0 as ->.
  apply IH. intros j Hj. apply (H (S j)). cbn. lia.
Qed.
Lemma mark_from_len : forall k i l, List.length (mark_from i k l) = List.length l.
Proof. induction k as [|k IH]; intros; [reflexivity|]. cbn. rewrite IH. apply length_mark. Qed.
Lemma mark_all : forall A (l : list A), all_used (mark_from 0 (List.length l) (map (fun _ => false) l)) = true.
Proof.
  intros A l. apply all_used_all. intros j Hj. rewrite mark_from_len in Hj. rewrite nth_mark_from.
  replace (j <? List.length (map (fun _ : A => false) l))%nat with true by (symmetry; apply Nat.ltb_lt; exact Hj).
  rewrite map_length in Hj. replace (j <? 0 + List.length l)%nat with true by (symmetry; apply Nat.ltb_lt; exact Hj). reflexivity.
Qed.
Lemma mark_some : forall A (l : list A) k, k < List.length l -> all_used (mark_from 0 k (map (fun _ => false) l)) = false.
Proof.
  intros A l k Hk. destruct (all_used _) eqn:E; [|reflexivity]. apply (all_used_nth _ k) in E.
  - rewrite nth_mark_from in E. replace (k <? 0 + k)%nat with false in E by (symmetry; apply Nat.ltb_ge; lia).
    rewrite andb_false_r in E. cbn [andb] in E. exfalso. exact (nth_false _ _ _ E).
  - rewrite mark_from_len, map_length. exact Hk.
Qed.
Lemma first_unused_at : forall l k, (forall j, j < k -> nth_error l j = Some true) -> nth_error l k = Some false -> first_unused l = S k.
Proof.
  induction l as [|b l IH]; intros k H E; [destruct k; discriminate|]. destruct k as [|k].
  - cbn in E. injection E as ->. reflexivity.
  - pose proof (H 0 (Nat.lt_0_succ k)) as H0. cbn in H0. injection H0 as ->. cbn [first_unused]. f_equal.
    apply IH; [|exact E]. intros j Hj. apply (H (S j)). lia.
Qed.
Lemma mark_first : forall A (l : list A) k, k < List.length l -> first_unused (mark_from 0 k (map (fun _ => false) l)) = S k.
Proof.
  intros A l k Hk. assert (N : forall j, j < List.length l -> nth_error (map (fun _ => false) l) j = Some false).
  { intros j Hj. destruct (nth_error l j) as [a|] eqn:Ea; [apply (map_nth_error (fun _ => false)) in Ea; exact Ea|]. apply nth_error_None in Ea. lia. }
  apply first_unused_at.
  - intros j Hj. rewrite nth_mark_from, N, map_length by lia. replace (0 <=? j)%nat with true by (symmetry; apply Nat.leb_le; lia).
    replace (j <? 0 + k)%nat with true by (symmetry; apply Nat.ltb_lt; lia). replace (j <? List.length l)%nat with true by (symmetry; apply Nat.ltb_lt; lia). reflexivity.
  - rewrite nth_mark_from, N by lia. replace (k <? 0 + k)%nat with false by (symmetry; apply Nat.ltb_ge; lia).
    rewrite andb_false_r. reflexivity.
Qed.
Lemma mark_snoc : forall k i l, mark_from i (S k) l = mark (i + k) (mark_from i k l).
Proof.
  induction k as [|k IH]; intros i l; [cbn; f_equal; lia|]. cbn [mark_from] in *. rewrite IH. f_equal. lia.
Qed.

(** Building a fragment consisting of a single call. *)
Lemma build_call : forall n e raw args frags p s st nm lits,
  parsed raw = Some [ACall nm lits] ->
  build (S (S n)) e (BFrag (Frag raw args frags p s)) st =
  match eval_expr (build (S n)) (clause_n n (build (S n))) n e (mkFrame args frags) (ECall nm lits pos0)
          (mkFS st (map (fun _ => false) args) (map (fun _ => false) frags)) with
  | (ROk body, S') =>
      if all_used (fs_ua S') && all_used (fs_uf S') then (ROk (wrapped p (trim_space body) s), fs_st S')
      else (RErr (in_frag (Frag raw args frags p s) (unused (fs_ua S') (fs_uf S'))), fs_st S')
  | (RErr er, S') => (RErr (in_frag (Frag raw args frags p s) er), fs_st S')
  | (RPanic er, S') => (RPanic er, fs_st S')
  | (RFuel, S') => (RFuel, fs_st S')
  end.
Proof.
  intros n e raw args frags p s st nm lits H. cbn [build].
  rewrite (build_parsed _ _ _ (Frag raw args frags p s) _ _ H). cbn [f_args f_frags f_prefix f_suffix map unstrip].
  rewrite clause_n_S, clause_one.
  destruct (eval_expr _ _ _ _ _ _ _) as [[body|er|er|] S']; try reflexivity.
  destruct (_ && _); [|reflexivity]. cbn zeta. unfold wrapped. destruct (is_empty _); reflexivity.
Qed.

Theorem joined_frags : forall n e raw jn nm sep bs p s st ss st',
  lookup_fn e jn = Some FnJoin -> lookup_fn e nm = Some FnFragment ->
  parsed raw = Some [ACall jn [LStr ("#" ++ nm); LStr sep]] -> wf_name nm = true ->
  do_all (build (S (S n)) e) bs st = (ROk ss, st') -> List.length bs <= n ->
  build (S (S (S n))) e (BFrag (Frag raw [] bs p s)) st = (ROk (wrapped p (trim_space (str_join sep (nonempty_items ss))) s), st').
Proof.
  intros n e raw jn nm sep bs p s st ss st' Hj Hf Hp Hw Hd Hn. rewrite (build_call _ _ _ _ _ _ _ _ _ _ Hp).
  set (X := mkFS _ _ _). set (rb := build (S (S n))).
  change (eval_expr rb (clause_n (S n) rb) (S n) e (mkFrame [] bs) (ECall jn [LStr ("#" ++ nm); LStr sep] pos0) X)
    with (join_call rb n (S n) e (mkFrame [] bs) jn nm sep [] X).
  destruct bs as [|b bs].
  - rewrite (frags_none rb n (S n) e (mkFrame [] []) jn nm sep Hj Hw Hf); [|constructor|reflexivity|exact I|lia]. cbn in Hd. injection Hd as <- <-. reflexivity.
  - set (bb := b :: bs) in *. rewrite (frags_range rb n (S n) e (mkFrame [] bb) jn nm sep Hj Hw Hf)
      with (from := 1%Z) (to := Z.of_nat (List.length bb)) (ss := ss) (st' := st'); auto.
    + cbn [fs_ua fs_uf fs_st X map all_used forallb andb].
      replace (Z.to_nat (1 - 1)) with 0 by lia. replace (Z.to_nat (Z.of_nat (List.length bb) - 1 + 1)) with (List.length bb) by lia.
      rewrite mark_all. reflexivity.
    + cbn [map range fr_frags]. auto.
    + cbn [List.length bb]. lia.
    + cbn [fr_frags]. lia.
    + unfold slice. cbn [fr_frags X fs_st]. replace (Z.to_nat (1 - 1)) with 0 by lia.
      replace (Z.to_nat (Z.of_nat (List.length bb) - 1 + 1)) with (List.length bb) by lia. cbn [skipn]. rewrite firstn_all. exact Hd.
    + lia.
Qed.

Theorem joined_args : forall n e raw jn nm sep vs p s st ss st',
  lookup_fn e jn = Some FnJoin -> lookup_fn e nm = Some FnArg ->
  parsed raw = Some [ACall jn [LStr ("#" ++ nm); LStr sep]] -> wf_name nm = true ->
  do_all commit vs st = (ROk ss, st') -> List.length vs <= n ->
  build (S (S (S n))) e (BFrag (Frag raw vs [] p s)) st = (ROk (wrapped p (trim_space (str_join sep (nonempty_items ss))) s), st').
Proof.
  intros n e raw jn nm sep bs p s st ss st' Hj Hf Hp Hw Hd Hn. rewrite (build_call _ _ _ _ _ _ _ _ _ _ Hp).
  set (X := mkFS _ _ _). set (rb := build (S (S n))).
  change (eval_expr rb (clause_n (S n) rb) (S n) e (mkFrame bs []) (ECall jn [LStr ("#" ++ nm); LStr sep] pos0) X)
    with (join_call rb n (S n) e (mkFrame bs []) jn nm sep [] X).
  destruct bs as [|b bs].
  - rewrite (args_none rb n (S n) e (mkFrame [] []) jn nm sep Hj Hw Hf); [|constructor|reflexivity|exact I|lia]. cbn in Hd. injection Hd as <- <-. reflexivity.
  - set (bb := b :: bs) in *. rewrite (args_range rb n (S n) e (mkFrame bb []) jn nm sep Hj Hw Hf)
      with (from := 1%Z) (to := Z.of_nat (List.length bb)) (ss := ss) (st' := st'); auto.
    + cbn [fs_ua fs_uf fs_st X].
      replace (Z.to_nat (1 - 1)) with 0 by lia. replace (Z.to_nat (Z.of_nat (List.length bb) - 1 + 1)) with (List.length bb) by lia.
      rewrite mark_all. reflexivity.
    + cbn [map range fr_args]. auto.
    + cbn [List.length bb]. lia.
    + cbn [fr_args]. lia.
    + unfold slice. cbn [fr_args X fs_st]. replace (Z.to_nat (1 - 1)) with 0 by lia.
      replace (Z.to_nat (Z.of_nat (List.length bb) - 1 + 1)) with (List.length bb) by lia. cbn [skipn]. rewrite firstn_all. exact Hd.
    + lia.
Qed.

(** In Question style all values are committed and shown as "?". *)
Lemma commit_question : forall vs st, st_dollar st = false ->
  exists st', do_all commit vs st = (ROk (map (fun _ => "?") vs), st') /\ st_args st' = (st_args st ++ vs)%list /\ st_dollar st' = false.
Proof.
  induction vs as [|v vs IH]; intros st H.
  - exists st. cbn. rewrite app_nil_r. auto.
  - cbn [do_all]. unfold commit at 1. rewrite H. match goal with |- context [do_all commit vs ?s] => destruct (IH s) as (st' & E1 & E2 & E3); [reflexivity|] end.
    rewrite E1. exists st'. split; [reflexivity|]. rewrite E2. cbn. rewrite <- app_assoc. auto.
Qed.
Lemma nonempty_question : forall A (vs : list A), nonempty_items (map (fun _ => "?") vs) = map (fun _ => "?") vs.
Proof. induction vs as [|v vs IH]; [reflexivity|]. unfold nonempty_items in *. cbn. f_equal. exact IH. Qed.

(** A child failing with anything but an invalid index fails the build. *)
Theorem joined_fails : forall n e raw jn nm sep bs p s st o er st',
  lookup_fn e jn = Some FnJoin -> lookup_fn e nm = Some FnFragment ->
  parsed raw = Some [ACall jn [LStr ("#" ++ nm); LStr sep]] -> wf_name nm = true ->
  do_all (build (S (S n)) e) bs st = (o, st') -> o = RErr er \/ o = RPanic er -> is_invalid_index er = false ->
  List.length bs <= n ->
  exists er2, build (S (S (S n))) e (BFrag (Frag raw [] bs p s)) st = (RErr er2, st') /\ is_invalid_index er2 = false.
Proof.
  intros n e raw jn nm sep bs p s st o er st' Hj Hf Hp Hw Hd Ho Hv Hn. rewrite (build_call _ _ _ _ _ _ _ _ _ _ Hp).
  set (X := mkFS _ _ _). set (rb := build (S (S n))).
  change (eval_expr rb (clause_n (S n) rb) (S n) e (mkFrame [] bs) (ECall jn [LStr ("#" ++ nm); LStr sep] pos0) X)
    with (join_call rb n (S n) e (mkFrame [] bs) jn nm sep [] X).
  destruct bs as [|b bs]; [cbn in Hd; injection Hd as <- _; destruct Ho; discriminate|].
  set (bb := b :: bs) in *.
  destruct (frags_fail rb n (S n) e (mkFrame [] bb) jn nm sep Hj Hw Hf [] 1 (Z.of_nat (List.length bb)) X o er st') as (er2 & X' & E1 & E2 & E3); auto.
  - cbn [map range fr_frags]. auto.
  - lia.
  - cbn [List.length bb]. lia.
  - cbn [fr_frags]. rewrite Z.min_id. unfold slice. replace (Z.to_nat (1 - 1)) with 0 by lia.
    replace (Z.to_nat (Z.of_nat (List.length bb) - 1 + 1)) with (List.length bb) by lia. cbn [skipn]. rewrite firstn_all. exact Hd.
  - cbn [fr_frags]. lia.
  - rewrite E1. eexists. rewrite E2. split; [reflexivity|exact E3].
Qed.

(** A child failing with an invalid index silently ends the list: if it is the
    last one the build succeeds without it, otherwise it fails. *)
Theorem joined_swallows : forall n e raw jn nm sep pre x post p s st ss st1 o er st2,
  lookup_fn e jn = Some FnJoin -> lookup_fn e nm = Some FnFragment ->
  parsed raw = Some [ACall jn [LStr ("#" ++ nm); LStr sep]] -> wf_name nm = true ->
  do_all (build (S (S n)) e) pre st = (ROk ss, st1) -> build (S (S n)) e x st1 = (o, st2) ->
  o = RErr er \/ o = RPanic er -> is_invalid_index er = true -> List.length pre <= n ->
  build (S (S (S n))) e (BFrag (Frag raw [] (pre ++ x :: post) p s)) st =
  (match post with
   | [] => ROk (wrapped p (trim_space (str_join sep (nonempty_items ss))) s)
   | _ => RErr (EWrap ("build '" ++ raw ++ "'") (EMsg ("properties #" ++ itoa_nat (List.length pre + 2) ++ " unused")))
   end, st2).
Proof.
  intros n e raw jn nm sep pre x post p s st ss st1 o er st2 Hj Hf Hp Hw Hd Hx Ho Hv Hn. rewrite (build_call _ _ _ _ _ _ _ _ _ _ Hp).
  set (X := mkFS _ _ _). set (rb := build (S (S n))) in *. set (fc := mkFrame [] (pre ++ x :: post)).
  rewrite (eval_join rb (clause_n (S n) rb) (S n) e fc jn ("#" ++ nm) sep [] pos0 X Hj (Forall_nil _)). cbn [map].
  destruct (parsed_ok _ _ (parsed_func nm Hw)) as (es & Hp2 & Hl).
  rewrite (func_join_eq rb (clause_n (S n) rb) (S n) e fc ("#" ++ nm) sep [] X es [AFunc nm] Hp2 Hl);
    [|discriminate|intros y [<-|[]]; apply compat_builtin; auto].
  pose (item := fun (i : Z) (X : fstate) => safe nm (func_fragment rb e fc i X)).
  assert (Hit : forall i X, clause_n (S n) rb e fc (set_index i es) X = item i X) by (intros; apply frag_item; assumption).
  assert (Hd2 : do_all (rb e) (firstn (List.length pre) (skipn 0 (pre ++ x :: post))) (fs_st X) = (ROk ss, st1)).
  { cbn [skipn]. rewrite firstn_app, Nat.sub_diag, firstn_all, firstn_O, app_nil_r. exact Hd. }
  destruct (runs_items builder (pre ++ x :: post)%list (rb e) noflag mark (fun i X => clause_n (S n) rb e fc (set_index i es) X)) with (k := List.length pre) (i := 0) (S := X) (ss := ss) (st' := st1)
    as [R Ln]; [| |exact Hd2|].
  { intros i y Y t st3 K1 K2. cbv beta. rewrite Hit. unfold item. eapply frag_ok; eassumption. }
  { rewrite app_length. lia. }
  rewrite iter_mark_no, iter_mark_mark in R.
  set (X1 := mkFS _ _ _) in R.
  assert (Hnx : nth_error (pre ++ x :: post) (List.length pre) = Some x) by (rewrite nth_error_app2, Nat.sub_diag by lia; reflexivity).
  assert (Hi : exists er2, item (1 + Z.of_nat (List.length ss))%Z X1 = (RErr er2, mkFS st2 (fs_ua X1) (mark (List.length pre) (fs_uf X1))) /\ is_invalid_index er2 = true).
  { unfold item, func_fragment. rewrite Ln. replace (1 + Z.of_nat (List.length pre))%Z with (Z.of_nat (List.length pre) + 1)%Z by lia.
    cbn [fr_frags fc]. rewrite (nth1_in _ _ _ _ Hnx). cbn [fs_st X1]. rewrite Hx.
    replace (Z.to_nat (Z.of_nat (List.length pre) + 1 - 1)) with (List.length pre) by lia.
    destruct Ho as [-> | ->]; cbn [safe]; eexists; split; try reflexivity; exact Hv. }
  destruct Hi as (er2 & Hi & Hv2).
  rewrite (loop_index (clause_n (S n) rb) e fc es sep 0 0 1 X ss X1 er2 (mkFS st2 (fs_ua X1) (mark (List.length pre) (fs_uf X1))) R) with (n := S n);
    [|rewrite Hit; exact Hi|exact Hv2|lia|lia].
  cbn [andb orb Z.ltb Z.compare safe]. rewrite acc_join_ok. cbn [fs_ua fs_uf fs_st X1 X].
  pose proof (mark_snoc (List.length pre) 0 (map (fun _ : builder => false) (pre ++ x :: post))) as M. cbn [Nat.add] in M.
  rewrite <- M. cbn [map]. change (all_used []) with true. cbn [andb].
  destruct post as [|y post].
  - replace (S (List.length pre)) with (List.length (pre ++ [x])) by (rewrite app_length; cbn; lia). rewrite mark_all. reflexivity.
  - assert (L : S (List.length pre) < List.length (pre ++ x :: y :: post)) by (rewrite app_length; cbn; lia).
    rewrite mark_some by exact L. unfold in_frag, unused, usage_text. cbn [f_raw all_used forallb map]. rewrite mark_some by exact L.
    cbn [app str_join]. rewrite mark_first by exact L. replace (List.length pre + 2) with (S (S (List.length pre))) by lia. reflexivity.
Qed.

(* ------------------------------------------------------------------ *)
(** * Ranges beyond the items *)

(** An item beyond the arguments (fragments) of any function of the template fails. *)
Lemma item_outside : forall n rb e fc es nm len i X s X',
  In (AFunc nm) (norm (map strip es)) ->
  item_count e nm (List.length (fr_args fc)) (List.length (fr_frags fc)) = Some len -> outside i len ->
  clause_n n rb e fc (set_index i es) X <> (ROk s, X').
Proof.
  intros n rb e fc es nm len i X s X' Hin Hc Ho H. rewrite join_item in H. destruct n as [|n]; [discriminate|]. rewrite clause_n_S in H.
  destruct (clause_ok_all _ _ _ _ _ _ _ _ _ H (unstrip (aset i (AFunc nm)))) as (S1 & t & S2 & E).
  { apply in_map, in_map. exact Hin. }
  revert E. apply dangling_expr. cbn [aset dangling]. unfold item_count in Hc. cbn [call_index lit_int].
  destruct (lookup_fn e nm) as [[| | |]|]; try discriminate; injection Hc as <-; auto.
Qed.

(** A successful loop has done the item [from] and the item [to]. *)
Lemma loop_reaches : forall rc e fc es sep from to n i acc X s X',
  join_loop rc n e fc es sep from to i acc X = (ROk s, X') ->
  ((0 < from)%Z -> i = from -> exists Y t Y', rc e fc (set_index from es) Y = (ROk t, Y')) /\
  ((0 < to)%Z -> (i <= to)%Z -> exists Y t Y', rc e fc (set_index to es) Y = (ROk t, Y')).
Proof.
  intros rc e fc es sep from to. induction n as [|n IH]; intros i acc X s X' H; [discriminate|]. cbn [join_loop] in H.
  destruct (rc e fc (set_index i es) X) as [[t|er|er|] X1] eqn:E; try discriminate.
  - split; [intros _ <-; eauto|]. intros H1 H2. destruct (Z.eq_dec i to) as [->|Hn]; [eauto|].
    replace ((0 <? to)%Z && (to <=? i)%Z) with false in H by lia. apply IH in H as [_ H]. apply H; lia.
  - destruct (is_invalid_index er); [|discriminate]. split; intros H1 H2; exfalso;
    match type of H with context [if ?c then _ else _] => replace c with true in H by lia end; discriminate.
Qed.

Theorem join_beyond_fails : forall k rb jf e fc jn tmpl sep nums l nm len X s X',
  lookup_fn e jn = Some FnJoin -> Forall is_num nums -> parsed tmpl = Some l -> In (AFunc nm) l ->
  item_count e nm (List.length (fr_args fc)) (List.length (fr_frags fc)) = Some len -> beyond nums len ->
  eval_expr rb (clause_n k rb) jf e fc (ECall jn (LStr tmpl :: LStr sep :: nums) pos0) X <> (ROk s, X').
Proof.
  intros k rb jf e fc jn tmpl sep nums l nm len X s X' Hj Hn Hp Hin Hc Hb. rewrite eval_join by assumption.
  destruct (parsed_ok _ _ Hp) as (es & Hp' & <-).
  assert (J : forall from to Y, (Z.of_nat len < from \/ Z.of_nat len < to)%Z -> (to <= 0 \/ from <= to)%Z ->
    forall r, join_loop (clause_n k rb) jf e fc es sep from to (if (from <=? 0)%Z then 1%Z else from) "" Y = r -> match r with (ROk _, _) => False | _ => True end).
  { intros from to Y Hl Ht [[t| | |] Y'] R; try exact I. apply loop_reaches in R as [R1 R2].
    destruct Hl as [Hl|Hl].
    - destruct (R1 ltac:(lia)) as (Y1 & u & Y2 & E); [replace (from <=? 0)%Z with false by lia; reflexivity|].
      revert E. eapply item_outside; try eassumption. unfold outside. lia.
    - destruct (R2 ltac:(lia)) as (Y1 & u & Y2 & E); [destruct (Z.leb_spec from 0); lia|].
      revert E. eapply item_outside; try eassumption. unfold outside. lia. }
  assert (G : forall from to, (Z.of_nat len < from \/ Z.of_nat len < to \/ 0 < to < from)%Z ->
    forall r, (if (0 <? to)%Z && (to <? from)%Z then (RErr (bad_range from to), X) else
    match parse tmpl with
    | PErr o m => (RErr (bad_template tmpl o m), X)
    | PPanic => (RPanic index_range, X)
    | PFuel => (RFuel, X)
    | POk es =>
      let '(r, st') := join_prep rb e es (fs_st X) in
      let S' := mkFS st' (fs_ua X) (fs_uf X) in
      match r with
      | ROk O => (RErr (no_function tmpl), S')
      | ROk _ => join_loop (clause_n k rb) jf e fc es sep from to (if (from <=? 0)%Z then 1%Z else from) "" S'
      | RErr er => (RErr er, S')
      | RPanic er => (RPanic er, S')
      | RFuel => (RFuel, S')
      end
    end) = r -> match r with (ROk _, _) => False | _ => True end).
  { intros from to Hb' r. destruct (_ && _) eqn:Eb; [intros <-; exact I|]. rewrite Hp'.
    destruct (join_prep rb e es (fs_st X)) as [[[|m]|er|er|] st']; try (intros <-; exact I).
    apply J; lia. }
  intros H. assert (H2 : exists t Y, func_join rb (clause_n k rb) jf e fc tmpl sep (map lit_int nums) X = (ROk t, Y)).
  { destruct (func_join rb (clause_n k rb) jf e fc tmpl sep (map lit_int nums) X) as [[t| | |] Y]; try discriminate. eauto. }
  destruct H2 as (t & Y & H2). unfold func_join in H2. unfold beyond in Hb.
  destruct (map lit_int nums) as [|a [|b [|c r]]]; try contradiction.
  - refine (G a 0%Z _ _ H2). lia.
  - refine (G a b _ _ H2). lia.
Qed.

Theorem beyond_fails : forall n e raw args frags p s st l jn tmpl sep nums tl nm len,
  parsed raw = Some l -> In (ACall jn (LStr tmpl :: LStr sep :: nums)) l -> lookup_fn e jn = Some FnJoin ->
  Forall is_num nums -> parsed tmpl = Some tl -> In (AFunc nm) tl ->
  item_count e nm (List.length args) (List.length frags) = Some len -> beyond nums len ->
  forall t st', build n e (BFrag (Frag raw args frags p s)) st <> (ROk t, st').
Proof.
  intros n e raw args frags p s st l jn tmpl sep nums tl nm len Hp Hin Hj Hn Ht Hf Hc Hb t st' H.
  destruct (clause_ok_parsed _ _ _ _ _ _ _ _ _ _ _ H Hp) as (m & S' & -> & body & Hcl & _).
  destruct (clause_ok_all _ _ _ _ _ _ _ _ _ Hcl (unstrip _) (in_map _ _ _ Hin)) as (S1 & u & S2 & E).
  revert E. cbn [unstrip]. eapply (join_beyond_fails m); eauto.
Qed.

(* ------------------------------------------------------------------ *)
(** * Zipping fragments and arguments *)

Section Zip.
Variable rb : env -> builder -> store -> outcome string * store.
Variable k : nat.
Variable e : env.
Variable fc : frame.
Variables f a mid : string.
Hypothesis Hf : lookup_fn e f = Some FnFragment.
Hypothesis Ha : lookup_fn e a = Some FnArg.
Variable es : list expr.
Hypothesis Hl : norm (map strip es) = AFunc f :: cons_text mid [AFunc a].
Let item (i : Z) (X : fstate) := clause_n (S k) rb e fc (set_index i es) X.
Let items := combine (fr_frags fc) (fr_args fc).

Lemma zip_item : forall i X, item i X =
  andthen (safe f (func_fragment rb e fc i X)) (fun Y => andthen (ROk mid, Y) (fun Y => safe a (func_arg fc i Y))).
Proof.
  intros i X. unfold item. rewrite join_item, Hl. cbn [map aset unstrip]. rewrite clause_n_S, clause_cons.
  cbn [eval_expr unstrip]. unfold eval_function at 1. rewrite Hf, eval_call_fragment. cbn [List.length Nat.eqb eval_args eval_arg call_index lit_int].
  apply andthen_ext. intros Y. unfold cons_text. destruct mid as [|c m] eqn:Em; cbn [is_empty map aset unstrip].
  - rewrite clause_one. cbn [eval_expr]. unfold eval_function. rewrite Ha, eval_call_arg.
    cbn [List.length Nat.eqb eval_args eval_arg call_index lit_int andthen]. destruct (safe a _) as [[] ?]; reflexivity.
  - rewrite clause_cons. cbn [eval_expr]. apply andthen_ext. intros Z. rewrite clause_one.
    cbn [eval_expr]. unfold eval_function. rewrite Ha, eval_call_arg. reflexivity.
Qed.

Lemma combine_nth_error : forall A B (l : list A) (m : list B) i x y, nth_error (combine l m) i = Some (x, y) ->
  nth_error l i = Some x /\ nth_error m i = Some y.
Proof.
  induction l as [|p l IH]; intros [|q m] [|i] x y H; cbn in *; try discriminate; [injection H as <- <-; auto|]. apply IH. exact H.
Qed.

Lemma zip_ok : forall i x X s st', nth_error items i = Some x -> zip_step (rb e) mid x (fs_st X) = (ROk s, st') ->
  item (Z.of_nat i + 1) X = (ROk s, mkFS st' (mark i (fs_ua X)) (mark i (fs_uf X))).
Proof.
  intros i [b v] X s st' Hn H. apply combine_nth_error in Hn as [H1 H2]. rewrite zip_item. unfold zip_step in H. cbn [fst snd] in H.
  destruct (rb e b (fs_st X)) as [[t| | |] st1] eqn:E1; try discriminate.
  rewrite (frag_ok _ _ _ f _ _ _ _ _ H1 E1). cbn [andthen].
  destruct (commit v st1) as [[u| | |] st2] eqn:E2; try discriminate. injection H as <- <-.
  rewrite (arg_ok fc a i v (mkFS st1 (noflag i (fs_ua X)) (mark i (fs_uf X))) u st2 H2) by exact E2.
  cbn [fs_ua fs_uf]. unfold noflag. reflexivity.
Qed.
Lemma zip_bad : forall i x X o st', nth_error items i = Some x -> zip_step (rb e) mid x (fs_st X) = (o, st') ->
  (exists er, o = RErr er \/ o = RPanic er) -> item_fails (item (Z.of_nat i + 1) X) o st'.
Proof.
  intros i [b v] X o st' Hn H Ho. apply combine_nth_error in Hn as [H1 H2]. rewrite zip_item. unfold zip_step in H. cbn [fst snd] in H.
  destruct (rb e b (fs_st X)) as [[t|er|er|] st1] eqn:E1.
  - rewrite (frag_ok _ _ _ f _ _ _ _ _ H1 E1). cbn [andthen].
    destruct (commit v st1) as [[u|er|er|] st2] eqn:E2.
    + injection H as <- _. destruct Ho as [? [?|?]]; discriminate.
    + injection H as <- <-. destruct (arg_bad fc a i v (mkFS st1 (noflag i (fs_ua X)) (mark i (fs_uf X))) _ st2 H2 E2) as (e1 & e2 & S2 & K1 & K2 & K3 & K4); [eauto|].
      rewrite K2. exists e1, e2, S2. auto.
    + injection H as <- <-. destruct (arg_bad fc a i v (mkFS st1 (noflag i (fs_ua X)) (mark i (fs_uf X))) _ st2 H2 E2) as (e1 & e2 & S2 & K1 & K2 & K3 & K4); [eauto|].
      rewrite K2. exists e1, e2, S2. auto.
    + injection H as <- _. destruct Ho as [? [?|?]]; discriminate.
  - injection H as <- <-. destruct (frag_bad _ _ _ f _ _ _ _ _ H1 E1) as (e1 & e2 & S2 & K1 & K2 & K3 & K4); [eauto|].
    rewrite K2. exists e1, e2, S2. auto.
  - injection H as <- <-. destruct (frag_bad _ _ _ f _ _ _ _ _ H1 E1) as (e1 & e2 & S2 & K1 & K2 & K3 & K4); [eauto|].
    rewrite K2. exists e1, e2, S2. auto.
  - injection H as <- _. destruct Ho as [? [?|?]]; discriminate.
Qed.
End Zip.

Theorem joined_zip : forall n e raw jn f a mid tmpl sep bs vs p s st ss st',
  lookup_fn e jn = Some FnJoin -> lookup_fn e f = Some FnFragment -> lookup_fn e a = Some FnArg ->
  parsed raw = Some [ACall jn [LStr tmpl; LStr sep]] -> parsed tmpl = Some (AFunc f :: cons_text mid [AFunc a]) ->
  List.length bs = List.length vs ->
  do_all (zip_step (build (S (S n)) e) mid) (combine bs vs) st = (ROk ss, st') -> List.length bs <= n ->
  build (S (S (S n))) e (BFrag (Frag raw vs bs p s)) st = (ROk (wrapped p (trim_space (str_join sep (nonempty_items ss))) s), st').
Proof.
  intros n e raw jn f a mid tmpl sep bs vs p s st ss st' Hj Hf Ha Hp Ht Hlen Hd Hn. rewrite (build_call _ _ _ _ _ _ _ _ _ _ Hp).
  set (X := mkFS _ _ _). set (rb := build (S (S n))) in *. set (fc := mkFrame vs bs).
  rewrite (eval_join rb (clause_n (S n) rb) (S n) e fc jn tmpl sep [] pos0 X Hj (Forall_nil _)). cbn [map].
  destruct (parsed_ok _ _ Ht) as (es & Hp2 & Hl).
  assert (Hfn : forall nm, In nm (fnames (AFunc f :: cons_text mid [AFunc a])) -> compat rb e nm).
  { intros nm Hin. apply compat_builtin. revert nm Hin. unfold fnames, cons_text. cbn [map concat app]. destruct (is_empty mid); cbn [map concat app]; intros nm [<-|[<-|[]]]; auto. }
  assert (Hne : fnames (AFunc f :: cons_text mid [AFunc a]) <> []) by discriminate.
  assert (Hc : List.length (combine bs vs) = List.length bs) by (rewrite combine_length; lia).
  assert (Hend : forall i Y, outside i (List.length bs) -> clause_n (S n) rb e fc (set_index i es) Y =
    (RErr (EWrap ("error calling #" ++ f) (EInvalidIndex i)), Y)).
  { intros i Y Ho. rewrite (zip_item rb n e fc f a mid Hf Ha es Hl). rewrite frag_out by exact Ho. reflexivity. }
  destruct bs as [|b bs].
  - destruct vs; [|discriminate]. cbn in Hd. injection Hd as <- <-.
    rewrite (join_none builder [] rb (clause_n (S n) rb) (S n) e fc tmpl es _ Hp2 Hl Hne Hfn) with (X' := X); auto.
    + eexists. rewrite Hend by (unfold outside; cbn; lia). split; reflexivity.
    + lia.
  - set (bb := b :: bs) in *.
    set (X1 := mkFS st' (mark_from 0 (List.length vs) (fs_ua X)) (mark_from 0 (List.length bb) (fs_uf X))).
    rewrite (join_range (builder * value) (combine bb vs) (zip_step (rb e) mid) mark mark rb (clause_n (S n) rb) (S n) e fc tmpl es _ Hp2 Hl Hne Hfn)
      with (from := 1%Z) (to := Z.of_nat (List.length bb)) (ss := ss) (st' := st') (S' := X1); auto.
    + cbn [safe X1 fs_ua fs_uf fs_st X]. rewrite !mark_all. reflexivity.
    + intros i x Y t st2. apply (zip_ok rb n e fc f a mid Hf Ha es Hl).
    + cbn [range]. rewrite Hc. auto.
    + cbn [List.length bb]. lia.
    + rewrite Hc. lia.
    + unfold slice. cbn [X fs_st]. replace (Z.to_nat (1 - 1)) with 0 by lia.
      replace (Z.to_nat (Z.of_nat (List.length bb) - 1 + 1)) with (List.length bb) by lia. cbn [skipn]. rewrite <- Hc, firstn_all. exact Hd.
    + rewrite Hc, !iter_mark_mark. replace (Z.to_nat (1 - 1)) with 0 by lia.
      replace (Z.to_nat (Z.of_nat (List.length bb) - 1 + 1)) with (List.length bb) by lia.
      eexists. rewrite Hend by (unfold outside; lia). unfold X1. rewrite <- Hlen. split; reflexivity.
    + lia.
Qed.

(** One fragment too many: it is built and dropped. *)
Theorem joined_zip_drops : forall n e raw jn f a mid tmpl sep bs b vs p s st ss st1 t st2,
  lookup_fn e jn = Some FnJoin -> lookup_fn e f = Some FnFragment -> lookup_fn e a = Some FnArg ->
  parsed raw = Some [ACall jn [LStr tmpl; LStr sep]] -> parsed tmpl = Some (AFunc f :: cons_text mid [AFunc a]) ->
  List.length bs = List.length vs ->
  do_all (zip_step (build (S (S n)) e) mid) (combine bs vs) st = (ROk ss, st1) ->
  build (S (S n)) e b st1 = (ROk t, st2) -> List.length bs <= n ->
  build (S (S (S n))) e (BFrag (Frag raw vs (bs ++ [b]) p s)) st =
  (ROk (wrapped p (trim_space (str_join sep (nonempty_items ss))) s), st2).
Proof.
  intros n e raw jn f a mid tmpl sep bs b vs p s st ss st1 t st2 Hj Hf Ha Hp Ht Hlen Hd Hb Hn. rewrite (build_call _ _ _ _ _ _ _ _ _ _ Hp).
  set (X := mkFS _ _ _). set (rb := build (S (S n))) in *. set (fc := mkFrame vs (bs ++ [b])).
  rewrite (eval_join rb (clause_n (S n) rb) (S n) e fc jn tmpl sep [] pos0 X Hj (Forall_nil _)). cbn [map].
  destruct (parsed_ok _ _ Ht) as (es & Hp2 & Hl).
  assert (Hfn : forall nm, In nm (fnames (AFunc f :: cons_text mid [AFunc a])) -> compat rb e nm).
  { intros nm Hin. apply compat_builtin. revert nm Hin. unfold fnames, cons_text. cbn [map concat app]. destruct (is_empty mid); cbn [map concat app]; intros nm [<-|[<-|[]]]; auto. }
  assert (Hne : fnames (AFunc f :: cons_text mid [AFunc a]) <> []) by discriminate.
  assert (Ec : combine (bs ++ [b]) vs = combine bs vs).
  { clear - Hlen. revert vs Hlen. induction bs as [|x bs IH]; intros [|v vs] H; try discriminate; [reflexivity|]. cbn. rewrite IH by (cbn in H; lia). reflexivity. }
  assert (Hc : List.length (combine bs vs) = List.length bs) by (rewrite combine_length; lia).
  rewrite (func_join_eq rb (clause_n (S n) rb) (S n) e fc tmpl sep [] X es _ Hp2 Hl Hne Hfn).
  destruct (runs_items (builder * value) (combine bs vs) (zip_step (rb e) mid) mark mark (fun i X => clause_n (S n) rb e fc (set_index i es) X))
    with (k := List.length bs) (i := 0) (S := X) (ss := ss) (st' := st1) as [R Ln].
  { intros i x Y u st3 K1 K2. cbv beta. rewrite <- Ec in K1. exact (zip_ok rb n e fc f a mid Hf Ha es Hl i x Y u st3 K1 K2). }
  { lia. }
  { cbn [skipn]. rewrite <- Hc, firstn_all. exact Hd. }
  rewrite !iter_mark_mark in R. set (X1 := mkFS _ _ _) in R.
  set (X2 := mkFS st2 (fs_ua X1) (mark (List.length bs) (fs_uf X1))).
  assert (Hi : clause_n (S n) rb e fc (set_index (1 + Z.of_nat (List.length ss)) es) X1 =
    (RErr (EWrap ("error calling #" ++ a) (EInvalidIndex (1 + Z.of_nat (List.length ss)))), X2)).
  { rewrite (zip_item rb n e fc f a mid Hf Ha es Hl), Ln. replace (1 + Z.of_nat (List.length bs))%Z with (Z.of_nat (List.length bs) + 1)%Z by lia.
    assert (Hx : nth_error (fr_frags fc) (List.length bs) = Some b) by (cbn [fc fr_frags]; rewrite nth_error_app2, Nat.sub_diag by lia; reflexivity).
    rewrite (frag_ok rb e fc f _ _ X1 _ _ Hx Hb). cbn [andthen]. rewrite arg_out; [reflexivity|].
    cbn [fc fr_args]. unfold outside. lia. }
  rewrite (loop_index (clause_n (S n) rb) e fc es sep 0 0 1 X ss X1 (EWrap ("error calling #" ++ a) (EInvalidIndex (1 + Z.of_nat (List.length ss)))) X2 R) with (n := S n);
    [|exact Hi|reflexivity|lia|lia].
  cbn [andb orb Z.ltb Z.compare safe]. rewrite acc_join_ok. cbn [fs_ua fs_uf fs_st X2 X1 X].
  pose proof (mark_snoc (List.length bs) 0 (map (fun _ : builder => false) (bs ++ [b]))) as M. cbn [Nat.add] in M.
  rewrite <- M. rewrite Hlen at 1. rewrite mark_all.
  replace (S (List.length bs)) with (List.length (bs ++ [b])) by (rewrite app_length; cbn; lia). rewrite mark_all. reflexivity.
Qed.

(** Any other difference in length fails the build. *)
Lemma loop_keeps : forall A (get : fstate -> A) rc e fc es sep from to m,
  (forall X s X', rc e fc (set_index m es) X <> (ROk s, X')) ->
  (forall j X, (j <= m)%Z -> get (snd (rc e fc (set_index j es) X)) = get X) ->
  forall n i acc X, (i <= m)%Z -> get (snd (join_loop rc n e fc es sep from to i acc X)) = get X.
Proof.
  intros A get rc e fc es sep from to m Hm Hg. induction n as [|n IH]; intros i acc X Hi; [reflexivity|]. cbn [join_loop].
  pose proof (Hg i X Hi) as G. destruct (rc e fc (set_index i es) X) as [[t|er|er|] X1] eqn:E; cbn [snd] in *; try exact G.
  - destruct (_ && _)%Z; [exact G|]. rewrite IH; [exact G|].
    destruct (Z.eq_dec i m) as [->|]; [|lia]. exfalso. exact (Hm _ _ _ E).
  - destruct (is_invalid_index er); [|exact G]. destruct (_ || _)%Z; exact G.
Qed.

Theorem zip_lengths : forall n e raw jn f a mid tmpl sep bs vs p s st t st',
  lookup_fn e jn = Some FnJoin -> lookup_fn e f = Some FnFragment -> lookup_fn e a = Some FnArg ->
  parsed raw = Some [ACall jn [LStr tmpl; LStr sep]] -> parsed tmpl = Some (AFunc f :: cons_text mid [AFunc a]) ->
  build n e (BFrag (Frag raw vs bs p s)) st = (ROk t, st') ->
  List.length bs = List.length vs \/ List.length bs = S (List.length vs).
Proof.
  intros n e raw jn f a mid tmpl sep bs vs p s st t st' Hj Hf Ha Hp Ht H.
  destruct (clause_ok_parsed _ _ _ _ _ _ _ _ _ _ _ H Hp) as (m & X' & -> & body & Hcl & U1 & U2 & _).
  cbn [map unstrip] in Hcl. rewrite clause_one in Hcl. set (rb := build (S m)) in *. set (fc := mkFrame vs bs) in *.
  set (X := mkFS st _ _) in *.
  rewrite (eval_join rb (clause_n m rb) m e fc jn tmpl sep [] pos0 X Hj (Forall_nil _)) in Hcl. cbn [map] in Hcl.
  destruct (parsed_ok _ _ Ht) as (es & Hp2 & Hl).
  assert (Hfn : forall nm, In nm (fnames (AFunc f :: cons_text mid [AFunc a])) -> compat rb e nm).
  { intros nm Hin. apply compat_builtin. revert nm Hin. unfold fnames, cons_text. cbn [map concat app]. destruct (is_empty mid); cbn [map concat app]; intros nm [<-|[<-|[]]]; auto. }
  assert (Hne : fnames (AFunc f :: cons_text mid [AFunc a]) <> []) by discriminate.
  rewrite (func_join_eq rb (clause_n m rb) m e fc tmpl sep [] X es _ Hp2 Hl Hne Hfn) in Hcl.
  pose proof (len_loop (clause_n m rb) (len_clause_n rb m) m e fc es sep 0 0 1 "" X) as [L1 L2].
  destruct (join_loop (clause_n m rb) m e fc es sep 0 0 1 "" X) as [[u|er|er|] X2] eqn:EL; try discriminate.
  cbn [safe] in Hcl. assert (X2 = X') as -> by congruence. cbn [snd X fs_ua fs_uf] in L1, L2. rewrite map_length in L1, L2.
  destruct m as [|m]; [discriminate EL|].
  assert (Hin1 : In (AFunc f) (norm (map strip es))) by (rewrite Hl; left; reflexivity).
  assert (Hin2 : In (AFunc a) (norm (map strip es))).
  { rewrite Hl. unfold cons_text. destruct (is_empty mid); cbn; auto. }
  destruct (Nat.lt_ge_cases (List.length bs) (List.length vs)) as [C|C].
  { (* an argument is never committed *) exfalso.
    pose proof (loop_keeps _ (fun S => nth_error (fs_ua S) (List.length bs)) (clause_n (S m) rb) e fc es sep 0 0 (Z.of_nat (List.length bs) + 1)) as K.
    specialize (K (fun X s X' => item_outside (S m) rb e fc es f (List.length bs) (Z.of_nat (List.length bs) + 1) X s X' Hin1 ltac:(unfold item_count; rewrite Hf; reflexivity) ltac:(unfold outside; lia))).
    assert (G : forall j Y, (j <= Z.of_nat (List.length bs) + 1)%Z ->
      nth_error (fs_ua (snd (clause_n (S m) rb e fc (set_index j es) Y))) (List.length bs) = nth_error (fs_ua Y) (List.length bs)).
    { intros j Y Hjj. rewrite (zip_item rb m e fc f a mid Hf Ha es Hl).
      assert (F1 : fs_ua (snd (safe f (func_fragment rb e fc j Y))) = fs_ua Y).
      { unfold func_fragment. destruct (nth1 _ _); [|reflexivity]. destruct (rb _ _ _) as [[] ?]; reflexivity. }
      destruct (Z.eq_dec j (Z.of_nat (List.length bs) + 1)) as [->|Hnj].
      - rewrite frag_out by (unfold outside; cbn [fc fr_frags]; lia). reflexivity.
      - destruct (safe f (func_fragment rb e fc j Y)) as [[w|er|er|] Y1]; cbn [snd andthen] in *; rewrite <- F1; try reflexivity.
        assert (F2 : nth_error (fs_ua (snd (safe a (func_arg fc j Y1)))) (List.length bs) = nth_error (fs_ua Y1) (List.length bs)).
        { unfold func_arg. destruct (nth1 (fr_args fc) j) as [v|] eqn:E1; [|reflexivity]. apply nth1_Some in E1 as [E1 _].
          destruct (commit v (fs_st Y1)) as [[] ?]; cbn [snd fs_ua safe]; apply nth_error_mark_same; lia. }
        rewrite <- F2. destruct (safe a (func_arg fc j Y1)) as [[] ?]; reflexivity. }
    specialize (K G (S m) 1%Z "" X ltac:(lia)). rewrite EL in K. cbn [snd] in K.
    rewrite (all_used_nth _ (List.length bs) U1) in K by lia. symmetry in K. cbn [X fs_ua] in K. exact (nth_false _ _ _ K). }
  destruct (Nat.le_gt_cases (List.length bs) (S (List.length vs))) as [D|D]; [lia|]. exfalso.
  pose proof (loop_keeps _ (fun Y => nth_error (fs_uf Y) (S (List.length vs))) (clause_n (S m) rb) e fc es sep 0 0 (Z.of_nat (List.length vs) + 1)) as K.
  specialize (K (fun X s X' => item_outside (S m) rb e fc es a (List.length vs) (Z.of_nat (List.length vs) + 1) X s X' Hin2 ltac:(unfold item_count; rewrite Ha; reflexivity) ltac:(unfold outside; lia))).
  assert (G : forall j Y, (j <= Z.of_nat (List.length vs) + 1)%Z ->
      nth_error (fs_uf (snd (clause_n (S m) rb e fc (set_index j es) Y))) (S (List.length vs)) = nth_error (fs_uf Y) (S (List.length vs))).
  { intros j Y Hjj. rewrite (zip_item rb m e fc f a mid Hf Ha es Hl).
    assert (F1 : nth_error (fs_uf (snd (safe f (func_fragment rb e fc j Y)))) (S (List.length vs)) = nth_error (fs_uf Y) (S (List.length vs))).
    { unfold func_fragment. destruct (nth1 (fr_frags fc) j) as [b|] eqn:E1; [|reflexivity]. apply nth1_Some in E1 as [E1 _].
      destruct (rb e b (fs_st Y)) as [[] ?]; cbn [snd fs_uf safe]; apply nth_error_mark_same; lia. }
    destruct (safe f (func_fragment rb e fc j Y)) as [[w|er|er|] Y1]; cbn [snd andthen] in *; rewrite <- F1; try reflexivity.
    assert (F2 : fs_uf (snd (safe a (func_arg fc j Y1))) = fs_uf Y1).
    { unfold func_arg. destruct (nth1 _ _); [|reflexivity]. destruct (commit _ _) as [[] ?]; reflexivity. }
    rewrite <- F2. destruct (safe a (func_arg fc j Y1)) as [[] ?]; reflexivity. }
  specialize (K G (S m) 1%Z "" X ltac:(lia)). rewrite EL in K. cbn [snd] in K.
  rewrite (all_used_nth _ (S (List.length vs)) U2) in K by lia. symmetry in K. cbn [X fs_uf] in K. exact (nth_false _ _ _ K).
Qed.

Theorem joined_question : forall n style h raw sep vs, style <> style_dollar ->
  parsed raw = Some [ACall "join" [LStr "#arg"; LStr sep]] -> List.length vs <= n ->
  build_query (S (S (S n))) style h (BFrag (Frag raw vs [] "" "")) =
  (ROk (trim_space (str_join sep (map (fun _ => "?") vs)), vs), h).
Proof.
  intros n style h raw sep vs Hs Hp Hn. unfold build_query.
  assert (Hd : st_dollar (new_store style h) = false).
  { unfold new_store. cbn [st_dollar]. apply Z.eqb_neq. exact Hs. }
  destruct (commit_question vs _ Hd) as (st' & E1 & E2 & E3).
  rewrite (joined_args n [builtins] raw "join" "arg" sep vs "" "" (new_store style h) _ st' eq_refl eq_refl Hp eq_refl E1 Hn).
  rewrite nonempty_question, E2. cbn [new_store st_args app].
  assert (Eh : st_heap st' = h).
  { clear - E1. revert E1. change h with (st_heap (new_store style h)) at 2. generalize (new_store style h) as st.
    generalize (map (fun _ : value => "?") vs) as ss. revert st'. induction vs as [|v vs IH]; intros st' ss st H.
    - cbn in H. congruence.
    - cbn [do_all] in H. destruct (commit v st) as [[s| | |] st1] eqn:E; try discriminate.
      destruct (do_all commit vs st1) as [[ss1| | |] st2] eqn:E2; try discriminate. injection H as _ <-.
      rewrite (IH _ _ _ E2). unfold commit in E. destruct (st_dollar st); [|injection E as _ <-; reflexivity].
      destruct (hashable v); [|discriminate]. destruct (dict_find _ _); injection E as _ <-; reflexivity. }
  rewrite Eh. unfold wrapped. destruct (trim_space _); cbn [is_empty append]; rewrite ?append_nil_r; reflexivity.
Qed.
