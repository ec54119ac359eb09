(** Facts about the conversion of numbers. *)
From Coq Require Import Strings.String Strings.Ascii NArith ZArith List Bool Lia Floats.SpecFloat.
From Verif Require Import GoStr GoNum Syntax Value Util Model Sqlf Sqlb Props Spec_syntax RefSem Spec_build Spec_eval Spec_base
  Lex_proofs Num_proofs Fuel_proofs Eval_proofs Use_proofs Join_proofs Join2_proofs Base_proofs Spec_steps Steps_proofs Convert Spec_convert.
Import ListNotations.
Open Scope string_scope.

Lemma whole_iff : forall f q, whole f q <-> trunc_float f = Some q.
Proof.
  intros [s|s| |s m e] q; cbn [whole trunc_float]; try (split; [contradiction|discriminate]).
  - split; [intros ->; reflexivity|intros H; injection H as <-; reflexivity].
  - assert (P : forall x, (0 <= x -> 0 < 2 ^ x)%Z) by (intros x Hx; apply Z.pow_pos_nonneg; lia).
    set (a := if (0 <=? e)%Z then (Zpos m * 2 ^ e)%Z else (Zpos m / 2 ^ (- e))%Z).
    assert (U : forall b, (b * 2 ^ Z.max 0 (- e) <= Zpos m * 2 ^ Z.max 0 e < (b + 1) * 2 ^ Z.max 0 (- e))%Z <-> b = a).
    { intros b. unfold a. destruct (Z.leb_spec 0 e) as [L|L].
      - rewrite (Z.max_l 0 (- e)), (Z.max_r 0 e) by lia. rewrite Z.pow_0_r. lia.
      - rewrite (Z.max_r 0 (- e)), (Z.max_l 0 e) by lia. rewrite Z.pow_0_r. pose proof (P (- e)%Z ltac:(lia)) as Q. split.
        + intros H. apply Z.div_unique with (r := (Zpos m - b * 2 ^ (- e))%Z); lia.
        + intros ->. pose proof (Z.div_mod (Zpos m) (2 ^ (- e)) ltac:(lia)). pose proof (Z.mod_pos_bound (Zpos m) (2 ^ (- e)) Q). lia. }
    assert (A0 : (0 <= a)%Z).
    { unfold a. destruct (Z.leb_spec 0 e) as [L|L]; [pose proof (P e L); lia|]. apply Z.div_pos; [lia|apply P; lia]. }
    split.
    + intros (b & B0 & -> & H). apply U in H as ->. reflexivity.
    + intros H. injection H as <-. exists a. split; [exact A0|]. split; [reflexivity|apply U; reflexivity].
Qed.

Lemma whole_part_meant : forall far lo hi f q, whole_part far lo hi f = q <->
  (whole f q /\ (lo <= q <= hi)%Z) \/ ((forall z, whole f z -> ~ (lo <= z <= hi)%Z) /\ q = far f).
Proof.
  intros far lo hi f q. unfold whole_part. destruct (trunc_float f) as [z|] eqn:E.
  - destruct ((lo <=? z)%Z && (z <=? hi)%Z) eqn:B.
    + split.
      * intros <-. left. split; [apply whole_iff; exact E|lia].
      * intros [[W _]|[N _]]; [apply whole_iff in W; congruence|]. exfalso. apply (N z); [apply whole_iff; exact E|lia].
    + split.
      * intros <-. right. split; [|reflexivity]. intros y W. apply whole_iff in W. assert (y = z) by congruence. lia.
      * intros [[W L]|[_ ->]]; [|reflexivity]. apply whole_iff in W. assert (q = z) by congruence. lia.
  - split.
    + intros <-. right. split; [|reflexivity]. intros y W. apply whole_iff in W. congruence.
    + intros [[W L]|[_ ->]]; [apply whole_iff in W; congruence|reflexivity].
Qed.

Ltac cases_of_kind H := cbn [In] in H; destruct H as [<-|[<-|[<-|[<-|[]]]]].
Lemma low_bits_fitted : forall k q x, integer k -> (low_bits k q = x <-> fitted k q x).
Proof.
  assert (S1 : forall w q x, (0 < w)%Z -> (low_bits (KInt w) q = x <-> fitted (KInt w) q x)).
  { intros w q x W. unfold fitted. cbn [low_bits least greatest width]. 
    assert (E : (2 ^ w = 2 * 2 ^ (w - 1))%Z) by (rewrite <- Z.pow_succ_r by lia; f_equal; lia).
    assert (P : (0 < 2 ^ (w - 1))%Z) by (apply Z.pow_pos_nonneg; lia). rewrite E. set (h := (2 ^ (w - 1))%Z) in *.
    pose proof (Z.div_mod q (2 * h) ltac:(lia)) as D. pose proof (Z.mod_pos_bound q (2 * h) ltac:(lia)) as B. cbn zeta. split.
    - intros <-. destruct (Z.ltb_spec (q mod (2 * h)) h).
      + split; [lia|]. exists (q / (2 * h))%Z. lia.
      + split; [lia|]. exists (q / (2 * h) + 1)%Z. lia.
    - intros (L & c & ->). destruct (Z.ltb_spec x 0) as [N|N].
      + assert (Q : ((x + c * (2 * h)) mod (2 * h) = x + 2 * h)%Z) by (symmetry; apply Z.mod_unique_pos with (q := (c - 1)%Z); lia). rewrite Q.
        replace (x + 2 * h <? h)%Z with false by lia. lia.
      + assert (Q : ((x + c * (2 * h)) mod (2 * h) = x)%Z) by (symmetry; apply Z.mod_unique_pos with (q := c); lia). rewrite Q.
        replace (x <? h)%Z with true by lia. reflexivity. }
  assert (U1 : forall w q x, (0 < w)%Z -> (low_bits (KUint w) q = x <-> fitted (KUint w) q x)).
  { intros w q x W. unfold fitted. cbn [low_bits least greatest width]. assert (P : (0 < 2 ^ w)%Z) by (apply Z.pow_pos_nonneg; lia). set (h := (2 ^ w)%Z) in *.
    pose proof (Z.div_mod q h ltac:(lia)) as D. pose proof (Z.mod_pos_bound q h ltac:(lia)) as B. split.
    - intros <-. split; [lia|]. exists (q / h)%Z. lia.
    - intros (L & c & ->). symmetry. apply Z.mod_unique_pos with (q := c); lia. }
  intros [w|w| |] q x H; try contradiction; [apply S1|apply U1]; cases_of_kind H; lia.
Qed.

Theorem convert_iff : forall far k a x, integer k -> is_num a -> (convert far k a = NInt x <-> exists q, meant far k a q /\ fitted k q x).
Proof.
  intros far k a x Hk Ha. assert (J : forall y, NInt y = NInt x <-> y = x) by (intros y; split; [intros E; injection E; auto|intros ->; reflexivity]).
  destruct a as [f|z| | |]; try contradiction; cbn [meant].
  - destruct k as [w|w| |]; try contradiction; cbn [convert widest]; rewrite J, low_bits_fitted by exact Hk.
    + split.
      * intros F. eexists. split; [|exact F]. apply (proj1 (whole_part_meant far (- 2 ^ 63) (2 ^ 63 - 1) f _)). reflexivity.
      * intros (q & M & F). replace (whole_part far (- 2 ^ 63) (2 ^ 63 - 1) f) with q; [exact F|]. symmetry. apply whole_part_meant. exact M.
    + split.
      * intros F. eexists. split; [|exact F]. apply (proj1 (whole_part_meant far 0 (2 ^ 64 - 1) f _)). reflexivity.
      * intros (q & M & F). replace (whole_part far 0 (2 ^ 64 - 1) f) with q; [exact F|]. symmetry. apply whole_part_meant. exact M.
  - replace (convert far k (LInt z)) with (NInt (low_bits k z)) by (destruct k; try contradiction; reflexivity). rewrite J, low_bits_fitted by exact Hk.
    split; [intros F; exists z; auto|intros (q & -> & F); exact F].
Qed.
Lemma fitted_same : forall k q, integer k -> (least k <= q <= greatest k)%Z -> forall x, fitted k q x <-> x = q.
Proof.
  intros k q Hk L x. rewrite <- low_bits_fitted by exact Hk. assert (F : fitted k q q) by (split; [exact L|exists 0%Z; lia]).
  apply low_bits_fitted in F; [|exact Hk]. rewrite F. split; congruence.
Qed.
Theorem convert_in_range : forall far k a q, integer k -> is_num a -> meant far k a q -> (least k <= q <= greatest k)%Z -> convert far k a = NInt q.
Proof. intros far k a q Hk Ha M L. apply convert_iff; auto. exists q. split; [exact M|]. apply fitted_same; auto. Qed.
Theorem converted : forall far k a, integer k -> is_num a -> exists x, convert far k a = NInt x /\ (least k <= x <= greatest k)%Z.
Proof.
  intros far k a Hk Ha. assert (E : exists x, convert far k a = NInt x) by (destruct a; try contradiction; destruct k; try contradiction; cbn [convert]; eauto).
  destruct E as (x & E). exists x. split; [exact E|]. apply convert_iff in E as (q & _ & (L & _)); auto.
Qed.

(* ------------------------------------------------------------------ *)
(** * Calls *)

Lemma number_suits : forall far k body a, is_num a -> suits (number_fn far k body) [a].
Proof.
  intros far k body a Ha. apply suits_iff; [intros K; discriminate K|]. cbn [number_fn sig_of List.length].
  split; [reflexivity|]. destruct a; try contradiction; split; reflexivity.
Qed.
Lemma steps_one : forall e args frags x st r ua uf st', steps e args frags x st r ua uf st' -> steps_all e args frags [x] st r ua uf st'.
Proof.
  intros e args frags x st r ua uf st' H. destruct r as [s|]; [|apply sa_here; exact H].
  pose proof (sa_cons e args frags x [] st s ua uf st' "" [] [] st' H (sa_nil e args frags st')) as K.
  rewrite append_nil_r, !app_nil_r in K. exact K.
Qed.
Lemma returns_env : forall e p st o st', (forall rb, run_prog rb e p st = (o, st')) -> o <> RFuel -> returns e p st o st'.
Proof. intros e p st o st' H F. exists 0. auto. Qed.
Theorem number_call : forall far k body e raw nm a p s st t st', proper_env e -> lookup_fn e nm = Some (number_fn far k body) -> is_num a ->
  parsed raw = Some [ACall nm [a]] -> returns e (body (convert far k a)) st (ROk t) st' ->
  finishes e (BFrag (Frag raw [] [] p s)) st (ROk (wrapped p (trim_space t) s)) st'.
Proof.
  intros far k body e raw nm a p s st t st' He Hf Ha Hp Hr. apply fragment_steps; [exact He|]. exists [ACall nm [a]], t, [], []. split; [exact Hp|].
  split; [|split; [intros j Hj; cbn in Hj; lia|split; [intros j Hj; cbn in Hj; lia|reflexivity]]]. apply steps_one.
  eapply st_custom; [exact Hf|apply number_suits; exact Ha|exact Hr|reflexivity].
Qed.

(* ------------------------------------------------------------------ *)
(** * Joins *)

Lemma index_reached : forall k i, integer k -> (1 <= i <= last_index k)%Z -> low_bits (KInt 64) (low_bits k i) = i.
Proof.
  intros k i Hk L. unfold last_index in L. assert (H1 : low_bits k i = i).
  { apply low_bits_fitted; [exact Hk|]. apply fitted_same; [exact Hk| |reflexivity]. destruct k as [w|w| |]; try contradiction; cbn [least greatest] in *; cases_of_kind Hk; lia. }
  rewrite H1. apply low_bits_fitted; [cbn; auto|]. apply fitted_same; [cbn; auto| |reflexivity]. cbn [least greatest]. lia.
Qed.
Lemma index_missed : forall k, integer k -> (low_bits (KInt 64) (low_bits k (last_index k + 1)) <= 0)%Z.
Proof. intros [w|w| |] Hk; try contradiction; cases_of_kind Hk; vm_compute; discriminate. Qed.
Lemma nth1_nonpos : forall A (l : list A) i, (i <= 0)%Z -> nth1 l i = None.
Proof. intros A l i H. unfold nth1. replace (1 <=? i)%Z with false by lia. reflexivity. Qed.

Section Cut.
Variables (A : Type) (items : list A) (props : Z -> prog) (R : A -> store -> string -> store -> Prop).
Variables (far : f64 -> Z) (k : numkind) (e : env) (jn nm sep : string).
Hypothesis Hk : integer k.
Hypothesis He : proper_env e.
Hypothesis Hj : lookup_fn e jn = Some FnJoin.
Hypothesis Hw : wf_name nm = true.
Hypothesis Hf : lookup_fn e nm = Some (indexed_fn far k props).
Hypothesis Hin : forall i x st s st', nth1 items i = Some x -> R x st s st' -> returns e (props i) st (ROk s) st'.
Hypothesis Hout : forall i e st, nth1 items i = None -> returns e (props i) st (RErr (EInvalidIndex i)) st.

Lemma cut_round : forall i x st s st', (1 <= i <= last_index k)%Z -> nth1 items i = Some x -> R x st s st' ->
  steps_all e [] [] (map (at_round i) [AFunc nm]) st (Gives s) [] [] st'.
Proof.
  intros i x st s st' L Hn Hr. cbn [map at_round]. apply steps_one. eapply st_custom; [exact Hf|apply number_suits; exact Logic.I| |reflexivity].
  cbv beta iota. replace (convert far k (LInt i)) with (NInt (low_bits k i)) by (destruct k; try contradiction; reflexivity). cbv iota.
  rewrite index_reached by assumption. eapply Hin; eassumption.
Qed.
Lemma cut_lacks : forall i st, nth1 items (low_bits (KInt 64) (low_bits k i)) = None ->
  steps_all e [] [] (map (at_round i) [AFunc nm]) st Lacks [] [] st.
Proof.
  intros i st Hn. cbn [map at_round]. apply steps_one. eapply st_custom_lacks; [exact Hf|apply number_suits; exact Logic.I| |].
  - cbv beta iota. replace (convert far k (LInt i)) with (NInt (low_bits k i)) by (destruct k; try contradiction; reflexivity). cbv iota. apply Hout. exact Hn.
  - eexists. split; [left; reflexivity|]. constructor.
Qed.
Lemma cut_rounds : forall kept rest pre st ss st', items = (pre ++ kept ++ rest)%list ->
  (Z.of_nat (List.length (pre ++ kept)) <= last_index k)%Z -> (rest = [] \/ Z.of_nat (List.length (pre ++ kept)) = last_index k) ->
  in_turn R kept st ss st' -> rounds e [] [] [AFunc nm] 0 0 (Z.of_nat (List.length pre) + 1) st (Some ss) [] [] st'.
Proof.
  induction kept as [|x kept IH]; intros rest pre st ss st' Hi Hl Hc Ht.
  - revert Hi. inversion Ht; subst. intros Hi. apply rd_end; [lia|lia|]. apply cut_lacks. rewrite app_nil_r in *. cbn [app].
    destruct Hc as [->|Hc]; [|rewrite Hc; apply nth1_nonpos; apply index_missed; exact Hk].
    destruct (Z.eq_dec (Z.of_nat (List.length pre)) (last_index k)) as [E|E]; [rewrite E; apply nth1_nonpos; apply index_missed; exact Hk|].
    rewrite index_reached by (try exact Hk; lia). apply nth1_outside. unfold outside. rewrite Hi. cbn [app]. rewrite app_nil_r. lia.
  - revert Hi. inversion Ht as [|? ? ? s st1 ss2 ? Hx Hr]; subst. intros Hi. rewrite app_length in Hl. cbn [List.length] in Hl.
    change (Some (s :: ss2)) with (option_map (cons s) (Some ss2)). change (@nil Z) with (@nil Z ++ @nil Z)%list.
    eapply rd_more; [lia| |].
    + apply (cut_round _ x); [lia| |exact Hx]. apply nth1_in. rewrite Hi. rewrite nth_error_app2 by lia. rewrite Nat.sub_diag. reflexivity.
    + replace (Z.of_nat (List.length pre) + 1 + 1)%Z with (Z.of_nat (List.length (pre ++ [x])) + 1)%Z by (rewrite app_length; cbn [List.length]; lia).
      apply IH with (rest := rest).
      * rewrite <- app_assoc. exact Hi.
      * rewrite <- app_assoc, app_length. cbn [app List.length]. lia.
      * rewrite <- app_assoc. exact Hc.
      * exact Hr.
Qed.
Theorem cut_join : forall raw p s kept st ss st', parsed raw = Some [ACall jn [LStr ("#" ++ nm); LStr sep]] -> reachable k items kept -> in_turn R kept st ss st' ->
  finishes e (BFrag (Frag raw [] [] p s)) st (ROk (wrapped p (trim_space (str_join sep (nonempty_items ss))) s)) st'.
Proof.
  intros raw p s kept st ss st' Hp (rest & Hi & Hl & Hc) Ht. apply fragment_steps; [exact He|]. eexists [_], _, [], []. split; [exact Hp|].
  split; [|split; [intros j Hj2; cbn in Hj2; lia|split; [intros j Hj2; cbn in Hj2; lia|reflexivity]]]. apply steps_one.
  eapply st_join with (from := 0%Z) (to := 0%Z) (st1 := st); [exact Hj|constructor|split; reflexivity|apply parsed_func; exact Hw|discriminate| |].
  - replace st with (set_heap st (st_heap (new_store style_question (st_heap st)))) at 2 by (destruct st; reflexivity). cbn [functions_of flat_map app].
    eapply ac_custom; [exact Hf|split; [eexists; reflexivity|right; reflexivity]| |exists (EInvalidIndex 0); split; [left; reflexivity|constructor]|].
    + cbv beta iota. replace (convert far k (LInt 0)) with (NInt (low_bits k 0)) by (destruct k; try contradiction; reflexivity). cbv iota.
      assert (E : low_bits k 0 = 0%Z) by (apply low_bits_fitted; [exact Hk|]; apply fitted_same; [exact Hk| |reflexivity]; destruct k as [w|w| |]; try contradiction; cbn [least greatest]; cases_of_kind Hk; lia).
      rewrite E. change (low_bits (KInt 64) 0) with 0%Z. apply Hout. apply nth1_nonpos. lia.
    + destruct st; apply ac_none.
  - change (Z.max 1 0) with (Z.of_nat (List.length (@nil A)) + 1)%Z. eapply cut_rounds; eauto.
Qed.
End Cut.

Theorem join_arguments : forall far k e jn nm sep raw p s vs kept st ss st', integer k -> proper_env e -> lookup_fn e jn = Some FnJoin -> wf_name nm = true ->
  lookup_fn e nm = Some (indexed_fn far k (args_build vs)) -> parsed raw = Some [ACall jn [LStr ("#" ++ nm); LStr sep]] ->
  reachable k vs kept -> in_turn (fun v st s st' => commit v st = (ROk s, st')) kept st ss st' ->
  finishes e (BFrag (Frag raw [] [] p s)) st (ROk (wrapped p (trim_space (str_join sep (nonempty_items ss))) s)) st'.
Proof.
  intros far k e jn nm sep raw p s vs kept st ss st' Hk He Hj Hw Hf Hp Hr Ht. eapply cut_join; try eassumption.
  - intros i x st1 s1 st1' Hn Hc. apply returns_env; [|discriminate]. intros rb. unfold args_build. rewrite Hn. cbn [run_prog]. rewrite Hc. reflexivity.
  - intros i e' st1 Hn. apply returns_env; [|discriminate]. intros rb. unfold args_build. rewrite Hn. reflexivity.
Qed.
Theorem join_fragments : forall far k e jn nm sep raw p s bs kept st ss st', integer k -> proper_env e -> lookup_fn e jn = Some FnJoin -> wf_name nm = true ->
  lookup_fn e nm = Some (indexed_fn far k (frags_build bs)) -> parsed raw = Some [ACall jn [LStr ("#" ++ nm); LStr sep]] ->
  reachable k bs kept -> in_turn (fun b st s st' => finishes e b st (ROk s) st') kept st ss st' ->
  finishes e (BFrag (Frag raw [] [] p s)) st (ROk (wrapped p (trim_space (str_join sep (nonempty_items ss))) s)) st'.
Proof.
  intros far k e jn nm sep raw p s bs kept st ss st' Hk He Hj Hw Hf Hp Hr Ht. eapply cut_join; try eassumption.
  - intros i x st1 s1 st1' Hn (n & E & F). exists n. split; [|discriminate]. unfold frags_build. rewrite Hn. cbn [run_prog].
    change (check_funcs []) with (@None err). cbn iota. cbn [check_funcs] in *. rewrite E. reflexivity.
  - intros i e' st1 Hn. apply returns_env; [|discriminate]. intros rb. unfold frags_build. rewrite Hn. reflexivity.
Qed.
Theorem written_means : forall far k n f, integer k -> (n < 9007199254740992)%N -> parse_float (dec n) = Some f -> meant far k (LNum f) (Z.of_N n).
Proof.
  intros far k n f Hk Hn Hp. rewrite parse_float_dec in Hp by exact Hn. injection Hp as <-. left. split; [apply whole_iff; apply float_of_N_exact; exact Hn|].
  destruct k as [w|w| |]; try contradiction; cbn [widest least greatest]; lia.
Qed.
