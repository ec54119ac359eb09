(** Proofs about shared properties. *)
From Coq Require Import Strings.String Strings.Ascii NArith ZArith List Bool Lia.
From Verif Require Import GoStr GoNum Syntax Value Util Model Sqlf Sqlb Props Spec_syntax ByteLex Lex_proofs Grammar_proofs
  Lossless_proofs Num_proofs RefSem Spec_build Spec_eval Text_proofs Sim_proofs Fuel_proofs Order_proofs Store_proofs Build_proofs
  Eval_proofs Use_proofs Join_proofs Join2_proofs.
Import ListNotations.
Open Scope string_scope.

Lemma set_heap_same : forall st, set_heap st (st_heap st) = st.
Proof. intros []. reflexivity. Qed.

(** Properties that report an invalid index for 0 without doing anything. *)
Lemma props_compat : forall rb e nm props, lookup_fn e nm = Some (props_fn props) -> props 0%Z = PRet "" (Some (EInvalidIndex 0)) -> compat rb e nm.
Proof.
  intros rb e nm props H P. exists (props_fn props), false. split; [exact H|]. intros st.
  unfold join_compat, props_fn. cbn [sig_of fs_outs fs_ins negb andb lit_int]. rewrite P. cbn [run_prog st_heap new_store norm_outs safe fst].
  rewrite set_heap_same. reflexivity.
Qed.
Lemma props_call : forall rb rc jf e fc nm props a X, lookup_fn e nm = Some (props_fn props) -> is_num a ->
  eval_function rb rc jf e fc nm [a] X =
  safe nm (let '(r, st') := run_prog rb e (props (lit_int a)) (fs_st X) in (r, mkFS st' (fs_ua X) (fs_uf X))).
Proof.
  intros rb rc jf e fc nm props a X H Ha. unfold eval_function. rewrite H. unfold eval_call, props_fn. cbn [sig_of].
  change (arity_ok _ _) with true. cbn iota. cbn [List.length].
  assert (E : eval_args (arg_types (mkSig [GCtx; GNum] false [GStr false; GError]) 1) [a] = ROk tt) by (destruct a; try contradiction; reflexivity).
  assert (R : any_rejected (arg_types (mkSig [GCtx; GNum] false [GStr false; GError]) 1) [a] = false) by (destruct a; try contradiction; reflexivity).
  rewrite E, R. cbn [call_fn fs_outs]. destruct (run_prog rb e (props (lit_int a)) (fs_st X)) as [[s|er|er|] st']; reflexivity.
Qed.
Lemma props_item : forall k rb e fc es nm props i X, norm (map strip es) = [AFunc nm] -> lookup_fn e nm = Some (props_fn props) ->
  clause_n (S k) rb e fc (set_index i es) X =
  safe nm (let '(r, st') := run_prog rb e (props i) (fs_st X) in (r, mkFS st' (fs_ua X) (fs_uf X))).
Proof.
  intros k rb e fc es nm props i X Hl Hf. rewrite join_item, Hl. cbn [map aset unstrip]. rewrite clause_n_S, clause_one.
  cbn [eval_expr]. rewrite (props_call _ _ _ _ _ _ props) by (assumption || exact I). reflexivity.
Qed.

Lemma run_args_in : forall rb e vs i v st, nth_error vs i = Some v -> run_prog rb e (args_build vs (Z.of_nat i + 1)) st = commit v st.
Proof.
  intros rb e vs i v st H. unfold args_build. rewrite (nth1_in _ _ _ _ H). cbn [run_prog].
  destruct (commit v st) as [[s|er|er|] st']; reflexivity.
Qed.
Lemma run_args_out : forall rb e vs i st, outside i (List.length vs) -> run_prog rb e (args_build vs i) st = (RErr (EInvalidIndex i), st).
Proof. intros rb e vs i st H. unfold args_build. rewrite nth1_outside by exact H. reflexivity. Qed.
Lemma run_frags_in : forall rb e bs i b st, nth_error bs i = Some b -> run_prog rb e (frags_build bs (Z.of_nat i + 1)) st = rb e b st.
Proof.
  intros rb e bs i b st H. unfold frags_build. rewrite (nth1_in _ _ _ _ H). cbn [run_prog].
  change (check_funcs []) with (@None err). cbn iota.
  destruct (rb e b st) as [[s|er|er|] st']; reflexivity.
Qed.
Lemma run_frags_out : forall rb e bs i st, outside i (List.length bs) -> run_prog rb e (frags_build bs i) st = (RErr (EInvalidIndex i), st).
Proof. intros rb e bs i st H. unfold frags_build. rewrite nth1_outside by exact H. reflexivity. Qed.

(* ------------------------------------------------------------------ *)

Section Joined.
Variable A : Type.
Variable items : list A.
Variable props : Z -> prog.
Variable rb : env -> builder -> store -> outcome string * store.
Variables k jf : nat.
Variable e : env.
Variable fc : frame.
Variables jn nm sep : string.
Variable step : A -> store -> outcome string * store.
Hypothesis Hj : lookup_fn e jn = Some FnJoin.
Hypothesis Hw : wf_name nm = true.
Hypothesis Hfn : lookup_fn e nm = Some (props_fn props).
Hypothesis H0 : props 0%Z = PRet "" (Some (EInvalidIndex 0)).
Hypothesis Hin : forall i x st, nth_error items i = Some x -> run_prog rb e (props (Z.of_nat i + 1)%Z) st = step x st.
Hypothesis Hout : forall i st, outside i (List.length items) -> run_prog rb e (props i) st = (RErr (EInvalidIndex i), st).
Let it (i : Z) (X : fstate) := safe nm (let '(r, st') := run_prog rb e (props i) (fs_st X) in (r, mkFS st' (fs_ua X) (fs_uf X))).
Let Hit : forall es i X, norm (map strip es) = [AFunc nm] -> clause_n (S k) rb e fc (set_index i es) X = it i X.
Proof. intros. apply props_item; assumption. Qed.
Let Hok : forall i x X s st', nth_error items i = Some x -> step x (fs_st X) = (ROk s, st') ->
  it (Z.of_nat i + 1) X = (ROk s, mkFS st' (noflag i (fs_ua X)) (noflag i (fs_uf X))).
Proof. intros i x X s st' Hn Hs. unfold it. rewrite (Hin i x _ Hn), Hs. reflexivity. Qed.
Let Hend : forall i X, outside i (List.length items) -> it i X = (RErr (EWrap ("error calling #" ++ nm) (EInvalidIndex i)), X).
Proof. intros i X Ho. unfold it. rewrite (Hout i _ Ho). destruct X; reflexivity. Qed.
Let len := Z.of_nat (List.length items).
Let call := join_call rb k jf e fc jn nm sep.

Lemma props_range : forall nums from to X ss st', Forall is_num nums ->
  range (map lit_int nums) len from to -> (1 <= from <= to)%Z -> (to <= len)%Z ->
  do_all step (slice from to items) (fs_st X) = (ROk ss, st') -> Z.to_nat (to - from + 1) < jf ->
  call nums X = (ROk (str_join sep (nonempty_items ss)), mkFS st' (fs_ua X) (fs_uf X)).
Proof.
  intros nums from to X ss st' H1 H2 H3 H4 H5 H6. unfold call.
  rewrite (single_range A items step noflag noflag rb k jf e fc jn nm sep Hj Hw (props_compat rb e nm props Hfn H0) it Hit)
    with (from := from) (to := to) (ss := ss) (st' := st'); auto.
  rewrite !iter_mark_no. reflexivity.
Qed.
Lemma props_none : forall nums X, Forall is_num nums -> items = [] ->
  match map lit_int nums with [] => True | [a] => (a <= 0)%Z | [a; b] => (a <= 0 /\ b <= 0)%Z | _ => False end ->
  0 < jf -> call nums X = (ROk "", X).
Proof.
  intros. unfold call. apply (single_none A items rb k jf e fc jn nm sep Hj Hw (props_compat rb e nm props Hfn H0) it Hit); auto.
Qed.
Lemma props_beyond : forall a b X ss st', is_num a -> is_num b -> let from := Z.max 1 (lit_int a) in
  (from <= len + 1)%Z -> (len < lit_int b)%Z -> (lit_int a <= lit_int b)%Z -> (0 < lit_int b)%Z ->
  do_all step (slice from len items) (fs_st X) = (ROk ss, st') -> Z.to_nat (len - from + 1) < jf ->
  call [a; b] X = (RErr (index_error jn nm (len + 1)), mkFS st' (fs_ua X) (fs_uf X)).
Proof.
  intros a b X ss st' H1 H2 from H3 H4 H5 H6 H7 H8. unfold call.
  rewrite (single_beyond A items step noflag noflag rb k jf e fc jn nm sep Hj Hw (props_compat rb e nm props Hfn H0) it Hit) with (ss := ss) (st' := st'); auto.
  rewrite !iter_mark_no. reflexivity.
Qed.
Lemma props_all : forall X ss st', do_all step items (fs_st X) = (ROk ss, st') -> List.length items < jf ->
  call [] X = (ROk (str_join sep (nonempty_items ss)), mkFS st' (fs_ua X) (fs_uf X)).
Proof.
  intros X ss st' Hd Hn. destruct (Nat.eq_dec (List.length items) 0) as [E|E].
  - assert (Ei : items = []) by (destruct items; [reflexivity|discriminate E]).
    rewrite (props_none [] X (Forall_nil _) Ei I ltac:(lia)). rewrite Ei in Hd. cbn in Hd. injection Hd as <- <-. destruct X; reflexivity.
  - apply props_range with (from := 1%Z) (to := len); try (unfold len; lia); [constructor|cbn [map range]; auto|].
    unfold slice. replace (Z.to_nat (1 - 1)) with 0 by lia. replace (Z.to_nat (len - 1 + 1)) with (List.length items) by (unfold len; lia).
    cbn [skipn]. rewrite firstn_all. exact Hd.
Qed.
End Joined.

Section Built.
Variables (n : nat) (e : env) (raw jn nm sep p s : string) (st st' : store) (ss : list string).
Hypothesis Hj : lookup_fn e jn = Some FnJoin.
Hypothesis Hw : wf_name nm = true.
Hypothesis Hp : parsed raw = Some [ACall jn [LStr ("#" ++ nm); LStr sep]].

Lemma joined_props_args : forall vs, lookup_fn e nm = Some (props_fn (args_build vs)) ->
  do_all commit vs st = (ROk ss, st') -> List.length vs <= n ->
  build (S (S (S n))) e (BFrag (Frag raw [] [] p s)) st = (ROk (wrapped p (trim_space (str_join sep (nonempty_items ss))) s), st').
Proof.
  intros vs Hf Hd Hn. rewrite (build_call _ _ _ _ _ _ _ _ _ _ Hp). set (X := mkFS _ _ _). set (rb := build (S (S n))).
  change (eval_expr rb (clause_n (S n) rb) (S n) e (mkFrame [] []) (ECall jn [LStr ("#" ++ nm); LStr sep] pos0) X)
    with (join_call rb n (S n) e (mkFrame [] []) jn nm sep [] X).
  rewrite (props_all value vs (args_build vs) rb n (S n) e (mkFrame [] []) jn nm sep commit Hj Hw Hf eq_refl
    (fun i x st H => run_args_in rb e vs i x st H) (fun i st H => run_args_out rb e vs i st H) X ss st' Hd ltac:(lia)).
  reflexivity.
Qed.
Lemma joined_props_frags : forall bs, lookup_fn e nm = Some (props_fn (frags_build bs)) ->
  do_all (build (S (S n)) e) bs st = (ROk ss, st') -> List.length bs <= n ->
  build (S (S (S n))) e (BFrag (Frag raw [] [] p s)) st = (ROk (wrapped p (trim_space (str_join sep (nonempty_items ss))) s), st').
Proof.
  intros bs Hf Hd Hn. rewrite (build_call _ _ _ _ _ _ _ _ _ _ Hp). set (X := mkFS _ _ _). set (rb := build (S (S n))) in *.
  change (eval_expr rb (clause_n (S n) rb) (S n) e (mkFrame [] []) (ECall jn [LStr ("#" ++ nm); LStr sep] pos0) X)
    with (join_call rb n (S n) e (mkFrame [] []) jn nm sep [] X).
  rewrite (props_all builder bs (frags_build bs) rb n (S n) e (mkFrame [] []) jn nm sep (rb e) Hj Hw Hf eq_refl
    (fun i x st H => run_frags_in rb e bs i x st H) (fun i st H => run_frags_out rb e bs i st H) X ss st' Hd ltac:(lia)).
  reflexivity.
Qed.
End Built.

(** One property. *)
Lemma one_props_arg : forall n e raw nm a vs i v p s st r st', lookup_fn e nm = Some (props_fn (args_build vs)) -> is_num a ->
  parsed raw = Some [ACall nm [a]] -> lit_int a = Z.of_nat (S i) -> nth_error vs i = Some v -> commit v st = (ROk r, st') ->
  build (S (S n)) e (BFrag (Frag raw [] [] p s)) st = (ROk (wrapped p (trim_space r) s), st').
Proof.
  intros n e raw nm a vs i v p s st r st' Hf Ha Hp Hi Hv Hc. rewrite (build_call _ _ _ _ _ _ _ _ _ _ Hp). cbn [eval_expr].
  rewrite (props_call _ _ _ _ _ _ _ _ _ Hf Ha). rewrite Hi. replace (Z.of_nat (S i)) with (Z.of_nat i + 1)%Z by lia.
  rewrite (run_args_in _ _ _ _ _ _ Hv). cbn [fs_st]. rewrite Hc. reflexivity.
Qed.
Lemma one_props_frag : forall n e raw nm a bs i b p s st r st', lookup_fn e nm = Some (props_fn (frags_build bs)) -> is_num a ->
  parsed raw = Some [ACall nm [a]] -> lit_int a = Z.of_nat (S i) -> nth_error bs i = Some b -> build (S n) e b st = (ROk r, st') ->
  build (S (S n)) e (BFrag (Frag raw [] [] p s)) st = (ROk (wrapped p (trim_space r) s), st').
Proof.
  intros n e raw nm a bs i b p s st r st' Hf Ha Hp Hi Hv Hc. rewrite (build_call _ _ _ _ _ _ _ _ _ _ Hp). cbn [eval_expr].
  rewrite (props_call _ _ _ _ _ _ _ _ _ Hf Ha). rewrite Hi. replace (Z.of_nat (S i)) with (Z.of_nat i + 1)%Z by lia.
  rewrite (run_frags_in _ _ _ _ _ _ Hv). cbn [fs_st]. rewrite Hc. reflexivity.
Qed.
Lemma no_props : forall n e raw nm a (len : nat) props p s st, lookup_fn e nm = Some (props_fn props) -> is_num a ->
  (exists vs, props = args_build vs /\ List.length vs = len) \/ (exists bs, props = frags_build bs /\ List.length bs = len) ->
  parsed raw = Some [ACall nm [a]] -> (lit_int a < 1 \/ Z.of_nat len < lit_int a)%Z ->
  exists er, build (S (S n)) e (BFrag (Frag raw [] [] p s)) st = (RErr er, st) /\ is_invalid_index er = true.
Proof.
  intros n e raw nm a len props p s st Hf Ha Hk Hp Ho. rewrite (build_call _ _ _ _ _ _ _ _ _ _ Hp). cbn [eval_expr].
  rewrite (props_call _ _ _ _ _ _ _ _ _ Hf Ha). cbn [fs_st].
  assert (R : run_prog (build (S n)) e (props (lit_int a)) st = (RErr (EInvalidIndex (lit_int a)), st)).
  { destruct Hk as [(l & -> & <-)|(l & -> & <-)]; [apply run_args_out|apply run_frags_out]; unfold outside; lia. }
  rewrite R. eexists. split; reflexivity.
Qed.
Lemma props_registers : forall nm props, check_funcs [(nm, props_fn props)] = None <-> good_name nm = true.
Proof.
  intros nm props. cbn [check_funcs]. change (good_sig (sig_of (props_fn props))) with true.
  destruct (good_name nm); cbn [negb]; split; auto; discriminate.
Qed.

(* ------------------------------------------------------------------ *)
(** * Sharing *)

Lemma commit_known : forall v st r st', st_dollar st = true -> hashable v && go_eq v v = true -> commit v st = (ROk r, st') ->
  forall st2, grows st' st2 -> commit v st2 = (ROk r, st2).
Proof.
  intros v st r st' Hd Hv Hc st2 (G1 & _ & G3). apply andb_true_iff in Hv as [Hh Hs].
  assert (K : exists k, r = "$" ++ itoa_nat k /\ dict_find v (st_dict st') = Some k /\ st_dollar st' = true).
  { unfold commit in Hc. rewrite Hd, Hh in Hc. destruct (dict_find v (st_dict st)) as [k|] eqn:Ed.
    - injection Hc as <- <-. exists k. auto.
    - injection Hc as <- <-. eexists. split; [reflexivity|]. cbn [st_dict st_dollar]. rewrite dict_find_cons, Hs. auto. }
  destruct K as (k & -> & K & Kd). unfold commit. rewrite G1, Kd, Hh, (G3 _ _ K). reflexivity.
Qed.
Lemma do_all_known : forall vs st ss st', st_dollar st = true -> forallb (fun v => hashable v && go_eq v v) vs = true ->
  do_all commit vs st = (ROk ss, st') -> grows st st' /\ forall st2, grows st' st2 -> do_all commit vs st2 = (ROk ss, st2).
Proof.
  induction vs as [|v vs IH]; intros st ss st' Hd Hv H.
  - cbn in H. injection H as <- <-. split; [apply grows_refl|]. reflexivity.
  - cbn [forallb] in Hv. apply andb_true_iff in Hv as [Hv Hvs]. cbn [do_all] in H |- *.
    destruct (commit v st) as [[r|er|er|] s1] eqn:Ec; try discriminate H.
    pose proof (grows_commit v st) as G. rewrite Ec in G. cbn [snd] in G.
    destruct (do_all commit vs s1) as [[rs|er|er|] s2] eqn:Er; try discriminate H. injection H as <- <-.
    assert (D1 : st_dollar s1 = true) by (destruct G as [G _]; congruence).
    destruct (IH s1 rs s2 D1 Hvs Er) as [G2 IH2]. split; [eapply grows_trans; eassumption|].
    intros st2 G3. rewrite (commit_known v st r s1 Hd Hv Ec st2 (grows_trans _ _ _ G2 G3)), (IH2 st2 G3). reflexivity.
Qed.

Lemma commit_dollar_text : forall v st, st_dollar st = true -> hashable v = true -> exists r st', commit v st = (ROk r, st') /\ st_dollar st' = true.
Proof.
  intros v st Hd Hh. unfold commit. rewrite Hd, Hh. destruct (dict_find v (st_dict st)); do 2 eexists; (split; [reflexivity|]); auto.
Qed.
Lemma do_all_dollar : forall vs st, st_dollar st = true -> forallb (fun v => hashable v && go_eq v v) vs = true ->
  exists ss st', do_all commit vs st = (ROk ss, st').
Proof.
  induction vs as [|v vs IH]; intros st Hd Hv; [do 2 eexists; reflexivity|].
  cbn [forallb] in Hv. apply andb_true_iff in Hv as [Hv Hvs]. apply andb_true_iff in Hv as [Hv _].
  destruct (commit_dollar_text v st Hd Hv) as (r & s1 & Ec & D1). destruct (IH s1 D1 Hvs) as (ss & s2 & Er).
  cbn [do_all]. rewrite Ec, Er. do 2 eexists. reflexivity.
Qed.
Lemma shared_props : forall n e raw jn nm sep p s st vs,
  lookup_fn e jn = Some FnJoin -> wf_name nm = true -> parsed raw = Some [ACall jn [LStr ("#" ++ nm); LStr sep]] ->
  lookup_fn e nm = Some (props_fn (args_build vs)) -> st_dollar st = true -> forallb (fun v => hashable v && go_eq v v) vs = true ->
  List.length vs <= n ->
  exists t, let r := build (S (S (S n))) e (BFrag (Frag raw [] [] p s)) st in
    fst r = ROk t /\
    forall k e' b m, List.length vs <= m -> let st2 := snd (build k e' b (snd r)) in
      build (S (S (S m))) e (BFrag (Frag raw [] [] p s)) st2 = (ROk t, st2).
Proof.
  intros n e raw jn nm sep p s st vs Hj Hw Hp Hf Hd Hv Hn. destruct (do_all_dollar vs st Hd Hv) as (ss & st' & Ho).
  destruct (do_all_known vs st ss st' Hd Hv Ho) as [_ G].
  exists (wrapped p (trim_space (str_join sep (nonempty_items ss))) s). cbv zeta.
  rewrite (joined_props_args n e raw jn nm sep p s st st' ss Hj Hw Hp vs Hf Ho Hn). split; [reflexivity|].
  intros k e' b m Hm. cbn [snd]. pose proof (G _ (store_grows k e' b st')) as G'. set (st2 := snd (build k e' b st')) in *.
  exact (joined_props_args m e raw jn nm sep p s st2 st2 ss Hj Hw Hp vs Hf G' Hm).
Qed.

(** Ranges. *)
Section Ranges.
Variables (n : nat) (e : env) (raw jn nm sep p s : string) (st st' : store) (ss : list string) (nums : list lit) (from to : Z).
Hypothesis Hj : lookup_fn e jn = Some FnJoin.
Hypothesis Hw : wf_name nm = true.
Hypothesis Hp : parsed raw = Some [ACall jn (LStr ("#" ++ nm) :: LStr sep :: nums)].
Hypothesis Hnum : Forall is_num nums.
Hypothesis Hft : (1 <= from <= to)%Z.

Lemma range_props_args : forall vs, lookup_fn e nm = Some (props_fn (args_build vs)) ->
  range (map lit_int nums) (Z.of_nat (List.length vs)) from to -> (to <= Z.of_nat (List.length vs))%Z ->
  do_all commit (slice from to vs) st = (ROk ss, st') -> List.length vs <= n ->
  build (S (S (S n))) e (BFrag (Frag raw [] [] p s)) st = (ROk (wrapped p (trim_space (str_join sep (nonempty_items ss))) s), st').
Proof.
  intros vs Hf Hr Ht Hd Hn. rewrite (build_call _ _ _ _ _ _ _ _ _ _ Hp). set (X := mkFS _ _ _). set (rb := build (S (S n))).
  change (eval_expr rb (clause_n (S n) rb) (S n) e (mkFrame [] []) (ECall jn (LStr ("#" ++ nm) :: LStr sep :: nums) pos0) X)
    with (join_call rb n (S n) e (mkFrame [] []) jn nm sep nums X).
  rewrite (props_range value vs (args_build vs) rb n (S n) e (mkFrame [] []) jn nm sep commit Hj Hw Hf eq_refl
    (fun i x st H => run_args_in rb e vs i x st H) (fun i st H => run_args_out rb e vs i st H) nums from to X ss st' Hnum Hr Hft Ht Hd ltac:(lia)).
  reflexivity.
Qed.
Lemma range_props_frags : forall bs, lookup_fn e nm = Some (props_fn (frags_build bs)) ->
  range (map lit_int nums) (Z.of_nat (List.length bs)) from to -> (to <= Z.of_nat (List.length bs))%Z ->
  do_all (build (S (S n)) e) (slice from to bs) st = (ROk ss, st') -> List.length bs <= n ->
  build (S (S (S n))) e (BFrag (Frag raw [] [] p s)) st = (ROk (wrapped p (trim_space (str_join sep (nonempty_items ss))) s), st').
Proof.
  intros bs Hf Hr Ht Hd Hn. rewrite (build_call _ _ _ _ _ _ _ _ _ _ Hp). set (X := mkFS _ _ _). set (rb := build (S (S n))) in *.
  change (eval_expr rb (clause_n (S n) rb) (S n) e (mkFrame [] []) (ECall jn (LStr ("#" ++ nm) :: LStr sep :: nums) pos0) X)
    with (join_call rb n (S n) e (mkFrame [] []) jn nm sep nums X).
  rewrite (props_range builder bs (frags_build bs) rb n (S n) e (mkFrame [] []) jn nm sep (rb e) Hj Hw Hf eq_refl
    (fun i x st H => run_frags_in rb e bs i x st H) (fun i st H => run_frags_out rb e bs i st H) nums from to X ss st' Hnum Hr Hft Ht Hd ltac:(lia)).
  reflexivity.
Qed.
End Ranges.
