(** References under a change of numbers. *)
From Coq Require Import Strings.String Strings.Ascii NArith ZArith List Bool Lia.
From Verif Require Import GoStr GoNum Syntax Value Util Model Sqlf Sqlb Spec_syntax Spec_base Spec_eval Spec_swap Spec_renumber
  Lex_proofs Eval_proofs Use_proofs Base_proofs.
Import ListNotations.
Open Scope string_scope.

Lemma nth1_item : forall A (l : list A) i x, nth1 l i = Some x <-> item l i x.
Proof.
  intros A l i x. unfold nth1, item. split.
  - destruct ((1 <=? i)%Z && (i <=? Z.of_nat (List.length l))%Z) eqn:C; [|discriminate].
    apply andb_prop in C. destruct C as [C _]. apply Z.leb_le in C. auto.
  - intros [H1 H2]. assert (L : Z.to_nat (i - 1) < List.length l) by (apply nth_error_Some; congruence).
    assert ((1 <=? i)%Z && (i <=? Z.of_nat (List.length l))%Z = true) as ->; [|exact H2].
    apply andb_true_intro. split; apply Z.leb_le; lia.
Qed.
Lemma nth1_no_item : forall A (l : list A) i, nth1 l i = None <-> forall x, ~ item l i x.
Proof.
  intros A l i. split.
  - intros H x K. apply nth1_item in K. congruence.
  - intros H. destruct (nth1 l i) as [x|] eqn:E; [|reflexivity]. apply nth1_item in E. destruct (H x E).
Qed.
Lemma item_fun : forall A (l : list A) i x y, item l i x -> item l i y -> x = y.
Proof. intros A l i x y [_ H] [_ K]. congruence. Qed.
Lemma mark_used : forall l k i, (1 <= k)%Z -> item (mark (Z.to_nat (k - 1)) l) i true <-> item l i true \/ (i = k /\ exists x, item l k x).
Proof.
  intros l k i Hk. unfold item. rewrite mark_iff.
  destruct (Nat.eqb (Z.to_nat (i - 1)) (Z.to_nat (k - 1))) eqn:E.
  - apply Nat.eqb_eq in E. split.
    + intros [H1 H2]. right. assert (i = k) as -> by lia. split; [reflexivity|].
      destruct (nth_error l (Z.to_nat (k - 1))) as [x|] eqn:N; [eauto|discriminate].
    + intros [[H1 H2]|[-> (x & H1 & H2)]]; [rewrite H2; auto|rewrite H2; auto].
  - apply Nat.eqb_neq in E. split; [auto|]. intros [H|[-> _]]; [exact H|congruence].
Qed.
Lemma all_used_items : forall l, all_used l = true <-> forall i x, item l i x -> item l i true.
Proof.
  intros l. unfold all_used. rewrite forallb_forall. split.
  - intros H i x [H1 H2]. split; [exact H1|]. rewrite (H x (nth_error_In _ _ H2)) in H2. exact H2.
  - intros H x Hx. apply In_nth_error in Hx. destruct Hx as [n Hn].
    assert (I : item l (Z.of_nat n + 1) x) by (split; [lia|]; replace (Z.to_nat (Z.of_nat n + 1 - 1)) with n by lia; exact Hn).
    exact (item_fun _ _ _ _ _ I (H _ _ I)).
Qed.
Lemma item_length : forall A B (l : list A) (m : list B) i x, List.length l = List.length m -> item l i x -> exists y, item m i y.
Proof.
  intros A B l m i x L [H1 H2]. assert (K : Z.to_nat (i - 1) < List.length m) by (rewrite <- L; apply nth_error_Some; congruence).
  destruct (nth_error m (Z.to_nat (i - 1))) as [y|] eqn:E; [exists y; split; assumption|]. apply nth_error_None in E. lia.
Qed.

(** The flags of [u] are those of [u'], renumbered. *)
Definition flags {A} (f : Z -> Z) (l l' : list A) (u u' : list bool) : Prop :=
  List.length u = List.length l /\ List.length u' = List.length l' /\
  forall j, item u' j true <-> exists i, item u i true /\ f i = j.
Lemma flags_start : forall A f (l l' : list A), flags f l l' (map (fun _ => false) l) (map (fun _ => false) l').
Proof.
  intros A f l l'. split; [apply map_length|]. split; [apply map_length|]. intros j.
  assert (K : forall (m : list A) i, ~ item (map (fun _ => false) m) i true).
  { intros m i [_ H]. rewrite nth_error_map in H. destruct (nth_error m (Z.to_nat (i - 1))); discriminate H. }
  split; [intros H; destruct (K _ _ H)|intros (i & H & _); destruct (K _ _ H)].
Qed.
Lemma mark_length : forall l i, List.length (mark i l) = List.length l.
Proof. induction l as [|b l IH]; intros [|i]; cbn [mark List.length]; congruence. Qed.
Lemma flags_mark : forall A f (l l' : list A) u u' k x, renumbers f l l' -> flags f l l' u u' -> item l k x ->
  flags f l l' (mark (Z.to_nat (k - 1)) u) (mark (Z.to_nat (f k - 1)) u').
Proof.
  intros A f l l' u u' k x [R1 R2] (L & L' & F) Hk. pose proof (R1 _ _ Hk) as Hk'. pose proof Hk as [K1 _]. pose proof Hk' as [K1' _].
  split; [rewrite mark_length; exact L|]. split; [rewrite mark_length; exact L'|]. intros j.
  rewrite (mark_used u' (f k) j K1'), F. split.
  - intros [(i & H & E)|[-> _]].
    + exists i. split; [apply mark_used; auto|exact E].
    + exists k. split; [apply mark_used; [exact K1|]|reflexivity]. right. split; [reflexivity|].
      exact (item_length _ _ _ _ _ _ (eq_sym L) Hk).
  - intros (i & H & <-). apply (mark_used u k i K1) in H. destruct H as [H|[-> _]]; [left; eauto|].
    right. split; [reflexivity|]. exact (item_length _ _ _ _ _ _ (eq_sym L') Hk').
Qed.
Lemma flags_all : forall A f (l l' : list A) u u', renumbers f l l' -> flags f l l' u u' ->
  (all_used u = true -> all_used u' = true) /\ (permutes f l l' -> all_used u' = true -> all_used u = true).
Proof.
  intros A f l l' u u' [R1 R2] (L & L' & F). split.
  - rewrite !all_used_items. intros H j x Hj. apply F.
    destruct (item_length _ _ _ l' _ _ L' Hj) as [y Hy]. destruct (R2 _ _ Hy) as (i & Hi & <-).
    destruct (item_length _ _ _ u _ _ (eq_sym L) Hi) as [b Hb]. exists i. split; [exact (H _ _ Hb)|reflexivity].
  - intros (_ & Inj & _). rewrite !all_used_items. intros H i x Hi.
    destruct (item_length _ _ _ l _ _ L Hi) as [y Hy]. pose proof (R1 _ _ Hy) as Hy'.
    destruct (item_length _ _ _ u' _ _ (eq_sym L') Hy') as [b Hb]. pose proof (H _ _ Hb) as K. apply F in K.
    destruct K as (i' & Hi' & E). destruct (item_length _ _ _ l _ _ L Hi') as [y' Hy2].
    rewrite <- (Inj i' i y' y Hy2 Hy E). exact Hi'.
Qed.

Section Renumber.
Variable e : env.
Variable f g : Z -> Z.
Variable args args' : list value.
Variable frags frags' : list builder.
Hypothesis Ha : renumbers f args args'.
Hypothesis Hf : renumbers g frags frags'.
Definition strict : Prop := permutes f args args' /\ permutes g frags frags'.
Let fc := mkFrame args frags.
Let fc' := mkFrame args' frags'.
Definition near (S S' : fstate) : Prop :=
  fs_st S = fs_st S' /\ flags f args args' (fs_ua S) (fs_ua S') /\ flags g frags frags' (fs_uf S) (fs_uf S').
Definition kin (r r' : outcome string) : Prop :=
  match r, r' with RErr x, RErr x' => is_invalid_index x = is_invalid_index x' | _, _ => r = r' end.
Definition sim (r r' : outcome string * fstate) : Prop :=
  (strict -> kin (fst r) (fst r') /\ near (snd r) (snd r')) /\
  (forall t S1, r = (ROk t, S1) -> exists S1', r' = (ROk t, S1') /\ near S1 S1').
Lemma sim_same : forall r S S', near S S' -> sim (r, S) (r, S').
Proof.
  intros r S S' N. split.
  - intros _. split; [|exact N]. destruct r; reflexivity.
  - intros t S1 E. injection E as -> <-. eauto.
Qed.
Lemma sim_err : forall x x' S S', is_invalid_index x = is_invalid_index x' -> near S S' -> sim (RErr x, S) (RErr x', S').
Proof. intros x x' S S' E N. split; [intros _; split; assumption|]. intros t S1 K. discriminate K. Qed.
Lemma sim_vague : forall x r' S, ~ strict -> sim (RErr x, S) r'.
Proof. intros x r' S N. split; [intros K; destruct (N K)|]. intros t S1 K. discriminate K. Qed.
Lemma sim_safe : forall nm nm' r r', sim r r' -> sim (safe nm r) (safe nm' r').
Proof.
  intros nm nm' [r S] [r' S'] [H1 H2]. split.
  - intros K. destruct (H1 K) as [E N]. cbn [fst snd] in E, N.
    destruct r as [t|x|x|], r' as [t'|x'|x'|]; cbn [kin] in E; try discriminate E; cbn [safe fst snd kin]; (split; [|exact N]);
      try reflexivity; try exact E; try (injection E as ->; reflexivity).
  - intros t S1 E. destruct r as [s|x|x|]; cbn [safe] in E; try discriminate E. injection E as -> ->.
    destruct (H2 t S1 eq_refl) as (S1' & K & N). injection K as -> ->. exists S1'. split; [reflexivity|exact N].
Qed.

Lemma arg_sim : forall i S S', near S S' -> sim (func_arg fc i S) (func_arg fc' (f i) S').
Proof.
  intros i S S' (N1 & N2 & N3). unfold func_arg, fc, fc'. cbn [fr_args].
  destruct (nth1 args i) as [v|] eqn:E.
  - apply nth1_item in E. pose proof (proj1 Ha _ _ E) as E'. rewrite (proj2 (nth1_item _ _ _ _) E'). rewrite <- N1.
    destruct (commit v (fs_st S)) as [r st']. apply sim_same. split; [reflexivity|]. cbn [fs_ua fs_uf].
    split; [eapply flags_mark; eassumption|exact N3].
  - destruct (nth1 args' (f i)) as [w|] eqn:E'.
    + apply sim_vague. intros [(_ & _ & P) _]. apply nth1_item in E'. apply P in E'. apply nth1_item in E'. congruence.
    + apply sim_err; [reflexivity|split; auto].
Qed.
Variable rb : env -> builder -> store -> outcome string * store.
Lemma frag_sim : forall i S S', near S S' -> sim (func_fragment rb e fc i S) (func_fragment rb e fc' (g i) S').
Proof.
  intros i S S' (N1 & N2 & N3). unfold func_fragment, fc, fc'. cbn [fr_frags].
  destruct (nth1 frags i) as [v|] eqn:E.
  - apply nth1_item in E. pose proof (proj1 Hf _ _ E) as E'. rewrite (proj2 (nth1_item _ _ _ _) E'). rewrite <- N1.
    destruct (rb e v (fs_st S)) as [r st']. apply sim_same. split; [reflexivity|]. cbn [fs_ua fs_uf].
    split; [exact N2|eapply flags_mark; eassumption].
  - destruct (nth1 frags' (g i)) as [w|] eqn:E'.
    + apply sim_vague. intros [_ (_ & _ & P)]. apply nth1_item in E'. apply P in E'. apply nth1_item in E'. congruence.
    + apply sim_err; [reflexivity|split; auto].
Qed.
Variable rc : env -> frame -> list expr -> fstate -> outcome string * fstate.
Variable jf : nat.
Lemma expr_sim : forall x y S S', renumbered e f g x y -> near S S' ->
  sim (eval_expr rb rc jf e fc (unstrip x) S) (eval_expr rb rc jf e fc' (unstrip y) S').
Proof.
  intros x y S S' R N. destruct R as [t|st st' i|nm nm' x x' L L' Nx Nx' E|nm nm' x x' L L' Nx Nx' E|nm a sg body L|nm a L|nm];
    cbn [unstrip eval_expr].
  - apply sim_same, N.
  - pose proof (arg_sim i S S' N) as K. destruct (nth1 (fr_args fc) i) as [v|] eqn:E.
    + unfold fc in E. cbn [fr_args] in E. apply nth1_item in E. pose proof (proj1 Ha _ _ E) as E'.
      apply nth1_item in E'. unfold fc' at 1. cbn [fr_args]. rewrite E'. exact K.
    + unfold fc in E. cbn [fr_args] in E. unfold fc' at 1. cbn [fr_args]. destruct (nth1 args' (f i)) as [w|] eqn:E'.
      * apply sim_vague. intros [(_ & _ & P) _]. apply nth1_item in E'. apply P in E'. apply nth1_item in E'. congruence.
      * apply sim_err; [reflexivity|exact N].
  - unfold eval_function. rewrite L, L', !eval_call_arg. cbn [List.length Nat.eqb].
    assert (Q : forall z, is_num z -> exists w, eval_args [GNum] [z] = ROk w) by (intros z Hz; destruct z; try destruct Hz; cbn; eauto).
    destruct (Q x Nx) as [w ->], (Q x' Nx') as [w' ->]. apply sim_safe. cbn [call_index]. rewrite E. apply arg_sim, N.
  - unfold eval_function. rewrite L, L', !eval_call_fragment. cbn [List.length Nat.eqb].
    assert (Q : forall z, is_num z -> exists w, eval_args [GNum] [z] = ROk w) by (intros z Hz; destruct z; try destruct Hz; cbn; eauto).
    destruct (Q x Nx) as [w ->], (Q x' Nx') as [w' ->]. apply sim_safe. cbn [call_index]. rewrite E. apply frag_sim, N.
  - unfold eval_function. rewrite L. unfold eval_call.
    destruct (arity_ok (sig_of (FnCustom sg body)) (List.length a)); [|apply sim_same, N].
    destruct (eval_args _ a) as [w|er|er|]; [|apply sim_same, N..].
    destruct (any_rejected _ a); [apply sim_safe, sim_same, N|]. apply sim_safe. cbn [call_fn].
    destruct N as (N1 & N2 & N3). rewrite <- N1. destruct (run_prog rb e (body a) (fs_st S)) as [r st']. apply sim_same. split; auto.
  - unfold eval_function. rewrite L. apply sim_same, N.
  - apply sim_same, N.
Qed.
Lemma andthen_sim : forall r r' k k', sim r r' -> (forall S S', near S S' -> sim (k S) (k' S')) -> sim (andthen r k) (andthen r' k').
Proof.
  intros [r S] [r' S'] k k' [H1 H2] Hk. split.
  - intros K. destruct (H1 K) as [E N]. cbn [fst snd] in E, N.
    destruct r as [t|x|x|], r' as [t'|x'|x'|]; cbn [kin] in E; try discriminate E; cbn [andthen]; [|split; assumption..].
    injection E as ->. destruct (proj1 (Hk S S' N) K) as [E2 N2].
    destruct (k S) as [[u|y|y|] S2], (k' S') as [[u'|y'|y'|] S2']; cbn [fst snd kin] in E2, N2; try discriminate E2; cbn [fst snd kin]; (split; [|exact N2]);
      try reflexivity; try exact E2; congruence.
  - intros t S1 E. destruct r as [s|x|x|]; cbn [andthen] in E; try discriminate E.
    destruct (H2 s S eq_refl) as (S0' & K & N). injection K as -> ->. cbn [andthen].
    destruct (k S) as [[u|y|y|] S2] eqn:Ek; try discriminate E. injection E as <- <-.
    destruct (proj2 (Hk S S0' N) u S2 Ek) as (S2' & -> & N2). eauto.
Qed.
Lemma clause_sim : forall l l', Forall2 (renumbered e f g) l l' -> forall S S', near S S' ->
  sim (clause rb rc jf e fc (map unstrip l) S) (clause rb rc jf e fc' (map unstrip l') S').
Proof.
  induction 1 as [|x y l l' R _ IH]; intros S S' N; [apply sim_same, N|]. cbn [map]. rewrite !clause_cons.
  apply andthen_sim; [apply expr_sim; assumption|exact IH].
Qed.
End Renumber.

Section Fragments.
Variable e : env.
Variable f g : Z -> Z.
Variable raw raw' p s : string.
Variable args args' : list value.
Variable frags frags' : list builder.
Variable x y : list aexpr.
Hypothesis Px : parsed raw = Some x.
Hypothesis Py : parsed raw' = Some y.
Hypothesis R : Forall2 (renumbered e f g) x y.
Lemma build_sim : renumbers f args args' -> renumbers g frags frags' -> forall n st,
  (permutes f args args' -> permutes g frags frags' -> like (build n e (BFrag (Frag raw args frags p s)) st) (build n e (BFrag (Frag raw' args' frags' p s)) st)) /\
  (forall t st', build n e (BFrag (Frag raw args frags p s)) st = (ROk t, st') -> build n e (BFrag (Frag raw' args' frags' p s)) st = (ROk t, st')).
Proof.
  intros Ha Hf [|n] st; [split; [split; reflexivity|intros t st' H; discriminate H]|]. cbn [build].
  rewrite (build_parsed _ _ _ (Frag raw args frags p s) st x Px), (build_parsed _ _ _ (Frag raw' args' frags' p s) st y Py).
  cbn [f_args f_frags f_prefix f_suffix].
  set (S0 := mkFS st (map (fun _ => false) args) (map (fun _ => false) frags)).
  set (S0' := mkFS st (map (fun _ => false) args') (map (fun _ => false) frags')).
  assert (N : near f g args args' frags frags' S0 S0') by (split; [reflexivity|split; apply flags_start]).
  assert (K : sim f g args args' frags frags' (clause_n n (build n) e (mkFrame args frags) (map unstrip x) S0)
                                              (clause_n n (build n) e (mkFrame args' frags') (map unstrip y) S0')).
  { destruct n as [|n]; [apply sim_same, N|]. rewrite !clause_n_S. apply clause_sim; assumption. }
  destruct K as [K1 K2]. split.
  - intros Pa Pf. destruct (K1 (conj Pa Pf)) as [E (N1 & N2 & N3)].
    destruct (clause_n n (build n) e (mkFrame args frags) (map unstrip x) S0) as [r S1].
    destruct (clause_n n (build n) e (mkFrame args' frags') (map unstrip y) S0') as [r' S1']. cbn [fst snd] in *.
    assert (U : all_used (fs_ua S1) && all_used (fs_uf S1) = all_used (fs_ua S1') && all_used (fs_uf S1')).
    { apply eq_true_iff_eq. rewrite !andb_true_iff. destruct (flags_all _ _ _ _ _ _ Ha N2) as [A1 A2], (flags_all _ _ _ _ _ _ Hf N3) as [B1 B2]. intuition. }
    destruct r as [t|z|z|], r' as [t'|z'|z'|]; cbn [kin] in E; try discriminate E; rewrite N1.
    + injection E as ->. rewrite U. destruct (all_used (fs_ua S1') && all_used (fs_uf S1')); [|split; reflexivity]. cbn zeta. destruct (is_empty (trim_space t')); split; reflexivity.
    + split; [reflexivity|exact E].
    + injection E as ->. split; reflexivity.
    + split; reflexivity.
  - intros t st' H. destruct (clause_n n (build n) e (mkFrame args frags) (map unstrip x) S0) as [[b|z|z|] S1]; try discriminate H.
    destruct (K2 b S1 eq_refl) as (S1' & -> & (N1 & N2 & N3)).
    destruct (all_used (fs_ua S1) && all_used (fs_uf S1)) eqn:U; [|discriminate H]. apply andb_prop in U. destruct U as [U1 U2].
    rewrite (proj1 (flags_all _ _ _ _ _ _ Ha N2) U1), (proj1 (flags_all _ _ _ _ _ _ Hf N3) U2). cbn [andb]. rewrite <- N1. exact H.
Qed.
End Fragments.

Theorem renumber_success : forall e f g raw raw' p s args args' frags frags' x y,
  parsed raw = Some x -> parsed raw' = Some y -> Forall2 (renumbered e f g) x y ->
  renumbers f args args' -> renumbers g frags frags' ->
  forall n st t st', build n e (BFrag (Frag raw args frags p s)) st = (ROk t, st') ->
    build n e (BFrag (Frag raw' args' frags' p s)) st = (ROk t, st').
Proof.
  intros e f g raw raw' p s args args' frags frags' x y Px Py R Ha Hf n st.
  exact (proj2 (build_sim e f g raw raw' p s args args' frags frags' x y Px Py R Ha Hf n st)).
Qed.
Theorem renumber_like : forall e f g raw raw' p s args args' frags frags' x y,
  parsed raw = Some x -> parsed raw' = Some y -> Forall2 (renumbered e f g) x y ->
  permutes f args args' -> permutes g frags frags' ->
  forall n st, like (build n e (BFrag (Frag raw args frags p s)) st) (build n e (BFrag (Frag raw' args' frags' p s)) st).
Proof.
  intros e f g raw raw' p s args args' frags frags' x y Px Py R Ha Hf n st.
  exact (proj1 (build_sim e f g raw raw' p s args args' frags frags' x y Px Py R (proj1 Ha) (proj1 Hf) n st) Ha Hf).
Qed.
Theorem renumber_query : forall f g raw raw' p s args args' frags frags' x y,
  parsed raw = Some x -> parsed raw' = Some y -> Forall2 (renumbered [builtins] f g) x y ->
  permutes f args args' -> permutes g frags frags' ->
  forall n style h t l h', build_query n style h (BFrag (Frag raw args frags p s)) = (ROk (t, l), h') <->
    build_query n style h (BFrag (Frag raw' args' frags' p s)) = (ROk (t, l), h').
Proof.
  intros f g raw raw' p s args args' frags frags' x y Px Py R Ha Hf n style h t l h'.
  pose proof (renumber_like [builtins] f g raw raw' p s args args' frags frags' x y Px Py R Ha Hf n (new_store style h)) as [E K].
  unfold build_query. destruct (build n [builtins] (BFrag (Frag raw args frags p s)) (new_store style h)) as [r st].
  destruct (build n [builtins] (BFrag (Frag raw' args' frags' p s)) (new_store style h)) as [r' st']. cbn [fst snd] in *. subst st'.
  destruct r, r'; try discriminate K; try (injection K as ->); (reflexivity || (split; intros Q; discriminate Q)).
Qed.
