(** Usage of arguments and fragments, lookup, failing references. *)
From Coq Require Import Strings.String Strings.Ascii NArith ZArith List Bool Lia.
From Verif Require Import GoStr GoNum Syntax Value Util Model Sqlf Sqlb Spec_syntax ByteLex Lex_proofs Grammar_proofs
  Lossless_proofs Num_proofs RefSem Spec_build Spec_eval Text_proofs Sim_proofs Fuel_proofs Order_proofs Store_proofs Build_proofs Eval_proofs.
Import ListNotations.
Open Scope string_scope.

Lemma nth_error_mark : forall l i j, nth_error (mark i l) j = Some true -> nth_error l j = Some true \/ i = j.
Proof.
  induction l as [|b l IH]; intros i j H; [destruct i, j; discriminate|].
  destruct i as [|i], j as [|j]; cbn in H |- *; auto. destruct (IH _ _ H); auto.
Qed.
Lemma nth_error_mark_same : forall l i j, i <> j -> nth_error (mark i l) j = nth_error l j.
Proof.
  induction l as [|b l IH]; intros i j H; [destruct i; reflexivity|].
  destruct i as [|i], j as [|j]; cbn; try reflexivity; [congruence|]. apply IH. congruence.
Qed.
Lemma length_mark : forall i l, List.length (mark i l) = List.length l.
Proof. intros i l. revert i. induction l as [|b l IH]; intros [|i]; cbn; auto. Qed.

Lemma nth1_Some : forall A (l : list A) i x, nth1 l i = Some x -> (1 <= i)%Z /\ nth_error l (Z.to_nat (i - 1)) = Some x.
Proof.
  intros A l i x H. unfold nth1 in H. destruct ((1 <=? i)%Z && (i <=? Z.of_nat (List.length l))%Z) eqn:E; [|discriminate].
  apply andb_prop in E as [E1 E2]. split; [lia|exact H].
Qed.
Lemma nth1_outside : forall A (l : list A) i, outside i (List.length l) -> nth1 l i = None.
Proof.
  intros A l i H. unfold nth1. destruct ((1 <=? i)%Z && (i <=? Z.of_nat (List.length l))%Z) eqn:E; [|reflexivity].
  apply andb_prop in E as [E1 E2]. unfold outside in H. lia.
Qed.

(* ------------------------------------------------------------------ *)
(** * Usage flags *)

Section Use.
Variable rb : env -> builder -> store -> outcome string * store.
Hypothesis Hrb : forall e b st, grows st (snd (rb e b st)).
Variable e : env.
Variable fc : frame.

Definition did_commit (v : value) (st st' : store) : Prop :=
  exists st1 s st2, grows st st1 /\ commit v st1 = (ROk s, st2) /\ grows st2 st'.
Definition did_build (b : builder) (st st' : store) : Prop :=
  exists st1 r st2, grows st st1 /\ rb e b st1 = (r, st2) /\ may_pass r /\ grows st2 st'.

Definition moves (S S' : fstate) : Prop :=
  grows (fs_st S) (fs_st S') /\
  (forall i, nth_error (fs_ua S') i = Some true -> nth_error (fs_ua S) i = Some true \/
     exists v, nth_error (fr_args fc) i = Some v /\ did_commit v (fs_st S) (fs_st S')) /\
  (forall i, nth_error (fs_uf S') i = Some true -> nth_error (fs_uf S) i = Some true \/
     exists b, nth_error (fr_frags fc) i = Some b /\ did_build b (fs_st S) (fs_st S')).

Lemma moves_refl : forall S, moves S S.
Proof. intros S. split; [apply grows_refl|]. auto. Qed.
Lemma moves_trans : forall A B C, moves A B -> moves B C -> moves A C.
Proof.
  intros A B C (G1 & U1 & F1) (G2 & U2 & F2). split; [eapply grows_trans; eassumption|]. split; intros i H.
  - apply U2 in H as [H|[v [Hv (s1 & t & s2 & K1 & K2 & K3)]]].
    + apply U1 in H as [H|[v [Hv (s1 & t & s2 & K1 & K2 & K3)]]]; [auto|]. right. exists v. split; [exact Hv|].
      exists s1, t, s2. split; [exact K1|]. split; [exact K2|]. eapply grows_trans; eassumption.
    + right. exists v. split; [exact Hv|]. exists s1, t, s2. split; [eapply grows_trans; eassumption|]. auto.
  - apply F2 in H as [H|[v [Hv (s1 & t & s2 & K1 & K2 & K3 & K4)]]].
    + apply F1 in H as [H|[v [Hv (s1 & t & s2 & K1 & K2 & K3 & K4)]]]; [auto|]. right. exists v. split; [exact Hv|].
      exists s1, t, s2. split; [exact K1|]. split; [exact K2|]. split; [exact K3|]. eapply grows_trans; eassumption.
    + right. exists v. split; [exact Hv|]. exists s1, t, s2. split; [eapply grows_trans; eassumption|]. auto.
Qed.
Lemma moves_store : forall S st', grows (fs_st S) st' -> moves S (mkFS st' (fs_ua S) (fs_uf S)).
Proof. intros S st' H. split; [exact H|]. cbn [fs_ua fs_uf]. auto. Qed.

Definition good (S : fstate) (r : outcome string * fstate) : Prop := may_pass (fst r) -> moves S (snd r).

Lemma good_same : forall S o, good S (o, S).
Proof. intros S o _. apply moves_refl. Qed.

Lemma use_arg : forall i S, good S (func_arg fc i S).
Proof.
  intros i S. unfold func_arg. destruct (nth1 (fr_args fc) i) as [v|] eqn:E; [|apply good_same].
  apply nth1_Some in E as [Hi E].
  pose proof (grows_commit v (fs_st S)) as G. destruct (commit v (fs_st S)) as [o st'] eqn:Ec. cbn [snd] in G.
  intros H. cbn [fst snd] in *. destruct o as [s|er|er|].
  - split; [exact G|]. split; intros j Hj; cbn [fs_ua fs_uf fs_st] in *; [|auto].
    apply nth_error_mark in Hj as [Hj|Hj]; [auto|]. right. subst j. exists v. split; [exact E|].
    exists (fs_st S), s, st'. split; [apply grows_refl|]. split; [exact Ec|apply grows_refl].
  - exfalso. unfold commit in Ec. destruct (st_dollar _); [destruct (hashable v); [destruct (dict_find _ _)|]|]; discriminate.
  - exfalso. unfold commit in Ec. destruct (st_dollar _); [destruct (hashable v); [destruct (dict_find _ _)|]|]; try discriminate.
    injection Ec as <- <-. discriminate H.
  - destruct H.
Qed.

Lemma use_fragment : forall i S, good S (func_fragment rb e fc i S).
Proof.
  intros i S. unfold func_fragment. destruct (nth1 (fr_frags fc) i) as [b|] eqn:E; [|apply good_same].
  apply nth1_Some in E as [Hi E].
  pose proof (Hrb e b (fs_st S)) as G. destruct (rb e b (fs_st S)) as [o st'] eqn:Ec. cbn [snd] in G.
  intros H. cbn [fst snd] in *.
  split; [exact G|]. split; intros j Hj; cbn [fs_ua fs_uf fs_st] in *; [auto|].
  apply nth_error_mark in Hj as [Hj|Hj]; [auto|]. right. subst j. exists b. split; [exact E|].
  exists (fs_st S), o, st'. split; [apply grows_refl|]. split; [exact Ec|]. split; [exact H|apply grows_refl].
Qed.

Lemma grows_fresh : forall (z : Z) (st st' : store), grows (new_store z (st_heap st)) st' -> grows st (set_heap st (st_heap st')).
Proof. intros z st st' _. apply (grows_refl st). Qed.

Lemma grows_prep : forall es st, grows st (snd (join_prep rb e es st)).
Proof. intros es st. apply (step_prep grows grows_refl grows_trans grows_commit grows_fresh rb Hrb). Qed.
Lemma grows_prog : forall p st, grows st (snd (run_prog rb e p st)).
Proof. intros p st. apply (step_prog grows grows_refl grows_trans grows_commit grows_fresh rb Hrb). Qed.

Variable rc : env -> frame -> list expr -> fstate -> outcome string * fstate.
Hypothesis Hrc : forall es S, good S (rc e fc es S).
Variable jf : nat.

Lemma use_loop : forall n es sep from to i acc S, good S (join_loop rc n e fc es sep from to i acc S).
Proof.
  induction n as [|n IH]; intros es sep from to i acc S; [intros []|]. cbn [join_loop].
  pose proof (Hrc (set_index i es) S) as H. destruct (rc e fc (set_index i es) S) as [[s|er|er|] S'].
  - specialize (H I). cbn [snd] in H. destruct ((0 <? to)%Z && (to <=? i)%Z); [intros _; exact H|].
    intros K. eapply moves_trans; [exact H|]. apply IH. exact K.
  - destruct (is_invalid_index er) eqn:Ei.
    + specialize (H Ei). destruct (_ || _); intros _; exact H.
    + intros K. cbn in K. congruence.
  - exact H.
  - intros [].
Qed.

Lemma use_join : forall tmpl sep idx S, good S (func_join rb rc jf e fc tmpl sep idx S).
Proof.
  intros tmpl sep idx S. unfold func_join.
  assert (G : forall from to,
    good S (if (0 <? to)%Z && (to <? from)%Z then (RErr (bad_range from to), S) else
    match parse tmpl with
    | PErr o m => (RErr (bad_template tmpl o m), S)
    | PPanic => (RPanic index_range, S)
    | PFuel => (RFuel, S)
    | POk es =>
      let '(r, st') := join_prep rb e es (fs_st S) in
      let S' := mkFS st' (fs_ua S) (fs_uf S) in
      match r with
      | ROk O => (RErr (no_function tmpl), S')
      | ROk _ => join_loop rc jf e fc es sep from to (if (from <=? 0)%Z then 1%Z else from) "" S'
      | RErr er => (RErr er, S')
      | RPanic er => (RPanic er, S')
      | RFuel => (RFuel, S')
      end
    end)).
  { intros from to. destruct (_ && _); [apply good_same|]. destruct (parse tmpl) as [es|o m| |]; try apply good_same.
    pose proof (grows_prep es (fs_st S)) as H. destruct (join_prep rb e es (fs_st S)) as [r st']. cbn [snd] in H.
    apply moves_store in H. cbn zeta. destruct r as [[|k]|er|er|]; try (intros _; exact H).
    intros K. eapply moves_trans; [exact H|]. exact (use_loop _ _ _ _ _ _ _ _ K). }
  destruct idx as [|a [|b [|c idx]]]; try apply G. apply good_same.
Qed.

Lemma use_call : forall f args S, good S (call_fn rb rc jf e fc f args S).
Proof.
  intros f args S. destruct f as [| | |sg body]; cbn [call_fn].
  - apply use_arg.
  - apply use_fragment.
  - destruct args as [|[] [|[] idx]]; try apply good_same. apply use_join.
  - pose proof (grows_prog (body args) (fs_st S)) as H. destruct (run_prog rb e (body args) (fs_st S)) as [r st'].
    intros _. apply moves_store. exact H.
Qed.

Lemma use_safe : forall name S r, good S r -> good S (safe name r).
Proof. intros name S [[s|er|er|] S'] H K; exact (H K). Qed.

Lemma use_expr : forall x S, good S (eval_expr rb rc jf e fc x S).
Proof.
  intros x S. destruct x as [t p|a i p|name args p|name p]; cbn [eval_expr]; try apply good_same.
  - destruct (nth1 _ _); [apply use_arg|apply good_same].
  - unfold eval_function. destruct (lookup_fn e name) as [f|]; [|apply good_same]. unfold eval_call.
    destruct (arity_ok _ _); [|apply good_same]. destruct (eval_args _ _); try apply good_same.
    destruct (any_rejected _ _); apply use_safe; [apply good_same|apply use_call].
Qed.

Lemma use_clause : forall es S, good S (clause rb rc jf e fc es S).
Proof.
  induction es as [|x es IH]; intros S; [apply good_same|]. rewrite clause_cons.
  pose proof (use_expr x S) as H. destruct (eval_expr rb rc jf e fc x S) as [[s|er|er|] S1]; cbn [andthen]; try exact H.
  specialize (H I). pose proof (IH S1) as K. destruct (clause rb rc jf e fc es S1) as [[t|er|er|] S2]; intros L;
    (eapply moves_trans; [exact H|apply K; exact L]).
Qed.
End Use.

Lemma use_clause_n : forall rb, (forall e b st, grows st (snd (rb e b st))) ->
  forall n e fc es S, good rb e fc S (clause_n n rb e fc es S).
Proof.
  intros rb Hrb. induction n as [|n IH]; intros e fc es S; [intros []|]. cbn [clause_n].
  apply use_clause; auto.
Qed.

Lemma all_used_nth : forall l i, all_used l = true -> i < List.length l -> nth_error l i = Some true.
Proof.
  intros l i H Hi. destruct (nth_error l i) as [b|] eqn:E; [|apply nth_error_None in E; lia].
  unfold all_used in H. rewrite forallb_forall in H. rewrite (H b (nth_error_In _ _ E)). reflexivity.
Qed.

Lemma nth_false : forall A (l : list A) i, nth_error (map (fun _ => false) l) i <> Some true.
Proof. induction l as [|x l IH]; intros [|i]; cbn; try discriminate. apply IH. Qed.

(** Lengths of the flags never change. *)
Section Len.
Variable rb : env -> builder -> store -> outcome string * store.
Definition samelen (S S' : fstate) : Prop :=
  List.length (fs_ua S') = List.length (fs_ua S) /\ List.length (fs_uf S') = List.length (fs_uf S).
Variable rc : env -> frame -> list expr -> fstate -> outcome string * fstate.
Hypothesis Hrc : forall e fc es S, samelen S (snd (rc e fc es S)).
Variable jf : nat.
Lemma len_refl : forall S, samelen S S. Proof. split; reflexivity. Qed.
Lemma len_trans : forall A B C, samelen A B -> samelen B C -> samelen A C.
Proof. intros A B C [H1 H2] [K1 K2]. split; congruence. Qed.
Lemma len_loop : forall n e fc es sep from to i acc S, samelen S (snd (join_loop rc n e fc es sep from to i acc S)).
Proof.
  induction n as [|n IH]; intros e fc es sep from to i acc S; [apply len_refl|]. cbn [join_loop].
  pose proof (Hrc e fc (set_index i es) S) as H. destruct (rc e fc (set_index i es) S) as [[s|er|er|] S']; try exact H.
  - destruct (_ && _); [exact H|]. eapply len_trans; [exact H|apply IH].
  - destruct (is_invalid_index er); [destruct (_ || _)|]; exact H.
Qed.
Lemma len_expr : forall e fc x S, samelen S (snd (eval_expr rb rc jf e fc x S)).
Proof.
  assert (A : forall fc i S, samelen S (snd (func_arg fc i S))).
  { intros fc i S. unfold func_arg. destruct (nth1 _ _); [|apply len_refl]. destruct (commit _ _).
    split; cbn; rewrite ?length_mark; reflexivity. }
  intros e fc x S. destruct x as [t p|a i p|name args p|name p]; cbn [eval_expr]; try apply len_refl.
  - destruct (nth1 _ _); [apply A|apply len_refl].
  - unfold eval_function. destruct (lookup_fn e name) as [f|]; [|apply len_refl]. unfold eval_call.
    destruct (arity_ok _ _); [|apply len_refl]. destruct (eval_args _ _); try apply len_refl.
    assert (Sf : forall r, samelen S (snd r) -> samelen S (snd (safe name r))) by (intros [[] S'] H; exact H).
    destruct (any_rejected _ _); apply Sf; [apply len_refl|].
    destruct f as [| | |sg body]; cbn [call_fn].
    + apply A.
    + unfold func_fragment. destruct (nth1 _ _); [|apply len_refl]. destruct (rb _ _ _).
      split; cbn; rewrite ?length_mark; reflexivity.
    + destruct args as [|[] [|[] idx]]; try apply len_refl. unfold func_join.
      destruct (map lit_int idx) as [|k1 [|k2 [|k3 ks]]]; try apply len_refl.
      all: destruct (_ && _); [apply len_refl|]; destruct (parse s) as [es|o m| |]; try apply len_refl;
        destruct (join_prep rb e es (fs_st S)) as [[[|k]|er|er|] st']; try (split; reflexivity).
      all: eapply len_trans; [|apply len_loop]; split; reflexivity.
    + destruct (run_prog _ _ _ _). split; reflexivity.
Qed.
Lemma len_clause : forall e fc es S, samelen S (snd (clause rb rc jf e fc es S)).
Proof.
  intros e fc. induction es as [|x es IH]; intros S; [apply len_refl|]. rewrite clause_cons.
  pose proof (len_expr e fc x S) as H. destruct (eval_expr rb rc jf e fc x S) as [[s|er|er|] S1]; cbn [andthen]; try exact H.
  pose proof (IH S1) as K. destruct (clause rb rc jf e fc es S1) as [[t|er|er|] S2]; (eapply len_trans; [exact H|exact K]).
Qed.
End Len.
Lemma len_clause_n : forall rb n e fc es S, samelen S (snd (clause_n n rb e fc es S)).
Proof. intros rb. induction n as [|n IH]; intros; [apply len_refl|]. apply len_clause. exact IH. Qed.

(** A successful build of a fragment, unfolded. *)
Lemma build_ok_inv : forall n e raw args frags p s st t st',
  build n e (BFrag (Frag raw args frags p s)) st = (ROk t, st') ->
  exists m es body S', n = S m /\ parse raw = POk es /\
    clause_n m (build m) e (mkFrame args frags) es
      (mkFS st (map (fun _ => false) args) (map (fun _ => false) frags)) = (ROk body, S') /\
    all_used (fs_ua S') = true /\ all_used (fs_uf S') = true /\ fs_st S' = st'.
Proof.
  intros [|m] e raw args frags p s st t st' H; [discriminate|]. cbn [build] in H. unfold build_frag in H.
  cbn [f_raw f_args f_frags f_prefix f_suffix] in H.
  destruct (parse raw) as [es|o msg| |] eqn:Ep; try discriminate.
  destruct (clause_n m (build m) e _ es _) as [[body|er|er|] S'] eqn:Ec; try discriminate.
  destruct (all_used (fs_ua S') && all_used (fs_uf S')) eqn:Eu; [|discriminate].
  apply andb_prop in Eu as [E1 E2]. exists m, es, body, S'.
  assert (E3 : fs_st S' = st') by (cbn zeta in H; destruct (is_empty (trim_space body)); congruence).
  repeat apply conj; auto.
Qed.

Theorem args_used : forall n e raw args frags p s st t st',
  build n e (BFrag (Frag raw args frags p s)) st = (ROk t, st') ->
  forall v, In v args -> committed v st st'.
Proof.
  intros n e raw args frags p s st t st' H v Hv.
  apply build_ok_inv in H as (m & es & body & S' & -> & Hp & Hc & U1 & U2 & <-).
  pose proof (use_clause_n (build m) (fun e b st => store_grows m e b st) m e (mkFrame args frags) es
    (mkFS st (map (fun _ => false) args) (map (fun _ => false) frags))) as G. rewrite Hc in G. specialize (G I).
  destruct G as (_ & G & _). pose proof (len_clause_n (build m) m e (mkFrame args frags) es
    (mkFS st (map (fun _ => false) args) (map (fun _ => false) frags))) as [L _]. rewrite Hc in L. cbn [snd fs_ua] in L.
  rewrite map_length in L. apply In_nth_error in Hv as [i Hi].
  assert (Hl : i < List.length args) by (apply nth_error_Some; congruence).
  destruct (G i) as [K|[w [Hw K]]].
  - cbn [snd]. apply all_used_nth; [exact U1|]. lia.
  - exfalso. exact (nth_false _ _ _ K).
  - cbn [fr_args] in Hw. replace w with v in K by congruence. exact K.
Qed.

Theorem frags_used : forall n e raw args frags p s st t st',
  build (S n) e (BFrag (Frag raw args frags p s)) st = (ROk t, st') ->
  forall b, In b frags -> built n e b st st'.
Proof.
  intros n e raw args frags p s st t st' H v Hv.
  apply build_ok_inv in H as (m & es & body & S' & Em & Hp & Hc & U1 & U2 & <-). injection Em as <-.
  pose proof (use_clause_n (build n) (fun e b st => store_grows n e b st) n e (mkFrame args frags) es
    (mkFS st (map (fun _ => false) args) (map (fun _ => false) frags))) as G. rewrite Hc in G. specialize (G I).
  destruct G as (_ & _ & G). pose proof (len_clause_n (build n) n e (mkFrame args frags) es
    (mkFS st (map (fun _ => false) args) (map (fun _ => false) frags))) as [_ L]. rewrite Hc in L. cbn [snd fs_uf] in L.
  rewrite map_length in L. apply In_nth_error in Hv as [i Hi].
  assert (Hl : i < List.length frags) by (apply nth_error_Some; congruence).
  destruct (G i) as [K|[w [Hw K]]].
  - cbn [snd]. apply all_used_nth; [exact U2|]. lia.
  - exfalso. exact (nth_false _ _ _ K).
  - cbn [fr_frags] in Hw. replace w with v in K by congruence. exact K.
Qed.

(** What a commit leaves in the arguments. *)
Lemma committed_args : forall v st st', committed v st st' -> sound_store st' ->
  exists w, In w (st_args st') /\ same_value v w.
Proof.
  intros v st st' (st1 & s & st2 & G1 & C & G2) Hs. unfold commit in C. destruct (st_dollar st1) eqn:Ed.
  - destruct (hashable v) eqn:Eh; [|discriminate]. destruct (dict_find v (st_dict st1)) as [k|] eqn:Ef.
    + injection C as <- <-. destruct G2 as (D & _ & F). apply F in Ef.
      destruct (Hs (eq_trans D Ed) v k Ef) as (_ & w & Hw & Hq). exists w. split; [exact (nth_error_In _ _ Hw)|right; exact Hq].
    + injection C as <- <-. destruct G2 as (_ & [x Hx] & _). cbn [st_args] in Hx. exists v. split; [|left; reflexivity].
      rewrite Hx. rewrite !in_app_iff. cbn. auto.
  - injection C as <- <-. destruct G2 as (_ & [x Hx] & _). cbn [st_args] in Hx. exists v. split; [|left; reflexivity].
    rewrite Hx. rewrite !in_app_iff. cbn. auto.
Qed.

Lemma committed_question : forall v st st', committed v st st' -> st_dollar st = false ->
  exists a b, st_args st' = (st_args st ++ a ++ v :: b)%list.
Proof.
  intros v st st' (st1 & s & st2 & (D1 & [x Hx] & _) & C & (_ & [y Hy] & _)) Hd. unfold commit in C.
  rewrite D1, Hd in C. injection C as <- <-. cbn [st_args] in Hy. exists x, y.
  rewrite Hy, Hx, <- !app_assoc. reflexivity.
Qed.

(* ------------------------------------------------------------------ *)
(** * References that cannot succeed *)

Lemma clause_ok_parsed : forall n e raw args frags p s st t st' l,
  build n e (BFrag (Frag raw args frags p s)) st = (ROk t, st') -> parsed raw = Some l ->
  exists m S', n = S (S m) /\
    let rb := build (S m) in
    exists body, clause rb (clause_n m rb) m e (mkFrame args frags) (map unstrip l)
      (mkFS st (map (fun _ => false) args) (map (fun _ => false) frags)) = (ROk body, S') /\
    all_used (fs_ua S') = true /\ all_used (fs_uf S') = true /\ fs_st S' = st'.
Proof.
  intros n e raw args frags p s st t st' l H Hl.
  apply build_ok_inv in H as (m & es & body & S' & -> & Hp & Hc & U1 & U2 & E).
  apply parsed_ok in Hl as (es' & Hp' & <-). replace es' with es by congruence.
  rewrite <- clause_n_parsed in Hc. destruct m as [|m]; [discriminate|]. exists m, S'. split; [reflexivity|].
  cbn zeta. exists body. rewrite clause_n_S in Hc. auto.
Qed.

Lemma eval_call_arg : forall rb rc jf e fc name args S,
  eval_call rb rc jf e fc name FnArg args S =
  if Nat.eqb (List.length args) 1 then
    match eval_args [GNum] args with
    | ROk _ => safe name (func_arg fc (call_index args) S)
    | RErr er => (RErr (wrong_type name (sig_of FnArg) [GNum] args er), S) | RPanic er => (RPanic er, S) | RFuel => (RFuel, S)
    end
  else (RErr (wrong_number name (sig_of FnArg) (List.length args)), S).
Proof.
  intros. unfold eval_call. cbn [sig_of arity_ok fs_variadic user_ins ctx_first fs_ins tl List.length arg_types].
  destruct (Nat.eqb (List.length args) 1); [|reflexivity].
  destruct args as [|[] [|b args]]; reflexivity.
Qed.
Lemma eval_call_fragment : forall rb rc jf e fc name args S,
  eval_call rb rc jf e fc name FnFragment args S =
  if Nat.eqb (List.length args) 1 then
    match eval_args [GNum] args with
    | ROk _ => safe name (func_fragment rb e fc (call_index args) S)
    | RErr er => (RErr (wrong_type name (sig_of FnFragment) [GNum] args er), S) | RPanic er => (RPanic er, S) | RFuel => (RFuel, S)
    end
  else (RErr (wrong_number name (sig_of FnFragment) (List.length args)), S).
Proof.
  intros. unfold eval_call. cbn [sig_of arity_ok fs_variadic user_ins ctx_first fs_ins tl List.length arg_types].
  destruct (Nat.eqb (List.length args) 1); [|reflexivity].
  destruct args as [|[] [|b args]]; reflexivity.
Qed.

Lemma dangling_expr : forall rb rc jf e fc x S t S',
  dangling e (List.length (fr_args fc)) (List.length (fr_frags fc)) x ->
  eval_expr rb rc jf e fc (unstrip x) S <> (ROk t, S').
Proof.
  intros rb rc jf e fc x S t S' H. destruct x as [u|s i|nm args|nm]; cbn [dangling] in H; try contradiction.
  - cbn [unstrip eval_expr]. rewrite (nth1_outside _ _ _ H). discriminate.
  - cbn [unstrip eval_expr]. unfold eval_function. destruct H as [[Hl H]|[Hl H]]; rewrite Hl.
    + rewrite eval_call_arg. destruct (Nat.eqb _ _); [|discriminate]. destruct (eval_args _ _); try discriminate.
      unfold func_arg. rewrite (nth1_outside _ _ _ H). discriminate.
    + rewrite eval_call_fragment. destruct (Nat.eqb _ _); [|discriminate]. destruct (eval_args _ _); try discriminate.
      unfold func_fragment. rewrite (nth1_outside _ _ _ H). discriminate.
Qed.
Lemma bad_call_expr : forall rb rc jf e fc x S, bad_call e x ->
  exists er, eval_expr rb rc jf e fc (unstrip x) S = (RErr er, S).
Proof.
  intros rb rc jf e fc x S H. destruct x as [u|s i|nm args|nm]; cbn [bad_call] in H; try contradiction.
  cbn [unstrip eval_expr]. unfold eval_function. destruct (lookup_fn e nm) as [f|]; [|eauto].
  unfold eval_call. rewrite H. eauto.
Qed.

Lemma fails_if : forall (P : aexpr -> Prop) e args frags,
  (forall rb rc jf x S t S', P x -> eval_expr rb rc jf e (mkFrame args frags) (unstrip x) S <> (ROk t, S')) ->
  forall n raw p s st l x, parsed raw = Some l -> In x l -> P x ->
  forall t st', build n e (BFrag (Frag raw args frags p s)) st <> (ROk t, st').
Proof.
  intros P e args frags HP n raw p s st l x Hl Hx Px t st' H.
  destruct (clause_ok_parsed _ _ _ _ _ _ _ _ _ _ _ H Hl) as (m & S' & -> & body & Hc & _).
  destruct (clause_ok_all _ _ _ _ _ _ _ _ _ Hc (unstrip x) (in_map _ _ _ Hx)) as (S1 & u & S2 & E).
  exact (HP _ _ _ _ _ _ _ Px E).
Qed.

Theorem dangling_fails : forall n e raw args frags p s st l x,
  parsed raw = Some l -> In x l -> dangling e (List.length args) (List.length frags) x ->
  forall t st', build n e (BFrag (Frag raw args frags p s)) st <> (ROk t, st').
Proof.
  intros n e raw args frags p s st l x. apply (fails_if (dangling e (List.length args) (List.length frags)) e args frags).
  intros rb rc jf y S t S' H. apply (dangling_expr rb rc jf e (mkFrame args frags) y S t S' H).
Qed.
Theorem bad_call_fails : forall n e raw args frags p s st l x,
  parsed raw = Some l -> In x l -> bad_call e x ->
  forall t st', build n e (BFrag (Frag raw args frags p s)) st <> (ROk t, st').
Proof.
  intros n e raw args frags p s st l x. apply (fails_if (bad_call e) e args frags).
  intros rb rc jf y S t S' H K. destruct (bad_call_expr rb rc jf e (mkFrame args frags) y S H) as [er E]. congruence.
Qed.

(* ------------------------------------------------------------------ *)
(** * What no reference reaches is not used *)

Lemma keeps_ua : forall rb rc jf e fc x S i, ~ reaches_arg e (Z.of_nat i + 1) x ->
  nth_error (fs_ua (snd (eval_expr rb rc jf e fc (unstrip x) S))) i = nth_error (fs_ua S) i.
Proof.
  assert (A : forall fc k S i, k <> (Z.of_nat i + 1)%Z -> nth_error (fs_ua (snd (func_arg fc k S))) i = nth_error (fs_ua S) i).
  { intros fc k S i Hk. unfold func_arg. destruct (nth1 (fr_args fc) k) as [v|] eqn:E; [|reflexivity].
    apply nth1_Some in E as [E _]. destruct (commit v (fs_st S)). cbn [snd fs_ua]. apply nth_error_mark_same. lia. }
  assert (Sf : forall name r, snd (safe name r) = snd (r : outcome string * fstate)) by (intros name [[] ?]; reflexivity).
  intros rb rc jf e fc x S i H. destruct x as [u|s k|nm args|nm]; cbn [unstrip eval_expr reaches_arg] in *; try reflexivity.
  - destruct (nth1 (fr_args fc) k); [|reflexivity]. apply A. exact H.
  - unfold eval_function. destruct (lookup_fn e nm) as [[| | |sg body]|] eqn:El; [| | | |reflexivity].
    + rewrite eval_call_arg. destruct (Nat.eqb _ _); [|reflexivity]. destruct (eval_args _ _); try reflexivity.
      rewrite Sf. apply A. intros K. apply H. right. auto.
    + rewrite eval_call_fragment. destruct (Nat.eqb _ _); [|reflexivity]. destruct (eval_args _ _); try reflexivity.
      rewrite Sf. unfold func_fragment. destruct (nth1 _ _); [|reflexivity]. destruct (rb _ _ _). reflexivity.
    + exfalso. auto.
    + unfold eval_call. destruct (arity_ok _ _); [|reflexivity]. destruct (eval_args _ _); try reflexivity.
      destruct (any_rejected _ _); [reflexivity|]. rewrite Sf. cbn [call_fn]. destruct (run_prog _ _ _ _). reflexivity.
Qed.
Lemma keeps_uf : forall rb rc jf e fc x S i, ~ reaches_frag e (Z.of_nat i + 1) x ->
  nth_error (fs_uf (snd (eval_expr rb rc jf e fc (unstrip x) S))) i = nth_error (fs_uf S) i.
Proof.
  assert (A : forall fc k S, fs_uf (snd (func_arg fc k S)) = fs_uf S).
  { intros fc k S. unfold func_arg. destruct (nth1 (fr_args fc) k) as [v|]; [|reflexivity]. destruct (commit v (fs_st S)). reflexivity. }
  assert (Sf : forall name r, snd (safe name r) = snd (r : outcome string * fstate)) by (intros name [[] ?]; reflexivity).
  intros rb rc jf e fc x S i H. destruct x as [u|s k|nm args|nm]; cbn [unstrip eval_expr reaches_frag] in *; try reflexivity.
  - destruct (nth1 (fr_args fc) k); [|reflexivity]. rewrite A. reflexivity.
  - unfold eval_function. destruct (lookup_fn e nm) as [[| | |sg body]|] eqn:El; [| | | |reflexivity].
    + rewrite eval_call_arg. destruct (Nat.eqb _ _); [|reflexivity]. destruct (eval_args _ _); try reflexivity.
      rewrite Sf, A. reflexivity.
    + rewrite eval_call_fragment. destruct (Nat.eqb _ _); [|reflexivity]. destruct (eval_args _ _); try reflexivity.
      rewrite Sf. unfold func_fragment. destruct (nth1 (fr_frags fc) (call_index args)) as [b|] eqn:E; [|reflexivity].
      apply nth1_Some in E as [E _]. destruct (rb _ _ _). cbn [snd fs_uf]. apply nth_error_mark_same.
      intros K. apply H. right. split; [reflexivity|]. lia.
    + exfalso. auto.
    + unfold eval_call. destruct (arity_ok _ _); [|reflexivity]. destruct (eval_args _ _); try reflexivity.
      destruct (any_rejected _ _); [reflexivity|]. rewrite Sf. cbn [call_fn]. destruct (run_prog _ _ _ _). reflexivity.
Qed.

Lemma clause_keeps : forall A (get : fstate -> A) rb rc jf e fc l,
  (forall x S, In x l -> get (snd (eval_expr rb rc jf e fc (unstrip x) S)) = get S) ->
  forall S, get (snd (clause rb rc jf e fc (map unstrip l) S)) = get S.
Proof.
  intros A get rb rc jf e fc. induction l as [|x l IH]; intros H S; [reflexivity|]. cbn [map]. rewrite clause_cons.
  pose proof (H x S (or_introl eq_refl)) as H1.
  destruct (eval_expr rb rc jf e fc (unstrip x) S) as [[s|er|er|] S1]; cbn [andthen snd] in *; try exact H1.
  specialize (IH (fun y S Hy => H y S (or_intror Hy)) S1).
  destruct (clause rb rc jf e fc (map unstrip l) S1) as [[t|er|er|] S2]; cbn [snd] in *; congruence.
Qed.

Theorem unreached_arg_fails : forall n e raw args frags p s st l i,
  parsed raw = Some l -> i < List.length args -> (forall x, In x l -> ~ reaches_arg e (Z.of_nat i + 1) x) ->
  forall t st', build n e (BFrag (Frag raw args frags p s)) st <> (ROk t, st').
Proof.
  intros n e raw args frags p s st l i Hl Hi Hr t st' H.
  destruct (clause_ok_parsed _ _ _ _ _ _ _ _ _ _ _ H Hl) as (m & S' & -> & body & Hc & U & _).
  pose proof (clause_keeps _ (fun S => nth_error (fs_ua S) i) (build (S m)) (clause_n m (build (S m))) m e (mkFrame args frags) l
    (fun x S Hx => keeps_ua _ _ _ e _ x S i (Hr x Hx))
    (mkFS st (map (fun _ => false) args) (map (fun _ => false) frags))) as K.
  pose proof (len_clause (build (S m)) (clause_n m (build (S m))) (len_clause_n (build (S m)) m) m e (mkFrame args frags) (map unstrip l)
    (mkFS st (map (fun _ => false) args) (map (fun _ => false) frags))) as [L _].
  rewrite Hc in K, L. cbn [snd fs_ua] in K, L. rewrite map_length in L.
  rewrite (all_used_nth _ i U) in K by lia. symmetry in K. exact (nth_false _ _ _ K).
Qed.
Theorem unreached_frag_fails : forall n e raw args frags p s st l i,
  parsed raw = Some l -> i < List.length frags -> (forall x, In x l -> ~ reaches_frag e (Z.of_nat i + 1) x) ->
  forall t st', build n e (BFrag (Frag raw args frags p s)) st <> (ROk t, st').
Proof.
  intros n e raw args frags p s st l i Hl Hi Hr t st' H.
  destruct (clause_ok_parsed _ _ _ _ _ _ _ _ _ _ _ H Hl) as (m & S' & -> & body & Hc & _ & U & _).
  pose proof (clause_keeps _ (fun S => nth_error (fs_uf S) i) (build (S m)) (clause_n m (build (S m))) m e (mkFrame args frags) l
    (fun x S Hx => keeps_uf _ _ _ e _ x S i (Hr x Hx))
    (mkFS st (map (fun _ => false) args) (map (fun _ => false) frags))) as K.
  pose proof (len_clause (build (S m)) (clause_n m (build (S m))) (len_clause_n (build (S m)) m) m e (mkFrame args frags) (map unstrip l)
    (mkFS st (map (fun _ => false) args) (map (fun _ => false) frags))) as [_ L].
  rewrite Hc in K, L. cbn [snd fs_uf] in K, L. rewrite map_length in L.
  rewrite (all_used_nth _ i U) in K by lia. symmetry in K. exact (nth_false _ _ _ K).
Qed.

(* ------------------------------------------------------------------ *)
(** * Lookup *)

Lemma assoc_first : forall nm (m : list (string * func)) f, assoc nm m = Some f <->
  exists pre post, m = (pre ++ (nm, f) :: post)%list /\ forall g, ~ In (nm, g) pre.
Proof.
  intros nm. induction m as [|[k g] m IH]; intros f; cbn [assoc].
  - split; [discriminate|]. intros ([|x pre] & post & E & _); discriminate.
  - destruct (String.eqb_spec nm k) as [<-|Hn].
    + split.
      * intros H. injection H as <-. exists [], m. split; [reflexivity|]. intros g' [].
      * intros ([|[k' g'] pre] & post & E & N); cbn in E; injection E as E1 E2; subst; [reflexivity|].
        exfalso. apply (N g'). left. reflexivity.
    + rewrite IH. split.
      * intros (pre & post & -> & N). exists ((k, g) :: pre), post. split; [reflexivity|].
        intros g' [K|K]; [congruence|]. exact (N g' K).
      * intros ([|[k' g'] pre] & post & E & N); cbn in E; injection E as E1 E2; [congruence|].
        exists pre, post. split; [congruence|]. intros g2 K. apply (N g2). right. exact K.
Qed.
Lemma assoc_none : forall nm (m : list (string * func)), assoc nm m = None <-> forall g, ~ In (nm, g) m.
Proof.
  intros nm. induction m as [|[k g] m IH]; cbn [assoc]; [split; [intros _ g []|reflexivity]|].
  destruct (String.eqb_spec nm k) as [<-|Hn].
  - split; [discriminate|]. intros H. exfalso. apply (H g). left. reflexivity.
  - rewrite IH. split; intros H g' K.
    + destruct K as [K|K]; [congruence|]. exact (H g' K).
    + apply (H g'). right. exact K.
Qed.
Theorem lookup_innermost : forall e nm f, lookup_fn e nm = Some f <-> innermost e nm f.
Proof.
  intros e nm f. induction e as [|m e IH]; cbn [lookup_fn].
  - split; [discriminate|]. intros ([|x inner] & layer & outer & pre & post & E & _); discriminate.
  - destruct (assoc nm m) as [g|] eqn:Ea.
    + split.
      * intros H. injection H as ->. apply assoc_first in Ea as (pre & post & -> & N).
        exists [], (pre ++ (nm, f) :: post)%list, e, pre, post. repeat apply conj; auto.
      * intros ([|x inner] & layer & outer & pre & post & E & El & Ni & Np); cbn in E; injection E as E1 E2.
        -- subst m. assert (K : assoc nm layer = Some f) by (apply assoc_first; eauto). congruence.
        -- subst x. exfalso. assert (K : assoc nm m = None); [|congruence]. apply assoc_none. intros g'. apply Ni. left. reflexivity.
    + rewrite IH. pose proof (proj1 (assoc_none nm m) Ea) as Hn. split.
      * intros (inner & layer & outer & pre & post & -> & El & Ni & Np). exists (m :: inner), layer, outer, pre, post.
        repeat apply conj; auto. intros l g [<-|K]; [apply Hn|]. exact (Ni l g K).
      * intros ([|x inner] & layer & outer & pre & post & E & El & Ni & Np); cbn in E; injection E as E1 E2.
        -- subst m. exfalso. apply (Hn f). rewrite El. apply in_or_app. right. left. reflexivity.
        -- exists inner, layer, outer, pre, post. repeat apply conj; auto. intros l g K. apply Ni. right. exact K.
Qed.

(* ------------------------------------------------------------------ *)
(** * Panics *)

Lemma eval_args_panic : forall ts args er, eval_args ts args = RPanic er -> number_for_other ts args.
Proof.
  induction ts as [|t ts IH]; intros args er H; [discriminate|]. destruct args as [|a args]; [discriminate|].
  cbn [eval_args] in H. destruct (eval_arg t a) as [x|x|x|] eqn:E; try discriminate.
  - apply IH in H as (i & b & u & H1 & H2 & H3). exists (S i), b, u. auto.
  - exists 0, a, t. split; [reflexivity|]. split; [reflexivity|].
    destruct a, t; cbn in E; try discriminate; split; try discriminate; exact I.
Qed.

Lemma eval_call_panic : forall rb rc jf e fc name f args S er S',
  eval_call rb rc jf e fc name f args S = (RPanic er, S') ->
  number_for_other (arg_types (sig_of f) (List.length args)) args.
Proof.
  intros rb rc jf e fc name f args S er S' H. unfold eval_call in H.
  destruct (arity_ok _ _); [|discriminate].
  destruct (eval_args _ args) as [u|u|u|] eqn:E; try discriminate.
  - destruct (any_rejected _ _); [discriminate|]. destruct (call_fn _ _ _ _ _ _ _ _) as [[] ?]; discriminate.
  - exact (eval_args_panic _ _ _ E).
Qed.

Lemma expr_panics : forall rb rc jf e fc x S er S', eval_expr rb rc jf e fc (unstrip x) S = (RPanic er, S') ->
  panics e (st_dollar (fs_st S)) (fr_args fc) x.
Proof.
  intros rb rc jf e fc x S er S' H. destruct x as [u|s k|nm args|nm]; cbn [unstrip eval_expr] in H; try discriminate.
  - cbn [panics]. unfold func_arg in H. destruct (nth1 (fr_args fc) k) as [v|] eqn:E; [|discriminate].
    destruct (commit v (fs_st S)) as [o st'] eqn:Ec. injection H as -> _. unfold commit in Ec.
    destruct (st_dollar (fs_st S)); [|discriminate]. split; [reflexivity|]. exists v. split; [reflexivity|].
    destruct (hashable v); [|reflexivity]. destruct (dict_find _ _); discriminate.
  - cbn [panics]. unfold eval_function in H. destruct (lookup_fn e nm) as [f|] eqn:El; [|discriminate].
    exists f. split; [reflexivity|]. exact (eval_call_panic _ _ _ _ _ _ _ _ _ _ _ H).
Qed.

Lemma clause_panics : forall rb, (forall e b st, grows st (snd (rb e b st))) ->
  forall n jf e fc l S er S', clause rb (clause_n n rb) jf e fc (map unstrip l) S = (RPanic er, S') ->
  exists x, In x l /\ panics e (st_dollar (fs_st S)) (fr_args fc) x.
Proof.
  intros rb Hrb n jf e fc. induction l as [|x l IH]; intros S er S' H; [discriminate|]. cbn [map] in H.
  rewrite clause_cons in H.
  pose proof (step_expr grows grows_refl grows_trans grows_commit grows_fresh rb Hrb (clause_n n rb)
    (step_clause_n grows grows_refl grows_trans grows_commit grows_fresh rb Hrb n) jf e fc (unstrip x) S) as G.
  destruct (eval_expr rb (clause_n n rb) jf e fc (unstrip x) S) as [[s|er'|er'|] S1] eqn:E; cbn [andthen snd] in *; try discriminate.
  - destruct (clause rb (clause_n n rb) jf e fc (map unstrip l) S1) as [[t|er'|er'|] S2] eqn:E2; try discriminate.
    destruct (IH _ _ _ E2) as (y & Hy & Py). exists y. split; [right; exact Hy|].
    destruct G as [G _]. rewrite G in Py. exact Py.
  - exists x. split; [left; reflexivity|]. exact (expr_panics _ _ _ _ _ _ _ _ _ E).
Qed.

Theorem frag_panics : forall n e raw args frags p s st er st',
  build n e (BFrag (Frag raw args frags p s)) st = (RPanic er, st') ->
  exists l x, parsed raw = Some l /\ In x l /\ panics e (st_dollar st) args x.
Proof.
  intros [|n] e raw args frags p s st er st' H; [discriminate|]. cbn [build] in H.
  destruct (parse_total raw) as [[es Hp]|(o & m & Hp)].
  - assert (Hl : parsed raw = Some (norm (map strip es))) by (unfold parsed; rewrite Hp; reflexivity).
    rewrite (build_parsed _ _ _ (Frag raw args frags p s) _ _ Hl) in H. cbn [f_args f_frags f_prefix f_suffix] in H.
    destruct (clause_n n (build n) e _ _ _) as [[body|er'|er'|] S'] eqn:Ec; try discriminate.
    + destruct (_ && _); [|discriminate]. cbn zeta in H. destruct (is_empty _); discriminate.
    + destruct n as [|n]; [discriminate|]. rewrite clause_n_S in Ec.
      apply clause_panics in Ec as (x & Hx & Px); [|intros; apply store_grows].
      eexists _, x. split; [exact Hl|]. split; [exact Hx|exact Px].
  - unfold build_frag in H. cbn [f_raw] in H. rewrite Hp in H. discriminate.
Qed.

(** Panics of a called function, or of anything it builds, become errors. *)
Theorem called_panic : forall rb rc jf e fc name f args S er S',
  arity_ok (sig_of f) (List.length args) = true ->
  eval_args (arg_types (sig_of f) (List.length args)) args = ROk tt ->
  any_rejected (arg_types (sig_of f) (List.length args)) args = false ->
  call_fn rb rc jf e fc f args S = (RPanic er, S') ->
  eval_call rb rc jf e fc name f args S = (RErr (EWrap ("error calling #" ++ name) er), S').
Proof.
  intros rb rc jf e fc name f args S er S' H1 H2 H3 H4. unfold eval_call. rewrite H1, H2, H3, H4. reflexivity.
Qed.

(* ------------------------------------------------------------------ *)
(** * Names that can be called *)

Lemma no_nul_cut : forall s, no_nul (cut_nul s) = true.
Proof.
  induction s as [|a s IH]; [reflexivity|]. cbn [cut_nul]. destruct (Ascii.eqb a nul) eqn:E; [reflexivity|].
  unfold no_nul in *. cbn [all]. rewrite E, IH. reflexivity.
Qed.

Lemma norm_call : forall l nm args, In (ACall nm args) (norm l) -> In (ACall nm args) l.
Proof.
  assert (C : forall t l nm args, In (ACall nm args) (cons_text t l) -> In (ACall nm args) l).
  { intros t l nm args. unfold cons_text. destruct l as [|[u| | |] l]; try (destruct (is_empty t); [auto|]; intros [H|H]; [discriminate|exact H]).
    intros [H|H]; [discriminate|right; exact H]. }
  induction l as [|x l IH]; intros nm args H; [destruct H|].
  destruct x as [t|s i|n a|n]; cbn [norm] in H.
  - right. apply IH. exact (C _ _ _ _ H).
  - destruct H as [H|H]; [discriminate|right; apply IH; exact H].
  - destruct H as [H|H]; [left; exact H|right; apply IH; exact H].
  - destruct H as [H|H]; [discriminate|right; apply IH; exact H].
Qed.

Theorem called_names : forall raw l nm args, parsed raw = Some l -> In (ACall nm args) l -> wf_name nm = true.
Proof.
  intros raw l nm args H Hin.
  assert (E : parsed (cut_nul raw) = Some l).
  { rewrite parsed_np in *. rewrite (cut_nul_id (cut_nul raw) (no_nul_cut raw)). exact H. }
  apply parsed_ok in E as (es & Hp & <-). apply norm_call in Hin.
  destruct (parse_lossless _ _ (no_nul_cut raw) Hp) as (srcs & F & _).
  revert Hin F. generalize (map strip es) as l. intros l Hin F. induction F as [|x y l' ys Hs F IH]; [destruct Hin|].
  destruct Hin as [->|Hin]; [|auto]. inversion Hs; assumption.
Qed.

Lemma letter_code : forall a, is_letter a = true -> (code a <? 128)%N = true /\ (N.eqb (code a) 95 || unicode_letter (code a)) = true.
Proof. intros a. destruct a as [[] [] [] [] [] [] [] []]; vm_compute; intros H; try discriminate H; split; reflexivity. Qed.
Lemma ascii_letter : forall a, (code a <? 128)%N = true -> (N.eqb (code a) 95 || unicode_letter (code a)) = true -> is_letter a = true.
Proof. intros a. destruct a as [[] [] [] [] [] [] [] []]; vm_compute; intros H K; try discriminate H; try discriminate K; reflexivity. Qed.

Theorem good_name_ascii : forall nm, ascii_only nm = true -> good_name nm = wf_name nm.
Proof.
  intros nm H. unfold good_name, wf_name. f_equal.
  assert (G : forall n s, String.length s <= n -> ascii_only s = true -> good_name_f n s = all is_letter s).
  { induction n as [|n IH]; intros s Hn Hs; (destruct s as [|a s]; [reflexivity|]); [simpl in Hn; lia|].
    unfold ascii_only in Hs. cbn [all] in Hs. apply andb_prop in Hs as [Ha Hs].
    cbn [good_name_f]. rewrite decode_ascii by exact Ha. cbn [str_drop all]. rewrite IH; [|simpl in Hn; lia|exact Hs].
    f_equal. apply bool_iff. split; intros K; [apply ascii_letter; assumption|apply letter_code; exact K]. }
  apply G; [lia|exact H].
Qed.
Lemma wf_name_ascii : forall nm, wf_name nm = true -> ascii_only nm = true.
Proof.
  intros nm H. unfold wf_name in H. apply andb_prop in H as [_ H]. revert H. unfold ascii_only.
  apply all_impl. intros a Ha. apply letter_code. exact Ha.
Qed.

Theorem callable : forall nm, good_name nm = true -> ascii_only nm = true ->
  parsed ("#" ++ nm ++ "()") = Some [ACall nm []].
Proof.
  intros nm H Ha. rewrite (good_name_ascii nm Ha) in H.
  pose proof (parsed_print [Call nm []]) as P. cbn [print print1 sep_args map str_join] in P.
  rewrite append_nil_r in P. apply P. unfold wf. cbn [wf_at wf1 follow forallb]. rewrite H. reflexivity.
Qed.

(** A registered function without parameters is called by its name. *)
Theorem call_registered : forall n e nm outs body st, good_name nm = true -> ascii_only nm = true ->
  lookup_fn e nm = Some (FnCustom (mkSig [GCtx] false outs) body) ->
  build (S (S n)) e (BFrag (F ("#" ++ nm ++ "()"))) st =
  match run_prog (build (S n)) e (body []) st with
  | (r, st') =>
    (match norm_outs outs r with
     | ROk t => ROk (trim_space t)
     | RErr er | RPanic er => RErr (EWrap ("build '#" ++ nm ++ "()'") (EWrap ("error calling #" ++ nm) er))
     | RFuel => RFuel
     end, st')
  end.
Proof.
  intros n e nm outs body st H Ha Hl. cbn [build]. unfold F.
  rewrite (build_parsed _ _ _ (Frag ("#" ++ nm ++ "()") [] [] "" "") _ _ (callable nm H Ha)).
  cbn [f_args f_frags f_prefix f_suffix map unstrip]. rewrite clause_n_S, clause_cons. cbn [eval_expr]. unfold eval_function. rewrite Hl.
  unfold eval_call. cbn [sig_of arity_ok fs_variadic user_ins ctx_first fs_ins negb tl List.length Nat.eqb arg_types eval_args any_rejected call_fn fs_outs].
  cbn [fs_st].
  destruct (run_prog _ e (body []) st) as [r st']. cbn [fs_ua fs_uf].
  destruct (norm_outs outs r) as [t|er|er|]; cbn [safe andthen clause]; try reflexivity;
    try (unfold in_frag; cbn [f_raw append]; rewrite append_assoc; reflexivity).
  rewrite append_nil_r. cbn [fs_ua fs_uf fs_st all_used forallb andb]. cbn zeta.
  destruct (trim_space t); cbn [is_empty append]; [reflexivity|]. rewrite append_nil_r. reflexivity.
Qed.

(* ------------------------------------------------------------------ *)
(** * The compatibility test of #join *)

Lemma compat_store : forall rb name f st, exists h, snd (join_compat rb name f st) = set_heap st h.
Proof.
  intros rb name f st. unfold join_compat. destruct (negb _); [exists (st_heap st); symmetry; apply set_heap_same|].
  destruct f as [| | |sg body]; try (exists (st_heap st); symmetry; apply set_heap_same).
  destruct (run_prog rb _ _ _) as [r st']. exists (st_heap st'). destruct (fst (safe _ _)); reflexivity.
Qed.
Theorem prep_store : forall rb e es st, exists h, snd (join_prep rb e es st) = set_heap st h.
Proof.
  intros rb e. induction es as [|x es IH]; intros st; [exists (st_heap st); symmetry; apply set_heap_same|].
  destruct x as [t p|a i p|name args p|name p]; cbn [join_prep]; try apply IH.
  destruct (lookup_fn e name) as [f|]; [|exists (st_heap st); symmetry; apply set_heap_same].
  destruct (compat_store rb name f st) as [h H]. destruct (join_compat rb name f st) as [[[] []] st'] eqn:Ec; cbn [snd] in H; subst st'.
  1,2: destruct (IH (set_heap st h)) as [h2 H2]; destruct (join_prep rb e es (set_heap st h)) as [[] st2]; cbn [snd] in *; subst; exists h2; reflexivity.
  all: exists h; reflexivity.
Qed.

(** The test alone: its outcome is independent of the arguments committed so far
    and of the style. *)
Theorem compat_fresh : forall rb name f st st2, st_heap st = st_heap st2 ->
  fst (join_compat rb name f st) = fst (join_compat rb name f st2) /\
  st_heap (snd (join_compat rb name f st)) = st_heap (snd (join_compat rb name f st2)).
Proof.
  intros rb name f st st2 H. unfold join_compat. destruct (negb _); [auto|].
  destruct f as [| | |sg body]; auto. rewrite H. destruct (run_prog rb _ _ _) as [r st'].
  destruct (fst (safe _ _)); auto.
Qed.

(** A #join that fails before its first item leaves arguments and usage alone. *)
Theorem join_refused : forall rb rc jf e fc tmpl sep idx S o S' es er st',
  parse tmpl = POk es -> join_prep rb e es (fs_st S) = (RErr er, st') ->
  func_join rb rc jf e fc tmpl sep idx S = (o, S') ->
  fs_ua S' = fs_ua S /\ fs_uf S' = fs_uf S /\ exists h, fs_st S' = set_heap (fs_st S) h.
Proof.
  intros rb rc jf e fc tmpl sep idx S o S' es er st' Hp Hj H.
  destruct (prep_store rb e es (fs_st S)) as [h Hh]. rewrite Hj in Hh. cbn [snd] in Hh. subst st'.
  assert (K : fs_ua S = fs_ua S /\ fs_uf S = fs_uf S /\ exists h, fs_st S = set_heap (fs_st S) h).
  { repeat apply conj; auto. exists (st_heap (fs_st S)). symmetry. apply set_heap_same. }
  unfold func_join in H. rewrite Hp, Hj in H.
  destruct idx as [|a [|b [|c idx]]]; try (injection H as <- <-; exact K).
  all: destruct (_ && _); injection H as <- <-; try exact K; cbn [fs_ua fs_uf fs_st]; repeat apply conj; eauto.
Qed.
