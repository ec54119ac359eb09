(** Proofs about what can be built. *)
From Coq Require Import Strings.String Strings.Ascii NArith ZArith List Bool Lia.
From Verif Require Import GoStr GoNum Syntax Value Util Model Sqlf Sqlb Spec_syntax Spec_base Spec_eval Spec_query Spec_blame
  Lex_proofs Eval_proofs Use_proofs Fuel_proofs Deps_proofs Query_proofs Base_proofs Blame_proofs Term_proofs Spec_sound.
Import ListNotations.
Open Scope string_scope.

(* ------------------------------------------------------------------ *)
(** * Computations with fuel that come to a result *)

Definition ends {A S} (X : nat -> nat -> outcome A * S) (P : outcome A -> S -> Prop) : Prop :=
  exists N o s, P o s /\ forall n m, N <= n -> N <= m -> X n m = (o, s).
Lemma ends_const : forall {A S} (o : outcome A) (s : S) (P : outcome A -> S -> Prop), P o s -> ends (fun _ _ => (o, s)) P.
Proof. intros A S o s P H. exists 0, o, s. auto. Qed.
Lemma ends_ext : forall {A S} (X Y : nat -> nat -> outcome A * S) P, (forall n m, Y n m = X n m) -> ends X P -> ends Y P.
Proof. intros A S X Y P E (N & o & s & H & K). exists N, o, s. split; [exact H|]. intros. rewrite E. auto. Qed.
Lemma ends_more : forall {A S} (X : nat -> nat -> outcome A * S) (P Q : outcome A -> S -> Prop), (forall o s, P o s -> Q o s) -> ends X P -> ends X Q.
Proof. intros A S X P Q H (N & o & s & K & E). exists N, o, s. auto. Qed.
Lemma ends_bind : forall {A B S T} (X : nat -> nat -> outcome A * S) (K : nat -> nat -> outcome A * S -> outcome B * T) P Q,
  ends X P -> (forall o s, P o s -> ends (fun n m => K n m (o, s)) Q) -> ends (fun n m => K n m (X n m)) Q.
Proof.
  intros A B S T X K P Q (N & o & s & H & E) HK. destruct (HK o s H) as (M & o' & s' & H' & E').
  exists (N + M), o', s'. split; [exact H'|]. intros n m Hn Hm. rewrite E by lia. apply E'; lia.
Qed.
Definition made {A S} (I : S -> Prop) (o : outcome A) (s : S) : Prop := (exists a, o = ROk a) /\ I s.

Section Ok.
Variable h : list qb.
(** The state while building: the style, and query builders that have at most
    been built before. *)
Definition ok (d : bool) (st : store) : Prop := during h d st.
Definition buildable (d : bool) (e : env) (b : builder) : Prop :=
  forall st, ok d st -> ends (fun n _ => build n e b st) (made (ok d)).
Definition runnable (d : bool) (e : env) (p : prog) : Prop :=
  forall st, ok d st -> ends (fun n _ => run_prog (build n) e p st) (made (ok d)).
Definition flagged (k : func) (i : Z) (S : fstate) : Prop :=
  nth_error (match k with FnArg => fs_ua S | _ => fs_uf S end) (Z.to_nat (i - 1)) = Some true.
(** ... with as many flags as there are arguments and fragments. *)
Definition okf (d : bool) (na nf : nat) (S : fstate) : Prop :=
  ok d (fs_st S) /\ List.length (fs_ua S) = na /\ List.length (fs_uf S) = nf.
Definition vis (e : env) (na nf : nat) (k : func) (i : Z) (x : aexpr) : Prop := (k = FnArg \/ k = FnFragment) /\ visits e na nf k i x.
Definition evaluable (d : bool) (e : env) (na nf : nat) (x : aexpr) : Prop :=
  forall args frags, List.length args = na -> List.length frags = nf ->
  (forall v, In v args -> storable d v) -> (forall b, In b frags -> buildable d e b) ->
  forall x' S, strip x' = x -> okf d na nf S ->
  ends (fun n m => eval_expr (build n) (clause_n m (build n)) m e (mkFrame args frags) x' S)
    (made (fun S' => okf d na nf S' /\ forall k i, vis e na nf k i x -> flagged k i S')).
Lemma flagged_kept : forall k i S S', kept S S' -> flagged k i S -> flagged k i S'.
Proof. intros k i S S' [H1 H2] H. unfold flagged in *. destruct k; auto. Qed.

Lemma ok_commit : forall d v st, ok d st -> storable d v -> exists s, fst (commit v st) = ROk s /\ ok d (snd (commit v st)).
Proof.
  intros d v st [H1 H2] Hv. unfold commit. rewrite H1. destruct d.
  - destruct (hashable v) eqn:E; [|apply hashable_iff in E; destruct (Hv eq_refl E)].
    destruct (dict_find v (st_dict st)); eexists; (split; [reflexivity|]); split; cbn; auto.
  - eexists. split; [reflexivity|]. split; cbn; auto.
Qed.

Lemma nth1_inside : forall A (l : list A) i, inside i (List.length l) -> exists x, nth1 l i = Some x /\ In x l.
Proof.
  intros A l i [H1 H2]. unfold nth1. rewrite (proj2 (Z.leb_le 1 i) H1), (proj2 (Z.leb_le i _) H2). cbn [andb].
  destruct (nth_error l (Z.to_nat (i - 1))) as [x|] eqn:E.
  - exists x. split; [reflexivity|]. eapply nth_error_In; exact E.
  - apply nth_error_None in E. lia.
Qed.

(** A call with fitting arguments is the call of the function. *)
Lemma call_goes : forall f a nm rb rc jf e fc S, proper f -> takes f (List.length a) -> all_fit f a -> ~ some_defined f (List.length a) ->
  eval_call rb rc jf e fc nm f a S = safe nm (call_fn rb rc jf e fc f a S).
Proof.
  intros f a nm rb rc jf e fc S Hp Ht Hf Hd. unfold eval_call. rewrite (proj2 (arity_takes f (List.length a)) Ht).
  pose proof (arg_types_len f _ Ht) as Hl. pose proof (fun i => arg_types_param f (List.length a) i Hp Ht) as Hty.
  set (ts := arg_types (sig_of f) (List.length a)) in *.
  assert (Hlt : forall i b, nth_error a i = Some b -> i < List.length a) by (intros i b K; apply nth_error_Some; congruence).
  pose proof (eval_args_text ts a Hl) as K.
  destruct (eval_args ts a) as [u|er|er|]; [|destruct K as (i & b & t & Ha & Hti & Nf & _)..|destruct K].
  - destruct (any_rejected ts a) eqn:R; [|reflexivity]. apply rejected_iff in R; [|exact Hl|exact K]. destruct R as (i & t & Hi & D).
    destruct Hd. exists i, t. assert (i < List.length a) as L by (rewrite <- Hl; apply nth_error_Some; congruence). rewrite <- Hty by exact L. auto.
  - destruct (Hf i b Ha) as (t' & H1 & H2). rewrite <- Hty in H1 by (eapply Hlt; exact Ha). destruct Nf. congruence.
  - destruct (Hf i b Ha) as (t' & H1 & H2). rewrite <- Hty in H1 by (eapply Hlt; exact Ha). destruct Nf. congruence.
Qed.
Lemma call_index_goes : forall f x nm rb rc jf e fc S, f = FnArg \/ f = FnFragment -> number x ->
  eval_call rb rc jf e fc nm f [x] S = safe nm (call_fn rb rc jf e fc f [x] S).
Proof.
  intros f x nm rb rc jf e fc S Hf Hx. apply call_goes.
  - destruct Hf as [-> | ->]; intros K; discriminate.
  - destruct Hf as [-> | ->]; reflexivity.
  - intros [|i] a Ha; [injection Ha as <-|destruct i; discriminate]. exists GNum. split; [destruct Hf as [-> | ->]; reflexivity|].
    destruct x; try contradiction; constructor.
  - intros (i & t & Hi & Ht & Hd). destruct i as [|i]; [|cbn in Hi; lia]. destruct Hf as [-> | ->]; injection Ht as <-; destruct Hd; discriminate.
Qed.
Lemma call_join_goes : forall tmpl sep nums nm rb rc jf e fc S, (forall x, In x nums -> number x) ->
  eval_call rb rc jf e fc nm FnJoin (LStr tmpl :: LStr sep :: nums) S = safe nm (func_join rb rc jf e fc tmpl sep (map lit_int nums) S).
Proof.
  intros tmpl sep nums nm rb rc jf e fc S Hx.
  assert (Hn : forall i, exists t, param FnJoin i = Some t /\ (t = GStr false \/ t = GNum)).
  { intros [|[|[|i]]]; cbn; eauto. }
  assert (Hn2 : forall i, param FnJoin (2 + i) = Some GNum) by (intros [|i]; reflexivity).
  rewrite call_goes; [reflexivity|intros _; discriminate|unfold takes; cbn; lia| |].
  - intros [|[|i]] a Ha; [injection Ha as <-; exists (GStr false); split; [reflexivity|constructor]..|].
    exists GNum. split; [apply Hn2|]. change (nth_error nums i = Some a) in Ha. apply nth_error_In in Ha. apply Hx in Ha. destruct a; try contradiction; constructor.
  - intros (i & t & Hi & Ht & Hd). destruct (Hn i) as (t' & Ht' & [-> | ->]); rewrite Ht' in Ht; injection Ht as <-; destruct Hd; discriminate.
Qed.

Section Frame.
Variables (d : bool) (e : env) (args : list value) (frags : list builder).
Hypothesis Hargs : forall v, In v args -> storable d v.
Hypothesis Hfrags : forall b, In b frags -> buildable d e b.
Let fc := mkFrame args frags.
Let na := List.length args.
Let nf := List.length frags.
Let good := okf d na nf.

Lemma clause_kept : forall es S P,
  ends (fun n m => clause (build n) (clause_n m (build n)) m e fc es S) P ->
  ends (fun n m => clause (build n) (clause_n m (build n)) m e fc es S) (fun o S' => P o S' /\ kept S S').
Proof.
  intros es S P (N & o & S' & H & E). exists N, o, S'. split; [|exact E]. split; [exact H|].
  pose proof (kept_clause (build N) (clause_n N (build N)) (kept_clause_n (build N) N) N e fc es S) as K. rewrite E in K by lia. exact K.
Qed.
Lemma arg_ends : forall i S, good S -> inside i na -> ends (fun n m => func_arg fc i S) (made (fun S' => good S' /\ flagged FnArg i S')).
Proof.
  intros i S (H1 & H2 & H3) Hi. unfold func_arg. cbn [fr_args fc]. destruct (nth1_inside _ args i Hi) as (v & -> & Hv).
  destruct (ok_commit d v (fs_st S) H1 (Hargs v Hv)) as (s & E & K). destruct (commit v (fs_st S)) as [o st']. cbn in E, K. subst o.
  apply ends_const. split; [eauto|]. split; [repeat split; cbn; try apply K; rewrite ?length_mark; assumption|].
  unfold flagged. cbn. apply mark_sets. destruct Hi. rewrite H2. lia.
Qed.
Lemma fragment_ends : forall i S, good S -> inside i nf -> ends (fun n m => func_fragment (build n) e fc i S) (made (fun S' => good S' /\ flagged FnFragment i S')).
Proof.
  intros i S (H1 & H2 & H3) Hi. unfold func_fragment. cbn [fr_frags fc]. destruct (nth1_inside _ frags i Hi) as (b & -> & Hb).
  apply (ends_bind (fun n _ => build n e b (fs_st S)) (fun _ _ r => let '(r, st') := r in (r, mkFS st' (fs_ua S) (mark (Z.to_nat (i - 1)) (fs_uf S)))) (made (ok d))).
  - apply Hfrags; [exact Hb|exact H1].
  - intros o st' [[s ->] K]. apply ends_const. split; [eauto|]. split; [repeat split; cbn; try apply K; rewrite ?length_mark; assumption|].
    unfold flagged. cbn. apply mark_sets. destruct Hi. rewrite H3. lia.
Qed.
Lemma safe_ends : forall nm X I, ends X (made I) -> ends (fun n m => safe nm (X n m)) (made (S := fstate) I).
Proof.
  intros nm X I H. apply (ends_bind X (fun _ _ r => safe nm r) (made I) (made I) H).
  intros o s [[t ->] K]. apply ends_const. split; [eauto|exact K].
Qed.

(** One round of a join: a text if every list is long enough, else the error
    that ends the join. *)
Definition all_reach (i : Z) (es : list expr) : Prop :=
  forall nm p f c, In (EFunc nm p) es -> lookup_fn e nm = Some f -> supply na nf f = Some c -> (i <= Z.of_nat c)%Z.
Definition all_flagged (i : Z) (es : list expr) (S' : fstate) : Prop :=
  (forall nm p f, In (EFunc nm p) es -> lookup_fn e nm = Some f -> flagged f i S') /\
  (forall x k j, In x es -> called_with (strip x) -> vis e na nf k j (strip x) -> flagged k j S').
Definition round_ends (i : Z) (es : list expr) (o : outcome string) (S' : fstate) : Prop :=
  good S' /\ (((exists s, o = ROk s) /\ all_reach i es /\ all_flagged i es S') \/
    (exists er, o = RErr er /\ is_invalid_index er = true) /\ exists nm p f c, In (EFunc nm p) es /\ lookup_fn e nm = Some f /\ supply na nf f = Some c /\ (Z.of_nat c < i)%Z).
Lemma item_ends : forall nm f c i S, (1 <= i)%Z -> good S -> lookup_fn e nm = Some f -> supply na nf f = Some c ->
  forall p, ends (fun n m => eval_expr (build n) (clause_n m (build n)) m e fc (ECall nm [LInt i] p) S)
    (fun o S' => good S' /\ (((exists s, o = ROk s) /\ (i <= Z.of_nat c)%Z /\ flagged f i S') \/ (exists er, o = RErr er /\ is_invalid_index er = true) /\ (Z.of_nat c < i)%Z)).
Proof.
  intros nm f c i S Hi HS Hf Hc p.
  assert (Ff : f = FnArg \/ f = FnFragment) by (destruct f; cbn in Hc; try discriminate; auto).
  apply (ends_ext (fun n m => safe nm (call_fn (build n) (clause_n m (build n)) m e fc f [LInt i] S))).
  { intros n m. cbn [eval_expr]. unfold eval_function. rewrite Hf. apply call_index_goes; [exact Ff|exact Logic.I]. }
  destruct (Z.le_gt_cases i (Z.of_nat c)) as [L|L].
  - apply (ends_more _ (made (fun S' => good S' /\ flagged f i S'))); [intros o s [K1 [K2 K3]]; split; [exact K2|left; auto]|]. apply safe_ends.
    destruct f; cbn in Hc; try discriminate; injection Hc as <-; cbn [call_fn lit_int].
    + apply arg_ends; [exact HS|split; lia].
    + apply fragment_ends; [exact HS|split; lia].
  - destruct f; cbn in Hc; try discriminate; injection Hc as <-; cbn [call_fn lit_int];
      (unfold func_arg, func_fragment; cbn [fr_args fr_frags fc]; rewrite nth1_outside by (right; assumption)); cbn [safe]; apply ends_const;
      (split; [exact HS|right; split; [eexists; split; [reflexivity|reflexivity]|exact L]]).
Qed.
Definition parts_end (es : list expr) : Prop :=
  forall x, In x es -> called_with (strip x) -> forall S, good S ->
  ends (fun n m => eval_expr (build n) (clause_n m (build n)) m e fc x S) (made (fun S' => good S' /\ forall k j, vis e na nf k j (strip x) -> flagged k j S')).
Lemma round : forall es i, (1 <= i)%Z -> parts_end es ->
  (forall nm p, In (EFunc nm p) es -> exists f c, lookup_fn e nm = Some f /\ supply na nf f = Some c) ->
  forall S, good S -> ends (fun n m => clause (build n) (clause_n m (build n)) m e fc (set_index i es) S) (round_ends i es).
Proof.
  induction es as [|x es IH]; intros i Hi Hx Hn S HS.
  - apply ends_const. split; [exact HS|]. left. split; [eauto|]. split; [intros nm p f c []|]. split; [intros nm p f []|intros x k j []].
  - assert (IH' : forall S, good S -> ends (fun n m => clause (build n) (clause_n m (build n)) m e fc (set_index i es) S) (round_ends i es)).
    { apply IH; [exact Hi| |]; [intros y Hy; apply Hx; right; exact Hy|intros nm p Hin; apply (Hn nm p); right; exact Hin]. }
    clear IH.
    set (y := match x with EFunc nm p => ECall nm [LInt i] p | _ => x end).
    apply (ends_ext (fun n m => andthen (eval_expr (build n) (clause_n m (build n)) m e fc y S) (fun S' => clause (build n) (clause_n m (build n)) m e fc (set_index i es) S'))).
    { intros n m. change (set_index i (x :: es)) with (y :: set_index i es). apply clause_cons. }
    apply (ends_bind (fun n m => eval_expr (build n) (clause_n m (build n)) m e fc y S) (fun n m r => andthen r (fun S' => clause (build n) (clause_n m (build n)) m e fc (set_index i es) S'))
      (fun o S' => good S' /\ (((exists s, o = ROk s) /\ all_reach i [x] /\ all_flagged i [x] S') \/
        (exists er, o = RErr er /\ is_invalid_index er = true) /\ exists nm p f c, x = EFunc nm p /\ lookup_fn e nm = Some f /\ supply na nf f = Some c /\ (Z.of_nat c < i)%Z))).
    + destruct x as [t p|a j p|nm a p|nm p].
      4: { destruct (Hn nm p (or_introl eq_refl)) as (f & c & Hf & Hc).
           apply (ends_more _ _ _) with (2 := item_ends nm f c i S Hi HS Hf Hc p). intros o S' [K [[K1 [K2 K3]]|[K1 K2]]]; (split; [exact K|]).
           - left. split; [exact K1|]. split; [intros nm' p' f' c' [E|[]] Hf' Hc'; injection E as <- <-; rewrite Hf in Hf'; injection Hf' as <-; rewrite Hc in Hc'; injection Hc' as <-; exact K2|].
             split; [intros nm' p' f' [E|[]] Hf'; injection E as <- <-; rewrite Hf in Hf'; injection Hf' as <-; exact K3|intros x k j [<-|[]] []].
           - right. split; [exact K1|]. exists nm, p, f, c. auto. }
      all: (apply (ends_more _ _ _) with (2 := Hx _ (or_introl eq_refl) Logic.I S HS); intros o S' [K1 [K2 K3]]; split; [exact K2|]; left; split; [exact K1|];
        split; [intros nm' p' f' c' [E|[]]; discriminate|split; [intros nm' p' f' [E|[]]; discriminate|intros z k j' [<-|[]] _ V; apply K3; exact V]]).
    + intros o S' [K [[[s ->] [K2 K3]]|[[er [-> Ke]] (nm & p & f & c & -> & Hf & Hc & L)]]]; cbn [andthen].
      * apply (ends_bind (fun n m => clause (build n) (clause_n m (build n)) m e fc (set_index i es) S') (fun n m r => let '(o, S2) := r in match o with ROk t => (ROk (s ++ t), S2) | RErr e => (RErr e, S2) | RPanic e => (RPanic e, S2) | RFuel => (RFuel, S2) end)
          (fun o S2 => round_ends i es o S2 /\ kept S' S2)).
        -- apply clause_kept, IH'. exact K.
        -- intros o S2 [[Q [[[t ->] [Q2 Q3]]|[[er [-> Qe]] (nm & p & f & c & Hin & Hf & Hc & L)]]] Ks]; apply ends_const; (split; [exact Q|]).
           ++ left. split; [eauto|]. split; [intros nm p f c [E|Hin] Hf Hc; [apply (K2 nm p f c); [left; exact E|assumption..]|apply (Q2 nm p f c); assumption]|].
              destruct K3 as [K3 K4], Q3 as [Q3 Q4]. split.
              ** intros nm p f [E|Hin] Hf; [apply (flagged_kept _ _ S' S2 Ks), (K3 nm p f); [left; exact E|exact Hf]|apply (Q3 nm p f); assumption].
              ** intros z k j [E|Hin] Hz V; [apply (flagged_kept _ _ S' S2 Ks), (K4 z k j); [left; exact E|exact Hz|exact V]|apply (Q4 z k j); assumption].
           ++ right. split; [eauto|]. exists nm, p, f, c. split; [right; exact Hin|auto].
      * apply ends_const. split; [exact K|]. right. split; [eauto|]. exists nm, p, f, c. split; [left; reflexivity|auto].
Qed.

Section Join.
Variable es : list expr.
Variable len : nat.
Hypothesis Hx : parts_end es.
Hypothesis Hone : exists nm p f, In (EFunc nm p) es /\ lookup_fn e nm = Some f /\ supply na nf f = Some len.
Hypothesis Hall : forall nm p, In (EFunc nm p) es -> exists f c, lookup_fn e nm = Some f /\ supply na nf f = Some c /\ len <= c.
Lemma Hall' : forall nm p, In (EFunc nm p) es -> exists f c, lookup_fn e nm = Some f /\ supply na nf f = Some c.
Proof. intros nm p H. destruct (Hall nm p H) as (f & c & A & B & _). eauto. Qed.
(** After the items [i] .. [last]. *)
Definition covered (i last : Z) (S' : fstate) : Prop :=
  (forall j, (i <= j <= last)%Z -> forall nm p f, In (EFunc nm p) es -> lookup_fn e nm = Some f -> flagged f j S') /\
  ((i <= last)%Z -> forall x k j, In x es -> called_with (strip x) -> vis e na nf k j (strip x) -> flagged k j S').
Definition last_of (to : Z) : Z := if (0 <? to)%Z then to else Z.of_nat len.
Lemma round_stops : forall from to i, (Z.of_nat len < i)%Z -> (from <= Z.of_nat len)%Z -> (to <= Z.of_nat len)%Z ->
  ((0 <? from)%Z && (i =? from)%Z) || ((0 <? to)%Z && (i <=? to)%Z) = false.
Proof.
  intros from to i L Hf Ht.
  destruct ((0 <? from)%Z && (i =? from)%Z) eqn:B1; [apply andb_true_iff in B1 as [B1 B2]; apply Z.eqb_eq in B2; lia|].
  destruct ((0 <? to)%Z && (i <=? to)%Z) eqn:B2; [apply andb_true_iff in B2 as [B2 B3]; apply Z.leb_le in B3; lia|]. reflexivity.
Qed.
Lemma loop_ends : forall sep from to k i acc S, (1 <= i)%Z -> Z.of_nat k = (Z.of_nat len + 1 - i)%Z ->
  (from <= Z.of_nat len)%Z -> (to <= Z.of_nat len)%Z -> ((0 < to)%Z -> (i <= to)%Z) -> good S ->
  exists N o S', made (fun S' => good S' /\ covered i (last_of to) S') o S' /\ forall n m j, N <= n -> N <= m -> N <= j -> join_loop (clause_n m (build n)) j e fc es sep from to i acc S = (o, S').
Proof.
  intros sep from to. induction k as [|k IH]; intros i acc S Hi Hk Hf Ht Hit HS.
  all: destruct (round es i Hi Hx Hall' S HS)
    as (N & o & S1 & [K [[[s ->] [R F]]|[[er [-> Ke]] (nm & p & f & c & Hin & Hf' & Hc & L)]]] & E).
  all: try (assert (Li : (Z.of_nat len < i)%Z) by (destruct (Hall nm p Hin) as (f' & c' & A & B & C); rewrite Hf' in A; injection A as <-; rewrite Hc in B; injection B as <-; lia);
    exists (Datatypes.S N), (ROk acc), S1; split;
    [split; [eauto|]; split; [exact K|]; assert (last_of to < i)%Z by (unfold last_of; destruct (0 <? to)%Z eqn:B; [|exact Li]; apply Z.ltb_lt in B; lia); split; intros; lia|];
    intros n m j Hn Hm Hj; destruct m as [|m]; [lia|]; destruct j as [|j]; [lia|]; cbn [join_loop]; rewrite clause_n_S, E by lia; rewrite Ke;
    rewrite (round_stops from to i) by (assumption || lia); reflexivity).
  - destruct Hone as (nm & p & f & H1 & H2 & H3). pose proof (R nm p f len H1 H2 H3). lia.
  - set (acc' := if is_empty s then acc else if is_empty acc then s else acc ++ sep ++ s). destruct F as [F1 F2].
    destruct ((0 <? to)%Z && (to <=? i)%Z) eqn:B.
    + exists (Datatypes.S N), (ROk acc'), S1. split.
      * split; [eauto|]. split; [exact K|]. apply andb_true_iff in B as [B1 B2]. apply Z.leb_le in B2. unfold last_of. rewrite B1. apply Z.ltb_lt in B1.
        split; [intros j Hj; replace j with i by lia; exact F1|intros _; exact F2].
      * intros n m j Hn Hm Hj. destruct m as [|m]; [lia|]. destruct j as [|j]; [lia|]. cbn [join_loop]. rewrite clause_n_S, E by lia. rewrite B. reflexivity.
    + destruct (IH (i + 1)%Z acc' S1) as (M & o & S2 & [P1 [P2 [P3 P4]]] & E2); [lia|lia|exact Hf|exact Ht| |exact K|].
      * intros Hto. apply andb_false_iff in B as [B|B]; [apply Z.ltb_ge in B; lia|apply Z.leb_gt in B; lia].
      * assert (Ks : kept S1 S2).
        { pose proof (kept_loop (clause_n M (build M)) (kept_clause_n (build M) M) M e fc es sep from to (i + 1)%Z acc' S1) as Q. rewrite E2 in Q by lia. exact Q. }
        exists (Datatypes.S (N + M)), o, S2. split.
        -- split; [exact P1|]. split; [exact P2|]. split.
           ++ intros j Hj nm p f Hin Hl. destruct (Z.eq_dec j i) as [->|Ne]; [apply (flagged_kept _ _ S1 S2 Ks), (F1 nm p f); assumption|apply (P3 j) with (nm := nm) (p := p); [lia|assumption..]].
           ++ intros _ x q j Hin Hz V. apply (flagged_kept _ _ S1 S2 Ks), (F2 x q j); assumption.
        -- intros n m j Hn Hm Hj. destruct m as [|m]; [lia|]. destruct j as [|j]; [lia|]. cbn [join_loop]. rewrite clause_n_S, E by lia. fold acc'. rewrite B. apply E2; lia.
Qed.
Lemma prep_ends : forall rb l st, incl l es -> exists k, join_prep rb e l st = (ROk k, st) /\ (k = 0 -> forall nm p, ~ In (EFunc nm p) l).
Proof.
  intros rb. induction l as [|x l IH]; intros st Hl; [exists 0; split; [reflexivity|intros _ nm p []]|].
  destruct (IH st (fun y Hy => Hl y (or_intror Hy))) as (k & E & K). destruct x as [t p|a j p|nm a p|nm p]; cbn [join_prep].
  4: { destruct (Hall nm p (Hl _ (or_introl eq_refl))) as (f & c & Hf & Hc & _). rewrite Hf. exists (Datatypes.S k). split; [|discriminate].
       destruct f; cbn in Hc; try discriminate; cbn; rewrite E; reflexivity. }
  all: exists k; split; [exact E|]; intros Hk nm' p' [D|D]; [discriminate|exact (K Hk nm' p' D)].
Qed.
Lemma join_ends : forall tmpl sep nums from to S, parse tmpl = POk es -> available nums len from to -> good S ->
  ends (fun n m => func_join (build n) (clause_n m (build n)) m e fc tmpl sep (map lit_int nums) S) (made (fun S' => good S' /\ covered from to S')).
Proof.
  intros tmpl sep nums from to S Hp (Hr & Hto & Hle) HS.
  assert (G : forall a b, (a <= Z.of_nat len)%Z -> (b <= Z.of_nat len)%Z -> ((0 < b)%Z -> (a <= b)%Z) -> Z.max 1 a = from -> last_of b = to ->
    ends (fun n m => if (0 <? b)%Z && (b <? a)%Z then (RErr (bad_range a b), S) else
    match parse tmpl with
    | PErr o m => (RErr (bad_template tmpl o m), S)
    | PPanic => (RPanic index_range, S)
    | PFuel => (RFuel, S)
    | POk es =>
      let '(r, st') := join_prep (build n) e es (fs_st S) in
      let S' := mkFS st' (fs_ua S) (fs_uf S) in
      match r with
      | ROk O => (RErr (no_function tmpl), S')
      | ROk _ => join_loop (clause_n m (build n)) m e fc es sep a b (if (a <=? 0)%Z then 1%Z else a) "" S'
      | RErr er => (RErr er, S')
      | RPanic er => (RPanic er, S')
      | RFuel => (RFuel, S')
      end
    end) (made (fun S' => good S' /\ covered from to S'))).
  { intros a b Ha Hb Hab Efrom Eto.
    assert (Ei : (if (a <=? 0)%Z then 1%Z else a) = from) by (destruct (a <=? 0)%Z eqn:A; [apply Z.leb_le in A|apply Z.leb_gt in A]; lia).
    destruct (loop_ends sep a b (Z.to_nat (Z.of_nat len + 1 - from)) from "" (mkFS (fs_st S) (fs_ua S) (fs_uf S))) as (N & o & S' & P & E);
      [lia|lia|exact Ha|exact Hb|lia|exact HS|]. rewrite Eto in P.
    exists N, o, S'. split; [exact P|]. intros n m Hn Hm.
    destruct ((0 <? b)%Z && (b <? a)%Z) eqn:B; [apply andb_true_iff in B as [B1 B2]; apply Z.ltb_lt in B1, B2; lia|].
    rewrite Hp. destruct (prep_ends (build n) es (fs_st S) (incl_refl es)) as (k & -> & K). cbn zeta.
    destruct k as [|k]; [destruct Hone as (nm & p & f & H1 & _); destruct (K eq_refl nm p H1)|]. rewrite Ei. apply E; assumption. }
  unfold func_join. destruct nums as [|x [|y [|z nums]]]; cbn [map range] in Hr |- *.
  - destruct Hr as [-> ->]. apply G; try lia; reflexivity.
  - destruct Hr as [-> ->]. apply G; try lia; try reflexivity. destruct Hle as [Hle|Hle]; [lia|]. pose proof (Hle x (or_introl eq_refl)). lia.
  - destruct Hr as [-> ->]. unfold last_of in G. destruct Hle as [Hle|Hle].
    + apply G; try reflexivity; (destruct (0 <? lit_int y)%Z eqn:B; [apply Z.ltb_lt in B|apply Z.ltb_ge in B]; lia).
    + pose proof (Hle x (or_introl eq_refl)). pose proof (Hle y (or_intror (or_introl eq_refl))). apply G; try lia; reflexivity.
  - destruct Hr.
Qed.
End Join.

(** A whole template: no function values outside of joins. *)
Lemma clause_ends : forall es, parts_end es -> (forall x, In x es -> called_with (strip x)) -> forall S, good S ->
  ends (fun n m => clause (build n) (clause_n m (build n)) m e fc es S)
    (made (fun S' => good S' /\ forall x k j, In x es -> vis e na nf k j (strip x) -> flagged k j S')).
Proof.
  intros es Hx Hc S HS.
  assert (Es : set_index 1 es = es).
  { clear Hx HS. induction es as [|x es IH]; [reflexivity|]. cbn [set_index map]. fold (set_index 1 es). rewrite IH by (intros y Hy; apply Hc; right; exact Hy).
    pose proof (Hc x (or_introl eq_refl)) as K. destruct x; cbn in K; try contradiction; reflexivity. }
  assert (Hn : forall nm p, ~ In (EFunc nm p) es) by (intros nm p Hin; exact (Hc _ Hin)).
  pose proof (round es 1 ltac:(lia) Hx (fun nm p Hin => match Hn nm p Hin with end) S HS) as R. rewrite Es in R.
  apply (ends_more _ _ _) with (2 := R). intros o S' [K [[K1 [_ [_ K2]]]|[_ (nm & p & f & c & Hin & _)]]]; [|destruct (Hn nm p Hin)].
  split; [exact K1|]. split; [exact K|]. intros x k j Hin V. apply (K2 x k j Hin (Hc x Hin) V).
Qed.
End Frame.

(* ------------------------------------------------------------------ *)
(** * Fragments *)

Lemma in_parsed : forall es x, In x es -> solid (strip x) -> In (strip x) (norm (map strip es)).
Proof. intros es x Hx Hs. apply (proj2 (norm_in _ _ Hs)). apply in_map. exact Hx. Qed.
Lemma func_parsed : forall es nm, In (AFunc nm) (norm (map strip es)) -> exists p, In (EFunc nm p) es.
Proof.
  intros es nm H. apply (proj1 (norm_in _ (AFunc nm) Logic.I)) in H. apply in_map_iff in H as (x & E & H). destruct x; try discriminate. injection E as <-. eauto.
Qed.
Lemma from_parsed : forall es x, In x (norm (map strip es)) -> solid x -> exists y, In y es /\ strip y = x.
Proof. intros es x H Hs. apply (proj1 (norm_in _ _ Hs)) in H. apply in_map_iff in H as (y & E & H). eauto. Qed.
Lemma plain_ends : forall d e args frags t p S, okf d (List.length args) (List.length frags) S ->
  ends (fun n m => eval_expr (build n) (clause_n m (build n)) m e (mkFrame args frags) (EPlain t p) S)
    (made (fun S' => okf d (List.length args) (List.length frags) S' /\ forall k j, vis e (List.length args) (List.length frags) k j (APlain t) -> flagged k j S')).
Proof. intros. apply ends_const. split; [eauto|]. split; [assumption|]. intros k j [_ V]. inversion V. Qed.
Lemma parts_parsed : forall d e args frags es,
  (forall v, In v args -> storable d v) -> (forall b, In b frags -> buildable d e b) ->
  (forall x, In x (norm (map strip es)) -> called_with x -> evaluable d e (List.length args) (List.length frags) x) ->
  parts_end d e args frags es.
Proof.
  intros d e args frags es Ha Hf Hx x Hin Hc S HS.
  destruct x as [t p|a j p|nm a p|nm p]; [apply plain_ends; exact HS|..|destruct Hc];
    (apply (Hx _ (in_parsed _ _ Hin Logic.I) Logic.I args frags eq_refl eq_refl Ha Hf _ S eq_refl HS)).
Qed.
Lemma all_used_flags : forall l, (forall i, i < List.length l -> nth_error l i = Some true) -> all_used l = true.
Proof.
  induction l as [|b l IH]; intros H; [reflexivity|]. cbn. pose proof (H 0 ltac:(cbn; lia)) as H0. injection H0 as ->. cbn.
  apply IH. intros i Hi. apply (H (S i)). cbn. lia.
Qed.
Lemma frag_ends : forall d e raw args frags p s l, parsed raw = Some l ->
  (forall v, In v args -> storable d v) -> (forall b, In b frags -> buildable d e b) ->
  (forall x, In x l -> called_with x /\ evaluable d e (List.length args) (List.length frags) x) ->
  (forall i, inside i (List.length args) -> exists x, In x l /\ visits e (List.length args) (List.length frags) FnArg i x) ->
  (forall i, inside i (List.length frags) -> exists x, In x l /\ visits e (List.length args) (List.length frags) FnFragment i x) ->
  buildable d e (BFrag (Frag raw args frags p s)).
Proof.
  intros d e raw args frags p s l Hp Ha Hf Hx Va Vf st Hst. apply parsed_ok in Hp as [es [Hp <-]].
  set (S0 := mkFS st (map (fun _ => false) args) (map (fun _ => false) frags)).
  assert (H0 : okf d (List.length args) (List.length frags) S0) by (split; [exact Hst|]; cbn; rewrite !map_length; auto).
  assert (Hes : forall x, In x es -> called_with (strip x)).
  { intros x Hin. destruct x as [t q|a j q|nm a q|nm q]; try exact Logic.I. apply (proj1 (Hx _ (in_parsed _ _ Hin Logic.I))). }
  destruct (clause_ends d e args frags Ha Hf es (parts_parsed d e args frags es Ha Hf (fun x Hin _ => proj2 (Hx x Hin))) Hes S0 H0)
    as (N & o & S' & [[b ->] [(K1 & K2 & K3) K4]] & E).
  assert (Ua : all_used (fs_ua S') = true).
  { apply all_used_flags. intros i Hi. destruct (Va (Z.of_nat i + 1)%Z) as (x & Hin & V); [split; lia|].
    assert (Sx : solid x) by (destruct x; [inversion V|exact Logic.I..]). destruct (from_parsed es x Hin Sx) as (y & Hy & <-).
    pose proof (K4 y FnArg _ Hy (conj (or_introl eq_refl) V)) as F. unfold flagged in F. replace (Z.to_nat (Z.of_nat i + 1 - 1)) with i in F by lia. exact F. }
  assert (Uf : all_used (fs_uf S') = true).
  { apply all_used_flags. intros i Hi. destruct (Vf (Z.of_nat i + 1)%Z) as (x & Hin & V); [split; lia|].
    assert (Sx : solid x) by (destruct x; [inversion V|exact Logic.I..]). destruct (from_parsed es x Hin Sx) as (y & Hy & <-).
    pose proof (K4 y FnFragment _ Hy (conj (or_intror eq_refl) V)) as F. unfold flagged in F. replace (Z.to_nat (Z.of_nat i + 1 - 1)) with i in F by lia. exact F. }
  set (o := if is_empty (trim_space b) then ROk "" else ROk ((if is_empty p then "" else p ++ " ") ++ trim_space b ++ (if is_empty s then "" else " " ++ s))).
  exists (S (S N)), o, (fs_st S'). split; [split; [unfold o; destruct (is_empty (trim_space b)); eauto|exact K1]|].
  intros n m Hn _. destruct n as [|[|n]]; [lia|lia|]. change (build (S (S n)) e (BFrag (Frag raw args frags p s)) st) with (build_frag (S n) (build (S n)) e (Frag raw args frags p s) st). unfold build_frag. cbn [f_raw f_args f_frags f_prefix f_suffix]. rewrite Hp. cbn zeta.
  rewrite clause_n_S. fold S0. rewrite (E (S n) n) by lia. rewrite Ua, Uf. cbn [andb]. unfold o. destruct (is_empty (trim_space b)); reflexivity.
Qed.

(* ------------------------------------------------------------------ *)
(** * Parts of templates *)

Lemma shortest_unique : forall e na nf l a b, shortest e na nf l a -> shortest e na nf l b -> a = b.
Proof.
  intros e na nf l a b [(n1 & f1 & A1 & A2 & A3) A] [(n2 & f2 & B1 & B2 & B3) B].
  destruct (A n2 B1) as (f & c & C1 & C2 & C3). rewrite B2 in C1. injection C1 as <-. rewrite B3 in C2. injection C2 as <-.
  destruct (B n1 A1) as (f & c & D1 & D2 & D3). rewrite A2 in D1. injection D1 as <-. rewrite A3 in D2. injection D2 as <-. lia.
Qed.
Lemma available_unique : forall nums len a b c d, available nums len a b -> available nums len c d -> a = c /\ b = d.
Proof.
  intros nums len a b c d [H _] [K _]. destruct nums as [|x [|y [|z nums]]]; cbn [map range] in *; try contradiction; destruct H as [-> ->], K as [-> ->]; auto.
Qed.
Lemma visits_call : forall e na nf k i nm a, visits e na nf k i (ACall nm a) ->
  (exists x, a = [x] /\ lookup_fn e nm = Some k /\ lit_int x = i) \/
  (exists tmpl sep nums l len from to, a = LStr tmpl :: LStr sep :: nums /\ lookup_fn e nm = Some FnJoin /\ parsed tmpl = Some l /\
    shortest e na nf l len /\ available nums len from to /\
    ((exists nm', In (AFunc nm') l /\ lookup_fn e nm' = Some k /\ (from <= i <= to)%Z) \/
     (exists x, (from <= to)%Z /\ In x l /\ called_with x /\ visits e na nf k i x))).
Proof.
  intros e na nf k i nm a V. inversion V; subst; [left; eauto|right..].
  - do 7 eexists. repeat (split; [eassumption || reflexivity|]). left. eauto.
  - do 7 eexists. repeat (split; [eassumption || reflexivity|]). right. eauto 6.
Qed.
Lemma fine_plain : forall d e na nf t, evaluable d e na nf (APlain t).
Proof.
  intros d e na nf t args frags <- <- Ha Hf x S E HS. destruct x; try discriminate. injection E as <-. apply plain_ends. exact HS.
Qed.
Lemma fine_bind : forall d e na nf st i, inside i na -> evaluable d e na nf (ABind st i).
Proof.
  intros d e na nf st i Hi args frags <- <- Ha Hf x S E HS. destruct x; try discriminate. injection E as <- <-. cbn [eval_expr fr_args].
  destruct (nth1_inside _ args _ Hi) as (v & -> & Hv).
  apply (ends_more _ _ _) with (2 := arg_ends d args frags Ha _ S HS Hi). intros o S' [K1 [K2 K3]]. split; [exact K1|]. split; [exact K2|].
  intros k j [_ V]. inversion V; subst. exact K3.
Qed.
Lemma fine_index : forall d e na nf nm f c x, lookup_fn e nm = Some f -> supply na nf f = Some c -> number x -> inside (lit_int x) c ->
  evaluable d e na nf (ACall nm [x]).
Proof.
  intros d e na nf nm f c x Hf Hc Hn Hi args frags <- <- Ha Hb y S E HS. destruct y; try discriminate. injection E as -> ->.
  assert (Ff : f = FnArg \/ f = FnFragment) by (destruct f; cbn in Hc; try discriminate; auto).
  apply (ends_ext (fun n m => safe nm (call_fn (build n) (clause_n m (build n)) m e (mkFrame args frags) f [x] S))).
  { intros n m. cbn [eval_expr]. unfold eval_function. rewrite Hf. apply call_index_goes; [exact Ff|exact Hn]. }
  apply (ends_more _ (made (fun S' => okf d (List.length args) (List.length frags) S' /\ flagged f (lit_int x) S'))).
  { intros o S' [K1 [K2 K3]]. split; [exact K1|]. split; [exact K2|]. intros k j [_ V]. apply visits_call in V as [(z & Ez & V1 & V2)|(tmpl & sep & nums & l & len & from & to & Ez & _)]; [|discriminate].
    injection Ez as <-. rewrite Hf in V1. injection V1 as <-. rewrite <- V2. exact K3. }
  apply (safe_ends nm (fun n m => call_fn (build n) (clause_n m (build n)) m e (mkFrame args frags) f [x] S)).
  destruct f; cbn in Hc; try discriminate; injection Hc as <-; cbn [call_fn].
  - apply arg_ends; assumption.
  - apply fragment_ends; assumption.
Qed.
Lemma fine_join : forall d e na nf nm tmpl sep nums l len from to, lookup_fn e nm = Some FnJoin -> (forall x, In x nums -> number x) ->
  parsed tmpl = Some l -> shortest e na nf l len -> available nums len from to ->
  (forall x, In x l -> called_with x -> evaluable d e na nf x) ->
  evaluable d e na nf (ACall nm (LStr tmpl :: LStr sep :: nums)).
Proof.
  intros d e na nf nm tmpl sep nums l len from to Hf Hn Hp Hs Hav Hx args frags <- <- Ha Hb y S E HS. destruct y; try discriminate. injection E as -> ->.
  pose proof Hp as Hp'. apply parsed_ok in Hp' as (es & Hes & El). subst l.
  apply (ends_ext (fun n m => safe nm (func_join (build n) (clause_n m (build n)) m e (mkFrame args frags) tmpl sep (map lit_int nums) S))).
  { intros n m. cbn [eval_expr]. unfold eval_function. rewrite Hf. apply call_join_goes. exact Hn. }
  apply (ends_more _ (made (fun S' => okf d (List.length args) (List.length frags) S' /\ covered e args frags es from to S'))).
  2: { apply (safe_ends nm (fun n m => func_join (build n) (clause_n m (build n)) m e (mkFrame args frags) tmpl sep (map lit_int nums) S)).
       apply (join_ends d e args frags Ha Hb es len); try assumption.
       - apply parts_parsed; assumption.
       - destruct Hs as [(nm' & f & H1 & H2 & H3) _]. apply func_parsed in H1 as [p' H1]. eauto 6.
       - intros nm' p' Hin. apply (proj2 Hs). apply (in_parsed es (EFunc nm' p') Hin Logic.I). }
  intros o S' [K1 [K2 [K3 K4]]]. split; [exact K1|]. split; [exact K2|]. intros k j [Hk V].
  apply visits_call in V as [(z & Ez & _)|(tmpl' & sep' & nums' & l & len' & from' & to' & Ez & _ & V1 & V2 & V3 & V4)]; [discriminate|].
  injection Ez as <- <- <-. rewrite Hp in V1. injection V1 as <-. assert (len' = len) as -> by (eapply shortest_unique; eassumption).
  destruct (available_unique _ _ _ _ _ _ V3 Hav) as [-> ->].
  destruct V4 as [(nm' & W1 & W2 & W3)|(x & W1 & W2 & W3 & W4)].
  - apply func_parsed in W1 as [p' W1]. apply (K3 j W3 nm' p' k); assumption.
  - assert (Sx : solid x) by (destruct x; [inversion W4|exact Logic.I..]). destruct (from_parsed es x W2 Sx) as (y & Hy & <-).
    apply (K4 W1 y k j Hy W3). split; assumption.
Qed.
Lemma fine_custom : forall d e na nf nm a sg body, lookup_fn e nm = Some (FnCustom sg body) -> proper (FnCustom sg body) ->
  takes (FnCustom sg body) (List.length a) -> all_fit (FnCustom sg body) a -> ~ some_defined (FnCustom sg body) (List.length a) ->
  runnable d e (body a) -> evaluable d e na nf (ACall nm a).
Proof.
  intros d e na nf nm a sg body Hf Hp Ht Hfit Hd Hr args frags <- <- Ha Hb y S E HS. destruct y; try discriminate. injection E as -> ->.
  apply (ends_ext (fun n m => safe nm (call_fn (build n) (clause_n m (build n)) m e (mkFrame args frags) (FnCustom sg body) a S))).
  { intros n m. cbn [eval_expr]. unfold eval_function. rewrite Hf. apply call_goes; assumption. }
  apply (safe_ends nm (fun n m => call_fn (build n) (clause_n m (build n)) m e (mkFrame args frags) (FnCustom sg body) a S)). cbn [call_fn].
  apply (ends_bind (fun n _ => run_prog (build n) e (body a) (fs_st S)) (fun _ _ r => let '(r, st') := r in (norm_outs (fs_outs sg) r, mkFS st' (fs_ua S) (fs_uf S))) (made (ok d))).
  { apply Hr. apply HS. }
  intros o st' [[t ->] K]. apply ends_const. split; [destruct (fs_outs sg) as [|? [|? ?]]; cbn; eauto|].
  destruct HS as (_ & H2 & H3). split; [split; [exact K|split; assumption]|]. intros k j [Hk V].
  apply visits_call in V as [(z & _ & V & _)|(tmpl' & sep' & nums' & l & len' & from' & to' & _ & V & _)]; [|congruence].
  destruct Hk as [-> | ->]; congruence.
Qed.

(* ------------------------------------------------------------------ *)
(** * User code *)

Lemma run_return : forall d e s, runnable d e (PRet s None).
Proof. intros d e s st H. apply ends_const. split; [eauto|exact H]. Qed.
Lemma run_commit : forall d e v k, storable d v -> (forall s, runnable d e (k s)) -> runnable d e (PCommit v k).
Proof.
  intros d e v k Hv Hk st H. destruct (ok_commit d v st H Hv) as (s & E & K). cbn [run_prog]. destruct (commit v st) as [o st']. cbn in E, K. subst o.
  apply Hk. exact K.
Qed.
Lemma run_args : forall d e k, (forall l, runnable d e (k l)) -> runnable d e (PArgs k).
Proof. intros d e k Hk st H. cbn [run_prog]. apply Hk. exact H. Qed.
Lemma registrable_ascii : forall nf, registrable nf -> ascii_only (fst nf) = true.
Proof.
  intros [nm f] (_ & H & _). cbn [fst] in *. clear f. induction nm as [|a nm IH]; [reflexivity|]. cbn [chars] in H. inversion H; subst. unfold ascii_only. cbn [all]. fold (ascii_only nm).
  rewrite (IH H3), andb_true_r. apply N.ltb_lt. destruct H2 as [K|[K| ->]]; [unfold code; lia..|reflexivity].
Qed.
Lemma run_build : forall d e fs b k, Forall registrable fs -> buildable d (match fs with [] => e | _ => fs :: e end) b ->
  (forall s, runnable d e (k (ROk s))) -> runnable d e (PBuild fs b k).
Proof.
  intros d e fs b k Hr Hb Hk st H. cbn [run_prog].
  rewrite (proj2 (check_registrable fs (Forall_impl _ registrable_ascii Hr)) Hr).
  apply (ends_bind (fun n _ => build n (match fs with [] => e | _ => fs :: e end) b st)
    (fun n _ r => let '(r, st') := r in match r with RFuel => (RFuel, st') | _ => run_prog (build n) e (k r) st' end) (made (ok d))).
  - apply Hb. exact H.
  - intros o st' [[s ->] K]. apply Hk. exact K.
Qed.
Lemma run_try : forall d e p k, runnable d e p -> (forall s, runnable d e (k (ROk s))) -> runnable d e (PTry p k).
Proof.
  intros d e p k Hp Hk st H. cbn [run_prog].
  apply (ends_bind (fun n _ => run_prog (build n) e p st)
    (fun n _ r => let '(r, st') := r in match r with RFuel => (RFuel, st') | _ => run_prog (build n) e (k r) st' end) (made (ok d))).
  - apply Hp. exact H.
  - intros o st' [[s ->] K]. apply Hk. exact K.
Qed.
Lemma run_fresh : forall d e z p k, runnable (Z.eqb z style_dollar) [builtins] p -> (forall r, runnable d e (k (ROk r))) -> runnable d e (PFresh z p k).
Proof.
  intros d e z p k Hp Hk st [H1 H2]. cbn [run_prog].
  apply (ends_bind (fun n _ => run_prog (build n) [builtins] p (new_store z (st_heap st)))
    (fun n _ r => let '(r, st') := r in let st'' := set_heap st (st_heap st') in
      match r with
      | RFuel => (RFuel, st'')
      | ROk s => run_prog (build n) e (k (ROk (s, st_args st'))) st''
      | RErr er => run_prog (build n) e (k (RErr er)) st''
      | RPanic er => run_prog (build n) e (k (RPanic er)) st''
      end) (made (ok (Z.eqb z style_dollar)))).
  - apply Hp. split; [reflexivity|exact H2].
  - intros o st' [[s ->] [_ K]]. apply Hk. split; [exact H1|exact K].
Qed.

(* ------------------------------------------------------------------ *)
(** * Query builders *)

Lemma ends_then : forall d (X : nat -> nat -> outcome string * store) (K : nat -> nat -> string -> store -> outcome string * store) ,
  ends X (made (ok d)) -> (forall s st, ok d st -> ends (fun n m => K n m s st) (made (ok d))) ->
  ends (fun n m => bind (X n m) (K n m)) (made (ok d)).
Proof.
  intros d X K HX HK. apply (ends_bind X (fun n m r => bind r (K n m)) (made (ok d)) _ HX). intros o st [[s ->] H]. apply HK. exact H.
Qed.
Lemma ok_grows : forall d st st', ok d st -> grows st st' -> st_dollar st' = st_dollar st -> ok d st'.
Proof. intros d st st' [H1 H2] G E. split; [congruence|]. intros id. eapply grown_trans; [apply H2|apply G]. Qed.
Definition goes (o : outcome deps) : Prop := match o with ROk _ | RFuel => True | _ => False end.
Lemma deps_table_goes : forall q m, connected q -> main_of q = Some m -> forall n t ds, In (ft_names m) ds -> needed q t ->
  match deps_table n q t ds with ROk ds' => incl ds ds' | RFuel => True | _ => False end.
Proof.
  intros q m (_ & _ & Hc & _) Hm. induction n as [|n IH]; intros t ds Hd Ht; [exact Logic.I|]. cbn [deps_table].
  destruct (Hc t Ht) as (ft & f & Hto & Ef & Hnil). pose proof Hto as Hto'. unfold table_of in Hto'. destruct (assoc t (q_tdict q)) as [id|]; [|discriminate].
  rewrite Hto'. destruct (dep_mem (ft_names ft) ds) eqn:Em; [apply incl_refl|]. apply dep_mem_not in Em. rewrite Ef.
  destruct (extract_frag f []) as [ts|] eqn:Ex; [|apply extract_frag_none in Ex; contradiction].
  assert (Hn : forall u, In u ts -> needed q u).
  { intros u Hu. eapply nd_join; [exact Ht|exact Hto| |exact Ef|apply (extract_frag_some f ts Ex u); exact Hu].
    rewrite Hm. cbn [option_map]. intro K. injection K as K. apply Em. rewrite <- K. exact Hd. }
  set (d1 := ft_names ft :: ds). assert (H1 : incl ds d1) by (intros x Hx; right; exact Hx). assert (H2 : In (ft_names m) d1) by (right; exact Hd).
  clearbody d1. clear Em Ex. revert d1 H1 H2. induction ts as [|u ts IHt]; intros d1 H1 H2; [exact H1|].
  destruct (String.eqb u t); [apply IHt; auto; intros v Hv; apply Hn; right; exact Hv|].
  pose proof (IH u d1 H2 (Hn u (or_introl eq_refl))) as K. destruct (deps_table n q u d1) as [d2|er|er|]; try exact K.
  apply IHt; [intros v Hv; apply Hn; right; exact Hv|intros x Hx; apply K, H1; exact Hx|apply K; exact H2].
Qed.
Lemma deps_tables_goes : forall q m, connected q -> main_of q = Some m -> forall n ts ds, In (ft_names m) ds -> (forall t, In t ts -> needed q t) ->
  goes (deps_tables n q ts ds).
Proof.
  intros q m Hc Hm n. induction ts as [|t ts IH]; intros ds Hd Hn; [exact Logic.I|]. cbn [deps_tables].
  pose proof (deps_table_goes q m Hc Hm n t ds Hd (Hn t (or_introl eq_refl))) as K. destruct (deps_table n q t ds) as [d'|er|er|]; try exact K.
  apply IH; [apply K; exact Hd|intros u Hu; apply Hn; right; exact Hu].
Qed.
Lemma deps_ctes_goes : forall n q ids ds, (forall id, In id ids -> nth_error (q_tobjs q) id <> None) -> goes (deps_ctes n q ids ds).
Proof.
  intros n q. induction ids as [|id ids IH]; intros ds Hi; [exact Logic.I|]. cbn [deps_ctes].
  assert (Hi' : forall id, In id ids -> nth_error (q_tobjs q) id <> None) by (intros j Hj; apply Hi; right; exact Hj).
  destruct (nth_error (q_tobjs q) id) as [ft|] eqn:E; [|destruct (Hi id (or_introl eq_refl) E)].
  destruct (_ && _); [apply IH; exact Hi'|]. destruct (assoc _ _) as [c|]; [|apply IH; exact Hi'].
  pose proof (deps_cte_blame n q c ds) as K. destruct (deps_cte n q c ds); try exact K; try (destruct K; fail). apply IH; exact Hi'.
Qed.
Lemma connected_collect : forall q, connected q -> exists ds, collect_deps q = ROk ds.
Proof.
  intros q Hc. pose proof (collect_no_fuel q) as Nf. assert (G : goes (collect_deps q)); [|destruct (collect_deps q); try contradiction; eauto].
  clear Nf. pose proof Hc as (H1 & H2 & _ & H4). unfold collect_deps. fold (clause_builders q). unfold extract_tables.
  pose proof (extract_list_spec (clause_builders q) []) as X. unfold extracts in X.
  destruct (extract_list (clause_builders q) []) as [ts|]; [|destruct X as (b & Hb & Hn); destruct (H2 b Hb Hn)].
  destruct (q_tables q) as [|id ids] eqn:Et; [congruence|].
  destruct (nth_error (q_tobjs q) id) as [ft|] eqn:Eo; [|destruct (H4 id (or_introl (or_introl eq_refl)) Eo)].
  assert (Hm : main_of q = Some ft) by (unfold main_of; rewrite Et; exact Eo).
  assert (Hn : forall t, In t ts -> needed q t).
  { intros t Ht. apply (proj1 X t) in Ht. destruct Ht as [[]|(b & Hb & Hm')]. eapply nd_clause; eassumption. }
  pose proof (deps_tables_goes q ft Hc Hm (deps_fuel q) ts [ft_names ft] (or_introl eq_refl) Hn) as K.
  destruct (deps_tables (deps_fuel q) q ts [ft_names ft]) as [d|er|er|]; try contradiction; [|exact Logic.I].
  apply deps_ctes_goes. intros i Hi. apply H4. left. exact Hi.
Qed.

Section Query.
Variables (d : bool) (e : env).
Lemma ctes_end : forall ds cs st, (forall c, In c cs -> buildable d e (c_builder c)) -> ok d st ->
  ends (fun n _ => build_ctes_loop (build n e) cs ds st) (made (ok d)).
Proof.
  intros ds. induction cs as [|c cs IH]; intros st Hc Hst; cbn [build_ctes_loop]; [apply ends_const; split; [eauto|exact Hst]|].
  assert (Hc' : forall c, In c cs -> buildable d e (c_builder c)) by (intros x Hx; apply Hc; right; exact Hx).
  destruct (dep_mem _ ds); [|apply IH; assumption].
  apply (ends_bind (fun n _ => build n e (c_builder c) st) (fun n _ r => match r with
      | (ROk s, st') => match build_ctes_loop (build n e) cs ds st' with (ROk l, st2) => (ROk (if is_empty s then l else (c_name c ++ " AS (" ++ s ++ ")") :: l), st2) | (RErr x, y) => (RErr x, y) | (RPanic x, y) => (RPanic x, y) | (RFuel, y) => (RFuel, y) end
      | (RErr e, st') => (RErr (in_cte c e), st') | (RPanic e, st') => (RPanic e, st') | (RFuel, st') => (RFuel, st') end) (made (ok d))).
  { apply (Hc c (or_introl eq_refl)). exact Hst. }
  intros o st' [[s ->] K].
  apply (ends_bind (fun n _ => build_ctes_loop (build n e) cs ds st') (fun n _ r => match r with (ROk l, st2) => (ROk (if is_empty s then l else (c_name c ++ " AS (" ++ s ++ ")") :: l), st2) | (RErr x, y) => (RErr x, y) | (RPanic x, y) => (RPanic x, y) | (RFuel, y) => (RFuel, y) end) (made (ok d))).
  { apply IH; assumption. }
  intros o2 st2 [[l ->] K2]. apply ends_const. split; [eauto|exact K2].
Qed.
Lemma from_ends : forall di ds fts st, (forall ft, In ft fts -> buildable d e (table_builder ft)) -> ok d st ->
  ends (fun n _ => build_from_loop (build n e) di fts ds st) (made (ok d)).
Proof.
  intros di ds. induction fts as [|ft fts IH]; intros st Hc Hst; cbn [build_from_loop]; [apply ends_const; split; [eauto|exact Hst]|].
  assert (Hc' : forall c, In c fts -> buildable d e (table_builder c)) by (intros x Hx; apply Hc; right; exact Hx).
  destruct (_ && _); [apply IH; assumption|].
  apply (ends_bind (fun n _ => build_ofrag (build n e) (ft_frag ft) st) (fun n _ r => match r with
      | (ROk s, st') => match build_from_loop (build n e) di fts ds st' with (ROk l, st2) => (ROk (s :: l), st2) | (RErr x, y) => (RErr x, y) | (RPanic x, y) => (RPanic x, y) | (RFuel, y) => (RFuel, y) end
      | (RErr e, st') => (RErr (in_from ft e), st') | (RPanic e, st') => (RPanic e, st') | (RFuel, st') => (RFuel, st') end) (made (ok d))).
  { apply (ends_ext (fun n _ => build n e (table_builder ft) st)); [intros n m; unfold build_ofrag, table_builder; destruct (ft_frag ft); reflexivity|].
    apply (Hc ft (or_introl eq_refl)). exact Hst. }
  intros o st' [[s ->] K].
  apply (ends_bind (fun n _ => build_from_loop (build n e) di fts ds st') (fun n _ r => match r with (ROk l, st2) => (ROk (s :: l), st2) | (RErr x, y) => (RErr x, y) | (RPanic x, y) => (RPanic x, y) | (RFuel, y) => (RFuel, y) end) (made (ok d))).
  { apply IH; assumption. }
  intros o2 st2 [[l ->] K2]. apply ends_const. split; [eauto|exact K2].
Qed.
Lemma union_ends : forall bs st, (forall b, In b bs -> buildable d e b) -> ok d st ->
  ends (fun n _ => build_union_loop (build n e) bs st) (made (ok d)).
Proof.
  induction bs as [|b bs IH]; intros st Hc Hst; cbn [build_union_loop]; [apply ends_const; split; [eauto|exact Hst]|].
  assert (Hc' : forall c, In c bs -> buildable d e c) by (intros x Hx; apply Hc; right; exact Hx).
  apply (ends_bind (fun n _ => build n e b st) (fun n _ r => match r with
      | (ROk s, st') => match build_union_loop (build n e) bs st' with (ROk l, st2) => (ROk (if is_empty s then l else s :: l), st2) | (RErr x, y) => (RErr x, y) | (RPanic x, y) => (RPanic x, y) | (RFuel, y) => (RFuel, y) end
      | (RErr e, st') => (RErr e, st') | (RPanic e, st') => (RPanic e, st') | (RFuel, st') => (RFuel, st') end) (made (ok d))).
  { apply (Hc b (or_introl eq_refl)). exact Hst. }
  intros o st' [[s ->] K].
  apply (ends_bind (fun n _ => build_union_loop (build n e) bs st') (fun n _ r => match r with (ROk l, st2) => (ROk (if is_empty s then l else s :: l), st2) | (RErr x, y) => (RErr x, y) | (RPanic x, y) => (RPanic x, y) | (RFuel, y) => (RFuel, y) end) (made (ok d))).
  { apply IH; assumption. }
  intros o2 st2 [[l ->] K2]. apply ends_const. split; [eauto|exact K2].
Qed.
Definition ready (q : qb) : Prop :=
  q_errors q = [] /\ q_debug q = false /\ connected q /\
  (forall c, In c (q_ctes q) -> buildable d e (c_builder c)) /\
  (forall ft, In ft (listed q) -> buildable d e (table_builder ft)) /\
  buildable d e (BFrag (q_conds q)) /\ buildable d e (BFrag (q_groups q)) /\ buildable d e (BFrag (order_clause q)) /\
  buildable d e (BFrag (select_clause q)) /\ buildable d e (BFrag (q_touches q)) /\
  (forall n st st', during h d st -> build n e (BFrag (select_clause q)) st <> (ROk "", st')) /\
  (forall b, In b (q_unions q) -> buildable d e b).
Lemma query_ends : forall id, (forall q, grown (nth id h new_qb) q -> ready q) -> buildable d e (BQuery (Some id)).
Proof.
  intros id Hq st Hst.
  assert (R : forall st, ok d st -> ready (get_q st id)) by (intros s [_ H]; apply Hq, H).
  apply (ends_ext (fun n _ => match n with O => (RFuel, st) | S n' => build_internal (build n' e) id st end)); [intros [|n] m; reflexivity|].
  cut (ends (fun n _ => build_internal (build n e) id st) (made (ok d))).
  { intros (N & o & s & P & E). exists (S N), o, s. split; [exact P|]. intros [|n] m Hn Hm; [lia|]. apply (E n n); lia. }
  destruct (R st Hst) as (He & _ & Hco & Hct & _).
  unfold build_internal. cbn zeta. rewrite He. destruct (connected_collect _ Hco) as [ds ->].
  apply ends_then.
  { unfold build_ctes. apply (ends_bind (fun n _ => build_ctes_loop (build n e) (q_ctes (get_q st id)) ds st) (fun _ _ r => match r with
      | (ROk [], st') => (ROk "", st') | (ROk l, st') => (ROk ("With " ++ str_join ", " l), st')
      | (RErr e, st') => (RErr e, st') | (RPanic e, st') => (RPanic e, st') | (RFuel, st') => (RFuel, st') end) (made (ok d))).
    - apply ctes_end; assumption.
    - intros o st' [[l ->] K]. destruct l; apply ends_const; (split; [eauto|exact K]). }
  clear He Hco Hct. clear dependent st. intros sq st Hst. apply ends_then.
  { unfold build_from. apply (ends_bind (fun n _ => build_from_loop (build n e) (q_distinct (get_q st id)) (from_tables (get_q st id)) ds st) (fun _ _ r => match r with
      | (ROk l, st') => (ROk ("FROM " ++ str_join " " l), st')
      | (RErr e, st') => (RErr e, st') | (RPanic e, st') => (RPanic e, st') | (RFuel, st') => (RFuel, st') end) (made (ok d))).
    - apply from_ends; [|exact Hst]. destruct (R st Hst) as (_ & _ & _ & _ & B & _). exact B.
    - intros o st' [[l ->] K]. apply ends_const; (split; [eauto|exact K]). }
  clear dependent st. intros fr st Hst. apply ends_then; [destruct (R st Hst) as (_ & _ & _ & _ & _ & B & _); exact (B st Hst)|].
  clear dependent st. intros wh st Hst. apply ends_then; [destruct (R st Hst) as (_ & _ & _ & _ & _ & _ & B & _); exact (B st Hst)|].
  clear dependent st. intros gr st Hst. apply ends_then.
  { unfold build_orders. rewrite orders_spec. destruct (R st Hst) as (_ & _ & _ & _ & _ & _ & _ & B & _). apply B. apply (ok_grows d st); [exact Hst| |reflexivity]. apply grows_set, gr_orders, gr_same. }
  clear dependent st. intros ord st Hst.
  apply ends_then.
  { unfold build_selects. set (q := get_q st id). cbn zeta.
    apply (ends_bind (fun n _ => build n e (BFrag (select_clause q)) (set_q st id (with_select q)))
      (fun n _ r => match r with
        | (ROk s, st') => match build n e (BFrag (q_touches (get_q st' id))) st' with
          | (ROk t, st2) => if is_empty s then (RErr (EMsg "no columns selected"), st2) else if is_empty t then (ROk s, st2) else (ROk (s ++ ", " ++ t), st2)
          | (RErr x, y) => (RErr x, y) | (RPanic x, y) => (RPanic x, y) | (RFuel, y) => (RFuel, y) end
        | (RErr x, y) => (RErr x, y) | (RPanic x, y) => (RPanic x, y) | (RFuel, y) => (RFuel, y) end) (fun o s => made (ok d) o s /\ o <> ROk "")).
    - destruct (R st Hst) as (_ & _ & _ & _ & _ & _ & _ & _ & Hs & _ & Hne & _).
      assert (Hok : ok d (set_q st id (with_select q))) by (apply (ok_grows d st); [exact Hst| |reflexivity]; apply grows_set, gr_select, gr_same).
      destruct (Hs _ Hok) as (N & o & s & P & E). exists N, o, s. split; [|exact E]. split; [exact P|]. intros ->. specialize (E N N (le_n N) (le_n N)).
      exact (Hne _ _ _ Hok E).
    - intros o st' [[[s ->] K] Ne].
      apply (ends_bind (fun n _ => build n e (BFrag (q_touches (get_q st' id))) st')
        (fun n _ r => match r with
          | (ROk t, st2) => if is_empty s then (RErr (EMsg "no columns selected"), st2) else if is_empty t then (ROk s, st2) else (ROk (s ++ ", " ++ t), st2)
          | (RErr x, y) => (RErr x, y) | (RPanic x, y) => (RPanic x, y) | (RFuel, y) => (RFuel, y) end) (made (ok d))).
      + destruct (R st' K) as (_ & _ & _ & _ & _ & _ & _ & _ & _ & B & _). exact (B st' K).
      + intros o2 st2 [[t ->] K2]. destruct s as [|c s]; [congruence|]. cbn [is_empty]. destruct (is_empty t); apply ends_const; (split; [eauto|exact K2]). }
  intros sel st2 Hst2. apply ends_then.
  { destruct (q_unions (get_q st2 id)) as [|u us] eqn:Eu; [apply ends_const; split; [eauto|exact Hst2]|].
    apply ends_then; [|intros s st' Hs; apply ends_const; split; [eauto|exact Hs]].
    unfold build_union. apply (ends_bind (fun n _ => build_union_loop (build n e) (u :: us) st2) (fun _ _ r => match r with
      | (ROk l, st') => (ROk ("UNION (" ++ str_join ") UNION (" l ++ ")"), st')
      | (RErr e, st') => (RErr e, st') | (RPanic e, st') => (RPanic e, st') | (RFuel, st') => (RFuel, st') end) (made (ok d))).
    - apply union_ends; [|exact Hst2]. intros b Hb. rewrite <- Eu in Hb. destruct (R st2 Hst2) as (_ & _ & _ & _ & _ & _ & _ & _ & _ & _ & _ & B). exact (B b Hb).
    - intros o st' [[l ->] K]. apply ends_const; (split; [eauto|exact K]). }
  intros qu st3 Hst3. destruct (R st3 Hst3) as (_ & -> & _). apply ends_const. split; [eauto|exact Hst3].
Qed.
End Query.
End Ok.

(* ------------------------------------------------------------------ *)
(** * All together *)

Scheme sound_mut := Minimality for sound Sort Prop
  with fine_mut := Minimality for fine Sort Prop
  with sure_mut := Minimality for sure Sort Prop
  with whole_mut := Minimality for whole Sort Prop.
Lemma ends_S : forall A S (X : nat -> nat -> outcome A * S) P (r : outcome A * S), ends X P -> ends (fun n m => match n with O => r | Datatypes.S n' => X n' n' end) P.
Proof.
  intros A S X P r (N & o & s & H & E). exists (Datatypes.S N), o, s. split; [exact H|]. intros [|n] m Hn Hm; [lia|]. apply E; lia.
Qed.
Lemma stop_const : forall h d e b s, (forall n st, build (S n) e b st = (ROk s, st)) -> buildable h d e b.
Proof. intros h d e b s H st Hst. exists 1, (ROk s), st. split; [split; [eauto|exact Hst]|]. intros [|n] m Hn _; [lia|]. apply H. Qed.
Definition fits (d : bool) (e : env) (na nf : nat) (x : aexpr) (h : list qb) : Prop := called_with x /\ evaluable h d e na nf x.
Theorem sound_buildable : forall h d e b, sound h d e b -> buildable h d e b.
Proof.
  intros h.
  apply (sound_mut h (fun d e b => buildable h d e b) (fun d e na nf x => called_with x /\ evaluable h d e na nf x)
    (fun d e p => runnable h d e p) (fun d e q => ready h d e q)).
  - intros. eapply stop_const; reflexivity.
  - intros d e raw args frags p s l Hp Ha _ Hf _ Hx Va Vf. eapply frag_ends; eassumption.
  - intros. eapply stop_const; reflexivity.
  - intros d e f t _ H st Hst. destruct (H st Hst) as (N & o & s & P & E). exists (S N), o, s. split; [exact P|].
    intros [|n] m Hn Hm; [lia|]. rewrite <- (E (S n) m) by lia. reflexivity.
  - intros. eapply stop_const; reflexivity.
  - intros. eapply stop_const; reflexivity.
  - intros. eapply stop_const; reflexivity.
  - intros d e id _ H. apply query_ends. exact H.
  - intros d e p _ H st Hst. apply (ends_ext (fun n m => match n with O => (RFuel, st) | S n' => run_prog (build n') e p st end)); [intros [|n] m; reflexivity|].
    apply (ends_S _ _ (fun n _ => run_prog (build n) e p st)). apply H. exact Hst.
  - intros. split; [exact Logic.I|]. apply fine_plain.
  - intros. split; [exact Logic.I|]. apply fine_bind. assumption.
  - intros d e na nf nm x H1 H2 H3. split; [exact Logic.I|]. apply (fine_index h d e na nf nm FnArg na); try assumption; reflexivity.
  - intros d e na nf nm x H1 H2 H3. split; [exact Logic.I|]. apply (fine_index h d e na nf nm FnFragment nf); try assumption; reflexivity.
  - intros d e na nf nm tmpl sep nums l len from to H1 H2 H3 H4 H5 _ H6. split; [exact Logic.I|].
    apply (fine_join h d e na nf nm tmpl sep nums l len from to); try assumption. intros x Hx Hc. apply (H6 x Hx Hc).
  - intros. split; [exact Logic.I|]. eapply fine_custom; eassumption.
  - intros. apply run_return.
  - intros. apply run_commit; assumption.
  - intros. apply run_args; assumption.
  - intros. apply run_build; assumption.
  - intros. apply run_try; assumption.
  - intros. apply run_fresh; assumption.
  - intros. repeat (apply conj; [assumption|]). assumption.
Qed.
