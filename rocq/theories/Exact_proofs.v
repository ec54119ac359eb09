(** Proofs that what builds has no defect. *)
From Coq Require Import Strings.String Strings.Ascii NArith ZArith List Bool Lia.
From Verif Require Grammar_proofs.
From Verif Require Import GoStr GoNum Syntax Value Util Model Sqlf Sqlb Spec_syntax Spec_base Spec_eval Spec_query Spec_blame
  Lex_proofs Eval_proofs Use_proofs Fuel_proofs Base_proofs Sim_proofs Blame_proofs Term_proofs Spec_sound Sound_proofs Sound2_proofs Spec_exact.
Import ListNotations.
Open Scope string_scope.

(** Not an invalid index. *)
Definition tame {A} (o : outcome A) : Prop := match o with RErr er | RPanic er => is_invalid_index er = false | _ => True end.
Lemma tame_safe : forall (nm : string) (r : outcome string * fstate), tame (fst r) -> tame (fst (safe nm r)).
Proof. intros nm [[s|er|er|] S] H; exact H. Qed.
Lemma safe_snd : forall nm (r : outcome string * fstate), snd (safe nm r) = snd r.
Proof. intros nm [[s|er|er|] S]; reflexivity. Qed.

Lemma commit_or : forall d v st, st_dollar st = d ->
  (exists s, fst (commit v st) = ROk s /\ storable d v) \/ (exists er, fst (commit v st) = RPanic er /\ is_invalid_index er = false).
Proof.
  intros d v st H. unfold commit. rewrite H. destruct d.
  - destruct (hashable v) eqn:Hh; [|right; eexists; split; reflexivity]. left.
    assert (Sv : storable true v) by (intros _ U; apply hashable_iff in U; congruence).
    destruct (dict_find v (st_dict st)); eexists; split; try reflexivity; exact Sv.
  - left. eexists. split; [reflexivity|]. intros K. discriminate K.
Qed.

Section Exact.
Variables (h : list qb) (d : bool) (e : env).
Hypothesis Hlib : library e.

Section Frame.
Variables (args : list value) (frags : list builder) (rb : env -> builder -> store -> outcome string * store).
Hypothesis HB : forall b st, In b frags -> st_dollar st = d ->
  tame (fst (rb e b st)) /\ st_dollar (snd (rb e b st)) = d /\ forall s, fst (rb e b st) = ROk s -> sound h d e b.
Let fc := mkFrame args frags.
Let na := List.length args.
Let nf := List.length frags.
Definition styled (S : fstate) : Prop := st_dollar (fs_st S) = d.

(** There is nothing wrong with the item. *)
Definition item_ok (k : func) (i : Z) : Prop :=
  match k with
  | FnArg => exists v, nth1 args i = Some v /\ storable d v
  | FnFragment => exists b, nth1 frags i = Some b /\ sound h d e b
  | _ => False
  end.
(** The flags set between [S] and [S'] are those of items in [V]. *)
Definition just (V : func -> Z -> Prop) (S S' : fstate) : Prop :=
  forall k i, (k = FnArg \/ k = FnFragment) -> (1 <= i)%Z -> flagged k i S' -> flagged k i S \/ (V k i /\ item_ok k i).
Lemma just_refl : forall V S, just V S S.
Proof. intros V S k i _ _ H. left. exact H. Qed.
Lemma just_more : forall (V W : func -> Z -> Prop) S S', (forall k i, V k i -> W k i) -> just V S S' -> just W S S'.
Proof. intros V W S S' H K k i Hk Hi F. destruct (K k i Hk Hi F) as [G|[G1 G2]]; auto. Qed.
Lemma just_trans : forall V S S1 S2, just V S S1 -> just V S1 S2 -> just V S S2.
Proof. intros V S S1 S2 H K k i Hk Hi F. destruct (K k i Hk Hi F) as [G|G]; [apply H; assumption|right; exact G]. Qed.

Lemma mark_only : forall l i j, nth_error (mark i l) j = Some true -> j = i \/ nth_error l j = Some true.
Proof. intros l i j H. rewrite mark_iff in H. destruct (Nat.eqb j i) eqn:E; [left; apply Nat.eqb_eq; exact E|right; exact H]. Qed.

Lemma arg_exact : forall i S, styled S -> let r := func_arg fc i S in
  styled (snd r) /\
  match fst r with
  | ROk _ => inside i na /\ just (fun k j => k = FnArg /\ j = i) S (snd r)
  | RErr er => ~ inside i na /\ snd r = S
  | RPanic er => is_invalid_index er = false
  | RFuel => True
  end.
Proof.
  intros i S HS r. unfold r, func_arg. cbn [fr_args fc]. destruct (nth1 args i) as [v|] eqn:E.
  - pose proof (commit_dollar v (fs_st S)) as D. pose proof (nth1_Some _ _ _ _ E) as [E1 E2].
    assert (Hin : inside i na) by (unfold inside, na; pose proof (proj1 (nth_error_Some args (Z.to_nat (i - 1))) ltac:(congruence)); lia).
    unfold styled in *. destruct (commit v (fs_st S)) as [o st'] eqn:C. cbn [fst snd fs_st] in *. split; [congruence|].
    destruct (commit_or d v (fs_st S) HS) as [(s & Es & Sv)|(er & Er & N)]; rewrite C in *; cbn [fst] in *.
    + subst o. split; [exact Hin|]. intros k j Hk Hj F. unfold flagged in *. destruct Hk as [-> | ->]; cbn [fs_ua fs_uf] in F; [|left; exact F].
      apply mark_only in F as [F|F]; [|left; exact F]. right. assert (j = i) as -> by lia. split; [auto|]. exists v. split; [exact E|]. exact Sv.
    + subst o. exact N.
  - cbn [fst snd]. split; [exact HS|]. split; [|reflexivity]. intros Hi. destruct (nth1_inside _ args i Hi) as (v & K & _). congruence.
Qed.
Lemma fragment_exact : forall i S, styled S -> let r := func_fragment rb e fc i S in
  styled (snd r) /\
  match fst r with
  | ROk _ => inside i nf /\ just (fun k j => k = FnFragment /\ j = i) S (snd r)
  | RErr er => is_invalid_index er = true -> ~ inside i nf /\ snd r = S
  | RPanic er => is_invalid_index er = false
  | RFuel => True
  end.
Proof.
  intros i S HS r. unfold r, func_fragment. cbn [fr_frags fc]. destruct (nth1 frags i) as [b|] eqn:E.
  - pose proof (nth1_Some _ _ _ _ E) as [E1 E2].
    assert (Hin : inside i nf) by (unfold inside, nf; pose proof (proj1 (nth_error_Some frags (Z.to_nat (i - 1))) ltac:(congruence)); lia).
    destruct (HB b (fs_st S) (nth_error_In _ _ E2) HS) as (B1 & B2 & B3). destruct (rb e b (fs_st S)) as [o st']. cbn [fst snd] in *.
    split; [exact B2|]. destruct o as [s|er|er|]; cbn [tame] in B1.
    + split; [exact Hin|]. intros k j Hk Hj F. unfold flagged in *. destruct Hk as [-> | ->]; cbn [fs_ua fs_uf] in F; [left; exact F|].
      apply mark_only in F as [F|F]; [|left; exact F]. right. assert (j = i) as -> by lia. split; [auto|]. exists b. split; [exact E|]. apply (B3 s). reflexivity.
    + intros K. congruence.
    + exact B1.
    + exact Logic.I.
  - cbn [fst snd]. split; [exact HS|]. intros _. split; [|reflexivity]. intros Hi. destruct (nth1_inside _ frags i Hi) as (v & K & _). congruence.
Qed.

(** What is shown of a part. *)
Definition exact_part (x : aexpr) (S : fstate) (r : outcome string * fstate) : Prop :=
  styled (snd r) /\ tame (fst r) /\ forall s, fst r = ROk s -> fine h d e na nf x /\ just (fun k i => visits e na nf k i x) S (snd r).
Lemma part_fails : forall x S er, styled S -> is_invalid_index er = false -> exact_part x S (RErr er, S).
Proof. intros x S er HS He. split; [exact HS|]. split; [exact He|]. discriminate. Qed.
Lemma part_panics : forall x S er, styled S -> is_invalid_index er = false -> exact_part x S (RPanic er, S).
Proof. intros x S er HS He. split; [exact HS|]. split; [exact He|]. discriminate. Qed.

(** ** Joins *)
Section Join.
Variable es : list expr.
Variable rc : env -> frame -> list expr -> fstate -> outcome string * fstate.
(** The items of a round. *)
Definition round_items (i : Z) (l : list expr) (k : func) (j : Z) : Prop :=
  (exists x, In x l /\ called_with (strip x) /\ visits e na nf k j (strip x)) \/
  (exists nm p c, In (EFunc nm p) l /\ lookup_fn e nm = Some k /\ supply na nf k = Some c /\ j = i /\ (i <= Z.of_nat c)%Z).
Definition round_done (i : Z) (l : list expr) (S : fstate) (r : outcome string * fstate) : Prop :=
  styled (snd r) /\
  match fst r with
  | ROk _ => (forall nm p f c, In (EFunc nm p) l -> lookup_fn e nm = Some f -> supply na nf f = Some c -> (i <= Z.of_nat c)%Z) /\
      (forall x, In x l -> called_with (strip x) -> fine h d e na nf (strip x)) /\ just (round_items i l) S (snd r)
  | RErr er => is_invalid_index er = true ->
      (exists nm p f c, In (EFunc nm p) l /\ lookup_fn e nm = Some f /\ supply na nf f = Some c /\ (Z.of_nat c < i)%Z) /\ just (round_items i l) S (snd r)
  | RPanic er => is_invalid_index er = false
  | RFuel => True
  end.
Lemma round_items_more : forall i x l k j, round_items i l k j -> round_items i (x :: l) k j.
Proof.
  intros i x l k j [(y & H1 & H2)|(nm & p & c & H1 & H2)]; [left; exists y; split; [right; exact H1|exact H2]|right; exists nm, p, c; split; [right; exact H1|exact H2]].
Qed.
Lemma item_call : forall nm f c i p rb' rc' jf S, rb' = rb -> (1 <= i)%Z -> styled S -> lookup_fn e nm = Some f -> supply na nf f = Some c ->
  round_done i [EFunc nm p] S (eval_expr rb' rc' jf e fc (ECall nm [LInt i] p) S).
Proof.
  intros nm f c i p rb' rc' jf S -> Hi HS Hf Hc.
  assert (Ff : f = FnArg \/ f = FnFragment) by (destruct f; cbn in Hc; try discriminate; auto).
  cbn [eval_expr]. unfold eval_function. rewrite Hf, call_index_goes; [|exact Ff|exact Logic.I].
  assert (G : forall r, styled (snd r) -> match fst r with
      | ROk _ => inside i c /\ just (fun k j => k = f /\ j = i) S (snd r)
      | RErr er => is_invalid_index er = true -> ~ inside i c /\ snd r = S
      | RPanic er => is_invalid_index er = false
      | RFuel => True end -> round_done i [EFunc nm p] S (safe nm r)).
  { intros r H1 H2. unfold round_done. rewrite safe_snd. split; [exact H1|]. destruct r as [[s|er|er|] S']; cbn [fst snd safe is_invalid_index] in *.
    - destruct H2 as [[I1 I2] H2]. split; [|split].
      + intros nm' p' f' c' [E|[]] Hf' Hc'. injection E as <- <-. rewrite Hf in Hf'. injection Hf' as <-. rewrite Hc in Hc'. injection Hc' as <-. exact I2.
      + intros x [<-|[]] K. destruct K.
      + eapply just_more; [|exact H2]. intros k j [-> ->]. right. exists nm, p, c. split; [left; reflexivity|]. auto.
    - intros K. destruct (H2 K) as [K1 ->]. split; [|apply just_refl]. exists nm, p, f, c. split; [left; reflexivity|]. split; [exact Hf|]. split; [exact Hc|]. unfold inside in K1. lia.
    - intros K. congruence.
    - exact Logic.I. }
  destruct Ff as [-> | ->]; cbn in Hc; injection Hc as <-; cbn [call_fn lit_int].
  - destruct (arg_exact i S HS) as [A1 A2]. apply G; [exact A1|]. destruct (fst (func_arg fc i S)); auto.
  - destruct (fragment_exact i S HS) as [A1 A2]. apply G; [exact A1|]. exact A2.
Qed.
Lemma round_exact : forall rc' jf l i, (1 <= i)%Z ->
  (forall x, In x l -> called_with (strip x) -> forall S, styled S -> exact_part (strip x) S (eval_expr rb rc' jf e fc x S)) ->
  (forall nm p, In (EFunc nm p) l -> exists f c, lookup_fn e nm = Some f /\ supply na nf f = Some c) ->
  forall S, styled S -> round_done i l S (clause rb rc' jf e fc (set_index i l) S).
Proof.
  intros rc' jf. induction l as [|x l IH]; intros i Hi Hx Hn S HS.
  - split; [exact HS|]. cbn. split; [intros nm p f c []|]. split; [intros x []|apply just_refl].
  - assert (IH' : forall S, styled S -> round_done i l S (clause rb rc' jf e fc (set_index i l) S)).
    { apply IH; [exact Hi| |]; [intros y Hy; apply Hx; right; exact Hy|intros nm p Hin; apply (Hn nm p); right; exact Hin]. }
    clear IH. set (y := match x with EFunc nm p => ECall nm [LInt i] p | _ => x end).
    change (set_index i (x :: l)) with (y :: set_index i l). rewrite clause_cons.
    assert (A : round_done i [x] S (eval_expr rb rc' jf e fc y S)).
    { assert (G : called_with (strip x) -> exact_part (strip x) S (eval_expr rb rc' jf e fc x S) -> round_done i [x] S (eval_expr rb rc' jf e fc x S)).
      { intros Hc (P1 & P2 & P3). split; [exact P1|]. destruct (eval_expr rb rc' jf e fc x S) as [[s|er|er|] S1]; cbn [fst snd tame] in *.
        - destruct (P3 s eq_refl) as [P4 P5]. split; [|split].
          + intros nm p f c [E|[]]. subst x. destruct Hc.
          + intros z [<-|[]] _. exact P4.
          + eapply just_more; [|exact P5]. intros k j V. left. exists x. split; [left; reflexivity|]. auto.
        - intros K. congruence.
        - exact P2.
        - exact Logic.I. }
      destruct x as [t p|a j p|nm a p|nm p]; try (apply G; [exact Logic.I|apply Hx; [left; reflexivity|exact Logic.I|exact HS]]).
      destruct (Hn nm p (or_introl eq_refl)) as (f & c & Hf & Hc). apply (item_call nm f c); auto. }
    destruct A as [A1 A2]. destruct (eval_expr rb rc' jf e fc y S) as [[s|er|er|] S1]; cbn [fst snd andthen] in *.
    + destruct A2 as (A2 & A3 & A4). destruct (IH' S1 A1) as [B1 B2]. destruct (clause rb rc' jf e fc (set_index i l) S1) as [[t|er|er|] S2]; cbn [fst snd] in *; (split; [exact B1|]); cbn [fst snd].
      * destruct B2 as (B2 & B3 & B4). split; [|split].
        -- intros nm p f c [E|Hin]; [apply (A2 nm p f c); left; exact E|apply (B2 nm p f c); exact Hin].
        -- intros z [E|Hin]; [apply A3; left; exact E|apply B3; exact Hin].
        -- eapply just_trans; [eapply just_more; [|exact A4]|eapply just_more; [|exact B4]].
           ++ intros k j [(z & [<-|[]] & Z)|(nm & p & c & [E|[]] & Z)]; [left; exists x; split; [left; reflexivity|exact Z]|right; exists nm, p, c; split; [left; exact E|exact Z]].
           ++ intros k j. apply round_items_more.
      * intros K. destruct (B2 K) as [(nm & p & f & c & Hin & Z) B4]. split; [exists nm, p, f, c; split; [right; exact Hin|exact Z]|].
        eapply just_trans; [eapply just_more; [|exact A4]|eapply just_more; [|exact B4]].
        -- intros k j [(z & [<-|[]] & Z')|(nm' & p' & c' & [E|[]] & Z')]; [left; exists x; split; [left; reflexivity|exact Z']|right; exists nm', p', c'; split; [left; exact E|exact Z']].
        -- intros k j. apply round_items_more.
      * exact B2.
      * exact Logic.I.
    + split; [exact A1|]. cbn [fst snd]. intros K. destruct (A2 K) as [(nm & p & f & c & [Ex|[]] & Z) A4]. split; [exists nm, p, f, c; split; [left; exact Ex|exact Z]|].
      eapply just_more; [|exact A4].
      intros k j [(z & [<-|[]] & Z')|(nm' & p' & c' & [E|[]] & Z')]; [rewrite Ex in Z'; destruct Z' as [[] _]|right; exists nm', p', c'; split; [left; exact E|exact Z']].
    + split; [exact A1|]. exact A2.
    + split; [exact A1|]. exact Logic.I.
Qed.

(** The rounds of a join. *)
Variable len : nat.
Hypothesis Hrc : forall i S, (1 <= i)%Z -> styled S -> round_done i es S (rc e fc (set_index i es) S).
Hypothesis Hone : exists nm p f, In (EFunc nm p) es /\ lookup_fn e nm = Some f /\ supply na nf f = Some len.
Hypothesis Hall : forall nm p, In (EFunc nm p) es -> exists f c, lookup_fn e nm = Some f /\ supply na nf f = Some c /\ len <= c.
Definition join_items (i last : Z) (k : func) (j : Z) : Prop :=
  (exists x, In x es /\ called_with (strip x) /\ visits e na nf k j (strip x)) \/
  (exists nm p, In (EFunc nm p) es /\ lookup_fn e nm = Some k /\ (i <= j <= last)%Z).
Definition level_es : Prop := forall nm p f c, In (EFunc nm p) es -> lookup_fn e nm = Some f -> supply na nf f = Some c -> c = len.
Lemma loop_exact : forall sep a b jf i acc S, (1 <= i <= Z.of_nat len + 1)%Z -> (a <= Z.of_nat len)%Z ->
  ((0 < b)%Z -> (i <= b <= Z.of_nat len)%Z) -> ((b <= 0)%Z -> level_es) -> styled S ->
  let r := join_loop rc jf e fc es sep a b i acc S in
  styled (snd r) /\ tame (fst r) /\ forall s, fst r = ROk s ->
    ((i <= Z.of_nat len)%Z -> forall x, In x es -> called_with (strip x) -> fine h d e na nf (strip x)) /\
    just (join_items i (if (0 <? b)%Z then b else Z.of_nat len)) S (snd r).
Proof.
  intros sep a b. induction jf as [|jf IH]; intros i acc S Hi Ha Hb Hl HS r; unfold r; clear r; cbn [join_loop].
  - split; [exact HS|]. split; [exact Logic.I|]. discriminate.
  - destruct (Hrc i S (proj1 Hi) HS) as [R1 R2]. destruct (rc e fc (set_index i es) S) as [[s|er|er|] S1]; cbn [fst snd] in *.
    + destruct R2 as (R2 & R3 & R4).
      assert (Li : (i <= Z.of_nat len)%Z) by (destruct Hone as (nm & p & f & H1 & H2 & H3); exact (R2 nm p f len H1 H2 H3)).
      assert (J : forall last, (i <= last)%Z -> just (join_items i last) S S1).
      { intros last Hlast. eapply just_more; [|exact R4]. intros k j [Z|(nm & p & c & Z1 & Z2 & Z3 & -> & Z4)]; [left; exact Z|]. right. exists nm, p. split; [exact Z1|]. split; [exact Z2|lia]. }
      destruct ((0 <? b)%Z && (b <=? i)%Z) eqn:B.
      * apply andb_true_iff in B as [B1 B2]. rewrite B1. apply Z.ltb_lt in B1. apply Z.leb_le in B2. split; [exact R1|]. split; [exact Logic.I|]. intros t _. cbn [snd]. split; [intros _; exact R3|]. apply J. lia.
      * assert (Hb' : (0 < b)%Z -> (i + 1 <= b <= Z.of_nat len)%Z).
        { intros K. specialize (Hb K). apply andb_false_iff in B as [B|B]; [apply Z.ltb_ge in B; lia|apply Z.leb_gt in B; lia]. }
        set (acc' := if is_empty s then acc else if is_empty acc then s else acc ++ sep ++ s).
        destruct (IH (i + 1)%Z acc' S1) as (I1 & I2 & I3); [lia|exact Ha|exact Hb'|exact Hl|exact R1|].
        split; [exact I1|]. split; [exact I2|]. intros t Ht. destruct (I3 t Ht) as [_ I4]. split; [intros _; exact R3|].
        eapply just_trans; [apply J|eapply just_more; [|exact I4]].
        -- destruct (0 <? b)%Z eqn:B0; [apply Z.ltb_lt in B0; lia|lia].
        -- intros k j [Z|(nm & p & Z1 & Z2 & Z3)]; [left; exact Z|right; exists nm, p; split; [exact Z1|]; split; [exact Z2|lia]].
    + destruct (is_invalid_index er) eqn:Ke.
      2: { split; [exact R1|]. split; [exact Ke|]. discriminate. }
      destruct (R2 eq_refl) as [(nm & p & f & c & H1 & H2 & H3 & H4) R4].
      assert (Lc : (len <= c)%nat) by (destruct (Hall nm p H1) as (f' & c' & K1 & K2 & K3); rewrite H2 in K1; injection K1 as <-; rewrite H3 in K2; injection K2 as <-; exact K3).
      assert (Ei : i = (Z.of_nat len + 1)%Z) by lia.
      assert (Bn : (b <= 0)%Z) by (destruct (Z.le_gt_cases b 0) as [K|K]; [exact K|specialize (Hb K); lia]).
      assert (G : ((0 <? a)%Z && (i =? a)%Z) || ((0 <? b)%Z && (i <=? b)%Z) = false).
      { rewrite (proj2 (Z.ltb_ge 0 b) Bn), andb_false_l, orb_false_r. destruct (0 <? a)%Z; [|reflexivity]. cbn [andb]. apply Z.eqb_neq. lia. }
      rewrite G. split; [exact R1|]. split; [exact Logic.I|]. intros t _. cbn [snd]. split; [lia|].
      eapply just_more; [|exact R4]. intros k j [Z|(nm' & p' & c' & Z1 & Z2 & Z3 & -> & Z4)]; [left; exact Z|].
      exfalso. pose proof (Hl Bn nm' p' k c' Z1 Z2 Z3). lia.
    + split; [exact R1|]. split; [exact R2|]. discriminate.
    + split; [exact R1|]. split; [exact Logic.I|]. discriminate.
Qed.
End Join.

Lemma prep_exact : forall es st, exists o, join_prep rb e es st = (o, st) /\ tame o /\ o <> RFuel /\
  (forall k, o = ROk k -> (forall nm p, In (EFunc nm p) es -> exists f c, lookup_fn e nm = Some f /\ supply na nf f = Some c) /\ (k <> 0 -> exists nm p, In (EFunc nm p) es)).
Proof.
  intros es st. induction es as [|x es IH].
  { exists (ROk 0). split; [reflexivity|]. split; [exact Logic.I|]. split; [discriminate|]. intros k E. injection E as <-. split; [intros nm p []|]. intros K. destruct (K eq_refl). }
  destruct IH as (o & E & T & NF & K).
  assert (G : (forall nm p, x <> EFunc nm p) -> join_prep rb e (x :: es) st = join_prep rb e es st) by (intros N; destruct x; try reflexivity; destruct (N _ _ eq_refl)).
  destruct x as [t p|a j p|nm a p|nm p].
  4: { cbn [join_prep]. destruct (lookup_fn e nm) as [f|] eqn:Hf.
       2: { eexists. split; [reflexivity|]. split; [reflexivity|]. split; [discriminate|]. discriminate. }
       destruct (Hlib nm f Hf) as [->|[->| ->]].
       3: { change (join_compat rb nm FnJoin st) with (false, false, st). eexists. split; [reflexivity|]. split; [reflexivity|]. split; [discriminate|]. discriminate. }
       1: change (join_compat rb nm FnArg st) with (true, false, st).
       2: change (join_compat rb nm FnFragment st) with (true, false, st).
       all: cbn iota; rewrite E; destruct o as [k|er|er|]; (eexists; split; [reflexivity|]; split; [exact T|]; split; [congruence|]; try discriminate).
       all: intros k' Ek; injection Ek as <-; destruct (K k eq_refl) as [K1 K2]; (split; [|intros _; exists nm, p; left; reflexivity]).
       all: intros nm' p' [D|D]; [injection D as <- <-; rewrite Hf; eexists; eexists; split; [reflexivity|reflexivity]|apply (K1 nm' p' D)]. }
  all: rewrite G by discriminate; exists o; split; [exact E|]; split; [exact T|]; split; [exact NF|]; intros k Ek; destruct (K k Ek) as [K1 K2]; split;
    [intros nm' p' [D|D]; [discriminate|apply (K1 nm' p' D)]|intros Nk; destruct (K2 Nk) as (nm' & p' & D); exists nm', p'; right; exact D].
Qed.
Lemma shortest_exists : forall es, (forall nm p, In (EFunc nm p) es -> exists f c, lookup_fn e nm = Some f /\ supply na nf f = Some c) ->
  (exists nm p, In (EFunc nm p) es) -> exists len,
  (exists nm p f, In (EFunc nm p) es /\ lookup_fn e nm = Some f /\ supply na nf f = Some len) /\
  (forall nm p, In (EFunc nm p) es -> exists f c, lookup_fn e nm = Some f /\ supply na nf f = Some c /\ len <= c).
Proof.
  induction es as [|x es IH]; intros H (nm0 & p0 & H0); [destruct H0|].
  assert (D : (exists nm p, In (EFunc nm p) es) \/ forall nm p, ~ In (EFunc nm p) es).
  { clear. induction es as [|y es [(nm & p & K)|K]]; [right; intros nm p []|left; exists nm, p; right; exact K|].
    destruct y as [| | |nm p]; try (right; intros nm' p' [E|E]; [discriminate|exact (K _ _ E)]). left. exists nm, p. left. reflexivity. }
  destruct D as [D|D].
  - destruct (IH (fun nm p Hin => H nm p (or_intror Hin)) D) as (len & (nm & p & f & A1 & A2 & A3) & B).
    destruct x as [t q|a j q|nm' a q|nm' q].
    4: { destruct (H nm' q (or_introl eq_refl)) as (f' & c' & C1 & C2). destruct (Nat.le_gt_cases len c') as [L|L].
         - exists len. split; [exists nm, p, f; split; [right; exact A1|auto]|]. intros n1 p1 [E|E]; [injection E as <- <-; exists f', c'; auto|apply (B n1 p1 E)].
         - exists c'. split; [exists nm', q, f'; split; [left; reflexivity|auto]|]. intros n1 p1 [E|E]; [injection E as <- <-; exists f', c'; auto|].
           destruct (B n1 p1 E) as (f1 & c1 & F1 & F2 & F3). exists f1, c1. repeat split; try assumption. lia. }
    all: exists len; split; [exists nm, p, f; split; [right; exact A1|auto]|]; intros n1 p1 [E|E]; [discriminate|apply (B n1 p1 E)].
  - destruct H0 as [->|H0]; [|destruct (D _ _ H0)]. destruct (H nm0 p0 (or_introl eq_refl)) as (f & c & A1 & A2).
    exists c. split; [exists nm0, p0, f; split; [left; reflexivity|auto]|]. intros n1 p1 [E|E]; [injection E as <- <-; exists f, c; auto|destruct (D _ _ E)].
Qed.

Lemma join_exact : forall m tmpl sep nums nm S, lookup_fn e nm = Some FnJoin -> (forall x, In x nums -> number x) ->
  ranged e na nf (ACall nm (LStr tmpl :: LStr sep :: nums)) -> styled S ->
  (forall x, called_with (strip x) -> ranged e na nf (strip x) -> forall m', m = Datatypes.S m' -> forall S, styled S -> exact_part (strip x) S (eval_expr rb (clause_n m' rb) m' e fc x S)) ->
  exact_part (ACall nm (LStr tmpl :: LStr sep :: nums)) S (func_join rb (clause_n m rb) m e fc tmpl sep (map lit_int nums) S).
Proof.
  intros m tmpl sep nums nm S Hnm Hnum Hr HS Hx.
  assert (R : (forall l len, parsed tmpl = Some l -> shortest e na nf l len ->
      (List.length nums <= 2 -> exists from to, available nums len from to) /\ (closing nums \/ level e na nf l len)) /\
    (forall l x, parsed tmpl = Some l -> In x l -> ranged e na nf x)).
  { inversion Hr as [| | |nm' a H1|nm' a H1 H2|nm' a H1 H2|nm' a H1 H2 H3]; subst; try congruence. split; [intros l len; apply H2 with (sep := sep); reflexivity|intros l x; apply H3 with (sep := sep) (nums := nums); reflexivity]. }
  destruct R as [R1 R2].
  (* everything but the numbers *)
  assert (G : List.length nums <= 2 -> forall a b, (forall len from to, available nums len from to -> from = Z.max 1 a /\ to = (if (0 <? b)%Z then b else Z.of_nat len)) ->
    ((b <= 0)%Z -> ~ closing nums) -> ((forall x, In x nums -> (lit_int x <= 0)%Z) -> (a <= 0)%Z /\ (b <= 0)%Z) ->
    exact_part (ACall nm (LStr tmpl :: LStr sep :: nums)) S
    (if (0 <? b)%Z && (b <? a)%Z then (RErr (bad_range a b), S) else
    match parse tmpl with
    | PErr o m => (RErr (bad_template tmpl o m), S)
    | PPanic => (RPanic index_range, S)
    | PFuel => (RFuel, S)
    | POk es =>
      let '(r, st') := join_prep rb e es (fs_st S) in
      let S' := mkFS st' (fs_ua S) (fs_uf S) in
      match r with
      | ROk O => (RErr (no_function tmpl), S')
      | ROk _ => join_loop (clause_n m rb) m e fc es sep a b (if (a <=? 0)%Z then 1%Z else a) "" S'
      | RErr er => (RErr er, S')
      | RPanic er => (RPanic er, S')
      | RFuel => (RFuel, S')
      end
    end)).
  { intros Hlen a b Hav Hcl Hneg.
    destruct ((0 <? b)%Z && (b <? a)%Z) eqn:B; [apply part_fails; [exact HS|reflexivity]|].
    destruct (parse tmpl) as [es|o mm| |] eqn:Hp; [|apply part_fails; [exact HS|reflexivity]|apply part_panics; [exact HS|reflexivity]|split; [exact HS|split; [exact Logic.I|discriminate]]].
    destruct (prep_exact es (fs_st S)) as (o & -> & T & NF & K). cbn zeta.
    replace (mkFS (fs_st S) (fs_ua S) (fs_uf S)) with S by (destruct S; reflexivity).
    destruct o as [k|er|er|]; [|apply part_fails; assumption|apply part_panics; assumption|congruence].
    destruct (K k eq_refl) as [K1 K2]. destruct k as [|k]; [apply part_fails; [exact HS|reflexivity]|].
    destruct (shortest_exists es K1 (K2 ltac:(discriminate))) as (len & Hone & Hall).
    set (l := norm (map strip es)). assert (Hl : parsed tmpl = Some l) by (unfold parsed; rewrite Hp; reflexivity).
    assert (Hsh : shortest e na nf l len).
    { split; [destruct Hone as (n1 & p1 & f1 & O1 & O2 & O3); exists n1, f1; split; [exact (in_parsed es (EFunc n1 p1) O1 Logic.I)|auto]|].
      intros n1 H1. apply func_parsed in H1 as [p1 H1]. exact (Hall n1 p1 H1). }
    destruct (R1 l len Hl Hsh) as [A C]. destruct (A Hlen) as (from & to & Av). destruct (Hav len from to Av) as [Efrom Eto]. pose proof Av as (_ & Av2 & Av3).
    assert (Hpart : forall x, In x es -> called_with (strip x) -> ranged e na nf (strip x)).
    { intros x Hin Hc. destruct x as [t q|z j q|nm' a' q|nm' q]; [apply rg_plain|apply rg_bind| |destruct Hc]. apply (R2 l _ Hl). exact (in_parsed es (ECall nm' a' q) Hin Logic.I). }
    assert (Hrc : forall i S, (1 <= i)%Z -> styled S -> round_done i es S (clause_n m rb e fc (set_index i es) S)).
    { intros i S1 Hi HS1. destruct m as [|m']; [split; [exact HS1|exact Logic.I]|]. rewrite clause_n_S. apply round_exact; [exact Hi| |exact K1|exact HS1].
      intros x Hin Hc S2 HS2. apply (Hx x Hc (Hpart x Hin Hc) m' eq_refl S2 HS2). }
    set (i := if (a <=? 0)%Z then 1%Z else a). assert (Ei : i = from) by (unfold i; destruct (a <=? 0)%Z eqn:A0; [apply Z.leb_le in A0|apply Z.leb_gt in A0]; lia).
    assert (Lo : (b <= 0)%Z -> level e na nf l len) by (intros Bn; destruct C as [C|C]; [destruct (Hcl Bn C)|exact C]).
    assert (Hb : (0 < b)%Z -> (i <= b <= Z.of_nat len)%Z).
    { intros Bp. rewrite (proj2 (Z.ltb_lt 0 b) Bp) in Eto. destruct Av3 as [Av3|Av3]; [lia|]. destruct (Hneg Av3). lia. }
    assert (Hle : (from <= to)%Z \/ (b <= 0 /\ a <= 0 /\ from = 1 /\ len = 0%nat)%Z).
    { destruct (Z.le_gt_cases from to) as [L|L]; [left; exact L|right]. destruct Av3 as [Av3|Av3]; [lia|]. destruct (Hneg Av3) as [N1 N2].
      split; [exact N2|]. split; [exact N1|]. rewrite (proj2 (Z.ltb_ge 0 b) N2) in Eto. lia. }
    destruct (loop_exact es (clause_n m rb) len Hrc Hone Hall sep a b m i "" S) as (L1 & L2 & L3).
    - rewrite Ei. destruct (0 <? b)%Z eqn:B0; [apply Z.ltb_lt in B0|apply Z.ltb_ge in B0]; lia.
    - destruct (0 <? b)%Z eqn:B0; [apply Z.ltb_lt in B0|apply Z.ltb_ge in B0]; lia.
    - exact Hb.
    - intros Bn n1 p1 f1 c1 H1 H2 H3. exact (proj1 (Lo Bn) n1 f1 c1 (in_parsed es (EFunc n1 p1) H1 Logic.I) H2 H3).
    - exact HS.
    - split; [exact L1|]. split; [exact L2|]. intros s Es. destruct (L3 s Es) as [L4 L5].
      assert (Solid : forall x, In x l -> called_with x -> x = APlain (match x with APlain t => t | _ => "" end) \/ exists y, In y es /\ strip y = x).
      { intros x Hin Hc. destruct x as [t|st j|n1 a1|n1]; [left; reflexivity|right; apply from_parsed; [exact Hin|exact Logic.I]..]. }
      split.
      + eapply fi_join; [exact Hnm|exact Hnum|exact Hl|exact Hsh|exact Av|]. intros x Hin Hc.
        destruct (Solid x Hin Hc) as [->|(y & Hy & <-)]; [apply fi_plain|].
        destruct Hle as [Hle|(Bn & An & Ef & El)].
        * apply L4; [rewrite Ei; lia|exact Hy|exact Hc].
        * destruct (Lo Bn) as [_ [Lz|Lp]]; [lia|]. destruct (Lp _ Hin Hc) as [t ->]. apply fi_plain.
      + eapply just_more; [|exact L5]. intros k' j [(y & Hy & Hc & V)|(n1 & p1 & H1 & H2 & H3)].
        * assert (Sy : solid (strip y)) by (destruct y; try exact Logic.I; inversion V).
          destruct Hle as [Hle|(Bn & An & Ef & El)].
          -- eapply vs_inner; [exact Hnm|exact Hl|exact Hsh|exact Av|exact Hle|exact (in_parsed es y Hy Sy)|exact Hc|exact V].
          -- destruct (Lo Bn) as [_ [Lz|Lp]]; [lia|]. destruct (Lp _ (in_parsed es y Hy Sy) Hc) as [t E]. rewrite E in V. inversion V.
        * eapply vs_item; [exact Hnm|exact Hl|exact Hsh|exact Av|exact (in_parsed es (EFunc n1 p1) H1 Logic.I)|exact H2|]. rewrite <- Ei. rewrite Eto. exact H3. }
  unfold func_join. destruct nums as [|x [|y [|z nums]]]; cbn [map]; cbn zeta.
  - apply G; [cbn; lia| | |].
    + intros len from to ((-> & ->) & _). split; reflexivity.
    + intros _ (x & y & E & _). discriminate.
    + intros _. lia.
  - apply G; [cbn; lia| | |].
    + intros len from to ((-> & ->) & _). split; reflexivity.
    + intros _ (x' & y & E & _). discriminate.
    + intros H. specialize (H x (or_introl eq_refl)). lia.
  - apply G; [cbn; lia| | |].
    + intros len from to ((-> & ->) & _). split; reflexivity.
    + intros Hy (x' & y' & E & K). injection E as <- <-. lia.
    + intros H. pose proof (H x (or_introl eq_refl)). pose proof (H y (or_intror (or_introl eq_refl))). lia.
  - apply part_fails; [exact HS|reflexivity].
Qed.

Lemma fits_number : forall x, Spec_base.fits GNum x -> number x.
Proof. intros x H. inversion H; exact Logic.I. Qed.
Lemma join_shape : forall a, all_fit FnJoin a -> takes FnJoin (List.length a) -> exists tmpl sep nums, a = LStr tmpl :: LStr sep :: nums /\ forall x, In x nums -> number x.
Proof.
  intros a Hf Ht. unfold takes in Ht. cbn in Ht. destruct a as [|x [|y nums]]; [cbn in Ht; lia|cbn in Ht; lia|].
  destruct (Hf 0 x eq_refl) as (t & E & F). injection E as <-. inversion F; subst.
  destruct (Hf 1 y eq_refl) as (t & E & F'). injection E as <-. inversion F'; subst.
  do 3 eexists. split; [reflexivity|]. intros z Hz. apply In_nth_error in Hz as [i Hi]. destruct (Hf (2 + i) z Hi) as (t & E & F2).
  assert (param FnJoin (2 + i) = Some GNum) as E' by (destruct i; reflexivity). rewrite E' in E. injection E as <-. apply fits_number, F2.
Qed.

Lemma expr_exact : forall m x, called_with (strip x) -> ranged e na nf (strip x) -> forall S, styled S ->
  exact_part (strip x) S (eval_expr rb (clause_n m rb) m e fc x S).
Proof.
  induction m as [m IH] using lt_wf_ind. intros x Hc Hr S HS. destruct x as [t p|a i p|nm a p|nm p]; [| | |destruct Hc]; cbn [strip eval_expr] in *.
  - split; [exact HS|]. split; [exact Logic.I|]. intros s _. split; [apply fi_plain|apply just_refl].
  - destruct (nth1 (fr_args fc) i) as [v|] eqn:E; [|apply part_fails; [exact HS|reflexivity]].
    destruct (arg_exact i S HS) as [A1 A2]. split; [exact A1|]. destruct (func_arg fc i S) as [[s|er|er|] S1]; cbn [fst snd tame] in *; (split; [try exact Logic.I|]).
    + intros t _. destruct A2 as [A2 A3]. split; [apply fi_bind; exact A2|]. eapply just_more; [|exact A3]. intros k j [-> ->]. apply vs_bind. reflexivity.
    + exfalso. destruct A2 as [A2 _]. apply A2. apply nth1_Some in E as [E1 E2]. cbn [fr_args fc] in E2. unfold inside, na. pose proof (proj1 (nth_error_Some args (Z.to_nat (i - 1))) ltac:(congruence)). lia.
    + discriminate.
    + exact A2.
    + discriminate.
    + discriminate.
  - unfold eval_function. destruct (lookup_fn e nm) as [f|] eqn:Hf; [|apply part_fails; [exact HS|reflexivity]].
    destruct (Hlib nm f Hf) as [->|[->| ->]].
    + rewrite eval_call_arg. destruct (Nat.eqb (List.length a) 1) eqn:El; [|apply part_fails; [exact HS|reflexivity]]. apply Nat.eqb_eq in El.
      destruct a as [|z [|z' a]]; try discriminate El. pose proof (eval_args_text [GNum] [z] eq_refl) as Ht. destruct (eval_args [GNum] [z]) as [u|er|er|].
      2: { destruct Ht as (i & b & t & _ & _ & _ & _ & _ & ->). apply part_fails; [exact HS|reflexivity]. }
      2: { destruct Ht as (i & b & t & _ & _ & _ & _ & _ & ->). apply part_panics; [exact HS|reflexivity]. }
      2: { destruct Ht. }
      assert (Hin : inside (lit_int z) na) by (inversion Hr as [| | |nm' a' H1|nm' a' H1 H2|nm' a' H1 H2|nm' a' H1 H2 H3]; subst; try congruence; apply H2; reflexivity).
      assert (Hz : number z) by (destruct (Ht 0 z eq_refl) as (t & E & F); injection E as <-; apply fits_number, F).
      cbn [call_index]. destruct (arg_exact (lit_int z) S HS) as [A1 A2]. unfold exact_part. rewrite safe_snd. split; [exact A1|].
      destruct (func_arg fc (lit_int z) S) as [[s|er|er|] S1]; cbn [fst snd safe tame is_invalid_index] in *; (split; [try exact Logic.I|]); try discriminate.
      * intros t _. destruct A2 as [A2 A3]. split; [eapply fi_arg; [exact Hf|exact Hz|exact Hin]|]. eapply just_more; [|exact A3]. intros k j [-> ->]. apply vs_call; [exact Hf|reflexivity].
      * destruct A2. contradiction.
      * exact A2.
    + rewrite eval_call_fragment. destruct (Nat.eqb (List.length a) 1) eqn:El; [|apply part_fails; [exact HS|reflexivity]]. apply Nat.eqb_eq in El.
      destruct a as [|z [|z' a]]; try discriminate El. pose proof (eval_args_text [GNum] [z] eq_refl) as Ht. destruct (eval_args [GNum] [z]) as [u|er|er|].
      2: { destruct Ht as (i & b & t & _ & _ & _ & _ & _ & ->). apply part_fails; [exact HS|reflexivity]. }
      2: { destruct Ht as (i & b & t & _ & _ & _ & _ & _ & ->). apply part_panics; [exact HS|reflexivity]. }
      2: { destruct Ht. }
      assert (Hin : inside (lit_int z) nf) by (inversion Hr as [| | |nm' a' H1|nm' a' H1 H2|nm' a' H1 H2|nm' a' H1 H2 H3]; subst; try congruence; apply H2; reflexivity).
      assert (Hz : number z) by (destruct (Ht 0 z eq_refl) as (t & E & F); injection E as <-; apply fits_number, F).
      cbn [call_index]. destruct (fragment_exact (lit_int z) S HS) as [A1 A2]. unfold exact_part. rewrite safe_snd. split; [exact A1|].
      destruct (func_fragment rb e fc (lit_int z) S) as [[s|er|er|] S1]; cbn [fst snd safe tame is_invalid_index] in *; (split; [try exact Logic.I|]); try discriminate.
      * intros t _. destruct A2 as [A2 A3]. split; [eapply fi_frag; [exact Hf|exact Hz|exact Hin]|]. eapply just_more; [|exact A3]. intros k j [-> ->]. apply vs_call; [exact Hf|reflexivity].
      * destruct (is_invalid_index er); [|reflexivity]. destruct (A2 eq_refl). contradiction.
      * exact A2.
    + pose proof (arity_takes FnJoin (List.length a)) as Ar. pose proof (arg_types_len FnJoin (List.length a)) as Al. pose proof (fun i => arg_types_param FnJoin (List.length a) i ltac:(intros _; discriminate)) as Ap.
      destruct (arity_ok (sig_of FnJoin) (List.length a)) eqn:Ea.
      2: { unfold eval_call. rewrite Ea. apply part_fails; [exact HS|reflexivity]. }
      pose proof (proj1 Ar eq_refl) as Tk. specialize (Al Tk). pose proof (eval_args_text _ a Al) as Ht.
      destruct (eval_args (arg_types (sig_of FnJoin) (List.length a)) a) as [u|er|er|] eqn:Ev.
      2: { unfold eval_call. rewrite Ea. cbn zeta. rewrite Ev. destruct Ht as (i & b & t & _ & _ & _ & _ & _ & ->). apply part_fails; [exact HS|reflexivity]. }
      2: { unfold eval_call. rewrite Ea. cbn zeta. rewrite Ev. destruct Ht as (i & b & t & _ & _ & _ & _ & _ & ->). apply part_panics; [exact HS|reflexivity]. }
      2: { destruct Ht. }
      assert (Fit : all_fit FnJoin a).
      { intros i b Hb. destruct (Ht i b Hb) as (t & E & F). exists t. split; [|exact F]. rewrite <- Ap; [exact E|exact Tk|apply nth_error_Some; congruence]. }
      destruct (join_shape a Fit Tk) as (tmpl & sep & nums & -> & Hnum). rewrite call_join_goes by exact Hnum.
      assert (J := join_exact m tmpl sep nums nm S Hf Hnum Hr HS). destruct J as (J1 & J2 & J3).
      { intros x Hcx Hrx m' -> S1 HS1. apply IH; [lia|assumption..]. }
      unfold exact_part. rewrite safe_snd. split; [exact J1|]. split; [apply tame_safe; exact J2|].
      intros s Es. apply (J3 s). destruct (func_join rb (clause_n m rb) m e fc tmpl sep (map lit_int nums) S) as [[t|er|er|] S1]; try discriminate Es; exact Es.
Qed.

Lemma clause_exact : forall m es, (forall x, In x es -> ranged e na nf (strip x)) -> forall S, styled S ->
  let r := clause rb (clause_n m rb) m e fc es S in
  styled (snd r) /\ tame (fst r) /\ forall s, fst r = ROk s -> (forall x, In x es -> called_with (strip x) /\ fine h d e na nf (strip x)) /\
    just (fun k i => exists x, In x es /\ visits e na nf k i (strip x)) S (snd r).
Proof.
  intros m. induction es as [|x es IH]; intros Hr S HS r; unfold r; clear r.
  - split; [exact HS|]. split; [exact Logic.I|]. intros s _. split; [intros x []|apply just_refl].
  - rewrite clause_cons. assert (D : called_with (strip x) \/ exists nm p, x = EFunc nm p) by (destruct x; [left; exact Logic.I..|right; eauto]).
    destruct D as [D|(nm & p & ->)].
    2: { cbn [eval_expr andthen]. split; [exact HS|]. split; [reflexivity|]. discriminate. }
    destruct (expr_exact m x D (Hr x (or_introl eq_refl)) S HS) as (A1 & A2 & A3).
    destruct (eval_expr rb (clause_n m rb) m e fc x S) as [[s|er|er|] S1]; cbn [fst snd andthen] in *; try (split; [exact A1|]; split; [exact A2|]; discriminate).
    destruct (A3 s eq_refl) as [A4 A5]. destruct (IH (fun y Hy => Hr y (or_intror Hy)) S1 A1) as (B1 & B2 & B3).
    destruct (clause rb (clause_n m rb) m e fc es S1) as [[t|er|er|] S2]; cbn [fst snd] in *; try (split; [exact B1|]; split; [exact B2|]; discriminate).
    split; [exact B1|]. split; [exact Logic.I|]. intros u _. destruct (B3 t eq_refl) as [B4 B5]. split; [intros y [<-|Hy]; [split; assumption|apply B4; exact Hy]|].
    eapply just_trans; [eapply just_more; [|exact A5]|eapply just_more; [|exact B5]].
    + intros k i V. exists x. split; [left; reflexivity|exact V].
    + intros k i (y & Hy & V). exists y. split; [right; exact Hy|exact V].
Qed.
End Frame.

Lemma used_nth : forall l, all_used l = true -> forall i, i < List.length l -> nth_error l i = Some true.
Proof.
  induction l as [|b l IH]; intros H i Hi; [cbn in Hi; lia|]. cbn in H. apply andb_prop in H as [-> H]. destruct i as [|i]; [reflexivity|]. apply IH; [exact H|cbn in Hi; lia].
Qed.
Lemma frag_exact : forall n raw args frags p s st,
  (forall b, In b frags -> forall st, st_dollar st = d -> tame (fst (build n e b st)) /\ st_dollar (snd (build n e b st)) = d /\ forall s, fst (build n e b st) = ROk s -> sound h d e b) ->
  (forall l x, parsed raw = Some l -> In x l -> ranged e (List.length args) (List.length frags) x) -> st_dollar st = d ->
  let r := build_frag n (build n) e (Frag raw args frags p s) st in
  tame (fst r) /\ st_dollar (snd r) = d /\ forall t, fst r = ROk t -> sound h d e (BFrag (Frag raw args frags p s)).
Proof.
  intros n raw args frags p s st HB Hr Hst r. unfold r, build_frag. clear r. cbn [f_raw f_args f_frags f_prefix f_suffix].
  destruct (Grammar_proofs.parse_total raw) as [[es Ep]|(off & mm & Ep)]; rewrite Ep; [|split; [reflexivity|]; split; [exact Hst|]; discriminate].
  assert (Hl : parsed raw = Some (norm (map strip es))) by (unfold parsed; rewrite Ep; reflexivity). set (l := norm (map strip es)) in *.
  cbn zeta. set (S0 := mkFS st (map (fun _ => false) args) (map (fun _ => false) frags)).
  destruct n as [|m]; [cbn; split; [exact Logic.I|]; split; [exact Hst|]; discriminate|]. rewrite clause_n_S.
  assert (Hes : forall x, In x es -> ranged e (List.length args) (List.length frags) (strip x)).
  { intros x Hin. destruct x as [t q|a j q|nm a q|nm q]; [apply rg_plain|apply (Hr l _ Hl)..]; eapply in_parsed; try exact Logic.I; exact Hin. }
  destruct (clause_exact args frags (build (S m)) (fun b st0 Hb Hd => HB b Hb st0 Hd) m es Hes S0 Hst) as (C1 & C2 & C3).
  pose proof (len_clause_n (build (S m)) (S m) e (mkFrame args frags) es S0) as [La Lf]. rewrite clause_n_S in La, Lf.
  destruct (clause (build (S m)) (clause_n m (build (S m))) m e (mkFrame args frags) es S0) as [[body|er|er|] S1]; cbn [fst snd] in *.
  2: { split; [exact C2|]. split; [exact C1|]. discriminate. }
  2: { split; [exact C2|]. split; [exact C1|]. discriminate. }
  2: { split; [exact Logic.I|]. split; [exact C1|]. discriminate. }
  cbn [S0 fs_ua fs_uf] in La, Lf. rewrite map_length in La, Lf.
  destruct (all_used (fs_ua S1)) eqn:Ua; destruct (all_used (fs_uf S1)) eqn:Uf; cbn [andb]; try (split; [reflexivity|]; split; [exact C1|]; discriminate).
  assert (G : sound h d e (BFrag (Frag raw args frags p s))).
  { destruct (C3 body eq_refl) as [C4 C5].
    assert (J : forall k i, (k = FnArg \/ k = FnFragment) -> (1 <= i)%Z -> flagged k i S1 -> (exists x, In x l /\ visits e (List.length args) (List.length frags) k i x) /\ item_ok args frags k i).
    { intros k i Hk Hi F. destruct (C5 k i Hk Hi F) as [F0|[(x & Hx & V) It]].
      - exfalso. unfold flagged in F0. destruct Hk as [-> | ->]; cbn [S0 fs_ua fs_uf] in F0; exact (nth_false _ _ _ F0).
      - split; [|exact It]. exists (strip x). split; [|exact V]. apply in_parsed; [exact Hx|]. destruct x; try exact Logic.I; inversion V. }
    assert (Fa : forall i, inside i (List.length args) -> flagged FnArg i S1).
    { intros i [H1 H2]. unfold flagged. apply used_nth; [exact Ua|]. lia. }
    assert (Ff : forall i, inside i (List.length frags) -> flagged FnFragment i S1).
    { intros i [H1 H2]. unfold flagged. apply used_nth; [exact Uf|]. lia. }
    eapply sd_frag; [exact Hl| | | | |].
    - intros v Hv. apply In_nth_error in Hv as [i Hi]. assert (Li : i < List.length args) by (apply nth_error_Some; congruence).
      assert (Hin : inside (Z.of_nat i + 1) (List.length args)) by (split; lia).
      destruct (J FnArg _ (or_introl eq_refl) (proj1 Hin) (Fa _ Hin)) as [_ (w & Hw & Sw)]. apply nth1_Some in Hw as [_ Hw].
      replace (Z.to_nat (Z.of_nat i + 1 - 1)) with i in Hw by lia. rewrite Hi in Hw. injection Hw as <-. exact Sw.
    - intros b Hb. apply In_nth_error in Hb as [i Hi]. assert (Li : i < List.length frags) by (apply nth_error_Some; congruence).
      assert (Hin : inside (Z.of_nat i + 1) (List.length frags)) by (split; lia).
      destruct (J FnFragment _ (or_intror eq_refl) (proj1 Hin) (Ff _ Hin)) as [_ (w & Hw & Sw)]. apply nth1_Some in Hw as [_ Hw].
      replace (Z.to_nat (Z.of_nat i + 1 - 1)) with i in Hw by lia. rewrite Hi in Hw. injection Hw as <-. exact Sw.
    - intros x Hx. destruct x as [t|stl i|nm a|nm]; [apply fi_plain|destruct (from_parsed es _ Hx Logic.I) as (y & Hy & <-); apply (C4 y Hy)..].
    - intros i Hi. apply (J FnArg i (or_introl eq_refl) (proj1 Hi) (Fa i Hi)).
    - intros i Hi. apply (J FnFragment i (or_intror eq_refl) (proj1 Hi) (Ff i Hi)). }
  destruct (is_empty (trim_space body)); (split; [exact Logic.I|]; split; [exact C1|]; intros t _; exact G).
Qed.
Lemma settled_frag : forall raw args frags p s, settled e (BFrag (Frag raw args frags p s)) -> (forall b, In b frags -> settled e b) /\
  (forall l x, parsed raw = Some l -> In x l -> ranged e (List.length args) (List.length frags) x).
Proof. intros raw args frags p s H. inversion H; subst. auto. Qed.
Lemma build_exact : forall n b, settled e b -> forall st, st_dollar st = d ->
  tame (fst (build n e b st)) /\ st_dollar (snd (build n e b st)) = d /\ forall s, fst (build n e b st) = ROk s -> sound h d e b.
Proof.
  induction n as [|n IH]; intros b Hb st Hst; [split; [exact Logic.I|]; split; [exact Hst|]; discriminate|].
  assert (G : forall f, settled e (BFrag f) -> tame (fst (build_frag n (build n) e f st)) /\ st_dollar (snd (build_frag n (build n) e f st)) = d /\
    forall s, fst (build_frag n (build n) e f st) = ROk s -> sound h d e (BFrag f)).
  { intros [raw args frags p s] Hf. apply settled_frag in Hf as [H1 H2]. apply frag_exact; [|exact H2|exact Hst]. intros b' Hb'. apply IH. apply H1. exact Hb'. }
  pose proof Hb as Hb'. destruct Hb' as [| |raw args frags p s H1 H2| |t|f t Hf|t|x a|]; cbn [build].
  - split; [reflexivity|]. split; [exact Hst|]. discriminate.
  - split; [exact Logic.I|]. split; [exact Hst|]. intros s _. apply sd_nilfrag.
  - apply G. exact Hb.
  - split; [reflexivity|]. split; [exact Hst|]. discriminate.
  - split; [exact Logic.I|]. split; [exact Hst|]. intros s _. apply sd_nocolumn.
  - destruct (G f Hf) as (A & B & C). split; [exact A|]. split; [exact B|]. intros s Es. apply sd_column. apply (C s Es).
  - split; [exact Logic.I|]. split; [exact Hst|]. intros s _. apply sd_table.
  - split; [exact Logic.I|]. split; [exact Hst|]. intros s _. apply sd_aliased.
  - split; [exact Logic.I|]. split; [exact Hst|]. intros s _. apply sd_noquery.
Qed.
End Exact.

Theorem builds_exactly : forall h d e b st, library e -> settled e b -> during h d st ->
  ((exists n s st', build n e b st = (ROk s, st')) <-> sound h d e b).
Proof.
  intros h d e b st Hl Hb Hst. split.
  - intros (n & s & st' & E). destruct (build_exact h d e Hl n b Hb st (proj1 Hst)) as (_ & _ & K). apply (K s). rewrite E. reflexivity.
  - intros H. destruct (sound_builds h d e b H st Hst) as (N & s & st' & _ & E). exists N, s, st'. apply E. lia.
Qed.
Lemma library_builtins : library [builtins].
Proof.
  intros nm f H. cbn in H. repeat match type of H with context [if ?c then _ else _] => destruct c end; try discriminate H; injection H as <-; auto.
Qed.
Theorem query_exactly : forall style h b, settled [builtins] b ->
  ((exists n s args h', build_query n style h b = (ROk (s, args), h')) <-> sound h (Z.eqb style style_dollar) [builtins] b).
Proof.
  intros style h b Hb. assert (D : during h (Z.eqb style style_dollar) (new_store style h)) by (split; [reflexivity|]; intros id; apply gr_same).
  rewrite <- (builds_exactly h _ [builtins] b (new_store style h) library_builtins Hb D). unfold build_query. split.
  - intros (n & s & args & h' & E). destruct (build n [builtins] b (new_store style h)) as [[t|er|er|] st'] eqn:K; try discriminate E. exists n, t, st'. exact K.
  - intros (n & s & st' & E). exists n, s, (st_args st'), (st_heap st'). rewrite E. reflexivity.
Qed.
(** An error is never an invalid index. *)
Theorem never_index : forall e b, library e -> settled e b -> forall n st er st', build n e b st = (RErr er, st') -> is_invalid_index er = false.
Proof.
  intros e b Hl Hb n st er st' E. destruct (build_exact [] (st_dollar st) e Hl n b Hb st eq_refl) as (T & _). rewrite E in T. exact T.
Qed.

(** ** The style *)
Lemma fine_any : forall h d d' e na nf x, library e -> ranged e na nf x -> fine h d e na nf x -> fine h d' e na nf x.
Proof.
  intros h d d' e na nf x Hl Hr. induction Hr as [t|st i|nm|nm a H|nm a H H1|nm a H H1|nm a H H1 H2 IH]; intros Hf;
    inversion Hf as [|d1 e1 na1 nf1 st1 i1 A|d1 e1 na1 nf1 nm1 x1 A A1 A2|d1 e1 na1 nf1 nm1 x1 A A1 A2|d1 e1 na1 nf1 nm1 tmpl sep nums l len from to A A1 A2 A3 A4 A5|d1 e1 na1 nf1 nm1 a1 sg body A]; subst; try congruence;
    try (exfalso; destruct (Hl _ _ A) as [K|[K|K]]; discriminate K).
  - apply fi_plain.
  - apply fi_bind. exact A.
  - eapply fi_arg; eassumption.
  - eapply fi_frag; eassumption.
  - eapply fi_join; try eassumption. intros y Hy Hc. eapply (IH tmpl sep nums l y); auto.
Qed.
Lemma sound_style : forall h e b, library e -> settled e b -> (sound h true e b <-> sound h false e b /\ forall v, carries v b -> ~ unhashable v).
Proof.
  intros h e b Hl Hb. induction Hb as [| |raw args frags p s H1 IH H2| |t|f t Hf IH|t|x a|].
  - split; [intros K; inversion K|intros [K _]; inversion K].
  - split; [intros _; split; [apply sd_nilfrag|intros v K; inversion K]|intros _; apply sd_nilfrag].
  - split.
    + intros K. inversion K as [|d1 e1 raw1 args1 frags1 p1 s1 l A1 A2 A3 A4 A5 A6| | | | | | |]; subst. split.
      * eapply sd_frag; [exact A1|intros v _ D; discriminate D| | |exact A5|exact A6].
        -- intros b Hb. apply (IH b Hb). apply A3. exact Hb.
        -- intros x Hx. eapply fine_any; [exact Hl|apply (H2 l x A1 Hx)|apply A4; exact Hx].
      * intros v C. inversion C as [raw1 args1 frags1 p1 s1 B|raw1 args1 frags1 p1 s1 b B1 B2|]; subst.
        -- exact (A2 v B eq_refl).
        -- apply (proj1 (IH b B1) (A3 b B1)). exact B2.
    + intros [K C]. inversion K as [|d1 e1 raw1 args1 frags1 p1 s1 l A1 A2 A3 A4 A5 A6| | | | | | |]; subst.
      eapply sd_frag; [exact A1|intros v Hv _; apply C; apply ca_here; exact Hv| | |exact A5|exact A6].
      * intros b Hb. apply (IH b Hb). split; [apply A3; exact Hb|]. intros v Hv. apply C. eapply ca_part; eassumption.
      * intros x Hx. eapply fine_any; [exact Hl|apply (H2 l x A1 Hx)|apply A4; exact Hx].
  - split; [intros K; inversion K|intros [K _]; inversion K].
  - split; [intros _; split; [apply sd_nocolumn|intros v K; inversion K]|intros _; apply sd_nocolumn].
  - split.
    + intros K. inversion K; subst. destruct (proj1 IH ltac:(assumption)) as [A B]. split; [apply sd_column; exact A|]. intros v C. inversion C; subst. apply B. assumption.
    + intros [K C]. inversion K; subst. apply sd_column. apply IH. split; [assumption|]. intros v Hv. apply C. apply ca_column. exact Hv.
  - split; [intros _; split; [apply sd_table|intros v K; inversion K]|intros _; apply sd_table].
  - split; [intros _; split; [apply sd_aliased|intros v K; inversion K]|intros _; apply sd_aliased].
  - split; [intros _; split; [apply sd_noquery|intros v K; inversion K]|intros _; apply sd_noquery].
Qed.
Theorem styles_differ : forall h b, settled [builtins] b ->
  ((exists n s args h', build_query n style_dollar h b = (ROk (s, args), h')) <->
   (exists n s args h', build_query n style_question h b = (ROk (s, args), h')) /\ forall v, carries v b -> ~ unhashable v).
Proof.
  intros h b Hb. rewrite (query_exactly style_dollar h b Hb), (query_exactly style_question h b Hb). apply sound_style; [apply library_builtins|exact Hb].
Qed.
(** Nothing of the state matters but the style. *)
Theorem state_irrelevant : forall e b st st', library e -> settled e b -> st_dollar st = st_dollar st' ->
  (exists n s st1, build n e b st = (ROk s, st1)) -> exists n s st1, build n e b st' = (ROk s, st1).
Proof.
  intros e b st st' Hl Hb Hd (n & s & st1 & E).
  destruct (build_exact (st_heap st') (st_dollar st) e Hl n b Hb st eq_refl) as (_ & _ & K). rewrite E in K. specialize (K s eq_refl).
  apply (builds_exactly (st_heap st') (st_dollar st) e b st' Hl Hb); [split; [auto|intros id; apply gr_same]|exact K].
Qed.

(** ** What happens otherwise *)
Lemma open_short : exists b, (exists n h', build_query n style_question [] b = (ROk ("? a", [VInt "int" 1; VInt "int" 2]), h')) /\ ~ sound [] false [builtins] b.
Proof.
  exists (BFrag (Frag "#join('#arg #f', ',')" [VInt "int" 1; VInt "int" 2] [BFrag (Frag "a" [] [] "" "")] "" "")). split.
  - exists 20. vm_compute. eauto.
  - intros H. inversion H as [|d1 e1 raw1 args1 frags1 p1 s1 l A1 A2 A3 A4 A5 A6| | | | | | |]; subst. vm_compute in A1. injection A1 as <-.
    destruct (A5 2%Z) as (x & [<-|[]] & V); [split; cbn; lia|]. inversion V as [| |nm tmpl sep nums l len from to nm' B1 B2 B3 B4 B5 B6 B7|nm tmpl sep nums l len from to x B1 B2 B3 B4 B5 B6 B7 B8]; subst.
    + vm_compute in B2. injection B2 as <-. destruct B3 as [_ B3]. destruct (B3 "f" ltac:(cbn; auto)) as (f & c & F1 & F2 & F3).
      vm_compute in F1. injection F1 as <-. cbn in F2. injection F2 as <-. destruct B4 as ((_ & ->) & _). lia.
    + vm_compute in B2. injection B2 as <-. destruct B6 as [<-|[<-|[<-|[]]]]; [destruct B7|inversion B8|destruct B7].
Qed.
Lemma open_empty : exists b, (exists n h', build_query n style_question [] b = (ROk ("a", [VInt "int" 1]), h')) /\ ~ sound [] false [builtins] b.
Proof.
  exists (BFrag (Frag "a#join('$1#f', ',')" [VInt "int" 1] [] "" "")). split.
  - exists 20. vm_compute. eauto.
  - intros H. inversion H as [|d1 e1 raw1 args1 frags1 p1 s1 l A1 A2 A3 A4 A5 A6| | | | | | |]; subst. vm_compute in A1. injection A1 as <-.
    destruct (A5 1%Z) as (x & [<-|[<-|[]]] & V); [split; cbn; lia| |]; inversion V as [| |nm tmpl sep nums l len from to nm' B1 B2 B3 B4 B5 B6 B7|nm tmpl sep nums l len from to x B1 B2 B3 B4 B5 B6 B7 B8]; subst.
    + vm_compute in B2. injection B2 as <-. destruct B3 as [_ B3]. destruct (B3 "f" ltac:(cbn; auto)) as (f & c & F1 & F2 & F3).
      vm_compute in F1. injection F1 as <-. cbn in F2. injection F2 as <-. destruct B4 as ((-> & ->) & _). lia.
    + vm_compute in B2. injection B2 as <-. destruct B3 as [_ B3]. destruct (B3 "f" ltac:(cbn; auto)) as (f & c & F1 & F2 & F3).
      vm_compute in F1. injection F1 as <-. cbn in F2. injection F2 as <-. destruct B4 as ((-> & ->) & _). lia.
Qed.
