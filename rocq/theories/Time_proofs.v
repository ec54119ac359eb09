(** The calendar, rounding, and the default text of times. *)
From Coq Require Import Strings.String Strings.Ascii NArith ZArith List Bool Lia Arith.
From Verif Require Import GoStr GoNum Syntax Value Util Time Spec_syntax Spec_base Spec_time.
From Verif Require Term_proofs Base_proofs.
Import ListNotations.
Open Scope string_scope.

(** ** The calendar: the days of one cycle by computation, the others by shifting. *)
Definition month_length (y m : Z) : Z :=
  match m with
  | 2 => if is_leap y then 29 else 28
  | 4 | 6 | 9 | 11 => 30
  | _ => 31
  end%Z.
Definition next_date (x : Z * Z * Z) : Z * Z * Z :=
  let '(y, m, d) := x in
  if (d <? month_length y m)%Z then (y, m, d + 1)%Z else if (m <? 12)%Z then (y, m + 1, 1)%Z else (y + 1, 1, 1)%Z.
Definition ok_date (x : Z * Z * Z) : bool :=
  let '(y, m, d) := x in (1 <=? m)%Z && (m <=? 12)%Z && (1 <=? d)%Z && (d <=? month_length y m)%Z.
Definition eq_date (a b : Z * Z * Z) : bool :=
  let '(y, m, d) := a in let '(y', m', d') := b in (y =? y')%Z && (m =? m')%Z && (d =? d')%Z.
Fixpoint check_days (n : nat) (i : Z) (a : Z * Z * Z) : bool :=
  match n with
  | O => true
  | S n' => let b := date_of (i + 1) in if ok_date a && eq_date b (next_date a) then check_days n' (i + 1) b else false
  end.
Lemma check_days_spec : forall n i, check_days n i (date_of i) = true -> forall k, (i <= k < i + Z.of_nat n)%Z ->
  ok_date (date_of k) = true /\ eq_date (date_of (k + 1)) (next_date (date_of k)) = true.
Proof.
  induction n as [|n IH]; intros i H k K; [lia|]. cbn [check_days] in H. cbv zeta in H.
  destruct (ok_date (date_of i) && eq_date (date_of (i + 1)) (next_date (date_of i))) eqn:E; [|discriminate H].
  destruct (Z.eq_dec k i) as [->|N]; [apply andb_prop; exact E|]. apply (IH (i + 1)%Z H). lia.
Qed.
Definition cycle : nat := N.to_nat 146097.
Lemma cycle_checked : check_days cycle 0 (date_of 0) = true.
Proof. vm_compute. reflexivity. Qed.
Definition shift (k : Z) (x : Z * Z * Z) : Z * Z * Z := let '(y, m, d) := x in (y + 400 * k, m, d)%Z.
Lemma is_leap_shift : forall y k, is_leap (y + 400 * k) = is_leap y.
Proof.
  intros y k. unfold is_leap. replace (y + 400 * k)%Z with (y + (100 * k) * 4)%Z at 1 by lia. rewrite Z.mod_add by lia.
  replace (y + 400 * k)%Z with (y + (4 * k) * 100)%Z at 1 by lia. rewrite Z.mod_add by lia.
  replace (y + 400 * k)%Z with (y + k * 400)%Z by lia. rewrite Z.mod_add by lia. reflexivity.
Qed.
Lemma date_of_shift : forall i k, date_of (i + 146097 * k) = shift k (date_of i).
Proof.
  intros i k. unfold date_of, year_day.
  assert (D : Z.div (i + 146097 * k) 146097 = (Z.div i 146097 + k)%Z) by (replace (i + 146097 * k)%Z with (i + k * 146097)%Z by lia; apply Z.div_add; lia).
  rewrite D. cbv zeta. replace (i + 146097 * k - 146097 * (Z.div i 146097 + k))%Z with (i - 146097 * Z.div i 146097)%Z by lia.
  set (d0 := (i - 146097 * Z.div i 146097)%Z). set (n1 := (Z.div d0 36524 - Z.div (Z.div d0 36524) 4)%Z). set (d1 := (d0 - 36524 * n1)%Z). set (n2 := Z.div d1 1461).
  set (d2 := (d1 - 1461 * n2)%Z). set (n3 := (Z.div d2 365 - Z.div (Z.div d2 365) 4)%Z). set (d3 := (d2 - 365 * n3)%Z).
  replace (400 * (Z.div i 146097 + k) + 100 * n1 + 4 * n2 + n3 + 1)%Z with (400 * Z.div i 146097 + 100 * n1 + 4 * n2 + n3 + 1 + 400 * k)%Z by lia.
  unfold month_day. rewrite is_leap_shift. destruct (is_leap _ && _); [reflexivity|]. destruct (_ <=? _)%Z; reflexivity.
Qed.
Lemma month_length_shift : forall y k m, month_length (y + 400 * k) m = month_length y m.
Proof. intros y k m. unfold month_length. rewrite is_leap_shift. reflexivity. Qed.
Lemma next_shift : forall k x, next_date (shift k x) = shift k (next_date x).
Proof.
  intros k [[y m] d]. cbn [shift next_date]. rewrite month_length_shift. destruct (_ <? _)%Z; [reflexivity|]. destruct (m <? 12)%Z; cbn [shift]; [reflexivity|]. f_equal. f_equal. lia.
Qed.
Lemma ok_shift : forall k x, ok_date (shift k x) = ok_date x.
Proof. intros k [[y m] d]. cbn [shift ok_date]. rewrite month_length_shift. reflexivity. Qed.
Lemma eq_date_eq : forall a b, eq_date a b = true -> a = b.
Proof.
  intros [[y m] d] [[y' m'] d'] H. cbn [eq_date] in H. apply andb_prop in H as [H H3]. apply andb_prop in H as [H1 H2].
  apply Z.eqb_eq in H1, H2, H3. subst. reflexivity.
Qed.
Lemma date_step : forall n, ok_date (date_of n) = true /\ date_of (n + 1) = next_date (date_of n).
Proof.
  intros n. pose proof (Z.div_mod n 146097 ltac:(lia)) as E. pose proof (Z.mod_pos_bound n 146097 ltac:(lia)) as B.
  set (k := Z.div n 146097) in *. set (i := Z.modulo n 146097) in *.
  assert (C : (0 <= i < 0 + Z.of_nat cycle)%Z) by (unfold cycle; rewrite N_nat_Z; cbn; lia).
  destruct (check_days_spec cycle 0 cycle_checked i C) as [A1 A2]. apply eq_date_eq in A2.
  replace n with (i + 146097 * k)%Z by lia. replace (i + 146097 * k + 1)%Z with (i + 1 + 146097 * k)%Z by lia.
  rewrite !date_of_shift, A2, ok_shift, next_shift. split; [exact A1|reflexivity].
Qed.
Lemma leap_iff : forall y, is_leap y = true <-> leap y.
Proof.
  intros y. unfold is_leap, leap. rewrite andb_true_iff, orb_true_iff, negb_true_iff, !Z.eqb_eq, Z.eqb_neq.
  rewrite !(Z.mod_divide y) by lia. tauto.
Qed.
Lemma month_days_iff : forall y m n, month_days y m n <-> ((1 <= m <= 12)%Z /\ n = month_length y m).
Proof.
  intros y m n. split.
  - intros H. destruct H as [m H|m H|H|H]; cbn [In] in H.
    + repeat (destruct H as [<-|H]; [split; [lia|reflexivity]|]). destruct H.
    + repeat (destruct H as [<-|H]; [split; [lia|reflexivity]|]). destruct H.
    + apply leap_iff in H. unfold month_length. rewrite H. split; [lia|reflexivity].
    + split; [lia|]. unfold month_length. destruct (is_leap y) eqn:E; [apply leap_iff in E; contradiction|reflexivity].
  - intros [B ->]. assert (C : In m [1;2;3;4;5;6;7;8;9;10;11;12]%Z) by (cbn [In]; lia).
    cbn [In] in C. repeat (destruct C as [<-|C]; [try (apply md_long; cbn [In]; lia); try (apply md_short; cbn [In]; lia)|]); [|destruct C].
    cbn [month_length]. destruct (is_leap y) eqn:E; [apply md_leap, leap_iff, E|apply md_february; intros L; apply leap_iff in L; congruence].
Qed.
Lemma month_length_pos : forall y m, (28 <= month_length y m <= 31)%Z.
Proof. intros y m. unfold month_length. repeat match goal with |- context [match ?x with _ => _ end] => destruct x end; lia. Qed.
Lemma tomorrow_iff : forall a b, tomorrow a b <-> (ok_date a = true /\ b = next_date a).
Proof.
  intros [[y m] d] b. unfold ok_date, next_date. split.
  - intros H. inversion H as [y' m' d' n Hm Hd|y' m' n Hm Hl|y']; subst.
    + apply month_days_iff in Hm as [B ->]. split; [rewrite !andb_true_iff, !Z.leb_le; lia|]. destruct (Z.ltb_spec d (month_length y m)); [reflexivity|lia].
    + apply month_days_iff in Hm as [B E]. pose proof (month_length_pos y m). split; [rewrite !andb_true_iff, !Z.leb_le; lia|].
      destruct (Z.ltb_spec d (month_length y m)); [lia|]. destruct (Z.ltb_spec m 12); [reflexivity|lia].
    + split; reflexivity.
  - intros [O ->]. rewrite !andb_true_iff, !Z.leb_le in O. destruct O as [[[O1 O2] O3] O4].
    destruct (Z.ltb_spec d (month_length y m)) as [L|L].
    + apply tm_day with (n := month_length y m); [apply month_days_iff; split; [lia|reflexivity]|lia].
    + assert (d = month_length y m) by lia. destruct (Z.ltb_spec m 12) as [K|K].
      * subst d. apply tm_month; [apply month_days_iff; split; [lia|reflexivity]|exact K].
      * assert (m = 12%Z) by lia. subst m. cbn [month_length] in H. subst d. apply tm_year.
Qed.
Lemma next_inj : forall a b, ok_date a = true -> ok_date b = true -> next_date a = next_date b -> a = b.
Proof.
  intros [[y m] d] [[y' m'] d'] A B E. unfold ok_date in A, B. rewrite !andb_true_iff, !Z.leb_le in A, B. unfold next_date in E.
  destruct A as [[[A1 A2] A3] A4]. destruct B as [[[B1 B2] B3] B4].
  destruct (Z.ltb_spec d (month_length y m)) as [L|L]; destruct (Z.ltb_spec d' (month_length y' m')) as [L'|L'];
    destruct (Z.ltb_spec m 12) as [K|K]; destruct (Z.ltb_spec m' 12) as [K'|K']; injection E; intros; subst; try lia.
  all: try (f_equal; lia).
  all: try (assert (m' = m) by lia; subst; f_equal; lia).
  assert (m = 12%Z) by lia. assert (m' = 12%Z) by lia. subst. assert (y = y') by lia. subst. f_equal. cbn [month_length] in *. lia.
Qed.
Theorem calendar_iff : forall n d, calendar n d <-> d = date_of n.
Proof.
  assert (S : forall n d, calendar n d -> d = date_of n).
  { intros n d H. induction H as [|n a b H IH T|n a b H IH T].
    - reflexivity.
    - apply tomorrow_iff in T as [_ ->]. subst a. symmetry. apply date_step.
    - apply tomorrow_iff in T as [O E]. destruct (date_step (n - 1)) as [O' E']. replace (n - 1 + 1)%Z with n in E' by lia.
      apply next_inj; [exact O|exact O'|]. rewrite <- E, <- E'. exact IH. }
  intros n d. split; [apply S|]. intros ->.
  assert (P : forall k, calendar (Z.of_nat k) (date_of (Z.of_nat k))).
  { induction k as [|k IH]; [exact cal_first|]. rewrite Nat2Z.inj_succ. unfold Z.succ. eapply cal_next; [exact IH|].
    destruct (date_step (Z.of_nat k)) as [O E]. apply tomorrow_iff. split; assumption. }
  assert (M : forall k, calendar (- Z.of_nat k) (date_of (- Z.of_nat k))).
  { induction k as [|k IH]; [exact cal_first|]. replace (- Z.of_nat (Datatypes.S k))%Z with (- Z.of_nat k - 1)%Z by lia. eapply cal_previous; [exact IH|].
    destruct (date_step (- Z.of_nat k - 1)) as [O E]. replace (- Z.of_nat k - 1 + 1)%Z with (- Z.of_nat k)%Z in E by lia. apply tomorrow_iff. split; assumption. }
  destruct (Z.le_ge_cases 0 n) as [H|H].
  - rewrite <- (Z2Nat.id n H). apply P.
  - replace n with (- Z.of_nat (Z.to_nat (- n)))%Z by (rewrite Z2Nat.id; lia). apply M.
Qed.

(** ** Clock and rounding. *)
Lemma clock_iff : forall local n h m s, reads local n h m s <-> (n = Z.div local 86400 /\ (h, m, s) = clock_of local).
Proof.
  intros local n h m s. unfold reads, clock_of.
  assert (E := Z.div_mod local 86400 ltac:(lia)). assert (B := Z.mod_pos_bound local 86400 ltac:(lia)).
  set (x := Z.modulo local 86400) in *. set (q := Z.div local 86400) in *.
  assert (E1 := Z.div_mod x 3600 ltac:(lia)). assert (B1 := Z.mod_pos_bound x 3600 ltac:(lia)). cbv zeta.
  set (h0 := Z.div x 3600) in *. replace (x - h0 * 3600)%Z with (Z.modulo x 3600) by lia. set (y := Z.modulo x 3600) in *.
  assert (E2 := Z.div_mod y 60 ltac:(lia)). assert (B2 := Z.mod_pos_bound y 60 ltac:(lia)). set (m0 := Z.div y 60) in *. set (z := Z.modulo y 60) in *.
  clearbody x q h0 y m0 z. split.
  - intros (A & Bh & Bm & Bs). assert (n = q) by lia. assert (h = h0) by lia. assert (m = m0) by lia. subst. split; [reflexivity|]. f_equal. lia.
  - intros [-> K]. injection K as -> -> ->. repeat split; lia.
Qed.
Theorem round_nearest : forall t m, nearest_us (t_ns t) m <-> m = t_ns (round_us t).
Proof.
  intros t m. unfold nearest_us, round_us. cbn [t_ns].
  assert (E := Z.div_mod (t_ns t) 1000 ltac:(lia)). assert (B := Z.mod_pos_bound (t_ns t) 1000 ltac:(lia)).
  set (r := Z.modulo (t_ns t) 1000) in *. set (q := Z.div (t_ns t) 1000) in *. clearbody r q.
  split.
  - intros [[k ->] K]. destruct (Z.ltb_spec (r + r) 1000); lia.
  - intros ->. destruct (Z.ltb_spec (r + r) 1000); (split; [|lia]); [exists q; lia|exists (q + 1)%Z; lia].
Qed.
