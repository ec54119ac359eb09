(** What the elements of layouts show. *)
From Coq Require Import Strings.String Strings.Ascii NArith ZArith List Bool Lia Arith.
From Verif Require Import GoStr GoNum Syntax Value Util Time Spec_syntax Spec_base Spec_time Time_proofs Time2_proofs Time3_proofs Spec_layout Layout_proofs.
From Verif Require Term_proofs Base_proofs.
Import ListNotations.
Open Scope string_scope.

(** ** Numbers *)
Lemma number_iff : forall w x y, (0 <= x)%Z -> (number w x y <-> y = append_int x w).
Proof. intros w x y H. unfold number. rewrite append_int_iff by exact H. tauto. Qed.
Lemma itoa_len : forall x, (0 <= x)%Z -> 1 <= String.length (itoa x).
Proof.
  intros x H. assert (D : decimal (Z.to_N x) (itoa x)) by (apply Base_proofs.itoa_decimal; rewrite Z2N.id by exact H; reflexivity).
  remember (itoa x) as s eqn:E. clear E.
  assert (G : forall d, (d < 10)%N -> String.length (digit d) = 1).
  { intros d B. assert (C : In d [0;1;2;3;4;5;6;7;8;9]%N) by (cbn [In]; lia). cbn [In] in C. repeat (destruct C as [<-|C]; [reflexivity|]). destruct C. }
  destruct D as [d Hd|n s d Hn Hd D]; [rewrite G by exact Hd; lia|]. rewrite Term_proofs.length_app, G by exact Hd. lia.
Qed.
Lemma append_int_01 : forall x, (0 <= x)%Z -> append_int x 1 = append_int x 0.
Proof. intros x H. unfold append_int. rewrite Z.abs_eq by exact H. pose proof (itoa_len x H) as L. replace (1 - String.length (itoa x)) with 0 by lia. reflexivity. Qed.
Lemma number1_iff : forall x y, (0 <= x)%Z -> (number 1 x y <-> y = append_int x 0).
Proof. intros x y H. rewrite number_iff, append_int_01 by exact H. reflexivity. Qed.
Fixpoint blanks (n : nat) : string := match n with O => "" | S n' => String " " (blanks n') end.
Lemma blanks_len : forall n, String.length (blanks n) = n.
Proof. induction n as [|n IH]; [reflexivity|]. cbn [blanks String.length]. rewrite IH. reflexivity. Qed.
Lemma spaced_iff : forall w n s, spaced w n s <-> s = blanks (w - String.length (itoa (Z.of_N n))) ++ itoa (Z.of_N n).
Proof.
  intros w n s. split.
  - induction 1 as [w n s D L|w n s H IH L].
    + apply Base_proofs.itoa_decimal in D. rewrite D. replace (w - String.length s) with 0 by lia. reflexivity.
    + set (i := itoa (Z.of_N n)) in *. rewrite IH in L. rewrite Term_proofs.length_app, blanks_len in L.
      replace (Datatypes.S w - String.length i) with (Datatypes.S (w - String.length i)) by lia. cbn [blanks append]. rewrite <- IH. reflexivity.
  - intros ->. set (i := itoa (Z.of_N n)). assert (D : decimal n i) by (apply Base_proofs.itoa_decimal; reflexivity).
    destruct (le_lt_dec w (String.length i)) as [L|L]; [replace (w - String.length i) with 0 by lia; apply sd_enough; assumption|].
    remember (w - String.length i) as k eqn:K. assert (W : w = k + String.length i) by lia. clear K L. subst w.
    induction k as [|k IH]; [apply sd_enough; [exact D|apply le_n]|]. cbn [blanks Nat.add append]. apply sd_space; [exact IH|]. rewrite Term_proofs.length_app, blanks_len. reflexivity.
Qed.
Definition under_text (w : nat) (x : Z) : string := blanks (w - String.length (itoa x)) ++ itoa x.
Lemma under_iff : forall w x y, (0 <= x)%Z -> (under w x y <-> y = under_text w x).
Proof. intros w x y H. unfold under. rewrite spaced_iff, Z2N.id by exact H. unfold under_text. tauto. Qed.
Lemma upto : forall (P : Z -> bool) n, forallb P (map Z.of_nat (seq 0 n)) = true -> forall x, (0 <= x < Z.of_nat n)%Z -> P x = true.
Proof.
  intros P n H x B. rewrite forallb_forall in H. apply H. apply in_map_iff. exists (Z.to_nat x). split; [apply Z2Nat.id; lia|]. apply in_seq. lia.
Qed.
Lemma under_day : forall d, (0 <= d < 32)%Z -> under_text 2 d = (if (d <? 10)%Z then " " else "") ++ append_int d 0.
Proof.
  intros d B. apply String.eqb_eq. revert d B. apply (upto (fun d => String.eqb (under_text 2 d) ((if (d <? 10)%Z then " " else "") ++ append_int d 0)) 32). vm_compute. reflexivity.
Qed.
Lemma under_yday : forall d, (0 <= d < 400)%Z -> under_text 3 d = (if (d <? 100)%Z then " " else "") ++ (if (d <? 10)%Z then " " else "") ++ append_int d 0.
Proof.
  intros d B. apply String.eqb_eq. revert d B.
  apply (upto (fun d => String.eqb (under_text 3 d) ((if (d <? 100)%Z then " " else "") ++ (if (d <? 10)%Z then " " else "") ++ append_int d 0)) 400). vm_compute. reflexivity.
Qed.

(** ** The day of the year *)
Definition yday_ok (i : Z) : bool :=
  let '(y, d) := year_day i in let '(y', d') := year_day (i - d) in
  (0 <=? d)%Z && (d <? 366)%Z && (y' =? y)%Z && (d' =? 0)%Z.
Fixpoint check_ydays (n : nat) (i : Z) : bool := match n with O => true | S n' => if yday_ok i then check_ydays n' (i + 1) else false end.
Lemma check_ydays_spec : forall n i, check_ydays n i = true -> forall k, (i <= k < i + Z.of_nat n)%Z -> yday_ok k = true.
Proof.
  induction n as [|n IH]; intros i H k K; [lia|]. cbn [check_ydays] in H. destruct (yday_ok i) eqn:E; [|discriminate H].
  destruct (Z.eq_dec k i) as [->|N]; [exact E|]. apply (IH (i + 1)%Z H). lia.
Qed.
Lemma ydays_checked : check_ydays cycle 0 = true.
Proof. vm_compute. reflexivity. Qed.
Lemma year_day_shift : forall i k, year_day (i + 146097 * k) = (fst (year_day i) + 400 * k, snd (year_day i))%Z.
Proof.
  intros i k. unfold year_day.
  replace (Z.div (i + 146097 * k) 146097) with (Z.div i 146097 + k)%Z by (replace (i + 146097 * k)%Z with (i + k * 146097)%Z by lia; rewrite Z.div_add by lia; reflexivity).
  replace (i + 146097 * k - 146097 * (i / 146097 + k))%Z with (i - 146097 * (i / 146097))%Z by lia. cbv zeta. cbn [fst snd]. f_equal. lia.
Qed.
Lemma year_day_first : forall n, (0 <= snd (year_day n) < 366)%Z /\ year_day (n - snd (year_day n)) = (fst (year_day n), 0)%Z.
Proof.
  intros n. pose proof (Z.div_mod n 146097 ltac:(lia)) as E. pose proof (Z.mod_pos_bound n 146097 ltac:(lia)) as B.
  set (k := Z.div n 146097) in *. set (i := Z.modulo n 146097) in *. clearbody k i.
  assert (OK : yday_ok i = true). { apply (check_ydays_spec cycle 0 ydays_checked). change (Z.of_nat cycle) with (Z.of_nat (N.to_nat 146097)). rewrite N_nat_Z. lia. }
  replace n with (i + 146097 * k)%Z by lia. rewrite year_day_shift. cbn [fst snd]. unfold yday_ok in OK. destruct (year_day i) as [y d] eqn:Y. cbn [fst snd].
  destruct (year_day (i - d)) as [y' d'] eqn:Y'. rewrite !andb_true_iff, Z.leb_le, Z.ltb_lt, !Z.eqb_eq in OK. split; [lia|].
  replace (i + 146097 * k - d)%Z with (i - d + 146097 * k)%Z by lia. rewrite year_day_shift, Y'. cbn [fst snd]. destruct OK as [[[_ _] ->] ->]. reflexivity.
Qed.
Lemma first_day : forall n, calendar (n - snd (year_day n)) (fst (year_day n), 1, 1)%Z.
Proof.
  intros n. apply calendar_iff. unfold date_of. rewrite (proj2 (year_day_first n)). unfold month_day. destruct (is_leap _); reflexivity.
Qed.

(** ** Names *)
Lemma month_iff : forall m s x i, (m = Z.of_nat i + 1)%Z -> nth_error months i = Some (s, x) -> s = month_name m /\ x = three (month_name m).
Proof.
  intros m s x i -> H. do 12 (destruct i as [|i]; [injection H as <- <-; split; reflexivity|]). destruct i; discriminate H.
Qed.
Lemma month_exists : forall m, (1 <= m <= 12)%Z -> exists i, (m = Z.of_nat i + 1)%Z /\ nth_error months i = Some (month_name m, three (month_name m)).
Proof.
  intros m B. exists (Z.to_nat (m - 1)). split; [lia|]. assert (C : In m [1;2;3;4;5;6;7;8;9;10;11;12]%Z) by (cbn [In]; lia). cbn [In] in C.
  repeat (destruct C as [<-|C]; [reflexivity|]). destruct C.
Qed.
Lemma weekday_iff : forall n w s x i, (n = 7 * w + Z.of_nat i)%Z -> nth_error weekdays i = Some (s, x) ->
  s = weekday_name (weekday_of n) /\ x = three (weekday_name (weekday_of n)).
Proof.
  intros n w s x i -> H. assert (E : weekday_of (7 * w + Z.of_nat i) = weekday_of (Z.of_nat i)).
  { unfold weekday_of. replace (7 * w + Z.of_nat i + 1)%Z with (Z.of_nat i + 1 + w * 7)%Z by lia. apply Z.mod_add. lia. }
  rewrite E. do 7 (destruct i as [|i]; [injection H as <- <-; split; reflexivity|]). destruct i; discriminate H.
Qed.
Lemma weekday_exists : forall n, exists w i, (n = 7 * w + Z.of_nat i)%Z /\ nth_error weekdays i = Some (weekday_name (weekday_of n), three (weekday_name (weekday_of n))).
Proof.
  intros n. exists (Z.div n 7), (Z.to_nat (Z.modulo n 7)). pose proof (Z.mod_pos_bound n 7 ltac:(lia)) as B. pose proof (Z.div_mod n 7 ltac:(lia)) as E.
  split; [lia|]. assert (W : weekday_of n = weekday_of (Z.modulo n 7)).
  { unfold weekday_of. rewrite E at 1. replace (7 * (n / 7) + n mod 7 + 1)%Z with (n mod 7 + 1 + (n / 7) * 7)%Z by lia. apply Z.mod_add. lia. }
  rewrite W. set (m := Z.modulo n 7) in *. clearbody m. assert (C : In m [0;1;2;3;4;5;6]%Z) by (cbn [In]; lia). cbn [In] in C.
  repeat (destruct C as [<-|C]; [reflexivity|]). destruct C.
Qed.

(** ** Hours *)
Definition hour12 (h : Z) : Z := if (Z.modulo h 12 =? 0)%Z then 12%Z else Z.modulo h 12.
Lemma twelve_iff : forall h k pm, (0 <= h < 24)%Z -> (twelve h k pm <-> k = hour12 h /\ pm = (12 <=? h)%Z).
Proof.
  intros h k pm B. split.
  - assert (S : forall h, (1 <= h < 12)%Z -> Z.modulo h 12 = h) by (intros; apply Z.mod_small; lia). intros H. unfold hour12. destruct H as [|h H| |h H].
    + split; reflexivity.
    + rewrite S by exact H. destruct (Z.eqb_spec h 0); [lia|]. destruct (Z.leb_spec 12 h); [lia|auto].
    + split; reflexivity.
    + replace (h + 12)%Z with (h + 1 * 12)%Z by lia. rewrite Z.mod_add, S by lia. destruct (Z.eqb_spec h 0); [lia|]. destruct (Z.leb_spec 12 (h + 1 * 12)); [auto|lia].
  - intros [-> ->]. destruct (Z.eq_dec h 0) as [->|N0]; [exact tw_midnight|]. destruct (Z.eq_dec h 12) as [->|N1]; [exact tw_noon|]. unfold hour12.
    destruct (Z.leb_spec 12 h).
    + assert (E : Z.modulo h 12 = (h - 12)%Z). { replace h with (h - 12 + 1 * 12)%Z at 1 by lia. rewrite Z.mod_add by lia. apply Z.mod_small. lia. }
      rewrite E. destruct (Z.eqb_spec (h - 12) 0); [lia|]. replace h with (h - 12 + 12)%Z at 1 by lia. apply tw_evening. lia.
    + rewrite Z.mod_small by lia. destruct (Z.eqb_spec h 0); [lia|]. apply tw_morning. lia.
Qed.

(** ** Offsets *)
Definition off_sign (o : Z) : string := if (Z.quot o 60 <? 0)%Z then "-" else "+".
Definition off_hours (o : Z) : string := append_int (Z.quot (Z.abs (Z.quot o 60)) 60) 2.
Definition off_minutes (o : Z) : string := append_int (Z.rem (Z.abs (Z.quot o 60)) 60) 2.
Definition off_seconds (o : Z) : string := append_int (Z.rem (if (Z.quot o 60 <? 0)%Z then (- o)%Z else o) 60) 2.
Lemma neg_two : forall k, (0 < k)%Z -> append_int (- k) 2 = "-" ++ append_int k 2.
Proof. intros k H. unfold append_int. rewrite Z.abs_opp. destruct (Z.ltb_spec (- k) 0); [|lia]. destruct (Z.ltb_spec k 0); [lia|reflexivity]. Qed.
Lemma parts_iff : forall o a h m s, offset_parts o a h m s <-> (a = off_sign o /\ h = off_hours o /\ m = off_minutes o /\ s = off_seconds o).
Proof.
  assert (E : forall h m k, (0 <= h /\ 0 <= m < 60 /\ 0 <= k < 60)%Z ->
    Z.quot (3600 * h + 60 * m + k) 60 = (60 * h + m)%Z /\ Z.quot (60 * h + m) 60 = h /\ Z.rem (60 * h + m) 60 = m /\ Z.rem (3600 * h + 60 * m + k) 60 = k).
  { intros h m k B. repeat split; symmetry.
    - apply Z.quot_unique with k; lia.
    - apply Z.quot_unique with m; lia.
    - apply Z.rem_unique with h; lia.
    - apply Z.rem_unique with (60 * h + m)%Z; lia. }
  assert (P : forall h m k, (0 <= h /\ 0 <= m < 60 /\ 0 <= k < 60)%Z -> let o := (3600 * h + 60 * m + k)%Z in
    off_sign o = "+" /\ off_hours o = append_int h 2 /\ off_minutes o = append_int m 2 /\ off_seconds o = append_int k 2).
  { intros h m k B o. unfold off_sign, off_hours, off_minutes, off_seconds, o. destruct (E h m k B) as (E1 & E2 & E3 & E4). rewrite E1. destruct (Z.ltb_spec (60 * h + m) 0); [lia|].
    rewrite Z.abs_eq by lia. rewrite E2, E3, E4. auto. }
  assert (N : forall h m k, (0 <= h /\ 0 <= m < 60 /\ 0 <= k < 60 /\ 60 * h + m <> 0)%Z -> let o := (- (3600 * h + 60 * m + k))%Z in
    off_sign o = "-" /\ off_hours o = append_int h 2 /\ off_minutes o = append_int m 2 /\ off_seconds o = append_int k 2).
  { intros h m k B o. unfold off_sign, off_hours, off_minutes, off_seconds, o. destruct (E h m k ltac:(lia)) as (E1 & E2 & E3 & E4). rewrite Z.quot_opp_l by lia. rewrite E1.
    destruct (Z.ltb_spec (- (60 * h + m)) 0); [|lia]. rewrite Z.abs_opp, Z.abs_eq, Z.opp_involutive by lia. rewrite E2, E3, E4. auto. }
  assert (J : forall k, (0 < k < 60)%Z -> let o := (- k)%Z in off_sign o = "+" /\ off_hours o = "00" /\ off_minutes o = "00" /\ off_seconds o = "-" ++ append_int k 2).
  { intros k B o. unfold off_sign, off_hours, off_minutes, off_seconds, o. rewrite Z.quot_opp_l, (Z.quot_small k 60) by lia. change (- 0 <? 0)%Z with false. cbv iota.
    rewrite (Z.rem_opp_l k), (Z.rem_small k 60), neg_two by lia. repeat split; reflexivity. }
  intros o a hs ms s. split.
  - intros H. destruct H as [h m k hh mm ss B Hh Hm Hk|k ss B Hk|h m k hh mm ss B Hh Hm Hk].
    + pose proof (proj1 Hh) as Ph. apply two_iff in Hh, Hm, Hk; try lia. subst. destruct (P h m k ltac:(lia)) as (-> & -> & -> & ->). auto.
    + apply two_iff in Hk; [|lia]. subst. destruct (J k B) as (-> & -> & -> & ->). auto.
    + pose proof (proj1 Hh) as Ph. apply two_iff in Hh, Hm, Hk; try lia. subst.
      assert (Q : (60 * h + m <> 0)%Z) by (intros Q; apply (proj2 (proj2 B)); f_equal; lia). destruct (N h m k ltac:(lia)) as (-> & -> & -> & ->). auto.
  - intros (-> & -> & -> & ->).
    pose proof (Z.div_mod (Z.abs o) 60 ltac:(lia)) as D1. pose proof (Z.mod_pos_bound (Z.abs o) 60 ltac:(lia)) as B1.
    set (k := Z.modulo (Z.abs o) 60) in *. set (z := Z.div (Z.abs o) 60) in *.
    pose proof (Z.div_mod z 60 ltac:(lia)) as D2. pose proof (Z.mod_pos_bound z 60 ltac:(lia)) as B2. set (m := Z.modulo z 60) in *. set (h := Z.div z 60) in *. clearbody k z m h.
    assert (T : forall x, (0 <= x)%Z -> two x (append_int x 2)) by (intros x Hx; apply two_iff; [exact Hx|reflexivity]).
    destruct (Z.le_gt_cases 0 o) as [Q|Q].
    + replace o with (3600 * h + 60 * m + k)%Z by lia. destruct (P h m k ltac:(lia)) as (-> & -> & -> & ->). apply op_east; [lia|apply T; lia..].
    + destruct (Z.eq_dec (60 * h + m) 0) as [R|R].
      * replace o with (- k)%Z by lia. destruct (J k ltac:(lia)) as (-> & -> & -> & ->). apply op_just_west; [lia|apply T; lia].
      * replace o with (- (3600 * h + 60 * m + k))%Z by lia. destruct (N h m k ltac:(lia)) as (-> & -> & -> & ->). apply op_west; [|apply T; lia..]. repeat split; try lia. intros U. injection U as -> ->. lia.
Qed.
Lemma offset_is_iff : forall f M s, offset_is f M s <-> s = off_sign (m_offset M) ++ f (off_hours (m_offset M)) (off_minutes (m_offset M)) (off_seconds (m_offset M)).
Proof.
  intros f M s. unfold offset_is. split.
  - intros (a & h & m & k & H & ->). apply parts_iff in H as (-> & -> & -> & ->). reflexivity.
  - intros ->. eexists. eexists. eexists. eexists. split; [apply parts_iff; repeat split|reflexivity].
Qed.
Definition off_form (f : offset_form) : string -> string -> string -> string := fun h m s =>
  match f with OffShort => h | OffPlain => h ++ m | OffColon => h ++ ":" ++ m | OffSeconds => h ++ m ++ s | OffColonSeconds => h ++ ":" ++ m ++ ":" ++ s end.
Lemma append_offset_eq : forall iso f o, append_offset iso f o = if ((o =? 0)%Z && iso)%bool then "Z" else off_sign o ++ off_form f (off_hours o) (off_minutes o) (off_seconds o).
Proof.
  intros iso f o. unfold append_offset. destruct (_ && _); [reflexivity|]. cbv zeta. unfold off_sign, off_hours, off_minutes, off_seconds.
  destruct (_ <? 0)%Z; destruct f; cbn [off_form append]; rewrite ?str_app_nil; reflexivity.
Qed.
Lemma offset_plain : forall f M s, offset_is (off_form f) M s <-> s = append_offset false f (m_offset M).
Proof. intros f M s. rewrite offset_is_iff, append_offset_eq, andb_false_r. reflexivity. Qed.
Lemma offset_iso : forall f M s, offset_or_z (off_form f) M s <-> s = append_offset true f (m_offset M).
Proof.
  intros f M s. unfold offset_or_z. rewrite offset_is_iff, append_offset_eq, andb_true_r. destruct (Z.eqb_spec (m_offset M) 0); tauto.
Qed.
