(** The texts of times, and layouts. *)
From Coq Require Import Strings.String Strings.Ascii NArith ZArith List Bool Lia Arith.
From Verif Require Import GoStr GoNum Syntax Value Util Time Spec_syntax Spec_base Spec_time Time_proofs.
From Verif Require Term_proofs Base_proofs Grammar_proofs.
Import ListNotations.
Open Scope string_scope.

(** ** Numbers *)
Lemma str_app_assoc : forall a b c : string, (a ++ b) ++ c = a ++ (b ++ c).
Proof. induction a as [|x a IH]; intros b c; [reflexivity|]. cbn [append]. rewrite IH. reflexivity. Qed.
Lemma str_app_nil : forall a : string, a ++ "" = a.
Proof. induction a as [|x a IH]; [reflexivity|]. cbn [append]. rewrite IH. reflexivity. Qed.
Lemma zeros_len : forall n, String.length (zeros n) = n.
Proof. induction n as [|n IH]; [reflexivity|]. cbn [zeros String.length]. rewrite IH. reflexivity. Qed.
Lemma padded_iff : forall w n s, padded w n s <-> s = zeros (w - String.length (itoa (Z.of_N n))) ++ itoa (Z.of_N n).
Proof.
  intros w n s. split.
  - induction 1 as [w n s D L|w n s H IH L].
    + apply Base_proofs.itoa_decimal in D. rewrite D. replace (w - String.length s) with 0 by lia. reflexivity.
    + set (i := itoa (Z.of_N n)) in *. rewrite IH in L. rewrite Term_proofs.length_app, zeros_len in L.
      replace (Datatypes.S w - String.length i) with (Datatypes.S (w - String.length i)) by lia. cbn [zeros append]. rewrite <- IH. reflexivity.
  - intros ->. set (i := itoa (Z.of_N n)). assert (D : decimal n i) by (apply Base_proofs.itoa_decimal; reflexivity).
    destruct (le_lt_dec w (String.length i)) as [L|L]; [replace (w - String.length i) with 0 by lia; apply pd_enough; assumption|].
    remember (w - String.length i) as k eqn:K. assert (W : w = k + String.length i) by lia. clear K L. subst w.
    induction k as [|k IH]; [apply pd_enough; [exact D|apply le_n]|]. cbn [zeros Nat.add append]. apply pd_zero; [exact IH|]. rewrite Term_proofs.length_app, zeros_len. reflexivity.
Qed.
Lemma append_int_iff : forall x w s, (0 <= x)%Z -> (padded w (Z.to_N x) s <-> s = append_int x w).
Proof.
  intros x w s H. rewrite padded_iff, Z2N.id by exact H. unfold append_int. rewrite Z.abs_eq by exact H. destruct (Z.ltb_spec x 0); [lia|]. cbn [append]. reflexivity.
Qed.
Lemma two_iff : forall x s, (0 <= x)%Z -> (two x s <-> s = append_int x 2).
Proof. intros x s H. unfold two. rewrite append_int_iff by exact H. tauto. Qed.
Lemma year_iff : forall y s, year_text y s <-> s = append_int y 4.
Proof.
  intros y s. split.
  - intros [t H P|t H P].
    + apply append_int_iff in P; assumption.
    + apply append_int_iff in P; [|lia]. subst t. unfold append_int. rewrite Z.abs_opp. destruct (Z.ltb_spec (- y) 0); [lia|]. destruct (Z.ltb_spec y 0); [reflexivity|lia].
  - intros ->. destruct (Z.ltb_spec y 0) as [H|H].
    + assert (E : append_int y 4 = "-" ++ append_int (- y) 4).
      { unfold append_int. rewrite Z.abs_opp. destruct (Z.ltb_spec (- y) 0); [lia|]. destruct (Z.ltb_spec y 0); [reflexivity|lia]. }
      rewrite E. apply yt_negative; [exact H|]. apply append_int_iff; [lia|reflexivity].
    + apply yt_positive; [exact H|]. apply append_int_iff; [exact H|reflexivity].
Qed.
Lemma zone_iff : forall o s, zone_text o s <-> s = append_offset true OffColon o.
Proof.
  assert (E : forall h m k, (0 <= h /\ 0 <= m < 60 /\ 0 <= k < 60)%Z ->
    Z.quot (3600 * h + 60 * m + k) 60 = (60 * h + m)%Z /\ Z.quot (60 * h + m) 60 = h /\ Z.rem (60 * h + m) 60 = m).
  { intros h m k B. repeat split; symmetry.
    - apply Z.quot_unique with k; lia.
    - apply Z.quot_unique with m; lia.
    - apply Z.rem_unique with h; lia. }
  intros o s. split.
  - intros H. destruct H as [|h m k hh mm B Hh Hm|k B|h m k hh mm B Hh Hm].
    + reflexivity.
    + pose proof (proj1 Hh) as P. destruct (E h m k ltac:(lia)) as (E1 & E2 & E3). apply two_iff in Hh; [|exact P]. apply two_iff in Hm; [|lia]. subst.
      unfold append_offset. rewrite E1. destruct (Z.eqb_spec (3600 * h + 60 * m + k) 0) as [Q|Q]; [exfalso; apply (proj2 (proj2 B)); f_equal; [f_equal|]; lia|]. cbn [andb].
      destruct (Z.ltb_spec (60 * h + m) 0); [lia|]. rewrite Z.abs_eq by lia. rewrite E2, E3. cbn [append]. rewrite str_app_nil. reflexivity.
    + unfold append_offset. assert (Q : Z.quot (- k) 60 = 0%Z) by (rewrite Z.quot_opp_l by lia; rewrite Z.quot_small by lia; reflexivity). rewrite Q. destruct (Z.eqb_spec (- k) 0); [lia|]. reflexivity.
    + pose proof (proj1 Hh) as P. destruct (E h m k ltac:(lia)) as (E1 & E2 & E3). apply two_iff in Hh; [|exact P]. apply two_iff in Hm; [|lia]. subst.
      assert (N : (60 * h + m <> 0)%Z) by (intros Q; apply (proj2 (proj2 B)); f_equal; lia).
      unfold append_offset. rewrite Z.quot_opp_l by lia. rewrite E1. destruct (Z.eqb_spec (- (3600 * h + 60 * m + k)) 0); [lia|]. cbn [andb].
      destruct (Z.ltb_spec (- (60 * h + m)) 0); [|lia]. rewrite Z.abs_opp, Z.abs_eq by lia. rewrite E2, E3. cbn [append]. rewrite str_app_nil. reflexivity.
  - intros ->. destruct (Z.eq_dec o 0) as [->|N]; [exact zt_utc|].
    pose proof (Z.div_mod (Z.abs o) 60 ltac:(lia)) as D1. pose proof (Z.mod_pos_bound (Z.abs o) 60 ltac:(lia)) as B1.
    set (k := Z.modulo (Z.abs o) 60) in *. set (z := Z.div (Z.abs o) 60) in *.
    pose proof (Z.div_mod z 60 ltac:(lia)) as D2. pose proof (Z.mod_pos_bound z 60 ltac:(lia)) as B2. set (m := Z.modulo z 60) in *. set (h := Z.div z 60) in *. clearbody k z m h.
    destruct (E h m k ltac:(lia)) as (E1 & E2 & E3).
    destruct (Z.le_gt_cases 0 o) as [P|P].
    + replace o with (3600 * h + 60 * m + k)%Z by lia. unfold append_offset. rewrite E1. destruct (Z.eqb_spec (3600 * h + 60 * m + k) 0); [lia|]. cbn [andb].
      destruct (Z.ltb_spec (60 * h + m) 0); [lia|]. rewrite Z.abs_eq by lia. rewrite E2, E3, str_app_nil. apply zt_east; [|apply two_iff; [lia|reflexivity]|apply two_iff; [lia|reflexivity]].
      repeat split; try lia. intros Q. injection Q as -> -> ->. lia.
    + destruct (Z.eq_dec (60 * h + m) 0) as [Q|Q].
      * replace o with (- k)%Z by lia. unfold append_offset. assert (R : Z.quot (- k) 60 = 0%Z) by (rewrite Z.quot_opp_l by lia; rewrite Z.quot_small by lia; reflexivity). rewrite R.
        destruct (Z.eqb_spec (- k) 0); [lia|]. apply zt_just_west. lia.
      * replace o with (- (3600 * h + 60 * m + k))%Z by lia. unfold append_offset. rewrite Z.quot_opp_l by lia. rewrite E1. destruct (Z.eqb_spec (- (3600 * h + 60 * m + k)) 0); [lia|]. cbn [andb].
        destruct (Z.ltb_spec (- (60 * h + m)) 0); [|lia]. rewrite Z.abs_opp, Z.abs_eq by lia. rewrite E2, E3, str_app_nil.
        apply zt_west; [|apply two_iff; [lia|reflexivity]|apply two_iff; [lia|reflexivity]]. repeat split; try lia. intros R. injection R as -> ->. lia.
Qed.

(** ** Layouts as lists of elements *)
Fixpoint chunks (n : nat) (layout : string) : list (string * std) * string :=
  match n with
  | O => ([], "")
  | S n' =>
    match next_chunk layout with
    | (p, None) => ([], p)
    | (p, Some (x, r)) => let '(l, e) := chunks n' r in ((p, x) :: l, e)
    end
  end.
Fixpoint render (f : std -> string) (l : list (string * std)) (e : string) : string :=
  match l with
  | [] => e
  | (p, x) :: l' => p ++ f x ++ render f l' e
  end.
Lemma format_render : forall n zs layout t, format_f n zs layout t = render (append_std zs t) (fst (chunks n layout)) (snd (chunks n layout)).
Proof.
  induction n as [|n IH]; intros zs layout t; [reflexivity|]. cbn [format_f chunks]. destruct (next_chunk layout) as [p [[x r]|]]; [|reflexivity].
  rewrite IH. destruct (chunks n r) as [l e]. reflexivity.
Qed.
Definition stamped (zs : zones) (t : gotime) (fr : string) : string :=
  append_std zs t StdLongYear ++ "-" ++ append_std zs t StdZeroMonth ++ "-" ++ append_std zs t StdZeroDay ++ "T" ++ append_std zs t StdHour ++ ":" ++
  append_std zs t StdZeroMinute ++ ":" ++ append_std zs t StdZeroSecond ++ fr ++ append_std zs t (StdOffset true OffColon).
Lemma rfc3339_chunks : forall zs t, format zs rfc3339 t = stamped zs t "".
Proof.
  intros zs t. unfold format. rewrite format_render.
  assert (E : chunks (Datatypes.S (String.length rfc3339)) rfc3339 = ([("", StdLongYear); ("-", StdZeroMonth); ("-", StdZeroDay); ("T", StdHour); (":", StdZeroMinute); (":", StdZeroSecond); ("", StdOffset true OffColon)], "")) by (vm_compute; reflexivity).
  rewrite E. cbn [fst snd render]. unfold stamped. change ("" ++ ?x) with x. rewrite str_app_nil. reflexivity.
Qed.
Lemma micro_chunks : forall zs t, format zs rfc3339_micro t = stamped zs t (append_nano "." false 6 (nanosecond t)).
Proof.
  intros zs t. unfold format. rewrite format_render.
  assert (E : chunks (Datatypes.S (String.length rfc3339_micro)) rfc3339_micro = ([("", StdLongYear); ("-", StdZeroMonth); ("-", StdZeroDay); ("T", StdHour); (":", StdZeroMinute); (":", StdZeroSecond); ("", StdFrac "." false 6); ("", StdOffset true OffColon)], "")) by (vm_compute; reflexivity).
  rewrite E. cbn [fst snd render]. unfold stamped. change ("" ++ ?x) with x. rewrite str_app_nil.
  assert (F : append_std zs t (StdFrac "." false 6) = append_nano "." false 6 (nanosecond t)).
  { unfold append_std. destruct (zone_of zs t) as [nm off]. destruct (year_day _) as [a b]. destruct (month_day _ _) as [a' b']. destruct (clock_of _) as [[a'' b''] c'']. reflexivity. }
  rewrite F. reflexivity.
Qed.
Lemma local_parts : forall zs t, exists n y mo d h mi s, calendar n (y, mo, d) /\ reads (local_seconds zs t) n h mi s /\ (1 <= mo)%Z /\ (1 <= d)%Z /\
  append_std zs t StdLongYear = append_int y 4 /\ append_std zs t StdZeroMonth = append_int mo 2 /\ append_std zs t StdZeroDay = append_int d 2 /\
  append_std zs t StdHour = append_int h 2 /\ append_std zs t StdZeroMinute = append_int mi 2 /\ append_std zs t StdZeroSecond = append_int s 2.
Proof.
  intros zs t. set (loc := local_seconds zs t). destruct (year_day (Z.div loc 86400)) as [y yd] eqn:Ey. destruct (month_day y yd) as [mo d] eqn:Em.
  destruct (clock_of loc) as [[h mi] s] eqn:Ec. exists (Z.div loc 86400), y, mo, d, h, mi, s.
  assert (C : (y, mo, d) = date_of (Z.div loc 86400)) by (unfold date_of; rewrite Ey, Em; reflexivity).
  split; [apply calendar_iff; exact C|]. split; [apply clock_iff; split; [reflexivity|symmetry; exact Ec]|].
  destruct (date_step (Z.div loc 86400)) as [O _]. rewrite <- C in O. unfold ok_date in O. rewrite !andb_true_iff, !Z.leb_le in O.
  split; [lia|]. split; [lia|]. unfold append_std. fold loc. destruct (zone_of zs t) as [nm off]. rewrite Ey. replace (yd + 1 - 1)%Z with yd by lia. rewrite Em, Ec. repeat split.
Qed.
Theorem stamped_iff : forall zs t fr s, stamp_with fr (local_seconds zs t) (snd (zone_of zs t)) s <-> s = stamped zs t fr.
Proof.
  intros zs t fr s. unfold stamped. destruct (local_parts zs t) as (n & y & mo & d & h & mi & se & C & R & Bm & Bd & E1 & E2 & E3 & E4 & E5 & E6).
  rewrite E1, E2, E3, E4, E5, E6. assert (E7 : append_std zs t (StdOffset true OffColon) = append_offset true OffColon (snd (zone_of zs t))).
  { unfold append_std. destruct (zone_of zs t) as [nm off]. destruct (year_day _) as [a b]. destruct (month_day _ _) as [a' b']. destruct (clock_of _) as [[a'' b''] c'']. reflexivity. }
  rewrite E7. assert (B := R). unfold reads in B. split.
  - intros H. destruct H as [n' y' mo' d' h' mi' s' ty tmo td th tmi ts tz C' R' Hy Hmo Hd Hh Hmi Hs Hz].
    apply clock_iff in R as [Rn Rc]. apply clock_iff in R' as [Rn' Rc']. rewrite <- Rn in Rn'. subst n'. rewrite <- Rc in Rc'. injection Rc' as -> -> ->.
    apply calendar_iff in C. apply calendar_iff in C'. rewrite <- C in C'. injection C' as -> -> ->.
    apply year_iff in Hy. apply two_iff in Hmo, Hd, Hh, Hmi, Hs; try lia. apply zone_iff in Hz. subst. reflexivity.
  - intros ->. eapply stamp_intro; [exact C|exact R|apply year_iff; reflexivity|apply two_iff; [lia|reflexivity]..|apply zone_iff; reflexivity].
Qed.
Theorem default_stamp : forall zs t s, stamp (local_seconds zs t) (snd (zone_of zs t)) s <-> s = format zs rfc3339 t.
Proof. intros zs t s. rewrite rfc3339_chunks. apply stamped_iff. Qed.
Lemma decimal_len : forall n s, decimal n s -> forall k, (n < 10 ^ N.of_nat k)%N -> 1 <= k -> String.length s <= k.
Proof.
  induction 1 as [d Hd|n s d Hn Hd H IH]; intros k B K.
  - assert (L : String.length (digit d) = 1) by (assert (C : In d [0;1;2;3;4;5;6;7;8;9]%N) by (cbn [In]; lia); cbn [In] in C; repeat (destruct C as [<-|C]; [reflexivity|]); destruct C). lia.
  - assert (L : String.length (digit d) = 1) by (assert (C : In d [0;1;2;3;4;5;6;7;8;9]%N) by (cbn [In]; lia); cbn [In] in C; repeat (destruct C as [<-|C]; [reflexivity|]); destruct C).
    rewrite Term_proofs.length_app, L. destruct k as [|[|k]]; [lia|change (10 ^ N.of_nat 1)%N with 10%N in B; lia|].
    assert (P : (10 ^ N.of_nat (Datatypes.S (Datatypes.S k)) = 10 * 10 ^ N.of_nat (Datatypes.S k))%N) by (rewrite Nat2N.inj_succ, N.pow_succ_r'; reflexivity).
    rewrite P in B. specialize (IH (Datatypes.S k) ltac:(lia) ltac:(lia)). lia.
Qed.
Lemma take_app : forall a b, substring 0 (String.length a) (a ++ b) = a.
Proof. induction a as [|x a IH]; intros b; [destruct b; reflexivity|]. cbn [String.length append substring]. rewrite IH. reflexivity. Qed.
Lemma micro_digits : forall u, (0 <= u < 1000000)%Z -> substring 0 6 (append_int (1000 * u) 9) = append_int u 6.
Proof.
  intros u B. destruct (Z.eq_dec u 0) as [->|N]; [reflexivity|].
  assert (D : decimal (Z.to_N u) (itoa u)) by (apply Base_proofs.itoa_decimal; rewrite Z2N.id by lia; reflexivity).
  assert (D3 : decimal (Z.to_N (1000 * u)) (itoa u ++ "000")).
  { replace (itoa u ++ "000") with (((itoa u ++ digit 0) ++ digit 0) ++ digit 0) by (rewrite !str_app_assoc; reflexivity).
    replace (Z.to_N (1000 * u)) with (10 * (10 * (10 * Z.to_N u + 0) + 0) + 0)%N by lia. apply de_more; [lia|reflexivity|]. apply de_more; [lia|reflexivity|]. apply de_more; [lia|reflexivity|]. exact D. }
  assert (L : String.length (itoa u) <= 6) by (apply (decimal_len _ _ D); [change (10 ^ N.of_nat 6)%N with 1000000%N; lia|lia]).
  apply Base_proofs.itoa_decimal in D3. rewrite Z2N.id in D3 by lia. unfold append_int. rewrite !Z.abs_eq by lia. rewrite D3.
  destruct (Z.ltb_spec (1000 * u) 0); [lia|]. destruct (Z.ltb_spec u 0); [lia|]. change ("" ++ ?x) with x. rewrite Term_proofs.length_app. cbn [String.length].
  replace (9 - (String.length (itoa u) + 3)) with (6 - String.length (itoa u)) by lia. rewrite <- str_app_assoc.
  set (x := zeros (6 - String.length (itoa u)) ++ itoa u). assert (E : 6 = String.length x) by (unfold x; rewrite Term_proofs.length_app, zeros_len; lia).
  rewrite E at 1. apply take_app.
Qed.
Theorem micro_stamp : forall zs t us s, nanosecond t = (1000 * us)%Z ->
  (stamp_us (local_seconds zs t) us (snd (zone_of zs t)) s <-> s = format zs rfc3339_micro t).
Proof.
  intros zs t us s E. assert (B : (0 <= us < 1000000)%Z) by (pose proof (Z.mod_pos_bound (t_ns t) 1000000000 ltac:(lia)) as B; fold (nanosecond t) in B; lia).
  rewrite micro_chunks, E. unfold append_nano. cbn [andb Nat.ltb Nat.leb]. rewrite micro_digits by exact B. rewrite <- stamped_iff. unfold stamp_us. split.
  - intros (f & _ & P & H). apply append_int_iff in P; [|lia]. subst f. exact H.
  - intros H. exists (append_int us 6). split; [lia|]. split; [apply append_int_iff; [lia|reflexivity]|exact H].
Qed.
Lemma nanosecond_round : forall t, exists us, nanosecond (round_us t) = (1000 * us)%Z.
Proof.
  intros t. assert (H : nearest_us (t_ns t) (t_ns (round_us t))) by (apply round_nearest; reflexivity). destruct H as [[k E] _]. unfold nanosecond. rewrite E.
  exists (Z.modulo k 1000000). replace (k * 1000)%Z with (1000 * k)%Z by lia. change 1000000000%Z with (1000 * 1000000)%Z. rewrite Z.mul_mod_distr_l by lia. reflexivity.
Qed.
