(** What the text of a time tells; layouts without quotes; options. *)
From Coq Require Import Strings.String Strings.Ascii NArith ZArith List Bool Lia Arith.
From Verif Require Import GoStr GoNum Syntax Value Util Time Spec_syntax Spec_base Spec_util Spec_time Time_proofs Time2_proofs.
From Verif Require Term_proofs Base_proofs Grammar_proofs Quote_proofs Util_proofs.
Import ListNotations.
Open Scope string_scope.

(** ** Different days have different dates. *)
Definition date_key (x : Z * Z * Z) : Z := let '(y, m, d) := x in (y * 1000 + m * 50 + d)%Z.
Lemma date_key_step : forall n, (date_key (date_of n) < date_key (date_of (n + 1)))%Z.
Proof.
  intros n. destruct (date_step n) as [O ->]. destruct (date_of n) as [[y m] d]. unfold ok_date in O. rewrite !andb_true_iff, !Z.leb_le in O.
  pose proof (month_length_pos y m) as M. unfold next_date. destruct (Z.ltb_spec d (month_length y m)); [cbn [date_key]; lia|]. destruct (Z.ltb_spec m 12); cbn [date_key]; lia.
Qed.
Lemma date_key_mono : forall k n, (date_key (date_of n) + Z.of_nat k <= date_key (date_of (n + Z.of_nat k)))%Z.
Proof.
  induction k as [|k IH]; intros n; [cbn [Z.of_nat]; rewrite !Z.add_0_r; lia|]. specialize (IH n). pose proof (date_key_step (n + Z.of_nat k)) as H.
  replace (n + Z.of_nat (Datatypes.S k))%Z with (n + Z.of_nat k + 1)%Z by lia. lia.
Qed.
Theorem calendar_inj : forall n m d, calendar n d -> calendar m d -> n = m.
Proof.
  assert (G : forall n m, (n < m)%Z -> date_of n <> date_of m).
  { intros n m L E. pose proof (date_key_mono (Z.to_nat (m - n)) n) as H. rewrite Z2Nat.id in H by lia. replace (n + (m - n))%Z with m in H by lia. rewrite E in H. lia. }
  intros n m d Hn Hm. apply calendar_iff in Hn. apply calendar_iff in Hm. destruct (Z.lt_trichotomy n m) as [L|[L|L]]; [exfalso; apply (G n m L); congruence|exact L|exfalso; apply (G m n L); congruence].
Qed.

(** ** Numbers can be read back. *)
Lemma zeros_all : forall k, all (fun a => Ascii.eqb a "0") (zeros k) = true.
Proof. induction k as [|k IH]; [reflexivity|exact IH]. Qed.
Lemma append_int_val : forall x w, (0 <= x)%Z -> digits_val 0 (append_int x w) = Some (Z.to_N x).
Proof.
  intros x w H. unfold append_int. destruct (Z.ltb_spec x 0); [lia|]. change ("" ++ ?y) with y. rewrite Z.abs_eq by exact H.
  apply Base_proofs.zeros_val; [apply zeros_all|]. assert (D : decimal (Z.to_N x) (itoa x)) by (apply Base_proofs.itoa_decimal; rewrite Z2N.id by exact H; reflexivity).
  apply Base_proofs.decimal_digits in D. tauto.
Qed.
Lemma append_int_digits : forall x w, (0 <= x)%Z -> all is_digit (append_int x w) = true.
Proof. intros x w H. eapply Base_proofs.digits_val_digits. apply append_int_val. exact H. Qed.
Lemma append_int_inj : forall x y w v, (0 <= x)%Z -> (0 <= y)%Z -> append_int x w = append_int y v -> x = y.
Proof. intros x y w v Hx Hy E. apply (f_equal (digits_val 0)) in E. rewrite !append_int_val in E by assumption. injection E as E. lia. Qed.
Lemma append_int_len : forall x w, (0 <= x < 10 ^ Z.of_nat w)%Z -> 1 <= w -> String.length (append_int x w) = w.
Proof.
  intros x w H W. unfold append_int. destruct (Z.ltb_spec x 0); [lia|]. change ("" ++ ?y) with y. rewrite Z.abs_eq by lia.
  rewrite Term_proofs.length_app, zeros_len. assert (D : decimal (Z.to_N x) (itoa x)) by (apply Base_proofs.itoa_decimal; rewrite Z2N.id by lia; reflexivity).
  assert (L : String.length (itoa x) <= w); [|lia]. apply (decimal_len _ _ D); [|exact W].
  apply N2Z.inj_lt. rewrite Z2N.id by lia. rewrite N2Z.inj_pow, nat_N_Z. apply H.
Qed.
Lemma year_inj : forall y y', append_int y 4 = append_int y' 4 -> y = y'.
Proof.
  assert (G : forall y, (y < 0)%Z -> append_int y 4 = "-" ++ append_int (- y) 4).
  { intros y H. unfold append_int. rewrite Z.abs_opp. destruct (Z.ltb_spec (- y) 0); [lia|]. destruct (Z.ltb_spec y 0); [reflexivity|lia]. }
  intros y y' E. destruct (Z.lt_ge_cases y 0) as [H|H]; destruct (Z.lt_ge_cases y' 0) as [H'|H'].
  - rewrite (G y H), (G y' H') in E. injection E as E. apply append_int_inj in E; lia.
  - rewrite (G y H) in E. pose proof (append_int_digits y' 4 H') as D. rewrite <- E in D. discriminate D.
  - rewrite (G y' H') in E. pose proof (append_int_digits y 4 H) as D. rewrite E in D. discriminate D.
  - apply append_int_inj in E; lia.
Qed.
Fixpoint last_char (s : string) : ascii := match s with "" => " "%char | String a "" => a | String _ r => last_char r end.
Lemma last_char_app : forall a b, b <> "" -> last_char (a ++ b) = last_char b.
Proof.
  induction a as [|x a IH]; intros b N; [reflexivity|]. cbn [append last_char]. rewrite IH by exact N. destruct (a ++ b) eqn:E; [|reflexivity].
  destruct a; [|discriminate E]. cbn [append] in E. contradiction.
Qed.
Lemma last_digit : forall s, all is_digit s = true -> s <> "" -> is_digit (last_char s) = true.
Proof.
  induction s as [|a s IH]; intros H N; [contradiction|]. cbn [all] in H. apply andb_prop in H as [Ha H]. cbn [last_char]. destruct s as [|b s]; [exact Ha|]. apply IH; [exact H|discriminate].
Qed.
Lemma zone_shape : forall o s, small_zone o -> zone_text o s ->
  (o = 0%Z /\ s = "Z") \/
  exists h m, ((0 <= h < 100) /\ (0 <= m < 60))%Z /\
    ((o = (3600 * h + 60 * m)%Z /\ s = "+" ++ append_int h 2 ++ ":" ++ append_int m 2) \/ (o = (- (3600 * h + 60 * m))%Z /\ s = "-" ++ append_int h 2 ++ ":" ++ append_int m 2)).
Proof.
  intros o s [D B] H. destruct H as [|h m k hh mm C Hh Hm|k C|h m k hh mm C Hh Hm].
  - left. auto.
  - right. exists h, m. pose proof (proj1 Hh) as P. apply two_iff in Hh; [|exact P]. apply two_iff in Hm; [|lia]. destruct D as [q D]. split; [lia|]. left. split; [lia|congruence].
  - destruct D as [q D]. lia.
  - right. exists h, m. pose proof (proj1 Hh) as P. apply two_iff in Hh; [|exact P]. apply two_iff in Hm; [|lia]. destruct D as [q D]. split; [lia|]. right. split; [lia|congruence].
Qed.
Lemma two_len : forall x, (0 <= x < 100)%Z -> String.length (append_int x 2) = 2.
Proof. intros x H. apply append_int_len; [exact H|lia]. Qed.
Lemma zone_last : forall o s, small_zone o -> zone_text o s -> s <> "" /\ (String.length s = 1 /\ last_char s = "Z"%char \/ String.length s = 6 /\ is_digit (last_char s) = true).
Proof.
  intros o s B H. destruct (zone_shape o s B H) as [[-> ->]|(h & m & C & [[-> ->]|[-> ->]])]; [split; [discriminate|left; auto]|..];
    (split; [discriminate|]; right; split;
      [rewrite !Term_proofs.length_app, !two_len by lia; reflexivity|
       rewrite <- !str_app_assoc; rewrite last_char_app by (intros E; pose proof (two_len m ltac:(lia)) as L; rewrite E in L; discriminate L);
       apply last_digit; [apply append_int_digits; lia|intros E; pose proof (two_len m ltac:(lia)) as L; rewrite E in L; discriminate L]]).
Qed.
Lemma zone_inj : forall o o' s, small_zone o -> small_zone o' -> zone_text o s -> zone_text o' s -> o = o'.
Proof.
  intros o o' s B B' H H'. destruct (zone_shape o s B H) as [[-> ->]|(h & m & C & D)]; destruct (zone_shape o' _ B' H') as [[-> E]|(h' & m' & C' & D')].
  - reflexivity.
  - destruct D' as [[_ E]|[_ E]]; discriminate E.
  - subst s. destruct D as [[_ E]|[_ E]]; discriminate E.
  - assert (G : append_int h 2 ++ ":" ++ append_int m 2 = append_int h' 2 ++ ":" ++ append_int m' 2 -> h = h' /\ m = m').
    { intros E. apply Quote_proofs.split_at in E as [E1 E2]; [|rewrite !two_len by lia; reflexivity]. apply append_int_inj in E1; [|lia|lia]. injection E2 as E2. apply append_int_inj in E2; [|lia|lia]. auto. }
    destruct D as [[-> ->]|[-> ->]]; destruct D' as [[-> E]|[-> E]]; try discriminate E; injection E as E; apply G in E as [-> ->]; reflexivity.
Qed.
Theorem stamp_inj : forall f f' l o l' o' s, String.length f = String.length f' -> small_zone o -> small_zone o' ->
  stamp_with f l o s -> stamp_with f' l' o' s -> l = l' /\ o = o' /\ f = f'.
Proof.
  intros f f' l o l' o' s Lf B B' H H'.
  destruct H as [n y mo d h mi se ty tmo td th tmi ts tz C R Hy Hmo Hd Hh Hmi Hs Hz].
  inversion H' as [n' y' mo' d' h' mi' se' ty' tmo' td' th' tmi' ts' tz' C' R' Hy' Hmo' Hd' Hh' Hmi' Hs' Hz' E0].
  assert (E : ty' ++ "-" ++ tmo' ++ "-" ++ td' ++ "T" ++ th' ++ ":" ++ tmi' ++ ":" ++ ts' ++ f' ++ tz' = ty ++ "-" ++ tmo ++ "-" ++ td ++ "T" ++ th ++ ":" ++ tmi ++ ":" ++ ts ++ f ++ tz) by exact E0. clear E0 H'.
  assert (K : forall n y mo d, calendar n (y, mo, d) -> (1 <= mo <= 12 /\ 1 <= d <= 31)%Z).
  { clear. intros n y mo d C. apply calendar_iff in C. destruct (date_step n) as [O _]. rewrite <- C in O. unfold ok_date in O. rewrite !andb_true_iff, !Z.leb_le in O. pose proof (month_length_pos y mo). lia. }
  pose proof (K _ _ _ _ C) as K1. pose proof (K _ _ _ _ C') as K2. clear K. assert (R1 := R). assert (R1' := R'). unfold reads in R1, R1'.
  assert (T : forall x t, two x t -> (0 <= x < 100)%Z -> String.length t = 2) by (intros x t W Bx; apply two_iff in W; [|lia]; subst t; apply two_len; exact Bx).
  assert (Lt : String.length tz = String.length tz').
  { destruct (zone_last _ _ B Hz) as [N1 Z1]. destruct (zone_last _ _ B' Hz') as [N2 Z2].
    assert (LL : last_char tz' = last_char tz).
    { apply (f_equal last_char) in E. rewrite <- !str_app_assoc in E. rewrite (fun a => last_char_app a tz' N2), (fun a => last_char_app a tz N1) in E. exact E. }
    destruct Z1 as [[L1 Z1]|[L1 Z1]]; destruct Z2 as [[L2 Z2]|[L2 Z2]]; try congruence; [rewrite LL, Z1 in Z2; discriminate Z2|rewrite <- LL, Z2 in Z1; discriminate Z1]. }
  assert (Ly : String.length ty' = String.length ty).
  { pose proof (f_equal String.length E) as LE. rewrite !Term_proofs.length_app in LE.
    rewrite (T _ _ Hmo), (T _ _ Hd), (T _ _ Hh), (T _ _ Hmi), (T _ _ Hs), (T _ _ Hmo'), (T _ _ Hd'), (T _ _ Hh'), (T _ _ Hmi'), (T _ _ Hs') in LE by lia. lia. }
  apply Quote_proofs.split_at in E as [E1 E]; [|exact Ly]. cbn [append] in E. injection E as E.
  apply Quote_proofs.split_at in E as [E2 E]; [|rewrite (T _ _ Hmo), (T _ _ Hmo') by lia; reflexivity]. injection E as E.
  apply Quote_proofs.split_at in E as [E3 E]; [|rewrite (T _ _ Hd), (T _ _ Hd') by lia; reflexivity]. injection E as E.
  apply Quote_proofs.split_at in E as [E4 E]; [|rewrite (T _ _ Hh), (T _ _ Hh') by lia; reflexivity]. injection E as E.
  apply Quote_proofs.split_at in E as [E5 E]; [|rewrite (T _ _ Hmi), (T _ _ Hmi') by lia; reflexivity]. injection E as E.
  apply Quote_proofs.split_at in E as [E6 E]; [|rewrite (T _ _ Hs), (T _ _ Hs') by lia; reflexivity].
  apply Quote_proofs.split_at in E as [E7 E8]; [|symmetry; exact Lf].
  subst ty' tmo' td' th' tmi' ts' tz'.
  assert (W : forall x y t, two x t -> two y t -> x = y).
  { intros a b t Wa Wb. pose proof (proj1 Wa) as Pa. pose proof (proj1 Wb) as Pb. apply two_iff in Wa; [|exact Pa]. apply two_iff in Wb; [|exact Pb]. subst t. apply append_int_inj in Wb; assumption. }
  apply year_iff in Hy. apply year_iff in Hy'. rewrite Hy in Hy'. apply year_inj in Hy'. subst y'.
  rewrite (W _ _ _ Hmo' Hmo), (W _ _ _ Hd' Hd) in C'. pose proof (calendar_inj _ _ _ C C') as En. subst n'.
  pose proof (W _ _ _ Hh Hh'). pose proof (W _ _ _ Hmi Hmi'). pose proof (W _ _ _ Hs Hs'). subst.
  split; [lia|]. split; [eapply zone_inj; eassumption|reflexivity].
Qed.
Theorem default_tells : forall zs t u, sound_zones zs -> (fmt_time zs rfc3339 t = fmt_time zs rfc3339 u -> seconds (round_us t) = seconds (round_us u)).
Proof.
  intros zs t u Z E. unfold fmt_time in E. assert (A := proj2 (default_stamp zs (round_us t) _) eq_refl). assert (A' := proj2 (default_stamp zs (round_us u) _) eq_refl). rewrite <- E in A'.
  destruct (stamp_inj _ _ _ _ _ _ _ eq_refl (Z _ _) (Z _ _) A A') as (L & O & _). unfold local_seconds in L. unfold zone_of in *. lia.
Qed.
Theorem micro_tells : forall zs t u, sound_zones zs -> (fmt_time zs rfc3339_micro t = fmt_time zs rfc3339_micro u -> t_ns (round_us t) = t_ns (round_us u)).
Proof.
  intros zs t u Z E. unfold fmt_time in E. destruct (nanosecond_round t) as [a Ha]. destruct (nanosecond_round u) as [b Hb].
  assert (A := proj2 (micro_stamp zs (round_us t) a _ Ha) eq_refl). assert (A' := proj2 (micro_stamp zs (round_us u) b _ Hb) eq_refl). rewrite <- E in A'.
  destruct A as (f & Pa & Fa & A). destruct A' as (g & Pb & Fb & A').
  assert (Q : forall t x, nanosecond t = (1000 * x)%Z -> (0 <= x < 1000000)%Z) by (clear; intros t x H; pose proof (Z.mod_pos_bound (t_ns t) 1000000000 ltac:(lia)) as B; fold (nanosecond t) in B; lia).
  pose proof (Q _ _ Ha) as Qa. pose proof (Q _ _ Hb) as Qb. apply append_int_iff in Fa; [|lia]. apply append_int_iff in Fb; [|lia].
  assert (L : forall x, (0 <= x < 1000000)%Z -> String.length (append_int x 6) = 6) by (intros x H; apply append_int_len; [exact H|lia]).
  assert (Lf : String.length ("." ++ f) = String.length ("." ++ g)) by (subst f g; rewrite !Term_proofs.length_app, (L a Qa), (L b Qb); reflexivity).
  destruct (stamp_inj _ _ _ _ _ _ _ Lf (Z _ _) (Z _ _) A A') as (Ls & O & F).
  subst f g. injection F as F. apply append_int_inj in F; [|lia|lia]. unfold local_seconds in Ls.
  pose proof (Z.div_mod (t_ns (round_us t)) 1000000000 ltac:(lia)) as D. pose proof (Z.div_mod (t_ns (round_us u)) 1000000000 ltac:(lia)) as D'.
  fold (seconds (round_us t)) (nanosecond (round_us t)) in D. fold (seconds (round_us u)) (nanosecond (round_us u)) in D'. unfold zone_of in *. lia.
Qed.

(** ** Quotes *)
Lemma quiet_app : forall a b, quiet (a ++ b) = quiet a && quiet b.
Proof. intros a b. apply Base_proofs.all_app. Qed.
Lemma quiet_body : forall s, quiet s = true -> body_ok "'" s = true.
Proof.
  induction s as [|a s IH]; intros H; [reflexivity|]. unfold quiet in H. cbn [all] in H. apply andb_prop in H as [Ha H]. apply andb_prop in Ha as [A1 A2].
  cbn [body_ok]. apply negb_true_iff in A1. rewrite A1, A2. cbn [andb]. apply IH. exact H.
Qed.
Lemma digits_quiet : forall s, all is_digit s = true -> quiet s = true.
Proof.
  unfold quiet. induction s as [|a s IH]; intros H; [reflexivity|]. cbn [all] in *. apply andb_prop in H as [Ha H]. rewrite (IH H), andb_true_r.
  destruct (Ascii.eqb_spec a "'") as [->|_]; [discriminate Ha|]. destruct (Ascii.eqb_spec a nul) as [->|_]; [discriminate Ha|reflexivity].
Qed.
Lemma append_int_quiet : forall x w, quiet (append_int x w) = true.
Proof.
  intros x w. destruct (Z.lt_ge_cases x 0) as [H|H]; [|apply digits_quiet, append_int_digits; lia].
  assert (E : append_int x w = "-" ++ append_int (- x) w) by (unfold append_int; rewrite Z.abs_opp; destruct (Z.ltb_spec (- x) 0); [lia|]; destruct (Z.ltb_spec x 0); [reflexivity|lia]).
  rewrite E, quiet_app. rewrite (digits_quiet (append_int (- x) w)) by (apply append_int_digits; lia). reflexivity.
Qed.
Lemma offset_quiet : forall iso f o, quiet (append_offset iso f o) = true.
Proof.
  intros iso f o. unfold append_offset. destruct (_ && _); [reflexivity|]. cbv zeta. rewrite !quiet_app, append_int_quiet.
  destruct (_ <? 0)%Z; destruct f; rewrite ?quiet_app, ?append_int_quiet; reflexivity.
Qed.
Lemma trim_quiet : forall s, quiet s = true -> quiet (trim_zeros s) = true.
Proof.
  unfold quiet. induction s as [|a s IH]; intros H; [reflexivity|]. cbn [all] in H. apply andb_prop in H as [Ha H]. cbn [trim_zeros]. cbv zeta.
  destruct (Ascii.eqb a "0" && is_empty (trim_zeros s)); [reflexivity|]. cbn [all]. rewrite Ha, (IH H). reflexivity.
Qed.
Lemma take_quiet : forall s n, quiet s = true -> quiet (substring 0 n s) = true.
Proof.
  unfold quiet. induction s as [|a s IH]; intros n H; [destruct n; reflexivity|]. destruct n; [reflexivity|]. cbn [all] in H. apply andb_prop in H as [Ha H]. cbn [substring all]. rewrite Ha, (IH _ H). reflexivity.
Qed.
Lemma nano_quiet : forall sep trim n x, quiet (String sep "") = true -> quiet (append_nano sep trim n x) = true.
Proof.
  intros sep trim n x S. unfold append_nano. destruct (_ && _); [reflexivity|]. cbv zeta.
  assert (G : quiet (if Nat.ltb n 9 then substring 0 n (append_int x 9) else append_int x 9) = true) by (destruct (Nat.ltb n 9); [apply take_quiet|]; apply append_int_quiet).
  set (ds := if Nat.ltb n 9 then _ else _) in *. clearbody ds.
  assert (C : forall r, quiet r = true -> quiet (String sep r) = true) by (intros r R; change (String sep r) with (String sep "" ++ r); rewrite quiet_app, S, R; reflexivity).
  destruct trim; [|apply C; exact G]. destruct (is_empty (trim_zeros ds)); [reflexivity|]. apply C, trim_quiet, G.
Qed.
Definition quiet_std (x : std) : bool := match x with StdFrac sep _ _ => quiet (String sep "") | _ => true end.
Lemma nth_quiet : forall l i, forallb quiet l = true -> quiet (nth i l "") = true.
Proof. induction l as [|x l IH]; intros [|i] H; try reflexivity; cbn [forallb] in H; apply andb_prop in H as [H1 H2]; cbn [nth]; auto. Qed.
Lemma std_quiet : forall zs t x, quiet_zones zs -> quiet_std x = true -> quiet (append_std zs t x) = true.
Proof.
  intros zs t x Z S. unfold append_std. pose proof (Z (t_loc t) (seconds t)) as Hn. fold (zone_of zs t) in Hn. destruct (zone_of zs t) as [nm off]. cbn [fst] in Hn.
  destruct (year_day _) as [a b]. destruct (month_day _ _) as [a' b']. destruct (clock_of _) as [[a'' b''] c''].
  destruct x; rewrite ?quiet_app, ?append_int_quiet, ?andb_true_r; try reflexivity; try apply offset_quiet.
  - apply nth_quiet. reflexivity.
  - apply take_quiet, nth_quiet. reflexivity.
  - apply nth_quiet. reflexivity.
  - apply take_quiet, nth_quiet. reflexivity.
  - destruct (_ <? _)%Z; reflexivity.
  - destruct (_ <? 100)%Z; destruct (_ <? 10)%Z; reflexivity.
  - destruct (_ <=? _)%Z; reflexivity.
  - destruct (_ <=? _)%Z; reflexivity.
  - destruct (is_empty nm); [apply offset_quiet|exact Hn].
  - apply nano_quiet. exact S.
Qed.
(** ** Elements of a layout *)
Lemma strip_prefix_app : forall p s r, strip_prefix p s = Some r -> s = p ++ r.
Proof.
  induction p as [|a p IH]; intros s r H; [injection H as <-; destruct s; reflexivity|]. destruct s as [|b s]; [discriminate H|]. cbn [strip_prefix] in H.
  destruct (Ascii.eqb_spec a b) as [<-|_]; [|discriminate H]. rewrite (IH _ _ H). reflexivity.
Qed.
Lemma skip_char_app : forall a s n r, skip_char a s = (n, r) -> exists e, s = e ++ r /\ String.length e = n.
Proof.
  induction s as [|b s IH]; intros n r H; cbn [skip_char] in H.
  - injection H as <- <-. exists "". auto.
  - destruct (Ascii.eqb b a); [|injection H as <- <-; exists ""; auto]. destruct (skip_char a s) as [m r'] eqn:E. injection H as <- <-. destruct (IH _ _ eq_refl) as (e & -> & L).
    exists (String b e). cbn [append String.length]. rewrite L. auto.
Qed.
Ltac stripped := repeat match goal with
  | H : match strip_prefix ?p ?s with Some _ => _ | None => _ end = Some _ |- _ => let E := fresh "E" in destruct (strip_prefix p s) eqn:E; [apply strip_prefix_app in E|]
  | H : (if ?b then _ else _) = Some _ |- _ => let E := fresh "C" in destruct b eqn:E
  | H : None = Some _ |- _ => discriminate H
  end.
Lemma offset_chunk_app : forall iso s x r, offset_chunk iso s = Some (x, r) -> (exists e, s = e ++ r) /\ quiet_std x = true.
Proof.
  intros iso s x r H. unfold offset_chunk in H. stripped; injection H as <- <-; (split; [eexists; eassumption|reflexivity]).
Qed.
Definition shows (s : string) (o : option (string * std * string)) : Prop :=
  match o with
  | Some (p, x, r) => exists e, s = p ++ e ++ r /\ e <> "" /\ (quiet s = true -> quiet_std x = true)
  | None => True
  end.
Lemma chunk_at_app : forall s, shows s (chunk_at s).
Proof.
  intros s. destruct (chunk_at s) as [[[p x] r]|] eqn:H; [|exact Logic.I]. cbn [shows]. unfold chunk_at in H. cbv zeta in H. destruct s as [|c s]; [discriminate H|].
  assert (G : forall e, s = e ++ r -> p = "" -> exists e, String c s = p ++ e ++ r /\ e <> "") by (intros e -> ->; exists (String c e); split; [reflexivity|discriminate]).
  assert (G0 : s = r -> p = "" -> exists e, String c s = p ++ e ++ r /\ e <> "") by (intros E1; apply (G ""); exact E1).
  assert (K : (exists e, String c s = p ++ e ++ r /\ e <> "") -> (quiet (String c s) = true -> quiet_std x = true) -> exists e, String c s = p ++ e ++ r /\ e <> "" /\ (quiet (String c s) = true -> quiet_std x = true)).
  { intros (e & E1 & E2) Q. exists e. auto. }
  apply K; clear K.
  - destruct (Ascii.eqb_spec c "J") as [->|_].
    { stripped; injection H as <- <- <-; [apply (G "anuary")|apply (G "an")]; subst; reflexivity. }
    destruct (Ascii.eqb_spec c "M") as [->|_].
    { stripped; injection H as <- <- <-; [apply (G "onday")|apply (G "on")|apply (G "ST")]; subst; reflexivity. }
    destruct (Ascii.eqb_spec c "0") as [->|_].
    { destruct s as [|d s]; [discriminate H|]. stripped; injection H as <- <- <-; [apply (G (String d "")); reflexivity..|]. eapply G; [eassumption|reflexivity]. }
    destruct (Ascii.eqb_spec c "1") as [->|_]; [stripped; injection H as <- <- <-; [eapply G; [eassumption|reflexivity]|apply G0; reflexivity]|].
    destruct (Ascii.eqb_spec c "2") as [->|_]; [stripped; injection H as <- <- <-; [eapply G; [eassumption|reflexivity]|apply G0; reflexivity]|].
    destruct (Ascii.eqb_spec c "_") as [->|_].
    { stripped; injection H as <- <- <-.
      - exists "2006". rewrite E0. split; [reflexivity|discriminate].
      - eapply G; [eassumption|reflexivity].
      - eapply G; [eassumption|reflexivity]. }
    destruct (Ascii.eqb c "3"); [injection H as <- <- <-; apply G0; reflexivity|].
    destruct (Ascii.eqb c "4"); [injection H as <- <- <-; apply G0; reflexivity|].
    destruct (Ascii.eqb c "5"); [injection H as <- <- <-; apply G0; reflexivity|].
    destruct (Ascii.eqb c "P"); [stripped; injection H as <- <- <-; eapply G; [eassumption|reflexivity]|].
    destruct (Ascii.eqb c "p"); [stripped; injection H as <- <- <-; eapply G; [eassumption|reflexivity]|].
    destruct (Ascii.eqb c "-").
    { destruct (offset_chunk false s) as [[y q]|] eqn:O; [|discriminate H]. injection H as <- <- <-. destruct (offset_chunk_app _ _ _ _ O) as [[e E] _]. eapply G; [exact E|reflexivity]. }
    destruct (Ascii.eqb c "Z").
    { destruct (offset_chunk true s) as [[y q]|] eqn:O; [|discriminate H]. injection H as <- <- <-. destruct (offset_chunk_app _ _ _ _ O) as [[e E] _]. eapply G; [exact E|reflexivity]. }
    destruct (_ || _); [|discriminate H]. destruct s as [|d s]; [discriminate H|]. destruct (_ || _); [|discriminate H]. destruct (skip_char d (String d s)) as [n q] eqn:K.
    destruct (digit_start q); [discriminate H|]. injection H as <- <- <-. destruct (skip_char_app _ _ _ _ K) as (e & E & _). eapply G; [exact E|reflexivity].
  - intros Q. repeat match goal with H : (if Ascii.eqb ?a ?b then _ else _) = Some _ |- _ => destruct (Ascii.eqb a b) end;
      try (stripped; injection H as <- <- <-; reflexivity).
    + destruct s as [|d s]; [discriminate H|]. stripped; injection H as <- <- <-; reflexivity.
    + destruct (offset_chunk false s) as [[y q]|] eqn:O; [|discriminate H]. injection H as <- <- <-. apply (offset_chunk_app _ _ _ _ O).
    + destruct (offset_chunk true s) as [[y q]|] eqn:O; [|discriminate H]. injection H as <- <- <-. apply (offset_chunk_app _ _ _ _ O).
    + destruct (_ || _); [|discriminate H]. destruct s as [|d s]; [discriminate H|]. destruct (_ || _); [|discriminate H]. destruct (skip_char d (String d s)) as [n q] eqn:K.
      destruct (digit_start q); [discriminate H|]. injection H as <- <- <-. cbn [quiet_std]. change (String c (String d s)) with (String c "" ++ String d s) in Q. rewrite quiet_app in Q. apply andb_prop in Q as [Q _]. exact Q.
Qed.
Lemma next_chunk_app : forall s,
  match next_chunk s with
  | (p, Some (x, r)) => exists e, s = p ++ e ++ r /\ e <> "" /\ (quiet s = true -> quiet_std x = true)
  | (p, None) => p = s
  end.
Proof.
  induction s as [|a s IH]; [reflexivity|]. pose proof (chunk_at_app (String a s)) as C. cbn [next_chunk]. destruct (chunk_at (String a s)) as [[[p x] r]|]; [exact C|].
  destruct (next_chunk s) as [p [[x r]|]]; [|rewrite IH; reflexivity]. destruct IH as (e & -> & N & Q). exists e. split; [reflexivity|]. split; [exact N|].
  intros K. apply Q. unfold quiet in *. cbn [all] in K. apply andb_prop in K. tauto.
Qed.
Lemma format_more : forall n m zs s t, String.length s < n -> String.length s < m -> format_f n zs s t = format_f m zs s t.
Proof.
  induction n as [|n IH]; intros [|m] zs s t L M; try lia. cbn [format_f]. pose proof (next_chunk_app s) as C. destruct (next_chunk s) as [p [[x r]|]]; [|reflexivity].
  destruct C as (e & E & N & _). apply (f_equal String.length) in E. rewrite !Term_proofs.length_app in E. assert (1 <= String.length e) by (destruct e; [contradiction|cbn; lia]).
  rewrite (IH m zs r t) by lia. reflexivity.
Qed.
(** Formatting goes element by element. *)
Theorem format_step : forall zs s t, format zs s t =
  match next_chunk s with
  | (p, None) => p
  | (p, Some (x, r)) => p ++ append_std zs t x ++ format zs r t
  end.
Proof.
  intros zs s t. unfold format at 1. cbn [format_f]. pose proof (next_chunk_app s) as C. destruct (next_chunk s) as [p [[x r]|]]; [|reflexivity].
  destruct C as (e & E & N & _). apply (f_equal String.length) in E. rewrite !Term_proofs.length_app in E. assert (1 <= String.length e) by (destruct e; [contradiction|cbn; lia]).
  unfold format. rewrite (format_more (String.length s) (Datatypes.S (String.length r)) zs r t) by lia. reflexivity.
Qed.
Theorem layout_quiet : forall zs layout t, quiet_zones zs -> quiet layout = true -> quiet (format zs layout t) = true.
Proof.
  intros zs layout t Z. unfold format. generalize (Datatypes.S (String.length layout)) as n. intros n. revert layout.
  induction n as [|n IH]; intros s Q; [reflexivity|]. cbn [format_f]. pose proof (next_chunk_app s) as C. destruct (next_chunk s) as [p [[x r]|]]; [|subst p; exact Q].
  destruct C as (e & E & N & S). specialize (S Q). rewrite E, !quiet_app in Q. apply andb_prop in Q as [Qp Q]. apply andb_prop in Q as [_ Qr].
  rewrite !quiet_app, Qp, (std_quiet zs t x Z S), (IH r Qr). reflexivity.
Qed.
Theorem default_quiet : forall zs t, quiet (format zs rfc3339 t) = true.
Proof.
  intros zs t. rewrite rfc3339_chunks. unfold stamped. destruct (local_parts zs t) as (n & y & mo & d & h & mi & se & C & R & Bm & Bd & E1 & E2 & E3 & E4 & E5 & E6).
  rewrite E1, E2, E3, E4, E5, E6. assert (E7 : append_std zs t (StdOffset true OffColon) = append_offset true OffColon (snd (zone_of zs t))).
  { unfold append_std. destruct (zone_of zs t) as [nm off]. destruct (year_day _) as [a b]. destruct (month_day _ _) as [a' b']. destruct (clock_of _) as [[a'' b''] c'']. reflexivity. }
  rewrite E7, !quiet_app, !append_int_quiet, offset_quiet. reflexivity.
Qed.
Theorem default_body : forall zs t, body_ok "'" (fmt_time zs rfc3339 t) = true.
Proof. intros zs t. apply quiet_body, default_quiet. Qed.
Theorem layout_body : forall zs layout, quiet_zones zs -> quiet layout = true -> forall t, body_ok "'" (fmt_time zs layout t) = true.
Proof. intros zs layout Z Q t. apply quiet_body, layout_quiet; assumption. Qed.

(** ** Options *)
Theorem options_last : forall default l x, last_layout default l x -> apply_options default (map Some l) = Some x.
Proof.
  intros default l x H. destruct H as [|l x]; [reflexivity|]. revert default. induction l as [|y l IH]; intros default; [reflexivity|]. cbn. apply IH.
Qed.
Theorem options_nil : forall default opts, apply_options default opts = None <-> In None opts.
Proof.
  intros default opts. revert default. induction opts as [|[y|] opts IH]; intros default; cbn [apply_options In].
  - split; [discriminate|intros []].
  - rewrite IH. split; [auto|intros [H|H]; [discriminate H|exact H]].
  - split; auto.
Qed.
Theorem with_layouts : forall zs l x q args, last_layout rfc3339 l x -> interpolate_with zs (map Some l) q args = interpolate (fmt_time zs x) q args.
Proof. intros zs l x q args H. unfold interpolate_with. rewrite (options_last _ _ _ H). reflexivity. Qed.
Theorem with_nil : forall zs opts q args, In None opts -> interpolate_with zs opts q args = RPanic nil_deref.
Proof. intros zs opts q args H. unfold interpolate_with. apply (options_nil rfc3339) in H. rewrite H. reflexivity. Qed.
(** What a time becomes. *)
Theorem time_literal : forall zs t s, encode_value (fmt_time zs rfc3339) (VTime t) = ROk s <->
  (t_ns t = 0%Z /\ s = "'0000-00-00'") \/
  (t_ns t <> 0%Z /\ exists m x, nearest_us (t_ns t) m /\ stamp (local_seconds zs (GoTime m (t_loc t) None)) (snd (zs (t_loc t) (seconds (GoTime m (t_loc t) None)))) x /\ s = "'" ++ x ++ "'").
Proof.
  intros zs t s. cbn [encode_value]. unfold is_zero_time. destruct (Z.eqb_spec (t_ns t) 0) as [E|E].
  - split; [intros H; injection H as <-; left; auto|intros [[_ ->]|[N _]]; [reflexivity|contradiction]].
  - assert (R : round_us t = GoTime (t_ns (round_us t)) (t_loc t) None) by reflexivity. split.
    + intros H. injection H as <-. right. split; [exact E|]. exists (t_ns (round_us t)), (fmt_time zs rfc3339 t). split; [apply round_nearest; reflexivity|].
      split; [|reflexivity]. rewrite <- R. apply (default_stamp zs (round_us t)). reflexivity.
    + intros [[Z _]|[_ (m & x & M & X & ->)]]; [contradiction|]. apply round_nearest in M. subst m. rewrite <- R in X. apply (default_stamp zs (round_us t)) in X. subst x. reflexivity.
Qed.
Theorem inert_times : forall zs args l s, forallb clean args = true -> wf l = true -> style_ok false l = true -> interpolate_with zs [] (print l) args = ROk s -> parsed s = Some (cons_text s []).
Proof. intros zs args l s C W S H. eapply Util_proofs.interpolated_inert; [apply (default_body zs)|exact C|exact W|exact S|exact H]. Qed.
Theorem inert_layouts : forall zs ls x args l s, quiet_zones zs -> last_layout rfc3339 ls x -> quiet x = true ->
  forallb clean args = true -> wf l = true -> style_ok false l = true -> interpolate_with zs (map Some ls) (print l) args = ROk s -> parsed s = Some (cons_text s []).
Proof.
  intros zs ls x args l s Z L Q C W S H. rewrite (with_layouts zs ls x _ _ L) in H. eapply Util_proofs.interpolated_inert; [apply (layout_body zs x Z Q)|exact C|exact W|exact S|exact H].
Qed.
Theorem mono_ignored : forall zs layout ns loc m m', encode_value (fmt_time zs layout) (VTime (GoTime ns loc m)) = encode_value (fmt_time zs layout) (VTime (GoTime ns loc m')).
Proof. reflexivity. Qed.
Lemma calendar_months : forall n y m d, calendar n (y, m, d) -> (1 <= m <= 12 /\ 1 <= d)%Z /\ exists k, month_days y m k /\ (d <= k)%Z.
Proof.
  intros n y m d C. apply calendar_iff in C. destruct (date_step n) as [O _]. rewrite <- C in O. unfold ok_date in O. rewrite !andb_true_iff, !Z.leb_le in O.
  split; [lia|]. exists (month_length y m). split; [apply month_days_iff; split; [lia|reflexivity]|lia].
Qed.
Theorem calendar_one : forall n, exists d, calendar n d /\ forall e, calendar n e -> e = d.
Proof. intros n. exists (date_of n). split; [apply calendar_iff; reflexivity|]. intros e H. apply calendar_iff in H. exact H. Qed.
