(** Layouts show what they should. *)
From Coq Require Import Strings.String Strings.Ascii NArith ZArith List Bool Lia Arith.
From Verif Require Import GoStr GoNum Syntax Value Util Time Spec_syntax Spec_base Spec_time Time_proofs Time2_proofs Time3_proofs Spec_layout Layout_proofs Layout2_proofs.
From Verif Require Term_proofs Base_proofs.
Import ListNotations.
Open Scope string_scope.

(** ** Fractions *)
Lemma take_drop : forall s n, n <= String.length s -> exists r, s = substring 0 n s ++ r /\ String.length (substring 0 n s) = n.
Proof.
  induction s as [|a s IH]; intros n L; [cbn in L; assert (n = 0) by lia; subst; exists ""; auto|]. destruct n as [|n]; [exists (String a s); auto|].
  cbn [String.length] in L. destruct (IH n ltac:(lia)) as (r & E & K). exists r. cbn [substring append String.length]. rewrite <- E, K. auto.
Qed.
Definition first_text (run : string) (nano : Z) : string :=
  if Nat.ltb (run_digits run) 9 then substring 0 (run_digits run) (append_int nano 9) else append_int nano 9.
Lemma nano_len : forall x, (0 <= x < 1000000000)%Z -> String.length (append_int x 9) = 9.
Proof. intros x B. apply append_int_len; [|lia]. change (10 ^ Z.of_nat 9)%Z with 1000000000%Z. exact B. Qed.
Lemma first_iff : forall M run f, (0 <= m_nano M < 1000000000)%Z -> (first_digits M run f <-> f = first_text run (m_nano M)).
Proof.
  intros M run f B. pose proof (nano_len _ B) as L. unfold first_digits, first_text. split.
  - intros (k & rest & K & [c C] & P & F). apply append_int_iff in P; [|lia].
    assert (R : run_digits run = N.to_nat k). { unfold run_digits. rewrite C. f_equal. symmetry. apply N.mod_unique with c; [exact K|reflexivity]. }
    rewrite R. destruct (Nat.ltb_spec (N.to_nat k) 9) as [Q|Q].
    + rewrite <- P. rewrite Nat.min_l in F by lia. rewrite <- F. symmetry. apply take_app.
    + rewrite Nat.min_r in F by lia. rewrite <- P in L. rewrite Term_proofs.length_app in L. assert (E : rest = "") by (destruct rest; [reflexivity|cbn in L; lia]). subst rest. rewrite <- P, str_app_nil. reflexivity.
  - intros ->. set (k := N.modulo (N.of_nat (String.length run)) 4096).
    assert (H : exists rest, append_int (m_nano M) 9 = (if Nat.ltb (run_digits run) 9 then substring 0 (run_digits run) (append_int (m_nano M) 9) else append_int (m_nano M) 9) ++ rest /\
      String.length (if Nat.ltb (run_digits run) 9 then substring 0 (run_digits run) (append_int (m_nano M) 9) else append_int (m_nano M) 9) = Nat.min (run_digits run) 9).
    { destruct (Nat.ltb_spec (run_digits run) 9) as [Q|Q].
      - destruct (take_drop (append_int (m_nano M) 9) (run_digits run) ltac:(lia)) as (r & E & K). exists r. split; [exact E|rewrite K, Nat.min_l by lia; reflexivity].
      - exists "". rewrite str_app_nil, L, Nat.min_r by lia. auto. }
    destruct H as (rest & E & K). exists k, rest. split; [apply N.mod_lt; discriminate|]. split; [exists (N.div (N.of_nat (String.length run)) 4096); apply N.div_mod'|].
    split; [apply append_int_iff; [lia|]; symmetry; exact E|exact K].
Qed.
Lemma trim_all : forall z, all (fun a => Ascii.eqb a "0") z = true -> trim_zeros z = "".
Proof. induction z as [|a z IH]; intros H; [reflexivity|]. cbn [all] in H. apply andb_prop in H as [A H]. cbn [trim_zeros]. cbv zeta. rewrite (IH H), A. reflexivity. Qed.
Lemma shortened_iff : forall f g, shortened f g <-> g = trim_zeros f.
Proof.
  intros f g. split.
  - intros (z & -> & Z & N). induction g as [|a g IH]; cbn [append]; [symmetry; apply trim_all; exact Z|]. cbn [trim_zeros]. cbv zeta. rewrite <- IH by (intros g' E; apply (N (String a g')); rewrite E; reflexivity).
    destruct g as [|b g]; [|rewrite andb_false_r; reflexivity]. destruct (Ascii.eqb_spec a "0") as [E|_]; [exfalso; apply (N ""); rewrite E; reflexivity|reflexivity].
  - intros ->. induction f as [|a f IH]; [exists ""; split; [reflexivity|]; split; [reflexivity|]; intros [|b g'] E; discriminate E|].
    destruct IH as (z & E & Z & N). cbn [trim_zeros]. cbv zeta. destruct (Ascii.eqb a "0" && is_empty (trim_zeros f)) eqn:C.
    + apply andb_prop in C as [C1 C2]. exists (String a f). split; [reflexivity|]. split; [|intros [|b g'] Q; discriminate Q].
      cbn [all]. rewrite C1. destruct (trim_zeros f); [|discriminate C2]. cbn [append] in E. rewrite E. exact Z.
    + exists z. cbn [append]. rewrite <- E. split; [reflexivity|]. split; [exact Z|]. intros g' Q. destruct g' as [|b g']; cbn [append] in Q; injection Q as Qa Q.
      * rewrite Qa, Q in C. discriminate C.
      * exact (N g' Q).
Qed.
Lemma fraction_one : forall sep d run t sep' d' run', fraction sep d run t -> fraction sep' d' run' t -> sep = sep' /\ d = d' /\ run = run'.
Proof.
  intros sep d run t sep' d' run' (_ & _ & N & A & ->) (_ & _ & _ & A' & E). injection E as <- <-. split; [reflexivity|]. split; [|reflexivity].
  destruct run as [|a run]; [contradiction|]. cbn [all] in A, A'. apply andb_prop in A as [A _]. apply andb_prop in A' as [A' _]. apply Ascii.eqb_eq in A, A'. congruence.
Qed.
Lemma fraction_iff : forall M sep d run t s, (0 <= m_nano M < 1000000000)%Z -> fraction sep d run t ->
  (fraction_shows M t s <-> s = append_nano sep (Ascii.eqb d "9") (run_digits run) (m_nano M)).
Proof.
  intros M sep d run t s B F.
  assert (E : fraction_shows M t s <-> ((d = "0"%char /\ s = String sep (first_text run (m_nano M))) \/
     (d = "9"%char /\ let g := trim_zeros (first_text run (m_nano M)) in (g = "" /\ s = "") \/ (g <> "" /\ s = String sep g)))).
  { unfold fraction_shows. split.
    - intros (sep' & d' & run' & f & F' & D & H). destruct (fraction_one _ _ _ _ _ _ _ F F') as (<- & <- & <-). apply (first_iff M run f B) in D. subst f.
      destruct H as [H|(H & g & G & K)]; [left; exact H|right]. apply shortened_iff in G. subst g. auto.
    - intros H. exists sep, d, run, (first_text run (m_nano M)). split; [exact F|]. split; [apply first_iff; [exact B|reflexivity]|].
      destruct H as [H|[H K]]; [left; exact H|right]. split; [exact H|]. eexists. split; [apply shortened_iff; reflexivity|exact K]. }
  rewrite E. clear E. destruct F as (_ & D & _). cbn [In] in D. unfold append_nano. fold (first_text run (m_nano M)). destruct D as [<-|[<-|[]]].
  - change (Ascii.eqb "0" "9") with false. cbn [andb]. split; [intros [[_ H]|[H _]]; [exact H|discriminate H]|auto].
  - change (Ascii.eqb "9" "9") with true. cbn [andb].
    assert (Q : (Nat.eqb (run_digits run) 0 || (m_nano M =? 0)%Z)%bool = true -> trim_zeros (first_text run (m_nano M)) = "").
    { intros H. apply orb_prop in H as [H|H].
      - apply Nat.eqb_eq in H. unfold first_text. rewrite H. change (Nat.ltb 0 9) with true. cbv iota. destruct (append_int (m_nano M) 9); reflexivity.
      - apply Z.eqb_eq in H. apply trim_all. unfold first_text. rewrite H. change (append_int 0 9) with "000000000". destruct (Nat.ltb _ _); [|reflexivity].
        generalize (run_digits run). intros k. do 10 (destruct k as [|k]; [reflexivity|]). reflexivity. }
    destruct (Nat.eqb (run_digits run) 0 || (m_nano M =? 0)%Z)%bool.
    + rewrite (Q eq_refl). cbv zeta. split; [intros [[H _]|[_ [[_ H]|[H _]]]]; [discriminate H|exact H|contradiction]|]. intros H. right. auto.
    + cbv zeta. destruct (trim_zeros (first_text run (m_nano M))) as [|a g]; cbn [is_empty].
      * split; [intros [[H _]|[_ [[_ H]|[H _]]]]; [discriminate H|exact H|contradiction]|]. intros H. right. auto.
      * split; [intros [[H _]|[_ [[H _]|[_ H]]]]; [discriminate H|discriminate H|exact H]|]. intros H. right. split; [reflexivity|]. right. split; [discriminate|exact H].
Qed.

(** ** The moment of a time *)
Lemma moment_parts : forall zs t M, moment_at zs (t_ns t) (t_loc t) M ->
  zone_of zs t = (m_zone M, m_offset M) /\ nanosecond t = m_nano M /\ Z.div (local_seconds zs t) 86400 = m_days M /\
  clock_of (local_seconds zs t) = (m_hour M, m_minute M, m_second M) /\ date_of (m_days M) = (m_year M, m_month M, m_day M) /\
  (0 <= m_nano M < 1000000000 /\ 0 <= m_hour M < 24 /\ 0 <= m_minute M < 60 /\ 0 <= m_second M < 60)%Z.
Proof.
  intros zs t M (sec & E & B & Z & R & C). assert (S : seconds t = sec) by (unfold seconds; rewrite E; symmetry; apply Z.div_unique with (m_nano M); lia).
  assert (N : nanosecond t = m_nano M) by (unfold nanosecond; rewrite E; symmetry; apply Z.mod_unique with sec; lia).
  assert (ZO : zone_of zs t = (m_zone M, m_offset M)) by (unfold zone_of; rewrite S; exact Z).
  assert (L : local_seconds zs t = (sec + m_offset M)%Z) by (unfold local_seconds; rewrite ZO, S; reflexivity).
  rewrite L. split; [exact ZO|]. split; [exact N|]. assert (R' := R). unfold reads in R'. apply clock_iff in R as [R1 R2]. apply calendar_iff in C. repeat split; try congruence; lia.
Qed.
Theorem moment_exists : forall zs ns loc, exists M, moment_at zs ns loc M /\ forall M', moment_at zs ns loc M' -> M' = M.
Proof.
  intros zs ns loc. set (t := GoTime ns loc None). destruct (date_of (Z.div (local_seconds zs t) 86400)) as [[y mo] d] eqn:D. destruct (clock_of (local_seconds zs t)) as [[h mi] s] eqn:C.
  exists (Moment (Z.div (local_seconds zs t) 86400) y mo d h mi s (nanosecond t) (fst (zone_of zs t)) (snd (zone_of zs t))). split.
  - exists (seconds t). cbn [m_days m_year m_month m_day m_hour m_minute m_second m_nano m_zone m_offset].
    split; [unfold seconds, nanosecond; apply Z.div_mod; discriminate|]. split; [apply Z.mod_pos_bound; reflexivity|]. split; [apply surjective_pairing|].
    split; [apply clock_iff; split; [reflexivity|symmetry; exact C]|apply calendar_iff; symmetry; exact D].
  - intros M' H. destruct (moment_parts zs t M' H) as (E1 & E2 & E3 & E4 & E5 & _). destruct M' as [v1 v2 v3 v4 v5 v6 v7 v8 v9 v10]. cbn [m_days m_year m_month m_day m_hour m_minute m_second m_nano m_zone m_offset] in *.
    rewrite E1. cbn [fst snd]. rewrite C in E4. rewrite E3 in D. rewrite D in E5. injection E4 as -> -> ->. injection E5 as -> -> ->. congruence.
Qed.
Definition yday (M : moment) : Z := (snd (year_day (m_days M)) + 1)%Z.
Lemma yearday_iff : forall M k, fst (year_day (m_days M)) = m_year M -> (yearday_is M k <-> k = yday M).
Proof.
  intros M k Y. unfold yearday_is, yday. pose proof (first_day (m_days M)) as F. rewrite Y in F. split.
  - intros (n & C & E). pose proof (calendar_inj _ _ _ C F). lia.
  - intros ->. exists (m_days M - snd (year_day (m_days M)))%Z. split; [exact F|lia].
Qed.

(** ** The table *)
Lemma shows_table : forall zs tm M, moment_at zs (t_ns tm) (t_loc tm) M ->
  Forall2 (fun a b => row_name a = fst b /\ forall y, snd b M y <-> y = snd (fst a) ++ append_std zs tm (snd a)) rows elements.
Proof.
  intros zs tm M H. destruct (moment_parts zs tm M H) as (E1 & E2 & E3 & E4 & E5 & B).
  pose proof (date_step (m_days M)) as [OK _]. rewrite E5 in OK. unfold ok_date in OK. rewrite !andb_true_iff, !Z.leb_le in OK. pose proof (month_length_pos (m_year M) (m_month M)) as ML.
  pose proof (year_day_first (m_days M)) as [YB _].
  assert (Y : fst (year_day (m_days M)) = m_year M).
  { unfold date_of in E5. destruct (year_day (m_days M)) as [y yd]. destruct (month_day y yd) as [mo d]. injection E5 as -> _ _. reflexivity. }
  assert (MD : month_day (m_year M) (yday M - 1) = (m_month M, m_day M)).
  { unfold yday. replace (snd (year_day (m_days M)) + 1 - 1)%Z with (snd (year_day (m_days M))) by lia. unfold date_of in E5. destruct (year_day (m_days M)) as [y yd]. cbn [snd fst] in *. subst y.
    destruct (month_day (m_year M) yd) as [mo d]. injection E5 as -> ->. reflexivity. }
  assert (YB' : (1 <= yday M <= 366)%Z) by (unfold yday; lia).
  assert (ST : forall x, append_std zs tm x =
    match x with
    | StdYear => append_int (Z.rem (Z.max (m_year M) 0) 100) 2 | StdLongYear => append_int (m_year M) 4
    | StdMonth => three (month_name (m_month M)) | StdLongMonth => month_name (m_month M)
    | StdNumMonth => append_int (m_month M) 0 | StdZeroMonth => append_int (m_month M) 2
    | StdWeekDay => three (weekday_name (weekday_of (m_days M))) | StdLongWeekDay => weekday_name (weekday_of (m_days M))
    | StdDay => append_int (m_day M) 0 | StdUnderDay => (if (m_day M <? 10)%Z then " " else "") ++ append_int (m_day M) 0
    | StdZeroDay => append_int (m_day M) 2
    | StdUnderYearDay => (if (yday M <? 100)%Z then " " else "") ++ (if (yday M <? 10)%Z then " " else "") ++ append_int (yday M) 0
    | StdZeroYearDay => append_int (yday M) 3
    | StdHour => append_int (m_hour M) 2 | StdHour12 => append_int (hour12 (m_hour M)) 0 | StdZeroHour12 => append_int (hour12 (m_hour M)) 2
    | StdMinute => append_int (m_minute M) 0 | StdZeroMinute => append_int (m_minute M) 2 | StdSecond => append_int (m_second M) 0 | StdZeroSecond => append_int (m_second M) 2
    | StdPM => if (12 <=? m_hour M)%Z then "PM" else "AM" | Stdpm => if (12 <=? m_hour M)%Z then "pm" else "am"
    | StdOffset iso f => append_offset iso f (m_offset M)
    | StdTZ => if is_empty (m_zone M) then append_offset false OffPlain (m_offset M) else m_zone M
    | StdFrac sep trim n => append_nano sep trim n (m_nano M)
    end).
  { intros x. unfold append_std. rewrite E1, E3, E2. rewrite (surjective_pairing (year_day (m_days M))). cbv beta iota zeta. rewrite Y. fold (yday M). rewrite MD, E4. destruct x; reflexivity. }
  clear E1 E2 E3 E4 E5. assert (HB : forall h, (0 <= h < 24)%Z -> (0 <= hour12 h)%Z).
  { intros h Hh. unfold hour12. destruct (_ =? _)%Z; [lia|]. apply Z.mod_pos_bound. lia. }
  assert (TW : forall P : Z -> bool -> Prop, (exists k pm, twelve (m_hour M) k pm /\ P k pm) <-> P (hour12 (m_hour M)) (12 <=? m_hour M)%Z).
  { intros P. split.
    - intros (k & pm & T & R). apply twelve_iff in T as [-> ->]; [|lia]. exact R.
    - intros R. exists (hour12 (m_hour M)), (12 <=? m_hour M)%Z. split; [apply twelve_iff; [lia|auto]|exact R]. }
  unfold rows, elements.
  repeat (apply Forall2_cons; [split; [reflexivity|]; intros y; cbn [fst snd]; change ("" ++ ?z) with z; rewrite ?ST|]); [..|apply Forall2_nil].
  - apply year_iff.
  - split; [intros (s & K & ->); apply year_iff in K; rewrite K; reflexivity|]. intros ->. eexists. split; [apply year_iff; reflexivity|reflexivity].
  - split.
    + intros (c & k & [(H1 & H2 & H3)|[H1 ->]] & T); apply two_iff in T; try lia; rewrite T.
      * rewrite Z.max_l by lia. f_equal. rewrite Z.rem_mod_nonneg by lia. apply Z.mod_unique with c; lia.
      * rewrite Z.max_r by lia. reflexivity.
    + intros ->. destruct (Z.le_gt_cases 0 (m_year M)) as [P|P].
      * exists (Z.div (m_year M) 100), (Z.modulo (m_year M) 100). pose proof (Z.mod_pos_bound (m_year M) 100 ltac:(lia)). pose proof (Z.div_mod (m_year M) 100 ltac:(lia)).
        split; [left; lia|]. apply two_iff; [lia|]. rewrite Z.max_l, Z.rem_mod_nonneg by lia. reflexivity.
      * exists 0%Z, 0%Z. split; [right; lia|]. apply two_iff; [lia|]. rewrite Z.max_r by lia. reflexivity.
  - split; [intros (x & i & E & N); apply (month_iff _ _ _ _ E) in N; tauto|]. intros ->. destruct (month_exists (m_month M) ltac:(lia)) as (i & E & N). eexists. exists i. split; [exact E|exact N].
  - split; [intros (x & i & E & N); apply (month_iff _ _ _ _ E) in N; tauto|]. intros ->. destruct (month_exists (m_month M) ltac:(lia)) as (i & E & N). eexists. exists i. split; [exact E|exact N].
  - apply number1_iff. lia.
  - apply number_iff. lia.
  - split; [intros (x & w & i & E & N); apply (weekday_iff _ _ _ _ _ E) in N; tauto|]. intros ->. destruct (weekday_exists (m_days M)) as (w & i & E & N). eexists. exists w, i. split; [exact E|exact N].
  - split; [intros (x & w & i & E & N); apply (weekday_iff _ _ _ _ _ E) in N; tauto|]. intros ->. destruct (weekday_exists (m_days M)) as (w & i & E & N). eexists. exists w, i. split; [exact E|exact N].
  - apply number1_iff. lia.
  - rewrite under_iff, under_day by lia. reflexivity.
  - apply number_iff. lia.
  - split.
    + intros (k & K & U). apply (yearday_iff M k Y) in K. subst k. apply under_iff in U; [|lia]. rewrite U. apply under_yday. lia.
    + intros ->. exists (yday M). split; [apply yearday_iff; [exact Y|reflexivity]|]. apply under_iff; [lia|]. symmetry. apply under_yday. lia.
  - split.
    + intros (k & K & U). apply (yearday_iff M k Y) in K. subst k. apply number_iff in U; [|lia]. exact U.
    + intros ->. exists (yday M). split; [apply yearday_iff; [exact Y|reflexivity]|]. apply number_iff; [lia|reflexivity].
  - apply number_iff. lia.
  - rewrite (TW (fun k _ => number 1 k y)). apply number1_iff. apply HB. lia.
  - rewrite (TW (fun k _ => number 2 k y)). apply number_iff. apply HB. lia.
  - apply (TW (fun _ pm => y = if pm : bool then "PM" else "AM")).
  - apply (TW (fun _ pm => y = if pm : bool then "pm" else "am")).
  - apply number1_iff. lia.
  - apply number_iff. lia.
  - apply number1_iff. lia.
  - apply number_iff. lia.
  - change (fun h m _ : string => h ++ m) with (off_form OffPlain). rewrite offset_plain. destruct (m_zone M) as [|a z] eqn:EZ; cbn [is_empty].
    + split; [intros [[K _]|[_ K]]; [contradiction|exact K]|]. intros K. right. auto.
    + split; [intros [[_ K]|[K _]]; [exact K|discriminate K]|]. intros K. left. split; [discriminate|exact K].
  - apply (offset_plain OffShort).
  - apply (offset_plain OffPlain).
  - apply (offset_plain OffColon).
  - apply (offset_plain OffSeconds).
  - apply (offset_plain OffColonSeconds).
  - apply (offset_iso OffShort).
  - apply (offset_iso OffPlain).
  - apply (offset_iso OffColon).
  - apply (offset_iso OffSeconds).
  - apply (offset_iso OffColonSeconds).
Qed.
Lemma row_once : forall t p x p' x', In (t, p, x) rows -> In (t, p', x') rows -> (p, x) = (p', x').
Proof.
  assert (G : forall l : list (string * string * std), NoDup (map row_name l) -> forall t p x p' x', In (t, p, x) l -> In (t, p', x') l -> (p, x) = (p', x')).
  { induction l as [|[[a b] c] l IH]; intros N t p x p' x' H H'; [destruct H|]. cbn [map] in N. inversion N as [|? ? N1 N2]; subst. cbn [In] in H, H'.
    destruct H as [H|H]; destruct H' as [H'|H'].
    - congruence.
    - exfalso. apply N1. injection H as -> _ _. apply in_map_iff. exists (t, p', x'). auto.
    - exfalso. apply N1. injection H' as -> _ _. apply in_map_iff. exists (t, p, x). auto.
    - exact (IH N2 _ _ _ _ _ H H'). }
  exact (G rows row_names_once).
Qed.
Lemma table_in : forall (P : string * string * std -> string * (moment -> string -> Prop) -> Prop) l m, Forall2 P l m ->
  (forall b, In b m -> exists a, In a l /\ P a b) /\ (forall a, In a l -> exists b, In b m /\ P a b).
Proof.
  induction 1 as [|a b l m H F [IH1 IH2]]; [split; intros ? []|]. split.
  - intros b' [<-|K]; [exists a; split; [left; reflexivity|exact H]|]. destruct (IH1 _ K) as (a' & K1 & K2). exists a'. split; [right; exact K1|exact K2].
  - intros a' [<-|K]; [exists b; split; [left; reflexivity|exact H]|]. destruct (IH2 _ K) as (b' & K1 & K2). exists b'. split; [right; exact K1|exact K2].
Qed.
Lemma fraction_row : forall sep d run t p x, fraction sep d run t -> In (t, p, x) rows -> False.
Proof.
  intros sep d run t p x (S & _ & _ & _ & ->) H. unfold rows in H. cbn [In] in S, H. destruct S as [<-|[<-|[]]]; repeat (destruct H as [H|H]; [discriminate H|]); destruct H.
Qed.
Theorem shows_row : forall zs tm M, moment_at zs (t_ns tm) (t_loc tm) M -> forall t p x y, row t p x -> (shows M t y <-> y = p ++ append_std zs tm x).
Proof.
  intros zs tm M H. pose proof (shows_table zs tm M H) as T. apply table_in in T as [T1 T2]. destruct (moment_parts zs tm M H) as (E1 & E2 & _ & _ & _ & B).
  intros t p x y [t' p' x' R|sep d run t' F].
  - unfold shows. split.
    + intros [(f & K & S)|(sep & d & run & f & F & _)]; [|destruct (fraction_row _ _ _ _ _ _ F R)].
      destruct (T1 _ K) as ([[a b] c] & K' & N & S'). cbn [row_name fst snd] in *. subst a. apply S' in S. pose proof (row_once _ _ _ _ _ R K') as Q. injection Q as -> ->. exact S.
    + intros Q. left. destruct (T2 _ R) as ([a f] & K & N & S'). cbn [row_name fst snd] in *. subst a. exists f. split; [exact K|apply S'; exact Q].
  - assert (A : append_std zs tm (StdFrac sep (Ascii.eqb d "9") (run_digits run)) = append_nano sep (Ascii.eqb d "9") (run_digits run) (m_nano M)).
    { unfold append_std. rewrite E1, E2. destruct (year_day _) as [a b]. destruct (month_day _ _) as [a' b']. destruct (clock_of _) as [[a'' b''] c'']. reflexivity. }
    rewrite A. change ("" ++ ?z) with z. rewrite <- (fraction_iff M sep d run t' y ltac:(lia) F). unfold shows. split; [|auto].
    intros [(f & K & _)|K]; [|exact K]. destruct (T1 _ K) as ([[a b] c] & K' & N & _). cbn [row_name fst snd] in *. subst a. destruct (fraction_row _ _ _ _ _ _ F K').
Qed.
Theorem layout_formats : forall zs tm M, moment_at zs (t_ns tm) (t_loc tm) M -> forall l s, formats M l s <-> s = format zs l tm.
Proof. intros zs tm M H. apply formats_iff. exact (shows_row zs tm M H). Qed.
Theorem time_literal_with : forall zs layout t s, encode_value (fmt_time zs layout) (VTime t) = ROk s <->
  (t_ns t = 0%Z /\ s = "'0000-00-00'") \/
  (t_ns t <> 0%Z /\ exists m M x, nearest_us (t_ns t) m /\ moment_at zs m (t_loc t) M /\ formats M layout x /\ s = "'" ++ x ++ "'").
Proof.
  intros zs layout t s. change (encode_value (fmt_time zs layout) (VTime t)) with (ROk (if (t_ns t =? 0)%Z then "'0000-00-00'" else "'" ++ fmt_time zs layout t ++ "'")).
  destruct (Z.eqb_spec (t_ns t) 0) as [E|E].
  - split; [intros K; injection K as <-; auto|]. intros [[_ ->]|[K _]]; [reflexivity|contradiction].
  - assert (R : nearest_us (t_ns t) (t_ns (round_us t))) by (apply round_nearest; reflexivity). unfold fmt_time. split.
    + intros K. injection K as <-. right. split; [exact E|]. destruct (moment_exists zs (t_ns (round_us t)) (t_loc t)) as (M & HM & _).
      exists (t_ns (round_us t)), M, (format zs layout (round_us t)). split; [exact R|]. split; [exact HM|]. split; [apply (layout_formats zs (round_us t) M HM); reflexivity|reflexivity].
    + intros [[K _]|(_ & m & M & x & N & HM & F & ->)]; [contradiction|]. apply round_nearest in N. rewrite N in HM.
      apply (layout_formats zs (round_us t) M HM) in F. rewrite F. reflexivity.
Qed.
Theorem plain_layout : forall zs l t, (forall p e r, l = p ++ e ++ r -> ~ stands e r) -> format zs l t = l.
Proof.
  intros zs l t. induction l as [|a l IH]; intros H; [reflexivity|]. rewrite format_none; [rewrite IH; [reflexivity|]|].
  - intros p e r E. apply (H (String a p)). rewrite E. reflexivity.
  - apply chunk_none. intros e r E. exact (H "" e r E).
Qed.
