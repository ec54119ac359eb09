(** Times in interpolated queries. *)
From Coq Require Import Strings.String Strings.Ascii NArith ZArith List Bool.
From Verif Require Import GoStr GoNum Syntax Value Util Time Spec_syntax Spec_base Spec_util Spec_time Time_proofs Time2_proofs Time3_proofs.
Import ListNotations.
Open Scope string_scope.

(** C93: without options a time becomes the RFC 3339 text of its zone's clock at
    the nearest microsecond; the zero time becomes '0000-00-00'. *)
Theorem c93_literal : forall zs t s, encode_value (fmt_time zs rfc3339) (VTime t) = ROk s <->
  (t_ns t = 0%Z /\ s = "'0000-00-00'") \/
  (t_ns t <> 0%Z /\ exists m x, nearest_us (t_ns t) m /\ stamp (local_seconds zs (GoTime m (t_loc t) None)) (snd (zs (t_loc t) (seconds (GoTime m (t_loc t) None)))) x /\ s = "'" ++ x ++ "'").
Proof. exact time_literal. Qed.
Print Assumptions c93_literal.
(** The calendar of the specification has every day once. *)
Theorem c93_calendar : forall n, exists d, calendar n d /\ forall e, calendar n e -> e = d.
Proof. exact calendar_one. Qed.
Print Assumptions c93_calendar.
Theorem c93_days : forall n m d, calendar n d -> calendar m d -> n = m.
Proof. exact calendar_inj. Qed.
Print Assumptions c93_days.
Theorem c93_dates : forall n y m d, calendar n (y, m, d) -> (1 <= m <= 12 /\ 1 <= d)%Z /\ exists k, month_days y m k /\ (d <= k)%Z.
Proof. exact calendar_months. Qed.
Print Assumptions c93_dates.
(** The text tells the second ... *)
Theorem c93_second : forall zs t u, sound_zones zs -> fmt_time zs rfc3339 t = fmt_time zs rfc3339 u -> seconds (round_us t) = seconds (round_us u).
Proof. exact default_tells. Qed.
Print Assumptions c93_second.
(** ... but not the microsecond, though the time was rounded to one, ... *)
Theorem c93_microsecond_refuted : exists zs t u, sound_zones zs /\ t_ns (round_us t) <> t_ns (round_us u) /\ fmt_time zs rfc3339 t = fmt_time zs rfc3339 u.
Proof.
  exists (fun _ _ => ("UTC", 0%Z)), (GoTime 500000000 0 None), (GoTime 499999000 0 None). split; [intros l s; split; [exists 0%Z; reflexivity|split; reflexivity]|].
  split; [vm_compute; discriminate|vm_compute; reflexivity].
Qed.
Print Assumptions c93_microsecond_refuted.
(** ... which a layout with microseconds does. *)
Theorem c93_micro : forall zs t u, sound_zones zs -> fmt_time zs rfc3339_micro t = fmt_time zs rfc3339_micro u -> t_ns (round_us t) = t_ns (round_us u).
Proof. exact micro_tells. Qed.
Print Assumptions c93_micro.
(** The last layout given counts; a nil option panics. *)
Theorem c93_options : forall zs l x q args, last_layout rfc3339 l x -> interpolate_with zs (map Some l) q args = interpolate (fmt_time zs x) q args.
Proof. exact with_layouts. Qed.
Print Assumptions c93_options.
Theorem c93_nil_option : forall zs opts q args, In None opts -> interpolate_with zs opts q args = RPanic nil_deref.
Proof. exact with_nil. Qed.
Print Assumptions c93_nil_option.
(** With the default layout an interpolated query is inert text, for all times
    and zones; with a layout without quotes too, if the abbreviations of the
    zones have none. *)
Theorem c93_inert : forall zs args l s, forallb clean args = true -> wf l = true -> style_ok false l = true -> interpolate_with zs [] (print l) args = ROk s -> parsed s = Some (cons_text s []).
Proof. exact inert_times. Qed.
Print Assumptions c93_inert.
Theorem c93_layout_inert : forall zs ls x args l s, quiet_zones zs -> last_layout rfc3339 ls x -> quiet x = true ->
  forallb clean args = true -> wf l = true -> style_ok false l = true -> interpolate_with zs (map Some ls) (print l) args = ROk s -> parsed s = Some (cons_text s []).
Proof. exact inert_layouts. Qed.
Print Assumptions c93_layout_inert.
(** The text of a time is not escaped: a layout with a quote ends the literal. *)
Theorem c93_layout_refuted : exists zs layout t s, quiet_zones zs /\ interpolate_with zs [Some layout] "t = ?" [VTime t] = ROk s /\ s = "t = '1' OR a = ? --'" /\
  parsed s = Some [APlain "t = '1' OR a = "; ABind style_question 1; APlain " --'"].
Proof.
  exists (fun _ _ => ("UTC", 0%Z)), "1' OR a = ? --", (GoTime 1000 0 None), "t = '1' OR a = ? --'". split; [intros l s; reflexivity|]. repeat apply conj; vm_compute; reflexivity.
Qed.
Print Assumptions c93_layout_refuted.
(** The reading of the monotonic clock is not shown, but counts for ==: a
    numbered query can pass the same text twice. *)
Theorem c93_monotonic : forall zs layout ns loc m m', encode_value (fmt_time zs layout) (VTime (GoTime ns loc m)) = encode_value (fmt_time zs layout) (VTime (GoTime ns loc m')).
Proof. exact mono_ignored. Qed.
Print Assumptions c93_monotonic.
Theorem c93_equal_refuted : exists t u, (forall zs layout, encode_value (fmt_time zs layout) (VTime t) = encode_value (fmt_time zs layout) (VTime u)) /\ ~ same (VTime t) (VTime u).
Proof.
  exists (GoTime 5 0 None), (GoTime 5 0 (Some 7%Z)). split; [reflexivity|]. intros H. inversion H.
Qed.
Print Assumptions c93_equal_refuted.

(** The last moment of 2006 in UTC-7 is shown as the first of 2007. *)
Definition c93_late : gotime := GoTime ((62135596800 + 1167634800) * 1000000000 - 500) 1 (Some 3%Z).
Example c93_example :
  sound_zones mst /\ quiet_zones mst /\ quiet rfc3339_micro = true /\ last_layout rfc3339 ["15"; rfc3339_micro] rfc3339_micro /\
  interpolate_with mst [] "a > ? AND b = ?" [VTime c93_late; VTime (GoTime 0 1 None)] = ROk "a > '2007-01-01T00:00:00-07:00' AND b = '0000-00-00'" /\
  interpolate_with mst [Some "15"; Some rfc3339_micro] "a > $1" [VTime example_time] = ROk "a > '2006-01-02T15:04:05.123457-07:00'" /\
  interpolate_with mst [Some "Jan _2"; None] "x" [] = RPanic nil_deref /\
  fmt_time (fun _ _ => ("", 1172)%Z) rfc3339 (GoTime (- 1000000000 * 31556952 * 44) 0 None) = "-0043-01-01T08:14:44+00:19" /\
  nearest_us 1500 2000 /\ calendar 365 (2, 1, 1)%Z.
Proof.
  split; [intros l s; split; [exists (-420)%Z; reflexivity|split; reflexivity]|]. split; [intros l s; reflexivity|]. split; [reflexivity|].
  split; [apply (ll_last _ ["15"] rfc3339_micro)|]. split; [vm_compute; reflexivity|]. split; [vm_compute; reflexivity|]. split; [vm_compute; reflexivity|]. split; [vm_compute; reflexivity|].
  split; [split; [exists 2%Z; reflexivity|split; [discriminate|reflexivity]]|]. apply calendar_iff. vm_compute. reflexivity.
Qed.
