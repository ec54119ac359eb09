(** time.Time.Round and time.Time.Format (packages of the Go standard library, part
    of the trusted base), and what Interpolate makes of them
    (util/interpolate.go:28-41 and 84-93).

    Seconds and days are counted from January 1 of the year 1, in Z; Go counts
    them in uint64 from an earlier year of the same form, which makes no
    difference for instants whose count fits. *)
From Coq Require Import Strings.String Strings.Ascii NArith ZArith List Bool.
From Verif Require Import GoStr GoNum Syntax Value Util.
Import ListNotations.
Open Scope string_scope.

(** Time.Round(time.Microsecond): the remainder is taken downwards, halves are
    rounded up, the monotonic clock reading is stripped. *)
Definition round_us (t : gotime) : gotime :=
  let r := Z.modulo (t_ns t) 1000 in
  let ns := if (r + r <? 1000)%Z then (t_ns t - r)%Z else (t_ns t + (1000 - r))%Z in
  GoTime ns (t_loc t) None.

(** The zone in use at a location at some second: abbreviation and offset in
    seconds east of UTC (Location.lookup). *)
Definition zones := N -> Z -> string * Z.

Definition seconds (t : gotime) : Z := Z.div (t_ns t) 1000000000.
(** Time.Nanosecond *)
Definition nanosecond (t : gotime) : Z := Z.modulo (t_ns t) 1000000000.
Definition zone_of (zs : zones) (t : gotime) : string * Z := zs (t_loc t) (seconds t).
(** Time.locabs: the seconds on the local clock. *)
Definition local_seconds (zs : zones) (t : gotime) : Z := (seconds t + snd (zone_of zs t))%Z.

Definition is_leap (y : Z) : bool :=
  (Z.modulo y 4 =? 0)%Z && (negb (Z.modulo y 100 =? 0)%Z || (Z.modulo y 400 =? 0)%Z).
(** daysBefore *)
Definition days_before (m : Z) : Z :=
  nth (Z.to_nat m) [0; 31; 59; 90; 120; 151; 181; 212; 243; 273; 304; 334; 365]%Z 0%Z.
(** absDate: year and day of the year (from 0). *)
Definition year_day (days : Z) : Z * Z :=
  let n := Z.div days 146097 in
  let y := (400 * n)%Z in
  let d := (days - 146097 * n)%Z in
  let n := Z.div d 36524 in
  let n := (n - Z.div n 4)%Z in
  let y := (y + 100 * n)%Z in
  let d := (d - 36524 * n)%Z in
  let n := Z.div d 1461 in
  let y := (y + 4 * n)%Z in
  let d := (d - 1461 * n)%Z in
  let n := Z.div d 365 in
  let n := (n - Z.div n 4)%Z in
  let y := (y + n)%Z in
  let d := (d - 365 * n)%Z in
  (y + 1, d)%Z.
(** ... month and day. *)
Definition month_day (year yday : Z) : Z * Z :=
  if is_leap year && (yday =? 59)%Z then (2, 29)%Z
  else
    let day := if is_leap year && (59 <? yday)%Z then (yday - 1)%Z else yday in
    let month := Z.div day 31 in
    let e := days_before (month + 1) in
    if (e <=? day)%Z then (month + 2, day - e + 1)%Z
    else (month + 1, day - days_before month + 1)%Z.
Definition date_of (days : Z) : Z * Z * Z :=
  let '(y, yd) := year_day days in
  let '(m, d) := month_day y yd in (y, m, d).
(** absClock *)
Definition clock_of (secs : Z) : Z * Z * Z :=
  let s := Z.modulo secs 86400 in
  let h := Z.div s 3600 in
  let s := (s - h * 3600)%Z in
  let m := Z.div s 60 in
  (h, m, s - m * 60)%Z.
(** absWeekday: January 1 of the year 1 is a Monday. *)
Definition weekday_of (days : Z) : Z := Z.modulo (days + 1) 7.

Definition month_names : list string :=
  ["January"; "February"; "March"; "April"; "May"; "June"; "July"; "August"; "September"; "October"; "November"; "December"].
Definition weekday_names : list string :=
  ["Sunday"; "Monday"; "Tuesday"; "Wednesday"; "Thursday"; "Friday"; "Saturday"].
Definition month_name (m : Z) : string := nth (Z.to_nat (m - 1)) month_names "".
Definition weekday_name (d : Z) : string := nth (Z.to_nat d) weekday_names "".
Definition three (s : string) : string := substring 0 3 s.

(** appendInt *)
Fixpoint zeros (n : nat) : string := match n with O => "" | S n' => String "0" (zeros n') end.
Definition append_int (x : Z) (width : nat) : string :=
  let ds := itoa (Z.abs x) in
  (if (x <? 0)%Z then "-" else "") ++ zeros (width - String.length ds) ++ ds.

(** The elements of a layout. *)
Inductive std :=
| StdLongMonth | StdMonth | StdNumMonth | StdZeroMonth | StdLongWeekDay | StdWeekDay
| StdDay | StdUnderDay | StdZeroDay | StdUnderYearDay | StdZeroYearDay
| StdHour | StdHour12 | StdZeroHour12 | StdMinute | StdZeroMinute | StdSecond | StdZeroSecond
| StdLongYear | StdYear | StdPM | Stdpm | StdTZ
| StdOffset (iso : bool) (f : offset_form)          (* Z07:00 ... and -07:00 ... *)
| StdFrac (sep : ascii) (trim : bool) (digits : nat) (* .000 and .999 *)
with offset_form := OffShort | OffPlain | OffColon | OffSeconds | OffColonSeconds.

Definition lower_start (s : string) : bool :=
  match s with String a _ => in_range (code a) 97 122 | "" => false end.
Definition digit_start (s : string) : bool :=
  match s with String a _ => is_digit a | "" => false end.
Fixpoint skip_char (a : ascii) (s : string) : nat * string :=
  match s with
  | String b s' => if Ascii.eqb b a then let '(n, r) := skip_char a s' in (S n, r) else (O, s)
  | "" => (O, "")
  end.
Fixpoint strip_prefix (p s : string) : option string :=
  match p, s with
  | "", _ => Some s
  | String a p', String b s' => if Ascii.eqb a b then strip_prefix p' s' else None
  | String _ _, "" => None
  end.
Definition offset_chunk (iso : bool) (s : string) : option (std * string) :=
  match strip_prefix "070000" s with Some r => Some (StdOffset iso OffSeconds, r) | None =>
  match strip_prefix "07:00:00" s with Some r => Some (StdOffset iso OffColonSeconds, r) | None =>
  match strip_prefix "0700" s with Some r => Some (StdOffset iso OffPlain, r) | None =>
  match strip_prefix "07:00" s with Some r => Some (StdOffset iso OffColon, r) | None =>
  match strip_prefix "07" s with Some r => Some (StdOffset iso OffShort, r) | None => None
  end end end end end.
(** nextStdChunk, one position: the element that starts here, with the
    number of bytes before it (1 for the underscore of _2006) and what follows. *)
Definition chunk_at (s : string) : option (string * std * string) :=
  let plain o := match o with Some (x, r) => Some ("", x, r) | None => None end in
  match s with
  | "" => None
  | String c r =>
    if Ascii.eqb c "J" then
      match strip_prefix "an" r with
      | Some r' =>
        match strip_prefix "uary" r' with
        | Some r'' => Some ("", StdLongMonth, r'')
        | None => if lower_start r' then None else Some ("", StdMonth, r')
        end
      | None => None
      end
    else if Ascii.eqb c "M" then
      match strip_prefix "on" r with
      | Some r' =>
        match strip_prefix "day" r' with
        | Some r'' => Some ("", StdLongWeekDay, r'')
        | None => if lower_start r' then None else Some ("", StdWeekDay, r')
        end
      | None => match strip_prefix "ST" r with Some r' => Some ("", StdTZ, r') | None => None end
      end
    else if Ascii.eqb c "0" then
      match r with
      | String d r' =>
        if Ascii.eqb d "1" then Some ("", StdZeroMonth, r')
        else if Ascii.eqb d "2" then Some ("", StdZeroDay, r')
        else if Ascii.eqb d "3" then Some ("", StdZeroHour12, r')
        else if Ascii.eqb d "4" then Some ("", StdZeroMinute, r')
        else if Ascii.eqb d "5" then Some ("", StdZeroSecond, r')
        else if Ascii.eqb d "6" then Some ("", StdYear, r')
        else match strip_prefix "02" r with Some r'' => Some ("", StdZeroYearDay, r'') | None => None end
      | "" => None
      end
    else if Ascii.eqb c "1" then
      match strip_prefix "5" r with Some r' => Some ("", StdHour, r') | None => Some ("", StdNumMonth, r) end
    else if Ascii.eqb c "2" then
      match strip_prefix "006" r with Some r' => Some ("", StdLongYear, r') | None => Some ("", StdDay, r) end
    else if Ascii.eqb c "_" then
      match strip_prefix "2" r with
      | Some r' =>
        match strip_prefix "2006" r with
        | Some r'' => Some ("_", StdLongYear, r'')
        | None => Some ("", StdUnderDay, r')
        end
      | None => match strip_prefix "_2" r with Some r' => Some ("", StdUnderYearDay, r') | None => None end
      end
    else if Ascii.eqb c "3" then Some ("", StdHour12, r)
    else if Ascii.eqb c "4" then Some ("", StdMinute, r)
    else if Ascii.eqb c "5" then Some ("", StdSecond, r)
    else if Ascii.eqb c "P" then
      match strip_prefix "M" r with Some r' => Some ("", StdPM, r') | None => None end
    else if Ascii.eqb c "p" then
      match strip_prefix "m" r with Some r' => Some ("", Stdpm, r') | None => None end
    else if Ascii.eqb c "-" then plain (offset_chunk false r)
    else if Ascii.eqb c "Z" then plain (offset_chunk true r)
    else if Ascii.eqb c "." || Ascii.eqb c "," then
      match r with
      | String d _ =>
        if Ascii.eqb d "0" || Ascii.eqb d "9" then
          let '(n, r') := skip_char d r in
          if digit_start r' then None
          else Some ("", StdFrac c (Ascii.eqb d "9") (N.to_nat (N.modulo (N.of_nat n) 4096)), r')
        else None
      | "" => None
      end
    else None
  end.
(** nextStdChunk *)
Fixpoint next_chunk (s : string) : string * option (std * string) :=
  match chunk_at s with
  | Some (p, x, r) => (p, Some (x, r))
  | None =>
    match s with
    | "" => ("", None)
    | String a s' => let '(p, o) := next_chunk s' in (String a p, o)
    end
  end.

(** The zone offsets of Time.appendFormat. *)
Definition append_offset (iso : bool) (f : offset_form) (offset : Z) : string :=
  if (offset =? 0)%Z && iso then "Z"
  else
    let zone := Z.quot offset 60 in
    let neg := (zone <? 0)%Z in
    let zone := Z.abs zone in
    let absolute := if neg then (- offset)%Z else offset in
    (if neg then "-" else "+") ++ append_int (Z.quot zone 60) 2 ++
    (match f with OffColon | OffColonSeconds => ":" | _ => "" end) ++
    (match f with OffShort => "" | _ => append_int (Z.rem zone 60) 2 end) ++
    (match f with
     | OffSeconds => append_int (Z.rem absolute 60) 2
     | OffColonSeconds => ":" ++ append_int (Z.rem absolute 60) 2
     | _ => ""
     end).
(** appendNano *)
Fixpoint trim_zeros (s : string) : string :=
  match s with
  | "" => ""
  | String a s' => let r := trim_zeros s' in if Ascii.eqb a "0" && is_empty r then "" else String a r
  end.
Definition append_nano (sep : ascii) (trim : bool) (n : nat) (nanosec : Z) : string :=
  if trim && (Nat.eqb n 0 || (nanosec =? 0)%Z) then ""
  else
    let ds := append_int nanosec 9 in
    let ds := if Nat.ltb n 9 then substring 0 n ds else ds in
    if trim then let ds := trim_zeros ds in if is_empty ds then "" else String sep ds
    else String sep ds.

(** One element, Time.appendFormat. *)
Definition append_std (zs : zones) (t : gotime) (x : std) : string :=
  let '(name, offset) := zone_of zs t in
  let loc := local_seconds zs t in
  let days := Z.div loc 86400 in
  let '(year, yday) := year_day days in
  let yday := (yday + 1)%Z in
  let '(month, day) := month_day year (yday - 1) in
  let '(hour, minute, sec) := clock_of loc in
  let hr := if (Z.modulo hour 12 =? 0)%Z then 12%Z else Z.modulo hour 12 in
  match x with
  | StdYear => append_int (Z.rem (Z.max year 0) 100) 2
  | StdLongYear => append_int year 4
  | StdMonth => three (month_name month)
  | StdLongMonth => month_name month
  | StdNumMonth => append_int month 0
  | StdZeroMonth => append_int month 2
  | StdWeekDay => three (weekday_name (weekday_of days))
  | StdLongWeekDay => weekday_name (weekday_of days)
  | StdDay => append_int day 0
  | StdUnderDay => (if (day <? 10)%Z then " " else "") ++ append_int day 0
  | StdZeroDay => append_int day 2
  | StdUnderYearDay =>
    (if (yday <? 100)%Z then " " else "") ++ (if (yday <? 10)%Z then " " else "") ++ append_int yday 0
  | StdZeroYearDay => append_int yday 3
  | StdHour => append_int hour 2
  | StdHour12 => append_int hr 0
  | StdZeroHour12 => append_int hr 2
  | StdMinute => append_int minute 0
  | StdZeroMinute => append_int minute 2
  | StdSecond => append_int sec 0
  | StdZeroSecond => append_int sec 2
  | StdPM => if (12 <=? hour)%Z then "PM" else "AM"
  | Stdpm => if (12 <=? hour)%Z then "pm" else "am"
  | StdOffset iso f => append_offset iso f offset
  | StdTZ => if is_empty name then append_offset false OffPlain offset else name
  | StdFrac sep trim n => append_nano sep trim n (nanosecond t)
  end.
(** The loop of Time.appendFormat.  Every element is at least one byte long, so
    the length of the layout is enough fuel. *)
Fixpoint format_f (n : nat) (zs : zones) (layout : string) (t : gotime) : string :=
  match n with
  | O => ""
  | S n' =>
    match next_chunk layout with
    | (p, None) => p
    | (p, Some (x, r)) => p ++ append_std zs t x ++ format_f n' zs r t
    end
  end.
(** Time.Format (the special case for RFC3339 of newer releases gives the same). *)
Definition format (zs : zones) (layout : string) (t : gotime) : string :=
  format_f (S (String.length layout)) zs layout t.

(** time.RFC3339, util/interpolate.go:24 *)
Definition rfc3339 : string := "2006-01-02T15:04:05Z07:00".
(** util/interpolate.go:90-92 *)
Definition fmt_time (zs : zones) (layout : string) (t : gotime) : string := format zs layout (round_us t).

(** applyInterpolateOptions, util/interpolate.go:28-34.  An option is made by
    WithTimeFormat (36-41) or nil: the option type cannot be written elsewhere
    since the type of its argument is not exported.  Calling nil panics. *)
Fixpoint apply_options (layout : string) (opts : list (option string)) : option string :=
  match opts with
  | [] => Some layout
  | Some l :: opts' => apply_options l opts'
  | None :: _ => None
  end.
(** Interpolate with its options, util/interpolate.go:45-67. *)
Definition interpolate_with (zs : zones) (opts : list (option string)) (query : string) (args : list value) : outcome string :=
  match apply_options rfc3339 opts with
  | Some layout => interpolate (fmt_time zs layout) query args
  | None => RPanic nil_deref
  end.

(** The Go examples: January 2 of 2006, 15:04:05 in UTC-7. *)
Definition mst : zones := fun _ _ => ("MST", -25200)%Z.
Definition example_time : gotime := GoTime ((62135596800 + 1136239445) * 1000000000 + 123456789) 1 None.
Example format_examples :
  format mst rfc3339 example_time = "2006-01-02T15:04:05-07:00" /\
  format mst "Mon Jan _2 15:04:05 MST 2006" example_time = "Mon Jan  2 15:04:05 MST 2006" /\
  format mst "Monday, 02-Jan-06 15:04:05 MST" example_time = "Monday, 02-Jan-06 15:04:05 MST" /\
  format mst "3:04PM pm 1 2 4 5 002 __2 _2006" example_time = "3:04PM pm 1 2 4 5 002   2 _2006" /\
  format mst "2006-01-02T15:04:05.999999999Z07:00" example_time = "2006-01-02T15:04:05.123456789-07:00" /\
  format mst "Z070000 Z07:00:00 Z0700 Z07 -070000 -07 January Janet Mondays Months" example_time
  = "-070000 -07:00:00 -0700 -07 -070000 -07 January Janet Mondays Months" /\
  format mst "05.000 05,99 .0001" example_time = "05.123 05,12 .0001" /\
  t_ns (round_us example_time) = ((62135596800 + 1136239445) * 1000000000 + 123457000)%Z.
Proof. repeat apply conj; vm_compute; reflexivity. Qed.
