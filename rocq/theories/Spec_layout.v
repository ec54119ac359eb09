(** Layouts of times: which texts stand for what, and how a layout is read.
    Independent of the reading in Time.v. *)
From Coq Require Import Strings.String Strings.Ascii NArith ZArith List Bool.
From Verif Require Import GoStr GoNum Syntax Value Spec_syntax Spec_base Spec_time.
Import ListNotations.
Open Scope string_scope.

(** What clock and calendar show at some place at some instant. *)
Record moment := Moment {
  m_days : Z;   (* since January 1 of the year 1 *)
  m_year : Z; m_month : Z; m_day : Z;
  m_hour : Z; m_minute : Z; m_second : Z; m_nano : Z;
  m_zone : string; m_offset : Z }.
(** At [ns] nanoseconds since the year 1 began in UTC. *)
Definition moment_at (zs : N -> Z -> string * Z) (ns : Z) (loc : N) (M : moment) : Prop :=
  exists sec, ns = (1000000000 * sec + m_nano M)%Z /\ (0 <= m_nano M < 1000000000)%Z /\
    zs loc sec = (m_zone M, m_offset M) /\
    reads (sec + m_offset M) (m_days M) (m_hour M) (m_minute M) (m_second M) /\
    calendar (m_days M) (m_year M, m_month M, m_day M).

Definition months : list (string * string) :=
  [("January", "Jan"); ("February", "Feb"); ("March", "Mar"); ("April", "Apr"); ("May", "May"); ("June", "Jun"); ("July", "Jul");
   ("August", "Aug"); ("September", "Sep"); ("October", "Oct"); ("November", "Nov"); ("December", "Dec")].
Definition weekdays : list (string * string) :=
  [("Monday", "Mon"); ("Tuesday", "Tue"); ("Wednesday", "Wed"); ("Thursday", "Thu"); ("Friday", "Fri"); ("Saturday", "Sat"); ("Sunday", "Sun")].
Definition month_is (M : moment) (x : string * string) : Prop := exists i, m_month M = (Z.of_nat i + 1)%Z /\ nth_error months i = Some x.
(** The year 1 began on a Monday. *)
Definition weekday_is (M : moment) (x : string * string) : Prop := exists w i, m_days M = (7 * w + Z.of_nat i)%Z /\ nth_error weekdays i = Some x.
Definition yearday_is (M : moment) (k : Z) : Prop := exists n, calendar n (m_year M, 1, 1)%Z /\ m_days M = (n + k - 1)%Z.
(** Hours from 1 to 12, before noon and after. *)
Inductive twelve : Z -> Z -> bool -> Prop :=
| tw_midnight : twelve 0 12 false
| tw_morning h : (1 <= h < 12)%Z -> twelve h h false
| tw_noon : twelve 12 12 true
| tw_evening h : (1 <= h < 12)%Z -> twelve (h + 12) h true.

(** [spaced w n s]: [n] preceded by spaces. *)
Inductive spaced : nat -> N -> string -> Prop :=
| sd_enough w n s : decimal n s -> w <= String.length s -> spaced w n s
| sd_space w n s : spaced w n s -> String.length s = w -> spaced (S w) n (" " ++ s).
Definition number (w : nat) (x : Z) (s : string) : Prop := (0 <= x)%Z /\ padded w (Z.to_N x) s.
Definition under (w : nat) (x : Z) (s : string) : Prop := (0 <= x)%Z /\ spaced w (Z.to_N x) s.
(** Sign, hours, minutes and seconds of an offset.  Less than a minute west of
    UTC the sign goes to the seconds. *)
Inductive offset_parts : Z -> string -> string -> string -> string -> Prop :=
| op_east h m k hh mm ss : (0 <= m < 60 /\ 0 <= k < 60)%Z -> two h hh -> two m mm -> two k ss ->
    offset_parts (3600 * h + 60 * m + k) "+" hh mm ss
| op_just_west k ss : (0 < k < 60)%Z -> two k ss -> offset_parts (- k) "+" "00" "00" ("-" ++ ss)
| op_west h m k hh mm ss : (0 <= m < 60 /\ 0 <= k < 60 /\ (h, m) <> (0, 0))%Z -> two h hh -> two m mm -> two k ss ->
    offset_parts (- (3600 * h + 60 * m + k)) "-" hh mm ss.
Definition offset_is (f : string -> string -> string -> string) (M : moment) (s : string) : Prop :=
  exists sign hh mm ss, offset_parts (m_offset M) sign hh mm ss /\ s = sign ++ f hh mm ss.
(** ... with Z for UTC. *)
Definition offset_or_z (f : string -> string -> string -> string) (M : moment) (s : string) : Prop :=
  (m_offset M = 0%Z /\ s = "Z") \/ (m_offset M <> 0%Z /\ offset_is f M s).

(** The texts with a meaning. *)
Definition elements : list (string * (moment -> string -> Prop)) :=
  [("2006", fun M => year_text (m_year M));
   ("_2006", fun M s => exists y, year_text (m_year M) y /\ s = "_" ++ y);
   ("06", fun M s => exists c k, ((0 <= m_year M /\ m_year M = 100 * c + k /\ 0 <= k < 100) \/ (m_year M < 0 /\ k = 0))%Z /\ two k s);
   ("January", fun M s => exists x, month_is M (s, x));
   ("Jan", fun M s => exists x, month_is M (x, s));
   ("1", fun M => number 1 (m_month M));
   ("01", fun M => number 2 (m_month M));
   ("Monday", fun M s => exists x, weekday_is M (s, x));
   ("Mon", fun M s => exists x, weekday_is M (x, s));
   ("2", fun M => number 1 (m_day M));
   ("_2", fun M => under 2 (m_day M));
   ("02", fun M => number 2 (m_day M));
   ("__2", fun M s => exists k, yearday_is M k /\ under 3 k s);
   ("002", fun M s => exists k, yearday_is M k /\ number 3 k s);
   ("15", fun M => number 2 (m_hour M));
   ("3", fun M s => exists k pm, twelve (m_hour M) k pm /\ number 1 k s);
   ("03", fun M s => exists k pm, twelve (m_hour M) k pm /\ number 2 k s);
   ("PM", fun M s => exists k pm, twelve (m_hour M) k pm /\ s = if pm : bool then "PM" else "AM");
   ("pm", fun M s => exists k pm, twelve (m_hour M) k pm /\ s = if pm : bool then "pm" else "am");
   ("4", fun M => number 1 (m_minute M));
   ("04", fun M => number 2 (m_minute M));
   ("5", fun M => number 1 (m_second M));
   ("05", fun M => number 2 (m_second M));
   ("MST", fun M s => (m_zone M <> "" /\ s = m_zone M) \/ (m_zone M = "" /\ offset_is (fun h m _ => h ++ m) M s));
   ("-07", offset_is (fun h _ _ => h));
   ("-0700", offset_is (fun h m _ => h ++ m));
   ("-07:00", offset_is (fun h m _ => h ++ ":" ++ m));
   ("-070000", offset_is (fun h m s => h ++ m ++ s));
   ("-07:00:00", offset_is (fun h m s => h ++ ":" ++ m ++ ":" ++ s));
   ("Z07", offset_or_z (fun h _ _ => h));
   ("Z0700", offset_or_z (fun h m _ => h ++ m));
   ("Z07:00", offset_or_z (fun h m _ => h ++ ":" ++ m));
   ("Z070000", offset_or_z (fun h m s => h ++ m ++ s));
   ("Z07:00:00", offset_or_z (fun h m s => h ++ ":" ++ m ++ ":" ++ s))].
(** Fractions of a second: a point or a comma, and a run of zeros or nines.
    The length of the run is kept in twelve bits. *)
Definition fraction (sep d : ascii) (run t : string) : Prop :=
  In sep ["."; ","]%char /\ In d ["0"; "9"]%char /\ run <> "" /\ all (fun a => Ascii.eqb a d) run = true /\ t = String sep run.
Definition first_digits (M : moment) (run f : string) : Prop :=
  exists k rest, (k < 4096)%N /\ (exists c, N.of_nat (String.length run) = 4096 * c + k)%N /\
    padded 9 (Z.to_N (m_nano M)) (f ++ rest) /\ String.length f = Nat.min (N.to_nat k) 9.
(** [g] is [f] without the zeros at its end. *)
Definition shortened (f g : string) : Prop :=
  exists z, f = g ++ z /\ all (fun a => Ascii.eqb a "0") z = true /\ forall g', g <> g' ++ "0".
Definition fraction_shows (M : moment) (t s : string) : Prop :=
  exists sep d run f, fraction sep d run t /\ first_digits M run f /\
    ((d = "0"%char /\ s = String sep f) \/
     (d = "9"%char /\ exists g, shortened f g /\ ((g = "" /\ s = "") \/ (g <> "" /\ s = String sep g)))).

(** [stands t r]: a layout starts with the element [t], followed by [r]. *)
Inductive stands : string -> string -> Prop :=
| st_name t r : In t ["Jan"; "Mon"] -> starts (fun a => in_range (code a) 97 122) r = false -> stands t r
| st_fixed t r f : In (t, f) elements -> ~ In t ["Jan"; "Mon"] -> stands t r
| st_fraction sep d run t r : fraction sep d run t -> starts is_digit r = false -> stands t r.
Definition shows (M : moment) (t s : string) : Prop :=
  (exists f, In (t, f) elements /\ f M s) \/ fraction_shows M t s.
(** A layout is read from left to right; the longest element counts, and what
    starts no element stands for itself. *)
Inductive formats (M : moment) : string -> string -> Prop :=
| fo_end : formats M "" ""
| fo_self a l s : (forall t r, String a l = t ++ r -> ~ stands t r) -> formats M l s -> formats M (String a l) (String a s)
| fo_element t r x s : stands t r -> (forall t' r', t ++ r = t' ++ r' -> stands t' r' -> String.length t' <= String.length t) ->
    shows M t x -> formats M r s -> formats M (t ++ r) (x ++ s).
