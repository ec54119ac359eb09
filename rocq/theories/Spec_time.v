(** Times: the Gregorian calendar day by day, the clock, zones, and the text
    of RFC 3339.  Independent of the arithmetic in Time.v. *)
From Coq Require Import Strings.String Strings.Ascii NArith ZArith List Bool.
From Verif Require Import GoStr GoNum Syntax Value Spec_syntax Spec_base.
Import ListNotations.
Open Scope string_scope.

Definition leap (y : Z) : Prop := ((4 | y) /\ (~ (100 | y) \/ (400 | y)))%Z.
(** [month_days y m n]: month [m] of year [y] has [n] days. *)
Inductive month_days (y : Z) : Z -> Z -> Prop :=
| md_long m : In m [1; 3; 5; 7; 8; 10; 12]%Z -> month_days y m 31
| md_short m : In m [4; 6; 9; 11]%Z -> month_days y m 30
| md_leap : leap y -> month_days y 2 29
| md_february : ~ leap y -> month_days y 2 28.
(** The day after. *)
Inductive tomorrow : Z * Z * Z -> Z * Z * Z -> Prop :=
| tm_day y m d n : month_days y m n -> (1 <= d < n)%Z -> tomorrow (y, m, d) (y, m, d + 1)%Z
| tm_month y m n : month_days y m n -> (m < 12)%Z -> tomorrow (y, m, n) (y, m + 1, 1)%Z
| tm_year y : tomorrow (y, 12, 31)%Z (y + 1, 1, 1)%Z.
(** [calendar n d]: [d] is the day [n] days after January 1 of the year 1. *)
Inductive calendar : Z -> Z * Z * Z -> Prop :=
| cal_first : calendar 0 (1, 1, 1)%Z
| cal_next n a b : calendar n a -> tomorrow a b -> calendar (n + 1) b
| cal_previous n a b : calendar n b -> tomorrow a b -> calendar (n - 1) a.
(** The clock shows h:m:s at this second of the day [n]. *)
Definition reads (local n h m s : Z) : Prop :=
  (local = 86400 * n + 3600 * h + 60 * m + s /\ 0 <= h < 24 /\ 0 <= m < 60 /\ 0 <= s < 60)%Z.

(** [padded w n s]: [n] with at least [w] digits. *)
Inductive padded : nat -> N -> string -> Prop :=
| pd_enough w n s : decimal n s -> w <= String.length s -> padded w n s
| pd_zero w n s : padded w n s -> String.length s = w -> padded (S w) n ("0" ++ s).
Definition two (x : Z) (s : string) : Prop := (0 <= x)%Z /\ padded 2 (Z.to_N x) s.
Inductive year_text (y : Z) : string -> Prop :=
| yt_positive s : (0 <= y)%Z -> padded 4 (Z.to_N y) s -> year_text y s
| yt_negative s : (y < 0)%Z -> padded 4 (Z.to_N (- y)) s -> year_text y ("-" ++ s).
(** The offset of a zone in seconds; seconds are left out. *)
Inductive zone_text : Z -> string -> Prop :=
| zt_utc : zone_text 0 "Z"
| zt_east h m k hh mm : (0 <= m < 60 /\ 0 <= k < 60 /\ (h, m, k) <> (0, 0, 0))%Z -> two h hh -> two m mm ->
    zone_text (3600 * h + 60 * m + k) ("+" ++ hh ++ ":" ++ mm)
| zt_just_west k : (0 < k < 60)%Z -> zone_text (- k) "+00:00"
| zt_west h m k hh mm : (0 <= m < 60 /\ 0 <= k < 60 /\ (h, m) <> (0, 0))%Z -> two h hh -> two m mm ->
    zone_text (- (3600 * h + 60 * m + k)) ("-" ++ hh ++ ":" ++ mm).
(** RFC 3339 at some second of the local clock, with a fraction of a second. *)
Inductive stamp_with (fraction : string) (local offset : Z) : string -> Prop :=
| stamp_intro n y mo d h mi s ty tmo td th tmi ts tz : calendar n (y, mo, d) -> reads local n h mi s ->
    year_text y ty -> two mo tmo -> two d td -> two h th -> two mi tmi -> two s ts -> zone_text offset tz ->
    stamp_with fraction local offset (ty ++ "-" ++ tmo ++ "-" ++ td ++ "T" ++ th ++ ":" ++ tmi ++ ":" ++ ts ++ fraction ++ tz).
Definition stamp : Z -> Z -> string -> Prop := stamp_with "".
(** ... with microseconds. *)
Definition stamp_us (local us offset : Z) (s : string) : Prop :=
  exists f, (0 <= us)%Z /\ padded 6 (Z.to_N us) f /\ stamp_with ("." ++ f) local offset s.

(** The nearest microsecond, the later one if there are two. *)
Definition nearest_us (ns m : Z) : Prop := ((1000 | m) /\ m - 500 <= ns < m + 500)%Z.
(** The last of the layouts given, or the default. *)
Inductive last_layout (default : string) : list string -> string -> Prop :=
| ll_none : last_layout default [] default
| ll_last l x : last_layout default (l ++ [x])%list x.
(** Texts that do not end a quotation. *)
Definition quiet (s : string) : bool := all (fun a => negb (Ascii.eqb a "'") && negb (Ascii.eqb a nul)) s.
(** Zones of whole minutes, less than 100 hours from UTC. *)
Definition small_zone (o : Z) : Prop := ((60 | o) /\ - 360000 < o < 360000)%Z.
Definition sound_zones (zs : N -> Z -> string * Z) : Prop := forall l s, small_zone (snd (zs l s)).
(** Zones whose abbreviations contain no quote. *)
Definition quiet_zones (zs : N -> Z -> string * Z) : Prop := forall l s, quiet (fst (zs l s)) = true.
(** RFC 3339 with microseconds as a layout. *)
Definition rfc3339_micro : string := "2006-01-02T15:04:05.000000Z07:00".
