(** M_Date.v -- model of src/core/Date.cpp (everything except the reading of the system clock
    (38-53), fromNSDate (81-90, floating point), the copy constructor and the destructor).
    Time stamps are int64 milliseconds since 1970. Signed overflow is UB where it can happen for
    some int64 time stamp; the remaining additions stay in range because the years visited by the
    loops are between -292275055 and 292278995. *)
From Verif Require Import Base M_Math.

(** Date.h 61-68 *)
Definition MS_PER_DAY := 86400000.
Definition HOURS_PER_DAY := 24.
Definition MINUTES_PER_HOUR := 60.
Definition SECONDS_PER_MINUTE := 60.
Definition MS_PER_SECOND := 1000.
Definition MS_PER_MINUTE := 60000.
Definition MS_PER_HOUR := 3600000.

(** Date.cpp 97-100 *)
Definition d_day (t : Z) : out Z := divFloor t MS_PER_DAY.

(** Date.cpp 107-113 *)
Definition daysInYear (y : Z) : Z :=
  if negb (Z.rem y 4 =? 0) then 365
  else if negb (Z.rem y 100 =? 0) then 366
  else if negb (Z.rem y 400 =? 0) then 365
  else 366.

(** Date.cpp 115-121 *)
Definition dayFromYear (y : Z) : out Z :=
  let* a := divFloor (y - 1969) 4 in
  let* b := divFloor (y - 1901) 100 in
  let* c := divFloor (y - 1601) 400 in
  Val (365 * (y - 1970) + a - b + c).

(** Date.cpp 123-126 *)
Definition timeFromYear (y : Z) : out Z :=
  let* d := dayFromYear y in chk64 (MS_PER_DAY * d).

(** Date.cpp 134-138 *)
Fixpoint yft_up (fuel : nat) (t y : Z) : out Z :=
  match fuel with
  | O => Fuel
  | S fuel => let* tf := timeFromYear y in if tf <=? t then yft_up fuel t (y + 1) else Val (y - 1)
  end.
(** Date.cpp 142-146 *)
Fixpoint yft_down (fuel : nat) (t y : Z) : out Z :=
  match fuel with
  | O => Fuel
  | S fuel => let* tf := timeFromYear y in if tf >? t then yft_down fuel t (y - 1) else Val y
  end.
(** loop bound of the model only; a year has at least 365 days *)
Definition yft_fuel (t : Z) : nat := Z.to_nat (Z.abs t / 31536000000 + 3).
(** Date.cpp 128-148 *)
Definition yearFromTime (t : Z) : out Z :=
  if t >=? 0 then yft_up (yft_fuel t) t 1970 else yft_down (yft_fuel t) t 1970.

(** Date.cpp 150-156 *)
Definition inLeapYear (t : Z) : out Z :=
  let* y := yearFromTime t in
  let diy := daysInYear y in
  Val (if diy =? 365 then 0 else if diy =? 366 then 1 else -1).

(** Date.cpp 158-161 *)
Definition dayWithinYear (t : Z) : out Z :=
  let* d := d_day t in let* y := yearFromTime t in let* s := dayFromYear y in Val (d - s).

(** Date.cpp 163-182 *)
Definition monthOf (dwy ily : Z) : Z :=
  if (0 <=? dwy) && (dwy <? 31) then 0
  else if (31 <=? dwy) && (dwy <? 59 + ily) then 1
  else if (59 + ily <=? dwy) && (dwy <? 90 + ily) then 2
  else if (90 + ily <=? dwy) && (dwy <? 120 + ily) then 3
  else if (120 + ily <=? dwy) && (dwy <? 151 + ily) then 4
  else if (151 + ily <=? dwy) && (dwy <? 181 + ily) then 5
  else if (181 + ily <=? dwy) && (dwy <? 212 + ily) then 6
  else if (212 + ily <=? dwy) && (dwy <? 243 + ily) then 7
  else if (243 + ily <=? dwy) && (dwy <? 273 + ily) then 8
  else if (273 + ily <=? dwy) && (dwy <? 304 + ily) then 9
  else if (304 + ily <=? dwy) && (dwy <? 334 + ily) then 10
  else if (334 + ily <=? dwy) && (dwy <? 365 + ily) then 11
  else -1.
Definition monthFromTime (t : Z) : out Z :=
  let* dwy := dayWithinYear t in let* ily := inLeapYear t in Val (monthOf dwy ily).

(** Date.cpp 184-231 *)
Definition dateOf (mft dwy ily : Z) : Z :=
  match mft with
  | 0 => dwy + 1
  | 1 => dwy - 30
  | 2 => dwy - 58 - ily
  | 3 => dwy - 89 - ily
  | 4 => dwy - 119 - ily
  | 5 => dwy - 150 - ily
  | 6 => dwy - 180 - ily
  | 7 => dwy - 211 - ily
  | 8 => dwy - 242 - ily
  | 9 => dwy - 272 - ily
  | 10 => dwy - 303 - ily
  | 11 => dwy - 333 - ily
  | _ => -1
  end.
Definition dateFromTime (t : Z) : out Z :=
  let* dwy := dayWithinYear t in let* ily := inLeapYear t in let* mft := monthFromTime t in
  Val (dateOf mft dwy ily).

(** Date.cpp 233-237: C remainder *)
Definition weekDay (t : Z) : out Z := let* d := d_day t in Val (Z.rem (d + 4) 7).

(** Date.cpp 239-257: both adjustments are 0 *)
Definition localTime (t : Z) : Z := t + 0 + 0.
Definition utc (t : Z) : Z := t - 0 - 0.

(** Date.cpp 259-277 *)
Definition hourFromTime (t : Z) : out Z := let* q := divFloor t MS_PER_HOUR in modFloor q HOURS_PER_DAY.
Definition minuteFromTime (t : Z) : out Z := let* q := divFloor t MS_PER_MINUTE in modFloor q MINUTES_PER_HOUR.
Definition secondFromTime (t : Z) : out Z := let* q := divFloor t MS_PER_SECOND in modFloor q SECONDS_PER_MINUTE.
Definition milliFromTime (t : Z) : out Z := modFloor t MS_PER_SECOND.

(** Date.cpp 279-282 *)
Definition makeTime (hour minute second milli : Z) : Z :=
  hour * MS_PER_HOUR + minute * MS_PER_MINUTE + second * MS_PER_SECOND + milli.

(** Date.cpp 300-353: the switch; the default value is -1 as an int64 *)
Definition monthStart (theMonth ily : Z) : Z :=
  match theMonth with
  | 0 => 0 * MS_PER_DAY
  | 1 => 31 * MS_PER_DAY
  | 2 => (59 + ily) * MS_PER_DAY
  | 3 => (90 + ily) * MS_PER_DAY
  | 4 => (120 + ily) * MS_PER_DAY
  | 5 => (151 + ily) * MS_PER_DAY
  | 6 => (181 + ily) * MS_PER_DAY
  | 7 => (212 + ily) * MS_PER_DAY
  | 8 => (243 + ily) * MS_PER_DAY
  | 9 => (273 + ily) * MS_PER_DAY
  | 10 => (304 + ily) * MS_PER_DAY
  | 11 => (334 + ily) * MS_PER_DAY
  | _ => -1
  end.
(** Date.cpp 284-358 *)
Definition makeDay (year month date : Z) : out Z :=
  let* dm := divFloor month 12 in
  let theYear := year + dm in
  let theMonth := Z.rem month 12 in
  let* tfy := timeFromYear theYear in
  let* ily := inLeapYear tfy in
  let* r7 := chk64 (tfy + monthStart theMonth ily) in
  let* d := d_day r7 in
  Val (d + date - 1).

(** Date.cpp 360-363 *)
Definition makeDate (day millis : Z) : out Z := chk64 (day * MS_PER_DAY + millis).

(** Date.cpp 65-68: Date(year, month, day); all arguments are uint16 *)
Definition newDate3 (year month day : Z) : out Z :=
  let* d := makeDay (u16 year) (u16 month) (u16 day) in omap utc (makeDate d 0).
(** Date.cpp 70-79: Date(year, month, day, hours, minutes, seconds, millis); all uint16 *)
Definition newDate7 (year month day hours minutes seconds millis : Z) : out Z :=
  let* d := makeDay (u16 year) (u16 month) (u16 day) in
  omap utc (makeDate d (makeTime (u16 hours) (u16 minutes) (u16 seconds) (u16 millis))).

(** Date.cpp 380-463: the accessors (local and UTC variants agree because localTime is the identity) *)
Definition date_year (t : Z) := yearFromTime (localTime t).
Definition date_utcYear (t : Z) := yearFromTime t.
Definition date_month (t : Z) := monthFromTime (localTime t).
Definition date_utcMonth (t : Z) := monthFromTime t.
Definition date_date (t : Z) := dateFromTime (localTime t).
Definition date_utcDate (t : Z) := dateFromTime t.
Definition date_day (t : Z) := weekDay (localTime t).
Definition date_dayOfYear (t : Z) := dayWithinYear (localTime t).
Definition date_utcDay (t : Z) := weekDay t.
Definition date_hours (t : Z) := hourFromTime (localTime t).
Definition date_utcHours (t : Z) := hourFromTime t.
Definition date_minutes (t : Z) := minuteFromTime (localTime t).
Definition date_utcMinutes (t : Z) := minuteFromTime t.
Definition date_seconds (t : Z) := secondFromTime (localTime t).
Definition date_utcSeconds (t : Z) := secondFromTime t.
Definition date_milliseconds (t : Z) := milliFromTime (localTime t).
Definition date_utcMilliseconds (t : Z) := milliFromTime t.

(** Date.cpp 465-504: toString; the text as character codes. The template "0000-00-00T00:00:00.000Z"
    is overwritten at the digit positions. static_cast<char> wraps to a signed 8 bit value. *)
Definition dig (v : Z) : Z := s8 (48 + v).
Definition date_toString (t : Z) : out (list Z) :=
  let* y := date_utcYear t in let* mo := date_utcMonth t in let* da := date_utcDate t in
  let* h := date_utcHours t in let* mi := date_utcMinutes t in let* se := date_utcSeconds t in
  let* ms := date_utcMilliseconds t in
  let year := Z.rem y 10000 in
  let year1 := Z.rem year 1000 in
  let year2 := Z.rem year1 100 in
  let month := 1 + Z.rem mo 100 in
  let day := Z.rem da 100 in
  let hour := Z.rem h 100 in
  let minute := Z.rem mi 100 in
  let second := Z.rem se 100 in
  let millis := Z.rem ms 1000 in
  let millis1 := Z.rem millis 100 in
  Val [ dig (Z.quot year 1000); dig (Z.quot year1 100); dig (Z.quot year2 10); dig (Z.rem year2 10); 45;
        dig (Z.quot month 10); dig (Z.rem month 10); 45;
        dig (Z.quot day 10); dig (Z.rem day 10); 84;
        dig (Z.quot hour 10); dig (Z.rem hour 10); 58;
        dig (Z.quot minute 10); dig (Z.rem minute 10); 58;
        dig (Z.quot second 10); dig (Z.rem second 10); 46;
        dig (Z.quot millis 100); dig (Z.quot millis1 10); dig (Z.rem millis1 10); 90 ].

(** Date.cpp 506-542: comparison *)
Definition date_compareTo (a b : Z) : Z := if a <? b then -1 else if a >? b then 1 else 0.
Definition date_lt (a b : Z) := a <? b.
Definition date_le (a b : Z) := a <=? b.
Definition date_gt (a b : Z) := a >? b.
Definition date_ge (a b : Z) := a >=? b.
Definition date_ne (a b : Z) := negb (a =? b).
Definition date_eq (a b : Z) := a =? b.
