(** P_Date.v -- properties C35-C38. S_Date defines the Gregorian calendar by counting days. *)
From Verif Require Import Base M_Math M_Date S_Date L_Date L_Date2.
Ltac Zify.zify_post_hook ::= Z.to_euclidean_division_equations.

(** The time stamps for which the year loop does not overflow: from the start of year -292275054
    up to the start of year 292278994 (in milliseconds). *)
Definition supported (t : Z) : Prop := -9223372017043200000 <= t < 9223372017129600000.

(** C35: a Date built from a valid date and clock time reports exactly these fields *)
Theorem C35_fields_of_constructed_date : forall y m d h mi s ms,
  0 <= y <= 65535 -> valid_date y m d -> valid_clock h mi s ms ->
  exists t, newDate7 y m d h mi s ms = Val t /\ t = civil_time y m d h mi s ms /\
  date_year t = Val y /\ date_month t = Val m /\ date_date t = Val d /\ date_hours t = Val h /\
  date_minutes t = Val mi /\ date_seconds t = Val s /\ date_milliseconds t = Val ms.
Proof.
  intros y m d h mi s ms Hy Hd Hc. exists (civil_time y m d h mi s ms).
  assert (Hml : d <= 31).
  { destruct Hd as [_ Hd]. assert (month_len y m <= 31)
      by (unfold month_len; destruct (m =? 1), (leap y), ((m =? 3) || (m =? 5) || (m =? 8) || (m =? 10)); lia). lia. }
  destruct Hd as [Hm Hd]. destruct Hc as (Hh & Hmi & Hs & Hms).
  rewrite newDate7_spec by (unfold unit16; lia).
  replace (y + m / 12) with y by lia. replace (m mod 12) with m by lia.
  split; [reflexivity|]. split; [reflexivity|].
  edestruct (fields_of_civil y m d h mi s ms) as (E1 & E2 & E3 & E4 & E5 & E6 & E7 & _ & _);
    [unfold ymin, ymax; lia|split; eassumption|repeat split; lia|reflexivity|].
  repeat split; assumption.
Qed.
Print Assumptions C35_fields_of_constructed_date.

(** C35: every supported time stamp has unique valid fields, and rebuilding a Date from them gives it back *)
Theorem C35_timestamp_from_fields : forall t, supported t ->
  exists y m d h mi s ms,
  date_year t = Val y /\ date_month t = Val m /\ date_date t = Val d /\ date_hours t = Val h /\
  date_minutes t = Val mi /\ date_seconds t = Val s /\ date_milliseconds t = Val ms /\
  valid_date y m d /\ valid_clock h mi s ms /\ t = civil_time y m d h mi s ms /\
  (0 <= y <= 65535 -> newDate7 y m d h mi s ms = Val t).
Proof.
  intros t Ht. destruct (civil_exists t) as (y & m & d & h & mi & s & ms & Hy & Hd & Hc & Et);
    [rewrite tmin_val, tmax_val; exact Ht|].
  exists y, m, d, h, mi, s, ms.
  destruct (fields_of_civil y m d h mi s ms t Hy Hd Hc Et) as (E1 & E2 & E3 & E4 & E5 & E6 & E7 & _ & _).
  repeat (split; [assumption|]). intros Hy'.
  destruct (C35_fields_of_constructed_date y m d h mi s ms Hy' Hd Hc) as (t' & E & -> & _). congruence.
Qed.
Print Assumptions C35_timestamp_from_fields.

(** C35: constructor arguments beyond the calendar ranges carry over (months into years, the rest by addition) *)
Theorem C35_constructor_total : forall y m d h mi s ms,
  unit16 y -> unit16 m -> unit16 d -> unit16 h -> unit16 mi -> unit16 s -> unit16 ms ->
  newDate7 y m d h mi s ms = Val (civil_time (y + m / 12) (m mod 12) d h mi s ms).
Proof. exact newDate7_spec. Qed.
Print Assumptions C35_constructor_total.
Theorem C35_constructor3 : forall y m d, unit16 y -> unit16 m -> unit16 d ->
  newDate3 y m d = newDate7 y m d 0 0 0 0.
Proof. intros. rewrite newDate3_spec, newDate7_spec by (auto; unfold unit16; lia). reflexivity. Qed.
Print Assumptions C35_constructor3.
Example C35_example : newDate7 2024 1 29 13 45 59 7 = Val 1709214359007 /\ valid_date 2024 1 29
  /\ valid_clock 13 45 59 7 /\ date_month 1709214359007 = Val 1 /\ date_date (-1) = Val 31 /\ date_year (-1) = Val 1969.
Proof. split; [vm_compute; reflexivity|]. split; [split; [lia|vm_compute; split; discriminate]|].
  split; [unfold valid_clock; lia|]. repeat split. Qed.

(** C36: fields are in range for every supported time stamp; leap years are the Gregorian ones
    (through month_len in valid_date) *)
Theorem C36_fields_in_range : forall t, supported t ->
  exists y m d h mi s ms doy,
  date_year t = Val y /\ date_month t = Val m /\ date_date t = Val d /\ date_hours t = Val h /\
  date_minutes t = Val mi /\ date_seconds t = Val s /\ date_milliseconds t = Val ms /\ date_dayOfYear t = Val doy /\
  0 <= m <= 11 /\ 1 <= d <= month_len y m /\ 0 <= h <= 23 /\ 0 <= mi <= 59 /\ 0 <= s <= 59 /\ 0 <= ms <= 999
  /\ 0 <= doy < year_len y.
Proof.
  intros t Ht. destruct (civil_exists t) as (y & m & d & h & mi & s & ms & Hy & Hd & Hc & Et);
    [rewrite tmin_val, tmax_val; exact Ht|].
  destruct (fields_of_civil y m d h mi s ms t Hy Hd Hc Et) as (E1 & E2 & E3 & E4 & E5 & E6 & E7 & E8 & _).
  destruct (civil_in_year y m d h mi s ms Hd Hc) as [HY ED].
  rewrite <- Et in HY, ED.
  destruct (dayWithinYear_spec t y HY ltac:(lia) ltac:(lia)) as [_ Hw]. rewrite ED in Hw.
  exists y, m, d, h, mi, s, ms, (mstart y m + (d - 1)).
  repeat (split; [assumption|]). destruct Hd as [Hm Hd]. destruct Hc as (Hh & Hmi & Hs & Hms).
  repeat (split; [assumption|]). lia.
Qed.
Print Assumptions C36_fields_in_range.
Theorem C36_leap_years : forall y, daysInYear y = if leap y then 366 else 365.
Proof. exact daysInYear_spec. Qed.
Print Assumptions C36_leap_years.
(** outside the supported range asking for the year is a signed overflow; this includes Date::EMPTY *)
Theorem C36_every_timestamp_refuted : forall t, in_s64 t = true -> ~ supported t -> date_year t = UB.
Proof.
  intros t H Hs. unfold supported in Hs. unfold in_s64 in H.
  destruct (Z.ltb_spec t (-9223372017043200000)).
  - apply year_overflow_low. rewrite tmin_val. lia.
  - apply year_overflow. rewrite tmax_val. lia.
Qed.
Print Assumptions C36_every_timestamp_refuted.
Example C36_example : supported 0 /\ supported (-62167219200000) /\ in_s64 (-9223372036854775808) = true
  /\ ~ supported (-9223372036854775808).
Proof. unfold supported. repeat split; try lia; reflexivity. Qed.

(** C37 *)
Theorem C37_week_day : forall t, in_s64 t = true -> -345600000 <= t -> date_day t = Val (week_day (t / 86400000)).
Proof. intros t H Ht. rewrite weekDay_spec by exact H. destruct (-345600000 <=? t) eqn:E; [reflexivity|lia]. Qed.
Print Assumptions C37_week_day.
Theorem C37_week_day_before_1970_refuted : forall t, in_s64 t = true -> t < -345600000 ->
  date_day t = Val (if week_day (t / 86400000) =? 0 then 0 else week_day (t / 86400000) - 7).
Proof.
  intros t H Ht. rewrite weekDay_spec by exact H. destruct (-345600000 <=? t) eqn:E; [lia|]. cbn [orb].
  destruct (Z.eqb_spec (week_day (t / 86400000)) 0); [congruence|reflexivity].
Qed.
Print Assumptions C37_week_day_before_1970_refuted.
(** 2000-01-01 was a Saturday, 1969-07-20 a Sunday, 1969-07-16 a Wednesday (reported as -4) *)
Example C37_example : date_day 946684800000 = Val 6 /\ date_day (-14256000000) = Val 0 /\ date_day (-14601600000) = Val (-4).
Proof. repeat split. Qed.

(** C38 *)
Theorem C38_toString_is_iso : forall y m d h mi s ms, 0 <= y <= 9999 -> valid_date y m d -> valid_clock h mi s ms ->
  date_toString (civil_time y m d h mi s ms) = Val (iso_text y m d h mi s ms).
Proof. exact toString_spec. Qed.
Print Assumptions C38_toString_is_iso.
Theorem C38_text_order_is_time_order : forall t t',
  civil_time 0 0 1 0 0 0 0 <= t < civil_time 10000 0 1 0 0 0 0 ->
  civil_time 0 0 1 0 0 0 0 <= t' < civil_time 10000 0 1 0 0 0 0 ->
  exists a b, date_toString t = Val a /\ date_toString t' = Val b /\ lexcmp a b = (t ?= t').
Proof. exact text_order. Qed.
Print Assumptions C38_text_order_is_time_order.
Theorem C38_comparisons_agree : forall a b,
  date_lt a b = (date_compareTo a b =? -1) /\ date_gt a b = (date_compareTo a b =? 1) /\
  date_eq a b = (date_compareTo a b =? 0) /\ date_ne a b = negb (date_compareTo a b =? 0) /\
  date_le a b = negb (date_compareTo a b =? 1) /\ date_ge a b = negb (date_compareTo a b =? -1).
Proof.
  intros a b. unfold date_lt, date_gt, date_eq, date_ne, date_le, date_ge, date_compareTo.
  destruct (a <? b) eqn:E1; destruct (a >? b) eqn:E2; lia.
Qed.
Print Assumptions C38_comparisons_agree.
Theorem C38_total_order : forall a b c,
  date_compareTo a a = 0 /\ date_compareTo a b = - date_compareTo b a /\
  (date_compareTo a b = 0 -> a = b) /\
  (date_compareTo a b <= 0 -> date_compareTo b c <= 0 -> date_compareTo a c <= 0).
Proof.
  intros a b c. unfold date_compareTo.
  repeat match goal with |- context[?x <? ?y] => destruct (x <? y) eqn:? | |- context[?x >? ?y] => destruct (x >? y) eqn:? end; lia.
Qed.
Print Assumptions C38_total_order.
Example C38_example : date_toString 1709214359007 =
  Val [50;48;50;52;45;48;50;45;50;57;84;49;51;58;52;53;58;53;57;46;48;48;55;90].
Proof. vm_compute; reflexivity. Qed.
