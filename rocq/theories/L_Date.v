From Verif Require Import Base M_Math M_Date L_Math S_Date.
Ltac Zify.zify_post_hook ::= Z.to_euclidean_division_equations.

(** closed form of the day number of 1 January *)
Definition dfy (y : Z) : Z := 365 * (y - 1970) + (y - 1969) / 4 - (y - 1901) / 100 + (y - 1601) / 400.

Lemma year_len_365 y : year_len y = 365 \/ year_len y = 366.
Proof. unfold year_len; destruct (leap y); auto. Qed.
Lemma dfy_step y : dfy (y + 1) = dfy y + year_len y.
Proof.
  unfold dfy, year_len, leap.
  destruct (y mod 4 =? 0) eqn:E4; destruct (y mod 100 =? 0) eqn:E100; destruct (y mod 400 =? 0) eqn:E400;
    cbn [andb orb negb]; lia.
Qed.
Lemma days_after_dfy n : days_after n = dfy (1970 + Z.of_nat n).
Proof.
  induction n as [|n IH]; [reflexivity|]. cbn [days_after]. rewrite IH.
  replace (1970 + Z.of_nat (S n)) with (1970 + Z.of_nat n + 1) by lia. now rewrite dfy_step.
Qed.
Lemma days_before_dfy n : days_before n = - dfy (1970 - Z.of_nat n).
Proof.
  induction n as [|n IH]; [reflexivity|]. cbn [days_before]. rewrite IH.
  pose proof (dfy_step (1969 - Z.of_nat n)) as St. replace (1969 - Z.of_nat n + 1) with (1970 - Z.of_nat n) in St by lia.
  replace (1970 - Z.of_nat (S n)) with (1969 - Z.of_nat n) by lia. lia.
Qed.
Lemma year_start_dfy y : year_start y = dfy y.
Proof.
  unfold year_start. destruct (Z.leb_spec 1970 y).
  - rewrite days_after_dfy. f_equal. lia.
  - rewrite days_before_dfy. rewrite Z.opp_involutive. f_equal. lia.
Qed.

Lemma dfy_mono y y' : y <= y' -> dfy y + 365 * (y' - y) <= dfy y'.
Proof. unfold dfy. lia. Qed.
Definition ymin : Z := -292275054.
Definition ymax : Z := 292278994.   (* first year whose start is in range and whose end is not *)

Definition yr (y : Z) : Prop := -292275056 <= y <= 292278996.
Lemma dayFromYear_spec y : yr y -> dayFromYear y = Val (dfy y).
Proof.
  unfold yr. intros H. unfold dayFromYear.
  rewrite !divFloor_spec; try (unfold in_s64, div_defined; lia). reflexivity.
Qed.
Lemma timeFromYear_spec y : ymin <= y <= ymax -> timeFromYear y = Val (86400000 * dfy y).
Proof.
  intros H. unfold ymin, ymax in H. unfold timeFromYear. rewrite dayFromYear_spec by (unfold yr; lia). cbn [bind].
  unfold chk64, MS_PER_DAY.
  assert (in_s64 (86400000 * dfy y) = true) as ->; [|reflexivity].
  pose proof (dfy_mono (-292275054) y ltac:(lia)) as A. pose proof (dfy_mono y 292278994 ltac:(lia)) as B.
  assert (dfy 292278994 < 106751991168) by (vm_compute; reflexivity).
  assert (-106751991167 <= dfy (-292275054)) by (vm_compute; discriminate).
  unfold in_s64. lia.
Qed.

Definition tmin : Z := 86400000 * dfy ymin.
Definition tmax : Z := 86400000 * dfy ymax.
Lemma tmin_val : tmin = -9223372017043200000. Proof. reflexivity. Qed.
Lemma tmax_val : tmax = 9223372017129600000. Proof. reflexivity. Qed.

(** the year of a time stamp *)
Definition in_year (t y : Z) : Prop := 86400000 * dfy y <= t < 86400000 * dfy (y + 1).

Lemma yft_up_spec t Y : in_year t Y -> Y + 1 <= ymax -> forall fuel y,
  1970 <= y <= Y + 1 -> (Z.to_nat (Y + 1 - y) < fuel)%nat -> yft_up fuel t y = Val Y.
Proof.
  intros HY Hm fuel. induction fuel as [|fuel IH]; intros y Hy Hf; [lia|].
  unfold in_year in HY. cbn [yft_up]. rewrite timeFromYear_spec by (unfold ymin, ymax in *; lia). cbn [bind].
  destruct (Z.leb_spec (86400000 * dfy y) t).
  - assert (y <> Y + 1) by (intros ->; lia). apply IH; lia.
  - f_equal. destruct (Z.ltb_spec Y y); [lia|].
    pose proof (dfy_mono y Y ltac:(lia)). lia.
Qed.
Lemma yft_down_spec t Y : in_year t Y -> ymin <= Y -> forall fuel y,
  Y <= y <= 1970 -> (Z.to_nat (y - Y) < fuel)%nat -> yft_down fuel t y = Val Y.
Proof.
  intros HY Hm fuel. induction fuel as [|fuel IH]; intros y Hy Hf; [lia|].
  unfold in_year in HY. cbn [yft_down]. rewrite timeFromYear_spec by (unfold ymin, ymax in *; lia). cbn [bind].
  destruct (86400000 * dfy y >? t) eqn:E.
  - assert (y <> Y) by (intros ->; lia). apply IH; lia.
  - f_equal. destruct (Z.ltb_spec Y y); [|lia].
    pose proof (dfy_mono (Y + 1) y ltac:(lia)). lia.
Qed.
Lemma dfy_1970 : dfy 1970 = 0. Proof. reflexivity. Qed.
Lemma yearFromTime_spec t Y : in_year t Y -> ymin <= Y -> Y < ymax -> yearFromTime t = Val Y.
Proof.
  intros HY H1 H2. unfold yearFromTime, yft_fuel. pose proof HY as HY'. unfold in_year in HY'.
  pose proof dfy_1970 as D0.
  destruct (t >=? 0) eqn:E.
  - assert (1970 <= Y).
    { destruct (Z.leb_spec 1970 Y); [assumption|]. pose proof (dfy_mono (Y + 1) 1970 ltac:(lia)). lia. }
    apply yft_up_spec with (Y := Y); auto; [lia|lia|].
    pose proof (dfy_mono 1970 Y ltac:(lia)). lia.
  - assert (Y < 1970).
    { destruct (Z.ltb_spec Y 1970); [assumption|]. pose proof (dfy_mono 1970 Y ltac:(lia)). lia. }
    apply yft_down_spec with (Y := Y); auto; [lia|].
    pose proof (dfy_mono (Y + 1) 1970 ltac:(lia)). lia.
Qed.

Lemma exists_between (f : Z -> Z) t lo hi : lo <= hi -> f lo <= t -> t < f hi ->
  exists y, lo <= y < hi /\ f y <= t < f (y + 1).
Proof.
  intros Hle. revert hi Hle. apply (Z.right_induction (fun hi => f lo <= t -> t < f hi -> exists y, lo <= y < hi /\ f y <= t < f (y + 1)) ltac:(intros ? ? ->; reflexivity) lo).
  - intros; lia.
  - intros hi Hle IH H1 H2. unfold Z.succ in H2.
    destruct (Z.ltb_spec t (f hi)).
    + destruct (IH H1 H) as (y & Hy & Hf). exists y. split; [lia|exact Hf].
    + exists hi. split; [lia|]. lia.
Qed.
Lemma year_exists t : tmin <= t < tmax -> exists Y, ymin <= Y < ymax /\ in_year t Y.
Proof.
  intros H. unfold in_year. apply (exists_between (fun y => 86400000 * dfy y)); [unfold ymin, ymax; lia| |]; apply H.
Qed.

Definition ily (y : Z) : Z := if leap y then 1 else 0.
Lemma daysInYear_spec y : daysInYear y = year_len y.
Proof.
  unfold daysInYear, year_len, leap.
  destruct (Z.rem y 4 =? 0) eqn:E4; destruct (Z.rem y 100 =? 0) eqn:E100; destruct (Z.rem y 400 =? 0) eqn:E400;
  destruct (y mod 4 =? 0) eqn:F4; destruct (y mod 100 =? 0) eqn:F100; destruct (y mod 400 =? 0) eqn:F400;
    cbn [andb orb negb]; lia.
Qed.
Lemma inLeapYear_spec t Y : in_year t Y -> ymin <= Y -> Y < ymax -> inLeapYear t = Val (ily Y).
Proof.
  intros. unfold inLeapYear. rewrite (yearFromTime_spec t Y) by assumption. cbn [bind].
  rewrite daysInYear_spec. unfold year_len, ily. destruct (leap Y); reflexivity.
Qed.
Lemma t_in_s64 t : tmin <= t <= tmax -> in_s64 t = true.
Proof. rewrite tmin_val, tmax_val. unfold in_s64. lia. Qed.
Lemma in_year_range t Y : in_year t Y -> ymin <= Y -> Y < ymax -> tmin <= t < tmax.
Proof.
  unfold in_year, tmin, tmax. intros H H1 H2. pose proof (dfy_mono ymin Y ltac:(lia)).
  pose proof (dfy_mono (Y + 1) ymax ltac:(lia)). lia.
Qed.
Lemma d_day_spec t : in_s64 t = true -> d_day t = Val (t / 86400000).
Proof. intros. unfold d_day, MS_PER_DAY. apply divFloor_spec; [assumption|reflexivity|unfold div_defined; lia]. Qed.
Lemma dayWithinYear_spec t Y : in_year t Y -> ymin <= Y -> Y < ymax ->
  dayWithinYear t = Val (t / 86400000 - dfy Y) /\ 0 <= t / 86400000 - dfy Y < year_len Y.
Proof.
  intros H H1 H2. pose proof (in_year_range t Y H H1 H2) as HR.
  unfold dayWithinYear. rewrite d_day_spec by (apply t_in_s64; lia). cbn [bind].
  rewrite (yearFromTime_spec t Y) by assumption. cbn [bind].
  rewrite dayFromYear_spec by (unfold yr, ymin, ymax in *; lia). cbn [bind]. split; [reflexivity|].
  unfold in_year in H. pose proof (dfy_step Y). lia.
Qed.

Lemma month_cases m : 0 <= m <= 11 -> m = 0 \/ m = 1 \/ m = 2 \/ m = 3 \/ m = 4 \/ m = 5 \/ m = 6 \/ m = 7 \/ m = 8 \/ m = 9 \/ m = 10 \/ m = 11.
Proof. lia. Qed.
Definition mstart (y m : Z) : Z := months_before y (Z.to_nat m).

(** table of month starts *)
Definition mtab (i m : Z) : Z :=
  match m with 0 => 0 | 1 => 31 | 2 => 59 + i | 3 => 90 + i | 4 => 120 + i | 5 => 151 + i | 6 => 181 + i
  | 7 => 212 + i | 8 => 243 + i | 9 => 273 + i | 10 => 304 + i | 11 => 334 + i | _ => 365 + i end.
Lemma mstart_tab y m : 0 <= m <= 11 -> mstart y m = mtab (ily y) m /\ mstart y m + month_len y m = mtab (ily y) (m + 1).
Proof.
  intros H. unfold mstart, ily. destruct (month_cases m H) as [->|[->|[->|[->|[->|[->|[->|[->|[->|[->|[->| ->]]]]]]]]]]];
  match goal with |- context[Z.to_nat ?k] => let n := eval vm_compute in (Z.to_nat k) in change (Z.to_nat k) with n end;
  cbn [months_before]; unfold month_len; cbn -[leap]; destruct (leap y); split; reflexivity.
Qed.

Lemma monthOf_spec y m d : valid_date y m d ->
  monthOf (mstart y m + (d - 1)) (ily y) = m /\ dateOf m (mstart y m + (d - 1)) (ily y) = d.
Proof.
  intros [Hm Hd]. destruct (mstart_tab y m Hm) as [E1 E2].
  assert (Hlen : mtab (ily y) m <= mstart y m + (d - 1) < mtab (ily y) (m + 1)) by lia.
  assert (Hd' : mstart y m + (d - 1) = mtab (ily y) m + (d - 1)) by lia.
  set (w := mstart y m + (d - 1)) in *. clearbody w. clear E1 E2 Hd.
  assert (Hi : 0 <= ily y <= 1) by (unfold ily; destruct (leap y); lia).
  set (i := ily y) in *. clearbody i.
  destruct (month_cases m Hm) as [->|[->|[->|[->|[->|[->|[->|[->|[->|[->|[->| ->]]]]]]]]]]];
    match type of Hlen with context[mtab i (?c + 1)] => let n := eval vm_compute in (c + 1) in change (c + 1) with n in Hlen end;
    cbn [mtab] in Hlen, Hd'; cbn [dateOf]; (split; [|lia]);
    unfold monthOf; repeat match goal with |- context[if ?b then _ else _] => destruct b eqn:?; try lia end.
Qed.

Lemma month_exists y w : 0 <= w < year_len y -> exists m d, valid_date y m d /\ w = mstart y m + (d - 1).
Proof.
  intros H. assert (E : year_len y = mtab (ily y) 12) by (unfold year_len, ily; destruct (leap y); reflexivity).
  destruct (exists_between (mtab (ily y)) w 0 12) as (m & Hm & Hw); [lia|cbn; lia|lia|].
  destruct (mstart_tab y m ltac:(lia)) as [E1 E2].
  exists m, (w - mstart y m + 1). split; [|lia]. split; [lia|]. lia.
Qed.

(** clock *)
Lemma clock_spec t : in_s64 t = true ->
  hourFromTime t = Val (t / 3600000 mod 24) /\ minuteFromTime t = Val (t / 60000 mod 60) /\
  secondFromTime t = Val (t / 1000 mod 60) /\ milliFromTime t = Val (t mod 1000).
Proof.
  intros H. unfold hourFromTime, minuteFromTime, secondFromTime, milliFromTime,
    MS_PER_HOUR, MS_PER_MINUTE, MS_PER_SECOND, HOURS_PER_DAY, MINUTES_PER_HOUR, SECONDS_PER_MINUTE.
  repeat split; try (rewrite divFloor_spec; [cbn [bind]; rewrite modFloor_spec| | |]); try rewrite modFloor_spec;
    try reflexivity; try assumption; try (unfold div_defined; lia); unfold in_s64 in *; lia.
Qed.

Lemma civil_in_year y m d h mi s ms : valid_date y m d -> valid_clock h mi s ms ->
  in_year (civil_time y m d h mi s ms) y /\
  civil_time y m d h mi s ms / 86400000 = dfy y + mstart y m + (d - 1).
Proof.
  intros [Hm Hd] (Hh & Hmi & Hs & Hms). unfold civil_time, civil_day, in_year.
  rewrite year_start_dfy. fold (mstart y m). rewrite dfy_step.
  destruct (mstart_tab y m Hm) as [E1 E2].
  assert (0 <= mstart y m) by (rewrite E1; unfold ily; destruct (leap y);
     destruct (month_cases m Hm) as [->|[->|[->|[->|[->|[->|[->|[->|[->|[->|[->| ->]]]]]]]]]]]; cbn; lia).
  assert (mstart y m + month_len y m <= year_len y) by (rewrite E2; unfold year_len, ily; destruct (leap y);
     destruct (month_cases m Hm) as [->|[->|[->|[->|[->|[->|[->|[->|[->|[->|[->| ->]]]]]]]]]]]; cbn; lia).
  lia.
Qed.

Lemma fields_of_civil y m d h mi s ms t : ymin <= y < ymax -> valid_date y m d -> valid_clock h mi s ms ->
  t = civil_time y m d h mi s ms ->
  date_year t = Val y /\ date_month t = Val m /\ date_date t = Val d /\ date_hours t = Val h /\
  date_minutes t = Val mi /\ date_seconds t = Val s /\ date_milliseconds t = Val ms /\
  date_dayOfYear t = Val (mstart y m + (d - 1)) /\ tmin <= t < tmax.
Proof.
  intros Hy Hd Hc ->. destruct (civil_in_year y m d h mi s ms Hd Hc) as [HY Hday].
  set (t := civil_time y m d h mi s ms) in *.
  pose proof (in_year_range t y HY ltac:(lia) ltac:(lia)) as HR.
  assert (H64 : in_s64 t = true) by (apply t_in_s64; lia).
  unfold date_year, date_month, date_date, date_hours, date_minutes, date_seconds, date_milliseconds, date_dayOfYear, localTime.
  rewrite !Z.add_0_r.
  destruct (dayWithinYear_spec t y HY ltac:(lia) ltac:(lia)) as [Ew Hw].
  rewrite Hday in Ew, Hw. replace (dfy y + mstart y m + (d - 1) - dfy y) with (mstart y m + (d - 1)) in * by lia.
  destruct (monthOf_spec y m d Hd) as [Em Ed].
  destruct (clock_spec t H64) as (-> & -> & -> & ->).
  assert (EM : monthFromTime t = Val m).
  { unfold monthFromTime. rewrite Ew. cbn [bind]. rewrite (inLeapYear_spec t y) by (assumption || lia). cbn [bind].
    now rewrite Em. }
  split; [apply yearFromTime_spec; (assumption || lia)|]. split; [exact EM|].
  split. { unfold dateFromTime. rewrite Ew. cbn [bind]. rewrite (inLeapYear_spec t y) by (assumption || lia). cbn [bind].
    rewrite EM. cbn [bind]. now rewrite Ed. }
  destruct Hc as (Hh & Hmi & Hs & Hms).
  assert (Ht : t = (dfy y + mstart y m + (d - 1)) * 86400000 + h * 3600000 + mi * 60000 + s * 1000 + ms).
  { subst t. unfold civil_time, civil_day. rewrite year_start_dfy. reflexivity. }
  clearbody t. set (D := dfy y + mstart y m + (d - 1)) in *. clearbody D. clear - Hh Hmi Hs Hms Ht HR Ew.
  repeat split; try (f_equal; lia); try apply HR. exact Ew.
Qed.

Lemma civil_exists t : tmin <= t < tmax -> exists y m d h mi s ms,
  ymin <= y < ymax /\ valid_date y m d /\ valid_clock h mi s ms /\ t = civil_time y m d h mi s ms.
Proof.
  intros H. destruct (year_exists t H) as (y & Hy & HY).
  destruct (dayWithinYear_spec t y HY ltac:(lia) ltac:(lia)) as [_ Hw].
  destruct (month_exists y _ Hw) as (m & d & Hv & Ew).
  exists y, m, d, (t / 3600000 mod 24), (t / 60000 mod 60), (t / 1000 mod 60), (t mod 1000).
  split; [lia|]. split; [exact Hv|]. split; [unfold valid_clock; lia|].
  unfold civil_time, civil_day. rewrite year_start_dfy. fold (mstart y m).
  replace (dfy y + mstart y m + (d - 1)) with (t / 86400000) by lia. lia.
Qed.

(** constructors *)
Lemma monthStart_tab m i : 0 <= m <= 11 -> monthStart m i = mtab i m * 86400000.
Proof.
  intros H. destruct (month_cases m H) as [->|[->|[->|[->|[->|[->|[->|[->|[->|[->|[->| ->]]]]]]]]]]]; reflexivity.
Qed.
Lemma in_year_start Y : in_year (86400000 * dfy Y) Y.
Proof. unfold in_year. pose proof (dfy_mono Y (Y + 1) ltac:(lia)). lia. Qed.
Lemma makeDay_spec y m d : 0 <= y <= 65535 -> 0 <= m <= 65535 ->
  makeDay y m d = Val (dfy (y + m / 12) + mstart (y + m / 12) (m mod 12) + (d - 1)).
Proof.
  intros Hy Hm. unfold makeDay. rewrite divFloor_spec by (unfold in_s64, div_defined; lia). cbn [bind].
  set (Y := y + m / 12). assert (HY : 0 <= Y <= 72000) by (subst Y; lia).
  rewrite timeFromYear_spec by (unfold ymin, ymax; lia). cbn [bind].
  rewrite (inLeapYear_spec _ Y) by (try apply in_year_start; unfold ymin, ymax; lia). cbn [bind].
  replace (Z.rem m 12) with (m mod 12) by lia.
  assert (Hmm : 0 <= m mod 12 <= 11) by lia.
  rewrite monthStart_tab by exact Hmm. destruct (mstart_tab Y (m mod 12) Hmm) as [E _]. rewrite <- E.
  assert (Hms : 0 <= mstart Y (m mod 12) <= 336).
  { rewrite E. unfold ily. destruct (leap Y); destruct (month_cases _ Hmm) as [->|[->|[->|[->|[->|[->|[->|[->|[->|[->|[->| ->]]]]]]]]]]]; cbn; lia. }
  assert (HD : -800000 <= dfy Y <= 30000000) by (unfold dfy; lia).
  unfold chk64. set (M := mstart Y (m mod 12)) in *. clearbody M. set (D := dfy Y) in *. clearbody D.
  assert (in_s64 (86400000 * D + M * 86400000) = true) as Ht by (unfold in_s64; lia). rewrite Ht. cbn [bind].
  rewrite d_day_spec by exact Ht. cbn [bind]. f_equal. lia.
Qed.
Lemma newDate7_spec y m d h mi s ms :
  unit16 y -> unit16 m -> unit16 d -> unit16 h -> unit16 mi -> unit16 s -> unit16 ms ->
  newDate7 y m d h mi s ms = Val (civil_time (y + m / 12) (m mod 12) d h mi s ms).
Proof.
  unfold unit16. intros Hy Hm Hd Hh Hmi Hs Hms. unfold newDate7. rewrite !u16_id by assumption.
  rewrite makeDay_spec by lia. cbn [bind]. unfold makeDate, makeTime, MS_PER_DAY, MS_PER_HOUR, MS_PER_MINUTE, MS_PER_SECOND.
  unfold civil_time, civil_day. rewrite year_start_dfy. fold (mstart (y + m / 12) (m mod 12)).
  set (Y := y + m / 12). assert (HY : 0 <= Y <= 72000) by (subst Y; lia).
  assert (Hmm : 0 <= m mod 12 <= 11) by lia.
  destruct (mstart_tab Y (m mod 12) Hmm) as [E _].
  assert (Hms' : 0 <= mstart Y (m mod 12) <= 336).
  { rewrite E. unfold ily. destruct (leap Y); destruct (month_cases _ Hmm) as [->|[->|[->|[->|[->|[->|[->|[->|[->|[->|[->| ->]]]]]]]]]]]; cbn; lia. }
  assert (HD : -800000 <= dfy Y <= 30000000) by (unfold dfy; lia).
  set (M := mstart Y (m mod 12)) in *. clearbody M. set (D := dfy Y) in *. clearbody D.
  unfold chk64. match goal with |- context[in_s64 ?x] => assert (in_s64 x = true) as -> by (unfold in_s64; lia) end.
  cbn [omap bind]. unfold utc. f_equal. lia.
Qed.
Lemma newDate3_spec y m d : unit16 y -> unit16 m -> unit16 d ->
  newDate3 y m d = Val (civil_time (y + m / 12) (m mod 12) d 0 0 0 0).
Proof.
  intros Hy Hm Hd. rewrite <- newDate7_spec by (auto; unfold unit16; lia). reflexivity.
Qed.
