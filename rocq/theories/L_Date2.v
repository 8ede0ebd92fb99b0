From Verif Require Import Base M_Math M_Date L_Math S_Date L_Date.
Ltac Zify.zify_post_hook ::= Z.to_euclidean_division_equations.

Lemma weekDay_spec t : in_s64 t = true ->
  date_day t = Val (if (-345600000 <=? t) || (week_day (t / 86400000) =? 0)
                    then week_day (t / 86400000) else week_day (t / 86400000) - 7).
Proof.
  intros H. unfold date_day, weekDay, localTime. rewrite !Z.add_0_r, d_day_spec by exact H. cbn [bind]. f_equal.
  unfold week_day. unfold in_s64 in H. 
  destruct (-345600000 <=? t) eqn:E; cbn [orb].
  - assert (-4 <= t / 86400000) by lia. set (d := t / 86400000) in *. clearbody d. lia.
  - assert (t / 86400000 < -4) by lia. set (d := t / 86400000) in *. clearbody d.
    destruct ((d + 4) mod 7 =? 0) eqn:E7; lia.
Qed.

Lemma dig_id v : 0 <= v <= 9 -> dig v = 48 + v.
Proof. intros; unfold dig, s8. lia. Qed.

Lemma toString_spec y m d h mi s ms : 0 <= y <= 9999 -> valid_date y m d -> valid_clock h mi s ms ->
  date_toString (civil_time y m d h mi s ms) = Val (iso_text y m d h mi s ms).
Proof.
  intros Hy Hd Hc.
  destruct (fields_of_civil y m d h mi s ms _ ltac:(unfold ymin, ymax; lia) Hd Hc eq_refl)
    as (E1 & E2 & E3 & E4 & E5 & E6 & E7 & _ & _).
  unfold date_year, date_month, date_date, date_hours, date_minutes, date_seconds, date_milliseconds, localTime in *.
  rewrite !Z.add_0_r in *.
  unfold date_toString, date_utcYear, date_utcMonth, date_utcDate, date_utcHours, date_utcMinutes, date_utcSeconds, date_utcMilliseconds.
  rewrite E1, E2, E3, E4, E5, E6, E7. cbn [bind]. f_equal.
  destruct Hd as [Hm Hd]. destruct Hc as (Hh & Hmi & Hs & Hms).
  assert (Hml : month_len y m <= 31) by (unfold month_len; destruct (m =? 1), (leap y), ((m =? 3) || (m =? 5) || (m =? 8) || (m =? 10)); lia).
  rewrite !dig_id by lia. unfold iso_text. cbn [dec app].
  repeat (apply f_equal2; [lia|]). reflexivity.
Qed.

(** lexicographic order *)
Definition thenc (a b : comparison) : comparison := match a with Eq => b | c => c end.
Lemma lexcmp_app a a' b b' : length a = length a' -> lexcmp (a ++ b) (a' ++ b') = thenc (lexcmp a a') (lexcmp b b').
Proof.
  revert a'; induction a as [|x a IH]; intros [|x' a'] H; try discriminate; [reflexivity|].
  cbn [app lexcmp]. destruct (x ?= x'); try reflexivity. apply IH. now injection H.
Qed.
Lemma dec_length k n : length (dec k n) = k.
Proof. revert n; induction k as [|k IH]; intros n; [reflexivity|]. cbn [dec]. rewrite app_length, IH. cbn. lia. Qed.
Lemma dec_cmp k : forall n m, 0 <= n < 10 ^ Z.of_nat k -> 0 <= m < 10 ^ Z.of_nat k -> lexcmp (dec k n) (dec k m) = (n ?= m).
Proof.
  induction k as [|k IH]; intros n m Hn Hm.
  - cbn in *. symmetry. apply Z.compare_eq_iff. lia.
  - rewrite Nat2Z.inj_succ, Z.pow_succ_r in * by lia.
    cbn [dec]. rewrite lexcmp_app by (now rewrite !dec_length). rewrite IH by lia. cbn [lexcmp].
    destruct (Z.compare_spec (n / 10) (m / 10)); cbn [thenc].
    + destruct (Z.compare_spec (48 + n mod 10) (48 + m mod 10)); symmetry;
        [apply Z.compare_eq_iff|apply Z.compare_lt_iff|apply Z.compare_gt_iff]; lia.
    + symmetry; apply Z.compare_lt_iff. lia.
    + symmetry; apply Z.compare_gt_iff. lia.
Qed.
Lemma lex_sep x a b : lexcmp (x :: a) (x :: b) = lexcmp a b.
Proof. cbn. now rewrite Z.compare_refl. Qed.

Lemma iso_cmp y m d h mi s ms y' m' d' h' mi' s' ms' :
  0 <= y <= 9999 -> 0 <= y' <= 9999 -> 0 <= m <= 11 -> 0 <= m' <= 11 -> 0 <= d <= 99 -> 0 <= d' <= 99 ->
  valid_clock h mi s ms -> valid_clock h' mi' s' ms' ->
  lexcmp (iso_text y m d h mi s ms) (iso_text y' m' d' h' mi' s' ms') =
  thenc (y ?= y') (thenc (m ?= m') (thenc (d ?= d') (thenc (h ?= h') (thenc (mi ?= mi') (thenc (s ?= s') (ms ?= ms')))))).
Proof.
  intros Hy Hy' Hm Hm' Hd Hd' (Hh & Hmi & Hs & Hms) (Hh' & Hmi' & Hs' & Hms').
  unfold iso_text.
  assert (P4 : 10 ^ Z.of_nat 4 = 10000) by reflexivity.
  assert (P2 : 10 ^ Z.of_nat 2 = 100) by reflexivity.
  assert (P3 : 10 ^ Z.of_nat 3 = 1000) by reflexivity.
  rewrite lexcmp_app by (now rewrite !dec_length). rewrite dec_cmp by lia. f_equal.
  cbn [app]. rewrite lex_sep. rewrite lexcmp_app by (now rewrite !dec_length). rewrite dec_cmp by lia.
  replace (m + 1 ?= m' + 1) with (m ?= m') by (destruct (Z.compare_spec m m'); symmetry; [apply Z.compare_eq_iff|apply Z.compare_lt_iff|apply Z.compare_gt_iff]; lia).
  f_equal.
  cbn [app]. rewrite lex_sep. rewrite lexcmp_app by (now rewrite !dec_length). rewrite dec_cmp by lia. f_equal.
  cbn [app]. rewrite lex_sep. rewrite lexcmp_app by (now rewrite !dec_length). rewrite dec_cmp by lia. f_equal.
  cbn [app]. rewrite lex_sep. rewrite lexcmp_app by (now rewrite !dec_length). rewrite dec_cmp by lia. f_equal.
  cbn [app]. rewrite lex_sep. rewrite lexcmp_app by (now rewrite !dec_length). rewrite dec_cmp by lia. f_equal.
  cbn [app]. rewrite lex_sep. rewrite lexcmp_app by (now rewrite !dec_length). rewrite dec_cmp by lia.
  rewrite lex_sep. cbn [lexcmp]. unfold thenc. destruct (ms ?= ms'); reflexivity.
Qed.

Lemma mtab_mono i m m' : 0 <= i <= 1 -> 0 <= m -> m < m' -> m' <= 12 -> mtab i (m + 1) <= mtab i m'.
Proof.
  intros Hi H1 H2 H3.
  destruct (month_cases m ltac:(lia)) as [->|[->|[->|[->|[->|[->|[->|[->|[->|[->|[->| ->]]]]]]]]]]];
  match goal with |- mtab i (?c + 1) <= _ => let n := eval vm_compute in (c + 1) in change (c + 1) with n end;
  destruct (Z.eq_dec m' 12) as [->|]; try (cbn [mtab]; lia);
  destruct (month_cases m' ltac:(lia)) as [->|[->|[->|[->|[->|[->|[->|[->|[->|[->|[->| ->]]]]]]]]]]]; cbn [mtab]; lia.
Qed.

Lemma cmp_by (t t' : Z) (c : comparison) :
  (c = Eq -> t = t') -> (c = Lt -> t < t') -> (c = Gt -> t > t') -> c = (t ?= t').
Proof.
  intros H1 H2 H3. destruct c; symmetry.
  - apply Z.compare_eq_iff; auto.
  - apply Z.compare_lt_iff; auto.
  - apply Z.compare_gt_iff. specialize (H3 eq_refl). lia.
Qed.

Lemma civil_cmp y m d h mi s ms y' m' d' h' mi' s' ms' :
  valid_date y m d -> valid_date y' m' d' -> valid_clock h mi s ms -> valid_clock h' mi' s' ms' ->
  thenc (y ?= y') (thenc (m ?= m') (thenc (d ?= d') (thenc (h ?= h') (thenc (mi ?= mi') (thenc (s ?= s') (ms ?= ms'))))))
  = (civil_time y m d h mi s ms ?= civil_time y' m' d' h' mi' s' ms').
Proof.
  intros Hd Hd' Hc Hc'.
  destruct (civil_in_year y m d h mi s ms Hd Hc) as [HY ED]. destruct (civil_in_year y' m' d' h' mi' s' ms' Hd' Hc') as [HY' ED'].
  destruct Hd as [Hm Hd], Hd' as [Hm' Hd']. destruct Hc as (Hh & Hmi & Hs & Hms), Hc' as (Hh' & Hmi' & Hs' & Hms').
  unfold in_year in *.
  destruct (Z.compare_spec y y') as [->|Hlt|Hgt]; cbn [thenc].
  2:{ symmetry; apply Z.compare_lt_iff. pose proof (dfy_mono (y + 1) y' ltac:(lia)). lia. }
  2:{ symmetry; apply Z.compare_gt_iff. pose proof (dfy_mono (y' + 1) y ltac:(lia)). lia. }
  assert (Hi : 0 <= ily y' <= 1) by (unfold ily; destruct (leap y'); lia).
  destruct (mstart_tab y' m Hm) as [E1 E2]. destruct (mstart_tab y' m' Hm') as [E1' E2'].
  destruct (Z.compare_spec m m') as [->|Hlt|Hgt]; cbn [thenc].
  2:{ symmetry; apply Z.compare_lt_iff. pose proof (mtab_mono (ily y') m m' Hi ltac:(lia) Hlt ltac:(lia)).
      rewrite <- E2, <- E1' in H. lia. }
  2:{ symmetry; apply Z.compare_gt_iff. pose proof (mtab_mono (ily y') m' m Hi ltac:(lia) Hgt ltac:(lia)).
      rewrite <- E2', <- E1 in H. lia. }
  clear HY HY' ED ED' E1 E2 E1' E2'.
  unfold civil_time, civil_day.
  set (B := year_start y' + months_before y' (Z.to_nat m')). clearbody B.
  destruct (Z.compare_spec d d'); cbn [thenc];
    [subst|symmetry; apply Z.compare_lt_iff; lia|symmetry; apply Z.compare_gt_iff; lia].
  destruct (Z.compare_spec h h'); cbn [thenc];
    [subst|symmetry; apply Z.compare_lt_iff; lia|symmetry; apply Z.compare_gt_iff; lia].
  destruct (Z.compare_spec mi mi'); cbn [thenc];
    [subst|symmetry; apply Z.compare_lt_iff; lia|symmetry; apply Z.compare_gt_iff; lia].
  destruct (Z.compare_spec s s'); cbn [thenc];
    [subst|symmetry; apply Z.compare_lt_iff; lia|symmetry; apply Z.compare_gt_iff; lia].
  destruct (Z.compare_spec ms ms'); symmetry; [apply Z.compare_eq_iff|apply Z.compare_lt_iff|apply Z.compare_gt_iff]; lia.
Qed.

Notation t0 := (civil_time 0 0 1 0 0 0 0).
Notation t10000 := (civil_time 10000 0 1 0 0 0 0).
Lemma civil_year_range t : t0 <= t < t10000 -> exists y m d h mi s ms,
  0 <= y <= 9999 /\ valid_date y m d /\ valid_clock h mi s ms /\ t = civil_time y m d h mi s ms.
Proof.
  intros H. assert (E0 : t0 = 86400000 * dfy 0) by (vm_compute; reflexivity).
  assert (E1 : t10000 = 86400000 * dfy 10000).
  { unfold civil_time, civil_day. rewrite (year_start_dfy 10000).
    change (months_before 10000 (Z.to_nat 0)) with 0. lia. }
  destruct (civil_exists t) as (y & m & d & h & mi & s & ms & Hy & Hd & Hc & Et).
  { rewrite tmin_val, tmax_val. rewrite E0, E1 in H.
    change (dfy 0) with (-719528) in H. change (dfy 10000) with 2932897 in H. lia. }
  exists y, m, d, h, mi, s, ms. split; [|split; [exact Hd|split; [exact Hc|exact Et]]].
  destruct (civil_in_year y m d h mi s ms Hd Hc) as [HY _]. rewrite <- Et in HY. unfold in_year in HY. clear Et.
  split.
  - destruct (Z.leb_spec 0 y); [assumption|]. pose proof (dfy_mono (y + 1) 0 ltac:(lia)). lia.
  - destruct (Z.leb_spec y 9999); [assumption|]. pose proof (dfy_mono 10000 y ltac:(lia)). lia.
Qed.
Lemma text_order t t' : t0 <= t < t10000 -> t0 <= t' < t10000 ->
  exists a b, date_toString t = Val a /\ date_toString t' = Val b /\ lexcmp a b = (t ?= t').
Proof.
  intros H H'. destruct (civil_year_range t H) as (y & m & d & h & mi & s & ms & Hy & Hd & Hc & Et).
  destruct (civil_year_range t' H') as (y' & m' & d' & h' & mi' & s' & ms' & Hy' & Hd' & Hc' & Et').
  exists (iso_text y m d h mi s ms), (iso_text y' m' d' h' mi' s' ms'). subst t t'.
  rewrite !toString_spec by assumption. split; [reflexivity|]. split; [reflexivity|].
  rewrite iso_cmp; try assumption; try apply Hd; try apply Hd'.
  - apply civil_cmp; assumption.
  - destruct Hd as [_ Hd]. assert (month_len y m <= 31) by (unfold month_len; destruct (m =? 1), (leap y), ((m =? 3) || (m =? 5) || (m =? 8) || (m =? 10)); lia). lia.
  - destruct Hd' as [_ Hd']. assert (month_len y' m' <= 31) by (unfold month_len; destruct (m' =? 1), (leap y'), ((m' =? 3) || (m' =? 5) || (m' =? 8) || (m' =? 10)); lia). lia.
Qed.

(** beyond the supported range the year loop overflows *)
Lemma yft_up_overflow t : tmax <= t -> forall fuel y, 1970 <= y <= ymax -> (Z.to_nat (ymax + 1 - y) < fuel)%nat ->
  yft_up fuel t y = UB.
Proof.
  intros Ht. intros fuel. induction fuel as [|fuel IH]; intros y Hy Hf; [lia|].
  cbn [yft_up]. rewrite timeFromYear_spec by (unfold ymin, ymax in *; lia). cbn [bind].
  pose proof (dfy_mono y ymax ltac:(lia)). unfold tmax in Ht.
  destruct (Z.leb_spec (86400000 * dfy y) t); [|lia].
  destruct (Z.eq_dec y ymax) as [->|Hne]; [|apply IH; lia].
  destruct fuel; [lia|]. cbn [yft_up]. change (timeFromYear (ymax + 1)) with (@UB Z). reflexivity.
Qed.
Lemma year_overflow t : tmax <= t <= 9223372036854775807 -> date_year t = UB.
Proof.
  intros H. unfold date_year, localTime. rewrite !Z.add_0_r. unfold yearFromTime.
  destruct (t >=? 0) eqn:E; [|rewrite tmax_val in H; lia].
  apply yft_up_overflow; [lia|unfold ymax; lia|]. unfold yft_fuel. rewrite tmax_val in H. unfold ymax. lia.
Qed.
Lemma yft_down_overflow t : t < tmin -> forall fuel y, ymin <= y <= 1970 -> (Z.to_nat (y + 1 - ymin) < fuel)%nat ->
  yft_down fuel t y = UB.
Proof.
  intros Ht. intros fuel. induction fuel as [|fuel IH]; intros y Hy Hf; [lia|].
  cbn [yft_down]. rewrite timeFromYear_spec by (unfold ymin, ymax in *; lia). cbn [bind].
  pose proof (dfy_mono ymin y ltac:(lia)). unfold tmin in Ht.
  destruct (86400000 * dfy y >? t) eqn:E; [|lia].
  destruct (Z.eq_dec y ymin) as [->|Hne]; [|apply IH; lia].
  destruct fuel; [lia|]. cbn [yft_down]. change (timeFromYear (ymin - 1)) with (@UB Z). reflexivity.
Qed.
Lemma year_overflow_low t : -9223372036854775808 <= t < tmin -> date_year t = UB.
Proof.
  intros H. unfold date_year, localTime. rewrite !Z.add_0_r. unfold yearFromTime.
  destruct (t >=? 0) eqn:E; [rewrite tmin_val in H; lia|].
  apply yft_down_overflow; [lia|unfold ymin; lia|]. unfold yft_fuel. rewrite tmin_val in H. unfold ymin. lia.
Qed.
