(** P_DateFormat.v -- DateFormatter (C54). *)
From Coq Require Import Ascii String.
From Verif Require Import Base M_String M_Date M_Tokenizer M_Xml S_String S_Integer S_Date L_String L_Integer L_Date M_DateFormat S_DateFormat L_DateFormat P_Date P_Integer.
Open Scope list_scope.
Lemma field_ok n v : 0 <= v < 100 -> exists t, (if Z.of_nat n =? 2 then let* d := dec v in Val (pad1 v d) else dec v) = Val t /\ field n v t.
Proof.
  intros Hv. unfold field. destruct (Nat.eqb_spec n 2) as [->|N].
  - destruct (two_ok v Hv) as (t & E & P). cbn [Z.of_nat Pos.of_succ_nat Pos.succ Z.eqb Pos.eqb]. rewrite E. cbn [bind]. eauto.
  - destruct (Z.eqb_spec (Z.of_nat n) 2); [lia|]. destruct (dec_ok v) as (t & E & D); [lia|]. eauto.
Qed.
Lemma cases12 m : 0 <= m <= 11 -> m = 0 \/ m = 1 \/ m = 2 \/ m = 3 \/ m = 4 \/ m = 5 \/ m = 6 \/ m = 7 \/ m = 8 \/ m = 9 \/ m = 10 \/ m = 11. Proof. lia. Qed.
Lemma render_ok tr y m d h mi s ms t sg : supported t -> date_year t = Val y -> date_month t = Val m -> date_date t = Val d -> date_hours t = Val h -> date_minutes t = Val mi -> date_seconds t = Val s -> date_milliseconds t = Val ms ->
  valid_date y m d -> valid_clock h mi s ms -> - 2 ^ 63 < y < 2 ^ 63 -> seg_ok sg -> (0 <= y \/ sg <> Run 121 2) -> (-345600000 <= t \/ forall n, sg <> Run 69 n) ->
  exists x, render tr t (seg_pat sg) = Val x /\ seg_text tr y m d h mi s ms (week_day (t / 86400000)) sg x.
Proof.
  intros Ht Ey Em Ed Eh Emi Es Ems [Vm Vd] (Vh & Vmi & Vs & Vms) Ly Ok H1 H2.
  assert (Hml : month_len y m <= 31) by (unfold month_len; destruct (m =? 1), (leap y), ((m =? 3) || (m =? 5) || (m =? 8) || (m =? 10)); lia).
  destruct sg as [c n|q]; [|exists q; split; reflexivity]. destruct Ok as [Nc Hn]. cbn [seg_pat]. rewrite new_pat_run by exact Hn. cbv zeta. unfold seg_text.
  destruct (Z.eqb_spec c 121) as [->|].
  { cbn [render]. rewrite Ey. cbn [bind]. unfold field. destruct (Nat.eqb_spec n 2) as [->|N].
    - destruct H1 as [Hy|H1]; [|congruence]. cbn [Z.of_nat Pos.of_succ_nat Pos.succ Z.eqb Pos.eqb]. cbv zeta. rewrite Z.rem_mod_nonneg by lia. assert (B : 0 <= y mod 100 < 100) by (apply Z.mod_pos_bound; lia). destruct (two_ok _ B) as (x & E & P). rewrite E. cbn [bind]. eauto.
    - destruct (Z.eqb_spec (Z.of_nat n) 2); [lia|]. destruct (dec_ok y Ly) as (x & E & D). eauto. }
  destruct (Z.eqb_spec c 77) as [->|].
  { cbn [render]. rewrite Em. cbn [bind]. destruct n as [|[|[|[|n]]]]; [lia| | | |].
    - destruct (dec_ok (m + 1)) as (x & E & D); [lia|]. exists x. split; [exact E|exact D].
    - destruct (two_ok (m + 1)) as (x & E & D); [lia|]. exists (two (m + 1)). split; [|reflexivity]. cbn [Z.of_nat Pos.of_succ_nat Pos.succ Z.eqb Pos.eqb]. rewrite E. cbn [bind]. now rewrite D.
    - eexists. split; [reflexivity|]. destruct (cases12 m Vm) as [->|[->|[->|[->|[->|[->|[->|[->|[->|[->|[->| ->]]]]]]]]]]]; reflexivity.
    - replace (Z.of_nat (S (S (S (S n)))) =? 1) with false by lia. replace (Z.of_nat (S (S (S (S n)))) =? 2) with false by lia. replace (Z.of_nat (S (S (S (S n)))) =? 3) with false by lia.
      eexists. split; [reflexivity|]. destruct (cases12 m Vm) as [->|[->|[->|[->|[->|[->|[->|[->|[->|[->|[->| ->]]]]]]]]]]]; reflexivity. }
  destruct (Z.eqb_spec c 100) as [->|]. { cbn [render]. rewrite Ed. cbn [bind]. destruct (Z.ltb_spec d 0); [lia|]. apply field_ok. lia. }
  destruct (Z.eqb_spec c 72) as [->|]. { cbn [render]. rewrite Eh. cbn [bind]. apply field_ok. lia. }
  destruct (Z.eqb_spec c 109) as [->|]. { cbn [render]. rewrite Emi. cbn [bind]. destruct (Z.ltb_spec mi 0); [lia|]. apply field_ok. lia. }
  destruct (Z.eqb_spec c 115) as [->|]. { cbn [render]. rewrite Es. cbn [bind]. apply field_ok. lia. }
  destruct (Z.eqb_spec c 83) as [->|].
  { cbn [render]. rewrite Ems. cbn [bind]. destruct (Nat.leb_spec n 1).
    - destruct (Z.ltb_spec 1 (Z.of_nat n)); [lia|]. destruct (dec_ok ms) as (x & E & D); [lia|]. eauto.
    - destruct (Z.ltb_spec 1 (Z.of_nat n)); [|lia]. destruct (three_ok ms) as (x & E & D); [lia|]. rewrite E. cbn [bind]. eauto. }
  destruct (Z.eqb_spec c 69) as [->|].
  { cbn [render]. destruct H2 as [H2|H2]; [|exfalso; now apply (H2 n)]. unfold supported in Ht. rewrite C37_week_day by (try exact H2; unfold in_s64; lia). cbn [bind]. set (w := week_day (t / 86400000)). assert (B : 0 <= w < 7) by (unfold w, week_day; apply Z.mod_pos_bound; lia).
    assert (W : w = 0 \/ w = 1 \/ w = 2 \/ w = 3 \/ w = 4 \/ w = 5 \/ w = 6) by lia. clearbody w. destruct n as [|[|[|n]]]; [lia| | |].
    - eexists. split; [reflexivity|]. destruct W as [->|[->|[->|[->|[->|[->| ->]]]]]]; reflexivity.
    - eexists. split; [reflexivity|]. destruct W as [->|[->|[->|[->|[->|[->| ->]]]]]]; reflexivity.
    - replace (Z.of_nat (S (S (S n))) =? 1) with false by lia. replace (Z.of_nat (S (S (S n))) =? 2) with false by lia. eexists. split; [reflexivity|]. destruct W as [->|[->|[->|[->|[->|[->| ->]]]]]]; reflexivity. }
  eexists. split; reflexivity.
Qed.
(** C54: for every supported date and every pattern made of runs and quoted texts, the output is the concatenation of the texts of the segments, in order *)
Theorem C54_format : forall tr t, supported t -> exists y m d h mi s ms, valid_date y m d /\ valid_clock h mi s ms /\ t = civil_time y m d h mi s ms /\
  forall segs, segs_ok segs -> (0 <= y \/ ~ In (Run 121 2) segs) -> (-345600000 <= t \/ forall n, ~ In (Run 69 n) segs) ->
  exists txts, Forall2 (seg_text tr y m d h mi s ms (week_day (t / 86400000))) segs txts /\ format tr (source segs) t = Val (List.concat txts).
Proof.
  intros tr t Ht. destruct (C35_timestamp_from_fields t Ht) as (y & m & d & h & mi & s & ms & Ey & Em & Ed & Eh & Emi & Es & Ems & Vd & Vc & Et & _). exists y, m, d, h, mi, s, ms. split; [exact Vd|]. split; [exact Vc|]. split; [exact Et|].
  assert (Ly : - 2 ^ 63 < y < 2 ^ 63). { destruct (civil_exists t) as (y' & m' & d' & h' & mi' & s' & ms' & Hy & Hd & Hc & Et'); [rewrite tmin_val, tmax_val; exact Ht|]. destruct (fields_of_civil _ _ _ _ _ _ _ t Hy Hd Hc Et') as (E1 & _). assert (y' = y) by congruence. subst y'. unfold ymin, ymax in Hy. lia. }
  intros segs Ok H1 H2. unfold format. rewrite formatter_segs by exact Ok. revert Ok H1 H2. induction segs as [|sg segs IH]; intros Ok H1 H2; [exists []; split; [constructor|reflexivity]|]. destruct Ok as (O1 & _ & O3).
  destruct (render_ok tr y m d h mi s ms t sg Ht Ey Em Ed Eh Emi Es Ems Vd Vc Ly O1) as (x & Ex & Sx); [destruct H1; [now left|right; intros ->; apply H; now left]|destruct H2 as [|H2]; [now left|right; intros n ->; apply (H2 n); now left]|].
  destruct IH as (txts & F & E); [exact O3|destruct H1; [now left|right; intros X; apply H; now right]|destruct H2 as [|H2]; [now left|right; intros n X; apply (H2 n); now right]|].
  exists (x :: txts). split; [now constructor|]. cbn [map format_pats List.concat]. rewrite Ex. cbn [bind]. rewrite E. reflexivity.
Qed.
(** C54: every pattern without a quote is such a sequence, if no character is repeated more than 255 times in a row *)
Theorem C54_patterns : forall p, ~ In 39 p -> (List.length p <= 255)%nat -> exists segs, segs_ok segs /\ source segs = p.
Proof.
  assert (K : forall p, ~ In 39 p -> (List.length p <= 255)%nat -> exists segs, segs_ok segs /\ source segs = p /\ (forall s r, segs = s :: r -> exists c n r', s = Run c n /\ p = c :: r' /\ (n <= List.length p)%nat)).
  { induction p as [|c p IH]; intros H L; [exists []; repeat split; discriminate|]. destruct IH as (segs & Ok & E & Hd); [intros X; apply H; now right|cbn in L; lia|]. destruct segs as [|s r].
    - exists [Run c 1]. cbn in E. subst p. split; [split; [split; [intros ->; apply H; now left|lia]|split; exact I]|]. split; [reflexivity|]. intros s r X. injection X as <- <-. exists c, 1%nat, []. auto.
    - destruct (Hd s r eq_refl) as (c' & n & p' & -> & -> & Ln). destruct (Z.eq_dec c c') as [->|N].
      + exists (Run c' (S n) :: r). destruct Ok as ((O1 & O2) & O3 & O4). split; [repeat split; auto; cbn in L, Ln; lia|]. split; [unfold source in *; cbn [flat_map seg_source repeat app] in *; now rewrite E|]. intros s q X. injection X as <- <-. exists c', (S n), (c' :: p'). repeat split; cbn in *; lia.
      + exists (Run c 1 :: Run c' n :: r). split; [split; [split; [intros ->; apply H; now left|lia]|split; [exact N|exact Ok]]|]. split; [unfold source in *; cbn [flat_map seg_source repeat app] in *; now rewrite E|]. intros s q X. injection X as <- <-. exists c, 1%nat, (c' :: p'). repeat split; cbn; lia. }
  intros p H L. destruct (K p H L) as (segs & Ok & E & _). eauto.
Qed.
(** C54: for every pattern whatsoever, formatting a supported date succeeds *)
Theorem C54_total : forall tr t p, supported t -> exists x, format tr p t = Val x.
Proof.
  intros tr t p Ht. destruct (C35_timestamp_from_fields t Ht) as (y & m & d & h & mi & s & ms & Ey & Em & Ed & Eh & Emi & Es & Ems & [Vm Vd] & (Vh & Vmi & Vs & Vms) & Et & _).
  assert (Hml : month_len y m <= 31) by (unfold month_len; destruct (m =? 1), (leap y), ((m =? 3) || (m =? 5) || (m =? 8) || (m =? 10)); lia).
  assert (Ly : - 2 ^ 63 < y < 2 ^ 63). { destruct (civil_exists t) as (y' & m' & d' & h' & mi' & s' & ms' & Hy & Hd & Hc & Et'); [rewrite tmin_val, tmax_val; exact Ht|]. destruct (fields_of_civil _ _ _ _ _ _ _ t Hy Hd Hc Et') as (E1 & _). assert (y' = y) by congruence. subst y'. unfold ymin, ymax in Hy. lia. }
  assert (DK : forall n, - 2 ^ 63 < n < 2 ^ 63 -> exists x, dec n = Val x) by (intros n Hn; destruct (dec_ok n Hn) as (x & E & _); eauto).
  assert (Wd : exists w, date_day t = Val w). { assert (I : in_s64 t = true) by (unfold supported in Ht; unfold in_s64; lia). destruct (Z.le_gt_cases (-345600000) t); [rewrite C37_week_day by assumption; eauto|rewrite C37_week_day_before_1970_refuted by assumption; eauto]. }
  destruct Wd as [w Ew]. assert (Y2 : - 2 ^ 63 < Z.rem y 100 < 2 ^ 63) by (pose proof (Z.rem_bound_abs y 100); lia).
  unfold format. induction (new_formatter p) as [|q l IH]; [cbn; eauto|]. cbn [format_pats]. destruct IH as [x ->].
  assert (R : exists z, render tr t q = Val z).
  { destruct q as [txt|n|n|n|n|n|n|n|n]; cbn [render]; rewrite ?Ey, ?Em, ?Ed, ?Eh, ?Emi, ?Es, ?Ems, ?Ew; cbn [bind]; eauto.
    - destruct (n =? 2); [|now apply DK]. cbv zeta. destruct (DK _ Y2) as [z ->]. cbn. eauto.
    - destruct (n =? 1); [apply DK; lia|]. destruct (n =? 2); [destruct (DK (m + 1)) as [z ->]; [lia|cbn; eauto]|]. destruct (n =? 3); eauto.
    - destruct (n =? 2); [|apply DK; lia]. cbv zeta. destruct (d <? 0) eqn:D; [lia|]. destruct (DK d) as [z ->]; [lia|]. cbn. eauto.
    - destruct (n =? 2); [|apply DK; lia]. destruct (DK h) as [z ->]; [lia|]. cbn. eauto.
    - destruct (n =? 2); [|apply DK; lia]. cbv zeta. destruct (mi <? 0) eqn:D; [lia|]. destruct (DK mi) as [z ->]; [lia|]. cbn. eauto.
    - destruct (n =? 2); [|apply DK; lia]. destruct (DK s) as [z ->]; [lia|]. cbn. eauto.
    - destruct (1 <? n); [|apply DK; lia]. destruct (DK ms) as [z ->]; [lia|]. cbn. eauto. }
  destruct R as [z ->]. cbn [bind]. eauto.
Qed.
(** C54 is false for a quoted text directly behind a field: the field's letters are printed *)
Theorem C54_quote_after_field_refuted : forall tr, format tr (str "yyyy-MM-dd'T'HH:mm") 0 = Val (str "1970-01-ddT00:00").
Proof. intros tr. vm_compute. reflexivity. Qed.
(** C54 is false for a quote that is not closed, for years before 0 and for runs of 258 letters *)
Theorem C54_odd_patterns_refuted : forall tr, format tr (str "'year") 0 = Val (str "1970") /\ format tr (str "yy") (civil_time (-5) 0 1 0 0 0 0) = Val (str "0-5") /\
  format tr (repeat 121 258) 0 = Val (str "70") /\ format tr (str "E") (civil_time 1900 0 1 0 0 0 0) = Val [] /\ format tr (str "MMMM") (civil_time 1970 8 1 0 0 0 0) = Val (tr (str "Septemper")).
Proof. intros tr. repeat split; vm_compute; try reflexivity. change (fix Ffix (x x0 : list Z) {struct x} : list Z := match x with [] => x0 | x1 :: x2 => x1 :: Ffix x2 x0 end) with (@app Z). now rewrite app_nil_r. Qed.
Example segs_example : segs_ok [Quoted (str "am "); Run 69 4; Run 44 1; Run 32 1; Run 100 2; Run 46 1; Run 77 2; Run 46 1; Run 121 4] /\
  source [Quoted (str "am "); Run 69 4; Run 44 1; Run 32 1; Run 100 2; Run 46 1; Run 77 2; Run 46 1; Run 121 4] = str "'am 'EEEE, dd.MM.yyyy" /\
  format (fun x => x) (str "'am 'EEEE, dd.MM.yyyy") 1709214359007 = Val (str "am Donnerstag, 29.02.2024").
Proof. split; [cbn; repeat split; try lia; intuition discriminate|]. split; vm_compute; reflexivity. Qed.
Print Assumptions C54_format. Print Assumptions C54_patterns. Print Assumptions C54_total. Print Assumptions C54_quote_after_field_refuted. Print Assumptions C54_odd_patterns_refuted.
