(** P_Decimal.v -- C99, C100: doubles as decimal text, numbers put into place markers. *)
From Coq Require Import Reals Lra ZArith QArith Qabs Qpower Qreals.
From Flocq Require Import Core BinarySingleNaN.
From Coq Require Import SpecFloat.
From Verif Require Import Base M_Float M_MathF M_String M_Decimal L_Float S_Double L_Double L_MathF S_String S_Integer S_Arg S_Decimal L_String L_String2 L_String3 L_Integer L_Arg L_Decimal P_Arg P_MathF.
Local Open Scope Z_scope.
Ltac Zify.zify_post_hook ::= Z.to_euclidean_division_equations.

(** * C99: what is printed *)
Lemma sign_true x a : is64 x a -> (Rabs a <= bpow radix2 62)%R -> (a <= - (1 / 1000000))%R -> isLess x (int64f 0) = true.
Proof. intros X B H. destruct (isLess x (int64f 0)) eqn:E; [reflexivity|]. apply (not_less x a X B) in E. pose proof tol_lo. lra. Qed.
Lemma sign_false x a : is64 x a -> (Rabs a <= bpow radix2 62)%R -> (- (1 / 1000000) + bpow radix2 (-70) <= a)%R -> isLess x (int64f 0) = false.
Proof.
  intros X B H. unfold isLess. pose proof tol_20 as T. pose proof tol_lo as T2. assert (B1 : (Rabs (a + tol) <= bpow radix2 63)%R). { apply Rle_trans with (1 := Rabs_triang _ _). rewrite (Rabs_pos_eq tol) by (pose proof (bpow_gt_0 radix2 (-21)); lra). pose proof (bpow_le radix2 (-19) 62 ltac:(lia)). change 63 with (1 + 62). rewrite bpow_plus. change (bpow radix2 1) with 2%R. lra. }
  pose proof (add64_r x RESABS a tol 63 ltac:(lia) X RESABS_r B1) as U. rewrite (leb_r _ _ _ _ U zero_r). apply Rle_bool_false.
  apply Rlt_le_trans with (bpow radix2 (-72)); [apply bpow_gt_0|]. apply rnd_ge_r; [rewrite <- (Rmult_1_l (bpow radix2 (-72))); apply (fmt_grid 1 (-72)); lia|].
  replace (bpow radix2 (-70)) with (4 * bpow radix2 (-72))%R in H by (change (-70) with (2 + -72); rewrite bpow_plus; reflexivity). pose proof (bpow_gt_0 radix2 (-72)). lra.
Qed.

Lemma in_r x a : dbl x a -> (Qabs a <= q2 62)%Q -> is64 x (Q2R a) /\ (Rabs (Q2R a) <= bpow radix2 62)%R.
Proof. intros X B. apply dbl_r in X. split; [exact X|]. apply Qle_Rle in B. rewrite Q2R_abs, Q2R_q2 in B. exact B. Qed.
Lemma pow_r f p : dbl f (inject_Z (10 ^ p)) -> is64 f (IZR (10 ^ p)).
Proof. intros F. apply dbl_r in F. rewrite Q2R_Z in F. exact F. Qed.
Lemma Q2R_m : Q2R (-1 # 1000000) = (- (1 / 1000000))%R.
Proof. unfold Q2R. cbn [Qnum Qden]. field. Qed.
(** p digits behind the comma, rounded: half a unit of the last digit, and the error of the two multiplications; the sign is that of the number, if it is not closer to 0 than the tolerance.
    [f] is the answer of std::pow(10, p) *)
Theorem C99_fixed : forall x f a p, dbl x a -> (Qabs a <= q2 62)%Q -> 1 <= p <= 15 -> dbl f (inject_Z (10 ^ p)) ->
  exists s neg N, value_of_double x f p false = Val s /\ sound s /\ decimal neg p N (text s) /\ (Qabs (inject_Z N - Qabs a * inject_Z (10 ^ p)) <= (1 # 2) + inject_Z (10 ^ p) * q2 (-52))%Q /\
    ((a <= -1 # 1000000)%Q -> neg = true) /\ (((-1 # 1000000) + q2 (-70) <= a)%Q -> neg = false).
Proof.
  intros x f a p X B P F. destruct (in_r x a X B) as [Xr Br]. destruct (value_core x _ f p false Xr Br P (pow_r f p F)) as (s & E & S & D). exists s, (isLess x (int64f 0)), (printed (Q2R a) p). split; [exact E|]. split; [exact S|]. split; [exact D|]. split; [|split].
  - apply Rle_Qle. pose proof (printed_err (Q2R a) p P) as Er. q2r. replace (Q2R (1 # 2)) with (/ 2)%R by (unfold Q2R; cbn; field). exact Er.
  - intros H. apply (sign_true x _ Xr Br). apply Qle_Rle in H. rewrite Q2R_m in H. exact H.
  - intros H. apply (sign_false x _ Xr Br). apply Qle_Rle in H. rewrite Q2R_plus, Q2R_m, Q2R_q2 in H. exact H.
Qed.
Print Assumptions C99_fixed.
(** the same without zeros at the end *)
Theorem C99_cut : forall x f a p, dbl x a -> (Qabs a <= q2 62)%Q -> 1 <= p <= 15 -> dbl f (inject_Z (10 ^ p)) ->
  exists s neg N, value_of_double x f p true = Val s /\ sound s /\ decimal_cut neg p N (text s) /\ (Qabs (inject_Z N - Qabs a * inject_Z (10 ^ p)) <= (1 # 2) + inject_Z (10 ^ p) * q2 (-52))%Q /\
    ((a <= -1 # 1000000)%Q -> neg = true) /\ (((-1 # 1000000) + q2 (-70) <= a)%Q -> neg = false).
Proof.
  intros x f a p X B P F. destruct (in_r x a X B) as [Xr Br]. destruct (value_core x _ f p true Xr Br P (pow_r f p F)) as (s & E & S & D). exists s, (isLess x (int64f 0)), (printed (Q2R a) p). split; [exact E|]. split; [exact S|]. split; [exact D|]. split; [|split].
  - apply Rle_Qle. pose proof (printed_err (Q2R a) p P) as Er. q2r. replace (Q2R (1 # 2)) with (/ 2)%R by (unfold Q2R; cbn; field). exact Er.
  - intros H. apply (sign_true x _ Xr Br). apply Qle_Rle in H. rewrite Q2R_m in H. exact H.
  - intros H. apply (sign_false x _ Xr Br). apply Qle_Rle in H. rewrite Q2R_plus, Q2R_m, Q2R_q2 in H. exact H.
Qed.
Print Assumptions C99_cut.
(** exactly the value rounded to p digits, half away from zero, if the number has few bits behind the point *)
Theorem C99_exact : forall x f z j p trunc, dbl x (inject_Z z * q2 (- j)) -> 0 <= j -> (Qabs (inject_Z z * q2 (- j)) <= q2 62)%Q -> 1 <= p <= 15 -> 2 ^ j * 5 ^ (p + 1) <= 2 ^ 53 -> dbl f (inject_Z (10 ^ p)) ->
  exists s neg, value_of_double x f p trunc = Val s /\ sound s /\ (if trunc then decimal_cut else decimal) neg p ((2 * Z.abs z * 10 ^ p + 2 ^ j) / 2 ^ (j + 1)) (text s) /\
    (z * 1000000 <= - 2 ^ j -> neg = true) /\ (0 <= z -> neg = false).
Proof.
  intros x f z j p trunc X J B P H F. destruct (in_r x _ X B) as [Xr Br]. destruct (value_core x _ f p trunc Xr Br P (pow_r f p F)) as (s & E & S & D). exists s, (isLess x (int64f 0)). split; [exact E|]. split; [exact S|].
  rewrite Q2R_mult, Q2R_Z, Q2R_q2 in D, Xr, Br. rewrite (printed_exact z j p J P H) in D. split; [exact D|]. assert (Pj : 0 < 2 ^ j) by (apply Z.pow_pos_nonneg; lia). assert (b1 : (IZR (2 ^ j) * bpow radix2 (- j) = 1)%R). { replace (IZR (2 ^ j)) with (bpow radix2 j) by (rewrite <- (IZR_Zpower radix2) by lia; reflexivity). rewrite <- bpow_plus. replace (j + - j) with 0 by lia. reflexivity. }
  pose proof (bpow_gt_0 radix2 (- j)) as b0. split; intros Hz.
  - apply (sign_true x _ Xr Br). apply IZR_le in Hz. rewrite mult_IZR, opp_IZR in Hz. apply Rmult_le_compat_r with (r := bpow radix2 (- j)) in Hz; [|lra]. rewrite Ropp_mult_distr_l_reverse, b1 in Hz. lra.
  - apply (sign_false x _ Xr Br). apply (IZR_le 0) in Hz. pose proof (Rmult_le_pos _ _ Hz (Rlt_le _ _ b0)). assert (bpow radix2 (-70) <= 1 / 1000000)%R; [|lra]. apply Rle_trans with (bpow radix2 (-20)); [apply bpow_le; lia|]. change (bpow radix2 (-20)) with (/ 1048576)%R. lra.
Qed.
Print Assumptions C99_exact.
Definition otext (o : out jstr) : option (list Z) := match o with Val s => Some (text s) | _ => None end.
Example C99_exact_example : let x := lit (-13) 8 in dbl x (inject_Z (-13) * q2 (-3)) /\ dbl (int64f 100) (inject_Z (10 ^ 2)) /\ 2 ^ 3 * 5 ^ 3 <= 2 ^ 53 /\
  (otext (value_of_double x (int64f 100) 2 false)) = Some [45; 49; 44; 54; 51] /\ (otext (value_of_double (lit 99999 100000) (int64f 100) 2 true)) = Some [49].
Proof. cbv zeta. split; [split; [reflexivity|reflexivity]|]. split; [split; [reflexivity|reflexivity]|]. split; [lia|]. split; vm_compute; reflexivity. Qed.
(** the precision 0 with zeros at the end cut: the rounded integer *)
Theorem C99_integer : forall x f a, dbl x a -> (Qabs a <= q2 62)%Q -> dbl f 1 ->
  exists s (neg : bool) N ds, value_of_double x f 0 true = Val s /\ sound s /\ text s = (if neg then [45] else []) ++ map dec_char ds /\ canonical 10 N ds /\ (Qabs (inject_Z N - Qabs a) <= (1 # 2) + q2 (-52))%Q /\
    ((a <= -1 # 1000000)%Q -> neg = true) /\ (((-1 # 1000000) + q2 (-70) <= a)%Q -> neg = false).
Proof.
  intros x f a X B F. destruct (in_r x a X B) as [Xr Br]. destruct (value_emit x _ f 0 true Xr Br ltac:(lia) (pow_r f 0 F)) as (-> & H1 & H2 & _ & H4). change (10 ^ 0) with 1 in *. assert (A0 : after (Q2R a) 0 = 0) by lia. rewrite A0 in *.
  destruct (emit_zero (isLess x (int64f 0)) (before (Q2R a) 0) true H1) as (s & ds & E & R & C). exists s, (isLess x (int64f 0)), (before (Q2R a) 0), ds. apply repr_text in R as [T S]. split; [exact E|]. split; [exact S|]. split; [rewrite T; cbn; now rewrite app_nil_r|]. split; [exact C|]. split; [|split; [intros H; apply (sign_true x _ Xr Br); apply Qle_Rle in H; rewrite Q2R_m in H; exact H|intros H; apply (sign_false x _ Xr Br); apply Qle_Rle in H; rewrite Q2R_plus, Q2R_m, Q2R_q2 in H; exact H]].
  apply Rle_Qle. pose proof (printed_err0 (Q2R a)) as Er. rewrite H4 in Er. q2r. replace (Q2R (1 # 2)) with (/ 2)%R by (unfold Q2R; cbn; field). replace (before (Q2R a) 0 * 1 + 0) with (before (Q2R a) 0) in Er by lia. exact Er.
Qed.
Print Assumptions C99_integer.
(** a place marker is replaced by the text of the number; a negative precision stands for ten digits without zeros at the end *)
Theorem C99_arg : forall s x width p c f10 fp i n w, sound s -> - 2 ^ 63 < width < 2 ^ 63 -> best_marker (text s) i n w ->
  forall v, (if p <? 0 then value_of_double x f10 10 true else value_of_double x fp p false) = Val v -> sound v ->
  exists s', arg_double s x width p c f10 fp = Val s' /\ sound s' /\ text s' = ztake i (text s) ++ padded (text v) width c ++ zdrop (i + w) (text s).
Proof.
  intros s x width p c f10 fp i n w S W B v V Sv. destruct (C22_replaces_best_marker s v width c i n w S Sv W B) as (s' & E & H). exists s'. split; [|exact H]. unfold arg_double. unfold arg_str in E |- *. destruct (arg_indices s) as [[r|]| | |] eqn:A; cbn [bind] in *; try discriminate.
  - rewrite V. cbn [bind]. exact E.
  - exact E.
Qed.
Print Assumptions C99_arg.
(** integers *)
Theorem C99_arg_int : forall s value width c i n w, sound s -> - 2 ^ 63 < value < 2 ^ 63 -> - 2 ^ 63 < width < 2 ^ 63 -> best_marker (text s) i n w ->
  exists s' ds, arg_int s value width c = Val s' /\ sound s' /\ canonical 10 (Z.abs value) ds /\ text s' = ztake i (text s) ++ padded ((if value <? 0 then [45] else []) ++ map dec_char ds) width c ++ zdrop (i + w) (text s).
Proof.
  intros s value width c i n w S V W B. change (2 ^ 63) with 9223372036854775808 in V. destruct (value_of_int_ok value ltac:(lia)) as (v & ds & Ev & Rv & C). apply repr_text in Rv as [Tv Sv].
  destruct (C22_replaces_best_marker s v width c i n w S Sv W B) as (s' & E & H1 & H2). exists s', ds. rewrite Tv in H2. split; [|split; [exact H1|split; [exact C|exact H2]]]. unfold arg_int. unfold arg_str in E |- *. destruct (arg_indices s) as [[r|]| | |] eqn:A; cbn [bind] in *; try discriminate.
  - rewrite Ev. cbn [bind]. exact E.
  - exact E.
Qed.
Print Assumptions C99_arg_int.
Theorem C99_arg_none : forall s x width p c f10 fp value, sound s -> ~ In 37 (text s) ->
  (exists s', arg_double s x width p c f10 fp = Val s' /\ sound s' /\ text s' = text s) /\ (exists s', arg_int s value width c = Val s' /\ sound s' /\ text s' = text s).
Proof.
  intros s x width p c f10 fp value H N. apply sound_repr in H. destruct (arg_indices_ok s _ H) as (A & _ & _). unfold arg_double, arg_int. rewrite (A N). cbn [bind]. destruct (copy_ctor_ok s _ H) as (s' & E & R & _). apply repr_text in R as [T S]. split; exists s'; auto.
Qed.
Print Assumptions C99_arg_none.
Example C99_arg_example : (otext (arg_double (str_of [120; 37; 49; 33]) (lit 5 2) 6 1 32 (int64f 10000000000) (int64f 10))) = Some [120; 32; 32; 32; 50; 44; 53; 33] /\
  (otext (arg_double (str_of [37; 49]) (lit 5 2) 0 (-1) 32 (int64f 10000000000) (int64f 1))) = Some [50; 44; 53] /\ (otext (arg_int (str_of [37; 49]) (-7) (-4) 95)) = Some [45; 55; 95; 95].
Proof. split; [|split]; vm_compute; reflexivity. Qed.

(** * C100: where the text is wrong *)
(** precision 0: a digit 0 is printed behind the comma though none was asked for *)
Theorem C100_precision0_refuted : forall x f a, dbl x a -> (Qabs a <= q2 62)%Q -> dbl f 1 ->
  exists s t, value_of_double x f 0 false = Val s /\ text s = t ++ [44; 48] /\ t <> [].
Proof.
  intros x f a X B F. destruct (in_r x a X B) as [Xr Br]. destruct (value_emit x _ f 0 false Xr Br ltac:(lia) (pow_r f 0 F)) as (-> & H1 & H2 & _ & H4). change (10 ^ 0) with 1 in *. assert (A0 : after (Q2R a) 0 = 0) by lia. rewrite A0 in *.
  destruct (emit_zero (isLess x (int64f 0)) (before (Q2R a) 0) false H1) as (s & ds & E & R & C). apply repr_text in R as [T S]. exists s, ((if isLess x (int64f 0) then [45] else []) ++ map dec_char ds). split; [exact E|]. split; [rewrite T, <- app_assoc; reflexivity|]. destruct C as (_ & _ & [->|(d & r & -> & _)]); destruct (isLess x (int64f 0)); discriminate.
Qed.
Print Assumptions C100_precision0_refuted.
(** negative numbers closer to 0 than the tolerance are printed without the sign *)
Theorem C100_sign_refuted : forall x f a p trunc, dbl x a -> (a < 0)%Q -> ((-1 # 1000000) + q2 (-70) <= a)%Q -> 0 <= p <= 15 -> dbl f (inject_Z (10 ^ p)) ->
  value_of_double x f p trunc = value_of_double (SFopp x) f p trunc.
Proof.
  intros x f a p trunc X N H P F. assert (B : (Qabs a <= q2 62)%Q). { rewrite Qabs_neg by (apply Qlt_le_weak, N). apply Rle_Qle. apply Qle_Rle in H. rewrite Q2R_plus, Q2R_m, Q2R_q2 in H. rewrite Q2R_opp, Q2R_q2. pose proof (bpow_gt_0 radix2 (-70)). pose proof (bpow_le radix2 0 62 ltac:(lia)) as K. change (bpow radix2 0) with 1%R in K. lra. }
  destruct (in_r x a X B) as [Xr Br]. apply Qlt_Rlt in N. rewrite RMicromega.Q2R_0 in N. apply Qle_Rle in H. rewrite Q2R_plus, Q2R_m, Q2R_q2 in H. pose proof (bpow_gt_0 radix2 (-70)).
  destruct (value_emit x _ f p trunc Xr Br P (pow_r f p F)) as (-> & _). destruct (value_emit (SFopp x) _ f p trunc (opp_r _ _ Xr) ltac:(rewrite Rabs_Ropp; exact Br) P (pow_r f p F)) as (-> & _).
  rewrite (sign_false x _ Xr Br H). rewrite (sign_false (SFopp x) _ (opp_r _ _ Xr)); [|rewrite Rabs_Ropp; exact Br|lra]. unfold before, after, frac. rewrite Rabs_Ropp. reflexivity.
Qed.
Print Assumptions C100_sign_refuted.
Example C100_sign_example : (otext (value_of_double (lit (-5) 10000000) (int64f 10000000) 7 false)) = Some [48; 44; 48; 48; 48; 48; 48; 48; 53].
Proof. vm_compute. reflexivity. Qed.
(** a negative number that is rounded to 0 keeps the sign *)
Theorem C100_minus_zero_refuted : forall x f a p, dbl x a -> (a <= -1 # 1000000)%Q -> (Qabs a * inject_Z (10 ^ p) <= 1 # 4)%Q -> 1 <= p <= 15 -> dbl f (inject_Z (10 ^ p)) ->
  exists s, value_of_double x f p false = Val s /\ text s = [45; 48; 44] ++ repeat 48 (Z.to_nat p).
Proof.
  intros x f a p X N H P F. pose proof (pow_bounds p ltac:(lia)) as P10. apply Qle_Rle in H. q2r. replace (Q2R (1 # 4)) with (/ 4)%R in H by (unfold Q2R; cbn; field). assert (F1 : (1 <= IZR (10 ^ p))%R) by (apply (IZR_le 1); lia). pose proof (Rabs_pos (Q2R a)) as A0.
  assert (A1 : (Rabs (Q2R a) <= 1)%R). { apply Rle_trans with (Rabs (Q2R a) * IZR (10 ^ p))%R; [|lra]. rewrite <- (Rmult_1_r (Rabs _)) at 1. apply Rmult_le_compat_l; lra. }
  assert (Br : (Rabs (Q2R a) <= bpow radix2 62)%R). { apply Rle_trans with (1 := A1). apply (bpow_le radix2 0 62). lia. }
  apply dbl_r in X. destruct (value_core x _ f p false X Br P (pow_r f p F)) as (s & E & S & D). exists s. split; [exact E|]. apply Qle_Rle in N. rewrite Q2R_m in N. rewrite (sign_true x _ X Br N) in D.
  assert (N0 : printed (Q2R a) p = 0). { pose proof (printed_err (Q2R a) p P) as Er. assert (Ee : (IZR (10 ^ p) * bpow radix2 (-52) < / 4)%R). { apply Rle_lt_trans with (IZR (10 ^ 15) * bpow radix2 (-52))%R; [apply Rmult_le_compat_r; [apply bpow_ge_0|apply IZR_le; lia]|]. change (bpow radix2 (-52)) with (/ 4503599627370496)%R. change (10 ^ 15) with 1000000000000000. lra. }
    apply Rabs_le_inv in Er. assert (L : (-1 < IZR (printed (Q2R a) p) < 1)%R) by (split; [assert (0 <= Rabs (Q2R a) * IZR (10 ^ p))%R by (apply Rmult_le_pos; lra); lra|lra]). destruct L as [L1 L2]. apply (lt_IZR (-1)) in L1. apply (lt_IZR _ 1) in L2. lia. }
  rewrite N0 in D. destruct D as (ds & es & T & (V & Fd & D) & L & Fe & Ve). rewrite Z.div_0_l in V by lia. rewrite Z.mod_0_l in Ve by lia. rewrite T. assert (Eds : ds = [0]). { destruct D as [D|(d & r & -> & D)]; [exact D|]. exfalso. change (d :: r) with ([d] ++ r) in V, Fd. rewrite pos_app in V. change (pos_value 10 [d]) with (10 * 0 + d) in V. apply Forall_app in Fd as [_ Fr]. apply pos_range in Fr. assert (0 < 10 ^ zlen r) by lia. nia. }
  rewrite Eds. assert (Ees : es = repeat 0 (Z.to_nat p)). { rewrite <- L. unfold zlen. rewrite Nat2Z.id. apply pos_zero; assumption. } rewrite Ees, map_rep. reflexivity.
Qed.
Print Assumptions C100_minus_zero_refuted.
Example C100_minus_zero_example : dbl (lit (-1) 1024) (-1 # 1024) /\ (Qabs (-1 # 1024) * inject_Z (10 ^ 2) <= 1 # 4)%Q /\ (otext (value_of_double (lit (-1) 1024) (int64f 100) 2 false)) = Some [45; 48; 44; 48; 48].
Proof. split; [split; reflexivity|]. split; [vm_compute; discriminate|]. vm_compute. reflexivity. Qed.
(** numbers outside int64, and many digits of a number with a fraction: a conversion without a defined result *)
Theorem C100_range_refuted : forall x f a p trunc, dbl x a -> (q2 63 <= a)%Q \/ (a <= - q2 63 - 1)%Q -> value_of_double x f p trunc = UB.
Proof.
  intros x f a p trunc X H. apply dbl_r in X. unfold value_of_double, f2s64, f2int. rewrite (trunc_r 53 1024 x _ X). set (A := Q2R a) in *. assert (K : Ztrunc A >= 2 ^ 63 \/ Ztrunc A <= - 2 ^ 63 - 1).
  { destruct H as [H|H]; apply Qle_Rle in H; [left|right].
    - rewrite Q2R_q2 in H. fold A in H. rewrite Ztrunc_floor by (pose proof (bpow_gt_0 radix2 63); lra). apply Z.le_ge. apply Zfloor_lub. exact H.
    - rewrite Q2R_minus, Q2R_opp, Q2R_q2 in H. replace (Q2R 1) with 1%R in H by (unfold Q2R; cbn; field). fold A in H. pose proof (bpow_gt_0 radix2 63). rewrite Ztrunc_ceil by lra. apply Zceil_glb. rewrite minus_IZR, opp_IZR. change (IZR (2 ^ 63)) with (bpow radix2 63). lra. }
  change (2 ^ 63) with 9223372036854775808 in *. replace ((- (9223372036854775808) <=? Ztrunc A) && (Ztrunc A <=? 9223372036854775808 - 1)) with false by lia. reflexivity.
Qed.
Print Assumptions C100_range_refuted.
Theorem C100_digits_refuted : forall x f i a p trunc, dbl x (inject_Z i + a) -> 0 <= i <= 2 ^ 50 -> (19 # 20 <= a)%Q -> (a < 1)%Q -> 18 <= p <= 22 -> dbl f (inject_Z (10 ^ p)) -> value_of_double x f p trunc = UB.
Proof.
  intros x f i a p trunc X I A0 A1 P F. apply dbl_r in X. apply pow_r in F. apply Qle_Rle in A0. apply Qlt_Rlt in A1. rewrite Q2R_plus, Q2R_Z in X. replace (Q2R (19 # 20)) with (19 / 20)%R in A0 by (unfold Q2R; cbn; field). replace (Q2R 1) with 1%R in A1 by (unfold Q2R; cbn; field). set (A := Q2R a) in *.
  assert (I0 : (0 <= IZR i)%R) by (apply (IZR_le 0); lia). assert (Ff : Ztrunc (IZR i + A) = i) by (rewrite Ztrunc_floor by lra; apply Zfloor_imp; rewrite plus_IZR; lra). pose proof (fmod1_r x _ X) as M. rewrite Ff in M. replace (IZR i + A - IZR i)%R with A in M by ring.
  unfold value_of_double. assert (T2 : f2s64 x = Val i). { unfold f2s64, f2int. rewrite (trunc_r 53 1024 x _ X), Ff. change (2 ^ 63) with 9223372036854775808. change (2 ^ 50) with 1125899906842624 in I. replace ((- (9223372036854775808) <=? i) && (i <=? 9223372036854775808 - 1)) with true by lia. reflexivity. }
  rewrite T2. cbn [bind]. assert (T3 : exists b, (if isLess x (int64f 0) then chk64 (i * -1) else Val i) = Val b). { destruct (isLess x (int64f 0)); [|eauto]. unfold chk64, in_s64. change (2 ^ 50) with 1125899906842624 in I. replace ((-9223372036854775808 <=? i * -1) && (i * -1 <=? 9223372036854775807)) with true by lia. eauto. }
  destruct T3 as (b & ->). cbn [bind]. assert (B1 : (Rabs (A * 10) <= bpow radix2 4)%R) by (rewrite Rabs_pos_eq by lra; change (bpow radix2 4) with 16%R; lra). pose proof (mul64_r _ _ _ _ 4 ltac:(lia) M (int64_r 10 ltac:(lia)) B1) as M1. pose proof (r64_abs _ 4 ltac:(lia) B1) as B2.
  assert (L1 : (19 / 2 <= r64 (A * 10))%R). { apply rnd_ge_r; [|lra]. replace (19 / 2)%R with (IZR 19 * bpow radix2 (-1))%R by (change (bpow radix2 (-1)) with (/ 2)%R; field). apply fmt_grid; lia. }
  assert (Q1 : 10 ^ 18 <= 10 ^ p <= 10 ^ 22) by (split; apply Z.pow_le_mono_r; lia). assert (Q2 : (IZR (10 ^ 18) <= IZR (10 ^ p) <= IZR (10 ^ 22))%R) by (split; apply IZR_le; lia). change (10 ^ 18) with 1000000000000000000 in Q2. change (10 ^ 22) with 10000000000000000000000 in Q2.
  rewrite Rabs_pos_eq in B2 by lra. change (bpow radix2 4) with 16%R in B2. assert (B3 : (Rabs (r64 (A * 10) * IZR (10 ^ p)) <= bpow radix2 80)%R). { rewrite Rabs_pos_eq by (apply Rmult_le_pos; lra). change (bpow radix2 80) with 1208925819614629174706176%R. apply Rle_trans with (16 * 10000000000000000000000)%R; [apply Rmult_le_compat; lra|lra]. }
  pose proof (mul64_r _ _ _ _ 80 ltac:(lia) M1 F B3) as M2. apply abs_r in M2. set (u := r64 (r64 (A * 10) * IZR (10 ^ p))) in *. assert (L2 : (bpow radix2 63 <= u)%R). { apply rnd_ge_r; [rewrite <- (Rmult_1_l (bpow radix2 63)); apply (fmt_grid 1 63); lia|]. change (bpow radix2 63) with 9223372036854775808%R. apply Rle_trans with (19 / 2 * 1000000000000000000)%R; [lra|apply Rmult_le_compat; lra]. }
  assert (K : Ztrunc (Rabs u) >= 2 ^ 63). { rewrite Rabs_pos_eq by (pose proof (bpow_gt_0 radix2 63); lra). rewrite Ztrunc_floor by (pose proof (bpow_gt_0 radix2 63); lra). apply Z.le_ge, Zfloor_lub. exact L2. }
  unfold f2s64, f2int. rewrite (trunc_r 53 1024 _ _ M2). change (2 ^ 63) with 9223372036854775808 in *. replace ((- (9223372036854775808) <=? Ztrunc (Rabs u)) && (Ztrunc (Rabs u) <=? 9223372036854775808 - 1)) with false by lia. reflexivity.
Qed.
Print Assumptions C100_digits_refuted.
Example C100_digits_example : value_of_double (lit 99 100) (int64f (10 ^ 18)) 18 false = UB /\ value_of_double (int64f (2 ^ 63)) (int64f 10) 1 false = UB.
Proof. split; vm_compute; reflexivity. Qed.
(** unsigned numbers from 2^63 on are printed as negative numbers *)
Theorem C100_unsigned_refuted : forall s value width c i n w, sound s -> 2 ^ 63 < value < 2 ^ 64 -> - 2 ^ 63 < width < 2 ^ 63 -> best_marker (text s) i n w ->
  exists s' ds, arg_uint s value width c = Val s' /\ canonical 10 (2 ^ 64 - value) ds /\ text s' = ztake i (text s) ++ padded ([45] ++ map dec_char ds) width c ++ zdrop (i + w) (text s).
Proof.
  intros s value width c i n w S V W B. unfold arg_uint. replace (value <? 2 ^ 63) with false by lia. destruct (C99_arg_int s (value - 2 ^ 64) width c i n w S ltac:(lia) W B) as (s' & ds & E & _ & C & T). exists s', ds. split; [exact E|]. replace (value - 2 ^ 64 <? 0) with true in T by lia. replace (Z.abs (value - 2 ^ 64)) with (2 ^ 64 - value) in C by lia. auto.
Qed.
Print Assumptions C100_unsigned_refuted.
Theorem C100_unsigned_ok : forall s value width c i n w, sound s -> 0 <= value < 2 ^ 63 -> - 2 ^ 63 < width < 2 ^ 63 -> best_marker (text s) i n w ->
  exists s' ds, arg_uint s value width c = Val s' /\ canonical 10 value ds /\ text s' = ztake i (text s) ++ padded (map dec_char ds) width c ++ zdrop (i + w) (text s).
Proof.
  intros s value width c i n w S V W B. unfold arg_uint. replace (value <? 2 ^ 63) with true by lia. destruct (C99_arg_int s value width c i n w S ltac:(lia) W B) as (s' & ds & E & _ & C & T). exists s', ds. split; [exact E|]. replace (value <? 0) with false in T by lia. rewrite Z.abs_eq in C by lia. auto.
Qed.
Print Assumptions C100_unsigned_ok.
Example C100_unsigned_example : best_marker [98; 37; 50; 97; 37; 49] 4 1 2 /\ (otext (arg_uint (str_of [98; 37; 50; 97; 37; 49]) (2 ^ 64 - 1) 0 32)) = Some [98; 37; 50; 97; 45; 49].
Proof. split; [apply C22_ex|vm_compute; reflexivity]. Qed.
