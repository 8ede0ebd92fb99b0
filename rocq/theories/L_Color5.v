From Coq Require Import Reals Lra ZArith QArith Qabs Qreals.
From Flocq Require Import Core BinarySingleNaN.
From Coq Require Import SpecFloat.
From Verif Require Import Base M_Float M_Color S_Color L_Float L_Float2 L_Color L_Color2 L_Color3 L_Color4.
Local Open Scope Z_scope.
Ltac Zify.zify_post_hook ::= Z.to_euclidean_division_equations.

Lemma Q2R_Z z : Q2R (inject_Z z) = IZR z.
Proof. unfold Q2R. cbn. field. Qed.
Lemma Q2R_0' : Q2R 0 = 0%R. Proof. unfold Q2R. cbn. field. Qed.
Lemma Q2R_1' : Q2R 1 = 1%R. Proof. unfold Q2R. cbn. field. Qed.
Lemma Q2R_abs q : Q2R (Qabs q) = Rabs (Q2R q).
Proof.
  apply Qabs_case; intros H; apply Qle_Rle in H; rewrite Q2R_0' in H; [now rewrite Rabs_pos_eq|]. rewrite Q2R_opp. symmetry. now apply Rabs_left1.
Qed.
Lemma Q2R_clamp q : Q2R (qclamp q) = clamp (Q2R q).
Proof.
  unfold qclamp. destruct (Qle_bool q 0) eqn:E0.
  - apply Qle_bool_iff, Qle_Rle in E0. rewrite Q2R_0' in *. cases.
  - assert (N0 : ~ (q <= 0)%Q) by (rewrite <- Qle_bool_iff, E0; discriminate). apply Qnot_le_lt, Qlt_Rlt in N0. rewrite Q2R_0' in N0. destruct (Qle_bool 1 q) eqn:E1.
    + apply Qle_bool_iff, Qle_Rle in E1. rewrite Q2R_1' in *. cases.
    + assert (N1 : ~ (1 <= q)%Q) by (rewrite <- Qle_bool_iff, E1; discriminate). apply Qnot_le_lt, Qlt_Rlt in N1. rewrite Q2R_1' in N1. cases.
Qed.
Lemma Q2R_red x : Q2R (red_at x) = pr (Q2R x).
Proof. unfold red_at, pr. rewrite Q2R_clamp, Q2R_minus, Q2R_abs, Q2R_minus. do 2 f_equal; [f_equal; f_equal|]; unfold Q2R; cbn; field. Qed.
Lemma Q2R_green x : Q2R (green_at x) = pg (Q2R x).
Proof. unfold green_at, pg. rewrite Q2R_clamp, Q2R_minus, Q2R_abs, Q2R_minus. do 2 f_equal; [|f_equal; f_equal]; unfold Q2R; cbn; field. Qed.
Lemma Q2R_blue x : Q2R (blue_at x) = pb (Q2R x).
Proof. unfold blue_at, pb. rewrite Q2R_clamp, Q2R_minus, Q2R_abs, Q2R_minus. do 2 f_equal; [|f_equal; f_equal]; unfold Q2R; cbn; field. Qed.
Lemma Q2R_ex s v p : Q2R (hsv_exact s v p) = ex (Q2R v) (Q2R s) (Q2R p).
Proof.
  unfold hsv_exact, ex. rewrite !Q2R_mult, Q2R_minus, Q2R_mult, Q2R_minus. rewrite !Q2R_1'. replace (Q2R 255) with 255%R by (unfold Q2R; cbn; field). reflexivity.
Qed.
Lemma about_floor w q : near3 w (Q2R q) -> about (Zfloor w) q.
Proof.
  intros H. unfold near3 in H. pose proof (Zfloor_lb w). pose proof (Zfloor_ub w). assert (E : Q2R (1 # 1000) = (/ 1000)%R) by (unfold Q2R; cbn; field). split; apply Rle_Qle; rewrite ?Q2R_plus, ?Q2R_minus, E, Q2R_Z, ?plus_IZR; lra.
Qed.
Lemma in_float_r x q lo hi : in_float x q lo hi -> is32 x (Q2R q) /\ (Q2R lo <= Q2R q <= Q2R hi)%R.
Proof. intros (V & E & L1 & L2). split; [now apply fq_is|]. split; now apply Qle_Rle. Qed.
Lemma byte_floor w : (0 <= w <= 255)%R -> byte (Zfloor w).
Proof. intros H. split; [apply Zfloor_lub; lra|]. rewrite <- (Zfloor_IZR 255). apply Zfloor_le. lra. Qed.

(** * an opaque foreground *)
Lemma byte_back : forallb (fun n => match f2u8 (mul32 (div32 (int32f (Z.of_nat n)) (int32f 255)) (int32f 255)) with Val z => z =? Z.of_nat n | _ => false end) (seq 0 256) = true.
Proof. vm_compute. reflexivity. Qed.
Lemma byte_back_z x : byte x -> f2u8 (mul32 (div32 (int32f x) (int32f 255)) (int32f 255)) = Val x.
Proof.
  intros H. pose proof (proj1 (forallb_forall _ _) byte_back (Z.to_nat x)) as P. unfold byte in H. cbv beta in P. rewrite Z2Nat.id in P by lia. specialize (P ltac:(apply in_seq; lia)). destruct (f2u8 _); try discriminate. apply Z.eqb_eq in P. now subst.
Qed.
Lemma floor_back x : byte x -> Zfloor (r32 (F x * 255)) = x.
Proof.
  intros H. pose proof (F_range x H). assert (Q : (0 <= F x * 255 <= 255)%R) by lra. pose proof (mul32_r _ _ (F x) 255 0 255 (F_r x H) (int32_r 255 ltac:(lia)) ltac:(lia) ltac:(lia) Q) as M. pose proof (r32_range _ 0 255 ltac:(lia) ltac:(lia) Q) as T. pose proof (f2u8_r _ _ M ltac:(lra)) as E. rewrite byte_back_z in E by exact H. congruence.
Qed.
Lemma pd_colour_front cb ab cf : byte cb -> byte ab -> byte cf -> pd_colour cb ab cf 255 = Val cf.
Proof.
  intros Hb Ha Hf. unfold pd_colour. cbv zeta. assert (PA : pd_alpha ab 255 = 255) by reflexivity. rewrite PA. assert (H255 : byte 255) by (unfold byte; lia). pose proof (F_r 255 H255) as R1. rewrite F255 in R1. pose proof (F_r cf Hf) as RF. pose proof (F_r cb Hb) as RB. pose proof (F_r ab Ha) as RA.
  pose proof (F_range cf Hf). pose proof (F_range cb Hb). pose proof (F_range ab Ha).
  set (x1 := div32 (int32f 255) _) in *. set (xF := div32 (int32f cf) _) in *. set (xB := div32 (int32f cb) _) in *. set (xA := div32 (int32f ab) _) in *.
  assert (FF : r32 (F cf) = F cf). { apply (rnd_fmt 24 128). exact (is_r_fmt 24 128 _ _ RF). }
  assert (Z0 : r32 0 = 0%R) by apply (r32_int 0 ltac:(lia)).
  assert (Q1 : (0 <= 1 * F cf <= 1)%R) by lra. pose proof (mul32_r _ _ _ _ 0 1 R1 RF ltac:(lia) ltac:(lia) Q1) as M1. rewrite Rmult_1_l, FF in M1.
  pose proof (sub32_r _ _ 1 1 0 1 (int32_r 1 ltac:(lia)) R1 ltac:(lia) ltac:(lia) ltac:(lra)) as M2. replace (1 - 1)%R with 0%R in M2 by ring. rewrite Z0 in M2.
  pose proof (mul32_r _ _ _ _ 0 1 M2 RA ltac:(lia) ltac:(lia) ltac:(lra)) as M3. rewrite Rmult_0_l, Z0 in M3. pose proof (mul32_r _ _ _ _ 0 1 M3 RB ltac:(lia) ltac:(lia) ltac:(lra)) as M4. rewrite Rmult_0_l, Z0 in M4.
  pose proof (add32_r _ _ _ _ 0 1 M1 M4 ltac:(lia) ltac:(lia) ltac:(lra)) as M5. rewrite Rplus_0_r, FF in M5.
  pose proof (div32_r _ _ _ _ 0 1 M5 R1 ltac:(lra) ltac:(lia) ltac:(lia) ltac:(lra)) as M6. replace (F cf / 1)%R with (F cf) in M6 by field. rewrite FF in M6.
  pose proof (mul32_r _ _ _ _ 0 255 M6 (int32_r 255 ltac:(lia)) ltac:(lia) ltac:(lia) ltac:(lra)) as M7. pose proof (r32_range (F cf * 255) 0 255 ltac:(lia) ltac:(lia) ltac:(lra)). rewrite (f2u8_r _ _ M7) by lra. now rewrite floor_back.
Qed.
(** * the greyscale *)
Lemma grey_cases c : bytes c -> rgb_to_grey c = UB \/ exists c', rgb_to_grey c = Val c' /\ mode c' = Grey /\ b0 c' = 255.
Proof.
  intros (H0 & H1 & H2 & _). unfold byte in *. unfold rgb_to_grey. cbv zeta. set (x := add32 _ _). assert (N : not_neg x). { unfold x. repeat apply add_sign; apply mul_sign; try exact I; apply int_sign; lia. }
  unfold f2s8, f2int. destruct (ftrunc x) as [z|] eqn:E; [|now left]. pose proof (trunc_sign x z N E). destruct ((-128 <=? z) && (z <=? 127)); [|now left]. right. eexists. split; [reflexivity|]. cbn. split; [reflexivity|]. rewrite Z.min_l by lia. reflexivity.
Qed.
Lemma to_rgb_bytes c : bytes c -> bytes (to_rgb c).
Proof. intros (H0 & H1 & H2 & H3 & H4). unfold bytes, byte in *. unfold to_rgb. destruct (mode c); cbn [mode b0 b1 b2 b3 alpha]; lia. Qed.
Lemma pd_alpha_val ab af : byte ab -> byte af -> pd_alpha ab af = af + (255 - af) * ab / 255 /\ 0 <= (255 - af) * ab / 255 <= 255 - af.
Proof.
  unfold byte, pd_alpha. intros Ha Hf. assert (N : 0 <= (255 - af) * ab) by (apply Z.mul_nonneg_nonneg; lia). assert (N2 : (255 - af) * ab <= (255 - af) * 255) by (apply Z.mul_le_mono_nonneg_l; lia).
  assert (D : 0 <= (255 - af) * ab / 255 <= 255 - af) by (split; [apply Z.div_pos; lia|apply Z.div_le_upper_bound; lia]). split; [|exact D]. apply Z.mod_small. revert D. generalize ((255 - af) * ab / 255). intros. lia.
Qed.
Lemma pd_alpha_bounds ab af : byte ab -> byte af -> Z.max ab af <= pd_alpha ab af <= 255.
Proof.
  intros Ha Hf. destruct (pd_alpha_val ab af Ha Hf) as (-> & D). unfold byte in *. assert (G : ab - af <= (255 - af) * ab / 255). { apply Z.div_le_lower_bound; [lia|]. assert (af * ab <= af * 255) by (apply Z.mul_le_mono_nonneg_l; lia). lia. }
  revert D G. generalize ((255 - af) * ab / 255). intros. lia.
Qed.
Lemma mix_bounds a f b : byte a -> byte f -> byte b -> Z.min f b <= (a * f + (255 - a) * b) / 255 <= Z.max f b.
Proof. unfold byte. intros Ha Hf Hb. assert (a * Z.min f b <= a * f <= a * Z.max f b) by (split; apply Z.mul_le_mono_nonneg_l; lia). assert ((255 - a) * Z.min f b <= (255 - a) * b <= (255 - a) * Z.max f b) by (split; apply Z.mul_le_mono_nonneg_l; lia). split; [apply Z.div_le_lower_bound; lia|apply Z.div_le_upper_bound; lia]. Qed.
