From Coq Require Import Reals Lra ZArith QArith Qabs Qreals.
From Flocq Require Import Core BinarySingleNaN.
From Coq Require Import SpecFloat.
From Verif Require Import Base M_Float M_Color S_Color L_Float L_Float2 L_Color.
Local Open Scope Z_scope.
Ltac Zify.zify_post_hook ::= Z.to_euclidean_division_equations.

(** * toCmyk *)
Lemma key_M c r g b : r = div32 (int32f (b0 c)) (int32f 255) -> g = div32 (int32f (b1 c)) (int32f 255) -> b = div32 (int32f (b2 c)) (int32f 255) ->
  bytes c -> is32 (sub32 (int32f 1) (fmax r (fmax g b))) (K (max3 (b0 c) (b1 c) (b2 c))).
Proof.
  intros -> -> -> (B0 & B1 & B2 & _). apply K_r; [unfold byte, max3 in *; lia|]. unfold max3. rewrite <- Z.max_assoc. apply fmax_r; [now apply F_r|]. apply fmax_r; now apply F_r.
Qed.
Lemma to_cmyk_rgb c : mode c = Rgb -> bytes c -> 1 <= max3 (b0 c) (b1 c) (b2 c) ->
  exists C' M' Y' K', to_cmyk c = Val (C Cmyk C' M' Y' K' 255) /\ let m := max3 (b0 c) (b1 c) (b2 c) in
    rounded_down C' (255 * (m - b0 c)) m /\ rounded_down M' (255 * (m - b1 c)) m /\ rounded_down Y' (255 * (m - b2 c)) m /\ rounded_down K' (255 - m) 1.
Proof.
  intros Em Bc H1. pose proof (key_M c _ _ _ eq_refl eq_refl eq_refl Bc) as Hk. destruct Bc as (B0 & B1 & B2 & _).
  set (m := max3 _ _ _) in *. assert (Bm : byte m) by (unfold m, byte, max3 in *; lia). assert (L0 : b0 c <= m /\ b1 c <= m /\ b2 c <= m) by (unfold m, max3; lia). destruct L0 as (L0 & L1 & L2).
  unfold to_cmyk. rewrite Em. cbv zeta. set (k := sub32 _ _) in *.
  destruct (part_ok _ k (b0 c) m B0 Bm L0 H1 (F_r _ B0) Hk) as (v0 & V0 & R0 & D0). destruct (part_ok _ k (b1 c) m B1 Bm L1 H1 (F_r _ B1) Hk) as (v1 & V1 & R1 & D1). destruct (part_ok _ k (b2 c) m B2 Bm L2 H1 (F_r _ B2) Hk) as (v2 & V2 & R2 & D2). destruct (key_ok k m Bm Hk) as (v3 & V3 & R3 & D3).
  rewrite (f2u8_r _ _ V0 R0), (f2u8_r _ _ V1 R1), (f2u8_r _ _ V2 R2), (f2u8_r _ _ V3 R3). cbn [bind]. do 4 eexists. split; [reflexivity|]. auto.
Qed.

(** * blend over an opaque background *)
Lemma pd_alpha_255 af : byte af -> pd_alpha 255 af = 255.
Proof. unfold byte, pd_alpha. intros H. rewrite Z.div_mul by lia. rewrite Z.mod_small; lia. Qed.
Lemma pd_colour_opaque cb cf af : byte cb -> byte cf -> byte af ->
  exists z, pd_colour cb 255 cf af = Val z /\ rounded_down z (af * cf + (255 - af) * cb) 255.
Proof.
  intros Hb Hf Ha. unfold pd_colour. cbv zeta. rewrite (pd_alpha_255 af Ha).
  pose proof (F_r af Ha) as RA. pose proof (F_r cf Hf) as RF. pose proof (F_r cb Hb) as RB. assert (H255 : byte 255) by (unfold byte; lia). pose proof (F_r 255 H255) as R1. rewrite F255 in R1.
  set (xA := div32 (int32f af) _) in *. set (x1 := div32 (int32f 255) _) in *. set (xF := div32 (int32f cf) _) in *. set (xB := div32 (int32f cb) _) in *.
  pose proof (F_range af Ha). pose proof (F_range cf Hf). pose proof (F_range cb Hb). pose proof (F_err af Ha). pose proof (F_err cf Hf). pose proof (F_err cb Hb). pose proof (byte_R af Ha). pose proof (byte_R cf Hf). pose proof (byte_R cb Hb). pose proof u_pos as U0. assert (UU : u = (/ 33554432)%R) by reflexivity.
  pose proof (K_r xA af Ha RA) as RK. pose proof (K_range af Ha). pose proof (K_err af Ha). set (kA := sub32 _ xA) in *.
  assert (P01 : forall a b, (0 <= a <= 1)%R -> (0 <= b <= 1)%R -> (0 <= a * b <= 1)%R) by (intros; split; nra). assert (PL : forall a b, (0 <= a)%R -> (0 <= b <= 1)%R -> (a * b <= a)%R) by (intros; nra).
  pose proof (P01 (F af) (F cf) ltac:(lra) ltac:(lra)) as Q1. pose proof (mul32_r _ _ _ _ 0 1 RA RF ltac:(lia) ltac:(lia) Q1) as M1. pose proof (err0 (F af * F cf) ltac:(lra)) as E1. pose proof (r32_range _ 0 1 ltac:(lia) ltac:(lia) Q1) as T1. set (m1 := r32 (F af * F cf)) in *.
  assert (Q2 : (0 <= K af * 1 <= 1)%R) by lra. pose proof (mul32_r _ _ _ _ 0 1 RK R1 ltac:(lia) ltac:(lia) Q2) as M2. pose proof (err0 (K af * 1) ltac:(lra)) as E2. pose proof (r32_range _ 0 1 ltac:(lia) ltac:(lia) Q2) as T2. set (s2 := r32 (K af * 1)) in *.
  pose proof (P01 s2 (F cb) ltac:(lra) ltac:(lra)) as Q3. pose proof (mul32_r _ _ _ _ 0 1 M2 RB ltac:(lia) ltac:(lia) Q3) as M3. pose proof (err0 (s2 * F cb) ltac:(lra)) as E3. pose proof (r32_range _ 0 1 ltac:(lia) ltac:(lia) Q3) as T3. set (m2 := r32 (s2 * F cb)) in *.
  assert (A1 : (- (2 * u) <= F af * F cf - IZR af / 255 * (IZR cf / 255) <= 2 * u)%R).
  { pose proof (mul_bound (F af - IZR af / 255) (F cf) u 1 ltac:(lra) ltac:(lra) ltac:(lra)). pose proof (mul_bound (F cf - IZR cf / 255) (IZR af / 255) u 1 ltac:(lra) ltac:(lra) ltac:(lra)). lra. }
  assert (A2 : (- (4 * u) <= s2 * F cb - (1 - IZR af / 255) * (IZR cb / 255) <= 4 * u)%R).
  { pose proof (mul_bound (s2 - (1 - IZR af / 255)) (F cb) (3 * u) 1 ltac:(lra) ltac:(lra) ltac:(lra)). pose proof (mul_bound (F cb - IZR cb / 255) (1 - IZR af / 255) u 1 ltac:(lra) ltac:(lra) ltac:(lra)). lra. }
  set (E := (IZR af / 255 * (IZR cf / 255) + (1 - IZR af / 255) * (IZR cb / 255))%R) in *.
  assert (EE : (0 <= E <= 1)%R). { pose proof (P01 (IZR af / 255) (IZR cf / 255) ltac:(lra) ltac:(lra))%R. pose proof (P01 (1 - IZR af / 255) (IZR cb / 255) ltac:(lra) ltac:(lra))%R. assert (IZR af / 255 * (IZR cf / 255) <= IZR af / 255)%R by (apply PL; lra). assert ((1 - IZR af / 255) * (IZR cb / 255) <= (1 - IZR af / 255))%R by (apply PL; lra). unfold E. lra. }
  assert (Q4 : (0 <= m1 + m2 <= 2)%R) by lra. pose proof (add32_r _ _ _ _ 0 2 M1 M3 ltac:(lia) ltac:(lia) Q4) as M4. pose proof (err (m1 + m2) 1 ltac:(lia)) as E4. change (IZR (2 ^ 1)) with 2%R in E4. specialize (E4 ltac:(lra)). pose proof (r32_range _ 0 2 ltac:(lia) ltac:(lia) Q4) as T4. set (s := r32 (m1 + m2)) in *.
  assert (Q5 : (0 <= s / 1 <= 2)%R) by lra. pose proof (div32_r _ _ _ _ 0 2 M4 R1 ltac:(lra) ltac:(lia) ltac:(lia) Q5) as M5. pose proof (err (s / 1) 1 ltac:(lia)) as E5. change (IZR (2 ^ 1)) with 2%R in E5. specialize (E5 ltac:(lra)). pose proof (r32_range _ 0 2 ltac:(lia) ltac:(lia) Q5) as T5. set (q := r32 (s / 1)) in *.
  assert (A3 : (- (12 * u) <= q - E <= 12 * u)%R) by (unfold E; lra).
  assert (H255r : is32 (int32f 255) 255) by (apply int32_r; lia).
  assert (U12 : (12 * u <= / 1000)%R) by (rewrite UU; lra). assert (Q6 : (0 <= q * 255 <= 256)%R) by lra. pose proof (mul32_r _ _ _ _ 0 256 M5 H255r ltac:(lia) ltac:(lia) Q6) as M6. pose proof (err (q * 255) 8 ltac:(lia)) as E6. change (IZR (2 ^ 8)) with 256%R in E6. specialize (E6 ltac:(lra)). pose proof (r32_range _ 0 256 ltac:(lia) ltac:(lia) Q6) as T6.
  assert (U256 : (256 * u <= / 1000)%R) by (rewrite UU; lra).
  eexists. split; [apply (f2u8_r _ _ M6); lra|]. apply floor_near; [lia|]. rewrite plus_IZR, !mult_IZR, minus_IZR.
  replace ((IZR af * IZR cf + (255 - IZR af) * IZR cb) / 255)%R with (255 * E)%R by (unfold E; field). rewrite UU in *. lra.
Qed.

(** * interpolate *)
Lemma fq_is x q : valid_binary 24 128 x = true -> fq x = Some q -> is32 x (Q2R q).
Proof.
  intros V H. pose proof (B2SF_SF2B 24 128 x V) as E. assert (A : is_finite (SF2B x V) = true). { destruct x; try discriminate H; reflexivity. }
  assert (G : is32 x (B2R (SF2B x V))) by (exists (SF2B x V); auto). destruct (fq_r _ _ G) as (q' & Eq & Q). assert (q' = q) by congruence. subst q'. rewrite Q. exact G.
Qed.
Lemma lerp_r x y p a : byte x -> byte y -> is32 p a -> (0 <= a <= 1)%R ->
  exists v, is32 (add32 (int32f x) (mul32 (int32f (y - x)) p)) v /\ (IZR (Z.min x y) <= v <= IZR (Z.max x y))%R /\ (- (512 * u) <= v - (IZR x + (IZR y - IZR x) * a) <= 512 * u)%R.
Proof.
  intros Hx Hy Hp Ha. pose proof (byte_R x Hx). pose proof (byte_R y Hy). unfold byte in *. assert (Ed : IZR (y - x) = (IZR y - IZR x)%R) by apply minus_IZR.
  assert (Q1 : (IZR (Z.min x y - x) <= IZR (y - x) * a <= IZR (Z.max x y - x))%R).
  { rewrite Ed, !minus_IZR. destruct (Z_le_gt_dec x y) as [L|L].
    - rewrite Z.min_l, Z.max_r by lia. apply IZR_le in L. split; nra.
    - rewrite Z.min_r, Z.max_l by lia. assert (IZR y <= IZR x)%R by (apply IZR_le; lia). split; nra. }
  pose proof (mul32_r _ _ (IZR (y - x)) a (Z.min x y - x) (Z.max x y - x) (int32_r (y - x) ltac:(lia)) Hp ltac:(lia) ltac:(lia) Q1) as M1. pose proof (r32_range _ (Z.min x y - x) (Z.max x y - x) ltac:(lia) ltac:(lia) Q1) as T1.
  assert (BB : (-256 <= IZR (Z.min x y - x) /\ IZR (Z.max x y - x) <= 256)%R) by (split; apply IZR_le; lia).
  pose proof (err (IZR (y - x) * a) 8 ltac:(lia)) as E1. change (IZR (2 ^ 8)) with 256%R in E1. specialize (E1 ltac:(lra)). set (m := r32 (IZR (y - x) * a)) in *. rewrite !minus_IZR in T1.
  assert (Q2 : (IZR (Z.min x y) <= IZR x + m <= IZR (Z.max x y))%R) by lra.
  pose proof (add32_r _ _ (IZR x) m (Z.min x y) (Z.max x y) (int32_r x ltac:(lia)) M1 ltac:(lia) ltac:(lia) Q2) as M2. pose proof (r32_range _ (Z.min x y) (Z.max x y) ltac:(lia) ltac:(lia) Q2) as T2.
  assert (BC : (0 <= IZR (Z.min x y) /\ IZR (Z.max x y) <= 256)%R) by (split; apply IZR_le; lia). pose proof (err (IZR x + m) 8 ltac:(lia)) as E2. change (IZR (2 ^ 8)) with 256%R in E2. specialize (E2 ltac:(lra)).
  exists (r32 (IZR x + m)). split; [exact M2|]. split; [exact T2|]. rewrite Ed in E1. lra.
Qed.
Lemma lerp_ok x y p q : byte x -> byte y -> valid_binary 24 128 p = true -> fq p = Some q -> (0 <= q <= 1)%Q ->
  exists z, lerp x y p = Val z /\ Z.min x y <= z <= Z.max x y /\ (Qabs (inject_Z z - (inject_Z x + inject_Z (y - x) * q)) <= 1 + (1 # 10000))%Q.
Proof.
  intros Hx Hy V H [q0 q1]. pose proof (fq_is p q V H) as Hp. assert (Ha : (0 <= Q2R q <= 1)%R). { split; [replace 0%R with (Q2R 0) by (unfold Q2R; cbn; field)|replace 1%R with (Q2R 1) by (unfold Q2R; cbn; field)]; now apply Qle_Rle. }
  destruct (lerp_r x y p _ Hx Hy Hp Ha) as (v & Rv & B & E). assert (BC : (0 <= IZR (Z.min x y) /\ IZR (Z.max x y) <= 255)%R) by (unfold byte in *; split; apply IZR_le; lia).
  exists (Zfloor v). unfold lerp. rewrite (f2u8_r _ _ Rv) by lra. split; [reflexivity|]. split.
  - split; [apply Zfloor_lub; lra|]. rewrite <- (Zfloor_IZR (Z.max x y)). apply Zfloor_le. lra.
  - pose proof (Zfloor_lb v). pose proof (Zfloor_ub v). assert (UU : (512 * u <= / 10000)%R) by (unfold u; lra). 
    assert (I : forall n, Q2R (inject_Z n) = IZR n) by (intros n; unfold Q2R; cbn; field).
    assert (EX : Q2R (inject_Z (Zfloor v) - (inject_Z x + inject_Z (y - x) * q)) = (IZR (Zfloor v) - (IZR x + (IZR y - IZR x) * Q2R q))%R) by (rewrite Q2R_minus, Q2R_plus, Q2R_mult, !I, minus_IZR; reflexivity).
    assert (EB : Q2R (1 + (1 # 10000)) = (1 + / 10000)%R) by (unfold Q2R; cbn; field). apply Qabs_case; intros _; apply Rle_Qle; rewrite EB, ?Q2R_opp, EX; lra.
Qed.
