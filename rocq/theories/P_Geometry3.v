(** P_Geometry3.v -- lines and planes in space; points on lines and segments. *)
From Coq Require Import Reals Lra Psatz QArith Qabs Qreals.
From Flocq Require Import Core.
From Verif Require Import Base M_Float M_MathF M_Rect M_Matrix M_Geometry S_Double S_Matrix S_Geometry L_Double L_MathF P_MathF L_Matrix L_Matrix2 L_Matrix4 L_Matrix5 L_Geometry L_Geometry2 L_Geometry3 L_Geometry4 P_Geometry P_Geometry2.
Local Open Scope Z_scope.

(** * C112: the point of a line in a plane *)
(** the numbers a, b, c are those of the vertex up to 2^-51 of the given size *)
Definition near3 (v : vertex3) (x y z sx sy sz : Q) : Prop :=
  exists a b c, point v a b c /\ (Qabs (a - x) <= q2 (-51) * sx)%Q /\ (Qabs (b - y) <= q2 (-51) * sy)%Q /\ (Qabs (c - z) <= q2 (-51) * sz)%Q.
(** position and normal of the plane; point and direction of the line; la is the parameter of the common point: the vector from the plane's position to it is perpendicular to the normal *)
Theorem C112_plane p n l d px_ py_ pz_ nx ny nz_ lx ly lz dx dy dz extend la :
  at3 0 px_ py_ pz_ p -> at3 0 nx ny nz_ n -> at3 0 lx ly lz l -> at3 0 dx dy dz d -> box3 (2 ^ 24) px_ py_ pz_ -> box3 (2 ^ 24) nx ny nz_ -> box3 (2 ^ 24) lx ly lz -> box3 (2 ^ 24) dx dy dz ->
  let x := (inject_Z lx + la * inject_Z dx)%Q in let y := (inject_Z ly + la * inject_Z dy)%Q in let z := (inject_Z lz + la * inject_Z dz)%Q in
  (dx * nx + dy * ny + dz * nz_ = 0 -> lineAndPlane p n l d extend = V3 S754_nan S754_nan S754_nan) /\
  (dx * nx + dy * ny + dz * nz_ <> 0 -> ((x - inject_Z px_) * inject_Z nx + (y - inject_Z py_) * inject_Z ny + (z - inject_Z pz_) * inject_Z nz_ == 0)%Q ->
     (extend = true \/ (0 <= la)%Q /\ (la <= 1)%Q -> near3 (lineAndPlane p n l d extend) x y z (1 + Qabs (inject_Z lx) + Qabs (la * inject_Z dx)) (1 + Qabs (inject_Z ly) + Qabs (la * inject_Z dy)) (1 + Qabs (inject_Z lz) + Qabs (la * inject_Z dz))) /\
     (Z.abs (dx * nx + dy * ny + dz * nz_) <= 900000 -> (la < 0)%Q \/ (1 < la)%Q -> lineAndPlane p n l d false = V3 S754_nan S754_nan S754_nan)).
Proof.
  intros HP HN HL HD BP BN BL BD. cbv zeta. split.
  { intros Z0. exact (plane_none p n l d nx ny nz_ dx dy dz HN HD BN BD extend Z0). }
  intros D0 E. assert (E' : (Q2R la * IZR (zden nx ny nz_ dx dy dz) = IZR (znum px_ py_ pz_ nx ny nz_ lx ly lz))%R). { apply Q2R_eq in E. q2r. replace (Q2R 0) with 0%R in E by (unfold Q2R; cbn; lra). unfold zden, znum. rewrite !plus_IZR, !mult_IZR, !minus_IZR. lra. }
  assert (O : Q2R 1 = 1%R /\ Q2R 0 = 0%R) by (unfold Q2R; cbn; lra). destruct O as [O1 O0].
  assert (RNG : forall x, is64 x (r64 (Q2R la)) -> (Rabs (Q2R la) <= bpow radix2 53)%R -> (0 <= la)%Q -> (la <= 1)%Q -> isLess x f0 || isGreater x f1 = false).
  { intros x X B P0 P1. apply Qle_Rle in P0, P1. rewrite O0, O1 in *. pose proof (r64_abs _ 53 ltac:(lia) B) as B'. assert (B9 : (Rabs (r64 (Q2R la)) <= bpow radix2 900)%R) by (eapply Rle_trans; [exact B'|apply bpow_le; lia]). rewrite (less0 _ _ X B9), (greater1 _ _ X). pose proof one_tol as OT. apply Rabs_le_inv in OT. pose proof tol_near as TN.
    assert (0 <= r64 (Q2R la))%R by (rewrite <- r64_0; apply r64_le; lra). assert (r64 (Q2R la) <= 1)%R by (apply rnd_le_r; [pose proof (fmt_grid 1 0 ltac:(lia) ltac:(lia)) as G; rewrite Rmult_1_l in G; exact G|lra]). set (c1 := r64 (1 + tol)) in *. clearbody c1. set (c0 := tol) in *. clearbody c0. rewrite !Rle_bool_false by lra. reflexivity. }
  split.
  - intros C. destruct (plane_some p n l d px_ py_ pz_ nx ny nz_ lx ly lz dx dy dz HP HN HL HD BP BN BL BD extend (Q2R la) D0 E') as (x & X & B & ->).
    replace (negb extend && (isLess x f0 || isGreater x f1)) with false. 2:{ symmetry. destruct C as [->|[P0 P1]]; [reflexivity|]. rewrite (RNG x X B P0 P1). apply andb_false_r. }
    destruct (plane_point l d lx ly lz dx dy dz HL HD BL BD x (Q2R la) X B) as (r1 & r2 & r3 & R1 & R2 & R3 & E1 & E2 & E3). destruct (is_dbl _ _ R1) as (a & Da & <-). destruct (is_dbl _ _ R2) as (b & Db & <-). destruct (is_dbl _ _ R3) as (c & Dc & <-). exists a, b, c. split; [repeat (split; [assumption|]); assumption|].
    split; [|split]; apply Rle_Qle; q2r; rewrite O1; assumption.
  - intros DS C. destruct (plane_some p n l d px_ py_ pz_ nx ny nz_ lx ly lz dx dy dz HP HN HL HD BP BN BL BD false (Q2R la) D0 E') as (x & X & B & ->).
    rewrite (range_dec px_ py_ pz_ nx ny nz_ lx ly lz dx dy dz x (Q2R la) X B E') by (unfold zden; lia). assert (R : Rle_bool 0 (Q2R la) && Rle_bool (Q2R la) 1 = false). { destruct C as [C|C]; apply Qlt_Rlt in C; rewrite ?O0, ?O1 in C; [rewrite Rle_bool_false by exact C; reflexivity|rewrite (Rle_bool_false (Q2R la)) by exact C; apply andb_false_r]. } rewrite R. reflexivity.
Qed.
(** the closest points are the special cases *)
Theorem C112_closest point position normal px_ py_ pz_ ox oy oz nx ny nz_ la : at3 0 px_ py_ pz_ point -> at3 0 ox oy oz position -> at3 0 nx ny nz_ normal -> box3 (2 ^ 24) px_ py_ pz_ -> box3 (2 ^ 24) ox oy oz -> box3 (2 ^ 24) nx ny nz_ ->
  ~ (nx = 0 /\ ny = 0 /\ nz_ = 0) ->
  (* the plane through the position: the line from the point along the normal *)
  ((la * inject_Z (nx * nx + ny * ny + nz_ * nz_) == inject_Z (nx * (ox - px_) + ny * (oy - py_) + nz_ * (oz - pz_)))%Q ->
    near3 (closestOnPlane point position normal) (inject_Z px_ + la * inject_Z nx) (inject_Z py_ + la * inject_Z ny) (inject_Z pz_ + la * inject_Z nz_) (1 + Qabs (inject_Z px_) + Qabs (la * inject_Z nx)) (1 + Qabs (inject_Z py_) + Qabs (la * inject_Z ny)) (1 + Qabs (inject_Z pz_) + Qabs (la * inject_Z nz_))) /\
  (* the line through the position, in the direction of the normal *)
  ((la * inject_Z (nx * nx + ny * ny + nz_ * nz_) == inject_Z (nx * (px_ - ox) + ny * (py_ - oy) + nz_ * (pz_ - oz)))%Q ->
    near3 (closestOnLine point position normal) (inject_Z ox + la * inject_Z nx) (inject_Z oy + la * inject_Z ny) (inject_Z oz + la * inject_Z nz_) (1 + Qabs (inject_Z ox) + Qabs (la * inject_Z nx)) (1 + Qabs (inject_Z oy) + Qabs (la * inject_Z ny)) (1 + Qabs (inject_Z oz) + Qabs (la * inject_Z nz_))).
Proof.
  intros HP HO HN BP BO BN N0. assert (D0 : nx * nx + ny * ny + nz_ * nz_ <> 0) by (rewrite sq3; exact N0). split; intros E.
  - destruct (C112_plane position normal point normal ox oy oz nx ny nz_ px_ py_ pz_ nx ny nz_ true la HO HN HP HN BO BN BP BN) as [_ G]. apply (G D0); [|now left]. apply eqR_Qeq. apply Q2R_eq in E. q2r. rewrite !plus_IZR, !mult_IZR, !minus_IZR in E. replace (Q2R 0) with 0%R by (unfold Q2R; cbn; lra). lra.
  - destruct (C112_plane point normal position normal px_ py_ pz_ nx ny nz_ ox oy oz nx ny nz_ true la HP HN HO HN BP BN BO BN) as [_ G]. apply (G D0); [|now left]. apply eqR_Qeq. apply Q2R_eq in E. q2r. rewrite !plus_IZR, !mult_IZR, !minus_IZR in E. replace (Q2R 0) with 0%R by (unfold Q2R; cbn; lra). lra.
Qed.
(** * points on a line *)
(** length of a small difference, compared with 0 *)
Lemma len_small v a b c : is64 (vx v) a -> is64 (vy v) b -> is64 (vz v) c -> (Rabs a <= bpow radix2 (-30))%R -> (Rabs b <= bpow radix2 (-30))%R -> (Rabs c <= bpow radix2 (-30))%R -> isEqual (abs3 v) f0 = true.
Proof.
  intros A B C La Lb Lc. assert (SQ : forall x r, is64 x r -> (Rabs r <= bpow radix2 (-30))%R -> is64 (mul64 x x) (r64 (r * r)) /\ (0 <= r64 (r * r) <= bpow radix2 (-60))%R). { intros x r X L. pose proof (Rabs_pos r). assert (S : (Rabs (r * r) <= bpow radix2 (-60))%R) by (rewrite Rabs_mult; change (-60) with (-30 + -30); rewrite bpow_plus; apply Rmult_le_compat; assumption). split; [apply (mul64_r _ _ _ _ (-60) ltac:(lia) X X S)|]. split; [rewrite <- r64_0; apply r64_le; nra|]. pose proof (r64_abs _ (-60) ltac:(lia) S) as Q. apply Rabs_le_inv in Q. lra. }
  destruct (SQ _ _ A La) as [A1 A2]. destruct (SQ _ _ B Lb) as [B1 B2]. destruct (SQ _ _ C Lc) as [C1 C2]. set (ra := r64 (a * a)) in *. set (rb := r64 (b * b)) in *. set (rc := r64 (c * c)) in *. assert (P59 : (bpow radix2 (-59) = 2 * bpow radix2 (-60))%R) by (change (-59) with (1 + -60); rewrite bpow_plus; reflexivity). assert (P58 : (bpow radix2 (-58) = 4 * bpow radix2 (-60))%R) by (change (-58) with (2 + -60); rewrite bpow_plus; reflexivity).
  assert (S1 : (Rabs (ra + rb) <= bpow radix2 (-59))%R) by (rewrite Rabs_pos_eq; lra). pose proof (add64_r _ _ _ _ (-59) ltac:(lia) A1 B1 S1) as X1. pose proof (r64_abs _ (-59) ltac:(lia) S1) as Y1. assert (Z1 : (0 <= r64 (ra + rb))%R) by (rewrite <- r64_0; apply r64_le; lra). apply Rabs_le_inv in Y1. set (r1 := r64 (ra + rb)) in *.
  assert (S2 : (Rabs (r1 + rc) <= bpow radix2 (-58))%R) by (rewrite Rabs_pos_eq; lra). pose proof (add64_r _ _ _ _ (-58) ltac:(lia) X1 C1 S2) as X2. pose proof (r64_abs _ (-58) ltac:(lia) S2) as Y2. assert (Z2 : (0 <= r64 (r1 + rc))%R) by (rewrite <- r64_0; apply r64_le; lra). apply Rabs_le_inv in Y2. set (r2 := r64 (r1 + rc)) in *.
  pose proof (sqrt_r _ _ X2 Z2) as X3. assert (Q : (R_sqrt.sqrt r2 <= bpow radix2 (-29))%R). { assert (E : (bpow radix2 (-58) = bpow radix2 (-29) * bpow radix2 (-29))%R) by (rewrite <- bpow_plus; reflexivity). rewrite <- (sqrt_square (bpow radix2 (-29))) by apply bpow_ge_0. apply sqrt_le_1_alt. lra. }
  pose proof (sqrt_pos r2) as Sp. assert (AB : (Rabs (R_sqrt.sqrt r2) <= bpow radix2 (-29))%R) by (rewrite Rabs_pos_eq; assumption). pose proof (r64_abs _ (-29) ltac:(lia) AB) as Y3. apply (near_equal _ _ _ _ X3 zero_r). rewrite Rminus_0_r. eapply Rle_trans; [exact Y3|]. pose proof tol_20 as T. assert (bpow radix2 (-72) <= bpow radix2 (-29))%R by (apply bpow_le; lia). assert (2 * bpow radix2 (-29) <= bpow radix2 (-21))%R; [|lra]. change (2 * bpow radix2 (-29))%R with (bpow radix2 1 * bpow radix2 (-29))%R. rewrite <- bpow_plus. apply bpow_le. lia.
Qed.
(** ... and of one with a component of at least 2^-11 *)
Lemma len_large v a b c : is64 (vx v) a -> is64 (vy v) b -> is64 (vz v) c -> (Rabs a <= 1000000)%R -> (Rabs b <= 1000000)%R -> (Rabs c <= 1000000)%R -> (bpow radix2 (-11) <= Rabs a \/ bpow radix2 (-11) <= Rabs b \/ bpow radix2 (-11) <= Rabs c)%R -> isEqual (abs3 v) f0 = false.
Proof.
  intros A B C La Lb Lc H. assert (M : (1000000 <= bpow radix2 20)%R) by (change (bpow radix2 20) with 1048576%R; lra). assert (G22 : generic_format radix2 fx (bpow radix2 (-22))) by (pose proof (fmt_grid 1 (-22) ltac:(lia) ltac:(lia)) as G; now rewrite Rmult_1_l in G). assert (G11 : generic_format radix2 fx (bpow radix2 (-11))) by (pose proof (fmt_grid 1 (-11) ltac:(lia) ltac:(lia)) as G; now rewrite Rmult_1_l in G).
  assert (SQ : forall x r, is64 x r -> (Rabs r <= 1000000)%R -> is64 (mul64 x x) (r64 (r * r)) /\ (0 <= r64 (r * r) <= bpow radix2 40)%R /\ (bpow radix2 (-11) <= Rabs r -> bpow radix2 (-22) <= r64 (r * r))%R).
  { intros x r X L. pose proof (Rabs_pos r). assert (S : (Rabs (r * r) <= bpow radix2 40)%R) by (rewrite Rabs_mult; change 40 with (20 + 20); rewrite bpow_plus; apply Rmult_le_compat; lra). split; [apply (mul64_r _ _ _ _ 40 ltac:(lia) X X S)|]. split; [split; [rewrite <- r64_0; apply r64_le; nra|]; pose proof (r64_abs _ 40 ltac:(lia) S) as Q; apply Rabs_le_inv in Q; lra|]. intros K. apply rnd_ge_r; [exact G22|]. rewrite <- (Rabs_pos_eq (r * r)) by nra. rewrite Rabs_mult. change (-22) with (-11 + -11). rewrite bpow_plus. pose proof (bpow_ge_0 radix2 (-11)). apply Rmult_le_compat; lra. }
  destruct (SQ _ _ A La) as (A1 & A2 & A3). destruct (SQ _ _ B Lb) as (B1 & B2 & B3). destruct (SQ _ _ C Lc) as (C1 & C2 & C3). set (ra := r64 (a * a)) in *. set (rb := r64 (b * b)) in *. set (rc := r64 (c * c)) in *. assert (P1 : (bpow radix2 41 = 2 * bpow radix2 40)%R) by (change 41 with (1 + 40); rewrite bpow_plus; reflexivity). assert (P2 : (bpow radix2 42 = 4 * bpow radix2 40)%R) by (change 42 with (2 + 40); rewrite bpow_plus; reflexivity).
  assert (S1 : (Rabs (ra + rb) <= bpow radix2 41)%R) by (rewrite Rabs_pos_eq; lra). pose proof (add64_r _ _ _ _ 41 ltac:(lia) A1 B1 S1) as X1. pose proof (r64_abs _ 41 ltac:(lia) S1) as Y1. assert (Z1 : (0 <= r64 (ra + rb))%R) by (rewrite <- r64_0; apply r64_le; lra). apply Rabs_le_inv in Y1. assert (W1 : (bpow radix2 (-11) <= Rabs a \/ bpow radix2 (-11) <= Rabs b -> bpow radix2 (-22) <= r64 (ra + rb))%R) by (intros [K|K]; apply rnd_ge_r; try exact G22; [specialize (A3 K)|specialize (B3 K)]; lra). set (r1 := r64 (ra + rb)) in *.
  assert (S2 : (Rabs (r1 + rc) <= bpow radix2 42)%R) by (rewrite Rabs_pos_eq; lra). pose proof (add64_r _ _ _ _ 42 ltac:(lia) X1 C1 S2) as X2. assert (W2 : (bpow radix2 (-22) <= r64 (r1 + rc))%R). { apply rnd_ge_r; [exact G22|]. destruct H as [K|[K|K]]; [specialize (W1 (or_introl K)); lra|specialize (W1 (or_intror K)); lra|specialize (C3 K); lra]. } set (r2 := r64 (r1 + rc)) in *. pose proof (bpow_gt_0 radix2 (-22)) as P22.
  pose proof (sqrt_r _ _ X2 ltac:(lra)) as X3. assert (Q : (bpow radix2 (-11) <= R_sqrt.sqrt r2)%R). { rewrite <- (sqrt_square (bpow radix2 (-11))) by apply bpow_ge_0. apply sqrt_le_1_alt. rewrite <- bpow_plus. exact W2. }
  pose proof (rnd_ge_r _ _ G11 Q) as W3. destruct (isEqual (abs3 v) f0) eqn:E; [exfalso|reflexivity]. apply (equal_near _ _ _ _ X3 zero_r) in E. rewrite Rminus_0_r in E. pose proof tol_20 as T. assert (bpow radix2 (-19) <= bpow radix2 (-11))%R by (apply bpow_le; lia). pose proof (Rle_abs (r64 (R_sqrt.sqrt r2))). lra.
Qed.
(** |la * d| is at most twice the largest coordinate of the difference *)
Lemma foot_small dx dy dz r1 r2 r3 la M : 0 <= M -> - M <= r1 <= M -> - M <= r2 <= M -> - M <= r3 <= M -> dx * dx + dy * dy + dz * dz <> 0 -> (la * IZR (dx * dx + dy * dy + dz * dz) = IZR (dx * r1 + dy * r2 + dz * r3))%R -> (Rabs (la * IZR dx) <= 2 * IZR M)%R.
Proof.
  intros M0 H1 H2 H3 N E. set (D := dx * dx + dy * dy + dz * dz) in *. assert (D0 : 0 < D) by (unfold D in *; pose proof (Z.square_nonneg dx); pose proof (Z.square_nonneg dy); pose proof (Z.square_nonneg dz); lia). assert (DR : (0 < IZR D)%R) by (apply (IZR_lt 0); exact D0).
  apply Rmult_le_reg_r with (IZR D); [exact DR|]. rewrite <- (Rabs_pos_eq (IZR D)) at 1 by lra. rewrite <- Rabs_mult. replace (la * IZR dx * IZR D)%R with (la * IZR D * IZR dx)%R by ring. rewrite E. rewrite <- !mult_IZR, <- abs_IZR. apply IZR_le. apply Z.abs_le.
  assert (X : forall a r, - M <= r <= M -> - (M * (a * a + dx * dx)) <= 2 * (a * r * dx) <= M * (a * a + dx * dx)). { intros a r Hr. pose proof (Z.square_nonneg (a + dx)). pose proof (Z.square_nonneg (a - dx)). assert (- (a * a + dx * dx) <= 2 * (a * dx) <= a * a + dx * dx) by lia. replace (2 * (a * r * dx)) with (r * (2 * (a * dx))) by ring. assert (0 <= a * a + dx * dx) by (pose proof (Z.square_nonneg a); pose proof (Z.square_nonneg dx); lia). nia. }
  pose proof (X dx r1 H1). pose proof (X dy r2 H2). pose proof (X dz r3 H3). pose proof (Z.square_nonneg dy). pose proof (Z.square_nonneg dz). unfold D. nia.
Qed.
(** the difference between the foot of the perpendicular and the point: its computed coordinate *)
Lemma diff_r x p r e z t : is64 x r -> at_ 0 p z -> -256 <= p <= 256 -> (Rabs t <= 3000)%R -> e = (t - IZR p)%R -> (Rabs (r - t) <= bpow radix2 (-51) * 5000)%R -> exists q, is64 (sub64 x z) q /\ (Rabs (q - e) <= bpow radix2 (-30))%R /\ (Rabs q <= 1000000)%R.
Proof.
  intros X Z0 Bp Bt -> Er. apply at0 in Z0. assert (Sp : (Rabs (IZR p) <= 256)%R) by (rewrite <- abs_IZR; apply IZR_le; lia). assert (S51 : (bpow radix2 (-51) * 5000 <= / 100000000000)%R). { assert (bpow radix2 (-51) <= / 1000000000000000)%R; [|lra]. change (bpow radix2 (-51)) with (/ 2251799813685248)%R. lra. }
  pose proof (le_abs _ _ _ Er) as Br. assert (BD : (Rabs (r - IZR p) <= 4000)%R) by (unfold Rminus; eapply Rle_trans; [apply Rabs_triang|]; rewrite Rabs_Ropp; lra). pose proof (sub64_r _ _ _ _ 30 ltac:(lia) X Z0 (b30 (r - IZR p)%R ltac:(lra))) as Q. eexists. split; [exact Q|]. pose proof (rerr (r - IZR p)) as R1. pose proof u_small. pose proof tt_uu. pose proof uu_pos. assert (uu * Rabs (r - IZR p) <= / 1000000000000000 * 4000)%R by (apply Rmult_le_compat; [lra|apply Rabs_pos|lra|lra]).
  assert (R2 : (Rabs (r - IZR p - (t - IZR p)) <= / 100000000000)%R) by (replace (r - IZR p - (t - IZR p))%R with (r - t)%R by ring; lra). assert (S30 : (/ 1000000000 * 0.9 <= bpow radix2 (-30))%R) by (change (bpow radix2 (-30)) with (/ 1073741824)%R; lra). split; [eapply Rle_trans; [apply (tri _ _ _ _ _ R1 R2)|]; lra|]. pose proof (le_abs _ _ _ R1). lra.
Qed.
(** the foot is the point itself, or differs by at least 1/1024 in some coordinate *)
Lemma foot_cases dx dy dz r1 r2 r3 la : box3 512 dx dy dz -> dx * dx + dy * dy + dz * dz <> 0 -> (la * IZR (dx * dx + dy * dy + dz * dz) = IZR (dx * r1 + dy * r2 + dz * r3))%R ->
  let e1 := (la * IZR dx - IZR r1)%R in let e2 := (la * IZR dy - IZR r2)%R in let e3 := (la * IZR dz - IZR r3)%R in
  ((dy * r3 = dz * r2)%Z /\ (dz * r1 = dx * r3)%Z /\ (dx * r2 = dy * r1)%Z -> e1 = 0 /\ e2 = 0 /\ e3 = 0)%R /\
  (~ ((dy * r3 = dz * r2)%Z /\ (dz * r1 = dx * r3)%Z /\ (dx * r2 = dy * r1)%Z) -> / 1024 <= Rabs e1 \/ / 1024 <= Rabs e2 \/ / 1024 <= Rabs e3)%R.
Proof.
  intros (B1 & B2 & B3) N E e1 e2 e3. set (D := dx * dx + dy * dy + dz * dz) in *. assert (DR : IZR D <> 0%R) by (now apply not_0_IZR). split.
  - intros (C1 & C2 & C3). assert (Z0 : forall d r, d * (dx * r1 + dy * r2 + dz * r3) = r * D -> (la * IZR d - IZR r = 0)%R). { intros d r H. apply (f_equal IZR) in H. rewrite !mult_IZR in H. rewrite <- E in H. apply Rmult_eq_reg_r with (IZR D); [|exact DR]. lra. }
    unfold e1, e2, e3. split; [|split]; apply Z0; unfold D; nia.
  - intros NC. destruct (Rlt_le_dec (Rabs e1) (/ 1024)) as [L1|]; [|now left]. destruct (Rlt_le_dec (Rabs e2) (/ 1024)) as [L2|]; [|right; now left]. destruct (Rlt_le_dec (Rabs e3) (/ 1024)) as [L3|]; [|right; now right]. exfalso. apply NC.
    assert (S : forall d d' r r' ea eb, -512 <= d <= 512 -> -512 <= d' <= 512 -> ea = (la * IZR d - IZR r)%R -> eb = (la * IZR d' - IZR r')%R -> (Rabs ea < / 1024)%R -> (Rabs eb < / 1024)%R -> d * r' = d' * r).
    { intros d d' r r' ea eb Hd Hd' Ea Eb La Lb. assert (X : (IZR (d * r' - d' * r) = IZR d' * ea - IZR d * eb)%R) by (rewrite minus_IZR, !mult_IZR, Ea, Eb; ring). assert (Y : (Rabs (IZR (d * r' - d' * r)) < 1)%R). { rewrite X. unfold Rminus. eapply Rle_lt_trans; [apply Rabs_triang|]. rewrite Rabs_Ropp, !Rabs_mult. pose proof (small _ Hd). pose proof (small _ Hd'). pose proof (Rabs_pos ea). pose proof (Rabs_pos eb). pose proof (Rabs_pos (IZR d)). pose proof (Rabs_pos (IZR d')). assert (Rabs (IZR d') * Rabs ea <= 512 * Rabs ea)%R by (apply Rmult_le_compat_r; lra). assert (Rabs (IZR d) * Rabs eb <= 512 * Rabs eb)%R by (apply Rmult_le_compat_r; lra). lra. }
      rewrite <- abs_IZR in Y. apply (lt_IZR _ 1) in Y. lia. }
    split; [eapply S; [exact B2|exact B3|reflexivity|reflexivity|exact L2|exact L3]|]. split; [eapply S; [exact B3|exact B1|reflexivity|reflexivity|exact L3|exact L1]|eapply S; [exact B1|exact B2|reflexivity|reflexivity|exact L1|exact L2]].
Qed.
Lemma quarter : (/ 1024 - bpow radix2 (-30) >= bpow radix2 (-11))%R.
Proof. change (bpow radix2 (-30)) with (/ 1073741824)%R. change (bpow radix2 (-11)) with (/ 2048)%R. lra. Qed.
(** the decision, for the foot computed with any flag that does not reject it *)
Lemma on_line point position direction px_ py_ pz_ ox oy oz dx dy dz la x : at3 0 px_ py_ pz_ point -> at3 0 ox oy oz position -> at3 0 dx dy dz direction -> box3 256 px_ py_ pz_ -> box3 256 ox oy oz -> box3 512 dx dy dz -> dx * dx + dy * dy + dz * dz <> 0 ->
  (la * IZR (dx * dx + dy * dy + dz * dz) = IZR (dx * (px_ - ox) + dy * (py_ - oy) + dz * (pz_ - oz)))%R -> is64 x (r64 la) -> (Rabs la <= bpow radix2 53)%R ->
  (isEqual (abs3 (vsub3 (vadd3 position (vmul3 x direction)) point)) f0 = true <-> dy * (pz_ - oz) = dz * (py_ - oy) /\ dz * (px_ - ox) = dx * (pz_ - oz) /\ dx * (py_ - oy) = dy * (px_ - ox)).
Proof.
  intros HP HO HD BP BO BD N E X B. assert (BO' : box3 (2 ^ 24) ox oy oz) by (unfold box3 in *; lia). assert (BD' : box3 (2 ^ 24) dx dy dz) by (unfold box3 in *; lia).
  destruct (plane_point position direction ox oy oz dx dy dz HO HD BO' BD' x la X B) as (r1 & r2 & r3 & R1 & R2 & R3 & E1 & E2 & E3). destruct BP as (BP1 & BP2 & BP3), BO as (BO1 & BO2 & BO3), HP as (P1 & P2 & P3).
  assert (F1 : (Rabs (la * IZR dx) <= 1024)%R) by (eapply Rle_trans; [apply (foot_small dx dy dz (px_ - ox) (py_ - oy) (pz_ - oz) la 512); try lia; exact E|lra]).
  assert (F2 : (Rabs (la * IZR dy) <= 1024)%R). { eapply Rle_trans; [apply (foot_small dy dx dz (py_ - oy) (px_ - ox) (pz_ - oz) la 512); try lia|lra]. rewrite (Z.add_comm (dy * dy)), E. f_equal. ring. }
  assert (F3 : (Rabs (la * IZR dz) <= 1024)%R). { eapply Rle_trans; [apply (foot_small dz dx dy (pz_ - oz) (px_ - ox) (py_ - oy) la 512); try lia|lra]. replace (dz * dz + dx * dx + dy * dy) with (dx * dx + dy * dy + dz * dz) by ring. rewrite E. f_equal. ring. }
  assert (SO : forall o, -256 <= o <= 256 -> (Rabs (IZR o) <= 256)%R) by (intros o Ho; rewrite <- abs_IZR; apply IZR_le; lia). pose proof (bpow_gt_0 radix2 (-51)) as P51.
  assert (T : forall o d r t, -256 <= o <= 256 -> (Rabs (la * IZR d) <= 1024)%R -> t = (IZR o + la * IZR d)%R -> (Rabs (r - t) <= bpow radix2 (-51) * (1 + Rabs (IZR o) + Rabs (la * IZR d)))%R -> (Rabs t <= 3000)%R /\ (Rabs (r - t) <= bpow radix2 (-51) * 5000)%R). { intros o d r t Ho Hd -> He. pose proof (SO o Ho). split; [eapply Rle_trans; [apply Rabs_triang|]; lra|]. eapply Rle_trans; [exact He|]. apply Rmult_le_compat_l; lra. }
  destruct (T ox dx r1 _ BO1 F1 eq_refl E1) as [t1 q1]. destruct (T oy dy r2 _ BO2 F2 eq_refl E2) as [t2 q2]. destruct (T oz dz r3 _ BO3 F3 eq_refl E3) as [t3 q3].
  destruct (diff_r _ _ _ (la * IZR dx - IZR (px_ - ox))%R _ _ R1 P1 BP1 t1 ltac:(rewrite minus_IZR; ring) q1) as (d1 & D1 & G1 & H1). destruct (diff_r _ _ _ (la * IZR dy - IZR (py_ - oy))%R _ _ R2 P2 BP2 t2 ltac:(rewrite minus_IZR; ring) q2) as (d2 & D2 & G2 & H2). destruct (diff_r _ _ _ (la * IZR dz - IZR (pz_ - oz))%R _ _ R3 P3 BP3 t3 ltac:(rewrite minus_IZR; ring) q3) as (d3 & D3 & G3 & H3).
  destruct (foot_cases dx dy dz (px_ - ox) (py_ - oy) (pz_ - oz) la BD N E) as [C1 C2]. pose proof quarter as QQ. assert (LOW : forall d e, (Rabs (d - e) <= bpow radix2 (-30))%R -> (/ 1024 <= Rabs e)%R -> (bpow radix2 (-11) <= Rabs d)%R) by (intros d e Hd He; rewrite Rabs_minus_sym in Hd; apply le_abs in Hd; lra).
  set (cond := dy * (pz_ - oz) = dz * (py_ - oy) /\ dz * (px_ - ox) = dx * (pz_ - oz) /\ dx * (py_ - oy) = dy * (px_ - ox)) in *. split.
  - intros H. assert (DEC : cond \/ ~ cond) by (unfold cond; lia). destruct DEC as [|NC]; [assumption|exfalso]. specialize (C2 NC). rewrite (len_large _ d1 d2 d3) in H; [discriminate H|exact D1|exact D2|exact D3|exact H1|exact H2|exact H3|]. destruct C2 as [K|[K|K]]; [left; exact (LOW _ _ G1 K)|right; left; exact (LOW _ _ G2 K)|right; right; exact (LOW _ _ G3 K)].
  - intros Hc. destruct (C1 Hc) as (Z1 & Z2 & Z3). rewrite Z1 in G1. rewrite Z2 in G2. rewrite Z3 in G3. rewrite Rminus_0_r in G1, G2, G3. exact (len_small (vsub3 (vadd3 position (vmul3 x direction)) point) d1 d2 d3 D1 D2 D3 G1 G2 G3).
Qed.
Lemma nan_len p : isEqual (abs3 (vsub3 nan3 p)) f0 = false.
Proof. destruct p as [[s|s| |s m e] y z]; reflexivity. Qed.
(** integer coordinates: a point is on a line if and only if the vector to it is parallel to the direction; a null direction has no points *)
Theorem C112_on_line point position direction px_ py_ pz_ ox oy oz dx dy dz : at3 0 px_ py_ pz_ point -> at3 0 ox oy oz position -> at3 0 dx dy dz direction -> box3 256 px_ py_ pz_ -> box3 256 ox oy oz -> box3 512 dx dy dz ->
  (isPointOnLine point position direction = true <-> ~ (dx = 0 /\ dy = 0 /\ dz = 0) /\ exists t, (inject_Z px_ == inject_Z ox + t * inject_Z dx)%Q /\ (inject_Z py_ == inject_Z oy + t * inject_Z dy)%Q /\ (inject_Z pz_ == inject_Z oz + t * inject_Z dz)%Q).
Proof.
  intros HP HO HD BP BO BD. unfold isPointOnLine, distanceToLine, closestOnLine. assert (BP' : box3 (2 ^ 24) px_ py_ pz_) by (unfold box3 in *; lia). assert (BO' : box3 (2 ^ 24) ox oy oz) by (unfold box3 in *; lia). assert (BD' : box3 (2 ^ 24) dx dy dz) by (unfold box3 in *; lia).
  destruct (Z.eq_dec (dx * dx + dy * dy + dz * dz) 0) as [Z0|N].
  { rewrite (plane_none point direction position direction dx dy dz dx dy dz HD HD BD' BD' true Z0). rewrite nan_len. split; [discriminate|]. intros [K _]. apply sq3 in Z0. contradiction. }
  assert (DR : IZR (dx * dx + dy * dy + dz * dz) <> 0%R) by (now apply not_0_IZR). set (la := (IZR (dx * (px_ - ox) + dy * (py_ - oy) + dz * (pz_ - oz)) / IZR (dx * dx + dy * dy + dz * dz))%R). assert (E : (la * IZR (dx * dx + dy * dy + dz * dz) = IZR (dx * (px_ - ox) + dy * (py_ - oy) + dz * (pz_ - oz)))%R) by (unfold la; field; exact DR).
  destruct (plane_some point direction position direction px_ py_ pz_ dx dy dz ox oy oz dx dy dz HP HD HO HD BP' BD' BO' BD' true la N E) as (x & X & B & ->). cbn [negb andb]. rewrite (on_line point position direction px_ py_ pz_ ox oy oz dx dy dz la x HP HO HD BP BO BD N E X B).
  split.
  - intros C. split; [rewrite <- sq3; exact N|]. set (D := dx * dx + dy * dy + dz * dz) in *. set (M := dx * (px_ - ox) + dy * (py_ - oy) + dz * (pz_ - oz)) in *. exists (inject_Z M / inject_Z D)%Q. assert (Dq : ~ (inject_Z D == 0)%Q) by (intros H; apply N; unfold inject_Z, Qeq in H; cbn [Qnum Qden] in H; lia).
    assert (Z0 : forall p o d, d * M = (p - o) * D -> (inject_Z p == inject_Z o + inject_Z M / inject_Z D * inject_Z d)%Q). { intros p o d H. apply eqR_Qeq. rewrite Q2R_plus, Q2R_mult, Q2R_div by exact Dq. rewrite !Q2R_Z. apply (f_equal IZR) in H. rewrite !mult_IZR, minus_IZR in H. apply Rmult_eq_reg_r with (IZR D); [|exact DR]. replace ((IZR o + IZR M / IZR D * IZR d) * IZR D)%R with (IZR o * IZR D + IZR d * IZR M)%R by (field; exact DR). lra. }
    clear - C Z0. set (a := px_ - ox) in *. set (b := py_ - oy) in *. set (c := pz_ - oz) in *. destruct C as (C1 & C2 & C3).
    assert (P12 : dy * (dx * b) = dy * (dy * a)) by (rewrite C3; reflexivity). assert (P13 : dz * (dx * c) = dz * (dz * a)) by (rewrite <- C2; reflexivity). assert (P21 : dx * (dy * a) = dx * (dx * b)) by (rewrite C3; reflexivity). assert (P23 : dz * (dy * c) = dz * (dz * b)) by (rewrite C1; reflexivity). assert (P31 : dx * (dz * a) = dx * (dx * c)) by (rewrite C2; reflexivity). assert (P32 : dy * (dz * b) = dy * (dy * c)) by (rewrite C1; reflexivity).
    split; [|split]; apply Z0; unfold M, D; [fold a|fold b|fold c]; lia.
  - intros (_ & t & T1 & T2 & T3). apply Q2R_eq in T1, T2, T3. q2r. assert (G : forall a b c d p q o r, (IZR p = IZR o + Q2R t * IZR a)%R -> (IZR q = IZR r + Q2R t * IZR b)%R -> c = p - o -> d = q - r -> a * d = b * c). { intros a b c d p q o r H1 H2 -> ->. apply eq_IZR. rewrite !mult_IZR, !minus_IZR. replace (IZR p - IZR o)%R with (Q2R t * IZR a)%R by lra. replace (IZR q - IZR r)%R with (Q2R t * IZR b)%R by lra. ring. }
    split; [eapply G; [exact T2|exact T3|reflexivity|reflexivity]|]. split; [eapply G; [exact T3|exact T1|reflexivity|reflexivity]|eapply G; [exact T1|exact T2|reflexivity|reflexivity]].
Qed.
(** ... and on a segment if and only if it is start + t * (end - start) with t between 0 and 1; with the flag extend any t *)
Theorem C112_on_segment point start end_ px_ py_ pz_ ox oy oz ex ey ez extend : at3 0 px_ py_ pz_ point -> at3 0 ox oy oz start -> at3 0 ex ey ez end_ -> box3 256 px_ py_ pz_ -> box3 256 ox oy oz -> box3 256 ex ey ez ->
  (isPointOnSegment point start end_ extend = true <-> ~ (ex = ox /\ ey = oy /\ ez = oz) /\ exists t, (extend = true \/ (0 <= t <= 1)%Q) /\ (inject_Z px_ == inject_Z ox + t * inject_Z (ex - ox))%Q /\ (inject_Z py_ == inject_Z oy + t * inject_Z (ey - oy))%Q /\ (inject_Z pz_ == inject_Z oz + t * inject_Z (ez - oz))%Q).
Proof.
  intros HP HO HE BP BO BE. unfold isPointOnSegment, distanceToSegment, closestOnSegment. cbv zeta. assert (HD : at3 0 (ex - ox) (ey - oy) (ez - oz) (vsub3 end_ start)). { destruct HO as (O1 & O2 & O3), HE as (E1 & E2 & E3), BO as (A1 & A2 & A3), BE as (C1 & C2 & C3). split; [|split]; apply sub_at; try assumption; lia. }
  set (dx := ex - ox) in *. set (dy := ey - oy) in *. set (dz := ez - oz) in *. assert (BD : box3 512 dx dy dz) by (unfold box3 in *; lia). assert (BP' : box3 (2 ^ 24) px_ py_ pz_) by (unfold box3 in *; lia). assert (BO' : box3 (2 ^ 24) ox oy oz) by (unfold box3 in *; lia). assert (BD' : box3 (2 ^ 24) dx dy dz) by (unfold box3 in *; lia). set (dir := vsub3 end_ start) in *. clearbody dir.
  destruct (Z.eq_dec (dx * dx + dy * dy + dz * dz) 0) as [Z0|N].
  { rewrite (plane_none point dir start dir dx dy dz dx dy dz HD HD BD' BD' extend Z0). rewrite nan_len. split; [discriminate|]. intros [K _]. exfalso. apply sq3 in Z0. apply K. unfold dx, dy, dz in Z0. lia. }
  assert (DR : IZR (dx * dx + dy * dy + dz * dz) <> 0%R) by (now apply not_0_IZR). set (la := (IZR (dx * (px_ - ox) + dy * (py_ - oy) + dz * (pz_ - oz)) / IZR (dx * dx + dy * dy + dz * dz))%R). assert (E : (la * IZR (dx * dx + dy * dy + dz * dz) = IZR (dx * (px_ - ox) + dy * (py_ - oy) + dz * (pz_ - oz)))%R) by (unfold la; field; exact DR).
  assert (DS : 0 < Z.abs (dx * dx + dy * dy + dz * dz) <= 900000). { destruct BD as (D1 & D2 & D3). pose proof (prod_bnd _ _ _ _ D1 D1). pose proof (prod_bnd _ _ _ _ D2 D2). pose proof (prod_bnd _ _ _ _ D3 D3). pose proof (Z.square_nonneg dx). pose proof (Z.square_nonneg dy). pose proof (Z.square_nonneg dz). lia. }
  (* the parameter is unique *)
  assert (UNI : forall t, (inject_Z px_ == inject_Z ox + t * inject_Z dx)%Q -> (inject_Z py_ == inject_Z oy + t * inject_Z dy)%Q -> (inject_Z pz_ == inject_Z oz + t * inject_Z dz)%Q -> Q2R t = la).
  { intros t T1 T2 T3. apply Q2R_eq in T1, T2, T3. q2r. apply Rmult_eq_reg_r with (IZR (dx * dx + dy * dy + dz * dz)); [|exact DR]. rewrite E. rewrite !plus_IZR, !mult_IZR, !minus_IZR. replace (IZR px_ - IZR ox)%R with (Q2R t * IZR dx)%R by lra. replace (IZR py_ - IZR oy)%R with (Q2R t * IZR dy)%R by lra. replace (IZR pz_ - IZR oz)%R with (Q2R t * IZR dz)%R by lra. ring. }
  assert (ON := C112_on_line point start dir px_ py_ pz_ ox oy oz dx dy dz HP HO HD BP BO BD).
  assert (ON2 : isPointOnLine point start dir = true <-> dy * (pz_ - oz) = dz * (py_ - oy) /\ dz * (px_ - ox) = dx * (pz_ - oz) /\ dx * (py_ - oy) = dy * (px_ - ox)).
  { unfold isPointOnLine, distanceToLine, closestOnLine. destruct (plane_some point dir start dir px_ py_ pz_ dx dy dz ox oy oz dx dy dz HP HD HO HD BP' BD' BO' BD' true la N E) as (x & X & B & ->). cbn [negb andb]. exact (on_line point start dir px_ py_ pz_ ox oy oz dx dy dz la x HP HO HD BP BO BD N E X B). }
  destruct (plane_some point dir start dir px_ py_ pz_ dx dy dz ox oy oz dx dy dz HP HD HO HD BP' BD' BO' BD' extend la N E) as (x & X & B & ->). rewrite (range_dec px_ py_ pz_ dx dy dz ox oy oz dx dy dz x la X B E DS). assert (O : Q2R 1 = 1%R /\ Q2R 0 = 0%R) by (unfold Q2R; cbn; lra). destruct O as [O1 O0].
  destruct (negb extend && negb (Rle_bool 0 la && Rle_bool la 1)) eqn:EX.
  - rewrite nan_len. split; [discriminate|]. intros (_ & t & [T|[Ta Tb]] & T1 & T2 & T3).
    + subst extend. discriminate EX.
    + pose proof (UNI t T1 T2 T3) as U. apply Qle_Rle in Ta, Tb. rewrite O0, O1, U in *. apply andb_prop in EX as [_ EX]. rewrite !Rle_bool_true in EX by assumption. discriminate EX.
  - rewrite (on_line point start dir px_ py_ pz_ ox oy oz dx dy dz la x HP HO HD BP BO BD N E X B). rewrite <- ON2, ON. split.
    + intros (K & t & T1 & T2 & T3). split; [unfold dx, dy, dz in K; lia|]. exists t. split; [|auto]. destruct extend; [now left|right]. pose proof (UNI t T1 T2 T3) as U. cbn [negb andb] in EX. apply negb_false_iff in EX. apply andb_prop in EX as [Ea Eb]. apply Rleb_inv in Ea, Eb. split; apply Rle_Qle; rewrite ?O0, ?O1, U; assumption.
    + intros (K & t & _ & T1 & T2 & T3). split; [unfold dx, dy, dz; lia|]. exists t. auto.
Qed.
(** the same point: equal coordinates *)
Theorem C112_same p q a b c d e f : at3 0 a b c p -> at3 0 d e f q -> box3 (2 ^ 24) a b c -> box3 (2 ^ 24) d e f -> (isSamePoint p q = true <-> a = d /\ b = e /\ c = f).
Proof.
  intros P Q B C. unfold isSamePoint, distancePoints3. assert (D : at3 0 (d - a) (e - b) (f - c) (vsub3 q p) /\ box3 (2 ^ 25) (d - a) (e - b) (f - c)). { destruct P as (P1 & P2 & P3), Q as (Q1 & Q2 & Q3), B as (B1 & B2 & B3), C as (C1 & C2 & C3). split; [|unfold box3; lia]. split; [|split]; apply sub_at; try assumption; lia. }
  destruct D as [D1 D2]. pose proof (abs3_r 0 _ _ _ _ _ D1 D2 ltac:(lia) ltac:(lia)) as L. destruct D2 as (E1 & E2 & E3). pose proof (prod_bnd _ _ _ _ E1 E1). pose proof (prod_bnd _ _ _ _ E2 E2). pose proof (prod_bnd _ _ _ _ E3 E3). rewrite (root_zero _ _ _ L); [|split; [pose proof (Z.square_nonneg (d - a)); pose proof (Z.square_nonneg (e - b)); pose proof (Z.square_nonneg (f - c)); lia|lia]|lia]. rewrite Z.eqb_eq, sq3. lia.
Qed.
(** isPointOnPlane() compares with less, and the default of the tolerance is 0: it is false for every point, also for those of the plane *)
Definition doubles (v : vertex3) : Prop := double (vx v) /\ double (vy v) /\ double (vz v).
Theorem C112_on_plane_refuted point position normal : doubles point -> doubles position -> doubles normal -> isPointOnPlane point position normal (int64f 0) = false.
Proof.
  intros (P1 & P2 & P3) (O1 & O2 & O3) (N1 & N2 & N3). unfold isPointOnPlane, distanceToPlane. change (int64f 0) with f0. unfold abs3. apply root_not_less. assert (C : doubles (closestOnPlane point position normal)).
  { unfold closestOnPlane, lineAndPlane. destruct (isNull normal); [repeat split; reflexivity|]. destruct (isOrthogonal3 normal normal); [repeat split; reflexivity|]. cbn [negb andb]. unfold doubles. cbn [vadd3 vmul3 vx vy vz]. set (la := div64 _ _). assert (L : double la) by (apply div_d; repeat first [apply add_d|apply mul_d|apply sub_d|assumption]). split; [|split]; repeat first [apply add_d|apply mul_d|assumption]. }
  destruct C as (C1 & C2 & C3). cbn [vsub3 vx vy vz]. repeat first [apply add_d|apply mul_d|apply sub_d|assumption].
Qed.
(** * the hypotheses are met *)
Example C112_ex : at3 0 0 0 2 (I3 0 0 2) /\ at3 0 0 0 1 (I3 0 0 1) /\ at3 0 1 1 0 (I3 1 1 0) /\ at3 0 1 0 1 (I3 1 0 1) /\ box3 (2 ^ 24) 1 0 1 /\ 1 * 0 + 0 * 0 + 1 * 1 <> 0 /\
  (((inject_Z 1 + 2 * inject_Z 1) - inject_Z 0) * inject_Z 0 + ((inject_Z 1 + 2 * inject_Z 0) - inject_Z 0) * inject_Z 0 + ((inject_Z 0 + 2 * inject_Z 1) - inject_Z 2) * inject_Z 1 == 0)%Q /\ lineAndPlane (I3 0 0 2) (I3 0 0 1) (I3 1 1 0) (I3 1 0 1) true = I3 3 1 2.
Proof. concrete. Qed.
Example C112_ex_line : at3 0 3 3 3 (I3 3 3 3) /\ box3 256 3 3 3 /\ isPointOnLine (I3 3 3 3) (I3 1 1 1) (I3 1 1 1) = true /\ isPointOnLine (I3 3 3 4) (I3 1 1 1) (I3 1 1 1) = false /\ isPointOnSegment (I3 3 3 3) (I3 1 1 1) (I3 2 2 2) false = false /\ isPointOnSegment (I3 3 3 3) (I3 1 1 1) (I3 2 2 2) true = true /\ isSamePoint (I3 3 3 3) (I3 3 3 3) = true.
Proof. concrete. Qed.
(** the point (1, 2, 0) of the plane z = 0 *)
Example C112_ex_plane : doubles (I3 1 2 0) /\ doubles (I3 0 0 0) /\ doubles (I3 0 0 1) /\ isPointOnPlane (I3 1 2 0) (I3 0 0 0) (I3 0 0 1) (int64f 0) = false.
Proof. unfold doubles, double. concrete. Qed.
Print Assumptions C112_plane.
Print Assumptions C112_closest.
Print Assumptions C112_on_line.
Print Assumptions C112_on_segment.
Print Assumptions C112_same.
Print Assumptions C112_on_plane_refuted.
