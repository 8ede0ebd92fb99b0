(** P_Matrix2.v -- transformations of points. *)
From Coq Require Import Reals QArith.
From Flocq Require Import Core.
From Verif Require Import Base M_Float M_MathF M_Rect M_Matrix S_Double S_Matrix L_Double L_Matrix L_Matrix2 L_Matrix3 L_Grid L_Matrix4 L_Matrix5 L_Matrix6.
Local Open Scope Z_scope.

Ltac pt H := let z := fresh "z" in let V := fresh "V" in let E := fresh "E" in apply coord_var in H as (z & V & E).
Ltac pts H := let X := fresh "X" in let Y := fresh "Y" in let Z0 := fresh "Z0" in destruct H as (X & Y & Z0); pt X; pt Y; pt Z0.
Ltac fin := repeat match goal with E : (?q == inject_Z _ * _)%Q |- _ => rewrite E; clear E end; change (- (10)) with (-10); change (- (5)) with (-5); ring.
(** moving: every coordinate grows by the one of the distance, with one rounding; all finite doubles *)
Theorem C106_moving A d v dx dy dz x y z : zlen (md A) = mm A * mn A -> point d dx dy dz -> point v x y z ->
  exists M w, initMoving A d = Val M /\ trans M v = Val w /\ same_number (vx w) (add64 (vx v) (vx d)) /\ same_number (vy w) (add64 (vy v) (vy d)) /\ same_number (vz w) (add64 (vz v) (vz d)).
Proof.
  intros V (D1 & D2 & D3) (X1 & X2 & X3). destruct (moving_ok A d V) as (M & e & E & S & (E00 & E01 & E02 & E03) & (E10 & E11 & E12 & E13) & (E20 & E21 & E22 & E23) & _). pose proof (trans_ok M v e S) as T. cbv zeta beta in T. rewrite E00, E01, E02, E03, E10, E11, E12, E13, E20, E21, E22, E23 in T. exists M. eexists. split; [exact E|]. split; [exact T|]. cbn [vx vy vz].
  split; [|split]; [exact (proj1 (move_row _ _ _ _ _ _ _ _ X1 X2 X3 D1))|exact (proj1 (proj2 (move_row _ _ _ _ _ _ _ _ X2 X1 X3 D2)))|exact (proj2 (proj2 (move_row _ _ _ _ _ _ _ _ X3 X1 X2 D3)))].
Qed.
(** scaling: every coordinate is multiplied by its factor, with one rounding; all finite doubles *)
Theorem C106_scaling A f v fx fy fz x y z : zlen (md A) = mm A * mn A -> point f fx fy fz -> point v x y z ->
  exists M w, initScaling A f = Val M /\ trans M v = Val w /\ same_number (vx w) (mul64 (vx v) (vx f)) /\ same_number (vy w) (mul64 (vy v) (vy f)) /\ same_number (vz w) (mul64 (vz v) (vz f)).
Proof.
  intros V (D1 & D2 & D3) (X1 & X2 & X3). destruct (scaling_ok A f V) as (M & e & E & S & (E00 & E01 & E02 & E03) & (E10 & E11 & E12 & E13) & (E20 & E21 & E22 & E23) & _). pose proof (trans_ok M v e S) as T. cbv zeta beta in T. rewrite E00, E01, E02, E03, E10, E11, E12, E13, E20, E21, E22, E23 in T. exists M. eexists. split; [exact E|]. split; [exact T|]. cbn [vx vy vz].
  split; [|split]; [exact (proj1 (scale_row _ _ _ _ _ _ _ _ X1 X2 X3 D1))|exact (proj1 (proj2 (scale_row _ _ _ _ _ _ _ _ X2 X1 X3 D2)))|exact (proj2 (proj2 (scale_row _ _ _ _ _ _ _ _ X3 X1 X2 D3)))].
Qed.
(** scaling about the base point p *)
Theorem C106_scalingAt A p f v px py pz qf x y z : zlen (md A) = mm A * mn A -> coords 10 20 p px py pz -> coord 5 10 f qf -> coords 10 20 v x y z ->
  exists M w, initScalingAt A p f = Val M /\ trans M v = Val w /\ point w (px + qf * (x - px)) (py + qf * (y - py)) (pz + qf * (z - pz)).
Proof.
  intros V P F X. destruct (scalingAt_ok A p f V) as (M & e & E & S & (E00 & E01 & E02 & E03) & (E10 & E11 & E12 & E13) & (E20 & E21 & E22 & E23) & _). pose proof (trans_ok M v e S) as T. cbv zeta beta in T. rewrite E00, E01, E02, E03, E10, E11, E12, E13, E20, E21, E22, E23 in T. exists M. eexists. split; [exact E|]. split; [exact T|]. clear - P F X.
  pts P. pts X. pt F. unfold point. cbn [vx vy vz].
  split; [|split]; by_grid [(vx p, z0); (vy p, z1); (vz p, z2); (vx v, z3); (vy v, z4); (vz v, z5); (f, z6); (int64f 1, 1); (S754_zero false, 0)] [(-10, 2 ^ 20); (-10, 2 ^ 20); (-10, 2 ^ 20); (-10, 2 ^ 20); (-10, 2 ^ 20); (-10, 2 ^ 20); (-5, 2 ^ 10); (0, 1); (0, 0)]; fin.
Qed.
(** mirroring at the plane through p with the normal (a, b, c) *)
Theorem C106_mirroring A p n v px py pz a b c x y z : zlen (md A) = mm A * mn A -> coords 10 20 p px py pz -> coords 5 5 n a b c -> coords 10 20 v x y z -> let t := ((x - px) * a + (y - py) * b + (z - pz) * c)%Q in
  exists M w, initMirroring A p n = Val M /\ trans M v = Val w /\ point w (x - 2 * t * a) (y - 2 * t * b) (z - 2 * t * c).
Proof.
  intros V P F X t. subst t. destruct (mirroring_ok A p n V) as (M & e & E & S & (E00 & E01 & E02 & E03) & (E10 & E11 & E12 & E13) & (E20 & E21 & E22 & E23) & _). pose proof (trans_ok M v e S) as T. cbv zeta beta in T. rewrite E00, E01, E02, E03, E10, E11, E12, E13, E20, E21, E22, E23 in T. exists M. eexists. split; [exact E|]. split; [exact T|]. clear - P F X.
  pts P. pts X. pts F. unfold point. cbn [vx vy vz].
  split; [|split]; by_grid [(vx p, z0); (vy p, z1); (vz p, z2); (vx v, z3); (vy v, z4); (vz v, z5); (vx n, z6); (vy n, z7); (vz n, z8); (int64f 1, 1); (int64f 2, 2); (S754_zero false, 0)] [(-10, 2 ^ 20); (-10, 2 ^ 20); (-10, 2 ^ 20); (-10, 2 ^ 20); (-10, 2 ^ 20); (-10, 2 ^ 20); (-5, 2 ^ 5); (-5, 2 ^ 5); (-5, 2 ^ 5); (0, 1); (0, 2); (0, 0)]; fin.
Qed.
(** rotation about the z axis, for the given cosine and sine *)
Theorem C106_rotationZ A c s v qc qs x y z : zlen (md A) = mm A * mn A -> coord 20 20 c qc -> coord 20 20 s qs -> coords 10 20 v x y z ->
  exists M w, initRotationZ A c s = Val M /\ trans M v = Val w /\ point w (qc * x - qs * y) (qs * x + qc * y) z.
Proof.
  intros V C F X. destruct (rotationZ_ok A c s V) as (M & e & E & S & (E00 & E01 & E02 & E03) & (E10 & E11 & E12 & E13) & (E20 & E21 & E22 & E23) & _). pose proof (trans_ok M v e S) as T. cbv zeta beta in T. rewrite E00, E01, E02, E03, E10, E11, E12, E13, E20, E21, E22, E23 in T. exists M. eexists. split; [exact E|]. split; [exact T|]. clear - C F X.
  pts X. pt C. pt F. unfold point. cbn [vx vy vz].
  split; [|split]; by_grid [(vx v, z0); (vy v, z1); (vz v, z2); (c, z3); (s, z4); (int64f 1, 1); (S754_zero false, 0)] [(-10, 2 ^ 20); (-10, 2 ^ 20); (-10, 2 ^ 20); (-20, 2 ^ 20); (-20, 2 ^ 20); (0, 1); (0, 0)]; repeat match goal with E : (?q == inject_Z _ * _)%Q |- _ => rewrite E; clear E end; change (- (10)) with (-10); change (- (20)) with (-20); ring.
Qed.
(** rotation about the axis (a, b, c) through p, for the given cosine and sine: the formula of Rodrigues *)
Theorem C106_rotation A p ax c s v px py pz a b g qc qs x y z : zlen (md A) = mm A * mn A -> coords 8 12 p px py pz -> coords 5 5 ax a b g -> coord 5 5 c qc -> coord 5 5 s qs -> coords 8 12 v x y z ->
  let ux := (x - px)%Q in let uy := (y - py)%Q in let uz := (z - pz)%Q in let t := ((1 - qc) * (a * ux + b * uy + g * uz))%Q in
  exists M w, initRotation A p ax c s = Val M /\ trans M v = Val w /\ point w (px + qc * ux + qs * (b * uz - g * uy) + t * a) (py + qc * uy + qs * (g * ux - a * uz) + t * b) (pz + qc * uz + qs * (a * uy - b * ux) + t * g).
Proof.
  intros V P F C Sn X ux uy uz t. subst ux uy uz t. destruct (rotation_ok A p ax c s V) as (M & e & E & S & (E00 & E01 & E02 & E03) & (E10 & E11 & E12 & E13) & (E20 & E21 & E22 & E23) & _). pose proof (trans_ok M v e S) as T. cbv zeta beta in T. rewrite E00, E01, E02, E03, E10, E11, E12, E13, E20, E21, E22, E23 in T. exists M. eexists. split; [exact E|]. split; [exact T|]. clear - P F X C Sn.
  pts P. pts X. pts F. pt C. pt Sn. unfold point. cbn [vx vy vz].
  split; [|split]; by_grid [(vx p, z0); (vy p, z1); (vz p, z2); (vx v, z3); (vy v, z4); (vz v, z5); (vx ax, z6); (vy ax, z7); (vz ax, z8); (c, z9); (s, z10); (int64f 1, 1); (S754_zero false, 0)] [(-8, 2 ^ 12); (-8, 2 ^ 12); (-8, 2 ^ 12); (-8, 2 ^ 12); (-8, 2 ^ 12); (-8, 2 ^ 12); (-5, 2 ^ 5); (-5, 2 ^ 5); (-5, 2 ^ 5); (-5, 2 ^ 5); (-5, 2 ^ 5); (0, 1); (0, 0)]; repeat match goal with E : (?q == inject_Z _ * _)%Q |- _ => rewrite E; clear E end; change (- (8)) with (-8); change (- (5)) with (-5); ring.
Qed.
Theorem C106_identity A v x y z : zlen (md A) = mm A * mn A -> point v x y z -> exists M w, initIdentity A = Val M /\ trans M v = Val w /\ same_number (vx w) (vx v) /\ same_number (vy w) (vy v) /\ same_number (vz w) (vz v).
Proof.
  intros V (X1 & X2 & X3). destruct (identity_ok A V) as (M & E & S). pose proof (trans_ok M v _ S) as T. cbv zeta beta in T. change (0 =? 0) with true in T. change (0 =? 1) with false in T. change (0 =? 2) with false in T. change (0 =? 3) with false in T. change (1 =? 0) with false in T. change (1 =? 1) with true in T. change (1 =? 2) with false in T. change (1 =? 3) with false in T. change (2 =? 0) with false in T. change (2 =? 1) with false in T. change (2 =? 2) with true in T. change (2 =? 3) with false in T. cbv iota in T.
  exists M. eexists. split; [exact E|]. split; [exact T|]. cbn [vx vy vz]. assert (D : dbl (int64f 1) 1) by (split; [reflexivity|vm_compute; reflexivity]).
  assert (Tr : forall a b q, dbl b q -> same_number a (mul64 b (int64f 1)) -> same_number a b). { intros a b q Hb Hab. pose proof (mul_one b (Q2R q) (dbl_64 _ _ Hb)) as [H1 _]. pose proof (same_r _ _ _ H1 (dbl_64 _ _ Hb)) as H2. intros u. rewrite (Hab u). apply H2. }
  split; [|split]; [apply (Tr _ _ x X1); exact (proj1 (scale_row _ _ _ _ _ _ _ _ X1 X2 X3 D))|apply (Tr _ _ y X2); exact (proj1 (proj2 (scale_row _ _ _ _ _ _ _ _ X2 X1 X3 D)))|apply (Tr _ _ z X3); exact (proj2 (proj2 (scale_row _ _ _ _ _ _ _ _ X3 X1 X2 D)))].
Qed.
(** coordinate i of v, then 1 *)
Definition comp (v : vertex3) (i : Z) : spec_float := if i =? 0 then vx v else if i =? 1 then vy v else if i =? 2 then vz v else int64f 1.
Lemma one_at k : -1000 <= k <= 0 -> at_ k (2 ^ (- k)) (int64f 1).
Proof. intros K. pose proof one_r as H. assert (A1 : at_ 0 1 (int64f 1)) by (rewrite at_r; cbn [bpow]; now rewrite Rmult_1_r). pose proof (at_shift 0 k 1 _ ltac:(lia) A1) as B. replace (0 - k) with (- k) in B by lia. now rewrite Z.mul_1_l in B. Qed.
Lemma trans_at A v k k3 f h F H : holds A 4 4 k f -> within 4 4 f F -> (forall i, 0 <= i < 3 -> at_ k3 (h i) (comp v i)) -> h 3 = 2 ^ (- k3) -> (forall i, 0 <= i < 4 -> - H <= h i <= H) -> 0 <= F -> 0 <= H -> 4 * F * H <= 2 ^ 53 -> -1000 <= k3 <= 0 -> -1000 <= k + k3 <= 900 ->
  exists w, trans A v = Val w /\ forall i, 0 <= i < 3 -> at_ (k + k3) (zsum 4 (fun j => f i j * h j)) (comp w i).
Proof.
  intros (e & S & G) W Hv H3 Hb F0 H0 L K3 K. pose proof (trans_ok A v e S) as T. cbv zeta in T. eexists. split; [exact T|].
  assert (Row : forall i, 0 <= i < 3 -> at_ (k + k3) (zsum 4 (fun j => f i j * h j)) (fsum 4 (fun j => mul64 (comp v j) (e i j)))).
  { intros i Hi. apply (fsum_at 4 (k + k3) (fun j => f i j * h j) _ (F * H)); try nia. intros j Hj. specialize (Hb j Hj). specialize (W i j ltac:(lia) Hj). split; [|nia]. rewrite Z.add_comm, Z.mul_comm. apply mul_at; [|apply G; lia|lia|nia]. destruct (Z.eq_dec j 3) as [->|N]; [rewrite H3; apply one_at; exact K3|apply Hv; lia]. }
  intros i Hi. specialize (Row i Hi). rewrite fsum4 in Row. assert (Q : i = 0 \/ i = 1 \/ i = 2) by lia. destruct Q as [->|[->| ->]]; exact Row.
Qed.
(** two transformations one after the other are the transformation by the product *)
Theorem C106_compose A B v k1 k2 k3 f g h F G H : holds A 4 4 k1 f -> holds B 4 4 k2 g -> within 4 4 f F -> within 4 4 g G -> 0 <= F -> 0 <= G -> 0 <= H ->
  g 3 0 = 0 -> g 3 1 = 0 -> g 3 2 = 0 -> g 3 3 = 2 ^ (- k2) ->
  at_ k3 (h 0) (vx v) -> at_ k3 (h 1) (vy v) -> at_ k3 (h 2) (vz v) -> (forall i, 0 <= i < 3 -> - H <= h i <= H) -> 2 ^ (- k3) <= H ->
  16 * F * G * H <= 2 ^ 53 -> 4 * F * G <= 2 ^ 53 -> 4 * G * H <= 2 ^ 53 -> -300 <= k1 <= 0 -> -300 <= k2 <= 0 -> -300 <= k3 <= 0 ->
  exists AB w u u', mul A B = Val AB /\ trans B v = Val w /\ trans A w = Val u /\ trans AB v = Val u' /\ same_number (vx u) (vx u') /\ same_number (vy u) (vy u') /\ same_number (vz u) (vz u').
Proof.
  intros HA HB WF WG F0 G0 H0 R0 R1 R2 R3 V0 V1 V2 Hb H1 L1 L2 L3 K1 K2 K3. set (h' := fun i => if i =? 3 then 2 ^ (- k3) else h i).
  assert (Hv : forall i, 0 <= i < 3 -> at_ k3 (h' i) (comp v i)) by (intros i Hi; assert (Q : i = 0 \/ i = 1 \/ i = 2) by lia; destruct Q as [->|[->| ->]]; assumption).
  assert (P3 : 0 < 2 ^ (- k3)) by (apply Z.pow_pos_nonneg; lia).
  assert (Hb' : forall i, 0 <= i < 4 -> - H <= h' i <= H) by (intros i Hi; unfold h'; destruct (Z.eqb_spec i 3); [lia|apply Hb; lia]).
  destruct (mul_grid A B 4 4 4 k1 k2 f g F G HA HB WF WG F0 G0 L2) as (AB & EAB & SAB); [lia|lia|]. destruct (trans_at B v k2 k3 g h' G H HB WG Hv eq_refl Hb' G0 H0 L3) as (w & Ew & Sw); [lia|lia|].
  set (gh := fun i => zsum 4 (fun j => g i j * h' j)) in *. assert (G3 : gh 3 = 2 ^ (- (k2 + k3))). { unfold gh. rewrite zsum4, R0, R1, R2, R3. change (h' 3) with (2 ^ (- k3)). replace (- (k2 + k3)) with (- k2 + - k3) by lia. rewrite Z.pow_add_r by lia. ring. }
  assert (Gb : forall i, 0 <= i < 4 -> - (4 * (G * H)) <= gh i <= 4 * (G * H)). { intros i Hi. apply zsum_bnd; [lia|]. intros j Hj. specialize (Hb' j Hj). specialize (WG i j Hi Hj). nia. }
  destruct (trans_at A w k1 (k2 + k3) f gh F (4 * (G * H)) HA WF Sw G3 Gb F0) as (u & Eu & Su); [nia|nia|lia|lia|].
  assert (WP : within 4 4 (zprod 4 f g) (4 * (F * G))). { intros i j Hi Hj. apply zsum_bnd; [lia|]. intros a Ha. specialize (WF i a Hi Ha). specialize (WG a j Ha Hj). nia. }
  destruct (trans_at AB v (k1 + k2) k3 _ h' (4 * (F * G)) H SAB WP Hv eq_refl Hb') as (u' & Eu' & Su'); [nia|exact H0|nia|lia|lia|].
  exists AB, w, u, u'. split; [exact EAB|]. split; [exact Ew|]. split; [exact Eu|]. split; [exact Eu'|].
  assert (Q : forall i, 0 <= i < 3 -> same_number (comp u i) (comp u' i)).
  { intros i Hi. specialize (Su i Hi). specialize (Su' i Hi). rewrite at_r in Su, Su'. rewrite Z.add_assoc in Su. replace (zsum 4 (fun j => zprod 4 f g i j * h' j)) with (zsum 4 (fun j => f i j * gh j)) in Su'; [exact (same_r _ _ _ Su Su')|]. unfold gh, zprod. rewrite !zsum4. ring. }
  split; [exact (Q 0 ltac:(lia))|]. split; [exact (Q 1 ltac:(lia))|exact (Q 2 ltac:(lia))].
Qed.
(** a matrix without four columns is rejected; without three rows the answer is read from outside the vector *)
Theorem C106_columns A r c e v : shows A r c e -> c <> 4 -> trans A v = Exn.
Proof. intros H N. unfold trans. rewrite (copy_ptr_ok A r c e H). cbn [bind]. unfold mulv. destruct H as (_ & -> & _). change (zlen [vx v; vy v; vz v; int64f 1]) with 4. destruct (Z.eqb_spec c 4); [contradiction|reflexivity]. Qed.
Theorem C106_rows_refuted A r e v : shows A r 4 e -> r < 3 -> trans A v = UB.
Proof.
  intros H N. unfold trans. rewrite (copy_ptr_ok A r 4 e H). cbn [bind]. destruct (mulv_ok A r 4 e [vx v; vy v; vz v; int64f 1] (comp v) H eq_refl) as (l & -> & L & _). { intros k Hk. assert (Q : k = 0 \/ k = 1 \/ k = 2 \/ k = 3) by lia. destruct Q as [->|[->|[->| ->]]]; reflexivity. }
  cbn [bind]. unfold rd. destruct (lget l 0); [|reflexivity]. cbn [bind]. destruct (lget l 1); [|reflexivity]. cbn [bind]. rewrite lget_out by lia. reflexivity.
Qed.
(** * the hypotheses are met *)
Lemma int_coord k b z : 0 <= k <= 50 -> - 2 ^ b <= z * 2 ^ k <= 2 ^ b -> - 2 ^ 53 <= z <= 2 ^ 53 -> coord k b (int64f z) (inject_Z z).
Proof.
  intros K B R. assert (A : at_ 0 z (int64f z)) by (rewrite at_r; cbn [bpow]; rewrite Rmult_1_r; apply int64_r; lia). unfold at_ in A. split; [exact (dbl_eq _ _ _ A (Qmult_1_r _))|]. exists (z * 2 ^ k). split; [exact B|]. pose proof (q2_shift z 0 (- k) ltac:(lia)) as Q. replace (0 - - k) with k in Q by lia. rewrite Q. change (q2 0) with 1%Q. ring.
Qed.
Definition v3 (x y z : Z) : vertex3 := V3 (int64f x) (int64f y) (int64f z).
Lemma v3_coords k b x y z : 0 <= k <= 50 -> - 2 ^ b <= x * 2 ^ k <= 2 ^ b -> - 2 ^ b <= y * 2 ^ k <= 2 ^ b -> - 2 ^ b <= z * 2 ^ k <= 2 ^ b -> - 2 ^ 53 <= x <= 2 ^ 53 -> - 2 ^ 53 <= y <= 2 ^ 53 -> - 2 ^ 53 <= z <= 2 ^ 53 -> coords k b (v3 x y z) (inject_Z x) (inject_Z y) (inject_Z z).
Proof. intros. split; [|split]; apply int_coord; assumption. Qed.
(** a quarter turn about the axis (0, 0, 1) through (1, 2, 0) takes (3, 2, 5) to (1, 4, 5) *)
Example ex_C106_rotation : exists M w, initRotation (mat_of (int64f 0)) (v3 1 2 0) (v3 0 0 1) (int64f 0) (int64f 1) = Val M /\ trans M (v3 3 2 5) = Val w /\ point w 1 4 5.
Proof.
  destruct (C106_rotation (mat_of (int64f 0)) (v3 1 2 0) (v3 0 0 1) (int64f 0) (int64f 1) (v3 3 2 5) _ _ _ _ _ _ _ _ _ _ _ eq_refl (v3_coords 8 12 1 2 0 ltac:(lia) ltac:(lia) ltac:(lia) ltac:(lia) ltac:(lia) ltac:(lia) ltac:(lia)) (v3_coords 5 5 0 0 1 ltac:(lia) ltac:(lia) ltac:(lia) ltac:(lia) ltac:(lia) ltac:(lia) ltac:(lia)) (int_coord 5 5 0 ltac:(lia) ltac:(lia) ltac:(lia)) (int_coord 5 5 1 ltac:(lia) ltac:(lia) ltac:(lia)) (v3_coords 8 12 3 2 5 ltac:(lia) ltac:(lia) ltac:(lia) ltac:(lia) ltac:(lia) ltac:(lia) ltac:(lia))) as (M & w & E & T & P1 & P2 & P3).
  exists M, w. split; [exact E|]. split; [exact T|]. split; [exact (dbl_eq _ _ _ P1 eq_refl)|]. split; [exact (dbl_eq _ _ _ P2 eq_refl)|exact (dbl_eq _ _ _ P3 eq_refl)].
Qed.
Example ex_C106_points : point (v3 1 2 3) (inject_Z 1) (inject_Z 2) (inject_Z 3) /\ coords 10 20 (v3 1 2 3) (inject_Z 1) (inject_Z 2) (inject_Z 3) /\ coord 20 20 (int64f 1) (inject_Z 1).
Proof. split; [split; [|split]; refine (proj1 (int_coord 0 53 _ _ _ _)); lia|]. split; [apply v3_coords; lia|apply int_coord; lia]. Qed.
(** moving by (1, 2, 3), then mirroring at the plane x = 1 *)
Example ex_C106_compose : exists A B AB w u, initMirroring (mat_of (int64f 0)) (v3 1 0 0) (v3 1 0 0) = Val A /\ initMoving (mat_of (int64f 0)) (v3 1 2 3) = Val B /\ mul A B = Val AB /\ trans B (v3 5 5 5) = Val w /\ w = v3 6 7 8 /\ trans A w = Val u /\ trans AB (v3 5 5 5) = Val u /\ u = v3 (-4) 7 8.
Proof. do 5 eexists. repeat (split; [vm_compute; reflexivity|]). vm_compute. reflexivity. Qed.
Print Assumptions C106_moving.
Print Assumptions C106_scaling.
Print Assumptions C106_scalingAt.
Print Assumptions C106_mirroring.
Print Assumptions C106_rotationZ.
Print Assumptions C106_rotation.
Print Assumptions C106_identity.
Print Assumptions C106_compose.
Print Assumptions C106_columns.
Print Assumptions C106_rows_refuted.
