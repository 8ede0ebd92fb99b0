(** L_Matrix4.v -- the inverse and the product on a grid. *)
From Coq Require Import Reals Lra ZArith QArith Qabs Qpower Qreals.
From Flocq Require Import Core BinarySingleNaN Relative.
From Coq Require Import SpecFloat.
From Verif Require Import Base M_Float M_MathF M_Rect M_Matrix L_Float S_Double L_Double L_MathF S_Matrix L_Matrix L_Matrix2 L_Matrix3 L_Grid.
Local Open Scope Z_scope.

(** * sums *)
Lemma zsum_S n g : 0 <= n -> zsum (n + 1) g = zsum n g + g n.
Proof.
  intros N. unfold zsum. replace (Z.to_nat (n + 1)) with (S (Z.to_nat n)) by lia. rewrite zrange_S, map_app, fold_right_app. cbn [map fold_right]. replace (Z.of_nat (Z.to_nat n)) with n by lia. rewrite Z.add_0_r.
  induction (map g (zrange (Z.to_nat n))) as [|a l IH]; cbn [fold_right]; [lia|]. rewrite IH. lia.
Qed.
Lemma zsum_0 g : zsum 0 g = 0.
Proof. reflexivity. Qed.
Lemma zind (P : Z -> Prop) n : P 0 -> (forall m, 0 <= m < n -> P m -> P (m + 1)) -> forall m, 0 <= m <= n -> P m.
Proof.
  intros P0 St m Hm. revert m Hm. assert (K : forall k : nat, Z.of_nat k <= n -> P (Z.of_nat k)).
  { induction k as [|k IH]; intros Hk; [exact P0|]. replace (Z.of_nat (S k)) with (Z.of_nat k + 1) by lia. apply St; [lia|apply IH; lia]. }
  intros m Hm. specialize (K (Z.to_nat m)). replace (Z.of_nat (Z.to_nat m)) with m in K by lia. apply K. lia.
Qed.
Lemma zsum_ext n g h : (forall k, 0 <= k < n -> g k = h k) -> zsum n g = zsum n h.
Proof.
  intros H. destruct (Z.le_gt_cases n 0); [unfold zsum; now replace (Z.to_nat n) with O by lia|]. apply (zind (fun m => m <= n -> zsum m g = zsum m h) n); [reflexivity| |lia|lia].
  intros m Hm IH _. rewrite !zsum_S by lia. rewrite IH by lia. now rewrite H by lia.
Qed.
Lemma zsum_bnd n g B : 0 <= n -> (forall k, 0 <= k < n -> - B <= g k <= B) -> - (n * B) <= zsum n g <= n * B.
Proof. intros N H. apply (zind (fun m => - (m * B) <= zsum m g <= m * B) n); [rewrite zsum_0; lia| |lia]. intros m Hm IH. rewrite zsum_S by lia. specialize (H m Hm). lia. Qed.
Lemma zsum_add n g h : 0 <= n -> zsum n (fun k => g k + h k) = zsum n g + zsum n h.
Proof. intros N. apply (zind (fun m => zsum m (fun k => g k + h k) = zsum m g + zsum m h) n); [reflexivity| |lia]. intros m Hm IH. rewrite !zsum_S by lia. lia. Qed.
Lemma zsum_mul n c g : 0 <= n -> zsum n (fun k => c * g k) = c * zsum n g.
Proof. intros N. apply (zind (fun m => zsum m (fun k => c * g k) = c * zsum m g) n); [rewrite !zsum_0; lia| |lia]. intros m Hm IH. rewrite !zsum_S by lia. lia. Qed.
Lemma zsum_zero n : zsum n (fun _ => 0) = 0.
Proof. destruct (Z.le_gt_cases n 0); [unfold zsum; now replace (Z.to_nat n) with O by lia|]. apply (zind (fun m => zsum m (fun _ => 0) = 0) n); [reflexivity| |lia]. intros m Hm IH. rewrite zsum_S by lia. lia. Qed.
Lemma zsum_swap n m (g : Z -> Z -> Z) : 0 <= n -> 0 <= m -> zsum n (fun a => zsum m (fun b => g a b)) = zsum m (fun b => zsum n (fun a => g a b)).
Proof.
  intros N M. apply (zind (fun p => zsum p (fun a => zsum m (fun b => g a b)) = zsum m (fun b => zsum p (fun a => g a b))) n); [rewrite zsum_0; symmetry; apply zsum_zero| |lia].
  intros p Hp IH. rewrite zsum_S by lia. rewrite IH. rewrite <- zsum_add by lia. apply zsum_ext. intros k Hk. now rewrite zsum_S by lia.
Qed.
Lemma zsum_one n g k : 0 <= k < n -> (forall i, 0 <= i < n -> i <> k -> g i = 0) -> zsum n g = g k.
Proof.
  intros K H. assert (Q : forall m, 0 <= m <= n -> zsum m g = if k <? m then g k else 0). { apply zind; [rewrite zsum_0; bcase|]. intros m Hm IH. rewrite zsum_S by lia. rewrite IH. destruct (Z.eq_dec m k) as [->|Nk]; [destruct (Z.ltb_spec k k), (Z.ltb_spec k (k + 1)); lia|]. rewrite (H m) by lia. destruct (Z.ltb_spec k m), (Z.ltb_spec k (m + 1)); lia. }
  rewrite (Q n) by lia. bcase.
Qed.
Lemma fsum_at n p g x B : 0 <= n -> 0 <= B -> -1000 <= p <= 900 -> (forall k, 0 <= k < n -> at_ p (g k) (x k) /\ - B <= g k <= B) -> n * B <= 2 ^ 53 -> at_ p (zsum n g) (fsum n x).
Proof.
  intros N B0 P H L. apply (zind (fun m => at_ p (zsum m g) (fsum m x)) n); [apply zero_at| |lia]. intros m Hm IH. rewrite zsum_S, fsum_S by lia. destruct (H m Hm) as [H1 H2]. apply add_at; [exact IH|exact H1|exact P|].
  pose proof (zsum_bnd (m + 1) g B ltac:(lia) ltac:(intros; apply H; lia)) as Z1. rewrite zsum_S in Z1 by lia. nia.
Qed.
(** * products *)
Lemma mul_grid A B r n c k1 k2 f g F G : holds A r n k1 f -> holds B n c k2 g -> within r n f F -> within n c g G -> 0 <= F -> 0 <= G -> n * F * G <= 2 ^ 53 -> r * c <= 4294967295 -> -1000 <= k1 + k2 <= 900 ->
  exists R, mul A B = Val R /\ holds R r c (k1 + k2) (zprod n f g).
Proof.
  intros (e & HA & EA) (e' & HB & EB) WF WG F0 G0 L Bd K. destruct (mul_ok A B r n c e e' HA HB Bd) as (R & E & S). exists R. split; [exact E|]. eexists. split; [exact S|]. cbv beta. intros i j Hi Hj. pose proof HA as (_ & _ & _ & N & _). unfold zprod.
  apply (fsum_at n (k1 + k2) _ _ (F * G)); [exact N|nia|exact K| |lia]. intros k Hk. specialize (WF i k Hi Hk). specialize (WG k j Hk Hj). assert (Q : - (F * G) <= f i k * g k j <= F * G) by nia. split; [|exact Q]. apply mul_at; [now apply EA|now apply EB|exact K|].
  assert (F * G <= n * F * G) by nia. lia.
Qed.
(** * inverse *)
Definition recip (dt : spec_float) : spec_float := div64 (int64f 1) dt.
Lemma inv_form A n e f k dt : 1 <= n <= 4 -> shows A n n e -> (forall i j, 0 <= i < n -> 0 <= j < n -> at_ k (f i j) (e i j)) -> within n n f (limit n) -> -250 <= k <= 225 -> det A = Val (Some dt) ->
  exists A' g, inverse A = Val (Some A') /\ shows A' n n g /\ forall i j, 0 <= i < n -> 0 <= j < n -> - 2 ^ 53 <= zadj (Z.to_nat n) f i j <= 2 ^ 53 /\
    (n = 1 /\ zadj (Z.to_nat n) f i j = 1 /\ g i j = recip dt \/ exists m, at_ (k * (n - 1)) (zadj (Z.to_nat n) f i j) m /\ g i j = mul64 m (recip dt)).
Proof.
  intros N H G W K D. assert (Cs : n = 1 \/ n = 2 \/ n = 3 \/ n = 4) by lia. destruct (Z.eq_dec n 1) as [->|N1].
  - clear Cs. unfold inverse. pose proof H as (E1 & E2 & _). rewrite E1, E2. change (1 =? 1) with true. cbv iota zeta. unfold det in D. rewrite E1, E2 in D. change (1 =? 1) with true in D. cbv iota zeta in D. rewrite (md_el A 1 e H) in *. change (zrange (Z.to_nat (1 * 1))) with [0] in *. cbn [map] in *. change (rd [el 1 e 0] 0) with (Val (el 1 e 0)) in *. cbn [bind] in *. injection D as D.
    change (wr [el 1 e 0] 0 (div64 (int64f 1) (el 1 e 0))) with (Val [div64 (int64f 1) (el 1 e 0)]). cbn [bind]. rewrite D. do 2 eexists. split; [reflexivity|]. split; [apply shows_list; [lia|reflexivity]|]. intros i j Hi Hj. assert (i = 0) by lia. assert (j = 0) by lia. subst i j. change (Z.to_nat 1) with 1%nat. change (zadj 1 f 0 0) with 1. split; [lia|]. left. repeat split.
  - assert (Q : exists Es, inverse A = Val (Some (Mat n n (map (fun E => mul64 (evf add64 sub64 mul64 fneg (el n e) E) (div64 (int64f 1) dt)) Es))) /\ length Es = Z.to_nat (n * n) /\
      forallb (fun E => okx (n * n) (limit n) E && (deg E =? n - 1)) Es = true /\ (forall i j, 0 <= i < n -> 0 <= j < n -> evz (el n f) (nth (Z.to_nat (i + j * n)) Es (EV 0)) = zadj (Z.to_nat n) f i j)).
    { destruct Cs as [->|[->|[->| ->]]]; [contradiction|exact (inv2 A e f dt H D)|exact (inv3 A e f dt H D)|exact (inv4 A e f dt H D)]. }
    destruct Q as (Es & E & L & O & Ev). do 2 eexists. split; [exact E|]. split; [apply shows_list; [lia|rewrite zlen_map; unfold zlen; lia]|]. intros i j Hi Hj. rewrite <- Ev by assumption. pose proof (cell _ _ _ _ Hi Hj) as C. set (q := Z.to_nat (i + j * n)). assert (Lq : (q < length Es)%nat) by (unfold q; lia).
    assert (O1 : okx (n * n) (limit n) (nth q Es (EV 0)) && (deg (nth q Es (EV 0)) =? n - 1) = true) by (rewrite forallb_forall in O; apply O; now apply nth_In). apply andb_true_iff in O1 as [O1 O2]. apply Z.eqb_eq in O2.
    assert (Ob : bnd (limit n) (nth q Es (EV 0)) <= 2 ^ 53). { destruct (nth q Es (EV 0)); cbn [okx] in O1; apply andb_true_iff in O1 as [O1 _]; now apply Z.leb_le in O1. }
    destruct (poly add64 sub64 mul64 fneg n k e f (nth q Es (EV 0)) (n - 1) eq_refl eq_refl eq_refl eq_refl N G W K O1 O2 ltac:(lia) Ob) as [R1 R2]. split; [exact R2|]. right. eexists. split; [exact R1|]. cbv beta.
    rewrite (nth_indep _ zero (mul64 (evf add64 sub64 mul64 fneg (el n e) (EV 0)) (div64 (int64f 1) dt))) by (rewrite map_length; exact Lq). exact (map_nth (fun E => mul64 (evf add64 sub64 mul64 fneg (el n e) E) (div64 (int64f 1) dt)) Es (EV 0) q).
Qed.
(** the reciprocal of the determinant *)
Lemma one_r : is64 (int64f 1) 1.
Proof. apply int64_r. lia. Qed.
Lemma IZR_pow2 d : 0 <= d -> IZR (2 ^ d) = bpow radix2 d.
Proof. intros D. rewrite (IZR_Zpower radix2) by exact D. reflexivity. Qed.
Lemma recip_exact p d s dt : (s = 1 \/ s = -1) -> 0 <= d <= 53 -> -1000 <= p <= 900 -> at_ p (s * 2 ^ d) dt -> at_ (- p - d) s (recip dt).
Proof.
  intros S D P H. rewrite at_r in H |- *. rewrite mult_IZR, IZR_pow2, Rmult_assoc, <- bpow_plus in H by lia. set (q := d + p) in *. replace (- p - d) with (- q) by lia.
  assert (Sn : IZR s <> 0%R) by (destruct S as [->| ->]; lra). pose proof (bpow_gt_0 radix2 q) as Bq.
  assert (E : (1 / (IZR s * bpow radix2 q) = IZR s * bpow radix2 (- q))%R). { rewrite bpow_opp. destruct S as [->| ->]; field; lra. }
  assert (Nz : (IZR s * bpow radix2 q <> 0)%R) by (apply Rmult_integral_contrapositive; split; [exact Sn|lra]).
  pose proof (div64_r _ _ _ _ (- q) ltac:(lia) one_r H Nz) as M. rewrite E in M. rewrite r64_fmt in M by (apply fmt_grid; [lia|destruct S as [->| ->]; lia]). apply M.
  rewrite Rabs_mult, (Rabs_pos_eq (bpow _ _)) by apply bpow_ge_0. rewrite <- abs_IZR. replace (Z.abs s) with 1 by (destruct S as [->| ->]; reflexivity). lra.
Qed.
Lemma inv_exact A n f k s d : 1 <= n <= 4 -> holds A n n k f -> within n n f (limit n) -> -250 <= k <= 225 -> (s = 1 \/ s = -1) -> 0 <= d <= 53 -> zdet (Z.to_nat n) f = s * 2 ^ d ->
  exists A', inverse A = Val (Some A') /\ holds A' n n (- k - d) (fun i j => s * zadj (Z.to_nat n) f i j).
Proof.
  intros N (e & H & G) W K S D E. destruct (det_ok A n e f k N H G W K) as (dt & Dt & At & _). rewrite E in At. apply recip_exact in At; [|exact S|exact D|nia].
  destruct (inv_form A n e f k dt N H G W K Dt) as (A' & g & I1 & I2 & I3). exists A'. split; [exact I1|]. exists g. split; [exact I2|]. intros i j Hi Hj. destruct (I3 i j Hi Hj) as (Bz & [(-> & Ez & ->)|(m & Am & ->)]).
  - rewrite Ez, Z.mul_1_r. now replace (- k - d) with (- (k * 1) - d) by lia.
  - replace (- k - d) with (k * (n - 1) + (- (k * n) - d)) by lia. rewrite (Z.mul_comm s). apply mul_at; [exact Am|exact At|lia|destruct S as [->| ->]; lia].
Qed.
(** relative error *)
Lemma rel64 x : (bpow radix2 (-1022) <= Rabs x)%R -> exists d, (Rabs d <= bpow radix2 (-53))%R /\ r64 x = (x * (1 + d))%R.
Proof.
  intros H. destruct (relative_error_N_FLT_ex radix2 (-1074) 53 ltac:(lia) (fun z => negb (Z.even z)) x H) as (d & Hd & E). exists d. split; [|exact E].
  replace (bpow radix2 (-53)) with (/ 2 * bpow radix2 (-53 + 1))%R; [exact Hd|]. rewrite bpow_plus. change (bpow radix2 1) with 2%R. field.
Qed.
Lemma recip_near p z dt : z <> 0 -> - 2 ^ 53 <= z <= 2 ^ 53 -> -1000 <= p <= 900 -> at_ p z dt -> exists d, (Rabs d <= bpow radix2 (-53))%R /\ is64 (recip dt) (/ (IZR z * bpow radix2 p) * (1 + d)).
Proof.
  intros Zn Zb P H. rewrite at_r in H. pose proof (bpow_gt_0 radix2 p) as Bp. assert (Zr : IZR z <> 0%R) by (intros Q; apply eq_IZR in Q; contradiction).
  assert (Nz : (IZR z * bpow radix2 p <> 0)%R) by (apply Rmult_integral_contrapositive; split; [exact Zr|lra]).
  assert (A1 : (1 <= Rabs (IZR z))%R) by (rewrite <- abs_IZR; apply IZR_le; lia). assert (A2 : (Rabs (IZR z) <= bpow radix2 53)%R) by (rewrite <- abs_IZR; change (bpow radix2 53) with (IZR (2 ^ 53)); apply IZR_le; lia).
  assert (V : (bpow radix2 (- 53 - p) <= Rabs (/ (IZR z * bpow radix2 p)) <= bpow radix2 (- p))%R).
  { rewrite Rabs_inv, Rabs_mult, (Rabs_pos_eq (bpow _ p)) by lra. replace (- 53 - p) with (- (53 + p)) by lia. rewrite !bpow_opp. split; apply Rinv_le_contravar.
    - apply Rmult_lt_0_compat; lra.
    - rewrite bpow_plus. apply Rmult_le_compat_r; lra.
    - exact Bp.
    - rewrite <- (Rmult_1_l (bpow radix2 p)) at 1. apply Rmult_le_compat_r; lra. }
  destruct (rel64 (/ (IZR z * bpow radix2 p))) as (d & Hd & E). { apply Rle_trans with (2 := proj1 V). apply bpow_le. lia. }
  exists d. split; [exact Hd|]. rewrite <- E. replace (/ (IZR z * bpow radix2 p))%R with (1 / (IZR z * bpow radix2 p))%R by (unfold Rdiv; ring). apply (div64_r _ _ _ _ (- p)); [lia|exact one_r|exact H|exact Nz|]. unfold Rdiv. rewrite Rmult_1_l. apply V.
Qed.
Lemma two_errs d1 d2 : (Rabs d1 <= bpow radix2 (-53))%R -> (Rabs d2 <= bpow radix2 (-53))%R -> (Rabs ((1 + d1) * (1 + d2) - 1) <= bpow radix2 (-51))%R.
Proof.
  intros H1 H2. replace (bpow radix2 (-51)) with (4 * bpow radix2 (-53))%R by (change (-51) with (2 + -53); rewrite bpow_plus; change (bpow radix2 2) with 4%R; reflexivity).
  assert (B : (0 < bpow radix2 (-53) < / 2)%R). { split; [apply bpow_gt_0|]. change (/ 2)%R with (bpow radix2 (-1)). apply bpow_lt. lia. } set (u := bpow radix2 (-53)) in *. apply Rabs_le_inv in H1. apply Rabs_le_inv in H2. apply Rabs_le. nra.
Qed.
Lemma big2 a n : (Rabs a <= bpow radix2 n)%R -> forall m, n <= m -> (Rabs a <= bpow radix2 m)%R.
Proof. intros H m M. apply Rle_trans with (1 := H). apply bpow_le. exact M. Qed.
Lemma inv_near A n f k : 1 <= n <= 4 -> holds A n n k f -> within n n f (limit n) -> -250 <= k <= 225 -> zdet (Z.to_nat n) f <> 0 ->
  exists A' g, inverse A = Val (Some A') /\ shows A' n n g /\ forall i j, 0 <= i < n -> 0 <= j < n ->
    exists q, is64 (g i j) q /\ (Rabs (q * (IZR (zdet (Z.to_nat n) f) * bpow radix2 k) - IZR (zadj (Z.to_nat n) f i j)) <= Rabs (IZR (zadj (Z.to_nat n) f i j)) * bpow radix2 (-51))%R.
Proof.
  intros N (e & H & G) W K Dn. destruct (det_ok A n e f k N H G W K) as (dt & Dt & At & Bd). set (dz := zdet (Z.to_nat n) f) in *. destruct (recip_near (k * n) dz dt Dn Bd ltac:(nia) At) as (d1 & D1 & R1).
  destruct (inv_form A n e f k dt N H G W K Dt) as (A' & g & I1 & I2 & I3). exists A', g. split; [exact I1|]. split; [exact I2|]. intros i j Hi Hj. destruct (I3 i j Hi Hj) as (Bz & [(-> & Ez & ->)|(m & Am & ->)]).
  - rewrite Ez. rewrite Z.mul_1_r in R1. eexists. split; [exact R1|]. assert (Zr : IZR dz <> 0%R) by (intros Q; apply eq_IZR in Q; contradiction). pose proof (bpow_gt_0 radix2 k). replace (/ (IZR dz * bpow radix2 k) * (1 + d1) * (IZR dz * bpow radix2 k) - IZR 1)%R with d1 by (field; lra). rewrite Rabs_R1, Rmult_1_l. apply (big2 d1 (-53) D1). lia.
  - set (a := zadj (Z.to_nat n) f i j) in *. rewrite at_r in Am. assert (Zr : IZR dz <> 0%R) by (intros Q; apply eq_IZR in Q; contradiction). pose proof (bpow_gt_0 radix2 k) as Bk. pose proof (bpow_gt_0 radix2 (k * n)) as Bkn.
    assert (E : (IZR a * bpow radix2 (k * (n - 1)) * (/ (IZR dz * bpow radix2 (k * n)) * (1 + d1)) = IZR a / (IZR dz * bpow radix2 k) * (1 + d1))%R).
    { replace (k * n) with (k * (n - 1) + k) by lia. rewrite bpow_plus. pose proof (bpow_gt_0 radix2 (k * (n - 1))). field. repeat split; lra. }
    assert (B53 : (bpow radix2 (-53) < / 2)%R) by (change (/ 2)%R with (bpow radix2 (-1)); apply bpow_lt; lia). pose proof D1 as D1'. apply Rabs_le_inv in D1'.
    assert (A1 : (1 <= Rabs (IZR dz))%R) by (rewrite <- abs_IZR; apply IZR_le; lia). assert (A2 : (Rabs (IZR dz) <= bpow radix2 53)%R) by (rewrite <- abs_IZR; change (bpow radix2 53) with (IZR (2 ^ 53)); apply IZR_le; lia).
    assert (A3 : (Rabs (IZR a) <= bpow radix2 53)%R) by (rewrite <- abs_IZR; change (bpow radix2 53) with (IZR (2 ^ 53)); apply IZR_le; lia).
    set (u := (IZR a / (IZR dz * bpow radix2 k))%R) in *.
    assert (Ua : (Rabs u = Rabs (IZR a) * / Rabs (IZR dz) * bpow radix2 (- k))%R). { unfold u, Rdiv. rewrite Rabs_mult, Rabs_inv, Rabs_mult, (Rabs_pos_eq (bpow radix2 k)) by lra. rewrite bpow_opp. field. split; lra. }
    assert (Iz : (bpow radix2 (-53) <= / Rabs (IZR dz) <= 1)%R). { split; [change (-53) with (- (53)); rewrite bpow_opp; apply Rinv_le_contravar; lra|]. rewrite <- Rinv_1. apply Rinv_le_contravar; lra. }
    assert (Uh : (Rabs u <= bpow radix2 (53 - k))%R). { rewrite Ua. replace (53 - k) with (53 + - k) by lia. rewrite bpow_plus. apply Rmult_le_compat_r; [apply bpow_ge_0|]. rewrite <- (Rmult_1_r (bpow radix2 53)). apply Rmult_le_compat; [apply Rabs_pos|lra|exact A3|lra]. }
    assert (V1 : (Rabs (1 + d1) <= 2)%R) by (apply Rabs_le; lra). assert (V2 : (/ 2 <= Rabs (1 + d1))%R) by (rewrite Rabs_pos_eq by lra; lra).
    assert (Wb : (Rabs (u * (1 + d1)) <= bpow radix2 (54 - k))%R). { rewrite Rabs_mult. replace (54 - k) with (53 - k + 1) by lia. rewrite bpow_plus. change (bpow radix2 1) with 2%R. apply Rmult_le_compat; [apply Rabs_pos|apply Rabs_pos|exact Uh|exact V1]. }
    pose proof (mul64_r _ _ _ _ (54 - k) ltac:(lia) Am R1) as M. rewrite E in M. specialize (M Wb). eexists. split; [exact M|].
    destruct (Z.eq_dec a 0) as [Za|Za].
    + unfold u. rewrite Za. unfold Rdiv. rewrite !Rmult_0_l, r64_0, Rmult_0_l, Rminus_0_r, Rabs_R0. lra.
    + assert (A4 : (1 <= Rabs (IZR a))%R) by (rewrite <- abs_IZR; apply IZR_le; lia).
      assert (Lo : (bpow radix2 (-1022) <= Rabs (u * (1 + d1)))%R). { apply Rle_trans with (bpow radix2 (- 53 - k) * / 2)%R; [change (/ 2)%R with (bpow radix2 (-1)); rewrite <- bpow_plus; apply bpow_le; lia|]. rewrite Rabs_mult. apply Rmult_le_compat; [apply bpow_ge_0|lra| |exact V2]. rewrite Ua. replace (- 53 - k) with (-53 + - k) by lia. rewrite bpow_plus. apply Rmult_le_compat_r; [apply bpow_ge_0|]. rewrite <- (Rmult_1_l (bpow radix2 (-53))). apply Rmult_le_compat; [lra|apply bpow_ge_0|exact A4|lra]. }
      destruct (rel64 _ Lo) as (d2 & D2 & ->). replace (u * (1 + d1) * (1 + d2) * (IZR dz * bpow radix2 k) - IZR a)%R with (IZR a * ((1 + d1) * (1 + d2) - 1))%R by (unfold u; field; lra). rewrite Rabs_mult. apply Rmult_le_compat_l; [apply Rabs_pos|]. now apply two_errs.
Qed.
(** a singular matrix *)
Lemma at_zero k x : at_ k 0 x -> exists s, x = S754_zero s.
Proof.
  unfold at_, dbl. intros [_ H]. destruct x as [s| | |s m x]; [now exists s|contradiction..|]. exfalso. rewrite Qmult_0_l in H. assert (P : (0 < q2 x)%Q) by (unfold q2; apply Qpower_0_lt; reflexivity). symmetry in H. apply Qmult_integral in H. destruct H as [H|H]; [|rewrite H in P; discriminate P]. destruct s; unfold Qeq in H; cbn in H; discriminate H.
Qed.
Lemma mul_inf m s : (exists k z, at_ k z m) -> forall q, ~ dbl (mul64 m (S754_infinity s)) q.
Proof. intros (k & z & H) q. unfold at_, dbl in H. destruct H as [_ H]. destruct m as [t|t| |t p x]; try contradiction; intros [_ Q]; exact Q. Qed.
Lemma inv_singular A n f k : 1 <= n <= 4 -> holds A n n k f -> within n n f (limit n) -> -250 <= k <= 225 -> zdet (Z.to_nat n) f = 0 ->
  exists A' g, inverse A = Val (Some A') /\ shows A' n n g /\ forall i j q, 0 <= i < n -> 0 <= j < n -> ~ dbl (g i j) q.
Proof.
  intros N (e & H & G) W K Dn. destruct (det_ok A n e f k N H G W K) as (dt & Dt & At & Bd). rewrite Dn in At. apply at_zero in At as (s & ->).
  destruct (inv_form A n e f k _ N H G W K Dt) as (A' & g & I1 & I2 & I3). exists A', g. split; [exact I1|]. split; [exact I2|]. intros i j q Hi Hj. assert (R : recip (S754_zero s) = S754_infinity s) by (destruct s; reflexivity). rewrite R in I3. destruct (I3 i j Hi Hj) as (Bz & [(-> & Ez & ->)|(m & Am & ->)]).
  - intros [_ Q]. exact Q.
  - apply mul_inf. now exists (k * (n - 1)), (zadj (Z.to_nat n) f i j).
Qed.
