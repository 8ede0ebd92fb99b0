(** P_Nurbs2.v -- NURBS: sizes of the arrays; parameters outside the knots; the end of the curve. *)
From Coq Require Import Reals Lra Psatz QArith Qabs Qreals.
From Flocq Require Import Core IEEE754.BinarySingleNaN.
From Verif Require Import Base M_Float M_MathF M_Rect M_Matrix M_Geometry M_Nurbs S_Double S_Matrix S_Geometry S_Nurbs L_Float L_Double L_MathF P_MathF L_Matrix L_Matrix2 L_Matrix4 L_Matrix5 L_Geometry L_Geometry2 L_Nurbs L_Nurbs2 L_Nurbs3 L_Nurbs4 L_Nurbs5 P_Nurbs.
Local Open Scope Z_scope.

(** * C116: the arrays must be long enough, and nothing checks it *)
(** The constructor accepts any arrays, and refuses only the degree 0. *)
Theorem C116_constructor : forall d c k w, (d < 1 -> newNurbs d c k w = Exn) /\ (1 <= d -> exists s, newNurbs d c k w = Val s /\ degree s = d /\ controlPointCount s = zlen c /\ knotCount s = zlen k /\ forall i v, nth_error k (Z.to_nat i) = Some v -> 0 <= i -> knotOf s i = Val v).
Proof.
  intros d c k w. unfold newNurbs. split; intros H.
  - destruct (Z.ltb_spec d 1); [reflexivity|lia].
  - destruct (Z.ltb_spec d 1); [lia|]. eexists. split; [reflexivity|]. split; [reflexivity|]. split; [reflexivity|]. split; [reflexivity|]. intros i v E I. unfold knotOf, rd, lget. cbn [knots]. destruct (Z.ltb_spec i 0); [lia|]. now rewrite E.
Qed.
(** With enough knots and weights point() answers for every parameter, NaN and infinities included. *)
Theorem C116_safe : forall c t, 0 <= degree c -> zlen (ctrl c) <= zlen (weights c) -> zlen (ctrl c) + degree c + 1 <= zlen (knots c) <= 2 ^ 32 -> exists P, pointAt c t = Val P.
Proof.
  intros c t D W K. set (k := Z.to_nat (degree c)). assert (KD : Z.of_nat k = degree c) by (unfold k; lia).
  assert (S1 : forall m, Z.of_nat m <= zlen (ctrl c) -> exists x, fold_left (sumf c k t) (zrange m) (Val f0) = Val x).
  { induction m as [|m IH]; intros L; [eexists; reflexivity|]. destruct (IH ltac:(lia)) as [x E]. rewrite zrange_S, fold_left_app, E. cbn [fold_left sumf bind]. destruct (rd_ok (weights c) (Z.of_nat m) ltac:(lia)) as [w ->]. destruct (basis_ok c k (Z.of_nat m) t ltac:(lia) ltac:(lia) ltac:(lia)) as [y ->]. cbn [bind]. eauto. }
  destruct (S1 (length (ctrl c)) ltac:(unfold zlen; lia)) as [s Es].
  assert (S2 : forall m, Z.of_nat m <= zlen (ctrl c) -> exists P, fold_left (pstep c k t) (zrange m) (Val (V3 f0 f0 f0)) = Val P).
  { induction m as [|m IH]; intros L; [eexists; reflexivity|]. destruct (IH ltac:(lia)) as [x E]. rewrite zrange_S, fold_left_app, E. cbn [fold_left pstep bind]. destruct (rd_ok (ctrl c) (Z.of_nat m) ltac:(lia)) as [p ->]. cbn [bind]. unfold ratio. destruct (rd_ok (weights c) (Z.of_nat m) ltac:(lia)) as [w ->]. destruct (basis_ok c k (Z.of_nat m) t ltac:(lia) ltac:(lia) ltac:(lia)) as [y ->]. cbn [bind]. unfold sumWN. change (fold_left _ (zrange (length (ctrl c))) (Val f0)) with (fold_left (sumf c k t) (zrange (length (ctrl c))) (Val f0)). rewrite Es. cbn [bind]. eauto. }
  apply (S2 (length (ctrl c))). unfold zlen. lia.
Qed.
(** With one knot or one weight too few, every point() of the curve reads outside its arrays. *)
Theorem C116_sizes_refuted : forall c t, 1 <= degree c -> 1 <= zlen (ctrl c) -> zlen (ctrl c) + degree c < 2 ^ 32 -> zlen (knots c) < zlen (ctrl c) + degree c + 1 \/ zlen (weights c) < zlen (ctrl c) -> pointAt c t = UB.
Proof.
  intros c t D N L H. destruct (point_two c t) as [[P E]|E]; [exfalso|exact E]. set (k := Z.to_nat (degree c)). assert (KD : Z.of_nat k = degree c) by (unfold k; lia).
  destruct (point_needs c t P E ltac:(unfold zlen in N; lia)) as [s Es]. fold k in Es. destruct (sum_val c k t (length (ctrl c)) s Es (zlen (ctrl c) - 1) ltac:(unfold zlen in *; lia)) as [[v Ev] [x Ex]].
  apply rd_val in Ev. apply basis_needs in Ex; lia.
Qed.

(** * C116: outside its knots the curve is NaN *)
Lemma zero_val x : is64 x 0 -> exists s, x = S754_zero s.
Proof.
  intros (b & <- & F & R). destruct b as [s|s| |s m e Hb]; cbn in *; try discriminate; [eexists; reflexivity|]. exfalso. apply eq_0_F2R in R. destruct s; discriminate.
Qed.
Lemma mul_nan x : mul64 NAN x = NAN. Proof. reflexivity. Qed.
Lemma add_nan x : add64 x NAN = NAN. Proof. destruct x; reflexivity. Qed.
Section Out.
Variables (c : nurbs) (n : Z) (k : nat) (u w x y z : Z -> Q) (tf : spec_float) (q : R).
Hypothesis H : spline c n k u w x y z.
Hypothesis T : is64 tf q.
Hypothesis TB : (Rabs q <= bpow radix2 40)%R.
Let uR i := Q2R (u i).
Hypothesis Q0 : (q < uR 0 \/ uR (n + Z.of_nat k) <= q)%R.
Lemma out_basis m : (m <= k)%nat -> forall i, 0 <= i -> i + Z.of_nat m + 1 <= n + Z.of_nat k -> exists v, basisN c m i tf = Val v /\ is64 v 0.
Proof.
  pose proof (sp_kn c n k u w x y z H) as KN. pose proof (sp_U c n k u w x y z H) as U. pose proof (sp_K c n k u w x y z H) as KK. pose proof (sp_mono c n k u w x y z H) as Mo.
  induction m as [|m IH]; intros M i I0 I1.
  - destruct (U i ltac:(lia)) as (a & Ra & Xa & _). destruct (U (i + 1) ltac:(lia)) as (b & Rb & Xb & _). cbn [basisN]. rewrite Ra. cbn [bind]. rewrite u32_in by lia. rewrite Rb. cbn [bind]. rewrite (leb_r _ _ _ _ Xa T), (ltb64 _ _ _ _ T Xb).
    pose proof (umono uR (n + Z.of_nat k + 1) Mo 0 i ltac:(lia) ltac:(lia)). pose proof (umono uR (n + Z.of_nat k + 1) Mo (i + 1) (n + Z.of_nat k) ltac:(lia) ltac:(lia)). unfold uR in *. destruct Q0 as [Q0'|Q0'].
    + rewrite Rle_bool_false by lra. eexists. split; [reflexivity|exact f0r].
    + rewrite Rlt_bool_false by lra. destruct (Rle_bool _ _); eexists; (split; [reflexivity|exact f0r]).
  - destruct (U i ltac:(lia)) as (xi & Ri & Xi & Bi). destruct (U (i + Z.of_nat (S m)) ltac:(lia)) as (xk & Rk & Xk & Bk). destruct (U (i + Z.of_nat (S m) + 1) ltac:(lia)) as (xl & Rl & Xl & Bl). destruct (U (i + 1) ltac:(lia)) as (xj & Rj & Xj & Bj).
    cbn [basisN]. rewrite Ri. cbn [bind]. rewrite !u32_in by lia. rewrite Rk. cbn [bind]. rewrite Rl. cbn [bind]. rewrite Rj. cbn [bind].
    destruct (IH ltac:(lia) i ltac:(lia) ltac:(lia)) as (v1 & E1 & V1). destruct (IH ltac:(lia) (i + 1) ltac:(lia) ltac:(lia)) as (v2 & E2 & V2). rewrite E1, E2. cbn [bind].
    assert (B41 : (bpow radix2 30 + bpow radix2 40 <= bpow radix2 41)%R). { change 41 with (1 + 40). rewrite bpow_plus. change (bpow radix2 1) with 2%R. pose proof (bpow_le radix2 30 40 ltac:(lia)). lra. }
    assert (B31 : (bpow radix2 30 + bpow radix2 30 <= bpow radix2 41)%R). { pose proof (bpow_le radix2 30 40 ltac:(lia)). lra. }
    assert (G : forall v a b d xa xb xd, is64 v 0 -> is64 xa a -> is64 xb b -> is64 xd d -> (Rabs a <= bpow radix2 30)%R -> (Rabs b <= bpow radix2 30)%R -> (Rabs (d) <= bpow radix2 41)%R -> exists r, (if isEqual (sub64 xb xa) f0 then Val f0 else Val (div64 (mul64 v xd) (sub64 xb xa))) = Val r /\ is64 r 0).
    { intros v a b d xa xb xd V A B DD Ba Bb Bd. assert (S1 : is64 (sub64 xb xa) (r64 (b - a))). { apply (sub64_r _ _ _ _ 41); try assumption; try lia. apply Rabs_le_inv in Ba, Bb. apply Rabs_le. lra. }
      destruct (isEqual (sub64 xb xa) f0) eqn:E; [eexists; split; [reflexivity|exact f0r]|]. eexists. split; [reflexivity|]. assert (D0 : r64 (b - a) <> 0%R). { intros Z0. rewrite (isEqual_0 _ _ S1 Z0) in E. discriminate. }
      assert (ZZ : is64 (mul64 v xd) 0). { rewrite <- r64_0. rewrite <- (Rmult_0_l d). apply (mul64_r _ _ _ _ 0); try assumption; try lia. rewrite Rmult_0_l, Rabs_R0. apply bpow_ge_0. }
      rewrite <- r64_0. replace 0%R with (0 / r64 (b - a))%R at 1 by (unfold Rdiv; ring). apply (div64_r _ _ _ _ 0); try assumption; try lia. unfold Rdiv. rewrite Rmult_0_l, Rabs_R0. apply bpow_ge_0. }
    assert (S1 : is64 (sub64 tf xi) (r64 (q - uR i)) /\ (Rabs (r64 (q - uR i)) <= bpow radix2 41)%R). { assert (A : (Rabs (q - uR i) <= bpow radix2 41)%R) by (unfold uR; apply Rabs_le_inv in TB, Bi; apply Rabs_le; lra). split; [apply (sub64_r _ _ _ _ 41); try assumption; lia|apply r64_abs; [lia|exact A]]. }
    assert (S2 : is64 (sub64 xl tf) (r64 (uR (i + Z.of_nat (S m) + 1) - q)) /\ (Rabs (r64 (uR (i + Z.of_nat (S m) + 1)%Z - q)) <= bpow radix2 41)%R). { assert (A : (Rabs (uR (i + Z.of_nat (S m) + 1)%Z - q) <= bpow radix2 41)%R) by (unfold uR; apply Rabs_le_inv in TB, Bl; apply Rabs_le; lra). split; [apply (sub64_r _ _ _ _ 41); try assumption; lia|apply r64_abs; [lia|exact A]]. }
    destruct (G _ _ _ _ _ _ _ V1 Xi Xk (proj1 S1) Bi Bk (proj2 S1)) as (r1 & -> & X1). cbn [bind]. destruct (G _ _ _ _ _ _ _ V2 Xj Xl (proj1 S2) Bj Bl (proj2 S2)) as (r2 & -> & X2). cbn [bind]. eexists. split; [reflexivity|]. destruct (add_nil r2 r1 _ X2 X1) as [_ A]. exact A.
Qed.
Lemma out_sum m : Z.of_nat m <= n -> exists s, fold_left (sumf c k tf) (zrange m) (Val f0) = Val s /\ is64 s 0.
Proof.
  pose proof (sp_kn c n k u w x y z H) as KN. induction m as [|m IH]; intros L; [eexists; split; [reflexivity|exact f0r]|]. destruct (IH ltac:(lia)) as (s & E & X). rewrite zrange_S, fold_left_app, E. cbn [fold_left sumf bind]. destruct (sp_W c n k u w x y z H (Z.of_nat m) ltac:(lia)) as (v & -> & Xv & _). destruct (out_basis k ltac:(lia) (Z.of_nat m) ltac:(lia) ltac:(lia)) as (b & -> & Xb). cbn [bind]. eexists. split; [reflexivity|].
  assert (ZZ : is64 (mul64 v b) 0). { rewrite <- r64_0. rewrite <- (Rmult_0_r (Q2R (w (Z.of_nat m)))). apply (mul64_r _ _ _ _ 0); try assumption; try lia. rewrite Rmult_0_r, Rabs_R0. apply bpow_ge_0. } destruct (add_nil s _ _ X ZZ) as [A _]. exact A.
Qed.
Lemma out_ratio j : 0 <= j < n -> ratio c j k tf = Val NAN.
Proof.
  pose proof (sp_kn c n k u w x y z H) as KN. intros J. unfold ratio. destruct (sp_W c n k u w x y z H j ltac:(lia)) as (v & -> & Xv & _). destruct (out_basis k ltac:(lia) j ltac:(lia) ltac:(lia)) as (b & -> & Xb). cbn [bind]. unfold sumWN. rewrite (sp_len c n k u w x y z H). destruct (out_sum (Z.to_nat n) ltac:(lia)) as (s & Es & Xs). unfold sumf in Es. rewrite Es. cbn [bind].
  assert (ZZ : is64 (mul64 v b) 0). { rewrite <- r64_0. rewrite <- (Rmult_0_r (Q2R (w j))). apply (mul64_r _ _ _ _ 0); try assumption; try lia. rewrite Rmult_0_r, Rabs_R0. apply bpow_ge_0. }
  destruct (zero_val _ ZZ) as [s1 ->]. destruct (zero_val _ Xs) as [s2 ->]. reflexivity.
Qed.
Lemma out_point m : 1 <= Z.of_nat m <= n -> fold_left (pstep c k tf) (zrange m) (Val (V3 f0 f0 f0)) = Val nan3.
Proof.
  induction m as [|m IH]; [lia|]. intros L. rewrite zrange_S, fold_left_app. assert (exists P, fold_left (pstep c k tf) (zrange m) (Val (V3 f0 f0 f0)) = Val P) as [P ->]. { destruct m; [eexists; reflexivity|]. rewrite IH by lia. eauto. }
  cbn [fold_left pstep bind]. destruct H as (_ & _ & _ & _ & _ & _ & _ & _ & _ & HC). destruct (HC (Z.of_nat m) ltac:(lia)) as (v & -> & _). cbn [bind]. rewrite out_ratio by lia. cbn [bind]. unfold vadd3, vmul3. cbn [vx vy vz]. rewrite !mul_nan, !add_nan. reflexivity.
Qed.
End Out.
Theorem C116_outside : forall c n k u w x y z t q, spline c n k u w x y z -> dbl t q -> (Qabs q <= q2 40)%Q -> (q < u 0%Z \/ u (n + Z.of_nat k)%Z <= q)%Q -> pointAt c t = Val nan3.
Proof.
  intros c n k u w x y z t q H D B O. apply dbl_r in D. apply Qle_Rle in B. rewrite Q2R_abs, Q2R_q2 in B. pose proof (sp_kn c n k u w x y z H) as KN.
  assert (O' : (Q2R q < Q2R (u 0%Z) \/ Q2R (u (n + Z.of_nat k)%Z) <= Q2R q)%R) by (destruct O as [O|O]; [left; now apply Qlt_Rlt|right; now apply Qle_Rle]).
  unfold pointAt. rewrite (sp_len c n k u w x y z H), (sp_deg c n k u w x y z H). apply (out_point c n k u w x y z t (Q2R q) H D B O'). lia.
Qed.
(** end() is never a parameter of the curve: point(end()) is NaN for every curve. *)
Theorem C116_end_refuted : forall c n k u w x y z, spline c n k u w x y z -> exists e q, endOf c = Val e /\ dbl e q /\ (u (n + Z.of_nat k)%Z <= q)%Q /\ pointAt c e = Val nan3.
Proof.
  intros c n k u w x y z H. pose proof (sp_kn c n k u w x y z H) as KN. pose proof H as (D & LC & _ & _ & LK & _ & HU & HS & _).
  assert (Mo : forall i, 0 <= i -> i + 1 < zlen (knots c) -> (Q2R (u i) <= Q2R (u (i + 1)%Z))%R). { intros i I J. destruct (HS i I J) as [E|E]; [apply Qeq_eqR in E; lra|]. apply Qle_Rle in E. rewrite Q2R_plus, Q2R_q2 in E. pose proof (bpow_gt_0 radix2 (-19)). lra. }
  pose proof (umono (fun i => Q2R (u i)) (zlen (knots c)) Mo (n + Z.of_nat k) (zlen (knots c) - 1) ltac:(lia) ltac:(lia)) as LAST.
  destruct (HU (zlen (knots c) - 1) ltac:(lia)) as (l & El & Dl & Bl). unfold endOf. destruct (Z.ltb_spec (zlen (knots c)) 1); [lia|]. rewrite El. cbn [bind]. rewrite u32_in by lia. set (m := zlen (ctrl c) - degree c + 2). assert (Xm : is64 (int64f m) (IZR m)) by (apply int64_r; lia). apply dbl_r in Dl. rewrite (ltb64 _ _ _ _ Xm Dl).
  assert (FIN : forall e q, dbl e q -> (Qabs q <= q2 40)%Q -> (u (n + Z.of_nat k)%Z <= q)%Q -> exists e0 q0, Val e = Val e0 /\ dbl e0 q0 /\ (u (n + Z.of_nat k)%Z <= q0)%Q /\ pointAt c e0 = Val nan3).
  { intros e q E1 E2 E3. exists e, q. split; [reflexivity|]. split; [exact E1|]. split; [exact E3|]. apply (C116_outside c n k u w x y z e q H E1 E2). now right. }
  destruct (Rlt_bool_spec (IZR m) (Q2R (u (zlen (knots c) - 1)))) as [L|L].
  - apply (FIN l (u (zlen (knots c) - 1))); [now apply dbl_r| |now apply Rle_Qle]. apply Qle_trans with (1 := Bl). apply Rle_Qle. rewrite !Q2R_q2. apply bpow_le. lia.
  - apply (FIN (int64f m) (inject_Z m)); [apply dbl_r; rewrite Q2R_Z; exact Xm| |].
    + apply Rle_Qle. rewrite Q2R_abs, Q2R_Z, Q2R_q2, <- abs_IZR. change (bpow radix2 40) with (IZR (2 ^ 40)). apply IZR_le. lia.
    + apply Rle_Qle. rewrite Q2R_Z. lra.
Qed.
Example C116_safe_ex : zlen (ctrl xc) + degree xc + 1 <= zlen (knots xc) /\ exists P, pointAt xc NAN = Val P.
Proof. split; [vm_compute; discriminate|]. eexists. vm_compute. reflexivity. Qed.
Example C116_sizes_ex : pointAt (Nu 2 (ctrl xc) (map int64f [0; 0; 0; 1; 1]) (weights xc)) xt = UB /\ pointAt (Nu 2 (ctrl xc) (knots xc) (map int64f [1; 2])) xt = UB.
Proof. split; vm_compute; reflexivity. Qed.
(** the end of the example is 3, although its last knot is 1; both are outside *)
Example C116_end_ex : endOf xc = Val (int64f 3) /\ pointAt xc (int64f 3) = Val nan3 /\ pointAt xc f1 = Val nan3.
Proof. split; [|split]; vm_compute; reflexivity. Qed.
Print Assumptions C116_constructor.
Print Assumptions C116_safe.
Print Assumptions C116_sizes_refuted.
Print Assumptions C116_outside.
Print Assumptions C116_end_refuted.
