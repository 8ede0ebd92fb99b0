(** P_Matrix3.v -- norms, trace, vectors. *)
From Coq Require Import Reals Lra QArith Qabs Qreals.
From Flocq Require Import Core.
From Verif Require Import Base M_Float M_MathF M_Rect M_Matrix S_Double S_Matrix L_Double L_MathF L_Color5 L_Matrix L_Matrix2 L_Matrix3 L_Grid L_Matrix4 L_Matrix5 L_Matrix6.
Local Open Scope Z_scope.

(** * C107: norms, trace, number of elements that are not 0 *)
Theorem C107_norm1 A r c k f F : holds A r c k f -> within r c f F -> 0 <= F -> r * F <= 2 ^ 53 -> -1000 <= k <= 900 -> exists x, norm1 A = Val x /\ at_ k (zmax c (fun j => zsum r (fun i => Z.abs (f i j)))) x.
Proof. exact (norm1_ok A r c k f F). Qed.
Theorem C107_normInf A r c k f F : holds A r c k f -> within r c f F -> 0 <= F -> c * F <= 2 ^ 53 -> -1000 <= k <= 900 -> exists x, normInf A = Val x /\ at_ k (zmax r (fun i => zsum c (fun j => Z.abs (f i j)))) x.
Proof. exact (normInf_ok A r c k f F). Qed.
(** the norm of the rows is the norm of the columns of the transposed matrix *)
Theorem C107_transpose A r c k f F : holds A r c k f -> within r c f F -> 0 <= F -> r * F <= 2 ^ 53 -> -1000 <= k <= 900 -> exists T x y, transpose A = Val T /\ norm1 A = Val x /\ normInf T = Val y /\ same_number x y.
Proof.
  intros H W F0 L K. destruct (norm1_ok A r c k f F H W F0 L K) as (x & Ex & X). destruct H as (e & S & G). destruct (transpose_ok A r c e S) as (T & ET & ST).
  assert (HT : holds T c r k (fun i j => f j i)) by (exists (fun i j => e j i); split; [exact ST|intros i j Hi Hj; now apply G]). destruct (normInf_ok T c r k _ F HT) as (y & Ey & Y); [intros i j Hi Hj; now apply W|exact F0|exact L|exact K|].
  exists T, x, y. split; [exact ET|]. split; [exact Ex|]. split; [exact Ey|]. rewrite at_r in X, Y. exact (same_r _ _ _ X Y).
Qed.
Theorem C107_trace A r c e : shows A r c e -> trace A = Val (fsum (Z.min r c) (fun i => e i i)).
Proof. exact (trace_ok A r c e). Qed.
Theorem C107_trace_exact A r c k f F : holds A r c k f -> within r c f F -> 0 <= F -> Z.min r c * F <= 2 ^ 53 -> -1000 <= k <= 900 -> exists x, trace A = Val x /\ at_ k (zsum (Z.min r c) (fun i => f i i)) x.
Proof.
  intros (e & S & G) W F0 L K. pose proof S as (_ & _ & R & C & _). eexists. split; [exact (trace_ok A r c e S)|]. apply (fsum_at (Z.min r c) k (fun i => f i i) _ F); [lia|exact F0|exact K| |exact L]. intros i Hi. split; [apply G; lia|apply W; lia].
Qed.
Theorem C107_count A r c e : shows A r c e -> nonZeroElementCount A = Val (zsum r (fun i => zsum c (fun j => nz (e i j)))).
Proof. exact (count_ok A r c e). Qed.
(** * C108: vectors *)
(** all doubles *)
Theorem C108_dot a b : zlen a <= zlen b -> dotProduct a b = Val (fsum (zlen a) (fun i => mul64 (vat a i) (vat b i))).
Proof. exact (dot_ok a b). Qed.
(** a second vector that is shorter is not rejected: it is read behind its end *)
Theorem C108_dot_refuted a b : zlen b < zlen a -> dotProduct a b = UB.
Proof. exact (dot_ub a b). Qed.
Theorem C108_dot_exact a b k1 k2 f g F G : vholds a k1 f F -> vholds b k2 g G -> zlen a = zlen b -> 0 <= F -> 0 <= G -> zlen a * (F * G) <= 2 ^ 53 -> -1000 <= k1 + k2 <= 900 ->
  exists x, dotProduct a b = Val x /\ at_ (k1 + k2) (zsum (zlen a) (fun i => f i * g i)) x.
Proof.
  intros HA HB E F0 G0 L K. eexists. split; [apply dot_ok; lia|]. assert (0 <= zlen a) by (unfold zlen; lia). apply (fsum_at (zlen a) (k1 + k2) (fun i => f i * g i) _ (F * G)); [lia|nia|exact K| |exact L]. intros i Hi. destruct (HA i Hi) as [A1 A2]. destruct (HB i ltac:(lia)) as [B1 B2]. assert (P : - (F * G) <= f i * g i <= F * G) by nia. split; [|exact P]. assert (P0 : 0 <= F * G) by nia. assert (P1 : F * G <= zlen a * (F * G)) by nia. apply mul_at; [exact A1|exact B1|exact K|lia].
Qed.
Theorem C108_sum a b : zlen a = zlen b -> (exists l, vadd a b = Val l /\ zlen l = zlen a /\ forall i, 0 <= i < zlen a -> vat l i = add64 (vat a i) (vat b i)) /\ (exists l, vsub a b = Val l /\ zlen l = zlen a /\ forall i, 0 <= i < zlen a -> vat l i = sub64 (vat a i) (vat b i)).
Proof. intros E. split; exact (vop_ok _ a b E). Qed.
Theorem C108_mismatch a b : zlen a <> zlen b -> vadd a b = Exn /\ vsub a b = Exn.
Proof. intros N. unfold vadd, vsub, vop. destruct (Z.eqb_spec (zlen a) (zlen b)); [contradiction|split; reflexivity]. Qed.
Theorem C108_scale d a : exists l, vscale d a = Val l /\ zlen l = zlen a /\ forall i, 0 <= i < zlen a -> vat l i = mul64 d (vat a i).
Proof. exact (vscale_ok d a). Qed.
(** the length: exact if it is a whole number of steps, otherwise with a relative error of the square of at most 2^-51 *)
Theorem C108_length_exact a k f B N : vholds a k f B -> 0 <= B -> zlen a * (B * B) <= 2 ^ 53 -> -250 <= k <= 225 -> 0 <= N -> zsum (zlen a) (fun i => f i * f i) = N * N -> exists x, vabs a = Val x /\ at_ k N x.
Proof. exact (vabs_exact a k f B N). Qed.
Lemma sq_err d : (Rabs d <= bpow radix2 (-53))%R -> (Rabs ((1 + d) * (1 + d) - 1) <= bpow radix2 (-51))%R.
Proof.
  intros H. apply Rabs_le_inv in H. assert (B : (bpow radix2 (-51) = 4 * bpow radix2 (-53))%R) by (change (-51) with (2 + -53); rewrite bpow_plus; reflexivity). assert (P : (0 < bpow radix2 (-53) <= 1)%R) by (split; [apply bpow_gt_0|change 1%R with (bpow radix2 0); apply bpow_le; lia]). rewrite B. set (u := bpow radix2 (-53)) in *. clearbody u. apply Rabs_le. nra.
Qed.
Theorem C108_length a k f B : vholds a k f B -> 0 <= B -> zlen a * (B * B) <= 2 ^ 53 -> -250 <= k <= 225 ->
  exists x q, vabs a = Val x /\ dbl x q /\ (0 <= q)%Q /\ let s := (inject_Z (zsum (zlen a) (fun i => f i * f i)%Z) * q2 (2 * k))%Q in (Qabs (q * q - s) <= s * q2 (-51))%Q.
Proof.
  intros H B0 L K. change (zsum (zlen a) (fun i => f i * f i)) with (sqsum (zlen a) f). destruct (Z.eq_dec (sqsum (zlen a) f) 0) as [Z0|N0].
  - destruct (vabs_exact a k f B 0 H B0 L K ltac:(lia) Z0) as (x & E & X). exists x, 0%Q. split; [exact E|]. split; [unfold at_ in X; exact (dbl_eq _ _ _ X (Qmult_0_l _))|]. split; [discriminate|]. cbv zeta. rewrite Z0. rewrite !Qmult_0_l. discriminate.
  - destruct (vabs_rel a k f B H B0 L K N0) as (x & d & E & D & X & S). destruct (is_dbl _ _ X) as (q & Dq & Eq). exists x, q. split; [exact E|]. split; [exact Dq|]. cbv zeta.
    assert (Sg : (0 <= R_sqrt.sqrt (IZR (sqsum (zlen a) f)))%R) by apply R_sqrt.sqrt_pos. assert (S1 : (0 <= IZR (sqsum (zlen a) f))%R) by (apply IZR_le; lia). pose proof (bpow_gt_0 radix2 k) as Bk. assert (U : (bpow radix2 (-53) <= 1)%R) by (change 1%R with (bpow radix2 0); apply bpow_le; lia). pose proof D as D'. apply Rabs_le_inv in D'.
    split.
    + apply Rle_Qle. rewrite Eq. replace (Q2R 0) with 0%R by (unfold Q2R; cbn; lra). apply Rmult_le_pos; [apply Rmult_le_pos; lra|lra].
    + apply Rle_Qle. rewrite Q2R_abs, Q2R_minus, !Q2R_mult, Q2R_Z, !Q2R_q2, Eq. pose proof (R_sqrt.sqrt_sqrt _ S1) as SS. set (r := R_sqrt.sqrt (IZR (sqsum (zlen a) f))) in *. rewrite <- SS. replace (2 * k) with (k + k) by lia. rewrite bpow_plus.
      replace (r * bpow radix2 k * (1 + d) * (r * bpow radix2 k * (1 + d)) - r * r * (bpow radix2 k * bpow radix2 k))%R with (r * r * (bpow radix2 k * bpow radix2 k) * ((1 + d) * (1 + d) - 1))%R by ring. rewrite Rabs_mult. rewrite (Rabs_pos_eq (r * r * (bpow radix2 k * bpow radix2 k))) by nra. apply Rmult_le_compat_l; [nra|]. now apply sq_err.
Qed.
(** the unit vector: the direction is kept, and the square of every component is that of the exact one up to 2^-49 *)
Theorem C108_normalize a k f B : vholds a k f B -> 0 <= B -> zlen a * (B * B) <= 2 ^ 53 -> -250 <= k <= 225 -> zsum (zlen a) (fun i => f i * f i) <> 0 ->
  exists l, normalize a = Val l /\ zlen l = zlen a /\ forall i, 0 <= i < zlen a -> exists q, dbl (vat l i) q /\ (0 <= q * inject_Z (f i))%Q /\ (Qabs (q * q * inject_Z (zsum (zlen a) (fun i => f i * f i)%Z) - inject_Z (f i * f i)) <= inject_Z (f i * f i) * q2 (-49))%Q.
Proof.
  intros H B0 L K N. destruct (normalize_r a k f B H B0 L K N) as (l & E & Ll & G). exists l. split; [exact E|]. split; [exact Ll|]. intros i Hi. destruct (G i Hi) as (r & R & P & Er). destruct (is_dbl _ _ R) as (q & Dq & <-). exists q. split; [exact Dq|]. split.
  - apply Rle_Qle. rewrite Q2R_mult, Q2R_Z. replace (Q2R 0) with 0%R by (unfold Q2R; cbn; lra). exact P.
  - apply Rle_Qle. rewrite Q2R_abs, Q2R_minus, !Q2R_mult, !Q2R_Z, Q2R_q2. exact Er.
Qed.
(** the zero vector has no direction; it is not rejected, every component of the answer is not a number *)
Theorem C108_zero_refuted n : exists l, normalize (repeat (S754_zero false) n) = Val l /\ length l = n /\ Forall (fun x => x = S754_nan) l.
Proof.
  set (a := repeat (S754_zero false) n). assert (La : zlen a = Z.of_nat n) by (unfold zlen, a; now rewrite repeat_length). assert (Va : forall i, vat a i = S754_zero false) by (intros i; unfold vat, a; destruct (Nat.lt_ge_cases (Z.to_nat i) n); [apply nth_repeat|apply nth_overflow; now rewrite repeat_length]).
  assert (F0 : forall m, fsum (Z.of_nat m) (fun i => mul64 (vat a i) (vat a i)) = S754_zero false). { induction m as [|m IH]; [reflexivity|]. rewrite Nat2Z.inj_succ. change (Z.succ (Z.of_nat m)) with (Z.of_nat m + 1). rewrite fsum_S by lia. rewrite IH, Va. reflexivity. }
  assert (E : vabs a = Val (S754_zero false)). { unfold vabs. rewrite sq_ok. cbn [bind]. rewrite La, F0. reflexivity. }
  unfold normalize. rewrite E. cbn [bind]. destruct (vmap_ok (fun x => div64 x (S754_zero false)) a) as (l & -> & Ll & G). exists l. split; [reflexivity|]. rewrite La in Ll. split; [unfold zlen in Ll; lia|]. apply Forall_forall. intros x Hx. apply (In_nth _ _ (S754_zero false)) in Hx as (i & Hi & <-). assert (Hi' : 0 <= Z.of_nat i < zlen a) by (unfold zlen in Ll; lia). specialize (G _ Hi'). unfold vat at 1 in G. rewrite Nat2Z.id in G. rewrite G, Va. reflexivity.
Qed.
(** * the hypotheses are met *)
Lemma ints_hold (l : list Z) B : Forall (fun z => - B <= z <= B) l -> B <= 2 ^ 53 -> vholds (map int64f l) 0 (fun i => nth (Z.to_nat i) l 0) B.
Proof.
  intros F Bd i Hi. assert (Q : In (nth (Z.to_nat i) l 0) l) by (apply nth_In; unfold zlen in Hi; rewrite map_length in Hi; lia). rewrite Forall_forall in F. specialize (F _ Q). split; [|exact F]. unfold vat. change (S754_zero false) with (int64f 0). rewrite map_nth, at_r. cbn [bpow]. rewrite Rmult_1_r. apply int64_r. lia.
Qed.
Example ex_C108 : vholds (map int64f [3; -4; 12]) 0 (fun i => nth (Z.to_nat i) [3; -4; 12] 0) 12 /\ zsum (zlen (map int64f [3; -4; 12])) (fun i => nth (Z.to_nat i) [3; -4; 12] 0 * nth (Z.to_nat i) [3; -4; 12] 0) = 13 * 13 /\
  vabs (map int64f [3; -4; 12]) = Val (int64f 13) /\ dotProduct (map int64f [3; -4; 12]) (map int64f [1; 2; 3]) = Val (int64f 31).
Proof. split; [apply ints_hold; [repeat (apply Forall_cons; [cbn; lia|]); apply Forall_nil|lia]|]. split; [reflexivity|]. split; vm_compute; reflexivity. Qed.
Example ex_C107 : norm1 (Mat 2 2 (map int64f [1; -3; 2; 9])) = Val (int64f 11) /\ normInf (Mat 2 2 (map int64f [1; -3; 2; 9])) = Val (int64f 12) /\ trace (Mat 2 2 (map int64f [1; -3; 2; 9])) = Val (int64f 10) /\ nonZeroElementCount (Mat 2 2 (map int64f [1; 0; 0; 9])) = Val 2.
Proof. repeat split; vm_compute; reflexivity. Qed.
Print Assumptions C107_norm1.
Print Assumptions C107_normInf.
Print Assumptions C107_transpose.
Print Assumptions C107_trace.
Print Assumptions C107_trace_exact.
Print Assumptions C107_count.
Print Assumptions C108_dot.
Print Assumptions C108_dot_refuted.
Print Assumptions C108_dot_exact.
Print Assumptions C108_sum.
Print Assumptions C108_mismatch.
Print Assumptions C108_scale.
Print Assumptions C108_length_exact.
Print Assumptions C108_length.
Print Assumptions C108_normalize.
Print Assumptions C108_zero_refuted.
