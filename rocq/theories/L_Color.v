From Coq Require Import Reals Lra ZArith QArith Qabs Qreals.
From Flocq Require Import Core BinarySingleNaN.
From Coq Require Import SpecFloat.
From Verif Require Import Base M_Float M_Color S_Color L_Float L_Float2.
Local Open Scope Z_scope.
Ltac Zify.zify_post_hook ::= Z.to_euclidean_division_equations.

Definition u : R := (/ 33554432)%R.
Lemma bpow_u k : 0 <= k -> bpow radix2 (k - 25) = (IZR (2 ^ k) * u)%R.
Proof. intros H. unfold Z.sub. rewrite bpow_plus, <- (IZR_Zpower radix2) by exact H. reflexivity. Qed.
Lemma err0 x : (-1 <= x <= 1)%R -> (- u <= r32 x - x <= u)%R.
Proof. intros H. pose proof (r32_err x 0 ltac:(lia)) as E. change (bpow radix2 0) with 1%R in E. specialize (E ltac:(apply Rabs_le; lra)). rewrite (bpow_u 0) in E by lia. apply Rabs_le_inv in E. change (IZR (2 ^ 0)) with 1%R in E. lra. Qed.
Lemma err x k : 0 <= k <= 20 -> (- IZR (2 ^ k) <= x <= IZR (2 ^ k))%R -> (- (IZR (2 ^ k) * u) <= r32 x - x <= IZR (2 ^ k) * u)%R.
Proof.
  intros Hk H. pose proof (r32_err x k ltac:(lia)) as E. rewrite <- (bpow_u k) by lia. apply Rabs_le_inv, E. rewrite <- (IZR_Zpower radix2) by lia. change (Zpower radix2 k) with (2 ^ k). apply Rabs_le. lra.
Qed.
Lemma floor_near v t M : 0 < M -> (- 1 < (v - IZR t / IZR M) * IZR M < 1)%R -> rounded_down (Zfloor v) t M.
Proof.
  intros HM H. assert (PM : (0 < IZR M)%R) by (apply IZR_lt; exact HM). assert (E : (v * IZR M - IZR t = (v - IZR t / IZR M) * IZR M)%R) by (field; lra). rewrite <- E in H. clear E.
  pose proof (Zfloor_lb v) as L. pose proof (Zfloor_ub v) as U. set (z := Zfloor v) in *.
  assert (A : z * M < t + 1). { apply lt_IZR. rewrite mult_IZR, plus_IZR. apply Rle_lt_trans with (v * IZR M)%R; [apply Rmult_le_compat_r; lra|lra]. }
  assert (B : t - 1 < (z + 1) * M). { apply lt_IZR. rewrite mult_IZR, plus_IZR, minus_IZR. apply Rlt_trans with (v * IZR M)%R; [lra|]. apply Rmult_lt_compat_r; lra. }
  unfold rounded_down. pose proof (Z.div_mod t M ltac:(lia)) as D. pose proof (Z.mod_pos_bound t M HM). set (q := t / M) in *. set (r := t mod M) in *. assert (z <= q) by nia. assert (q - 1 <= z) by nia. destruct (Z.eq_dec z q); [now left|right]. assert (z = q - 1) by lia. split; [|assumption]. nia.
Qed.
(** a byte divided by 255 *)
Definition F (x : Z) : R := r32 (IZR x / 255).
Lemma byte_R x : byte x -> (0 <= IZR x <= 255)%R.
Proof. intros [H1 H2]. split; apply IZR_le; assumption. Qed.
Lemma F_r x : byte x -> is32 (div32 (int32f x) (int32f 255)) (F x).
Proof.
  intros H. pose proof (byte_R x H). unfold byte in H. apply (div32_r _ _ (IZR x) 255 0 1); [apply int32_r; lia|apply int32_r; lia|lra|lia|lia|]. lra.
Qed.
Lemma F_range x : byte x -> (0 <= F x <= 1)%R.
Proof. intros H. pose proof (byte_R x H). apply (r32_range _ 0 1); [lia|lia|]. lra. Qed.
Lemma F_le x y : x <= y -> (F x <= F y)%R.
Proof. intros H. apply r32_le. apply IZR_le in H. lra. Qed.
Lemma F_err x : byte x -> (- u <= F x - IZR x / 255 <= u)%R.
Proof. intros H. pose proof (byte_R x H). apply err0. lra. Qed.
Lemma F255 : F 255 = 1%R.
Proof. unfold F. replace (255 / 255)%R with 1%R by field. apply (r32_int 1). lia. Qed.
Lemma fmax_r x y a b : is32 x (F a) -> is32 y (F b) -> is32 (fmax x y) (F (Z.max a b)).
Proof.
  intros X Y. unfold fmax. rewrite (ltb_r 24 128 _ _ _ _ X Y). destruct (Rlt_bool_spec (F a) (F b)) as [L|L].
  - rewrite Z.max_r; [exact Y|]. destruct (Z_le_gt_dec a b) as [Q|Q]; [exact Q|]. pose proof (F_le b a ltac:(lia)). lra.
  - destruct (Z_le_gt_dec a b) as [Q|Q]; [|rewrite Z.max_l by lia; exact X]. rewrite Z.max_r by exact Q. replace (F b) with (F a); [exact X|]. pose proof (F_le a b Q). lra.
Qed.
(** the key for the greatest component M *)
Definition K (M : Z) : R := r32 (1 - F M).
Lemma K_r x M : byte M -> is32 x (F M) -> is32 (sub32 (int32f 1) x) (K M).
Proof. intros H X. pose proof (F_range M H). apply (sub32_r _ _ 1 (F M) 0 1); [apply int32_r; lia|exact X|lia|lia|lra]. Qed.
Lemma K_range M : byte M -> (0 <= K M <= 1)%R.
Proof. intros H. pose proof (F_range M H). apply (r32_range _ 0 1); [lia|lia|lra]. Qed.
Lemma K_err M : byte M -> (- (2 * u) <= K M - (1 - IZR M / 255) <= 2 * u)%R.
Proof. intros H. pose proof (F_range M H). pose proof (F_err M H). pose proof (err0 (1 - F M) ltac:(lra)). unfold K. lra. Qed.
Lemma mul_bound a b A B : (- A <= a <= A)%R -> (0 <= b <= B)%R -> (0 <= A)%R -> (- (A * B) <= a * b <= A * B)%R.
Proof. intros. split; nra. Qed.
Lemma u_pos : (0 < u)%R. Proof. unfold u. lra. Qed.
Lemma part_ok X k x M : byte x -> byte M -> x <= M -> 1 <= M -> is32 X (F x) -> is32 k (K M) ->
  exists v, is32 (mul32 (int32f 255) (cmyk_part X k)) v /\ (0 <= v < 256)%R /\ rounded_down (Zfloor v) (255 * (M - x)) M.
Proof.
  intros Hx HM Hle H1 HX Hk. pose proof (F_range x Hx). pose proof (F_err x Hx). pose proof (K_range M HM). pose proof (K_err M HM). pose proof (byte_R x Hx). pose proof (byte_R M HM). pose proof u_pos as U0. assert (UU : u = (/ 33554432)%R) by reflexivity.
  assert (RM : (1 <= IZR M)%R) by (apply IZR_le; exact H1). assert (RxM : (IZR x <= IZR M)%R) by (apply IZR_le; exact Hle).
  pose proof (K_r X x Hx HX) as HA. fold (K x) in HA. pose proof (K_range x Hx) as Ka. pose proof (K_err x Hx) as Ea. assert (KK : (K M <= K x)%R) by (apply r32_le; pose proof (F_le x M Hle); lra).
  assert (Hn : is32 (sub32 (sub32 (int32f 1) X) k) (r32 (K x - K M))) by (apply (sub32_r _ _ (K x) (K M) 0 1); [exact HA|exact Hk|lia|lia|lra]).
  assert (Rn : (0 <= r32 (K x - K M))%R) by (apply (r32_range _ 0 1); [lia|lia|lra]). pose proof (err0 (K x - K M) ltac:(lra)) as En. set (n := r32 (K x - K M)) in *.
  assert (Hd : is32 (sub32 (int32f 1) k) (r32 (1 - K M))) by (apply (sub32_r _ _ 1 (K M) 0 1); [apply int32_r; lia|exact Hk|lia|lia|lra]).
  pose proof (err0 (1 - K M) ltac:(lra)) as Ed. assert (ND : (n <= r32 (1 - K M))%R) by (unfold n; apply r32_le; lra). set (d := r32 (1 - K M)) in *.
  set (rho := ((IZR M - IZR x) / IZR M)%R). assert (Rr : (0 <= rho <= 1)%R). { unfold rho. split; [apply Rmult_le_pos; [lra|left; apply Rinv_0_lt_compat; lra]|]. apply Rmult_le_reg_r with (IZR M); [lra|]. unfold Rdiv. rewrite Rmult_assoc, Rinv_l by lra. lra. }
  assert (Dlow : (IZR M / 256 <= d)%R) by lra. assert (Dpos : (0 < d)%R) by lra.
  assert (Er : (rho * (IZR M / 255) = (IZR M - IZR x) / 255)%R) by (unfold rho; field; lra).
  assert (Enn : (- (5 * u) <= n - (IZR M - IZR x) / 255 <= 5 * u)%R) by lra. assert (Edd : (- (3 * u) <= d - IZR M / 255 <= 3 * u)%R) by lra.
  assert (Q : (- (8 * u) <= n - rho * d <= 8 * u)%R). { replace (n - rho * d)%R with ((n - (IZR M - IZR x) / 255) - rho * (d - IZR M / 255))%R by (rewrite Rmult_minus_distr_l, Er; ring). assert (- (3 * u) <= rho * (d - IZR M / 255) <= 3 * u)%R by (pose proof (mul_bound (d - IZR M / 255) rho (3 * u) 1 ltac:(lra) ltac:(lra) ltac:(lra)); lra). lra. }
  assert (C0 : (0 <= n / d <= 1)%R). { split; [apply Rmult_le_pos; [lra|left; apply Rinv_0_lt_compat; lra]|]. apply Rmult_le_reg_r with d; [lra|]. unfold Rdiv. rewrite Rmult_assoc, Rinv_l by lra. lra. }
  assert (Q2 : (- (2048 * u) <= (n / d - rho) * IZR M <= 2048 * u)%R).
  { assert (E : ((n / d - rho) * IZR M * d = (n - rho * d) * IZR M)%R) by (field; lra). split; (apply Rmult_le_reg_r with d; [lra|]); rewrite E; pose proof (mul_bound (n - rho * d) (IZR M) (8 * u) (256 * d) ltac:(lra) ltac:(lra) ltac:(lra)); lra. }
  assert (Hc : is32 (cmyk_part X k) (r32 (n / d))) by (apply (div32_r _ _ n d 0 1); [exact Hn|exact Hd|lra|lia|lia|lra]).
  pose proof (err0 (n / d) ltac:(lra)) as Ec. assert (Rc : (0 <= r32 (n / d) <= 1)%R) by (apply (r32_range _ 0 1); [lia|lia|lra]). set (c := r32 (n / d)) in *.
  assert (Hv : is32 (mul32 (int32f 255) (cmyk_part X k)) (r32 (255 * c))) by (apply (mul32_r _ _ 255 c 0 255); [apply int32_r; lia|exact Hc|lia|lia|lra]).
  pose proof (err (255 * c) 8 ltac:(lia)) as Ev. change (IZR (2 ^ 8)) with 256%R in Ev. specialize (Ev ltac:(lra)). assert (Rv : (0 <= r32 (255 * c) <= 255)%R) by (apply (r32_range _ 0 255); [lia|lia|lra]).
  exists (r32 (255 * c)). split; [exact Hv|]. split; [lra|]. apply floor_near; [lia|]. rewrite mult_IZR, minus_IZR.
  assert (G : ((r32 (255 * c) - 255 * (IZR M - IZR x) / IZR M) * IZR M = (r32 (255 * c) - 255 * c) * IZR M + 255 * ((c - n / d) * IZR M + (n / d - rho) * IZR M))%R) by (unfold rho; field; lra). rewrite G.
  assert (G1 : (- (65280 * u) <= (r32 (255 * c) - 255 * c) * IZR M <= 65280 * u)%R) by (pose proof (mul_bound (r32 (255 * c) - 255 * c) (IZR M) (256 * u) 255 ltac:(lra) ltac:(lra) ltac:(lra)); lra). assert (G2 : (- (255 * u) <= (c - n / d) * IZR M <= 255 * u)%R) by (pose proof (mul_bound (c - n / d) (IZR M) u 255 ltac:(lra) ltac:(lra) ltac:(lra)); lra). rewrite UU in *. lra.
Qed.
Lemma key_ok k M : byte M -> is32 k (K M) -> exists v, is32 (mul32 (int32f 255) k) v /\ (0 <= v < 256)%R /\ rounded_down (Zfloor v) (255 - M) 1.
Proof.
  intros HM Hk. pose proof (K_range M HM). pose proof (K_err M HM). pose proof u_pos. assert (UU : u = (/ 33554432)%R) by reflexivity. exists (r32 (255 * K M)). split; [apply (mul32_r _ _ 255 (K M) 0 255); [apply int32_r; lia|exact Hk|lia|lia|lra]|].
  assert (Rv : (0 <= r32 (255 * K M) <= 255)%R) by (apply (r32_range _ 0 255); [lia|lia|lra]). pose proof (err (255 * K M) 8 ltac:(lia)) as Ev. change (IZR (2 ^ 8)) with 256%R in Ev. specialize (Ev ltac:(lra)). split; [lra|]. apply floor_near; [lia|]. rewrite minus_IZR. rewrite UU in *. lra.
Qed.
