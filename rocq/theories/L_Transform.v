(** L_Transform.v -- absolute errors of double expressions. *)
From Coq Require Import Reals Lra Psatz QArith.
From Flocq Require Import Core.
From Verif Require Import Base M_Float M_MathF M_Rect M_Matrix M_Geometry S_Double S_Matrix L_Float L_Double L_MathF P_MathF L_Matrix L_Matrix2 L_Matrix4 L_Matrix5 L_Geometry.
Local Open Scope R_scope.

(** x is a double within E of a, and a is at most B *)
Definition app (B E : R) (x : spec_float) (a : R) : Prop := exists r, is64 x r /\ Rabs (r - a) <= E /\ Rabs a <= B.
Lemma app_0 B x a : is64 x a -> Rabs a <= B -> app B 0 x a.
Proof. intros X A. exists a. split; [exact X|]. split; [rewrite Rminus_diag_eq, Rabs_R0 by reflexivity; lra|exact A]. Qed.
Lemma app_le B E B' E' x a : app B E x a -> B <= B' -> E <= E' -> app B' E' x a.
Proof. intros (r & X & H & A) L M. exists r. split; [exact X|]. split; lra. Qed.
Lemma app_eq B E x a b : app B E x a -> a = b -> app B E x b. Proof. intros H <-. exact H. Qed.
Lemma uu_val : uu = / 9007199254740992. Proof. unfold uu. cbn. reflexivity. Qed.
Lemma app_add B1 E1 B2 E2 B E x y a b : app B1 E1 x a -> app B2 E2 y b -> B1 + B2 <= B -> E1 + E2 + uu * (B1 + B2 + E1 + E2) + tt_ <= E -> B1 + B2 + E1 + E2 <= bpow radix2 1000 -> app B E (add64 x y) (a + b).
Proof.
  intros (r & X & RX & AX) (s & Y & RY & AY) HB HE HM. assert (S : Rabs (r + s - (a + b)) <= E1 + E2). { replace (r + s - (a + b)) with ((r - a) + (s - b)) by ring. eapply Rle_trans; [apply Rabs_triang|]. lra. }
  assert (T : Rabs (a + b) <= B1 + B2) by (eapply Rle_trans; [apply Rabs_triang|lra]). pose proof (le_abs _ _ _ S) as M.
  exists (r64 (r + s)). split; [apply (add64_r x y r s 1000); [lia|exact X|exact Y|lra]|]. split; [|lra]. pose proof (rerr (r + s)) as Q. pose proof (tri _ _ _ _ _ Q S) as W. pose proof uu_pos. nra.
Qed.
Lemma app_sub B1 E1 B2 E2 B E x y a b : app B1 E1 x a -> app B2 E2 y b -> B1 + B2 <= B -> E1 + E2 + uu * (B1 + B2 + E1 + E2) + tt_ <= E -> B1 + B2 + E1 + E2 <= bpow radix2 1000 -> app B E (sub64 x y) (a - b).
Proof.
  intros (r & X & RX & AX) (s & Y & RY & AY) HB HE HM. assert (S : Rabs (r - s - (a - b)) <= E1 + E2). { replace (r - s - (a - b)) with ((r - a) - (s - b)) by ring. eapply Rle_trans; [apply Rabs_triang|]. rewrite Rabs_Ropp. lra. }
  assert (T : Rabs (a - b) <= B1 + B2) by (eapply Rle_trans; [apply Rabs_triang|rewrite Rabs_Ropp; lra]). pose proof (le_abs _ _ _ S) as M.
  exists (r64 (r - s)). split; [apply (sub64_r x y r s 1000); [lia|exact X|exact Y|lra]|]. split; [|lra]. pose proof (rerr (r - s)) as Q. pose proof (tri _ _ _ _ _ Q S) as W. pose proof uu_pos. nra.
Qed.
Lemma app_mul B1 E1 B2 E2 B E x y a b : app B1 E1 x a -> app B2 E2 y b -> B1 * B2 <= B -> B1 * E2 + E1 * B2 + E1 * E2 + uu * ((B1 + E1) * (B2 + E2)) + tt_ <= E -> (B1 + E1) * (B2 + E2) <= bpow radix2 1000 -> app B E (mul64 x y) (a * b).
Proof.
  intros (r & X & RX & AX) (s & Y & RY & AY) HB HE HM. pose proof (Rabs_pos (r - a)). pose proof (Rabs_pos (s - b)). pose proof (Rabs_pos a). pose proof (Rabs_pos b).
  assert (S : Rabs (r * s - a * b) <= B1 * E2 + E1 * B2 + E1 * E2). { replace (r * s - a * b) with (a * (s - b) + (r - a) * b + (r - a) * (s - b)) by ring. eapply Rle_trans; [apply Rabs_triang|]. pose proof (Rabs_triang (a * (s - b)) ((r - a) * b)) as Q. rewrite !Rabs_mult in *.
    assert (Rabs a * Rabs (s - b) <= B1 * E2) by (apply Rmult_le_compat; lra). assert (Rabs (r - a) * Rabs b <= E1 * B2) by (apply Rmult_le_compat; lra). assert (Rabs (r - a) * Rabs (s - b) <= E1 * E2) by (apply Rmult_le_compat; lra). lra. }
  assert (M : Rabs (r * s) <= (B1 + E1) * (B2 + E2)). { rewrite Rabs_mult. apply Rmult_le_compat; try apply Rabs_pos; [pose proof (le_abs _ _ _ RX)|pose proof (le_abs _ _ _ RY)]; lra. }
  exists (r64 (r * s)). split; [apply (mul64_r x y r s 1000); [lia|exact X|exact Y|lra]|]. split; [|rewrite Rabs_mult; eapply Rle_trans; [apply Rmult_le_compat; try apply Rabs_pos; [exact AX|exact AY]|exact HB]].
  pose proof (rerr (r * s)) as Q. pose proof (tri _ _ _ _ _ Q S) as W. pose proof uu_pos. nra.
Qed.
Lemma app_opp B E x a : app B E x a -> app B E (SFopp x) (- a).
Proof. intros (r & X & R & A). exists (- r). split; [now apply opp_r|]. split; [replace (- r - - a) with (- (r - a)) by ring; now rewrite Rabs_Ropp|now rewrite Rabs_Ropp]. Qed.
(** 1 / y for y near 1 *)
Lemma app_inv E x : app 2 E x 1 -> 0 <= E <= / 100 -> app 1 (2 * E + 3 * uu) (div64 (int64f 1) x) 1.
Proof.
  intros (r & X & R & _) HE. apply Rabs_le_inv in R. assert (P : 99 / 100 <= r <= 101 / 100) by lra.
  assert (D : Rabs (1 / r - 1) <= 102 / 100 * E). { replace (1 / r - 1) with ((1 - r) / r) by (field; lra). unfold Rdiv. rewrite Rabs_mult, (Rabs_pos_eq (/ r)) by (left; apply Rinv_0_lt_compat; lra). 
    assert (/ r <= 102 / 100). { apply (Rmult_le_reg_l r); [lra|]. rewrite Rinv_r by lra. lra. } assert (Rabs (1 - r) <= E) by (apply Rabs_le; lra). assert (0 < / r) by (apply Rinv_0_lt_compat; lra). pose proof (Rabs_pos (1 - r)). nra. }
  pose proof (le_abs _ _ _ D) as M. rewrite Rabs_R1 in M.
  exists (r64 (1 / r)). split; [apply (div64_r _ _ 1 r 1); [lia|apply (int64_r 1); lia|exact X|lra|change (bpow radix2 1) with 2; lra]|]. split; [|rewrite Rabs_R1; lra].
  pose proof (rerr (1 / r)) as Q. pose proof (tri _ _ _ _ _ Q D) as W. pose proof uu_pos. pose proof tt_uu. nra.
Qed.
(** products with 0 and 1 in cross products *)
Lemma nil_r x a : is64 x a -> is64 (mul64 (int64f 0) x) 0.
Proof. intros X. assert (E : r64 (0 * a) = 0) by (rewrite Rmult_0_l; apply r64_0). rewrite <- E. apply (mul64_r _ _ 0 a 0); [lia|apply zero_r|exact X|rewrite Rmult_0_l, Rabs_R0; apply bpow_ge_0]. Qed.
Lemma one_r x a : is64 x a -> is64 (mul64 (int64f 1) x) a. Proof. intros X. exact (proj2 (mul_one x a X)). Qed.
Lemma sub0_r x y a : is64 x a -> is64 y 0 -> is64 (sub64 x y) a.
Proof. intros X Y. pose proof (fmt64 _ _ X) as F. pose proof (is64_max _ _ X) as M. assert (E : r64 (a - 0) = a) by (rewrite Rminus_0_r; now apply r64_fmt). rewrite <- E. apply (sub_r 53 1024 p53 e1024); [exact X|exact Y|]. now rewrite E. Qed.
Lemma sub0l_r x y a : is64 x 0 -> is64 y a -> is64 (sub64 x y) (- a).
Proof. intros X Y. pose proof (fmt64 _ _ Y) as F. pose proof (is64_max _ _ Y) as M. assert (E : r64 (0 - a) = - a) by (replace (0 - a) with (- a) by ring; rewrite r64_opp; f_equal; now apply r64_fmt). rewrite <- E. apply (sub_r 53 1024 p53 e1024); [exact X|exact Y|]. now rewrite E, Rabs_Ropp. Qed.

(** ** a normalised vector: coordinates up to 2, length at least 1/65 *)
Section Norm.
Variables (v : vertex3) (x y z : R).
Hypothesis X : is64 (vx v) x. Hypothesis Y : is64 (vy v) y. Hypothesis Z0 : is64 (vz v) z.
Let n2 := x * x + y * y + z * z.
Let n := sqrt n2.
Hypothesis L : / 4225 <= n2 <= 4.
Lemma n_sq : n * n = n2. Proof. apply sqrt_sqrt. lra. Qed.
Lemma n_pos : / 65 <= n <= 2.
Proof. split; [|replace 2 with (sqrt (2 * 2)) by (apply sqrt_square; lra)]. - replace (/ 65) with (sqrt (/ 65 * / 65)) by (apply sqrt_square; lra). apply sqrt_le_1_alt. lra. - apply sqrt_le_1_alt. lra. Qed.
Lemma sq_le a : a * a <= n2 -> Rabs a <= n.
Proof. intros H. apply Rsqr_incr_0; [|apply Rabs_pos|pose proof n_pos; lra]. unfold Rsqr. rewrite <- Rabs_mult, Rabs_pos_eq by nra. rewrite n_sq. exact H. Qed.
Lemma tt_n2 : tt_ <= uu * n2 / 100000 /\ tt_ <= uu * n / 100000.
Proof.
  pose proof uu_pos as U. pose proof tt_small as TS. pose proof n_pos as NP.
  assert (H : bpow radix2 (-100) <= / 1000000000). { apply Rle_trans with (bpow radix2 (-30)); [apply bpow_le; lia|]. change (bpow radix2 (-30)) with (/ 1073741824). lra. }
  assert (uu * bpow radix2 (-100) <= uu * / 1000000000) by (apply Rmult_le_compat_l; lra).
  assert (uu * / 1000000000 <= uu * (n2 / 100000)) by (apply Rmult_le_compat_l; lra). assert (uu * / 1000000000 <= uu * (n / 100000)) by (apply Rmult_le_compat_l; lra). lra.
Qed.
Lemma sq_r (t : spec_float) a : is64 t a -> a * a <= 4 -> exists p, is64 (mul64 t t) p /\ 0 <= p <= a * a + a * a / 100 + tt_ /\ - (uu * (a * a) + tt_) <= p - a * a <= uu * (a * a) + tt_.
Proof.
  intros H B. assert (P : 0 <= a * a) by nra. exists (r64 (a * a)). split; [apply (mul64_r _ _ a a 10); [lia|exact H|exact H|rewrite Rabs_pos_eq by exact P; change (bpow radix2 10) with 1024; lra]|].
  pose proof (rerr (a * a)) as R. rewrite (Rabs_pos_eq (a * a)) in R by exact P. apply Rabs_le_inv in R. assert (uu * (a * a) <= / 100 * (a * a)) by (apply Rmult_le_compat_r; [exact P|pose proof u_small; lra]). pose proof (r64_pos _ P). lra.
Qed.
Lemma abs3_app : exists r, is64 (abs3 v) r /\ Rabs (r - n) <= 6 * uu * n.
Proof.
  pose proof uu_pos as U. pose proof u_small as US. pose proof tt_pos as TP. destruct tt_n2 as [T TN]. pose proof n_pos as NP. pose proof n_sq as NS.
  assert (HX : 0 <= x * x) by nra. assert (HY : 0 <= y * y) by nra. assert (HZ : 0 <= z * z) by nra.
  destruct (sq_r _ _ X ltac:(unfold n2 in L; lra)) as (p & P1 & B1 & R1). destruct (sq_r _ _ Y ltac:(unfold n2 in L; lra)) as (q & P2 & B2 & R2). destruct (sq_r _ _ Z0 ltac:(unfold n2 in L; lra)) as (w & P3 & B3 & R3).
  set (A := x * x) in *. set (B := y * y) in *. set (C := z * z) in *. assert (EN : n2 = A + B + C) by reflexivity. clearbody A B C.
  assert (TU : tt_ <= / 100) by (pose proof tt_uu; lra).
  assert (UP : uu * (p + q) <= uu * (A + B) * (101 / 100) + 2 * tt_). { apply Rle_trans with (uu * (A + A / 100 + tt_ + (B + B / 100 + tt_))); [apply Rmult_le_compat_l; lra|]. assert (uu * tt_ <= 1 * tt_) by (apply Rmult_le_compat_r; lra). lra. }
  assert (EU : uu * n2 = uu * A + uu * B + uu * C) by (rewrite EN; ring). assert (0 <= uu * A) by (apply Rmult_le_pos; lra). assert (0 <= uu * B) by (apply Rmult_le_pos; lra). assert (0 <= uu * C) by (apply Rmult_le_pos; lra).
  assert (Q1 : is64 (add64 (mul64 (vx v) (vx v)) (mul64 (vy v) (vy v))) (r64 (p + q))) by (apply (add64_r _ _ p q 10); [lia|exact P1|exact P2|rewrite Rabs_pos_eq by lra; change (bpow radix2 10) with 1024; lra]).
  assert (Ps1 : 0 <= r64 (p + q)) by (apply r64_pos; lra). pose proof (rerr (p + q)) as R4. rewrite (Rabs_pos_eq (p + q)) in R4 by lra. apply Rabs_le_inv in R4. set (s1 := r64 (p + q)) in *. clearbody s1.
  assert (US1 : uu * (s1 + w) <= uu * n2 * (103 / 100) + 10 * tt_). { apply Rle_trans with (uu * (n2 + n2 * (2 / 100) + 9 * tt_)); [apply Rmult_le_compat_l; [lra|]|].
    - assert (uu * (A + B) <= / 1000 * (A + B)) by (apply Rmult_le_compat_r; lra). rewrite EN. lra.
    - assert (uu * tt_ <= 1 * tt_) by (apply Rmult_le_compat_r; lra). lra. }
  assert (W4 : s1 + w <= 100). { assert (uu * (A + B) <= / 1000 * (A + B)) by (apply Rmult_le_compat_r; lra). lra. }
  assert (Q2 : is64 (add64 (add64 (mul64 (vx v) (vx v)) (mul64 (vy v) (vy v))) (mul64 (vz v) (vz v))) (r64 (s1 + w))) by (apply (add64_r _ _ s1 w 10); [lia|exact Q1|exact P3|rewrite Rabs_pos_eq by lra; change (bpow radix2 10) with 1024; lra]).
  assert (Ps : 0 <= r64 (s1 + w)) by (apply r64_pos; lra). pose proof (rerr (s1 + w)) as R5. rewrite (Rabs_pos_eq (s1 + w)) in R5 by lra. apply Rabs_le_inv in R5. set (s := r64 (s1 + w)) in *. clearbody s.
  assert (S1 : Rabs (s - n2) <= 4 * (uu * n2)) by (apply Rabs_le; lra).
  assert (SN : Rabs (sqrt s - n) <= 4 * (uu * n)).
  { assert (SS : sqrt s * sqrt s = s) by (apply sqrt_sqrt; exact Ps). pose proof (sqrt_pos s) as SP.
    assert (F : Rabs (sqrt s - n) * (sqrt s + n) = Rabs (s - n2)). { rewrite <- (Rabs_pos_eq (sqrt s + n)) by lra. rewrite <- Rabs_mult. f_equal. transitivity (sqrt s * sqrt s - n * n); [ring|now rewrite SS, NS]. }
    apply (Rmult_le_reg_r n); [lra|]. apply Rle_trans with (Rabs (sqrt s - n) * (sqrt s + n)); [apply Rmult_le_compat_l; [apply Rabs_pos|lra]|]. rewrite F. replace (4 * (uu * n) * n) with (4 * (uu * (n * n))) by ring. rewrite NS. exact S1. }
  pose proof (le_abs _ _ _ SN) as SB. rewrite (Rabs_pos_eq n) in SB by lra.
  exists (r64 (sqrt s)). split; [unfold abs3, sqrt64; apply sqrt_r; [exact Q2|exact Ps]|]. pose proof (rerr (sqrt s)) as R6. pose proof (tri _ _ _ _ _ R6 SN) as W.
  assert (uu * n <= / 100 * n) by (apply Rmult_le_compat_r; lra). assert (uu * Rabs (sqrt s) <= uu * (n + n / 10)) by (apply Rmult_le_compat_l; lra). lra.
Qed.

Lemma not_null : isEqual (abs3 v) f0 = false.
Proof.
  destruct abs3_app as (r & R & RN). destruct (isEqual (abs3 v) f0) eqn:E; [exfalso|reflexivity]. apply (equal_near _ _ _ _ R zero_r) in E. rewrite Rminus_0_r in E. apply Rabs_def2 in E. apply Rabs_le_inv in RN. pose proof n_pos as NP.
  assert (T : tol <= / 1000) by (destruct tol_lo as [_ T]; clear - T; lra). pose proof u_small. assert (uu * n <= / 100 * n) by (apply Rmult_le_compat_r; lra). lra.
Qed.
Lemma coord_app t a : is64 t a -> a * a <= n2 -> exists b, is64 (mul64 (div64 f1 (abs3 v)) t) b /\ Rabs (b - a / n) <= 11 * uu /\ (a = 0 -> b = 0).
Proof.
  intros H A. pose proof (sq_le a A) as AN. destruct abs3_app as (r & R & RN). pose proof n_pos as NP. pose proof uu_pos as U. pose proof u_small as US. pose proof tt_pos as TP. pose proof tt_uu as TU. destruct tt_n2 as [_ TN].
  assert (UN : uu * n <= n / 1000) by (unfold Rdiv; rewrite (Rmult_comm n); apply Rmult_le_compat_r; lra). pose proof RN as RN'. apply Rabs_le_inv in RN'. assert (RP : 99 / 100 * n <= r <= 101 / 100 * n) by lra.
  assert (IN : 0 < / n) by (apply Rinv_0_lt_compat; lra). assert (NI : n * / n = 1) by (apply Rinv_r; lra). assert (IR : 0 < / r) by (apply Rinv_0_lt_compat; lra). assert (RI : r * / r = 1) by (apply Rinv_r; lra). assert (IB : / n <= 65) by (apply (Rmult_le_reg_l n); [lra|]; rewrite NI; lra).
  assert (IRN : / r <= 102 / 100 * / n). { apply (Rmult_le_reg_l r); [lra|]. rewrite RI. apply Rle_trans with (99 / 100 * n * (102 / 100 * / n)); [|apply Rmult_le_compat_r; [lra|lra]]. replace (99 / 100 * n * (102 / 100 * / n)) with (99 / 100 * (102 / 100) * (n * / n)) by ring. rewrite NI. lra. }
  assert (D : Rabs (1 / r - / n) <= 62 / 10 * uu * / n). { replace (1 / r - / n) with ((n - r) * / r * / n) by (field; split; lra). rewrite !Rabs_mult, (Rabs_pos_eq (/ r)), (Rabs_pos_eq (/ n)) by lra. apply Rmult_le_compat_r; [lra|]. rewrite Rabs_minus_sym.
    apply Rle_trans with (6 * uu * n * (102 / 100 * / n)); [apply Rmult_le_compat; [apply Rabs_pos|lra|exact RN|exact IRN]|]. replace (6 * uu * n * (102 / 100 * / n)) with (6 * uu * (102 / 100) * (n * / n)) by ring. rewrite NI. lra. }
  pose proof (le_abs _ _ _ D) as M. rewrite (Rabs_pos_eq (/ n)) in M by lra. assert (UI : 0 <= uu * / n <= / 1000 * / n) by (split; [apply Rmult_le_pos; lra|apply Rmult_le_compat_r; lra]).
  assert (Q1 : is64 (div64 f1 (abs3 v)) (r64 (1 / r))) by (apply (div64_r _ _ 1 r 10); [lia|apply (int64_r 1); lia|exact R|lra|change (bpow radix2 10) with 1024; lra]).
  assert (TI : tt_ <= / 1000 * (uu * / n)). { apply Rle_trans with (uu * n / 100000); [exact TN|]. assert (n <= 4 * / n) by (apply (Rmult_le_reg_r n); [lra|]; replace (4 * / n * n) with (4 * (n * / n)) by ring; rewrite NI; nra). assert (uu * n <= uu * (4 * / n)) by (apply Rmult_le_compat_l; lra). lra. }
  pose proof (rerr (1 / r)) as R1. assert (UR : uu * Rabs (1 / r) <= uu * (101 / 100 * / n)) by (apply Rmult_le_compat_l; lra). pose proof (tri _ _ _ _ _ R1 D) as D2. set (d := r64 (1 / r)) in *. clearbody d.
  assert (D3 : Rabs (d - / n) <= 8 * uu * / n) by lra. assert (D4 : Rabs (d * a - / n * a) <= 8 * uu). { eapply Rle_trans; [apply mul_abs; exact D3|]. apply Rle_trans with (8 * uu * / n * n); [apply Rmult_le_compat_l; lra|]. replace (8 * uu * / n * n) with (8 * uu * (n * / n)) by ring. rewrite NI. lra. }
  assert (AB : Rabs (/ n * a) <= 1). { rewrite Rabs_mult, (Rabs_pos_eq (/ n)) by lra. apply Rle_trans with (/ n * n); [apply Rmult_le_compat_l; lra|lra]. } pose proof (le_abs _ _ _ D4) as M2.
  exists (r64 (d * a)). split; [apply (mul64_r _ _ d a 10); [lia|exact Q1|exact H|change (bpow radix2 10) with 1024; lra]|]. split; [|intros ->; rewrite Rmult_0_r; apply r64_0].
  pose proof (rerr (d * a)) as R2. pose proof (tri _ _ _ _ _ R2 D4) as W. replace (a / n) with (/ n * a) by (unfold Rdiv; ring). assert (uu * Rabs (d * a) <= uu * (101 / 100)) by (apply Rmult_le_compat_l; lra). lra.
Qed.
Lemma norm_app : exists a b c, is64 (vx (normalized3 v)) a /\ is64 (vy (normalized3 v)) b /\ is64 (vz (normalized3 v)) c /\ Rabs (a - x / n) <= 11 * uu /\ Rabs (b - y / n) <= 11 * uu /\ Rabs (c - z / n) <= 11 * uu /\
  (x = 0 -> a = 0) /\ (y = 0 -> b = 0) /\ (z = 0 -> c = 0).
Proof.
  unfold normalized3. rewrite not_null. unfold vmul3. cbn [vx vy vz].
  destruct (coord_app _ _ X) as (a & A1 & A2 & A3); [unfold n2; nra|]. destruct (coord_app _ _ Y) as (b & B1 & B2 & B3); [unfold n2; nra|]. destruct (coord_app _ _ Z0) as (c & C1 & C2 & C3); [unfold n2; nra|].
  exists a, b, c. tauto.
Qed.
End Norm.
