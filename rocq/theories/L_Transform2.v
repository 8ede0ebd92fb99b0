(** L_Transform2.v -- the frame of an extrusion direction and the errors of its matrices. *)
From Coq Require Import Reals Lra Psatz QArith.
From Flocq Require Import Core.
From Verif Require Import Base M_Float M_MathF M_Rect M_Matrix M_Geometry M_Transform S_Double S_Matrix L_Float L_Double L_MathF P_MathF L_Matrix L_Matrix2 L_Matrix4 L_Matrix5 L_Geometry L_Decimal L_Transform.
Local Open Scope R_scope.

(** a vector near one of length about 1, normalised *)
Lemma norm_near v a b c s : app 2 (40 * uu) (vx v) a -> app 2 (40 * uu) (vy v) b -> app 2 (40 * uu) (vz v) c -> s = a * a + b * b + c * c -> Rabs (s - 1) <= / 1000 ->
  app 2 (200 * uu) (vx (normalized3 v)) (a / sqrt s) /\ app 2 (200 * uu) (vy (normalized3 v)) (b / sqrt s) /\ app 2 (200 * uu) (vz (normalized3 v)) (c / sqrt s).
Proof.
  intros (x & X & RX & _) (y & Y & RY & _) (z & Z0 & RZ & _) ES S. apply Rabs_le_inv in S. pose proof uu_pos as U. pose proof u_small as US.
  assert (SQ : sqrt s * sqrt s = s) by (apply sqrt_sqrt; lra). pose proof (sqrt_pos s) as SP. assert (SB : 999 / 1000 <= sqrt s <= 1001 / 1000) by (split; nra).
  assert (D : forall t d, Rabs (t - d) <= 40 * uu -> d * d <= s -> Rabs (t * t - d * d) <= 82 * uu /\ Rabs d <= sqrt s).
  { intros t d H Hd. assert (DB : Rabs d <= sqrt s). { apply Rsqr_incr_0; [|apply Rabs_pos|exact SP]. unfold Rsqr. rewrite <- Rabs_mult, Rabs_pos_eq by nra. lra. } split; [|exact DB]. replace (t * t - d * d) with ((t - d) * (t + d)) by ring. rewrite Rabs_mult.
    assert (Rabs (t + d) <= 204 / 100). { pose proof (le_abs _ _ _ H). pose proof (Rabs_triang t d). lra. } apply Rle_trans with (40 * uu * (204 / 100)); [apply Rmult_le_compat; try apply Rabs_pos; lra|lra]. }
  destruct (D _ _ RX ltac:(nra)) as [DX BX]. destruct (D _ _ RY ltac:(nra)) as [DY BY]. destruct (D _ _ RZ ltac:(nra)) as [DZ BZ]. clear D.
  set (n2 := x * x + y * y + z * z). assert (DN : Rabs (n2 - s) <= 246 * uu). { apply Rabs_le_inv in DX, DY, DZ. apply Rabs_le. unfold n2. lra. }
  pose proof DN as DN'. apply Rabs_le_inv in DN'. assert (L : / 4225 <= n2 <= 4) by lra. destruct (norm_app v x y z X Y Z0 L) as (p & q & r & P & Q0 & R & EP & EQ & ER & _). fold n2 in EP, EQ, ER.
  assert (NQ : sqrt n2 * sqrt n2 = n2) by (apply sqrt_sqrt; lra). pose proof (sqrt_pos n2) as NP. assert (NB : 99 / 100 <= sqrt n2) by nra.
  assert (DS : Rabs (sqrt s - sqrt n2) <= 130 * uu). { assert (F : Rabs (sqrt s - sqrt n2) * (sqrt s + sqrt n2) = Rabs (s - n2)). { rewrite <- (Rabs_pos_eq (sqrt s + sqrt n2)) by lra. rewrite <- Rabs_mult. f_equal. transitivity (sqrt s * sqrt s - sqrt n2 * sqrt n2); [ring|now rewrite SQ, NQ]. }
    apply (Rmult_le_reg_r (19 / 10)); [lra|]. apply Rle_trans with (Rabs (sqrt s - sqrt n2) * (sqrt s + sqrt n2)); [apply Rmult_le_compat_l; [apply Rabs_pos|lra]|]. rewrite F, Rabs_minus_sym. lra. }
  assert (G : forall t d w f, is64 f w -> Rabs (w - t / sqrt n2) <= 11 * uu -> Rabs (t - d) <= 40 * uu -> Rabs d <= sqrt s -> app 2 (200 * uu) f (d / sqrt s)).
  { intros t d w f F W T B. exists w. split; [exact F|]. split.
    - assert (K : Rabs (t / sqrt n2 - d / sqrt s) <= 180 * uu). { replace (t / sqrt n2 - d / sqrt s) with (((t - d) * sqrt s + d * (sqrt s - sqrt n2)) * / (sqrt n2 * sqrt s)) by (field; split; lra). rewrite Rabs_mult.
        assert (I0 : 98 / 100 <= sqrt n2 * sqrt s) by nra. assert (I1 : 0 < / (sqrt n2 * sqrt s)) by (apply Rinv_0_lt_compat; lra). assert (I2 : / (sqrt n2 * sqrt s) <= 103 / 100). { apply (Rmult_le_reg_l (sqrt n2 * sqrt s)); [lra|]. rewrite Rinv_r by lra. lra. }
        rewrite (Rabs_pos_eq (/ _)) by lra. assert (J : Rabs ((t - d) * sqrt s + d * (sqrt s - sqrt n2)) <= 172 * uu). { eapply Rle_trans; [apply Rabs_triang|]. rewrite !Rabs_mult, (Rabs_pos_eq (sqrt s)) by lra.
          assert (Rabs (t - d) * sqrt s <= 40 * uu * (1001 / 1000)) by (apply Rmult_le_compat; try apply Rabs_pos; lra). assert (Rabs d * Rabs (sqrt s - sqrt n2) <= 1001 / 1000 * (130 * uu)) by (apply Rmult_le_compat; try apply Rabs_pos; lra). lra. }
        apply Rle_trans with (172 * uu * (103 / 100)); [apply Rmult_le_compat; try apply Rabs_pos; lra|lra]. }
      pose proof (tri _ _ _ _ _ W K). lra.
    - unfold Rdiv. assert (I1 : 0 < / sqrt s) by (apply Rinv_0_lt_compat; lra). rewrite Rabs_mult, (Rabs_pos_eq (/ _)) by lra. apply Rle_trans with (sqrt s * / sqrt s); [apply Rmult_le_compat_r; lra|]. rewrite Rinv_r by lra. lra. }
  split; [exact (G x a p _ P EP RX BX)|]. split; [exact (G y b q _ Q0 EQ RY BY)|exact (G z c r _ R ER RZ BZ)].
Qed.

(** ** exact frames *)
Definition ortho (u1 u2 u3 w1 w2 w3 n1 n2 n3 : R) : Prop :=
  u1 * u1 + u2 * u2 + u3 * u3 = 1 /\ w1 * w1 + w2 * w2 + w3 * w3 = 1 /\ n1 * n1 + n2 * n2 + n3 * n3 = 1 /\
  (w2 * n3 - w3 * n2 = u1 /\ w3 * n1 - w1 * n3 = u2 /\ w1 * n2 - w2 * n1 = u3) /\
  (n2 * u3 - n3 * u2 = w1 /\ n3 * u1 - n1 * u3 = w2 /\ n1 * u2 - n2 * u1 = w3) /\
  (u2 * w3 - u3 * w2 = n1 /\ u3 * w1 - u1 * w3 = n2 /\ u1 * w2 - u2 * w1 = n3).
Lemma ortho_make u1 u2 u3 n1 n2 n3 : u1 * u1 + u2 * u2 + u3 * u3 = 1 -> n1 * n1 + n2 * n2 + n3 * n3 = 1 -> u1 * n1 + u2 * n2 + u3 * n3 = 0 ->
  ortho u1 u2 u3 (n2 * u3 - n3 * u2) (n3 * u1 - n1 * u3) (n1 * u2 - n2 * u1) n1 n2 n3.
Proof.
  intros U N D.
  assert (T : forall a b, (a * (n1 * n1 + n2 * n2 + n3 * n3) - b * (u1 * n1 + u2 * n2 + u3 * n3) = a)%R) by (intros a b; rewrite N, D; ring).
  assert (V : forall a b, (b * (u1 * u1 + u2 * u2 + u3 * u3) - a * (u1 * n1 + u2 * n2 + u3 * n3) = b)%R) by (intros a b; rewrite U, D; ring).
  split; [exact U|]. split; [|split; [exact N|]].
  - transitivity ((n1 * n1 + n2 * n2 + n3 * n3) * (u1 * u1 + u2 * u2 + u3 * u3) - (u1 * n1 + u2 * n2 + u3 * n3) * (u1 * n1 + u2 * n2 + u3 * n3)); [ring|]. rewrite U, N, D. ring.
  - split; [|split; [now repeat split|]].
    + split; [etransitivity; [|apply (T u1 n1)]; ring|]. split; [etransitivity; [|apply (T u2 n2)]; ring|etransitivity; [|apply (T u3 n3)]; ring].
    + split; [etransitivity; [|apply (V u1 n1)]; ring|]. split; [etransitivity; [|apply (V u2 n2)]; ring|etransitivity; [|apply (V u3 n3)]; ring].
Qed.
Section Ortho.
Context (u1 u2 u3 w1 w2 w3 n1 n2 n3 : R) (O : ortho u1 u2 u3 w1 w2 w3 n1 n2 n3).
Lemma o_dots : u1 * w1 + u2 * w2 + u3 * w3 = 0 /\ u1 * n1 + u2 * n2 + u3 * n3 = 0 /\ w1 * n1 + w2 * n2 + w3 * n3 = 0.
Proof. destruct O as (_ & _ & _ & (A & B & C) & (D & E & F) & _). split; [|split]. - rewrite <- D, <- E, <- F. ring. - rewrite <- A, <- B, <- C. ring. - rewrite <- D, <- E, <- F. ring. Qed.
Lemma o_det : u1 * (w2 * n3 - w3 * n2) + w1 * (n2 * u3 - n3 * u2) + n1 * (u2 * w3 - u3 * w2) = 1.
Proof. destruct O as (U & _ & _ & (A & B & C) & _). transitivity (u1 * (w2 * n3 - w3 * n2) + u2 * (w3 * n1 - w1 * n3) + u3 * (w1 * n2 - w2 * n1)); [ring|]. now rewrite A, B, C. Qed.
(** the coordinates along the frame give the point back *)
Lemma o_back p1 p2 p3 : let a := u1 * p1 + u2 * p2 + u3 * p3 in let b := w1 * p1 + w2 * p2 + w3 * p3 in let c := n1 * p1 + n2 * p2 + n3 * p3 in
  u1 * a + w1 * b + n1 * c = p1 /\ u2 * a + w2 * b + n2 * c = p2 /\ u3 * a + w3 * b + n3 * c = p3.
Proof.
  cbv zeta. pose proof o_det as D. destruct O as (_ & _ & _ & (A & B & C) & (E & F & G) & (H & I & J)).
  split; [|split].
  - transitivity ((u1 * (w2 * n3 - w3 * n2) + w1 * (n2 * u3 - n3 * u2) + n1 * (u2 * w3 - u3 * w2)) * p1); [|rewrite D; ring].
    transitivity ((w2 * n3 - w3 * n2) * (u1 * p1 + u2 * p2 + u3 * p3) + (n2 * u3 - n3 * u2) * (w1 * p1 + w2 * p2 + w3 * p3) + (u2 * w3 - u3 * w2) * (n1 * p1 + n2 * p2 + n3 * p3)); [now rewrite A, E, H|ring].
  - transitivity ((u1 * (w2 * n3 - w3 * n2) + w1 * (n2 * u3 - n3 * u2) + n1 * (u2 * w3 - u3 * w2)) * p2); [|rewrite D; ring].
    transitivity ((w3 * n1 - w1 * n3) * (u1 * p1 + u2 * p2 + u3 * p3) + (n3 * u1 - n1 * u3) * (w1 * p1 + w2 * p2 + w3 * p3) + (u3 * w1 - u1 * w3) * (n1 * p1 + n2 * p2 + n3 * p3)); [now rewrite B, F, I|ring].
  - transitivity ((u1 * (w2 * n3 - w3 * n2) + w1 * (n2 * u3 - n3 * u2) + n1 * (u2 * w3 - u3 * w2)) * p3); [|rewrite D; ring].
    transitivity ((w1 * n2 - w2 * n1) * (u1 * p1 + u2 * p2 + u3 * p3) + (n1 * u2 - n2 * u1) * (w1 * p1 + w2 * p2 + w3 * p3) + (u1 * w2 - u2 * w1) * (n1 * p1 + n2 * p2 + n3 * p3)); [now rewrite C, G, J|ring].
Qed.
Lemma sq1 a b c : a * a + b * b + c * c = 1 -> Rabs a <= 1. Proof. intros H. apply Rabs_le. nra. Qed.
Lemma o_bound : (Rabs u1 <= 1 /\ Rabs u2 <= 1 /\ Rabs u3 <= 1) /\ (Rabs w1 <= 1 /\ Rabs w2 <= 1 /\ Rabs w3 <= 1) /\ (Rabs n1 <= 1 /\ Rabs n2 <= 1 /\ Rabs n3 <= 1).
Proof.
  destruct O as (U & W & N & _). repeat split; [apply (sq1 u1 u2 u3)|apply (sq1 u2 u1 u3)|apply (sq1 u3 u1 u2)|apply (sq1 w1 w2 w3)|apply (sq1 w2 w1 w3)|apply (sq1 w3 w1 w2)|apply (sq1 n1 n2 n3)|apply (sq1 n2 n1 n3)|apply (sq1 n3 n1 n2)]; lra.
Qed.
End Ortho.

(** ** the matrix of an extrusion direction *)
Lemma b64_r : is64 b64th (/ 64).
Proof. assert (E : r64 (1 / 64) = / 64). { replace (1 / 64) with (bpow radix2 (-6)) by (cbn; lra). rewrite r64_fmt; [cbn; lra|]. apply generic_format_bpow. cbn. lia. } rewrite <- E. apply (div64_r _ _ 1 64 1); [lia|apply (int64_r 1); lia|apply (int64_r 64); lia|lra|rewrite Rabs_pos_eq by lra; change (bpow radix2 1) with 2; lra]. Qed.
Ltac au := rewrite uu_val in *; lra.
Section Frame.
Context (e : vertex3) (x y z : R) (X : is64 (vx e) x) (Y : is64 (vy e) y) (Z0 : is64 (vz e) z).
Let s := x * x + y * y + z * z.
Context (S : Rabs (s - 1) <= bpow radix2 (-45)).
Lemma s_near : Rabs (s - 1) <= / 1000.
Proof. eapply Rle_trans; [exact S|]. apply Rle_trans with (bpow radix2 (-10)); [apply bpow_le; lia|]. change (bpow radix2 (-10)) with (/ 1024). lra. Qed.
Lemma s_root : sqrt s * sqrt s = s /\ 999 / 1000 <= sqrt s <= 1001 / 1000 /\ Rabs (sqrt s - 1) <= bpow radix2 (-45).
Proof.
  pose proof s_near as H. apply Rabs_le_inv in H. assert (SQ : sqrt s * sqrt s = s) by (apply sqrt_sqrt; lra). pose proof (sqrt_pos s) as SP. split; [exact SQ|]. assert (SB : 999 / 1000 <= sqrt s <= 1001 / 1000) by (split; nra). split; [exact SB|].
  assert (F : Rabs (sqrt s - 1) * (sqrt s + 1) = Rabs (s - 1)). { rewrite <- (Rabs_pos_eq (sqrt s + 1)) by lra. rewrite <- Rabs_mult. f_equal. transitivity (sqrt s * sqrt s - 1); [ring|now rewrite SQ]. }
  apply Rle_trans with (Rabs (sqrt s - 1) * (sqrt s + 1)); [|now rewrite F]. pose proof (Rabs_pos (sqrt s - 1)). nra.
Qed.
Lemma sq_s a : a * a <= s -> Rabs a <= 1001 / 1000.
Proof. intros H. destruct s_root as (SQ & SB & _). apply Rle_trans with (sqrt s); [|lra]. apply Rsqr_incr_0; [|apply Rabs_pos|lra]. unfold Rsqr. rewrite <- Rabs_mult, Rabs_pos_eq by nra. lra. Qed.
Lemma x_s : Rabs x <= 1001 / 1000 /\ Rabs y <= 1001 / 1000 /\ Rabs z <= 1001 / 1000.
Proof. assert (A := Rle_0_sqr x). assert (B := Rle_0_sqr y). assert (C := Rle_0_sqr z). unfold Rsqr in *. split; [|split]; apply sq_s; unfold s; lra. Qed.
(** from a vector perpendicular to e *)
Lemma frame_of r r1 r2 r3 : is64 (vx r) r1 -> is64 (vy r) r2 -> is64 (vz r) r3 -> / 4225 <= r1 * r1 + r2 * r2 + r3 * r3 <= 4 -> r1 * x + r2 * y + r3 * z = 0 ->
  let ox := normalized3 r in let oy := normalized3 (cross3 e ox) in let m := sqrt (r1 * r1 + r2 * r2 + r3 * r3) in 0 < m /\
  exists w1 w2 w3, ortho (r1 / m) (r2 / m) (r3 / m) w1 w2 w3 (x / sqrt s) (y / sqrt s) (z / sqrt s) /\
  (app 1 (11 * uu) (vx ox) (r1 / m) /\ app 1 (11 * uu) (vy ox) (r2 / m) /\ app 1 (11 * uu) (vz ox) (r3 / m)) /\ (app 1 (200 * uu) (vx oy) w1 /\ app 1 (200 * uu) (vy oy) w2 /\ app 1 (200 * uu) (vz oy) w3) /\
  (r1 = 0 -> is64 (vx ox) 0) /\ (r2 = 0 -> is64 (vy ox) 0) /\ (r3 = 0 -> is64 (vz ox) 0).
Proof.
  intros R1 R2 R3 L D ox oy m. pose proof uu_pos as U. pose proof u_small as US. pose proof tt_uu as TU. pose proof tt_pos as TP. destruct s_root as (SQ & SB & _).
  destruct (norm_app r r1 r2 r3 R1 R2 R3 L) as (a & b & c & A & B & C & EA & EB & EC & ZA & ZB & ZC). fold ox in A, B, C. fold m in EA, EB, EC.
  assert (MQ : m * m = r1 * r1 + r2 * r2 + r3 * r3) by (apply sqrt_sqrt; lra). assert (M0 : 0 < m) by (apply sqrt_lt_R0; lra). split; [exact M0|].
  assert (O : ortho (r1 / m) (r2 / m) (r3 / m) (y / sqrt s * (r3 / m) - z / sqrt s * (r2 / m)) (z / sqrt s * (r1 / m) - x / sqrt s * (r3 / m)) (x / sqrt s * (r2 / m) - y / sqrt s * (r1 / m)) (x / sqrt s) (y / sqrt s) (z / sqrt s)).
  { apply ortho_make.
    - transitivity ((r1 * r1 + r2 * r2 + r3 * r3) / (m * m)); [field; lra|]. rewrite MQ. field. lra.
    - transitivity (s / (sqrt s * sqrt s)); [|rewrite SQ; field; pose proof s_near as SN; apply Rabs_le_inv in SN; lra]. clearbody m ox oy. transitivity ((x * x + y * y + z * z) / (sqrt s * sqrt s)); [field; lra|reflexivity].
    - transitivity ((r1 * x + r2 * y + r3 * z) / (m * sqrt s)); [field; lra|]. rewrite D. unfold Rdiv. ring. }
  eexists _, _, _. split; [exact O|]. destruct (o_bound _ _ _ _ _ _ _ _ _ O) as ((BU1 & BU2 & BU3) & (BW1 & BW2 & BW3) & _).
  assert (AU : app 1 (11 * uu) (vx ox) (r1 / m) /\ app 1 (11 * uu) (vy ox) (r2 / m) /\ app 1 (11 * uu) (vz ox) (r3 / m)) by (split; [exists a; now split|]; split; [exists b; now split|exists c; now split]).
  split; [exact AU|]. destruct AU as (AU1 & AU2 & AU3).
  assert (EX : app (1001 / 1000) 0 (vx e) x) by (apply app_0; [exact X|apply x_s]). assert (EY : app (1001 / 1000) 0 (vy e) y) by (apply app_0; [exact Y|apply x_s]). assert (EZ : app (1001 / 1000) 0 (vz e) z) by (apply app_0; [exact Z0|apply x_s]).
  assert (BG : 1000 <= bpow radix2 1000) by (apply Rle_trans with (bpow radix2 10); [change (bpow radix2 10) with 1024; lra|apply bpow_le; lia]).
  assert (MU : forall p q i j, app (1001 / 1000) 0 p i -> app 1 (11 * uu) q j -> app (1001 / 1000) (14 * uu) (mul64 p q) (i * j)). { intros p q i j P Q. apply (app_mul _ _ _ _ _ _ _ _ _ _ P Q); [lra|au|au]. }
  assert (SU : forall p q i j, app (1001 / 1000) (14 * uu) p i -> app (1001 / 1000) (14 * uu) q j -> app 3 (32 * uu) (sub64 p q) (i - j)). { intros p q i j P Q. apply (app_sub _ _ _ _ _ _ _ _ _ _ P Q); [lra|au|au]. }
  set (c1 := y * (r3 / m) - z * (r2 / m)). set (c2 := z * (r1 / m) - x * (r3 / m)). set (c3 := x * (r2 / m) - y * (r1 / m)).
  assert (C1 : app 3 (32 * uu) (vx (cross3 e ox)) c1) by (apply SU; apply MU; assumption). assert (C2 : app 3 (32 * uu) (vy (cross3 e ox)) c2) by (apply SU; apply MU; assumption). assert (C3 : app 3 (32 * uu) (vz (cross3 e ox)) c3) by (apply SU; apply MU; assumption).
  assert (CW1 : c1 / sqrt s = y / sqrt s * (r3 / m) - z / sqrt s * (r2 / m)) by (unfold c1; field; lra). assert (CW2 : c2 / sqrt s = z / sqrt s * (r1 / m) - x / sqrt s * (r3 / m)) by (unfold c2; field; lra). assert (CW3 : c3 / sqrt s = x / sqrt s * (r2 / m) - y / sqrt s * (r1 / m)) by (unfold c3; field; lra).
  rewrite <- CW1 in *. rewrite <- CW2 in *. rewrite <- CW3 in *.
  assert (CS : c1 * c1 + c2 * c2 + c3 * c3 = s). { destruct O as (_ & W & _). transitivity ((c1 / sqrt s * (c1 / sqrt s) + c2 / sqrt s * (c2 / sqrt s) + c3 / sqrt s * (c3 / sqrt s)) * (sqrt s * sqrt s)); [field; lra|]. rewrite W, SQ. ring. }
  assert (CB : forall t, Rabs (t / sqrt s) <= 1 -> Rabs t <= 2). { intros t H. replace t with (t / sqrt s * sqrt s) by (field; lra). rewrite Rabs_mult, (Rabs_pos_eq (sqrt s)) by lra. apply Rle_trans with (1 * sqrt s); [apply Rmult_le_compat_r; lra|lra]. }
  assert (B2 : forall f g t, app 3 (32 * uu) f t -> g = t -> Rabs (t / sqrt s) <= 1 -> app 2 (40 * uu) f g). { intros f g t (h & F & H & _) -> K. exists h. split; [exact F|]. split; [lra|apply CB; exact K]. }
  destruct (norm_near (cross3 e ox) c1 c2 c3 s (B2 _ _ _ C1 eq_refl BW1) (B2 _ _ _ C2 eq_refl BW2) (B2 _ _ _ C3 eq_refl BW3) (eq_sym CS) s_near) as (N1 & N2 & N3). fold oy in N1, N2, N3.
  assert (B1 : forall f t, app 2 (200 * uu) f t -> Rabs t <= 1 -> app 1 (200 * uu) f t) by (intros f t (h & F & H & _) K; exists h; now split).
  split; [split; [now apply B1|split; now apply B1]|]. split; [intros E; now rewrite <- (ZA E)|]. split; [intros E; now rewrite <- (ZB E)|intros E; now rewrite <- (ZC E)].
Qed.
(** the two ways of choosing the x axis *)
Lemma frame_b : / 64 <= Rabs x \/ / 64 <= Rabs y -> exists ox oy u1 u2 u3 w1 w2 w3, mat3 (normalized3 (cross3 wz e)) (normalized3 (cross3 e (normalized3 (cross3 wz e)))) e true = mat3 ox oy e true /\ ortho u1 u2 u3 w1 w2 w3 (x / sqrt s) (y / sqrt s) (z / sqrt s) /\
  (app 1 (11 * uu) (vx ox) u1 /\ app 1 (11 * uu) (vy ox) u2 /\ app 1 (11 * uu) (vz ox) u3) /\ (app 1 (200 * uu) (vx oy) w1 /\ app 1 (200 * uu) (vy oy) w2 /\ app 1 (200 * uu) (vz oy) w3) /\
  ((Rabs x < / 64 /\ Rabs y < / 64 /\ is64 (vy ox) 0 /\ 9 / 10 <= u1 * z) \/ (~ (Rabs x < / 64 /\ Rabs y < / 64) /\ is64 (vz ox) 0 /\ / 100 <= u2 * x - u1 * y)).
Proof.
  intros H. pose proof s_near as SN. apply Rabs_le_inv in SN. unfold s in SN. assert (QX := Rle_0_sqr x). assert (QY := Rle_0_sqr y). assert (QZ := Rle_0_sqr z). unfold Rsqr in *.
  set (r := cross3 wz e). assert (R1 : is64 (vx r) (- y)) by (apply sub0l_r; [apply (nil_r _ _ Z0)|now apply one_r]). assert (R2 : is64 (vy r) x) by (apply sub0_r; [now apply one_r|apply (nil_r _ _ Z0)]). assert (R3 : is64 (vz r) 0) by (apply sub0_r; [apply (nil_r _ _ Y)|apply (nil_r _ _ X)]).
  assert (B : forall t, / 64 <= Rabs t -> / 4096 <= t * t). { intros t T. rewrite <- (Rabs_pos_eq (t * t)) by apply Rle_0_sqr. rewrite Rabs_mult. replace (/ 4096) with (/ 64 * / 64) by lra. apply Rmult_le_compat; lra. }
  assert (L0 : / 4096 <= x * x + y * y) by (destruct H as [H|H]; apply B in H; lra).
  assert (L : / 4225 <= - y * - y + x * x + 0 * 0 <= 4) by lra. destruct (frame_of r (- y) x 0 R1 R2 R3 L ltac:(ring)) as (M0 & w1 & w2 & w3 & O & AU & AW & _ & _ & ZZ). set (m := sqrt (- y * - y + x * x + 0 * 0)) in *.
  exists (normalized3 r), (normalized3 (cross3 e (normalized3 r))), (- y / m), (x / m), (0 / m), w1, w2, w3. split; [reflexivity|]. split; [exact O|]. split; [exact AU|]. split; [exact AW|]. right. split; [intros [A C]; lra|]. split; [apply ZZ; reflexivity|].
  assert (MQ : m * m = - y * - y + x * x + 0 * 0) by (apply sqrt_sqrt; lra). replace (x / m * x - - y / m * y) with ((x * x + y * y) / m) by (field; lra). replace (x * x + y * y) with (m * m) by (rewrite MQ; ring). replace (m * m / m) with m by (field; lra). nra.
Qed.
Lemma frame_ocs : exists ox oy u1 u2 u3 w1 w2 w3, ocsMatrix e = mat3 ox oy e true /\ ortho u1 u2 u3 w1 w2 w3 (x / sqrt s) (y / sqrt s) (z / sqrt s) /\
  (app 1 (11 * uu) (vx ox) u1 /\ app 1 (11 * uu) (vy ox) u2 /\ app 1 (11 * uu) (vz ox) u3) /\ (app 1 (200 * uu) (vx oy) w1 /\ app 1 (200 * uu) (vy oy) w2 /\ app 1 (200 * uu) (vz oy) w3) /\
  ((Rabs x < / 64 /\ Rabs y < / 64 /\ is64 (vy ox) 0 /\ 9 / 10 <= u1 * z) \/ (~ (Rabs x < / 64 /\ Rabs y < / 64) /\ is64 (vz ox) 0 /\ / 100 <= u2 * x - u1 * y)).
Proof.
  pose proof s_near as SN. apply Rabs_le_inv in SN. unfold s in SN.
  unfold ocsMatrix. rewrite (ltb64 _ _ _ _ (abs_r _ _ X) b64_r), (ltb64 _ _ _ _ (abs_r _ _ Y) b64_r). destruct (Rlt_bool_spec (Rabs x) (/ 64)) as [LX|LX]; [destruct (Rlt_bool_spec (Rabs y) (/ 64)) as [LY|LY]|]; cbn [andb].
  - (* the x axis along wy x e *)
    set (r := cross3 wy e). assert (R1 : is64 (vx r) z) by (apply sub0_r; [now apply one_r|apply (nil_r _ _ Y)]). assert (R2 : is64 (vy r) 0) by (apply sub0_r; [apply (nil_r _ _ X)|apply (nil_r _ _ Z0)]). assert (R3 : is64 (vz r) (- x)) by (apply sub0l_r; [apply (nil_r _ _ Y)|now apply one_r]).
    apply Rabs_lt_inv in LX, LY. assert (QX : 0 <= x * x <= / 4096) by (split; nra). assert (QY : 0 <= y * y <= / 4096) by (split; nra).
    assert (L : / 4225 <= z * z + 0 * 0 + - x * - x <= 4) by lra. destruct (frame_of r z 0 (- x) R1 R2 R3 L ltac:(ring)) as (M0 & w1 & w2 & w3 & O & AU & AW & _ & ZY & _). set (m := sqrt (z * z + 0 * 0 + - x * - x)) in *.
    exists (normalized3 r), (normalized3 (cross3 e (normalized3 r))), (z / m), (0 / m), (- x / m), w1, w2, w3. split; [reflexivity|]. split; [exact O|]. split; [exact AU|]. split; [exact AW|]. left. split; [apply Rabs_lt; lra|]. split; [apply Rabs_lt; lra|]. split; [apply ZY; reflexivity|].
    assert (MQ : m * m = z * z + 0 * 0 + - x * - x) by (apply sqrt_sqrt; lra). assert (ZZ : z / m * z = z * z / m) by (unfold Rdiv; ring). rewrite ZZ. assert (m <= 1001 / 1000) by nra. apply (Rmult_le_reg_r m); [exact M0|]. replace (z * z / m * m) with (z * z) by (field; lra). nra.
  - (* along wz x e *)
    exact (frame_b (or_intror LY)).
  - exact (frame_b (or_introl LX)).
Qed.
End Frame.
