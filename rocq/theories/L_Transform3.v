(** L_Transform3.v -- matrices near an exact frame: inverse, products with vectors. *)
From Coq Require Import Reals Lra Psatz QArith.
From Flocq Require Import Core.
From Verif Require Import Base M_Float M_MathF M_Rect M_Matrix M_Geometry M_Transform S_Double S_Matrix L_Float L_Double L_MathF P_MathF L_Matrix L_Matrix2 L_Matrix4 L_Matrix5 L_Geometry L_Transform L_Transform2.
Local Open Scope R_scope.

(** a scalar product of a row with a vector *)
Lemma app_dot3 E B F a1 a2 a3 b1 b2 b3 x1 x2 x3 y1 y2 y3 : app 1 E a1 x1 -> app 1 E a2 x2 -> app 1 E a3 x3 -> app B F b1 y1 -> app B F b2 y2 -> app B F b3 y3 -> 0 <= E <= / 1000 -> 0 <= F <= B -> tt_ <= uu * B -> B <= bpow radix2 990 ->
  app (3 * B) (4 * (E * B + F) + 30 * uu * B) (add64 (add64 (mul64 a1 b1) (mul64 a2 b2)) (mul64 a3 b3)) (x1 * y1 + x2 * y2 + x3 * y3).
Proof.
  intros A1 A2 A3 B1 B2 B3 HE HF T HB. pose proof uu_pos as U. pose proof u_small as US. pose proof tt_pos as TP. assert (BP : 0 < B) by nra.
  assert (UB : 0 <= uu * B <= B / 1000000) by (split; [apply Rmult_le_pos; lra|unfold Rdiv; rewrite (Rmult_comm B); apply Rmult_le_compat_r; lra]). assert (EB : 0 <= E * B <= B / 1000) by (split; [apply Rmult_le_pos; lra|unfold Rdiv; rewrite (Rmult_comm B); apply Rmult_le_compat_r; lra]).
  assert (EF : 0 <= E * F <= F / 1000) by (split; [apply Rmult_le_pos; lra|unfold Rdiv; rewrite (Rmult_comm F); apply Rmult_le_compat_r; lra]). assert (UF : 0 <= uu * F <= uu * B) by (split; [apply Rmult_le_pos; lra|apply Rmult_le_compat_l; lra]).
  assert (UEB : 0 <= uu * (E * B) <= uu * B / 1000) by (split; [apply Rmult_le_pos; lra|apply Rle_trans with (uu * (B / 1000)); [apply Rmult_le_compat_l; lra|lra]]). assert (UEF : 0 <= uu * (E * F) <= uu * B / 1000) by (split; [apply Rmult_le_pos; lra|apply Rle_trans with (uu * (F / 1000)); [apply Rmult_le_compat_l; lra|lra]]).
  assert (BG : 100 * B <= bpow radix2 1000). { apply Rle_trans with (bpow radix2 10 * bpow radix2 990); [change (bpow radix2 10) with 1024; pose proof (bpow_gt_0 radix2 990); lra|]. rewrite <- bpow_plus. right. reflexivity. }
  set (e1 := E * B + F + E * F + 4 * (uu * B)).
  assert (M : forall a b x y, app 1 E a x -> app B F b y -> app B e1 (mul64 a b) (x * y)). { intros a b x y A0 B0. apply (app_mul _ _ _ _ _ _ _ _ _ _ A0 B0); [lra| |].
    - replace (uu * ((1 + E) * (B + F))) with (uu * B + uu * F + uu * (E * B) + uu * (E * F)) by ring. unfold e1. lra.
    - replace ((1 + E) * (B + F)) with (B + F + E * B + E * F) by ring. lra. }
  assert (UE1 : uu * e1 <= uu * B * (103 / 100)). { apply Rle_trans with (uu * (B * (103 / 100))); [|lra]. unfold e1.
    replace (uu * (E * B + F + E * F + 4 * (uu * B))) with (uu * (E * B) + uu * F + uu * (E * F) + 4 * (uu * (uu * B))) by ring. assert (uu * (uu * B) <= uu * (B / 1000000)) by (apply Rmult_le_compat_l; lra). lra. }
  assert (S1 : app (2 * B) (2 * e1 + 6 * (uu * B)) (add64 (mul64 a1 b1) (mul64 a2 b2)) (x1 * y1 + x2 * y2)). { apply (app_add _ _ _ _ _ _ _ _ _ _ (M _ _ _ _ A1 B1) (M _ _ _ _ A2 B2)); [lra| |unfold e1; lra]. replace (uu * (B + B + e1 + e1)) with (2 * (uu * B) + 2 * (uu * e1)) by ring. lra. }
  apply (app_le (3 * B) (3 * e1 + 14 * (uu * B))); [|lra|unfold e1; lra].
  apply (app_add _ _ _ _ _ _ _ _ _ _ S1 (M _ _ _ _ A3 B3)); [lra| |unfold e1; lra].
  replace (uu * (2 * B + B + (2 * e1 + 6 * (uu * B)) + e1)) with (3 * (uu * B) + 3 * (uu * e1) + 6 * (uu * (uu * B))) by ring. assert (uu * (uu * B) <= uu * (B / 1000000)) by (apply Rmult_le_compat_l; lra). lra.
Qed.

(** ** the matrix with the rows ox, oy, e *)
Section Near.
Context (ox oy e : vertex3) (u1 u2 u3 w1 w2 w3 n1 n2 n3 : R) (O : ortho u1 u2 u3 w1 w2 w3 n1 n2 n3).
Let E0 := 260 * uu.
Context (X1 : app 1 E0 (vx ox) u1) (X2 : app 1 E0 (vy ox) u2) (X3 : app 1 E0 (vz ox) u3) (Y1 : app 1 E0 (vx oy) w1) (Y2 : app 1 E0 (vy oy) w2) (Y3 : app 1 E0 (vz oy) w3) (Z1 : app 1 E0 (vx e) n1) (Z2 : app 1 E0 (vy e) n2) (Z3 : app 1 E0 (vz e) n3).
Lemma big : 1000 <= bpow radix2 1000. Proof. apply Rle_trans with (bpow radix2 10); [change (bpow radix2 10) with 1024; lra|apply bpow_le; lia]. Qed.
Lemma prod2 p q a b : app 1 E0 p a -> app 1 E0 q b -> app 1 (523 * uu) (mul64 p q) (a * b).
Proof. intros P Q. pose proof tt_uu. pose proof big. apply (app_mul _ _ _ _ _ _ _ _ _ _ P Q); unfold E0; [lra|au|au]. Qed.
Lemma prod3 p q r a b c : app 1 E0 p a -> app 1 E0 q b -> app 1 E0 r c -> app 1 (786 * uu) (mul64 (mul64 p q) r) (a * b * c).
Proof. intros P Q R0. pose proof tt_uu. pose proof big. apply (app_mul _ _ _ _ _ _ _ _ _ _ (prod2 _ _ _ _ P Q) R0); unfold E0; [lra|au|au]. Qed.
Lemma minor p q r t a b c d m : app 1 E0 p a -> app 1 E0 q b -> app 1 E0 r c -> app 1 E0 t d -> a * b - c * d = m -> Rabs m <= 1 -> app 1 (1050 * uu) (sub64 (mul64 p q) (mul64 r t)) m.
Proof.
  intros P Q R0 T H M. assert (A : app 2 (1050 * uu) (sub64 (mul64 p q) (mul64 r t)) (a * b - c * d)). { pose proof tt_uu. pose proof big. apply (app_sub _ _ _ _ _ _ _ _ _ _ (prod2 _ _ _ _ P Q) (prod2 _ _ _ _ R0 T)); [lra|au|au]. }
  rewrite H in A. destruct A as (h & F & K & _). exists h. now split.
Qed.
Definition det3 (d0 d1 d2 d3 d4 d5 d6 d7 d8 : spec_float) : spec_float :=
  sub64 (sub64 (sub64 (add64 (add64 (mul64 (mul64 d0 d4) d8) (mul64 (mul64 d3 d7) d2)) (mul64 (mul64 d6 d1) d5)) (mul64 (mul64 d6 d4) d2)) (mul64 (mul64 d7 d5) d0)) (mul64 (mul64 d8 d3) d1).
Let D := det3 (vx ox) (vx oy) (vx e) (vy ox) (vy oy) (vy e) (vz ox) (vz oy) (vz e).
Lemma det_app : app 2 (4750 * uu) D 1.
Proof.
  pose proof tt_uu as TU. pose proof big as BG. pose proof tt_pos as TP.
  assert (S1 := app_add _ _ _ _ 2 (1576 * uu) _ _ _ _ (prod3 _ _ _ _ _ _ X1 Y2 Z3) (prod3 _ _ _ _ _ _ X2 Y3 Z1) ltac:(lra) ltac:(au) ltac:(au)).
  assert (S2 := app_add _ _ _ _ 3 (2367 * uu) _ _ _ _ S1 (prod3 _ _ _ _ _ _ X3 Y1 Z2) ltac:(lra) ltac:(au) ltac:(au)).
  assert (S3 := app_sub _ _ _ _ 4 (3160 * uu) _ _ _ _ S2 (prod3 _ _ _ _ _ _ X3 Y2 Z1) ltac:(lra) ltac:(au) ltac:(au)).
  assert (S4 := app_sub _ _ _ _ 5 (3955 * uu) _ _ _ _ S3 (prod3 _ _ _ _ _ _ Y3 Z2 X1) ltac:(lra) ltac:(au) ltac:(au)).
  assert (S5 := app_sub _ _ _ _ 6 (4750 * uu) _ _ _ _ S4 (prod3 _ _ _ _ _ _ Z3 X2 Y1) ltac:(lra) ltac:(au) ltac:(au)).
  assert (E1 : u1 * w2 * n3 + u2 * w3 * n1 + u3 * w1 * n2 - u3 * w2 * n1 - w3 * n2 * u1 - n3 * u2 * w1 = 1) by (rewrite <- (o_det _ _ _ _ _ _ _ _ _ O); ring). rewrite E1 in S5. destruct S5 as (h & F & K & _). exists h. split; [exact F|]. split; [exact K|rewrite Rabs_R1; lra].
Qed.
Lemma entry m a : app 1 (1050 * uu) m a -> app 1 (10600 * uu) (mul64 m (div64 (int64f 1) D)) a.
Proof.
  intros M. pose proof tt_uu as TU. pose proof big as BG. pose proof tt_pos as TP. pose proof (app_inv _ _ det_app ltac:(au)) as I. rewrite <- (Rmult_1_r a). apply (app_mul _ _ _ _ _ _ _ _ _ _ M I); [lra|au|au].
Qed.
Definition inv3 (a b c d e f g h i t : spec_float) : list spec_float :=
  let m2 x1 x2 x3 x4 := mul64 (sub64 (mul64 x1 x2) (mul64 x3 x4)) t in
  [m2 e i f h; m2 f g d i; m2 d h e g; m2 c h b i; m2 a i c g; m2 b g a h; m2 b f c e; m2 c d a f; m2 a e b d].
Lemma inverse_is : inverse (mat3 ox oy e true) = Val (Some (Mat 3 3 (inv3 (vx ox) (vy ox) (vz ox) (vx oy) (vy oy) (vz oy) (vx e) (vy e) (vz e) (div64 (int64f 1) D)))).
Proof. reflexivity. Qed.
Lemma mul3_is (d0 d1 d2 d3 d4 d5 d6 d7 d8 : spec_float) b : mul3 (Mat 3 3 [d0; d1; d2; d3; d4; d5; d6; d7; d8]) b =
  Val (V3 (add64 (add64 (mul64 d0 (vx b)) (mul64 d3 (vy b))) (mul64 d6 (vz b))) (add64 (add64 (mul64 d1 (vx b)) (mul64 d4 (vy b))) (mul64 d7 (vz b))) (add64 (add64 (mul64 d2 (vx b)) (mul64 d5 (vy b))) (mul64 d8 (vz b)))).
Proof. reflexivity. Qed.
Context (k : Z) (K : (-900 <= k <= 900)%Z).
Let P := bpow radix2 k.
Lemma P_ok : 0 < P /\ tt_ <= uu * P /\ 3 * P <= bpow radix2 990 /\ P <= bpow radix2 990.
Proof.
  assert (A : 0 < P) by apply bpow_gt_0. split; [exact A|]. split; [unfold tt_, uu, P; rewrite <- bpow_plus; apply bpow_le; lia|]. assert (4 * P <= bpow radix2 990). { change 4 with (bpow radix2 2). unfold P. rewrite <- bpow_plus. apply bpow_le. lia. } lra.
Qed.
(** to the frame *)
Lemma to_app B F p a b c : app B F (vx p) a -> app B F (vy p) b -> app B F (vz p) c -> 0 <= F <= B -> tt_ <= uu * B -> B <= bpow radix2 990 -> exists q, mul3 (mat3 ox oy e true) p = Val q /\
  app (3 * B) (4 * (E0 * B + F) + 30 * uu * B) (vx q) (u1 * a + u2 * b + u3 * c) /\ app (3 * B) (4 * (E0 * B + F) + 30 * uu * B) (vy q) (w1 * a + w2 * b + w3 * c) /\ app (3 * B) (4 * (E0 * B + F) + 30 * uu * B) (vz q) (n1 * a + n2 * b + n3 * c).
Proof.
  intros A B0 C HF T HB. pose proof uu_pos. assert (HE : 0 <= E0 <= / 1000) by (unfold E0; au). eexists. split; [apply mul3_is|]. cbn [vx vy vz]. split; [|split]; apply app_dot3; assumption.
Qed.
(** back *)
Lemma from_app B F p a b c : app B F (vx p) a -> app B F (vy p) b -> app B F (vz p) c -> 0 <= F <= B -> tt_ <= uu * B -> B <= bpow radix2 990 -> exists W q, inverse (mat3 ox oy e true) = Val (Some W) /\ mul3 W p = Val q /\
  app (3 * B) (4 * (10600 * uu * B + F) + 30 * uu * B) (vx q) (u1 * a + w1 * b + n1 * c) /\ app (3 * B) (4 * (10600 * uu * B + F) + 30 * uu * B) (vy q) (u2 * a + w2 * b + n2 * c) /\ app (3 * B) (4 * (10600 * uu * B + F) + 30 * uu * B) (vz q) (u3 * a + w3 * b + n3 * c).
Proof.
  intros A B0 C HF T HB. pose proof uu_pos. assert (HE : 0 <= 10600 * uu <= / 1000) by au. eexists _, _. split; [apply inverse_is|]. split; [apply mul3_is|]. cbn [vx vy vz].
  destruct (o_bound _ _ _ _ _ _ _ _ _ O) as ((BU1 & BU2 & BU3) & (BW1 & BW2 & BW3) & (BN1 & BN2 & BN3)). destruct O as (_ & _ & _ & (A1 & A2 & A3) & (A4 & A5 & A6) & (A7 & A8 & A9)).
  split; [|split]; (apply app_dot3; try assumption; apply entry); (eapply minor; [eassumption|eassumption|eassumption|eassumption|lra|assumption]).
Qed.
(** there and back *)
Lemma roundtrip_app p a b c : is64 (vx p) a -> is64 (vy p) b -> is64 (vz p) c -> Rabs a <= P -> Rabs b <= P -> Rabs c <= P -> exists q W r, mul3 (mat3 ox oy e true) p = Val q /\ inverse (mat3 ox oy e true) = Val (Some W) /\ mul3 W q = Val r /\
  app (9 * P) (175000 * uu * P) (vx r) a /\ app (9 * P) (175000 * uu * P) (vy r) b /\ app (9 * P) (175000 * uu * P) (vz r) c.
Proof.
  intros A B C HA HB HC. destruct P_ok as (PP & PT & P3 & P1). pose proof uu_pos as U.
  destruct (to_app P 0 p a b c (app_0 _ _ _ A HA) (app_0 _ _ _ B HB) (app_0 _ _ _ C HC) ltac:(lra) PT P1) as (q & EQ & Q1 & Q2 & Q3).
  assert (UP : uu * P <= / 1000000000 * P) by (apply Rmult_le_compat_r; [lra|pose proof u_small; lra]). assert (0 < uu * P) by (apply Rmult_lt_0_compat; lra).
  destruct (from_app (3 * P) (4 * (E0 * P + 0) + 30 * uu * P) q _ _ _ Q1 Q2 Q3) as (W & r & EW & ER & R1 & R2 & R3); [unfold E0; lra|lra|exact P3|].
  exists q, W, r. split; [exact EQ|]. split; [exact EW|]. split; [exact ER|]. destruct (o_back _ _ _ _ _ _ _ _ _ O a b c) as (K1 & K2 & K3). rewrite K1 in R1. rewrite K2 in R2. rewrite K3 in R3.
  split; [|split]; (eapply app_le; [eassumption|lra|unfold E0; lra]).
Qed.
(** back and there *)
Lemma o_forth a b c : let p1 := u1 * a + w1 * b + n1 * c in let p2 := u2 * a + w2 * b + n2 * c in let p3 := u3 * a + w3 * b + n3 * c in
  u1 * p1 + u2 * p2 + u3 * p3 = a /\ w1 * p1 + w2 * p2 + w3 * p3 = b /\ n1 * p1 + n2 * p2 + n3 * p3 = c.
Proof.
  cbv zeta. destruct (o_dots _ _ _ _ _ _ _ _ _ O) as (D1 & D2 & D3). destruct O as (U & W & N & _). split; [|split].
  - transitivity ((u1 * u1 + u2 * u2 + u3 * u3) * a + (u1 * w1 + u2 * w2 + u3 * w3) * b + (u1 * n1 + u2 * n2 + u3 * n3) * c); [ring|]. rewrite U, D1, D2. ring.
  - transitivity ((u1 * w1 + u2 * w2 + u3 * w3) * a + (w1 * w1 + w2 * w2 + w3 * w3) * b + (w1 * n1 + w2 * n2 + w3 * n3) * c); [ring|]. rewrite W, D1, D3. ring.
  - transitivity ((u1 * n1 + u2 * n2 + u3 * n3) * a + (w1 * n1 + w2 * n2 + w3 * n3) * b + (n1 * n1 + n2 * n2 + n3 * n3) * c); [ring|]. rewrite N, D2, D3. ring.
Qed.
Lemma back_app p a b c : is64 (vx p) a -> is64 (vy p) b -> is64 (vz p) c -> Rabs a <= P -> Rabs b <= P -> Rabs c <= P -> exists W q r, inverse (mat3 ox oy e true) = Val (Some W) /\ mul3 W p = Val q /\ mul3 (mat3 ox oy e true) q = Val r /\
  app (9 * P) (175000 * uu * P) (vx r) a /\ app (9 * P) (175000 * uu * P) (vy r) b /\ app (9 * P) (175000 * uu * P) (vz r) c.
Proof.
  intros A B C HA HB HC. destruct P_ok as (PP & PT & P3 & P1). pose proof uu_pos as U.
  destruct (from_app P 0 p a b c (app_0 _ _ _ A HA) (app_0 _ _ _ B HB) (app_0 _ _ _ C HC) ltac:(lra) PT P1) as (W & q & EW & EQ & Q1 & Q2 & Q3).
  assert (UP : uu * P <= / 1000000000 * P) by (apply Rmult_le_compat_r; [lra|pose proof u_small; lra]). assert (0 < uu * P) by (apply Rmult_lt_0_compat; lra).
  destruct (to_app (3 * P) (4 * (10600 * uu * P + 0) + 30 * uu * P) q _ _ _ Q1 Q2 Q3) as (r & ER & R1 & R2 & R3); [lra|lra|exact P3|].
  exists W, q, r. split; [exact EW|]. split; [exact EQ|]. split; [exact ER|]. destruct (o_forth a b c) as (K1 & K2 & K3). rewrite K1 in R1. rewrite K2 in R2. rewrite K3 in R3.
  split; [|split]; (eapply app_le; [eassumption|lra|unfold E0; lra]).
Qed.
End Near.
