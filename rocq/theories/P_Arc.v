(** P_Arc.v -- C142: the point where a ray meets an arc. *)
From Coq Require Import Reals Lra Psatz QArith Qabs Qreals.
From Flocq Require Import Core.
From Verif Require Import Base M_Float M_MathF M_Rect M_Matrix M_Geometry S_Double L_Float L_Double L_Matrix S_Matrix L_Matrix2 L_Matrix4 L_Matrix5 L_MathF P_MathF L_Pi M_Eigen M_Angle P_Angle M_Arc.
Ltac Zify.zify_post_hook ::= idtac.
Local Open Scope R_scope.
Lemma is_less x y a b : dbl x a -> dbl y b -> Rabs (Q2R a) <= 32 -> Rabs (Q2R b) <= 32 -> (isLess x y = true -> Q2R a + bpow radix2 (-21) <= Q2R b) /\ (Q2R a + bpow radix2 (-19) <= Q2R b -> isLess x y = true) /\ (Q2R a + bpow radix2 (-19) <= Q2R b -> isGreaterEqual x y = false).
Proof.
  intros X Y A B. assert (BB : forall q, Rabs (Q2R q) <= 32 -> (Qabs q <= q2 24)%Q) by (intros q L; apply Rle_Qle; rewrite Q2R_abs, Q2R_q2; cbn; lra).
  destruct (C92_order x y a b X Y (BB _ A) (BB _ B)) as (H1 & H2 & H3 & _). assert (K1 : Q2R (1 # 1000000) = / 1000000) by (unfold Q2R; cbn; lra).
  change (bpow radix2 (-21)) with (/ 2097152). change (bpow radix2 (-19)) with (/ 524288). assert (K2 : Q2R (q2 (-28)) = / 268435456) by (rewrite Q2R_q2; reflexivity). split; [|split].
  - intros H. apply H1, Qle_Rle in H. rewrite !Q2R_plus, K1, K2 in H. lra.
  - intros H. apply H2. apply Rle_Qle. rewrite !Q2R_plus, K1, K2. lra.
  - intros H. destruct (isGreaterEqual x y); [|reflexivity]. specialize (H3 eq_refl). apply Qle_Rle in H3. rewrite !Q2R_plus, K1, K2 in H3. lra.
Qed.
Lemma not_nan x a : dbl x a -> x <> S754_nan. Proof. intros [_ H] ->. exact H. Qed.
Lemma less_equal x y a b : dbl x a -> dbl y b -> isLessEqual x y = negb (isLess y x).
Proof. intros X Y. destruct (C92_consistent x y) as (_ & E & F). rewrite F by (eapply not_nan; eassumption). now rewrite E. Qed.
Lemma m2pi_r : is64 M_2PI (IZR 7074237752028440 / 1125899906842624).
Proof. assert (D : dbl M_2PI (7074237752028440 # 1125899906842624)) by (split; vm_compute; reflexivity). apply dbl_r in D. exact D. Qed.
Lemma plus_2pi x a : dbl x a -> Rabs (Q2R a) <= 16 -> exists b, dbl (add64 x M_2PI) b /\ Rabs (Q2R b - (Q2R a + 2 * PI)) <= / 1000000000000.
Proof.
  intros X A. apply dbl_r in X. pose proof pi_low. pose proof pi_high. apply Rabs_le_inv in A.
  assert (S : Rabs (Q2R a + IZR 7074237752028440 / 1125899906842624) <= bpow radix2 5) by (apply Rabs_le; cbn; lra). pose proof (add64_r _ _ _ _ 5 ltac:(lia) X m2pi_r S) as R. destruct (is_dbl _ _ R) as (b & D & E). exists b. split; [exact D|]. rewrite E.
  pose proof (r64_err _ 5 ltac:(lia) S) as N. change (bpow radix2 (5 - 54)) with (/ 562949953421312) in N. apply Rabs_le_inv in N. apply Rabs_le. lra.
Qed.
Lemma turn_down_0 fuel x : isGreaterEqual x M_2PI = false -> turn_down fuel x = Val x. Proof. intros H. destruct fuel; cbn [turn_down]; rewrite H; reflexivity. Qed.
Lemma turn_end_0 fuel s x : isLessEqual x s = false -> turn_end fuel s x = Val x. Proof. intros H. destruct fuel; cbn [turn_end]; rewrite H; reflexivity. Qed.
Lemma turn_angle_0 fuel s x : isLess x s = false -> turn_angle fuel s x = Val x. Proof. intros H. destruct fuel; cbn [turn_angle]; rewrite H; reflexivity. Qed.
Lemma turn_angle_1 fuel s x : isLess x s = true -> turn_angle (S fuel) s x = turn_angle fuel s (add64 x M_2PI). Proof. intros H. cbn [turn_angle]. now rewrite H. Qed.
(** Is a point on the arc? For an arc from s to e inside one turn (with 2^-18 of room) and an angle of the point between -pi and pi: yes if a whole number of turns brings the angle between s and e,
    no if none brings it closer than 2^-18 *)
Theorem C142_check : forall atan2 fuel point center start end_ s e a, (3 <= fuel)%nat -> dbl start s -> dbl end_ e -> dbl (atan2 (py (vsub2 point center)) (px (vsub2 point center))) a -> - PI <= Q2R a <= PI ->
  0 <= Q2R s -> Q2R s + bpow radix2 (-18) <= Q2R e -> Q2R e <= 2 * PI - bpow radix2 (-18) ->
  ((exists m, Q2R s <= Q2R a + IZR m * (2 * PI) <= Q2R e) -> check_angle atan2 fuel point center start end_ = Val true) /\
  ((forall m, Q2R a + IZR m * (2 * PI) <= Q2R s - bpow radix2 (-18) \/ Q2R e + bpow radix2 (-18) <= Q2R a + IZR m * (2 * PI)) -> check_angle atan2 fuel point center start end_ = Val false).
Proof.
  intros atan2 fuel point center start end_ s e a Fu S E A Ra S0 SE E1. pose proof pi_low as PL. pose proof pi_high as PH. unfold check_angle. cbv zeta. set (x := atan2 _ _) in *.
  assert (D2 : exists d, dbl M_2PI d /\ Q2R d = IZR 7074237752028440 / 1125899906842624) by (exact (is_dbl _ _ m2pi_r)). destruct D2 as (d & Dd & Vd). destruct fuel as [|[|[|fuel]]]; [lia..|].
  change (bpow radix2 (-18)) with (/ 262144) in *. pose proof (fun x y a b X Y => is_less x y a b X Y) as L. change (bpow radix2 (-19)) with (/ 524288) in L. change (bpow radix2 (-21)) with (/ 2097152) in L.
  assert (BS : Rabs (Q2R s) <= 32) by (apply Rabs_le; lra). assert (BE : Rabs (Q2R e) <= 32) by (apply Rabs_le; lra). assert (BA : Rabs (Q2R a) <= 32) by (apply Rabs_le; lra). assert (BD : Rabs (Q2R d) <= 32) by (apply Rabs_le; lra).
  rewrite (turn_down_0 _ start) by (apply (L _ _ _ _ S Dd BS BD); lra). cbn [bind]. rewrite (turn_down_0 _ end_) by (apply (L _ _ _ _ E Dd BE BD); lra). cbn [bind].
  rewrite turn_end_0. 2: { rewrite (less_equal _ _ _ _ E S). destruct (L _ _ _ _ S E BS BE) as (_ & T & _). rewrite T by lra. reflexivity. } cbn [bind].
  assert (NO : forall y z p q, dbl y p -> dbl z q -> Rabs (Q2R p) <= 32 -> Rabs (Q2R q) <= 32 -> Q2R q < Q2R p + / 2097152 -> isLess y z = false).
  { intros y z p q Y Z P Q H. destruct (isLess y z) eqn:I; [|reflexivity]. apply (L _ _ _ _ Y Z P Q) in I. lra. }
  destruct (plus_2pi x a A ltac:(apply Rabs_le; lra)) as (a1 & A1 & V1). apply Rabs_le_inv in V1. assert (B1 : Rabs (Q2R a1) <= 32) by (apply Rabs_le; lra).
  destruct (plus_2pi _ a1 A1 ltac:(apply Rabs_le; lra)) as (a2 & A2 & V2). apply Rabs_le_inv in V2. assert (B2 : Rabs (Q2R a2) <= 32) by (apply Rabs_le; lra).
  split.
  - intros (m & M1 & M2). assert (C : (m = 0 \/ m = 1)%Z).
    { assert (G1 : IZR m < 2) by (apply (Rmult_lt_reg_r (2 * PI)); lra). assert (G2 : -1 < IZR m) by (apply (Rmult_lt_reg_r (2 * PI)); lra). apply lt_IZR in G1, G2. lia. }
    destruct C as [-> | ->].
    + rewrite turn_angle_0 by (apply (NO _ _ _ _ A S BA BS); lra). cbn [bind]. rewrite (less_equal _ _ _ _ A E), (NO _ _ _ _ E A BE BA) by lra. reflexivity.
    + rewrite turn_angle_1 by (apply (L _ _ _ _ A S BA BS); lra). rewrite turn_angle_0 by (apply (NO _ _ _ _ A1 S B1 BS); lra). cbn [bind]. rewrite (less_equal _ _ _ _ A1 E), (NO _ _ _ _ E A1 BE B1) by lra. reflexivity.
  - intros M. pose proof (M 0%Z) as M0. pose proof (M 1%Z) as M1. clear M. destruct M0 as [M0|M0].
    + rewrite turn_angle_1 by (apply (L _ _ _ _ A S BA BS); lra). destruct M1 as [M1|M1].
      * rewrite turn_angle_1 by (apply (L _ _ _ _ A1 S B1 BS); lra). rewrite turn_angle_0 by (apply (NO _ _ _ _ A2 S B2 BS); lra). cbn [bind]. rewrite (less_equal _ _ _ _ A2 E). destruct (L _ _ _ _ E A2 BE B2) as (_ & T & _). rewrite T by lra. reflexivity.
      * rewrite turn_angle_0 by (apply (NO _ _ _ _ A1 S B1 BS); lra). cbn [bind]. rewrite (less_equal _ _ _ _ A1 E). destruct (L _ _ _ _ E A1 BE B1) as (_ & T & _). rewrite T by lra. reflexivity.
    + rewrite turn_angle_0 by (apply (NO _ _ _ _ A S BA BS); lra). cbn [bind]. rewrite (less_equal _ _ _ _ A E). destruct (L _ _ _ _ E A BE BA) as (_ & T & _). rewrite T by lra. reflexivity.
Qed.
Print Assumptions C142_check.
(** ** rays along an axis, on whole numbers *)
Local Open Scope Z_scope.
Definition on (v : vertex2) (x y : Z) : Prop := at_ 0 x (px v) /\ at_ 0 y (py v).
Lemma at0 z x : at_ 0 z x <-> is64 x (IZR z). Proof. rewrite at_r. cbn [bpow]. now rewrite Rmult_1_r. Qed.
Lemma z_at z : Z.abs z <= 2 ^ 53 -> at_ 0 z (int64f z). Proof. intros H. apply at0. now apply int64_r. Qed.
Lemma int_less a b x y : at_ 0 a x -> at_ 0 b y -> Z.abs a <= 2 ^ 24 -> Z.abs b <= 2 ^ 24 -> isLess x y = (a <? b) /\ isLessEqual x y = (a <=? b) /\ isGreater x y = (b <? a).
Proof.
  assert (G : forall a b x y, at_ 0 a x -> at_ 0 b y -> Z.abs a <= 2 ^ 24 -> Z.abs b <= 2 ^ 24 -> isLess x y = (a <? b)).
  { intros a0 b0 x0 y0 X Y A B. apply at0 in X, Y. destruct (is_dbl _ _ X) as (p & P & VP). destruct (is_dbl _ _ Y) as (q & Q & VQ).
    assert (BB : forall r z, Q2R r = IZR z -> Z.abs z <= 2 ^ 24 -> (Qabs r <= q2 24)%Q) by (intros r z V Hz; apply Rle_Qle; rewrite Q2R_abs, Q2R_q2, V, <- abs_IZR; change (bpow radix2 24) with (IZR (2 ^ 24)); now apply IZR_le).
    destruct (C92_order _ _ _ _ P Q (BB _ _ VP A) (BB _ _ VQ B)) as (H1 & H2 & _). assert (K1 : Q2R (1 # 1000000) = (/ 1000000)%R) by (unfold Q2R; cbn; lra). assert (K2 : Q2R (q2 (-28)) = (/ 268435456)%R) by (rewrite Q2R_q2; reflexivity).
    destruct (Z.ltb_spec a0 b0) as [L|L].
    - apply H2. apply Rle_Qle. rewrite !Q2R_plus, K1, K2, VP, VQ. assert (IZR a0 + 1 <= IZR b0)%R by (rewrite <- plus_IZR; apply IZR_le; lia). lra.
    - destruct (isLess x0 y0); [|reflexivity]. specialize (H1 eq_refl). apply Qle_Rle in H1. rewrite !Q2R_plus, K1, K2, VP, VQ in H1. apply IZR_le in L. lra. }
  intros X Y A B. pose proof X as X'. pose proof Y as Y'. apply at0 in X', Y'. destruct (is_dbl _ _ X') as (p & P & _). destruct (is_dbl _ _ Y') as (q & Q & _).
  split; [now apply G|]. split; [rewrite (less_equal _ _ _ _ P Q), (G b a y x) by assumption; destruct (Z.ltb_spec b a), (Z.leb_spec a b); cbn; lia|]. destruct (C92_consistent x y) as (_ & E & _). rewrite E. now apply G.
Qed.
Lemma over_one z x y : at_ 0 z x -> at_ 0 1 y -> Z.abs z <= 2 ^ 53 -> at_ 0 z (div64 x y).
Proof.
  intros X Y B. apply at0 in X, Y. apply at0. pose proof (div64_r x y _ _ 53 ltac:(lia) X Y ltac:(lra)) as R. unfold Rdiv in R. rewrite Rinv_1, Rmult_1_r in R. rewrite r64_fmt in R by exact (fmt64 _ _ X). apply R. rewrite <- abs_IZR. change (bpow radix2 53) with (IZR (2 ^ 53)). now apply IZR_le.
Qed.
Lemma half_of z x : at_ 0 (2 * z) x -> Z.abs z <= 2 ^ 50 -> at_ 0 z (mul64 (lit 1 2) x).
Proof.
  intros X B. assert (H : at_ (-1) 1 (lit 1 2)) by (split; vm_compute; reflexivity). pose proof (mul_at (-1) 0 1 (2 * z) _ _ H X ltac:(lia) ltac:(lia)) as M. rewrite at_r in M. apply at0. replace (IZR z) with (IZR (1 * (2 * z)) * bpow radix2 (-1 + 0))%R; [exact M|]. rewrite Z.mul_1_l, mult_IZR. cbn. lra.
Qed.
Lemma root_of h x : at_ 0 (h * h) x -> 0 <= h <= 2 ^ 26 -> at_ 0 h (sqrt64 x).
Proof.
  intros X B. apply at0 in X. apply at0. unfold sqrt64. assert (P : (0 <= IZR (h * h))%R) by (apply (IZR_le 0); nia). pose proof (sqrt_r x _ X P) as R. rewrite mult_IZR, sqrt_square in R by (apply (IZR_le 0); lia). rewrite r64_fmt in R; [exact R|].
  apply (fmt64 (int64f h)). apply int64_r. lia.
Qed.
Lemma mul_at0 a b x y : at_ 0 a x -> at_ 0 b y -> - 2 ^ 53 <= a * b <= 2 ^ 53 -> at_ 0 (a * b) (mul64 x y). Proof. intros X Y B. apply (mul_at 0 0 a b x y X Y); lia. Qed.
Lemma add_at0 a b x y : at_ 0 a x -> at_ 0 b y -> - 2 ^ 53 <= a + b <= 2 ^ 53 -> at_ 0 (a + b) (add64 x y). Proof. intros X Y B. apply (add_at 0 a b x y X Y); lia. Qed.
Lemma sub_at0 a b x y : at_ 0 a x -> at_ 0 b y -> - 2 ^ 53 <= a - b <= 2 ^ 53 -> at_ 0 (a - b) (sub64 x y). Proof. intros X Y B. apply (sub_at 0 a b x y X Y); lia. Qed.
Lemma prod_le a b A B : - A <= a <= A -> - B <= b <= B -> - (A * B) <= a * b <= A * B. Proof. intros H1 H2. apply Z.abs_le. rewrite Z.abs_mul. apply Z.mul_le_mono_nonneg; lia. Qed.
Lemma unit_cases dx dy : dx * dx + dy * dy = 1 -> (dx = 1 \/ dx = -1) /\ dy = 0 \/ dx = 0 /\ (dy = 1 \/ dy = -1).
Proof. intros U. assert (-1 <= dx <= 1) by nia. assert (-1 <= dy <= 1) by nia. assert (dx = -1 \/ dx = 0 \/ dx = 1) as [E|[E|E]] by lia; assert (dy = -1 \/ dy = 0 \/ dy = 1) as [F|[F|F]] by lia; rewrite E, F in *; lia. Qed.
(** what the ray needs: whole coordinates up to 2^11, a direction along an axis *)
Section Ray.
Variable atan2 : spec_float -> spec_float -> spec_float. Variable fuel : nat. Variable o d c : vertex2. Variable radius start end_ : spec_float. Variable ox oy dx dy cx cy r : Z.
Hypothesis O : on o ox oy. Hypothesis D : on d dx dy. Hypothesis C : on c cx cy. Hypothesis R : at_ 0 r radius.
Hypothesis B : - 2 ^ 11 <= ox <= 2 ^ 11 /\ - 2 ^ 11 <= oy <= 2 ^ 11 /\ - 2 ^ 11 <= cx <= 2 ^ 11 /\ - 2 ^ 11 <= cy <= 2 ^ 11 /\ - 2 ^ 11 <= r <= 2 ^ 11. Hypothesis U : dx * dx + dy * dy = 1.
(** minus the way to the point next to the centre, and the square of half the chord *)
Definition foot : Z := dx * (ox - cx) + dy * (oy - cy).
Definition chord2 : Z := foot * foot + r * r - (ox - cx) * (ox - cx) - (oy - cy) * (oy - cy).
Lemma foot_le : - 2 ^ 12 <= foot <= 2 ^ 12. Proof. unfold foot. destruct (unit_cases dx dy U) as [[[E|E] F]|[E [F|F]]]; rewrite E, F; lia. Qed.
Lemma sq_le a n : - n <= a <= n -> 0 <= a * a <= n * n. Proof. intros H. split; [apply Z.square_nonneg|]. rewrite <- Z.abs_square. apply Z.mul_le_mono_nonneg; lia. Qed.
Lemma chord_le : - 2 ^ 24 <= chord2 <= 2 ^ 24.
Proof.
  unfold chord2, foot. destruct B as (B1 & B2 & B3 & B4 & B5). pose proof (sq_le r _ B5). pose proof (sq_le (ox - cx) (2 ^ 12) ltac:(lia)). pose proof (sq_le (oy - cy) (2 ^ 12) ltac:(lia)). destruct (unit_cases dx dy U) as [[[E|E] F]|[E [F|F]]]; rewrite E, F; lia.
Qed.
Lemma prelude : exists n1 n2, extensionPointOnArc atan2 fuel o d c radius start end_ = pq_check atan2 fuel n1 n2 o d c start end_ /\ at_ 0 (2 * foot) n1 /\ at_ 0 (foot * foot - chord2) n2.
Proof.
  destruct O as [O1 O2], D as [D1 D2], C as [C1 C2], B as (B1 & B2 & B3 & B4 & B5). assert (BD : Z.opp 1 <= dx <= 1 /\ Z.opp 1 <= dy <= 1) by (clear - U; destruct (unit_cases dx dy U) as [[[E|E] F]|[E [F|F]]]; lia). destruct BD as [BD1 BD2].
  pose proof (prod_le dx ox _ _ BD1 B1) as P1. pose proof (prod_le cx dx _ _ B3 BD1) as P2. pose proof (prod_le dy oy _ _ BD2 B2) as P3. pose proof (prod_le cy dy _ _ B4 BD2) as P4.
  pose proof (prod_le ox ox _ _ B1 B1). pose proof (prod_le oy oy _ _ B2 B2). pose proof (prod_le cx cx _ _ B3 B3). pose proof (prod_le cy cy _ _ B4 B4). pose proof (prod_le r r _ _ B5 B5). pose proof (prod_le ox cx _ _ B1 B3) as P5. pose proof (prod_le oy cy _ _ B2 B4) as P6.
  assert (P7 : 2 * ox * cx = 2 * (ox * cx)) by ring. assert (P8 : 2 * oy * cy = 2 * (oy * cy)) by ring.
  unfold extensionPointOnArc. cbv zeta. match goal with |- context [pq_check _ _ (div64 ?b ?a) (div64 (fneg ?cc) _)] => exists (div64 b a), (div64 (fneg cc) a); split; [reflexivity|]; set (b0 := b); set (c0 := cc); set (a0 := a) end.
  assert (A : at_ 0 1 a0). { unfold a0. rewrite <- U. apply add_at0; [apply mul_at0; [exact D1|exact D1|pose proof (prod_le dx dx _ _ BD1 BD1); lia]|apply mul_at0; [exact D2|exact D2|pose proof (prod_le dy dy _ _ BD2 BD2); lia]|rewrite U; lia]. }
  assert (Hb : at_ 0 (2 * foot) b0).
  { unfold b0, foot. replace (dx * (ox - cx) + dy * (oy - cy)) with (dx * ox - cx * dx + dy * oy - cy * dy) by ring. apply mul_at0; [apply z_at; lia| |lia]. apply sub_at0; [apply add_at0; [apply sub_at0|..]|..]; try (apply mul_at0; [assumption|assumption|lia]); lia. }
  assert (Hc : at_ 0 (chord2 - foot * foot) c0).
  { unfold c0. replace (chord2 - foot * foot) with (r * r - ox * ox - oy * oy - cx * cx - cy * cy + 2 * ox * cx + 2 * oy * cy) by (unfold chord2; ring).
    apply add_at0; [apply add_at0; [apply sub_at0; [apply sub_at0; [apply sub_at0; [apply sub_at0|..]|..]|..]|..]|..]; try (apply mul_at0; [assumption|assumption|lia]); try (apply mul_at0; [apply mul_at0; [apply z_at; lia|assumption|lia]|assumption|lia]); lia. }
  pose proof foot_le as F. pose proof (sq_le foot _ F) as F2. pose proof chord_le as CH.
  split; [apply (over_one _ b0 _ Hb A); lia|]. replace (foot * foot - chord2) with (- (chord2 - foot * foot)) by ring. apply over_one; [now apply opp_at|exact A|lia].
Qed.
(** a circle that the ray's line does not meet *)
Theorem C142_miss : chord2 < 0 -> extensionPointOnArc atan2 fuel o d c radius start end_ = Val nan2.
Proof.
  intros M. destruct prelude as (n1 & n2 & -> & N1 & N2). pose proof foot_le as F. pose proof (sq_le foot _ F) as F2. pose proof chord_le as CH.
  assert (H : at_ 0 chord2 (sub64 (mul64 (mul64 (lit 1 2) n1) (mul64 (lit 1 2) n1)) n2)). { replace chord2 with (foot * foot - (foot * foot - chord2)) by ring. pose proof (half_of foot n1 N1 ltac:(lia)) as HF. apply sub_at0; [apply mul_at0; [exact HF|exact HF|lia]|exact N2|lia]. }
  unfold pq_check. cbv zeta. destruct (int_less _ 0 _ f0 H (zero_at 0) ltac:(lia) ltac:(lia)) as (E1 & E2 & _). rewrite E1, E2. replace (chord2 <=? 0) with true by lia. replace (chord2 <? 0) with true by lia. reflexivity.
Qed.
(** a circle that the ray meets, with a chord of whole length 2h > 0 *)
Theorem C142_hit h : 0 < h -> h * h = chord2 -> exists v1 v2, on v1 (ox + (- foot - h) * dx) (oy + (- foot - h) * dy) /\ on v2 (ox + (- foot + h) * dx) (oy + (- foot + h) * dy) /\
  (- foot + h <= 0 -> extensionPointOnArc atan2 fuel o d c radius start end_ = Val nan2) /\
  forall b1 b2, check_angle atan2 fuel v1 c start end_ = Val b1 -> check_angle atan2 fuel v2 c start end_ = Val b2 ->
    (0 < - foot - h -> extensionPointOnArc atan2 fuel o d c radius start end_ = Val (if b1 then v1 else if b2 then v2 else nan2)) /\
    (- foot - h <= 0 < - foot + h -> extensionPointOnArc atan2 fuel o d c radius start end_ = Val (if b2 then v2 else nan2)).
Proof.
  intros Hh HC. destruct prelude as (n1 & n2 & -> & N1 & N2). pose proof foot_le as F. pose proof (sq_le foot _ F) as F2. pose proof chord_le as CH. assert (Hle : h <= 2 ^ 12) by (apply Z.square_le_simpl_nonneg; lia).
  pose proof (half_of foot n1 N1 ltac:(lia)) as HF. unfold pq_check. cbv zeta. set (p2 := mul64 (lit 1 2) n1) in *.
  assert (H : at_ 0 chord2 (sub64 (mul64 p2 p2) n2)). { replace chord2 with (foot * foot - (foot * foot - chord2)) by ring. apply sub_at0; [apply mul_at0; [exact HF|exact HF|lia]|exact N2|lia]. }
  set (rt := sub64 (mul64 p2 p2) n2) in *. destruct (int_less _ 0 _ f0 H (zero_at 0) ltac:(lia) ltac:(lia)) as (E1 & E2 & _). rewrite E1, E2. assert (HP : 0 < h * h) by (apply Z.mul_pos_pos; lia). replace (chord2 <=? 0) with false by lia. cbn [andb]. cbv iota.
  rewrite <- HC in H. pose proof (root_of h rt H ltac:(lia)) as RT. set (w := sqrt64 rt) in *. pose proof (opp_at _ _ _ HF) as OP.
  assert (M1 : at_ 0 (- foot - h) (sub64 (fneg p2) w)) by (apply sub_at0; [exact OP|exact RT|lia]). assert (M2 : at_ 0 (- foot + h) (add64 (fneg p2) w)) by (apply add_at0; [exact OP|exact RT|lia]).
  set (m1 := sub64 (fneg p2) w) in *. set (m2 := add64 (fneg p2) w) in *.
  destruct O as [O1 O2], D as [D1 D2], B as (B1 & B2 & _). assert (BD : Z.opp 1 <= dx <= 1 /\ Z.opp 1 <= dy <= 1) by (clear - U; destruct (unit_cases dx dy U) as [[[E|E] F]|[E [F|F]]]; lia). destruct BD as [BD1 BD2].
  assert (V : forall z m, at_ 0 z m -> - 2 ^ 13 <= z <= 2 ^ 13 -> on (vadd2 o (vmul2 m d)) (ox + z * dx) (oy + z * dy)).
  { intros z m Hm Hz. pose proof (prod_le z dx _ _ Hz BD1). pose proof (prod_le z dy _ _ Hz BD2). split; cbn [vadd2 vmul2 px py]; (apply add_at0; [assumption|apply mul_at0; [assumption|assumption|lia]|lia]). }
  exists (vadd2 o (vmul2 m1 d)), (vadd2 o (vmul2 m2 d)). split; [apply V; [exact M1|lia]|]. split; [apply V; [exact M2|lia]|].
  destruct (int_less _ 0 _ f0 M1 (zero_at 0) ltac:(lia) ltac:(lia)) as (_ & L1 & G1). destruct (int_less _ 0 _ f0 M2 (zero_at 0) ltac:(lia) ltac:(lia)) as (_ & L2 & G2). destruct (int_less _ _ _ _ M1 M2 ltac:(lia) ltac:(lia)) as (L12 & _).
  rewrite L1, L2. split.
  - intros Hb. replace (- foot - h <=? 0) with true by lia. replace (- foot + h <=? 0) with true by lia. reflexivity.
  - intros b1 b2 C1 C2. rewrite C1, C2. cbn [bind]. rewrite G1, G2, L12. split; intros Hc.
    + replace (- foot - h <=? 0) with false by lia. replace (- foot + h <=? 0) with false by lia. replace (0 <? - foot - h) with true by lia. replace (0 <? - foot + h) with true by lia. replace (- foot - h <? - foot + h) with true by lia. cbn [andb]. destruct b1, b2; reflexivity.
    + replace (- foot - h <=? 0) with true by lia. replace (- foot + h <=? 0) with false by lia. replace (0 <? - foot - h) with false by lia. cbn [andb]. destruct b1, b2; reflexivity.
Qed.
End Ray.
Print Assumptions C142_miss.
Print Assumptions C142_hit.
(** ** what does not hold: an angle that a turn does not change keeps the loop turning for ever *)
Lemma turn_hang fuel x : isGreaterEqual x M_2PI = true -> sub64 x M_2PI = x -> turn_down fuel x = Fuel.
Proof. intros G E. induction fuel as [|fuel IH]; cbn [turn_down]; rewrite G; [reflexivity|]. now rewrite E. Qed.
Definition V (x y : Z) : vertex2 := V2 (int64f x) (int64f y).
Theorem C142_hang_refuted : forall atan2 fuel end_ start, start = int64f (2 ^ 57) \/ start = S754_infinity false -> extensionPointOnArc atan2 fuel (V (-5) 0) (V 1 0) (V 0 0) (int64f 1) start end_ = Fuel.
Proof.
  intros atan2 fuel end_ start S. assert (T : turn_down fuel start = Fuel) by (destruct S as [->| ->]; apply turn_hang; vm_compute; reflexivity).
  assert (C : forall p c, check_angle atan2 fuel p c start end_ = Fuel) by (intros p c; unfold check_angle; cbv zeta; rewrite T; reflexivity).
  unfold extensionPointOnArc. cbv zeta. unfold pq_check. cbv zeta. repeat match goal with |- (if ?c then _ else _) = _ => let v := eval vm_compute in c in change c with v; cbv iota end. rewrite C. reflexivity.
Qed.
Print Assumptions C142_hang_refuted.
(** a ray from (-5, 3) along the x axis and the circle of radius 5 around the origin: the points (-4, 3) and (4, 3); with an atan2 that answers 2.5 for the first and 0.64 for the second, and the arc from 0 to 2, the second one is taken;
    all hypotheses are met *)
Definition atan2_ (y x : spec_float) : spec_float := if SFltb x f0 then lit 25 10 else lit 64 100.
Example C142_ex : extensionPointOnArc atan2_ 3 (V (-5) 3) (V 1 0) (V 0 0) (int64f 5) f0 (int64f 2) = Val (V 4 3) /\ extensionPointOnArc atan2_ 3 (V (-5) 3) (V 1 0) (V 0 0) (int64f 5) f0 (int64f 6) = Val (V (-4) 3) /\
  extensionPointOnArc atan2_ 3 (V (-5) 6) (V 1 0) (V 0 0) (int64f 5) f0 (int64f 6) = Val nan2 /\ foot (-5) 3 1 0 0 0 = -5 /\ chord2 (-5) 3 1 0 0 0 5 = 4 * 4 /\ chord2 (-5) 6 1 0 0 0 5 < 0 /\
  check_angle atan2_ 3 (V (-4) 3) (V 0 0) f0 (int64f 2) = Val false /\ check_angle atan2_ 3 (V 4 3) (V 0 0) f0 (int64f 2) = Val true /\ on (V (-5) 3) (-5) 3.
Proof. repeat (split; [vm_compute; reflexivity|]). split; apply z_at; lia. Qed.
Example C142_check_hyps : dbl f0 0 /\ dbl (int64f 2) 2 /\ (exists a, dbl (atan2_ (py (vsub2 (V 4 3) (V 0 0))) (px (vsub2 (V 4 3) (V 0 0)))) a /\ (- PI <= Q2R a <= PI)%R /\ (Q2R 0 <= Q2R a + IZR 0 * (2 * PI) <= Q2R 2)%R) /\ (0 <= Q2R 0 /\ Q2R 0 + bpow radix2 (-18) <= Q2R 2 /\ Q2R 2 <= 2 * PI - bpow radix2 (-18))%R.
Proof.
  pose proof pi_low. assert (E0 : Q2R 0 = 0%R) by (unfold Q2R; cbn; lra). assert (E2 : Q2R 2 = 2%R) by (unfold Q2R; cbn; lra). rewrite E0, E2. change (bpow radix2 (-18)) with (/ 262144)%R.
  split; [split; vm_compute; reflexivity|]. split; [split; vm_compute; reflexivity|]. split; [|lra]. exists (5764607523034235 # 9007199254740992)%Q. split; [split; vm_compute; reflexivity|]. unfold Q2R. cbn [Qnum Qden]. lra.
Qed.
