From Coq Require Import Reals Lra ZArith QArith Qabs Qreals.
From Flocq Require Import Core BinarySingleNaN.
From Coq Require Import SpecFloat.
From Verif Require Import Base M_Float M_Color S_Color L_Float L_Float2 L_Color L_Color3.
Local Open Scope Z_scope.
Ltac Zify.zify_post_hook ::= Z.to_euclidean_division_equations.

Lemma Q2R_frac n d : 0 < d -> Q2R (n # Z.to_pos d) = (IZR n / IZR d)%R.
Proof. intros H. unfold Q2R. cbn [Qnum Qden]. rewrite Z2Pos.id by exact H. reflexivity. Qed.
(** a difference of two components over the greatest difference *)
Lemma quot n d : 0 < d -> - d <= n <= d -> (-1 <= IZR n / IZR d <= 1)%R.
Proof.
  intros H [L U]. apply IZR_le in L, U. rewrite opp_IZR in L. assert (P : (0 < IZR d)%R) by (apply IZR_lt; exact H). split; (apply Rmult_le_reg_r with (IZR d); [exact P|]); unfold Rdiv; rewrite Rmult_assoc, Rinv_l by lra; lra.
Qed.
Lemma quot0 n d : 0 < d -> 0 <= n -> (0 <= IZR n / IZR d)%R.
Proof. intros H L. apply IZR_le in L. apply IZR_lt in H. apply Rmult_le_pos; [exact L|left; now apply Rinv_0_lt_compat]. Qed.
Lemma quot_neg n d : 0 < d <= 255 -> n < 0 -> (IZR n / IZR d <= - / 255)%R.
Proof.
  intros [H1 H2] L. assert (L' : n <= -1) by lia. apply IZR_le in L', H2. apply IZR_lt in H1. apply Rmult_le_reg_r with (IZR d); [exact H1|]. unfold Rdiv. rewrite Rmult_assoc, Rinv_l by lra. lra.
Qed.
Lemma hue_red g b d : byte g -> byte b -> 0 < d <= 255 -> - d <= g - b <= d ->
  exists H, is32 (div32 (mul32 (int32f 60) (int32f (g - b))) (int32f d)) H /\ (- (64 * u) <= H - 60 * (IZR (g - b) / IZR d) <= 64 * u)%R /\ (0 <= g - b -> (0 <= H)%R).
Proof.
  intros Hg Hb Hd Hn. unfold byte in *. pose proof (quot (g - b) d ltac:(lia) Hn) as Q. set (n := g - b) in *.
  assert (M1 : is32 (mul32 (int32f 60) (int32f n)) (IZR (60 * n))).
  { rewrite <- (r32_int (60 * n)) by lia. rewrite mult_IZR. apply (mul32_r _ _ 60 (IZR n) (60 * n) (60 * n)); [apply int32_r; lia|apply int32_r; lia|lia|lia|rewrite mult_IZR; lra]. }
  assert (P : (0 < IZR d)%R) by (apply IZR_lt; lia). assert (E : (IZR (60 * n) / IZR d = 60 * (IZR n / IZR d))%R) by (rewrite mult_IZR; field; lra).
  assert (Q2 : (-60 <= IZR (60 * n) / IZR d <= 60)%R) by (rewrite E; lra).
  exists (r32 (IZR (60 * n) / IZR d)). split; [apply (div32_r _ _ _ (IZR d) (-60) 60); [exact M1|apply int32_r; lia|lra|lia|lia|exact Q2]|]. split.
  - rewrite <- E. pose proof (err (IZR (60 * n) / IZR d) 6 ltac:(lia)) as R. change (IZR (2 ^ 6)) with 64%R in R. specialize (R ltac:(lra)). exact R.
  - intros L. apply (r32_range _ 0 60); [lia|lia|]. pose proof (quot0 n d ltac:(lia) L). rewrite E. lra.
Qed.
Lemma hue_sector k n d : 0 < d <= 255 -> - d <= n <= d -> (k = 2 \/ k = 4) ->
  exists H, is32 (mul32 (int32f 60) (add32 (int32f k) (div32 (int32f n) (int32f d)))) H /\ (- (1052 * u) <= H - 60 * (IZR k + IZR n / IZR d) <= 1052 * u)%R.
Proof.
  intros Hd Hn Hk. pose proof (quot n d ltac:(lia) Hn) as Q. assert (P : (0 < IZR d)%R) by (apply IZR_lt; lia).
  pose proof (div32_r _ _ _ (IZR d) (-1) 1 (int32_r n ltac:(lia)) (int32_r d ltac:(lia)) ltac:(lra) ltac:(lia) ltac:(lia) Q) as M1. pose proof (err0 _ Q) as E1. pose proof (r32_range _ (-1) 1 ltac:(lia) ltac:(lia) Q) as T1. set (a := r32 (IZR n / IZR d)) in *. pose proof u_pos as U0.
  assert (K4 : (2 <= IZR k <= 4)%R) by (destruct Hk; subst k; lra). assert (Q2 : (1 <= IZR k + a <= 5)%R) by lra.
  pose proof (add32_r _ _ (IZR k) a 1 5 (int32_r k ltac:(lia)) M1 ltac:(lia) ltac:(lia) Q2) as M2. pose proof (err (IZR k + a) 3 ltac:(lia)) as E2. change (IZR (2 ^ 3)) with 8%R in E2. specialize (E2 ltac:(lra)). pose proof (r32_range _ 1 5 ltac:(lia) ltac:(lia) Q2) as T2. set (b := r32 (IZR k + a)) in *.
  assert (Q3 : (60 <= 60 * b <= 300)%R) by lra. pose proof (mul32_r _ _ 60 b 60 300 (int32_r 60 ltac:(lia)) M2 ltac:(lia) ltac:(lia) Q3) as M3. pose proof (err (60 * b) 9 ltac:(lia)) as E3. change (IZR (2 ^ 9)) with 512%R in E3. specialize (E3 ltac:(lra)).
  exists (r32 (60 * b)). split; [exact M3|]. lra.
Qed.
Lemma hue_place r g b : byte r -> byte g -> byte b -> min3 r g b < max3 r g b ->
  exists y, Q2R (hue_exact r g b) = (60 * y)%R /\ (0 <= y < 6)%R /\
    let d := IZR (max3 r g b - min3 r g b) in
    pr y = (IZR (r - min3 r g b) / d)%R /\ pg y = (IZR (g - min3 r g b) / d)%R /\ pb y = (IZR (b - min3 r g b) / d)%R.
Proof.
  intros Hr Hg Hb L. unfold byte in *. set (d := max3 r g b - min3 r g b). assert (Hd : 0 < d) by lia. assert (P : (0 < IZR d)%R) by (apply IZR_lt; exact Hd). assert (D1 : (IZR d / IZR d = 1)%R) by (field; lra). assert (D0 : (0 / IZR d = 0)%R) by (field; lra).
  unfold hue_exact. fold d. cbv zeta. destruct (Z.eqb_spec (max3 r g b) r) as [Er|Nr].
  - destruct (Z.ltb_spec g b) as [Lb|Lb].
    + assert (Em : min3 r g b = g) by (unfold min3, max3 in *; lia). assert (Ed : d = r - g) by (unfold d; lia). exists (6 + IZR (g - b) / IZR d)%R. rewrite Q2R_frac by exact Hd. assert (Q := quot (g - b) d Hd ltac:(unfold min3, max3 in *; lia)). assert (Q0 := quot_neg (g - b) d ltac:(unfold min3, max3 in *; lia) ltac:(lia)).
      split; [rewrite plus_IZR, !mult_IZR; field; lra|]. split; [lra|]. rewrite Em. replace (r - g) with d by lia. replace (g - g) with 0 by lia. rewrite D1, D0. replace (b - g) with (- (g - b)) by lia. rewrite (opp_IZR (g - b)). replace (- IZR (g - b) / IZR d)%R with (- (IZR (g - b) / IZR d))%R by (field; lra). set (x := (IZR (g - b) / IZR d)%R) in *. split; [|split]; cases.
    + assert (Em : min3 r g b = b) by (unfold min3, max3 in *; lia). assert (Ed : d = r - b) by (unfold d; lia). exists (IZR (g - b) / IZR d)%R. rewrite Q2R_frac by exact Hd. assert (Q := quot (g - b) d Hd ltac:(unfold min3, max3 in *; lia)). assert (Q0 := quot0 (g - b) d Hd ltac:(lia)).
      split; [rewrite !mult_IZR; field; lra|]. split; [lra|]. rewrite Em. replace (r - b) with d by lia. replace (b - b) with 0 by lia. rewrite D1, D0. set (x := (IZR (g - b) / IZR d)%R) in *. split; [|split]; cases.
  - destruct (Z.eqb_spec (max3 r g b) g) as [Eg|Ng].
    + exists (2 + IZR (b - r) / IZR d)%R. rewrite Q2R_frac by exact Hd. assert (Q := quot (b - r) d Hd ltac:(unfold d, min3, max3 in *; lia)). split; [rewrite plus_IZR, !mult_IZR; field; lra|]. split; [lra|]. destruct (Z_le_gt_dec b r).
      * assert (Em : min3 r g b = b) by (unfold min3, max3 in *; lia). assert (Q0 := quot0 (r - b) d Hd ltac:(lia)). rewrite Em. replace (g - b) with d by lia. replace (b - b) with 0 by lia. rewrite D1, D0. replace (b - r) with (- (r - b)) by lia. rewrite (opp_IZR (r - b)) in *. replace (b - r) with (- (r - b)) in Q by lia. rewrite (opp_IZR (r - b)) in Q. replace (- IZR (r - b) / IZR d)%R with (- (IZR (r - b) / IZR d))%R in * by (field; lra). set (x := (IZR (r - b) / IZR d)%R) in *. split; [|split]; cases.
      * assert (Em : min3 r g b = r) by (unfold min3, max3 in *; lia). assert (Q0 := quot0 (b - r) d Hd ltac:(lia)). rewrite Em. replace (g - r) with d by lia. replace (r - r) with 0 by lia. rewrite D1, D0. set (x := (IZR (b - r) / IZR d)%R) in *. split; [|split]; cases.
    + assert (Eb : max3 r g b = b) by (unfold max3 in *; lia). exists (4 + IZR (r - g) / IZR d)%R. rewrite Q2R_frac by exact Hd. assert (Q := quot (r - g) d Hd ltac:(unfold d, min3, max3 in *; lia)). split; [rewrite plus_IZR, !mult_IZR; field; lra|]. split; [lra|]. destruct (Z_le_gt_dec r g).
      * assert (Em : min3 r g b = r) by (unfold min3, max3 in *; lia). assert (Q0 := quot0 (g - r) d Hd ltac:(lia)). rewrite Em. replace (b - r) with d by lia. replace (r - r) with 0 by lia. rewrite D1, D0. replace (r - g) with (- (g - r)) in * by lia. rewrite (opp_IZR (g - r)) in *. replace (- IZR (g - r) / IZR d)%R with (- (IZR (g - r) / IZR d))%R in * by (field; lra). set (x := (IZR (g - r) / IZR d)%R) in *. split; [|split]; cases.
      * assert (Em : min3 r g b = g) by (unfold min3, max3 in *; lia). assert (Q0 := quot0 (r - g) d Hd ltac:(lia)). rewrite Em. replace (b - g) with d by lia. replace (g - g) with 0 by lia. rewrite D1, D0. set (x := (IZR (r - g) / IZR d)%R) in *. split; [|split]; cases.
Qed.
Lemma hsv_r c : let t := to_rgb c in byte (b0 t) -> byte (b1 t) -> byte (b2 t) -> min3 (b0 t) (b1 t) (b2 t) < max3 (b0 t) (b1 t) (b2 t) ->
  exists h s v H S, hsv c = (h, s, v) /\ is32 h H /\ is32 s S /\ is32 v (F (max3 (b0 t) (b1 t) (b2 t))) /\ (0 <= H < 360)%R /\
    (- (1052 * u) <= H - Q2R (hue_exact (b0 t) (b1 t) (b2 t)) <= 1052 * u)%R /\ (0 <= S <= 1)%R /\
    (- u <= S - IZR (max3 (b0 t) (b1 t) (b2 t) - min3 (b0 t) (b1 t) (b2 t)) / IZR (max3 (b0 t) (b1 t) (b2 t)) <= u)%R.
Proof.
  intros t Hr Hg Hb L. unfold hsv. fold t. cbv zeta. fold (max3 (b0 t) (b1 t) (b2 t)). fold (min3 (b0 t) (b1 t) (b2 t)). destruct (hue_place _ _ _ Hr Hg Hb L) as (y & Ey & By & _). revert Ey. unfold hue_exact. cbv zeta.
  set (r := b0 t) in *. set (g := b1 t) in *. set (b := b2 t) in *. set (M := max3 r g b) in *. set (m := min3 r g b) in *.
  assert (BM : byte M) by (unfold M, max3, byte in *; lia). destruct (Z.eqb_spec M m) as [Q|_]; [lia|]. set (d := M - m) in *. assert (Hd : 0 < d <= 255) by (unfold d, m, min3, byte in *; lia). intros Ey.
  assert (U9 : (0 < 1052 * u <= / 10000)%R) by (unfold u; lra).
  assert (SS : exists S, is32 (div32 (int32f d) (int32f M)) S /\ (0 <= S <= 1)%R /\ (- u <= S - IZR d / IZR M <= u)%R).
  { assert (HM : 0 < M) by (unfold d, m, min3, byte in *; lia). assert (LdM : d <= M) by (unfold d, m, min3, byte in *; lia). assert (Q := quot d M HM ltac:(lia)). assert (Q0 := quot0 d M HM ltac:(lia)). assert (PM : (0 < IZR M)%R) by (apply IZR_lt; exact HM). unfold byte in BM. exists (r32 (IZR d / IZR M)). split; [apply (div32_r _ _ _ (IZR M) 0 1); [apply int32_r; lia|apply int32_r; lia|lra|lia|lia|lra]|]. split; [apply (r32_range _ 0 1); [lia|lia|lra]|]. apply err0. lra. }
  destruct SS as (S & RS & BS & ES). assert (Z0 : is32 (S754_zero false) 0) by (exists (B754_zero false); auto).
  assert (HH : exists H, is32 (let h := if M =? r then div32 (mul32 (int32f 60) (int32f (g - b))) (int32f d) else if M =? g then mul32 (int32f 60) (add32 (int32f 2) (div32 (int32f (b - r)) (int32f d))) else mul32 (int32f 60) (add32 (int32f 4) (div32 (int32f (r - g)) (int32f d))) in if SFltb h (S754_zero false) then add32 h (int32f 360) else h) H /\ (0 <= H < 360)%R /\ (- (1052 * u) <= H - 60 * y <= 1052 * u)%R).
  { cbv zeta. destruct (Z.eqb_spec M r) as [Er|Nr]; [|destruct (Z.eqb_spec M g) as [Eg|Ng]].
    - destruct (hue_red g b d Hg Hb Hd ltac:(unfold d, M, m, max3, min3 in *; lia)) as (H & RH & EH & PH). rewrite (ltb_r 24 128 _ _ _ _ RH Z0). assert (Qq := quot (g - b) d ltac:(lia) ltac:(unfold d, M, m, max3, min3 in *; lia)). destruct (Z.ltb_spec g b) as [Lb|Lb]; rewrite Q2R_frac in Ey by lia.
      + assert (Q0 := quot_neg (g - b) d Hd ltac:(lia)). rewrite Rlt_bool_true by lra. assert (Ey2 : (60 * (IZR (g - b) / IZR d) + 360 = 60 * y)%R). { rewrite <- Ey, plus_IZR, !mult_IZR. assert (0 < IZR d)%R by (apply IZR_lt; lia). field. lra. }
        assert (Q3 : (299 <= H + 360 <= 360)%R) by lra. exists (r32 (H + 360)). split; [apply (add32_r _ _ H 360 299 360); [exact RH|apply int32_r; lia|lia|lia|exact Q3]|]. pose proof (r32_range _ 299 360 ltac:(lia) ltac:(lia) Q3) as T. pose proof (err (H + 360) 9 ltac:(lia)) as E. change (IZR (2 ^ 9)) with 512%R in E. specialize (E ltac:(lra)). lra.
      + rewrite Rlt_bool_false by (apply PH; lia). assert (Ey2 : (60 * (IZR (g - b) / IZR d) = 60 * y)%R). { rewrite <- Ey, mult_IZR. assert (0 < IZR d)%R by (apply IZR_lt; lia). field. lra. }
        exists H. split; [exact RH|]. specialize (PH ltac:(lia)). lra.
    - destruct (hue_sector 2 (b - r) d Hd ltac:(unfold d, M, m, max3, min3 in *; lia) ltac:(auto)) as (H & RH & EH). rewrite (ltb_r 24 128 _ _ _ _ RH Z0). assert (Qq := quot (b - r) d ltac:(lia) ltac:(unfold d, M, m, max3, min3 in *; lia)). rewrite Rlt_bool_false by lra. rewrite Q2R_frac in Ey by lia. assert (Ey2 : (60 * (2 + IZR (b - r) / IZR d) = 60 * y)%R). { rewrite <- Ey, plus_IZR, !mult_IZR. assert (0 < IZR d)%R by (apply IZR_lt; lia). field. lra. }
      exists H. split; [exact RH|]. lra.
    - destruct (hue_sector 4 (r - g) d Hd ltac:(unfold d, M, m, max3, min3 in *; lia) ltac:(auto)) as (H & RH & EH). rewrite (ltb_r 24 128 _ _ _ _ RH Z0). assert (Qq := quot (r - g) d ltac:(lia) ltac:(unfold d, M, m, max3, min3 in *; lia)). rewrite Rlt_bool_false by lra. rewrite Q2R_frac in Ey by lia. assert (Ey2 : (60 * (4 + IZR (r - g) / IZR d) = 60 * y)%R). { rewrite <- Ey, plus_IZR, !mult_IZR. assert (0 < IZR d)%R by (apply IZR_lt; lia). field. lra. }
      exists H. split; [exact RH|]. lra. }
  destruct HH as (H & RH & BH & EH). do 3 eexists. exists H, S. split; [reflexivity|]. split; [exact RH|]. split; [exact RS|]. split; [apply F_r; exact BM|]. rewrite Ey. auto.
Qed.
(** * there and back *)
Lemma floor_below w x : byte x -> (- / 1000 <= w - IZR x <= / 1000)%R -> x - 1 <= Zfloor w <= x.
Proof.
  intros _ H. split.
  - rewrite <- (Zfloor_IZR (x - 1)). apply Zfloor_le. rewrite minus_IZR. lra.
  - assert (Zfloor w < x + 1); [|lia]. apply lt_IZR. rewrite plus_IZR. pose proof (Zfloor_lb w). lra.
Qed.
Lemma back V S phi M m x : byte x -> byte M -> byte m -> m < M -> (- u <= V - IZR M / 255 <= u)%R -> (0 <= V <= 1)%R -> (0 <= S <= 1)%R ->
  (- u <= S - IZR (M - m) / IZR M <= u)%R -> (- (20 * u) <= phi - IZR (x - m) / IZR (M - m) <= 20 * u)%R -> m <= x <= M -> (- / 5000 <= ex V S phi - IZR x <= / 5000)%R.
Proof.
  intros Hx HM Hm L EV BV BS ES Ep Hxm. unfold byte in *. pose proof u_pos as U0.
  assert (Q1 := quot (M - m) M ltac:(lia) ltac:(lia)). assert (Q10 := quot0 (M - m) M ltac:(lia) ltac:(lia)). assert (Q2 := quot (x - m) (M - m) ltac:(lia) ltac:(lia)). assert (Q20 := quot0 (x - m) (M - m) ltac:(lia) ltac:(lia)).
  assert (PM : (0 < IZR M)%R) by (apply IZR_lt; lia). assert (Pd : (0 < IZR (M - m))%R) by (apply IZR_lt; lia).
  pose proof (phi_close V S phi (IZR (x - m) / IZR (M - m)) (20 * u) BV BS Ep ltac:(lra)) as A1. set (f := (IZR (x - m) / IZR (M - m))%R) in *. set (s := (IZR (M - m) / IZR M)%R) in *.
  assert (A2 : (- (255 * u) <= ex V S f - ex V s f <= 255 * u)%R). { unfold ex. pose proof (P01 V (1 - f) BV ltac:(lra)). pose proof (mul_bound (S - s) (V * (1 - f)) u 1 ES ltac:(lra) ltac:(lra)). lra. }
  assert (A3 : (- (255 * u) <= ex V s f - ex (IZR M / 255) s f <= 255 * u)%R). { unfold ex. pose proof (P01 s (1 - f) ltac:(lra) ltac:(lra)). pose proof (mul_bound (V - IZR M / 255) (1 - s * (1 - f)) u 1 EV ltac:(lra) ltac:(lra)). lra. }
  assert (A4 : ex (IZR M / 255) s f = IZR x). { unfold ex, s, f. rewrite !minus_IZR in *. field. split; lra. }
  assert (6000 * u <= / 5000)%R by (unfold u; lra). lra.
Qed.
Lemma round_trip c j : let t := to_rgb c in byte (b0 t) -> byte (b1 t) -> byte (b2 t) ->
  exists h s v r g b, hsv c = (h, s, v) /\ from_hsv j h s v (int32f 1) = Val (C Rgb r g b j 255) /\
    b0 t - 1 <= r <= b0 t /\ b1 t - 1 <= g <= b1 t /\ b2 t - 1 <= b <= b2 t.
Proof.
  intros t Hr Hg Hb. assert (R1 : is32 (int32f 1) 1) by (apply int32_r; lia). destruct (Z_lt_ge_dec (min3 (b0 t) (b1 t) (b2 t)) (max3 (b0 t) (b1 t) (b2 t))) as [L|L].
  - destruct (hsv_r c Hr Hg Hb L) as (h & s & v & H & S & E & RH & RS & RV & BH & EH & BS & ES). fold t in L, EH, ES, RV. set (M := max3 _ _ _) in *. set (m := min3 _ _ _) in *.
    assert (BM : byte M) by (unfold M, max3, byte in *; lia). assert (Bm : byte m) by (unfold m, min3, byte in *; lia). pose proof (F_range M BM) as BV. pose proof (F_err M BM) as EV.
    destruct (from_hsv_r j h s v (int32f 1) H S (F M) 1 RH RS RV R1 ltac:(lra) BS BV ltac:(lra)) as (r & g & b & a & wr & wg & wb & wa & E2 & (-> & Cr & Nr) & (-> & Cg & Ng) & (-> & Cb & Nb) & (-> & Ca & Na)).
    assert (Ewa : Zfloor wa = 255).
    { (* alpha = 1 *) assert (f2u8 (mul32 (int32f 1) (int32f 255)) = Val 255) as X by (vm_compute; reflexivity). revert E2. unfold from_hsv. cbv zeta. rewrite X. destruct (ffloor_s32 _); cbn [bind]; try discriminate. match goal with |- bind ?q _ = _ -> _ => destruct q end; cbn [bind]; try discriminate. intros E2. injection E2. auto. }
    destruct (hue_place _ _ _ Hr Hg Hb L) as (y & Ey & By & Pr & Pg & Pb). fold M m in Pr, Pg, Pb. cbv zeta in *. rewrite Ey in EH.
    pose proof u_pos as U0. assert (UU : (1052 * u <= / 1000)%R) by (unfold u; lra).
    assert (LR : (- (20 * u) <= pr (H / 60) - pr y <= 20 * u)%R) by (revert UU EH BH By U0; clear; intros; cases).
    assert (LG : (- (20 * u) <= pg (H / 60) - pg y <= 20 * u)%R) by (revert UU EH BH By U0; clear; intros; cases).
    assert (LB : (- (20 * u) <= pb (H / 60) - pb y <= 20 * u)%R) by (revert UU EH BH By U0; clear; intros; cases).
    rewrite Pr in LR. rewrite Pg in LG. rewrite Pb in LB.
    assert (m <= b0 t <= M /\ m <= b1 t <= M /\ m <= b2 t <= M) as (I0 & I1 & I2) by (unfold m, M, min3, max3; lia).
    pose proof (back (F M) S _ M m (b0 t) Hr BM Bm L EV BV BS ES LR I0). pose proof (back (F M) S _ M m (b1 t) Hg BM Bm L EV BV BS ES LG I1). pose proof (back (F M) S _ M m (b2 t) Hb BM Bm L EV BV BS ES LB I2).
    exists h, s, v. do 3 eexists. split; [exact E|]. rewrite E2, Ewa. split; [reflexivity|]. unfold near3 in *. split; [|split]; (apply floor_below; [assumption|lra]).
  - assert (Q : b1 t = b0 t /\ b2 t = b0 t) by (unfold max3, min3 in L; lia). destruct Q as [Q1 Q2]. rewrite Q1, Q2.
    assert (E : hsv c = (S754_zero false, S754_zero false, div32 (int32f (b0 t)) (int32f 255))).
    { unfold hsv. fold t. rewrite Q1, Q2, !Z.max_id, !Z.min_id, Z.eqb_refl. reflexivity. }
    assert (Z0 : is32 (S754_zero false) 0) by (exists (B754_zero false); auto). pose proof (F_range _ Hr) as BV. pose proof (F_err _ Hr) as EV.
    destruct (from_hsv_r j (S754_zero false) (S754_zero false) _ (int32f 1) 0 0 _ 1 Z0 Z0 (F_r _ Hr) R1 ltac:(lra) ltac:(lra) BV ltac:(lra)) as (r & g & b & a & wr & wg & wb & wa & E2 & (-> & Cr & Nr) & (-> & Cg & Ng) & (-> & Cb & Nb) & (-> & Ca & Na)).
    assert (Ewa : Zfloor wa = 255).
    { (* alpha = 1 *) assert (f2u8 (mul32 (int32f 1) (int32f 255)) = Val 255) as X by (vm_compute; reflexivity). revert E2. unfold from_hsv. cbv zeta. rewrite X. destruct (ffloor_s32 _); cbn [bind]; try discriminate. match goal with |- bind ?q _ = _ -> _ => destruct q end; cbn [bind]; try discriminate. intros E2. injection E2. auto. }
    pose proof u_pos as U0. assert (UU : (1052 * u <= / 1000)%R) by (unfold u; lra). do 6 eexists. split; [exact E|]. rewrite E2, Ewa. split; [reflexivity|]. unfold near3, ex in *. split; [|split]; (apply floor_below; [assumption|lra]).
Qed.
