(** P_Color.v -- theorems about Color (C80-C85). Words used here: S_Color.v. *)
From Coq Require Import QArith Qabs.
From Coq Require Import Reals Lra Qreals.
From Flocq Require Import Core BinarySingleNaN.
From Coq Require Import SpecFloat.
From Verif Require Import Base M_Float M_Color S_Color L_Float L_Float2 L_Color L_Color2 L_Color3 L_Color4 L_Color5.
Local Open Scope Z_scope.
Ltac Zify.zify_post_hook ::= Z.to_euclidean_division_equations.

(** * C80: conversions *)
Theorem C80_to_rgb c : mode (to_rgb c) = Rgb /\ alpha (to_rgb c) = alpha c /\ to_rgb (to_rgb c) = to_rgb c /\ (bytes c -> bytes (to_rgb c)).
Proof. repeat split; try apply to_rgb_bytes; try assumption; unfold to_rgb; destruct (mode c) eqn:E; cbn; rewrite ?E; reflexivity. Qed.
Print Assumptions C80_to_rgb.
Theorem C80_is_white c : bytes c -> is_white (to_rgb c) = is_white c.
Proof.
  intros (H0 & H1 & H2 & H3 & _). unfold byte in *. unfold is_white, to_rgb. destruct (mode c) eqn:E; cbn [mode b0 b1 b2 b3 alpha]; rewrite ?E; [destruct (b0 c =? 255); reflexivity|reflexivity|].
  apply Bool.eq_iff_eq_true. rewrite !Bool.andb_true_iff, !Z.eqb_eq. lia.
Qed.
Print Assumptions C80_is_white.
(** grey to CMYK to RGB is grey to RGB, but opaque *)
Theorem C80_grey_cmyk_rgb c : mode c = Grey -> bytes c ->
  exists c', to_cmyk c = Val c' /\ mode c' = Cmyk /\ parts (to_rgb c') = [b0 c; b0 c; b0 c] /\ parts (to_rgb c) = [b0 c; b0 c; b0 c] /\ alpha c' = 255.
Proof.
  intros E (H0 & _). unfold byte in *. unfold to_cmyk. rewrite E. eexists. split; [reflexivity|]. unfold to_rgb, parts. rewrite E. cbn [mode b0 b1 b2 b3 alpha]. repeat split. rewrite Z.add_0_l. replace (255 - Z.min 255 (255 - b0 c)) with (b0 c) by lia. reflexivity.
Qed.
Print Assumptions C80_grey_cmyk_rgb.
(** every RGB colour but black: key 255 - max, and the share of the rest that is missing, rounded down *)
Theorem C80_rgb_to_cmyk c : mode c = Rgb -> bytes c -> let m := max3 (b0 c) (b1 c) (b2 c) in 1 <= m ->
  exists cy ma ye ke, to_cmyk c = Val (C Cmyk cy ma ye ke 255) /\ rounded_down cy (255 * (m - b0 c)) m /\ rounded_down ma (255 * (m - b1 c)) m /\ rounded_down ye (255 * (m - b2 c)) m /\
    rounded_down ke (255 - m) 1.
Proof. intros E Hb m H1. destruct (to_cmyk_rgb c E Hb H1) as (cy & ma & ye & ke & Ec & Hc). exists cy, ma, ye, ke. split; [exact Ec|]. exact Hc. Qed.
Print Assumptions C80_rgb_to_cmyk.
Theorem C80_black_refuted j a : to_cmyk (from_rgb j 0 0 0 a) = UB.
Proof. reflexivity. Qed.
Print Assumptions C80_black_refuted.
(** RGB to CMYK and back is not the same colour, not even approximately (formulas of two different models) *)
Theorem C80_back_refuted j a : exists c', to_cmyk (from_rgb j 10 200 50 a) = Val c' /\ parts (to_rgb c') = [0; 200 + 1; 10].
Proof. eexists. split; [vm_compute; reflexivity|]. reflexivity. Qed.
Print Assumptions C80_back_refuted.
(** toGreyScale of a colour that is not grey yet never gives anything but white *)
Theorem C80_greyscale_refuted c : mode c <> Grey -> bytes c -> to_greyscale c = UB \/ exists c', to_greyscale c = Val c' /\ mode c' = Grey /\ is_white c' = true.
Proof.
  intros Em Hb. assert (P : forall c, bytes c -> rgb_to_grey c = UB \/ exists c', rgb_to_grey c = Val c' /\ mode c' = Grey /\ is_white c' = true).
  { intros d Hd. destruct (grey_cases d Hd) as [H|(c' & H1 & H2 & H3)]; [now left|right]. exists c'. unfold is_white. rewrite H2, H3. auto. }
  unfold to_greyscale. destruct (mode c); [contradiction|now apply P|apply P, to_rgb_bytes, Hb].
Qed.
Print Assumptions C80_greyscale_refuted.
Example C80_ex : bytes (from_rgb 0 10 200 50 255) /\ to_cmyk (from_rgb 0 10 200 50 255) = Val (from_cmyk 242 0 191 54 255) /\ rounded_down 191 (255 * (200 - 50)) 200 /\ rounded_down 54 55 1.
Proof. split; [unfold bytes, byte; cbn; lia|]. split; [vm_compute; reflexivity|]. unfold rounded_down. cbn. lia. Qed.
Example C80_grey_ex : exists c', to_greyscale (from_rgb 0 100 100 100 255) = Val c' /\ b0 c' = 255 /\ to_greyscale (from_rgb 0 200 200 200 255) = UB.
Proof. eexists. split; [vm_compute; reflexivity|]. split; [reflexivity|]. vm_compute. reflexivity. Qed.

(** * C81: hue, saturation and value *)
Theorem C81_hsv c : bytes c -> let r := b0 (to_rgb c) in let g := b1 (to_rgb c) in let b := b2 (to_rgb c) in
  let mx := max3 r g b in let mn := min3 r g b in mn < mx ->
  exists h s v, hsv c = (h, s, v) /\ near h (hue_exact r g b) (1 # 10000) /\ near s (mx - mn # Z.to_pos mx) (1 # 10000) /\ near v (mx # 255) (1 # 10000) /\
    exists q, fq h = Some q /\ (0 <= q < 360)%Q.
Proof.
  intros Hb r g b mx mn L. destruct (to_rgb_bytes c Hb) as (H0 & H1 & H2 & _). destruct (hsv_r c H0 H1 H2 L) as (h & s & v & H & S & E & RH & RS & RV & BH & EH & BS & ES). fold r g b in EH, ES, RV. fold mx in ES, RV. fold mn in ES.
  assert (Bm : byte mx) by (unfold mx, max3, byte, r, g, b in *; lia). assert (P : 0 < mx) by (unfold mn, min3, byte, r, g, b in *; lia).
  assert (E4 : Q2R (1 # 10000) = (/ 10000)%R) by (unfold Q2R; cbn; field). assert (U9 : (0 < u /\ 1052 * u <= / 10000)%R) by (unfold u; lra).
  exists h, s, v. split; [exact E|]. split; [|split; [|split]].
  - apply (near_r _ _ _ _ RH). rewrite E4. apply Rabs_le. lra.
  - apply (near_r _ _ _ _ RS). rewrite E4, Q2R_frac by exact P. apply Rabs_le. lra.
  - apply (near_r _ _ _ _ RV). rewrite E4. change (mx # 255)%Q with (mx # Z.to_pos 255)%Q. rewrite Q2R_frac by lia. pose proof (F_err mx Bm). apply Rabs_le. lra.
  - destruct (fq_r _ _ RH) as (q & Eq & <-). exists q. split; [exact Eq|]. split; [apply Rle_Qle; rewrite Q2R_0'; lra|]. apply Rlt_Qlt. replace (Q2R 360) with 360%R by (unfold Q2R; cbn; field). lra.
Qed.
Print Assumptions C81_hsv.
Theorem C81_grey c : bytes c -> let r := b0 (to_rgb c) in r = b1 (to_rgb c) -> r = b2 (to_rgb c) ->
  exists h s v, hsv c = (h, s, v) /\ fq h = Some 0%Q /\ fq s = Some 0%Q /\ near v (r # 255) (1 # 10000).
Proof.
  intros Hb r E1 E2. destruct (to_rgb_bytes c Hb) as (H0 & _). fold r in H0. unfold hsv. cbv zeta. rewrite <- E1, <- E2. fold r. rewrite !Z.max_id, !Z.min_id, Z.eqb_refl. do 3 eexists. split; [reflexivity|]. split; [reflexivity|]. split; [reflexivity|].
  apply (near_r _ _ _ _ (F_r r H0)). change (r # 255)%Q with (r # Z.to_pos 255)%Q. rewrite Q2R_frac by lia. replace (Q2R (1 # 10000)) with (/ 10000)%R by (unfold Q2R; cbn; field). pose proof (F_err r H0). assert (U9 : (0 < u /\ u <= / 10000)%R) by (unfold u; lra). apply Rabs_le. lra.
Qed.
Print Assumptions C81_grey.
Example C81_ex : hue_exact 10 200 50 = (25200 # 190)%Q /\ hue_exact 200 10 50 = (66000 # 190)%Q /\ min3 10 200 50 < max3 10 200 50.
Proof. repeat split. Qed.

(** * C82: blend *)
(** two opaque colours: the weighted mean, rounded down *)
Theorem C82_opaque j back fore a : bytes back -> bytes fore -> byte a -> alpha back = 255 -> alpha fore = 255 ->
  exists r g b, blend j back fore a = Val (C Rgb r g b j 255) /\
    let ok z f k := z = (a * f + (255 - a) * k) / 255 /\ Z.min f k <= z <= Z.max f k /\ (a = 255 -> z = f) /\ (a = 0 -> z = k) in
    ok r (b0 fore) (b0 back) /\ ok g (b1 fore) (b1 back) /\ ok b (b2 fore) (b2 back).
Proof.
  intros (B0 & B1 & B2 & _) (F0 & F1 & F2 & _) Ha E1 E2. unfold blend. rewrite E1, E2. cbn [Z.eqb Pos.eqb andb]. unfold mix.
  assert (P : forall f k, byte f -> byte k -> let z := (a * f + (255 - a) * k) / 255 mod 256 in z = (a * f + (255 - a) * k) / 255 /\ Z.min f k <= z <= Z.max f k /\ (a = 255 -> z = f) /\ (a = 0 -> z = k)).
  { intros f k Hf Hk z. pose proof (mix_bounds a f k Ha Hf Hk) as M. assert (Ez : z = (a * f + (255 - a) * k) / 255) by (unfold z, byte in *; rewrite Z.mod_small; lia). rewrite Ez. unfold byte in *. split; [reflexivity|]. split; [exact M|]. split; intros ->; [replace (255 * f + (255 - 255) * k) with (f * 255) by ring|replace (0 * f + (255 - 0) * k) with (k * 255) by ring]; apply Z.div_mul; lia. }
  do 3 eexists. split; [reflexivity|]. cbv zeta. split; [|split]; apply P; assumption.
Qed.
Print Assumptions C82_opaque.
(** a transparent colour over an opaque one: the mean weighted with its alpha, rounded down; the parameter alpha is ignored *)
Theorem C82_over_opaque j back fore a : bytes back -> bytes fore -> alpha back = 255 -> alpha fore < 255 ->
  exists r g b, blend j back fore a = Val (C Rgb r g b j 255) /\ let w := alpha fore in
    rounded_down r (w * b0 fore + (255 - w) * b0 back) 255 /\ rounded_down g (w * b1 fore + (255 - w) * b1 back) 255 /\ rounded_down b (w * b2 fore + (255 - w) * b2 back) 255.
Proof.
  intros (B0 & B1 & B2 & _) (F0 & F1 & F2 & _ & F4) E1 E2. unfold blend. rewrite E1. replace (alpha fore =? 255) with false by (symmetry; apply Z.eqb_neq; lia). cbn [Z.eqb Pos.eqb andb].
  destruct (pd_colour_opaque _ _ _ B0 F0 F4) as (r & Er & Dr). destruct (pd_colour_opaque _ _ _ B1 F1 F4) as (g & Eg & Dg). destruct (pd_colour_opaque _ _ _ B2 F2 F4) as (b & Eb & Db). rewrite Er, Eg, Eb, (pd_alpha_255 _ F4). cbn [bind]. exists r, g, b. auto.
Qed.
Print Assumptions C82_over_opaque.
(** an opaque colour over a transparent one hides it *)
Theorem C82_hides j back fore a : bytes back -> bytes fore -> alpha back < 255 -> alpha fore = 255 -> blend j back fore a = Val (C Rgb (b0 fore) (b1 fore) (b2 fore) j 255).
Proof.
  intros (B0 & B1 & B2 & _ & B4) (F0 & F1 & F2 & _) E1 E2. unfold blend. rewrite E2. replace (alpha back =? 255) with false by (symmetry; apply Z.eqb_neq; lia). cbn [andb]. rewrite !pd_colour_front by assumption. reflexivity.
Qed.
Print Assumptions C82_hides.
(** whenever there is a result, it is at least as opaque as both colours, and its alpha is the one of Porter and Duff *)
Theorem C82_alpha j back fore a c : bytes back -> bytes fore -> blend j back fore a = Val c -> Z.max (alpha back) (alpha fore) <= alpha c <= 255 /\ alpha c = alpha fore + (255 - alpha fore) * alpha back / 255.
Proof.
  intros (_ & _ & _ & _ & B4) (_ & _ & _ & _ & F4). unfold blend. destruct (Z.eqb_spec (alpha back) 255) as [E1|E1]; destruct (Z.eqb_spec (alpha fore) 255) as [E2|E2]; cbn [andb].
  1:{ intros E. injection E as <-. cbn [alpha]. rewrite E1, E2. split; [lia|reflexivity]. }
  all: do 3 (destruct (pd_colour _ _ _ _); cbn [bind]; try discriminate); intros E; injection E as <-; cbn [alpha]; split; [now apply pd_alpha_bounds|]; now apply pd_alpha_val.
Qed.
Print Assumptions C82_alpha.
(** two fully transparent colours: 0/0; two white ones that can barely be seen: more than 255 *)
Theorem C82_transparent_refuted j a : blend j (from_rgb 0 10 20 30 0) (from_rgb 0 40 50 60 0) a = UB /\ blend j (from_rgb 0 255 255 255 1) (from_rgb 0 255 255 255 1) a = UB.
Proof. split; vm_compute; reflexivity. Qed.
Print Assumptions C82_transparent_refuted.
(** white in CMYK is taken for the RGB colour with the same bytes, black *)
Theorem C82_modes_refuted j : blend j (from_cmyk 0 0 0 0 255) (from_cmyk 0 0 0 0 255) 128 = Val (C Rgb 0 0 0 j 255) /\ is_white (from_cmyk 0 0 0 0 255) = true /\ is_white (C Rgb 0 0 0 j 255) = false.
Proof. repeat split. Qed.
Print Assumptions C82_modes_refuted.
Example C82_ex : blend 0 (from_rgb 0 0 100 255 255) (from_rgb 0 255 50 3 128) 7 = Val (C Rgb 128 74 128 0 255) /\ blend 0 (from_rgb 0 0 100 255 255) (from_rgb 0 255 50 3 255) 128 = Val (C Rgb 128 74 128 0 255).
Proof. split; vm_compute; reflexivity. Qed.

(** * C83: interpolate *)
Theorem C83_interpolate j c1 c2 p q : bytes c1 -> bytes c2 -> in_float p q 0 1 ->
  exists r g b a, interpolate j c1 c2 p = Val (C Rgb r g b j a) /\
    let ok z x y := Z.min x y <= z <= Z.max x y /\ (Qabs (inject_Z z - (inject_Z x + inject_Z (y - x) * q)) <= 1 + (1 # 10000))%Q in
    ok r (b0 c1) (b0 c2) /\ ok g (b1 c1) (b1 c2) /\ ok b (b2 c1) (b2 c2) /\ ok a (alpha c1) (alpha c2).
Proof.
  intros (A0 & A1 & A2 & _ & A4) (B0 & B1 & B2 & _ & B4) (V & E & H). unfold interpolate.
  destruct (lerp_ok _ _ p q A0 B0 V E H) as (r & Er & Dr). destruct (lerp_ok _ _ p q A1 B1 V E H) as (g & Eg & Dg). destruct (lerp_ok _ _ p q A2 B2 V E H) as (b & Eb & Db). destruct (lerp_ok _ _ p q A4 B4 V E H) as (a & Ea & Da).
  rewrite Er, Eg, Eb, Ea. cbn [bind]. exists r, g, b, a. auto.
Qed.
Print Assumptions C83_interpolate.
Theorem C83_ends j c1 c2 : bytes c1 -> bytes c2 ->
  interpolate j c1 c2 (int32f 0) = Val (C Rgb (b0 c1) (b1 c1) (b2 c1) j (alpha c1)) /\ interpolate j c1 c2 (int32f 1) = Val (C Rgb (b0 c2) (b1 c2) (b2 c2) j (alpha c2)).
Proof.
  intros (A0 & A1 & A2 & _ & A4) (B0 & B1 & B2 & _ & B4).
  assert (P0 : forall x y, byte x -> byte y -> lerp x y (int32f 0) = Val x).
  { intros x y Hx Hy. destruct (lerp_r x y (int32f 0) 0 Hx Hy (int32_r 0 ltac:(lia)) ltac:(lra)) as (v & R & _ & E). unfold byte in *. unfold lerp. assert (D : is32 (add32 (int32f x) (mul32 (int32f (y - x)) (int32f 0))) (IZR x)).
    { assert (Z0 : r32 0 = 0%R) by apply (r32_int 0 ltac:(lia)). pose proof (mul32_r _ _ (IZR (y - x)) 0 0 0 (int32_r (y - x) ltac:(lia)) (int32_r 0 ltac:(lia)) ltac:(lia) ltac:(lia) ltac:(lra)) as M. rewrite Rmult_0_r, Z0 in M. pose proof (add32_r _ _ (IZR x) 0 x x (int32_r x ltac:(lia)) M ltac:(lia) ltac:(lia) ltac:(lra)) as A. rewrite Rplus_0_r, r32_int in A by lia. exact A. }
    rewrite (f2u8_r _ _ D) by (split; [apply IZR_le; lia|apply IZR_lt; lia]). now rewrite Zfloor_IZR. }
  assert (P1 : forall x y, byte x -> byte y -> lerp x y (int32f 1) = Val y).
  { intros x y Hx Hy. unfold byte in *. unfold lerp. assert (D : is32 (add32 (int32f x) (mul32 (int32f (y - x)) (int32f 1))) (IZR y)).
    { pose proof (mul32_r _ _ (IZR (y - x)) 1 (y - x) (y - x) (int32_r (y - x) ltac:(lia)) (int32_r 1 ltac:(lia)) ltac:(lia) ltac:(lia) ltac:(lra)) as M. rewrite Rmult_1_r, r32_int in M by lia. assert (S : (IZR x + IZR (y - x) = IZR y)%R) by (rewrite minus_IZR; ring). pose proof (add32_r _ _ (IZR x) (IZR (y - x)) y y (int32_r x ltac:(lia)) M ltac:(lia) ltac:(lia) ltac:(lra)) as A. rewrite S, r32_int in A by lia. exact A. }
    rewrite (f2u8_r _ _ D) by (split; [apply IZR_le; lia|apply IZR_lt; lia]). now rewrite Zfloor_IZR. }
  unfold interpolate. rewrite !P0, !P1 by assumption. split; reflexivity.
Qed.
Print Assumptions C83_ends.
(** beyond 0..1 the conversion to a byte is undefined *)
Theorem C83_beyond_refuted j : interpolate j (from_rgb 0 0 0 0 255) (from_rgb 0 255 255 255 255) (int32f 2) = UB /\ interpolate j (from_rgb 0 0 0 0 255) (from_rgb 0 255 255 255 255) (int32f (-1)) = UB.
Proof. split; vm_compute; reflexivity. Qed.
Print Assumptions C83_beyond_refuted.
Example C83_ex : in_float (S754_finite false 8388608 (-24)) (8388608 # 16777216)%Q 0 1.
Proof. split; [reflexivity|]. split; [reflexivity|]. split; discriminate. Qed.
Example C83_ex2 : interpolate 0 (from_rgb 0 0 100 255 255) (from_rgb 0 255 50 3 101) (S754_finite false 8388608 (-24)) = Val (C Rgb 127 75 129 0 178).
Proof. vm_compute. reflexivity. Qed.

(** * C84: comparison, addition and subtraction *)
Theorem C84_equal c1 c2 : color_eqb c1 c2 = true <-> mode c1 = mode c2 /\ parts c1 = parts c2 /\ alpha c1 = alpha c2.
Proof.
  unfold color_eqb, parts. destruct (mode c1), (mode c2); cbn [mode_eqb negb]; try (split; [discriminate|intros (E & _); discriminate]); rewrite !Bool.andb_true_iff, !Z.eqb_eq.
  - split; [intros (-> & ->); auto|intros (_ & E & ->); injection E; auto].
  - split; [intros (((-> & ->) & ->) & ->); auto|intros (_ & E & ->); injection E; auto].
  - split; [intros ((((-> & ->) & ->) & ->) & ->); auto|intros (_ & E & ->); injection E; auto].
Qed.
Print Assumptions C84_equal.
Theorem C84_equivalence : (forall c, color_eqb c c = true) /\ (forall c1 c2, color_eqb c1 c2 = color_eqb c2 c1) /\ (forall c1 c2 c3, color_eqb c1 c2 = true -> color_eqb c2 c3 = true -> color_eqb c1 c3 = true).
Proof.
  split; [|split].
  - intros c. now apply C84_equal.
  - intros c1 c2. apply Bool.eq_iff_eq_true. rewrite !C84_equal. intuition congruence.
  - intros c1 c2 c3. rewrite !C84_equal. intuition congruence.
Qed.
Print Assumptions C84_equivalence.
Theorem C84_add_sub c1 c2 : bytes c1 -> color_eqb (color_sub (color_add c1 c2) c2) c1 = true /\ color_eqb (color_add (color_sub c1 c2) c2) c1 = true.
Proof.
  intros (H0 & H1 & H2 & H3 & H4). unfold byte in *. assert (A : forall x y, 0 <= x <= 255 -> ((x + y) mod 256 - y) mod 256 = x) by (intros; rewrite Zminus_mod_idemp_l; replace (x + y - y) with x by lia; apply Z.mod_small; lia). assert (S : forall x y, 0 <= x <= 255 -> ((x - y) mod 256 + y) mod 256 = x) by (intros; rewrite Zplus_mod_idemp_l; replace (x - y + y) with x by lia; apply Z.mod_small; lia).
  rewrite !C84_equal. unfold color_sub, color_add, color_op, parts. destruct (mode c1) eqn:E; cbn; rewrite ?A, ?S by assumption; auto.
Qed.
Print Assumptions C84_add_sub.
Theorem C84_add_comm c1 c2 : mode c1 = mode c2 -> color_eqb (color_add c1 c2) (color_add c2 c1) = true.
Proof.
  intros E. rewrite C84_equal. unfold color_add, color_op, parts. rewrite <- E. rewrite (Z.add_comm (b0 c2)), (Z.add_comm (b1 c2)), (Z.add_comm (b2 c2)), (Z.add_comm (b3 c2)), (Z.add_comm (alpha c2)). destruct (mode c1); cbn [mode b0 b1 b2 b3 alpha]; auto.
Qed.
Print Assumptions C84_add_comm.
(** the sum wraps around instead of staying at white; the mode of the second colour is not looked at *)
Theorem C84_sum_refuted : color_add (from_grey 0 200 255) (from_grey 0 100 255) = C Grey 44 0 0 0 254 /\ color_eqb (color_add (from_rgb 0 1 2 3 255) (from_cmyk 1 2 3 4 0)) (color_add (from_cmyk 1 2 3 4 0) (from_rgb 0 1 2 3 255)) = false.
Proof. split; reflexivity. Qed.
Print Assumptions C84_sum_refuted.
Example C84_ex : color_eqb (from_rgb 3 1 2 3 255) (from_rgb 9 1 2 3 255) = true /\ color_eqb (from_rgb 3 1 2 3 255) (from_rgb 3 1 2 3 254) = false.
Proof. split; reflexivity. Qed.

(** * C85: FromHsv *)
Theorem C85_from_hsv j h s v a qh qs qv qa : in_float h qh 0 360 -> in_float s qs 0 1 -> in_float v qv 0 1 -> in_float a qa 0 1 ->
  exists r g b al, from_hsv j h s v a = Val (C Rgb r g b j al) /\ byte r /\ byte g /\ byte b /\ byte al /\
    let x := (qh / 60)%Q in
    about r (hsv_exact qs qv (red_at x)) /\ about g (hsv_exact qs qv (green_at x)) /\ about b (hsv_exact qs qv (blue_at x)) /\ about al (255 * qa).
Proof.
  intros Ih Is Iv Ia. apply in_float_r in Ih, Is, Iv, Ia. destruct Ih as (Rh & Bh). destruct Is as (Rs & Bs). destruct Iv as (Rv & Bv). destruct Ia as (Ra & Ba). rewrite Q2R_0' in *. rewrite Q2R_1' in *. replace (Q2R 360) with 360%R in Bh by (unfold Q2R; cbn; field).
  destruct (from_hsv_r j h s v a _ _ _ _ Rh Rs Rv Ra Bh Bs Bv Ba) as (r & g & b & al & wr & wg & wb & wa & E & (-> & Cr & Nr) & (-> & Cg & Ng) & (-> & Cb & Nb) & (-> & Ca & Na)).
  do 4 eexists. split; [exact E|]. do 4 (split; [now apply byte_floor|]). cbv zeta. assert (Ex : Q2R (qh / 60) = (Q2R qh / 60)%R) by (unfold Qdiv; rewrite Q2R_mult; replace (Q2R (/ 60)) with (/ 60)%R by (unfold Q2R; cbn; Lra.lra); reflexivity).
  assert (Ea : Q2R (255 * qa) = (255 * Q2R qa)%R) by (rewrite Q2R_mult; replace (Q2R 255) with 255%R by (unfold Q2R; cbn; field); reflexivity).
  split; [|split; [|split]]; apply about_floor; rewrite ?Q2R_ex, ?Q2R_red, ?Q2R_green, ?Q2R_blue, ?Ex, ?Ea; assumption.
Qed.
Print Assumptions C85_from_hsv.
(** there and back again: no component grows, and none loses more than one *)
Theorem C85_round_trip j c : bytes c -> let t := to_rgb c in
  exists h s v r g b, hsv c = (h, s, v) /\ from_hsv j h s v (int32f 1) = Val (C Rgb r g b j 255) /\
    b0 t - 1 <= r <= b0 t /\ b1 t - 1 <= g <= b1 t /\ b2 t - 1 <= b <= b2 t.
Proof. intros Hb t. destruct (to_rgb_bytes c Hb) as (H0 & H1 & H2 & _). now apply round_trip. Qed.
Print Assumptions C85_round_trip.
Theorem C85_exact_refuted : exists h s v, hsv (from_rgb 0 10 200 50 255) = (h, s, v) /\ from_hsv 0 h s v (int32f 1) = Val (C Rgb 10 200 49 0 255).
Proof. do 3 eexists. split; [vm_compute; reflexivity|]. vm_compute. reflexivity. Qed.
Print Assumptions C85_exact_refuted.
(** an angle beyond the circle is black, a great one is undefined *)
Theorem C85_angle_refuted j : from_hsv j (int32f 480) (int32f 1) (int32f 1) (int32f 1) = Val (C Rgb 0 0 0 j 255) /\ from_hsv j (int32f (-120)) (int32f 1) (int32f 1) (int32f 1) = Val (C Rgb 0 0 0 j 255) /\
  from_hsv j (int32f 120) (int32f 1) (int32f 1) (int32f 1) = Val (C Rgb 0 255 0 j 255) /\ from_hsv j (int32f (10 ^ 12)) (int32f 1) (int32f 1) (int32f 1) = UB.
Proof. repeat split; vm_compute; reflexivity. Qed.
Print Assumptions C85_angle_refuted.
Example C85_ex : exists q, in_float (int32f 90) q 0 360 /\ (q == 90)%Q /\ from_hsv 0 (int32f 90) (int32f 1) (int32f 1) (int32f 1) = Val (C Rgb 127 255 0 0 255).
Proof. eexists. split; [split; [reflexivity|]; split; [reflexivity|]; split; discriminate|]. split; [reflexivity|]. vm_compute. reflexivity. Qed.
