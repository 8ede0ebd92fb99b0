From Coq Require Import Reals Lra ZArith QArith Qabs Qreals.
From Flocq Require Import Core BinarySingleNaN.
From Coq Require Import SpecFloat.
From Verif Require Import Base M_Float M_Color S_Color L_Float L_Float2 L_Color.
Local Open Scope Z_scope.
Ltac Zify.zify_post_hook ::= Z.to_euclidean_division_equations.

Lemma ffloor_r x a : is32 x a -> (0 <= a < 1000)%R -> ffloor_s32 x = Val (Zfloor a).
Proof.
  intros X [H1 H2]. pose proof (trunc_r 24 128 x a X) as T. rewrite Ztrunc_floor in T by exact H1. assert (L0 : 0 <= Zfloor a) by (apply Zfloor_lub; exact H1). assert (L1 : Zfloor a < 1000) by (apply lt_IZR; pose proof (Zfloor_lb a); lra).
  destruct X as (b & <- & F & E). destruct b as [s|s| |s m e B]; try discriminate; cbn [B2SF ftrunc ffloor_s32] in *; cbv zeta in *.
  - congruence.
  - destruct s.
    + exfalso. cbn [B2R] in E. assert (a < 0)%R; [|lra]. rewrite <- E. apply F2R_lt_0. cbn. lia.
    + apply (f_equal (fun o => match o with Some z => z | None => 0 end)) in T. cbv beta iota in T. rewrite T. destruct (Z.leb_spec (- 2 ^ 31) (Zfloor a)); [|lia]. destruct (Z.leb_spec (Zfloor a) (2 ^ 31 - 1)); [|lia]. reflexivity.
Qed.
(** * the hue circle *)
Definition clamp (x : R) : R := Rmax 0 (Rmin 1 x).
Definition pr (x : R) : R := clamp (Rabs (x - 3) - 1).
Definition pg (x : R) : R := clamp (2 - Rabs (x - 2)).
Definition pb (x : R) : R := clamp (2 - Rabs (x - 4)).
Ltac cases := unfold pr, pg, pb, clamp, Rmax, Rmin, Rabs in *; repeat match goal with
  | |- context [Rcase_abs ?a] => destruct (Rcase_abs a)
  | |- context [Rle_dec ?a ?b] => lazymatch b with context [Rle_dec _ _] => fail | _ => destruct (Rle_dec a b) end end; try lra.
Lemma clamp01 x : (0 <= clamp x <= 1)%R.
Proof. cases. Qed.
Definition near3 (w v : R) : Prop := (- / 5000 <= w - v <= / 5000)%R.
(** values of from_hsv *)
Lemma channel V y :
  is32 y V -> (0 <= V <= 1)%R -> exists w, is32 (mul32 y (int32f 255)) w /\ (0 <= w <= 255)%R /\ (- (256 * u) <= w - 255 * V <= 256 * u)%R.
Proof.
  intros Y H. assert (Q : (0 <= V * 255 <= 255)%R) by lra. exists (r32 (V * 255)). split; [apply (mul32_r _ _ V 255 0 255); [exact Y|apply int32_r; lia|lia|lia|exact Q]|]. split; [apply (r32_range _ 0 255); [lia|lia|exact Q]|]. pose proof (err (V * 255) 8 ltac:(lia)) as E. change (IZR (2 ^ 8)) with 256%R in E. specialize (E ltac:(lra)). lra.
Qed.
Lemma P01 a b : (0 <= a <= 1)%R -> (0 <= b <= 1)%R -> (0 <= a * b <= 1)%R.
Proof. intros; split; nra. Qed.
Lemma comp1 S s V v f x : is32 s S -> is32 v V -> is32 x f -> (0 <= S <= 1)%R -> (0 <= V <= 1)%R -> (0 <= f <= 1)%R ->
  exists q, is32 (mul32 v (sub32 (int32f 1) (mul32 s x))) q /\ (0 <= q <= 1)%R /\ (- (3 * u) <= q - V * (1 - S * f) <= 3 * u)%R.
Proof.
  intros Rs Rv Rx HS HV Hf. pose proof u_pos as U0. pose proof (P01 _ _ HS Hf) as Q1. pose proof (mul32_r _ _ _ _ 0 1 Rs Rx ltac:(lia) ltac:(lia) Q1) as M1. pose proof (err0 _ ltac:(split; [|apply Q1]; lra) : (- u <= r32 (S * f) - S * f <= u)%R) as E1. pose proof (r32_range _ 0 1 ltac:(lia) ltac:(lia) Q1) as T1. set (a := r32 (S * f)) in *.
  assert (Q2 : (0 <= 1 - a <= 1)%R) by lra. pose proof (sub32_r _ _ 1 a 0 1 (int32_r 1 ltac:(lia)) M1 ltac:(lia) ltac:(lia) Q2) as M2. pose proof (err0 (1 - a) ltac:(lra)) as E2. pose proof (r32_range _ 0 1 ltac:(lia) ltac:(lia) Q2) as T2. set (b := r32 (1 - a)) in *.
  pose proof (P01 _ _ HV T2) as Q3. pose proof (mul32_r _ _ _ _ 0 1 Rv M2 ltac:(lia) ltac:(lia) Q3) as M3. pose proof (err0 (V * b) ltac:(lra)) as E3. pose proof (r32_range _ 0 1 ltac:(lia) ltac:(lia) Q3) as T3.
  exists (r32 (V * b)). split; [exact M3|]. split; [exact T3|]. pose proof (mul_bound (b - (1 - S * f)) V (2 * u) 1 ltac:(lra) ltac:(lra) ltac:(lra)). lra.
Qed.
Lemma comp0 S s V v : is32 s S -> is32 v V -> (0 <= S <= 1)%R -> (0 <= V <= 1)%R ->
  exists q, is32 (mul32 v (sub32 (int32f 1) s)) q /\ (0 <= q <= 1)%R /\ (- (2 * u) <= q - V * (1 - S) <= 2 * u)%R.
Proof.
  intros Rs Rv HS HV. pose proof u_pos as U0.
  assert (Q2 : (0 <= 1 - S <= 1)%R) by lra. pose proof (sub32_r _ _ 1 S 0 1 (int32_r 1 ltac:(lia)) Rs ltac:(lia) ltac:(lia) Q2) as M2. pose proof (err0 (1 - S) ltac:(lra)) as E2. pose proof (r32_range _ 0 1 ltac:(lia) ltac:(lia) Q2) as T2. set (b := r32 (1 - S)) in *.
  pose proof (P01 _ _ HV T2) as Q3. pose proof (mul32_r _ _ _ _ 0 1 Rv M2 ltac:(lia) ltac:(lia) Q3) as M3. pose proof (err0 (V * b) ltac:(lra)) as E3. pose proof (r32_range _ 0 1 ltac:(lia) ltac:(lia) Q3) as T3.
  exists (r32 (V * b)). split; [exact M3|]. split; [exact T3|]. pose proof (mul_bound (b - (1 - S)) V u 1 ltac:(lra) ltac:(lra) ltac:(lra)). lra.
Qed.
(** the exact value of a component whose place on the circle is phi *)
Definition ex (V S phi : R) : R := (255 * (V * (1 - S * (1 - phi))))%R.
Lemma phi_close V S a b e : (0 <= V <= 1)%R -> (0 <= S <= 1)%R -> (- e <= a - b <= e)%R -> (0 <= e)%R -> (- (255 * e) <= ex V S a - ex V S b <= 255 * e)%R.
Proof.
  intros HV HS H E. unfold ex. pose proof (P01 _ _ HV HS). pose proof (mul_bound (a - b) (V * S) e 1 H ltac:(lra) E). lra.
Qed.
Lemma from_hsv_r j h s v al H S V A : is32 h H -> is32 s S -> is32 v V -> is32 al A -> (0 <= H <= 360)%R -> (0 <= S <= 1)%R -> (0 <= V <= 1)%R -> (0 <= A <= 1)%R ->
  exists r g b a wr wg wb wa, from_hsv j h s v al = Val (C Rgb r g b j a) /\
    (r = Zfloor wr /\ (0 <= wr <= 255)%R /\ near3 wr (ex V S (pr (H / 60)))) /\
    (g = Zfloor wg /\ (0 <= wg <= 255)%R /\ near3 wg (ex V S (pg (H / 60)))) /\
    (b = Zfloor wb /\ (0 <= wb <= 255)%R /\ near3 wb (ex V S (pb (H / 60)))) /\
    (a = Zfloor wa /\ (0 <= wa <= 255)%R /\ near3 wa (255 * A)).
Proof.
  intros Rh Rs Rv Ra HH HS HV HA. pose proof u_pos as U0. assert (U4 : (6400 * u <= / 5000)%R) by (unfold u; lra).
  assert (Q0 : (0 <= H / 60 <= 6)%R) by lra. pose proof (div32_r _ _ H 60 0 6 Rh (int32_r 60 ltac:(lia)) ltac:(lra) ltac:(lia) ltac:(lia) Q0) as M0. pose proof (err (H / 60) 3 ltac:(lia)) as E0. change (IZR (2 ^ 3)) with 8%R in E0. specialize (E0 ltac:(lra)). pose proof (r32_range _ 0 6 ltac:(lia) ltac:(lia) Q0) as T0.
  unfold from_hsv. cbv zeta. set (h6 := div32 h (int32f 60)) in *. set (X := r32 (H / 60)) in *. rewrite (ffloor_r h6 X M0) by lra. cbn [bind].
  pose proof (Zfloor_lb X) as FL. pose proof (Zfloor_ub X) as FU. assert (I0 : 0 <= Zfloor X) by (apply Zfloor_lub; lra). assert (I6 : Zfloor X <= 6) by (rewrite <- (Zfloor_IZR 6); apply Zfloor_le; lra). set (hi := Zfloor X) in *.
  assert (Q1 : (0 <= X - IZR hi <= 1)%R) by lra. pose proof (sub32_r _ _ X (IZR hi) 0 1 M0 (int32_r hi ltac:(lia)) ltac:(lia) ltac:(lia) Q1) as M1. pose proof (err0 (X - IZR hi) ltac:(lra)) as E1. pose proof (r32_range _ 0 1 ltac:(lia) ltac:(lia) Q1) as T1. set (f := sub32 h6 (int32f hi)) in *. set (Fr := r32 (X - IZR hi)) in *.
  assert (Q2 : (0 <= 1 - Fr <= 1)%R) by lra. pose proof (sub32_r _ _ 1 Fr 0 1 (int32_r 1 ltac:(lia)) M1 ltac:(lia) ltac:(lia) Q2) as M2. pose proof (err0 (1 - Fr) ltac:(lra)) as E2. pose proof (r32_range _ 0 1 ltac:(lia) ltac:(lia) Q2) as T2.
  destruct (comp0 _ _ _ _ Rs Rv HS HV) as (p & Rp & Bp & Ep). destruct (comp1 _ _ _ _ _ _ Rs Rv M1 HS HV T1) as (q & Rq & Bq & Eq). destruct (comp1 _ _ _ _ _ _ Rs Rv M2 HS HV T2) as (t & Rt & Bt & Et).
  set (xp := mul32 v (sub32 (int32f 1) s)) in *. set (xq := mul32 v (sub32 (int32f 1) (mul32 s f))) in *. set (xt := mul32 v (sub32 (int32f 1) (mul32 s (sub32 (int32f 1) f)))) in *.
  destruct (channel _ _ Rv HV) as (wv & Wv & Cv & Dv). destruct (channel _ _ Rp Bp) as (wp & Wp & Cp & Dp). destruct (channel _ _ Rq Bq) as (wq & Wq & Cq & Dq). destruct (channel _ _ Rt Bt) as (wt & Wt & Ct & Dt). destruct (channel _ _ Ra HA) as (wa & Wa & Ca & Da).
  rewrite (f2u8_r _ _ Wv), (f2u8_r _ _ Wp), (f2u8_r _ _ Wq), (f2u8_r _ _ Wt), (f2u8_r _ _ Wa) by lra. cbn [bind].
  assert (NA : near3 wa (255 * A)) by (unfold near3; lra).
  (* the four values, for a place phi that is close *)
  assert (Nv : forall phi, (1 - 10 * u <= phi <= 1 + 10 * u)%R -> near3 wv (ex V S phi)).
  { intros phi Hp. pose proof (phi_close V S 1 phi (10 * u) HV HS ltac:(lra) ltac:(lra)) as Z. unfold near3. unfold ex at 1 3 in Z. lra. }
  assert (Np : forall phi, (- (10 * u) <= phi <= 10 * u)%R -> near3 wp (ex V S phi)).
  { intros phi Hp. pose proof (phi_close V S 0 phi (10 * u) HV HS ltac:(lra) ltac:(lra)) as Z. unfold near3. unfold ex at 1 3 in Z. lra. }
  assert (Nq : forall phi, (- (10 * u) <= (1 - (H / 60 - IZR hi)) - phi <= 10 * u)%R -> near3 wq (ex V S phi)).
  { intros phi Hp. pose proof (phi_close V S (1 - Fr) phi (20 * u) HV HS ltac:(lra) ltac:(lra)) as Z. unfold near3. unfold ex at 1 3 in Z. lra. }
  assert (Nt : forall phi, (- (10 * u) <= (H / 60 - IZR hi) - phi <= 10 * u)%R -> near3 wt (ex V S phi)).
  { intros phi Hp. set (G := r32 (1 - Fr)) in *. pose proof (phi_close V S (1 - G) phi (20 * u) HV HS ltac:(lra) ltac:(lra)) as Z. unfold near3. unfold ex at 1 3 in Z. lra. }
  assert (U10 : (10 * u <= / 100)%R) by (unfold u; lra). set (y := (H / 60)%R) in *.
  assert (CS : hi = 0 \/ hi = 1 \/ hi = 2 \/ hi = 3 \/ hi = 4 \/ hi = 5 \/ hi = 6) by lia.
  destruct CS as [CS|[CS|[CS|[CS|[CS|[CS|CS]]]]]]; rewrite CS in *; cbn [Z.eqb orb Pos.eqb].
  - exists (Zfloor wv), (Zfloor wt), (Zfloor wp), (Zfloor wa), wv, wt, wp, wa. split; [reflexivity|]. split; [|split; [|split]]; (split; [reflexivity|]); (split; [assumption|]); first [exact NA|apply Nv|apply Nt|apply Np]; cases.
  - exists (Zfloor wq), (Zfloor wv), (Zfloor wp), (Zfloor wa), wq, wv, wp, wa. split; [reflexivity|]. split; [|split; [|split]]; (split; [reflexivity|]); (split; [assumption|]); first [exact NA|apply Nv|apply Nq|apply Np]; cases.
  - exists (Zfloor wp), (Zfloor wv), (Zfloor wt), (Zfloor wa), wp, wv, wt, wa. split; [reflexivity|]. split; [|split; [|split]]; (split; [reflexivity|]); (split; [assumption|]); first [exact NA|apply Nv|apply Nt|apply Np]; cases.
  - exists (Zfloor wp), (Zfloor wq), (Zfloor wv), (Zfloor wa), wp, wq, wv, wa. split; [reflexivity|]. split; [|split; [|split]]; (split; [reflexivity|]); (split; [assumption|]); first [exact NA|apply Nv|apply Nq|apply Np]; cases.
  - exists (Zfloor wt), (Zfloor wp), (Zfloor wv), (Zfloor wa), wt, wp, wv, wa. split; [reflexivity|]. split; [|split; [|split]]; (split; [reflexivity|]); (split; [assumption|]); first [exact NA|apply Nv|apply Nt|apply Np]; cases.
  - exists (Zfloor wv), (Zfloor wp), (Zfloor wq), (Zfloor wa), wv, wp, wq, wa. split; [reflexivity|]. split; [|split; [|split]]; (split; [reflexivity|]); (split; [assumption|]); first [exact NA|apply Nv|apply Nq|apply Np]; cases.
  - exists (Zfloor wv), (Zfloor wt), (Zfloor wp), (Zfloor wa), wv, wt, wp, wa. split; [reflexivity|]. split; [|split; [|split]]; (split; [reflexivity|]); (split; [assumption|]); first [exact NA|apply Nv|apply Nt|apply Np]; cases.
Qed.
