(** L_Rect.v -- lemmas for P_Rect. *)
From Coq Require Import Reals Lra ZArith QArith Qabs Qpower Qreals.
From Flocq Require Import Core BinarySingleNaN.
From Coq Require Import SpecFloat.
From Verif Require Import Base M_Float M_MathF M_Rect L_Float S_Double L_Double L_MathF S_Rect.
Local Open Scope Z_scope.

Definition g (k : Z) (x : spec_float) (z : Z) : Prop := is64 x (IZR z * bpow radix2 k).
Lemma g_grid k x z : -1000 <= k <= 900 -> Z.abs z <= 2 ^ 50 -> g k x z -> grid k x z.
Proof. intros K Z H. split; [exact K|]. split; [exact Z|]. apply dbl_r. now rewrite Q2R_mult, Q2R_Z, Q2R_q2. Qed.
Lemma grid_g k x z : grid k x z -> g k x z.
Proof. apply grid_r. Qed.
Section K.
Variable k : Z.
Hypothesis K : -1000 <= k <= 900.
Lemma g_add x y a b : g k x a -> g k y b -> - 2 ^ 53 <= a + b <= 2 ^ 53 -> g k (add64 x y) (a + b).
Proof. intros X Y H. apply add_grid; try assumption. now apply Z.abs_le. Qed.
Lemma g_sub x y a b : g k x a -> g k y b -> - 2 ^ 53 <= a - b <= 2 ^ 53 -> g k (sub64 x y) (a - b).
Proof. intros X Y H. apply sub_grid; try assumption. now apply Z.abs_le. Qed.
Lemma g_neg x a : g k x a -> g k (fneg x) (- a).
Proof. intros H. unfold g, fneg. rewrite opp_IZR. replace (- IZR a * bpow radix2 k)%R with (- (IZR a * bpow radix2 k))%R by ring. now apply opp_r. Qed.
Lemma g_0 : g k (int64f 0) 0.
Proof. unfold g. rewrite Rmult_0_l. exact zero_r. Qed.
Lemma g_ltb x y a b : g k x a -> g k y b -> SFltb x y = (a <? b).
Proof. apply ltb_grid. Qed.
Lemma g_leb x y a b : g k x a -> g k y b -> SFleb x y = (a <=? b).
Proof. apply leb_grid. Qed.
Lemma g_max x y a b : g k x a -> g k y b -> g k (fmax x y) (Z.max a b).
Proof. intros X Y. unfold fmax. rewrite (g_ltb _ _ _ _ X Y). destruct (Z.ltb_spec a b); [rewrite Z.max_r by lia; exact Y|rewrite Z.max_l by lia; exact X]. Qed.
Lemma g_min x y a b : g k x a -> g k y b -> g k (fmin x y) (Z.min a b).
Proof. intros X Y. unfold fmin. rewrite (g_ltb _ _ _ _ Y X). destruct (Z.ltb_spec b a); [rewrite Z.min_r by lia; exact Y|rewrite Z.min_l by lia; exact X]. Qed.
Lemma g_eq x a b : g k x a -> a = b -> g k x b.
Proof. now intros H <-. Qed.
Definition ra (r : rect) (a b w h : Z) : Prop := g k (x r) a /\ g k (y r) b /\ g k (width r) w /\ g k (height r) h.
Definition B (n : Z) : Prop := - 2 ^ 51 <= n <= 2 ^ 51.
Lemma ra_setLeft r a b w h v n : ra r a b w h -> g k v n -> B a -> B w -> B n -> ra (setLeft r v) n b (a + w - n) h.
Proof.
  unfold B. intros (A1 & A2 & A3 & A4) V Ba Bw Bn. unfold setLeft, shiftLeft, left. pose proof (g_sub _ _ _ _ V A1 ltac:(lia)) as D. repeat split; cbn; try assumption.
  - eapply g_eq; [apply (g_add _ _ _ _ A1 D); lia|lia].
  - eapply g_eq; [apply (g_sub _ _ _ _ A3 D); lia|lia].
Qed.
Lemma ra_setTop r a b w h v n : ra r a b w h -> g k v n -> B b -> B h -> B n -> ra (setTop r v) a n w (b + h - n).
Proof.
  unfold B. intros (A1 & A2 & A3 & A4) V Ba Bw Bn. unfold setTop, shiftTop, top. pose proof (g_sub _ _ _ _ V A2 ltac:(lia)) as D. repeat split; cbn; try assumption.
  - eapply g_eq; [apply (g_add _ _ _ _ A2 D); lia|lia].
  - eapply g_eq; [apply (g_sub _ _ _ _ A4 D); lia|lia].
Qed.
Lemma ra_setRight r a b w h v n : ra r a b w h -> g k v n -> B a -> B w -> B n -> ra (setRight r v) a b (n - a) h.
Proof.
  unfold B. intros (A1 & A2 & A3 & A4) V Ba Bw Bn. unfold setRight, shiftRight, right. pose proof (g_add _ _ _ _ A1 A3 ltac:(lia)) as S. pose proof (g_sub _ _ _ _ V S ltac:(lia)) as D. repeat split; cbn; try assumption. eapply g_eq; [apply (g_add _ _ _ _ A3 D); lia|lia].
Qed.
Lemma ra_setBottom r a b w h v n : ra r a b w h -> g k v n -> B b -> B h -> B n -> ra (setBottom r v) a b w (n - b).
Proof.
  unfold B. intros (A1 & A2 & A3 & A4) V Ba Bw Bn. unfold setBottom, shiftBottom, bottom. pose proof (g_add _ _ _ _ A2 A4 ltac:(lia)) as S. pose proof (g_sub _ _ _ _ V S ltac:(lia)) as D. repeat split; cbn; try assumption. eapply g_eq; [apply (g_add _ _ _ _ A4 D); lia|lia].
Qed.
Lemma ra_right r a b w h : ra r a b w h -> B a -> B w -> g k (right r) (a + w).
Proof. unfold B. intros (A1 & A2 & A3 & A4) Ba Bw. apply g_add; try assumption. lia. Qed.
Lemma ra_bottom r a b w h : ra r a b w h -> B b -> B h -> g k (bottom r) (b + h).
Proof. unfold B. intros (A1 & A2 & A3 & A4) Ba Bw. apply g_add; try assumption. lia. Qed.
Lemma ra_eq r a b w h a' b' w' h' : ra r a b w h -> a = a' -> b = b' -> w = w' -> h = h' -> ra r a' b' w' h'.
Proof. now intros H <- <- <- <-. Qed.
Definition sm (a b w h : Z) : Prop := - 2 ^ 47 <= a <= 2 ^ 47 /\ - 2 ^ 47 <= b <= 2 ^ 47 /\ - 2 ^ 47 <= w <= 2 ^ 47 /\ - 2 ^ 47 <= h <= 2 ^ 47.
Lemma ra_union r o a b w h a' b' w' h' : ra r a b w h -> ra o a' b' w' h' -> sm a b w h -> sm a' b' w' h' ->
  ra (unionWith r o) (Z.min a a') (Z.min b b') (Z.max (a + w) (a' + w') - Z.min a a') (Z.max (b + h) (b' + h') - Z.min b b').
Proof.
  intros R O S S'. unfold sm in *. unfold unionWith.
  pose proof O as (O1 & O2 & O3 & O4). pose proof (ra_right _ _ _ _ _ O ltac:(unfold B; lia) ltac:(unfold B; lia)) as Or. pose proof (ra_bottom _ _ _ _ _ O ltac:(unfold B; lia) ltac:(unfold B; lia)) as Ob.
  set (r1 := if SFltb (left o) (left r) then setLeft r (left o) else r).
  assert (R1 : ra r1 (Z.min a a') b (a + w - Z.min a a') h). { unfold r1. pose proof R as (Q & _). unfold left at 1 2. rewrite (g_ltb _ _ _ _ O1 Q). destruct (Z.ltb_spec a' a); [|eapply ra_eq; [exact R|lia..]]. eapply ra_eq; [apply (ra_setLeft _ _ _ _ _ _ _ R O1); unfold B; lia|lia..]. }
  clearbody r1. set (r2 := if SFltb (top o) (top r1) then setTop r1 (top o) else r1).
  assert (R2 : ra r2 (Z.min a a') (Z.min b b') (a + w - Z.min a a') (b + h - Z.min b b')). { unfold r2. pose proof R1 as (_ & Q & _). unfold top at 1 2. rewrite (g_ltb _ _ _ _ O2 Q). destruct (Z.ltb_spec b' b); [|eapply ra_eq; [exact R1|lia..]]. eapply ra_eq; [apply (ra_setTop _ _ _ _ _ _ _ R1 O2); unfold B; lia|lia..]. }
  clearbody r2. set (r3 := if SFltb (right r2) (right o) then setRight r2 (right o) else r2).
  assert (R3 : ra r3 (Z.min a a') (Z.min b b') (Z.max (a + w) (a' + w') - Z.min a a') (b + h - Z.min b b')). { unfold r3. pose proof (ra_right _ _ _ _ _ R2 ltac:(unfold B; lia) ltac:(unfold B; lia)) as Q. rewrite (g_ltb _ _ _ _ Q Or). destruct (Z.ltb_spec (Z.min a a' + (a + w - Z.min a a')) (a' + w')); [|eapply ra_eq; [exact R2|lia..]]. eapply ra_eq; [apply (ra_setRight _ _ _ _ _ _ _ R2 Or); unfold B; lia|lia..]. }
  clearbody r3. pose proof (ra_bottom _ _ _ _ _ R3 ltac:(unfold B; lia) ltac:(unfold B; lia)) as Q. rewrite (g_ltb _ _ _ _ Q Ob). destruct (Z.ltb_spec (Z.min b b' + (b + h - Z.min b b')) (b' + h')); [|eapply ra_eq; [exact R3|lia..]]. eapply ra_eq; [apply (ra_setBottom _ _ _ _ _ _ _ R3 Ob); unfold B; lia|lia..].
Qed.
Lemma ra_intersect r o a b w h a' b' w' h' : ra r a b w h -> ra o a' b' w' h' -> sm a b w h -> sm a' b' w' h' ->
  ra (intersect r o) (Z.max a a') (Z.max b b') (Z.min (a + w) (a' + w') - Z.max a a') (Z.min (b + h) (b' + h') - Z.max b b').
Proof.
  intros R O S S'. unfold sm in *. unfold intersect. cbv zeta.
  pose proof O as (O1 & O2 & O3 & O4). pose proof (ra_right _ _ _ _ _ O ltac:(unfold B; lia) ltac:(unfold B; lia)) as Or. pose proof (ra_bottom _ _ _ _ _ O ltac:(unfold B; lia) ltac:(unfold B; lia)) as Ob.
  pose proof R as (Q1 & Q2 & _). pose proof (g_max _ _ _ _ Q1 O1) as M1. pose proof (ra_setLeft _ _ _ _ _ _ _ R M1 ltac:(unfold B; lia) ltac:(unfold B; lia) ltac:(unfold B; lia)) as R1. change (x r) with (left r) in R1. change (x o) with (left o) in R1. set (r1 := setLeft r _) in *. clearbody r1.
  pose proof R1 as (_ & Q3 & _). pose proof (g_max _ _ _ _ Q3 O2) as M2. pose proof (ra_setTop _ _ _ _ _ _ _ R1 M2 ltac:(unfold B; lia) ltac:(unfold B; lia) ltac:(unfold B; lia)) as R2. change (y r1) with (top r1) in R2. change (y o) with (top o) in R2. set (r2 := setTop r1 _) in *. clearbody r2.
  pose proof (ra_right _ _ _ _ _ R2 ltac:(unfold B; lia) ltac:(unfold B; lia)) as Rr. pose proof R2 as (X1 & X2 & X3 & X4). pose proof (ra_bottom _ _ _ _ _ R2 ltac:(unfold B; lia) ltac:(unfold B; lia)) as Rb.
  repeat split; cbn [x y width height].
  - exact X1.
  - exact X2.
  - eapply g_eq; [apply (g_sub _ _ _ _ (g_min _ _ _ _ Rr Or) X1); lia|lia].
  - eapply g_eq; [apply (g_sub _ _ _ _ (g_min _ _ _ _ Rb Ob) X2); lia|lia].
Qed.
Lemma ra_intersects r o a b w h a' b' w' h' : ra r a b w h -> ra o a' b' w' h' -> sm a b w h -> sm a' b' w' h' ->
  intersects r o = (a <=? a' + w') && (a' <=? a + w) && (b <=? b' + h') && (b' <=? b + h).
Proof.
  intros R O S S'. unfold sm in *. pose proof O as (O1 & O2 & _). pose proof (ra_right _ _ _ _ _ O ltac:(unfold B; lia) ltac:(unfold B; lia)) as Or. pose proof (ra_bottom _ _ _ _ _ O ltac:(unfold B; lia) ltac:(unfold B; lia)) as Ob.
  pose proof R as (Q1 & Q2 & _). pose proof (ra_right _ _ _ _ _ R ltac:(unfold B; lia) ltac:(unfold B; lia)) as Rr. pose proof (ra_bottom _ _ _ _ _ R ltac:(unfold B; lia) ltac:(unfold B; lia)) as Rb.
  unfold intersects. fold (right o) (right r) (bottom o) (bottom r). rewrite (g_leb _ _ _ _ Q1 Or), (g_leb _ _ _ _ O1 Rr), (g_leb _ _ _ _ Q2 Ob), (g_leb _ _ _ _ O2 Rb). reflexivity.
Qed.
Lemma ra_intersection r o a b w h a' b' w' h' : ra r a b w h -> ra o a' b' w' h' -> sm a b w h -> sm a' b' w' h' -> intersects r o = true ->
  ra (intersection r o) (Z.max a a') (Z.max b b') (Z.min (a + w) (a' + w') - Z.max a a') (Z.min (b + h) (b' + h') - Z.max b b').
Proof.
  intros R O S S' I. unfold sm in *. pose proof O as (O1 & O2 & _). pose proof (ra_right _ _ _ _ _ O ltac:(unfold B; lia) ltac:(unfold B; lia)) as Or. pose proof (ra_bottom _ _ _ _ _ O ltac:(unfold B; lia) ltac:(unfold B; lia)) as Ob.
  pose proof R as (Q1 & Q2 & _). pose proof (ra_right _ _ _ _ _ R ltac:(unfold B; lia) ltac:(unfold B; lia)) as Rr. pose proof (ra_bottom _ _ _ _ _ R ltac:(unfold B; lia) ltac:(unfold B; lia)) as Rb.
  unfold intersection. rewrite I. repeat split; cbn [x y width height].
  - now apply g_max.
  - now apply g_max.
  - apply g_sub; [now apply g_min|now apply g_max|lia].
  - apply g_sub; [now apply g_min|now apply g_max|lia].
Qed.
Lemma ra_normalize r a b w h : ra r a b w h -> sm a b w h -> ra (normalize r) (Z.min a (a + w)) (Z.min b (b + h)) (Z.abs w) (Z.abs h).
Proof.
  intros R S. unfold sm in *. unfold normalize. cbv zeta. set (r1 := if SFltb (width r) (int64f 0) then _ else r). assert (R1 : ra r1 (Z.min a (a + w)) b (Z.abs w) h).
  { unfold r1. pose proof R as (A1 & A2 & A3 & A4). rewrite (g_ltb _ _ _ _ A3 g_0). destruct (Z.ltb_spec w 0); [|eapply ra_eq; [exact R|lia..]]. repeat split; cbn; try assumption; [eapply g_eq; [apply (g_add _ _ _ _ A1 A3); lia|lia]|eapply g_eq; [apply (g_neg _ _ A3)|lia]]. }
  clearbody r1. pose proof R1 as (A1 & A2 & A3 & A4). rewrite (g_ltb _ _ _ _ A4 g_0). destruct (Z.ltb_spec h 0); [|eapply ra_eq; [exact R1|lia..]]. repeat split; cbn; try assumption; [eapply g_eq; [apply (g_add _ _ _ _ A2 A4); lia|lia]|eapply g_eq; [apply (g_neg _ _ A4)|lia]].
Qed.
(** a point of the plane, not of the grid *)
Lemma ra_contains r a b w h px py u v : ra r a b w h -> sm a b w h -> is64 px u -> is64 py v ->
  contains r px py = true <-> (IZR a * bpow radix2 k <= u <= IZR (a + w) * bpow radix2 k)%R /\ (IZR b * bpow radix2 k <= v <= IZR (b + h) * bpow radix2 k)%R.
Proof.
  intros R S X Y. unfold sm in S. pose proof R as (Q1 & Q2 & _). pose proof (ra_right _ _ _ _ _ R ltac:(unfold B; lia) ltac:(unfold B; lia)) as Rr. pose proof (ra_bottom _ _ _ _ _ R ltac:(unfold B; lia) ltac:(unfold B; lia)) as Rb.
  unfold contains. fold (right r) (bottom r). rewrite (leb_r _ _ _ _ Q1 X), (leb_r _ _ _ _ X Rr), (leb_r _ _ _ _ Q2 Y), (leb_r _ _ _ _ Y Rb). rewrite !andb_true_iff. split.
  - intros [[[A1 A2] A3] A4]. apply Rleb_inv in A1, A2, A3, A4. auto.
  - intros [[A1 A2] [A3 A4]]. rewrite !Rle_bool_true by assumption. auto.
Qed.
End K.
Lemma leb_trans a b c : SFleb a b = true -> SFleb b c = true -> SFleb a c = true.
Proof.
  unfold SFleb. destruct a as [sa|sa| |sa ma ea], b as [sb|sb| |sb mb eb], c as [sc|sc| |sc mc ec]; cbn; try discriminate; try reflexivity; try (destruct sa); try (destruct sb); try (destruct sc); cbn; try discriminate; try reflexivity.
  all: change (Pos.compare_cont Eq ma mb) with (ma ?= mb)%positive; change (Pos.compare_cont Eq mb mc) with (mb ?= mc)%positive; change (Pos.compare_cont Eq ma mc) with (ma ?= mc)%positive; destruct (Z.compare_spec ea eb), (Z.compare_spec eb ec), (Z.compare_spec ea ec); subst; try lia; try discriminate; try reflexivity;
    destruct (Pos.compare_spec ma mb), (Pos.compare_spec mb mc), (Pos.compare_spec ma mc); subst; cbn; try lia; try discriminate; try reflexivity.
Qed.
