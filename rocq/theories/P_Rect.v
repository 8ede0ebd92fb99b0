(** P_Rect.v -- C96-C98: rectangles and extents. *)
From Coq Require Import Reals Lra ZArith QArith Qabs Qpower Qreals.
From Flocq Require Import Core BinarySingleNaN.
From Coq Require Import SpecFloat.
From Verif Require Import Base M_Float M_MathF M_Rect L_Float S_Double L_Double L_MathF S_Rect L_Rect.
Local Open Scope Z_scope.

(** * C96: edges *)
Lemma at_ra k r a b w h : rect_at k r a b w h -> ra k r a b w h.
Proof. intros (A & C & D & F). repeat split; now apply grid_g. Qed.
Lemma ra_at k r a b w h : -1000 <= k <= 900 -> - 2 ^ 50 <= a <= 2 ^ 50 -> - 2 ^ 50 <= b <= 2 ^ 50 -> - 2 ^ 50 <= w <= 2 ^ 50 -> - 2 ^ 50 <= h <= 2 ^ 50 -> ra k r a b w h -> rect_at k r a b w h.
Proof. intros K A C D F (G1 & G2 & G3 & G4). split; [|split; [|split]]; apply g_grid; try assumption; now apply Z.abs_le. Qed.
Lemma at_k k r a b w h : rect_at k r a b w h -> -1000 <= k <= 900.
Proof. intros ((K & _) & _). exact K. Qed.
Lemma small_sm a b w h : small a b w h -> sm a b w h.
Proof. intros (A & C & D & F). repeat split; lia. Qed.
Ltac prep := repeat match goal with
  | H : rect_at ?k ?r _ _ _ _ |- _ => pose proof (at_k _ _ _ _ _ _ H); apply at_ra in H
  | H : small _ _ _ _ |- _ => apply small_sm in H
  | H : grid ?k ?x ?z |- _ => let n := fresh "Bd" in pose proof (proj1 (proj2 H)) as n; apply Z.abs_le in n; apply grid_g in H
  end.
Ltac big := unfold sm, B in *; lia.
Theorem C96_edges : forall k r a b w h, rect_at k r a b w h -> small a b w h ->
  grid k (left r) a /\ grid k (right r) (a + w) /\ grid k (top r) b /\ grid k (bottom r) (b + h).
Proof.
  intros k r a b w h R S. prep. pose proof R as (A1 & A2 & _). split; [|split; [|split]]; (apply g_grid; [assumption|apply Z.abs_le; big|]).
  all: try assumption; first [apply (ra_right k H _ _ _ _ _ R); big | apply (ra_bottom k H _ _ _ _ _ R); big].
Qed.
Print Assumptions C96_edges.
(** moving one edge to n keeps the other three edges *)
Theorem C96_set : forall k r a b w h v n, rect_at k r a b w h -> small a b w h -> grid k v n -> Z.abs n <= 2 ^ 47 ->
  rect_at k (setLeft r v) n b (a + w - n) h /\ rect_at k (setRight r v) a b (n - a) h /\
  rect_at k (setTop r v) a n w (b + h - n) /\ rect_at k (setBottom r v) a b w (n - b).
Proof.
  intros k r a b w h v n R S V N. apply Z.abs_le in N. prep. split; [|split; [|split]]; (apply ra_at; [assumption|big..|]).
  - apply (ra_setLeft k H); try assumption; big. - apply (ra_setRight k H _ _ _ w); try assumption; big. - apply (ra_setTop k H); try assumption; big. - apply (ra_setBottom k H _ _ _ _ h); try assumption; big.
Qed.
Print Assumptions C96_set.
(** shifting one edge by d *)
Theorem C96_shift : forall k r a b w h v d, rect_at k r a b w h -> small a b w h -> grid k v d -> Z.abs d <= 2 ^ 47 ->
  rect_at k (shiftLeft r v) (a + d) b (w - d) h /\ rect_at k (shiftRight r v) a b (w + d) h /\
  rect_at k (shiftTop r v) a (b + d) w (h - d) /\ rect_at k (shiftBottom r v) a b w (h + d).
Proof.
  intros k r a b w h v n R S V N. apply Z.abs_le in N. prep. destruct R as (A1 & A2 & A3 & A4). split; [|split; [|split]]; (apply ra_at; [assumption|big..|]); repeat split; cbn [x y width height shiftLeft shiftRight shiftTop shiftBottom]; try assumption; (apply (g_add k H) || apply (g_sub k H)); try assumption; big.
Qed.
Print Assumptions C96_shift.
Theorem C96_move : forall k r a b w h dx dy u v, rect_at k r a b w h -> small a b w h -> grid k dx u -> grid k dy v -> Z.abs u <= 2 ^ 47 -> Z.abs v <= 2 ^ 47 ->
  rect_at k (move r (dx, dy)) (a + u) (b + v) w h.
Proof.
  intros k r a b w h dx dy u v R S U V Nu Nv. apply Z.abs_le in Nu, Nv. prep. destruct R as (A1 & A2 & A3 & A4). apply ra_at; [assumption|big..|]. repeat split; cbn [x y width height move fst snd]; try assumption; apply (g_add k H); try assumption; big.
Qed.
Print Assumptions C96_move.
(** alignment: the size stays, the corner becomes that of the other *)
Theorem C96_align : forall k r o a b w h a' b' w' h', rect_at k r a b w h -> rect_at k o a' b' w' h' -> small a b w h -> small a' b' w' h' ->
  rect_at k (alignTopLeft r o) a' b' w h /\ rect_at k (alignBottomLeft r o) a' (b' + h' - h) w h.
Proof.
  intros k r o a b w h a' b' w' h' R O S S'. prep. pose proof (ra_bottom k H _ _ _ _ _ O ltac:(big) ltac:(big)) as Ob. destruct R as (A1 & A2 & A3 & A4), O as (O1 & O2 & O3 & O4). split; (apply ra_at; [assumption|big..|]); repeat split; cbn [x y width height alignTopLeft alignBottomLeft]; try assumption; apply (g_sub k H); try assumption; big.
Qed.
Print Assumptions C96_align.
(** the same points, size not negative *)
Theorem C96_normalize : forall k r a b w h, rect_at k r a b w h -> small a b w h ->
  rect_at k (normalize r) (Z.min a (a + w)) (Z.min b (b + h)) (Z.abs w) (Z.abs h).
Proof. intros k r a b w h R S. prep. apply ra_at; [assumption|big..|]. now apply (ra_normalize k H). Qed.
Print Assumptions C96_normalize.
(** the center in steps of half the width *)
Theorem C96_center : forall k r a b w h, rect_at (k + 1) r a b w h -> -1000 <= k -> small a b w h ->
  grid k (fst (center r)) (2 * a + w) /\ grid k (snd (center r)) (2 * b + h).
Proof.
  intros k r a b w h R L S. prep. destruct R as (A1 & A2 & A3 & A4). assert (K : -1000 <= k <= 900) by lia.
  assert (D : forall z u, g (k + 1) u z -> g k u (2 * z)). { intros z u G. unfold g in *. rewrite bpow_plus in G. change (bpow radix2 1) with 2%R in G. rewrite mult_IZR. replace (2 * IZR z * bpow radix2 k)%R with (IZR z * (bpow radix2 k * 2))%R by ring. exact G. }
  assert (Hf : is64 (lit 1 2) (/ 2)%R). { replace (lit 1 2) with (S754_finite false (2 ^ 52) (-53)) by (vm_compute; reflexivity). replace (/ 2)%R with (Q2R (1 # 2)) by (unfold Q2R; cbn; lra). apply dbl_r. split; vm_compute; reflexivity. }
  assert (M : forall z u, - 2 ^ 47 <= z <= 2 ^ 47 -> g (k + 1) u z -> g k (mul64 (lit 1 2) u) z).
  { intros z u Bz G. unfold g in *. assert (E : (/ 2 * (IZR z * bpow radix2 (k + 1)) = IZR z * bpow radix2 k)%R) by (rewrite bpow_plus; change (bpow radix2 1) with 2%R; field). rewrite <- E. assert (Z53 : Z.abs z <= 2 ^ 53) by lia. pose proof (mul64_r _ _ _ _ (53 + k) ltac:(lia) Hf G) as Q. rewrite E in *. rewrite r64_fmt in Q by (apply fmt_grid; lia). apply Q. now apply grid_big. }
  split; (apply g_grid; [assumption|apply Z.abs_le; big|]); cbn [center fst snd]; (apply (g_add k K); [now apply D|apply M; [big|assumption]|big]).
Qed.
Print Assumptions C96_center.
(** a point is contained if it lies between the edges, edges included *)
Lemma pos_r k z : Q2R (pos k z) = (IZR z * bpow radix2 k)%R.
Proof. unfold pos. now rewrite Q2R_mult, Q2R_Z, Q2R_q2. Qed.
Theorem C96_contains : forall k r a b w h px py u v, rect_at k r a b w h -> small a b w h -> dbl px u -> dbl py v ->
  (contains r px py = true <-> (pos k a <= u)%Q /\ (u <= pos k (a + w))%Q /\ (pos k b <= v)%Q /\ (v <= pos k (b + h))%Q).
Proof.
  intros k r a b w h px py u v R S U V. prep. apply dbl_r in U, V. rewrite (ra_contains k H _ _ _ _ _ _ _ _ _ R S U V), <- !pos_r. split.
  - intros [[A1 A2] [A3 A4]]. repeat split; now apply Rle_Qle.
  - intros (A1 & A2 & A3 & A4). apply Qle_Rle in A1, A2, A3, A4. auto.
Qed.
Print Assumptions C96_contains.
(** coordinates without a common grid: the edge is not where it was put *)
Theorem C96_set_refuted : exists r v, right (setRight r v) <> v /\ SFltb v (right (setRight r v)) = true.
Proof. exists (Rect (lit (-18) 10) (int64f 0) (lit 7 10) (int64f 1)), (lit 13 10). split; [vm_compute; discriminate|vm_compute; reflexivity]. Qed.
Print Assumptions C96_set_refuted.
Example C96_example : rect_at (-1) (Rect (lit 3 2) (int64f 2) (lit 7 2) (int64f (-4))) 3 4 7 (-8) /\ small 3 4 7 (-8) /\
  normalize (Rect (lit 3 2) (int64f 2) (lit 7 2) (int64f (-4))) = Rect (lit 3 2) (int64f (-2)) (lit 7 2) (int64f 4).
Proof. repeat split; try lia; vm_compute; reflexivity. Qed.

(** * C97: union and intersection *)
Theorem C97_union : forall k r o a b w h a' b' w' h', rect_at k r a b w h -> rect_at k o a' b' w' h' -> small a b w h -> small a' b' w' h' ->
  rect_at k (unionWith r o) (Z.min a a') (Z.min b b') (Z.max (a + w) (a' + w') - Z.min a a') (Z.max (b + h) (b' + h') - Z.min b b').
Proof. intros k r o a b w h a' b' w' h' R O S S'. prep. apply ra_at; [assumption|big..|]. now apply (ra_union k H). Qed.
Print Assumptions C97_union.
Lemma pos_le k a b : (a <= b)%Z -> (pos k a <= pos k b)%Q.
Proof. intros L. apply Rle_Qle. rewrite !pos_r. apply Rmult_le_compat_r; [apply bpow_ge_0|now apply IZR_le]. Qed.
(** the union contains every point of both *)
Lemma union_half k r a b w h a' b' w' h' o px py u v : ra k r a b w h -> ra k o a' b' w' h' -> -1000 <= k <= 900 -> sm a b w h -> sm a' b' w' h' -> is64 px u -> is64 py v ->
  (contains (unionWith r o) px py = true <-> (IZR (Z.min a a') * bpow radix2 k <= u <= IZR (Z.max (a + w) (a' + w')) * bpow radix2 k)%R /\ (IZR (Z.min b b') * bpow radix2 k <= v <= IZR (Z.max (b + h) (b' + h')) * bpow radix2 k)%R).
Proof.
  intros R O K S S' U V. pose proof (ra_union k K _ _ _ _ _ _ _ _ _ _ R O S S') as Un. destruct Un as (U1 & U2 & U3 & U4). unfold contains.
  pose proof (g_add k K _ _ _ _ U1 U3 ltac:(big)) as Ur. pose proof (g_add k K _ _ _ _ U2 U4 ltac:(big)) as Ub. replace (Z.min a a' + (Z.max (a + w) (a' + w') - Z.min a a')) with (Z.max (a + w) (a' + w')) in Ur by lia. replace (Z.min b b' + (Z.max (b + h) (b' + h') - Z.min b b')) with (Z.max (b + h) (b' + h')) in Ub by lia.
  rewrite (leb_r _ _ _ _ U1 U), (leb_r _ _ _ _ U Ur), (leb_r _ _ _ _ U2 V), (leb_r _ _ _ _ V Ub), !andb_true_iff. split.
  - intros [[[A1 A2] A3] A4]. apply Rleb_inv in A1, A2, A3, A4. auto.
  - intros [[A1 A2] [A3 A4]]. rewrite !Rle_bool_true by assumption. auto.
Qed.
Lemma scale_le k a b : (a <= b)%Z -> (IZR a * bpow radix2 k <= IZR b * bpow radix2 k)%R.
Proof. intros L. apply Rmult_le_compat_r; [apply bpow_ge_0|now apply IZR_le]. Qed.
Theorem C97_union_contains : forall k r o a b w h a' b' w' h' px py u v, rect_at k r a b w h -> rect_at k o a' b' w' h' -> small a b w h -> small a' b' w' h' -> dbl px u -> dbl py v ->
  contains r px py = true \/ contains o px py = true -> contains (unionWith r o) px py = true.
Proof.
  intros k r o a b w h a' b' w' h' px py u v R O S S' U V C. prep. apply dbl_r in U, V. apply (union_half k _ _ _ _ _ _ _ _ _ _ _ _ _ _ R O H S S' U V).
  destruct C as [C|C]; [apply (ra_contains k H _ _ _ _ _ _ _ _ _ R S U V) in C|apply (ra_contains k H _ _ _ _ _ _ _ _ _ O S' U V) in C]; destruct C as [[C1 C2] [C3 C4]];
    (repeat split; [eapply Rle_trans; [|exact C1]|eapply Rle_trans; [exact C2|]|eapply Rle_trans; [|exact C3]|eapply Rle_trans; [exact C4|]]; apply scale_le; lia).
Qed.
Print Assumptions C97_union_contains.
(** in place: what is left are the common points, whether there are any or not *)
Theorem C97_intersect : forall k r o a b w h a' b' w' h' px py u v, rect_at k r a b w h -> rect_at k o a' b' w' h' -> small a b w h -> small a' b' w' h' -> dbl px u -> dbl py v ->
  contains (intersect r o) px py = contains r px py && contains o px py.
Proof.
  intros k r o a b w h a' b' w' h' px py u v R O S S' U V. prep. apply dbl_r in U, V. apply eq_iff_eq_true. rewrite andb_true_iff, (ra_contains k H _ _ _ _ _ _ _ _ _ R S U V), (ra_contains k H _ _ _ _ _ _ _ _ _ O S' U V).
  pose proof (ra_intersect k H _ _ _ _ _ _ _ _ _ _ R O S S') as (I1 & I2 & I3 & I4).
  pose proof (g_add k H _ _ _ _ I1 I3 ltac:(big)) as Ir. pose proof (g_add k H _ _ _ _ I2 I4 ltac:(big)) as Ib. replace (Z.max a a' + (Z.min (a + w) (a' + w') - Z.max a a')) with (Z.min (a + w) (a' + w')) in Ir by lia. replace (Z.max b b' + (Z.min (b + h) (b' + h') - Z.max b b')) with (Z.min (b + h) (b' + h')) in Ib by lia.
  unfold contains. rewrite (leb_r _ _ _ _ I1 U), (leb_r _ _ _ _ U Ir), (leb_r _ _ _ _ I2 V), (leb_r _ _ _ _ V Ib), !andb_true_iff. split.
  - intros [[[A1 A2] A3] A4]. apply Rleb_inv in A1, A2, A3, A4. repeat split;
      first [eapply Rle_trans; [|exact A1] | eapply Rle_trans; [exact A2|] | eapply Rle_trans; [|exact A3] | eapply Rle_trans; [exact A4|]]; apply scale_le; lia.
  - intros [[[A1 A2] [A3 A4]] [[B1 B2] [B3 B4]]]. repeat split; apply Rle_bool_true.
    + destruct (Z.max_spec a a') as [[_ ->]|[_ ->]]; assumption.
    + destruct (Z.min_spec (a + w) (a' + w')) as [[_ ->]|[_ ->]]; assumption.
    + destruct (Z.max_spec b b') as [[_ ->]|[_ ->]]; assumption.
    + destruct (Z.min_spec (b + h) (b' + h')) as [[_ ->]|[_ ->]]; assumption.
Qed.
Print Assumptions C97_intersect.
(** as a result: the same, if there are common points *)
Theorem C97_intersection : forall k r o a b w h a' b' w' h' px py u v, rect_at k r a b w h -> rect_at k o a' b' w' h' -> small a b w h -> small a' b' w' h' -> intersects r o = true -> dbl px u -> dbl py v ->
  contains (intersection r o) px py = contains r px py && contains o px py.
Proof.
  intros k r o a b w h a' b' w' h' px py u v R O S S' I U V. pose proof (C97_intersect k r o a b w h a' b' w' h' px py u v R O S S' U V) as E. rewrite <- E. prep. apply dbl_r in U, V.
  pose proof (ra_intersect k H _ _ _ _ _ _ _ _ _ _ R O S S') as (I1 & I2 & I3 & I4). pose proof (ra_intersection k H _ _ _ _ _ _ _ _ _ _ R O S S' I) as (J1 & J2 & J3 & J4).
  pose proof (g_add k H _ _ _ _ I1 I3 ltac:(big)) as Ir. pose proof (g_add k H _ _ _ _ I2 I4 ltac:(big)) as Ib. pose proof (g_add k H _ _ _ _ J1 J3 ltac:(big)) as Jr. pose proof (g_add k H _ _ _ _ J2 J4 ltac:(big)) as Jb.
  unfold contains. rewrite (leb_r _ _ _ _ I1 U), (leb_r _ _ _ _ U Ir), (leb_r _ _ _ _ I2 V), (leb_r _ _ _ _ V Ib), (leb_r _ _ _ _ J1 U), (leb_r _ _ _ _ U Jr), (leb_r _ _ _ _ J2 V), (leb_r _ _ _ _ V Jb). reflexivity.
Qed.
Print Assumptions C97_intersection.
(** without a grid, for all doubles: rectangles with a common point intersect, in both orders *)
Theorem C97_intersects : forall r o, intersects r o = intersects o r /\ (forall px py, contains r px py = true -> contains o px py = true -> intersects r o = true).
Proof.
  intros r o. split.
  - unfold intersects. set (p := SFleb (x r) _). set (q := SFleb (x o) _). set (s := SFleb (y r) _). set (t := SFleb (y o) _). destruct p, q, s, t; reflexivity.
  - intros px py. unfold contains, intersects. rewrite !andb_true_iff. intros [[[A1 A2] A3] A4] [[[B1 B2] B3] B4]. repeat split; eapply leb_trans; eassumption.
Qed.
Print Assumptions C97_intersects.
(** on a grid, with sizes that are not negative, only those *)
Theorem C97_common : forall k r o a b w h a' b' w' h', rect_at k r a b w h -> rect_at k o a' b' w' h' -> small a b w h -> small a' b' w' h' -> 0 <= w -> 0 <= h -> 0 <= w' -> 0 <= h' ->
  intersects r o = true -> exists px py, contains r px py = true /\ contains o px py = true.
Proof.
  intros k r o a b w h a' b' w' h' R O S S' W Hh W' Hh' I. prep. rewrite (ra_intersects k H _ _ _ _ _ _ _ _ _ _ R O S S') in I. rewrite !andb_true_iff, !Z.leb_le in I.
  pose proof R as (R1 & R2 & _). pose proof O as (O1 & O2 & _). pose proof (g_max k _ _ _ _ R1 O1) as U. pose proof (g_max k _ _ _ _ R2 O2) as V. exists (fmax (x r) (x o)), (fmax (y r) (y o)). split.
  - apply (ra_contains k H _ _ _ _ _ _ _ _ _ R S U V). repeat split; apply scale_le; lia.
  - apply (ra_contains k H _ _ _ _ _ _ _ _ _ O S' U V). repeat split; apply scale_le; lia.
Qed.
Print Assumptions C97_common.
(** of rectangles without common points the result is the rectangle (0, 0, 0, 0), which contains the point (0, 0) *)
Theorem C97_disjoint_refuted : forall r o, intersects r o = false -> intersection r o = rect0 /\ contains (intersection r o) (int64f 0) (int64f 0) = true.
Proof. intros r o I. unfold intersection. rewrite I. split; [reflexivity|vm_compute; reflexivity]. Qed.
Print Assumptions C97_disjoint_refuted.
(** and in place a rectangle that is not empty to isEmpty *)
Theorem C97_empty_refuted : exists r o, intersects r o = false /\ isEmpty (intersect r o) = false.
Proof. exists (Rect (int64f 0) (int64f 0) (int64f 1) (int64f 1)), (Rect (int64f 5) (int64f 5) (int64f 1) (int64f 1)). vm_compute. auto. Qed.
Print Assumptions C97_empty_refuted.
(** coordinates without a common grid: the union loses a corner *)
Theorem C97_union_refuted : exists r o px py, contains o px py = true /\ contains (unionWith r o) px py = false.
Proof. exists (Rect (lit (-33) 10) (int64f 0) (lit 22 10) (int64f 1)), (Rect (lit 47 10) (int64f 0) (lit 42 10) (int64f 1)), (add64 (lit 47 10) (lit 42 10)), (int64f 0). vm_compute. auto. Qed.
Print Assumptions C97_union_refuted.
Example C97_example : rect_at 0 (Rect (int64f 0) (int64f 0) (int64f 4) (int64f 4)) 0 0 4 4 /\ rect_at 0 (Rect (int64f 2) (int64f 3) (int64f 5) (int64f 5)) 2 3 5 5 /\
  intersection (Rect (int64f 0) (int64f 0) (int64f 4) (int64f 4)) (Rect (int64f 2) (int64f 3) (int64f 5) (int64f 5)) = Rect (int64f 2) (int64f 3) (int64f 2) (int64f 1) /\
  unionWith (Rect (int64f 0) (int64f 0) (int64f 4) (int64f 4)) (Rect (int64f 2) (int64f 3) (int64f 5) (int64f 5)) = Rect (int64f 0) (int64f 0) (int64f 7) (int64f 8).
Proof. repeat split; try lia; vm_compute; reflexivity. Qed.

(** * C98: extents *)
Definition num (a : spec_float) : Prop := exists q, dbl a q.
Lemma num_leb a b : num a -> num b -> SFltb a b = false -> SFleb b a = true.
Proof. intros [p P] [q Q] H. apply dbl_r in P, Q. rewrite (ltb64 _ _ _ _ P Q) in H. rewrite (leb_r _ _ _ _ Q P). destruct (Rlt_bool_spec (Q2R p) (Q2R q)); [discriminate|]. now apply Rle_bool_true. Qed.
Lemma num_lt a b : num a -> num b -> SFltb a b = true -> SFleb a b = true.
Proof. intros [p P] [q Q] H. apply dbl_r in P, Q. rewrite (ltb64 _ _ _ _ P Q) in H. rewrite (leb_r _ _ _ _ P Q). apply Rltb_inv in H. apply Rle_bool_true. lra. Qed.
Lemma num_refl a : num a -> SFleb a a = true.
Proof. intros [p P]. apply dbl_r in P. rewrite (leb_r _ _ _ _ P P). apply Rle_bool_true. lra. Qed.
Lemma fmin_cases a b : num a -> num b -> (fmin a b = a \/ fmin a b = b) /\ SFleb (fmin a b) a = true /\ SFleb (fmin a b) b = true.
Proof. intros A C. unfold fmin. destruct (SFltb b a) eqn:E; (split; [auto|]); split; auto using num_refl, num_lt, num_leb. Qed.
Lemma fmax_cases a b : num a -> num b -> (fmax a b = a \/ fmax a b = b) /\ SFleb a (fmax a b) = true /\ SFleb b (fmax a b) = true.
Proof. intros A C. unfold fmax. destruct (SFltb a b) eqn:E; (split; [auto|]); split; auto using num_refl, num_lt, num_leb. Qed.
Lemma fold_min l : forall m, num m -> Forall num l -> (fold_left fmin l m = m \/ In (fold_left fmin l m) l) /\ SFleb (fold_left fmin l m) m = true /\ Forall (fun c => SFleb (fold_left fmin l m) c = true) l.
Proof.
  induction l as [|c l IH]; intros m M N; [split; [now left|]; split; [now apply num_refl|constructor]|]. inversion N as [|? ? C L]; subst. destruct (fmin_cases m c M C) as (A1 & A2 & A3). assert (MM : num (fmin m c)) by (destruct A1 as [->| ->]; assumption).
  destruct (IH _ MM L) as (B1 & B2 & B3). cbn [fold_left]. split; [|split].
  - destruct B1 as [B1|B1]; [|right; now right]. rewrite B1. destruct A1 as [->| ->]; [now left|right; now left].
  - eapply leb_trans; eassumption.
  - constructor; [eapply leb_trans; eassumption|exact B3].
Qed.
Lemma fold_max l : forall m, num m -> Forall num l -> (fold_left fmax l m = m \/ In (fold_left fmax l m) l) /\ SFleb m (fold_left fmax l m) = true /\ Forall (fun c => SFleb c (fold_left fmax l m) = true) l.
Proof.
  induction l as [|c l IH]; intros m M N; [split; [now left|]; split; [now apply num_refl|constructor]|]. inversion N as [|? ? C L]; subst. destruct (fmax_cases m c M C) as (A1 & A2 & A3). assert (MM : num (fmax m c)) by (destruct A1 as [->| ->]; assumption).
  destruct (IH _ MM L) as (B1 & B2 & B3). cbn [fold_left]. split; [|split].
  - destruct B1 as [B1|B1]; [|right; now right]. rewrite B1. destruct A1 as [->| ->]; [now left|right; now left].
  - eapply leb_trans; eassumption.
  - constructor; [eapply leb_trans; eassumption|exact B3].
Qed.
Lemma coll l : forall e, fold_left add3 l e = Ext
  (V3 (fold_left fmin (map vx l) (vx (mPtMin e))) (fold_left fmin (map vy l) (vy (mPtMin e))) (fold_left fmin (map vz l) (vz (mPtMin e))))
  (V3 (fold_left fmax (map vx l) (vx (mPtMax e))) (fold_left fmax (map vy l) (vy (mPtMax e))) (fold_left fmax (map vz l) (vz (mPtMax e)))).
Proof. induction l as [|p l IH]; intros e; [destruct e as [[] []]; reflexivity|]. cbn [fold_left map]. rewrite IH. reflexivity. Qed.
Lemma coord_num c : coord c -> num c.
Proof. intros (a & A & _). now exists a. Qed.
Definition e90z : Z := Eval vm_compute in match e90 with S754_finite _ m e => Zpos m * 2 ^ e | _ => 0 end.
Definition e89z : Z := Eval vm_compute in match e89 with S754_finite _ m e => Zpos m * 2 ^ e | _ => 0 end.
Lemma e90_q : dbl e90 (inject_Z e90z).
Proof. split; vm_compute; reflexivity. Qed.
Lemma e89_q : dbl e89 (inject_Z e89z).
Proof. split; vm_compute; reflexivity. Qed.
Lemma m90_q : dbl (fneg e90) (inject_Z (- e90z)).
Proof. split; vm_compute; reflexivity. Qed.
Lemma dbl_ltb a b p q : dbl a p -> dbl b q -> (p < q)%Q -> SFltb a b = true /\ SFleb b a = false.
Proof. intros A C L. apply dbl_r in A, C. apply Qlt_Rlt in L. rewrite (ltb64 _ _ _ _ A C), (leb_r _ _ _ _ C A). split; [now apply Rlt_bool_true|now apply Rle_bool_false]. Qed.
Lemma coord_90 c : coord c -> SFltb c e90 = true /\ SFleb e90 c = false /\ SFltb (fneg e90) c = true /\ SFleb c (fneg e90) = false /\ SFltb c e89 = true.
Proof.
  intros (a & A & L & U). assert (E1 : (inject_Z (10 ^ 88) < inject_Z e90z)%Q) by (rewrite <- Zlt_Qlt; vm_compute; reflexivity). assert (E2 : (inject_Z (10 ^ 88) < inject_Z e89z)%Q) by (rewrite <- Zlt_Qlt; vm_compute; reflexivity). assert (E3 : (inject_Z (- e90z) < - inject_Z (10 ^ 88))%Q) by (rewrite <- inject_Z_opp, <- Zlt_Qlt; vm_compute; reflexivity).
  destruct (dbl_ltb _ _ _ _ A e90_q (Qlt_trans _ _ _ U E1)). destruct (dbl_ltb _ _ _ _ m90_q A (Qlt_trans _ _ _ E3 L)). destruct (dbl_ltb _ _ _ _ A e89_q (Qlt_trans _ _ _ U E2)). auto.
Qed.
Lemma e90_n : num e90. Proof. eexists. apply e90_q. Qed.
Lemma m90_n : num (fneg e90). Proof. eexists. apply m90_q. Qed.
Lemma leb_q a b p q : SFleb a b = true -> dbl a p -> dbl b q -> (p <= q)%Q.
Proof. intros H A C. apply dbl_r in A, C. rewrite (leb_r _ _ _ _ A C) in H. apply Rleb_inv in H. now apply Rle_Qle. Qed.
(** one component *)
Lemma low (c : vertex3 -> spec_float) ps : ps <> [] -> Forall (fun p => coord (c p)) ps -> forall m, (m = e90 \/ In m (map c ps)) -> Forall (fun d => SFleb m d = true) (map c ps) -> least c ps m.
Proof.
  intros N F m D L. split.
  - destruct D as [->|D]; [|apply in_map_iff in D as (p & E & I); now exists p]. destruct ps as [|p ps]; [congruence|]. inversion L as [|? ? L1 _]; subst. inversion F as [|? ? F1 _]; subst. destruct (coord_90 _ F1) as (_ & G & _). congruence.
  - intros p a b I A C. rewrite Forall_forall in L. refine (leb_q _ _ _ _ (L (c p) _) A C). now apply in_map.
Qed.
Lemma high (c : vertex3 -> spec_float) ps : ps <> [] -> Forall (fun p => coord (c p)) ps -> forall m, (m = fneg e90 \/ In m (map c ps)) -> Forall (fun d => SFleb d m = true) (map c ps) -> greatest c ps m.
Proof.
  intros N F m D L. split.
  - destruct D as [->|D]; [|apply in_map_iff in D as (p & E & I); now exists p]. destruct ps as [|p ps]; [congruence|]. inversion L as [|? ? L1 _]; subst. inversion F as [|? ? F1 _]; subst. destruct (coord_90 _ F1) as (_ & _ & _ & G & _). congruence.
  - intros p a b I A C. rewrite Forall_forall in L. refine (leb_q _ _ _ _ (L (c p) _) C A). now apply in_map.
Qed.
Lemma nums (c : vertex3 -> spec_float) ps : Forall (fun p => coord (c p)) ps -> Forall num (map c ps).
Proof. intros F. apply Forall_map. eapply Forall_impl; [|exact F]. intros p P. now apply coord_num. Qed.
Lemma fine_c ps : Forall fine ps -> Forall (fun p => coord (vx p)) ps /\ Forall (fun p => coord (vy p)) ps /\ Forall (fun p => coord (vz p)) ps.
Proof. intros F. repeat split; (eapply Forall_impl; [|exact F]); intros p (A & C & D); assumption. Qed.
(** the corners of the extents are the least and greatest coordinates of the points added; without points they are not valid *)
Theorem C98_extents : forall ps, Forall fine ps -> ps <> [] -> bounds ps (collect ps) /\ isValid (collect ps) = true.
Proof.
  intros ps F N. apply fine_c in F. destruct F as (Fx & Fy & Fz). unfold collect. rewrite coll. unfold bounds, isValid. cbn [mPtMin mPtMax vx vy vz extents0].
  destruct (fold_min _ e90 e90_n (nums _ _ Fx)) as (X1 & _ & X2). destruct (fold_min _ e90 e90_n (nums _ _ Fy)) as (Y1 & _ & Y2). destruct (fold_min _ e90 e90_n (nums _ _ Fz)) as (Z1 & _ & Z2).
  destruct (fold_max _ _ m90_n (nums _ _ Fx)) as (X3 & _ & X4). destruct (fold_max _ _ m90_n (nums _ _ Fy)) as (Y3 & _ & Y4). destruct (fold_max _ _ m90_n (nums _ _ Fz)) as (Z3 & _ & Z4).
  pose proof (low _ _ N Fx _ X1 X2) as Lx. split; [repeat match goal with |- _ /\ _ => split end; auto using low, high|]. destruct Lx as [(p & I & E) _]. rewrite <- E. rewrite Forall_forall in Fx. destruct (coord_90 _ (Fx _ I)) as (_ & _ & _ & _ & G). exact G.
Qed.
Print Assumptions C98_extents.
Theorem C98_empty : isValid (collect []) = false.
Proof. vm_compute. reflexivity. Qed.
Print Assumptions C98_empty.
(** adding extents is adding their points *)
Lemma min3 (ps qs : list spec_float) : Forall num ps -> Forall num qs -> qs <> [] ->
  let m := fmin (fmin (fold_left fmin ps e90) (fold_left fmin qs e90)) (fold_left fmax qs (fneg e90)) in
  Forall (fun c => SFltb c e90 = true /\ SFltb (fneg e90) c = true) qs ->
  (m = e90 \/ In m (ps ++ qs)) /\ Forall (fun d => SFleb m d = true) (ps ++ qs).
Proof.
  intros P Q N m Sm. destruct (fold_min _ e90 e90_n P) as (P1 & _ & P2). destruct (fold_min _ e90 e90_n Q) as (Q1 & _ & Q2). destruct (fold_max _ _ m90_n Q) as (R1 & R0 & R2).
  assert (NA : num (fold_left fmin ps e90)) by (destruct P1 as [->|P1]; [exact e90_n|rewrite Forall_forall in P; auto]). assert (NB : num (fold_left fmin qs e90)) by (destruct Q1 as [->|Q1]; [exact e90_n|rewrite Forall_forall in Q; auto]). assert (NC : num (fold_left fmax qs (fneg e90))) by (destruct R1 as [->|R1]; [exact m90_n|rewrite Forall_forall in Q; auto]).
  assert (IC : In (fold_left fmax qs (fneg e90)) qs). { destruct R1 as [R1|R1]; [|exact R1]. exfalso. rewrite R1 in R2. destruct qs as [|q qs]; [congruence|]. inversion R2 as [|? ? L _]; subst. inversion Sm as [|? ? [_ L2] _]; subst. inversion Q as [|? ? [v V] _]; subst. apply dbl_r in V. pose proof (proj1 (dbl_r _ _) m90_q) as M. rewrite (leb_r _ _ _ _ V M) in L. rewrite (ltb64 _ _ _ _ M V) in L2. apply Rleb_inv in L. apply Rltb_inv in L2. lra. }
  destruct (fmin_cases _ _ NA NB) as (A1 & A2 & A3). assert (ND : num (fmin (fold_left fmin ps e90) (fold_left fmin qs e90))) by (destruct A1 as [->| ->]; assumption). destruct (fmin_cases _ _ ND NC) as (B1 & B2 & B3). fold m in B1, B2, B3. split.
  - destruct B1 as [->| ->]; [|right; apply in_or_app; now right]. destruct A1 as [->| ->]; [destruct P1 as [->|P1]|destruct Q1 as [->|Q1]]; auto using in_or_app.
  - apply Forall_app. split; eapply Forall_impl; [|exact P2| |exact Q2]; intros d D; (eapply leb_trans; [exact B2|]); [exact (leb_trans _ _ _ A2 D)|exact (leb_trans _ _ _ A3 D)].
Qed.
Lemma max3 (ps qs : list spec_float) : Forall num ps -> Forall num qs -> qs <> [] ->
  let m := fmax (fmax (fold_left fmax ps (fneg e90)) (fold_left fmin qs e90)) (fold_left fmax qs (fneg e90)) in
  Forall (fun c => SFltb c e90 = true /\ SFltb (fneg e90) c = true) qs ->
  (m = fneg e90 \/ In m (ps ++ qs)) /\ Forall (fun d => SFleb d m = true) (ps ++ qs).
Proof.
  intros P Q N m Sm. destruct (fold_max _ _ m90_n P) as (P1 & _ & P2). destruct (fold_min _ e90 e90_n Q) as (Q1 & _ & Q2). destruct (fold_max _ _ m90_n Q) as (R1 & R0 & R2).
  assert (NA : num (fold_left fmax ps (fneg e90))) by (destruct P1 as [->|P1]; [exact m90_n|rewrite Forall_forall in P; auto]). assert (NB : num (fold_left fmin qs e90)) by (destruct Q1 as [->|Q1]; [exact e90_n|rewrite Forall_forall in Q; auto]). assert (NC : num (fold_left fmax qs (fneg e90))) by (destruct R1 as [->|R1]; [exact m90_n|rewrite Forall_forall in Q; auto]).
  assert (IB : In (fold_left fmin qs e90) qs). { destruct Q1 as [R|R]; [|exact R]. exfalso. rewrite R in Q2. destruct qs as [|q qs]; [congruence|]. inversion Q2 as [|? ? L _]; subst. inversion Sm as [|? ? [L2 _] _]; subst. inversion Q as [|? ? [v V] _]; subst. apply dbl_r in V. pose proof (proj1 (dbl_r _ _) e90_q) as M. rewrite (leb_r _ _ _ _ M V) in L. rewrite (ltb64 _ _ _ _ V M) in L2. apply Rleb_inv in L. apply Rltb_inv in L2. lra. }
  destruct (fmax_cases _ _ NA NB) as (A1 & A2 & A3). assert (ND : num (fmax (fold_left fmax ps (fneg e90)) (fold_left fmin qs e90))) by (destruct A1 as [->| ->]; assumption). destruct (fmax_cases _ _ ND NC) as (B1 & B2 & B3). fold m in B1, B2, B3. split.
  - destruct B1 as [->| ->]; [destruct A1 as [->| ->]; [destruct P1 as [->|P1]; auto using in_or_app|auto using in_or_app]|destruct R1 as [->|R1]; auto using in_or_app].
  - apply Forall_app. split; eapply Forall_impl; [|exact P2| |exact R2]; intros d D; [eapply leb_trans; [exact D|]; eapply leb_trans; [exact A2|exact B2]|eapply leb_trans; [exact D|exact B3]].
Qed.
Lemma smalls c ps : Forall (fun p : vertex3 => coord (c p)) ps -> Forall (fun d => SFltb d e90 = true /\ SFltb (fneg e90) d = true) (map c ps).
Proof. intros F. apply Forall_map. eapply Forall_impl; [|exact F]. intros p P. destruct (coord_90 _ P) as (E1 & _ & E2 & _). exact (conj E1 E2). Qed.
Theorem C98_merge : forall ps qs, Forall fine ps -> Forall fine qs -> ps ++ qs <> [] -> bounds (ps ++ qs) (addExt (collect ps) (collect qs)).
Proof.
  intros ps qs F G N. assert (D : qs = [] \/ qs <> []) by (destruct qs; [now left|right; discriminate]). destruct D as [->|Q].
  - rewrite app_nil_r in *. unfold addExt. rewrite C98_empty. now apply C98_extents.
  - unfold addExt. rewrite (proj2 (C98_extents _ G Q)). apply fine_c in F, G. destruct F as (Fx & Fy & Fz), G as (Gx & Gy & Gz). unfold collect. rewrite !coll. unfold bounds, add3. cbv beta iota delta [mPtMin mPtMax vx vy vz extents0].
    assert (QM : forall c : vertex3 -> spec_float, map c qs <> []) by (intros c; destruct qs; [congruence|discriminate]).
    assert (LO : forall c : vertex3 -> spec_float, Forall (fun p => coord (c p)) ps -> Forall (fun p => coord (c p)) qs -> least c (ps ++ qs) (fmin (fmin (fold_left fmin (map c ps) e90) (fold_left fmin (map c qs) e90)) (fold_left fmax (map c qs) (fneg e90)))).
    { intros c P1 P2. destruct (min3 _ _ (nums _ _ P1) (nums _ _ P2) (QM _) (smalls _ _ P2)) as [M1 M2]. rewrite <- map_app in M1, M2. apply low; [exact N|apply Forall_app; auto|exact M1|exact M2]. }
    assert (HI : forall c : vertex3 -> spec_float, Forall (fun p => coord (c p)) ps -> Forall (fun p => coord (c p)) qs -> greatest c (ps ++ qs) (fmax (fmax (fold_left fmax (map c ps) (fneg e90)) (fold_left fmin (map c qs) e90)) (fold_left fmax (map c qs) (fneg e90)))).
    { intros c P1 P2. destruct (max3 _ _ (nums _ _ P1) (nums _ _ P2) (QM _) (smalls _ _ P2)) as [M1 M2]. rewrite <- map_app in M1, M2. apply high; [exact N|apply Forall_app; auto|exact M1|exact M2]. }
    exact (conj (LO _ Fx Gx) (conj (LO _ Fy Gy) (conj (LO _ Fz Gz) (conj (HI _ Fx Gx) (conj (HI _ Fy Gy) (HI _ Fz Gz)))))).
Qed.
Print Assumptions C98_merge.
(** a coordinate that is not a number changes nothing *)
Theorem C98_nan : forall e c, SFltb c S754_nan = false /\ add3 e (V3 S754_nan S754_nan S754_nan) = e.
Proof. intros [[ax ay az] [cx cy cz]] c. split; [now destruct c|]. unfold add3, fmin, fmax. cbn [mPtMin mPtMax vx vy vz]. repeat match goal with |- context [SFltb ?a S754_nan] => replace (SFltb a S754_nan) with false by now destruct a end. cbn. reflexivity. Qed.
Print Assumptions C98_nan.
(** points far to the right were never added *)
Theorem C98_valid_refuted : forall ps, Forall (fun p => exists a, dbl (vx p) a /\ (inject_Z (10 ^ 89) <= a)%Q) ps -> isValid (collect ps) = false.
Proof.
  intros ps F. unfold isValid, collect. rewrite coll. cbn [mPtMin vx extents0]. assert (N : Forall num (map vx ps)) by (apply Forall_map; eapply Forall_impl; [|exact F]; intros p (a & A & _); now exists a). destruct (fold_min _ e90 e90_n N) as ([->|X] & _ & _); [vm_compute; reflexivity|].
  apply in_map_iff in X as (p & <- & I). rewrite Forall_forall in F. destruct (F p I) as (a & A & L). pose proof (proj1 (dbl_r _ _) A) as A'. rewrite (ltb64 _ _ _ _ A' (proj1 (dbl_r _ _) e89_q)). apply Rlt_bool_false. apply Qle_Rle. apply Qle_trans with (2 := L). rewrite <- Zle_Qle. vm_compute. discriminate.
Qed.
Print Assumptions C98_valid_refuted.
(** extents of points of the plane: added to others they make the heights all of -1E90 to 1E90 *)
Lemma coll2 l : forall e, vz (mPtMin (fold_left (fun e p => add2 e (fst p) (snd p)) l e)) = vz (mPtMin e) /\ vz (mPtMax (fold_left (fun e p => add2 e (fst p) (snd p)) l e)) = vz (mPtMax e) /\
  vx (mPtMin (fold_left (fun e p => add2 e (fst p) (snd p)) l e)) = fold_left fmin (map fst l) (vx (mPtMin e)).
Proof. induction l as [|p l IH]; intros e; [auto|]. cbn [fold_left map]. destruct (IH (add2 e (fst p) (snd p))) as (A & C & D). rewrite A, C, D. auto. Qed.
Theorem C98_flat_refuted : forall ps qs, Forall fine ps -> Forall (fun q => coord (fst q)) qs -> qs <> [] ->
  vz (mPtMin (addExt (collect ps) (collect2 qs))) = fneg e90 /\ vz (mPtMax (addExt (collect ps) (collect2 qs))) = e90.
Proof.
  intros ps qs F G N. destruct (coll2 qs extents0) as (A & C & D). fold (collect2 qs) in A, C, D. cbn [mPtMin mPtMax vx vz extents0] in A, C, D.
  assert (V : isValid (collect2 qs) = true). { unfold isValid. rewrite D. assert (NQ : Forall num (map fst qs)) by (apply Forall_map; eapply Forall_impl; [|exact G]; intros p P; now apply coord_num). destruct (fold_min _ e90 e90_n NQ) as (X1 & _ & X2). destruct X1 as [X1|X1].
    - exfalso. rewrite X1 in X2. destruct qs as [|q qs]; [congruence|]. inversion X2 as [|? ? L _]; subst. inversion G as [|? ? C1 _]; subst. destruct (coord_90 _ C1) as (_ & E & _). congruence.
    - apply in_map_iff in X1 as (p & <- & I). rewrite Forall_forall in G. destruct (coord_90 _ (G _ I)) as (_ & _ & _ & _ & E). exact E. }
  unfold addExt. rewrite V. unfold add3. cbn [mPtMin mPtMax vz]. rewrite A, C. apply fine_c in F. destruct F as (_ & _ & Fz). unfold collect. rewrite coll. cbn [mPtMin mPtMax vx vy vz extents0].
  destruct (fold_min _ e90 e90_n (nums _ _ Fz)) as (Z1 & _ & _). destruct (fold_max _ _ m90_n (nums _ _ Fz)) as (Z2 & _ & _).
  assert (L : forall m, (m = e90 \/ m = fneg e90 \/ In m (map vz ps)) -> fmin (fmin m e90) (fneg e90) = fneg e90 /\ fmax (fmax m e90) (fneg e90) = e90).
  { intros m [->|[->|I]]; [vm_compute; auto|vm_compute; auto|]. apply in_map_iff in I as (p & <- & I). rewrite Forall_forall in Fz. destruct (coord_90 _ (Fz _ I)) as (E1 & E2 & E3 & E4 & _). unfold fmin, fmax.
    assert (E5 : SFltb e90 (vz p) = false). { destruct (Fz _ I) as (a & Q & _). pose proof (proj1 (dbl_r _ _) Q) as Q'. pose proof (proj1 (dbl_r _ _) e90_q) as M. rewrite (ltb64 _ _ _ _ Q' M) in E1. rewrite (ltb64 _ _ _ _ M Q'). apply Rltb_inv in E1. apply Rlt_bool_false. lra. }
    rewrite E5, E3, E1. split; [reflexivity|]. replace (SFltb e90 (fneg e90)) with false by (vm_compute; reflexivity). reflexivity. }
  split; [refine (proj1 (L _ _)); destruct Z1 as [Z1|Z1]; [left; exact Z1|right; right; exact Z1]|refine (proj2 (L _ _)); right; exact Z2].
Qed.
Print Assumptions C98_flat_refuted.
Lemma coord_int z : Z.abs z <= 2 ^ 53 -> coord (int64f z).
Proof. intros H. exists (inject_Z z). split; [apply dbl_r; rewrite Q2R_Z; now apply int64_r|]. assert (2 ^ 53 < 10 ^ 88) by (vm_compute; reflexivity). rewrite <- inject_Z_opp, <- !Zlt_Qlt. lia. Qed.
Example C98_example : fine (V3 (int64f 1) (int64f (-2)) (int64f 3)) /\ fine (V3 (int64f 5) (int64f 0) (int64f (-1))) /\
  collect [V3 (int64f 1) (int64f (-2)) (int64f 3); V3 (int64f 5) (int64f 0) (int64f (-1))] = Ext (V3 (int64f 1) (int64f (-2)) (int64f (-1))) (V3 (int64f 5) (int64f 0) (int64f 3)).
Proof. split; [|split; [|vm_compute; reflexivity]]; (split; [|split]); apply coord_int; vm_compute; discriminate. Qed.
