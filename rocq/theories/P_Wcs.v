(** P_Wcs.v -- C140: the transformation matrix of an extrusion direction. *)
From Coq Require Import Reals Lra QArith Qabs Qreals.
From Verif Require Import Base M_Float M_MathF M_Rect M_Matrix M_Geometry M_Transform S_Double S_Matrix S_Geometry S_Transform L_Double L_Matrix L_Matrix2 L_Matrix3 L_Matrix5 P_Matrix P_Transform M_Wcs.
Local Open Scope Z_scope.
(** the same double, but for the sign of a zero *)
Definition alike (x y : spec_float) : Prop := x = y \/ exists s t, x = S754_zero s /\ y = S754_zero t.
Definition alike3 (p q : vertex3) : Prop := alike (vx p) (vx q) /\ alike (vy p) (vy q) /\ alike (vz p) (vz q).
Lemma add_alike x y b : alike x y -> alike (add64 x b) (add64 y b).
Proof. intros [->|(s & t & -> & ->)]; [now left|]. destruct b as [u| | |]; [right|now left..]. unfold add64, SFadd. destruct s, t, u; cbn; eauto. Qed.
Lemma add_zero_l s y : alike (add64 (S754_zero s) y) y.
Proof. destruct y as [u| | |]; [right|now left..]. unfold add64, SFadd. destruct s, u; cbn; eauto. Qed.
Lemma add_zero_r s y : alike (add64 y (S754_zero s)) y.
Proof. destruct y as [u| | |]; [right|now left..]. unfold add64, SFadd. destruct s, u; cbn; eauto. Qed.
Lemma alike_trans x y z : alike x y -> alike y z -> alike x z.
Proof. intros [->|(s & t & -> & ->)] [<-|(s' & t' & E & ->)]; try (now left); right; eauto. Qed.
Lemma mul_comm x y : mul64 x y = mul64 y x.
Proof. unfold mul64, SFmul. destruct x as [s|s| |s m e], y as [t|t| |t n f]; try reflexivity; try (now rewrite xorb_comm). rewrite xorb_comm, Pos.mul_comm, Z.add_comm. reflexivity. Qed.
Lemma mul_one_zero : mul64 (int64f 1) zero = zero. Proof. reflexivity. Qed.
Definition list9 (l : list spec_float) : Prop := exists a b c d e f g h i, l = [a; b; c; d; e; f; g; h; i].
Lemma inverse9 l : list9 l -> exists r, inverse (Mat 3 3 l) = Val (Some (Mat 3 3 r)) /\ list9 r.
Proof.
  intros (a & b & c & d & e & f & g & h & i & ->). unfold inverse, det. generalize add64, sub64, mul64, div64, fneg, (int64f 1). intros ad su mu di ne one. eexists. split; [cbn; reflexivity|]. unfold list9. eauto 12.
Qed.
Lemma wcs9 e : exists r, wcsMatrix e = Val (Mat 3 3 r) /\ list9 r.
Proof.
  unfold wcsMatrix. cbv zeta. assert (H : exists l, ocsMatrix e = Mat 3 3 l /\ list9 l). { unfold ocsMatrix. cbv zeta. unfold mat3. eexists. split; [reflexivity|]. unfold list9. eauto 12. }
  destruct H as (l & -> & H). destruct (inverse9 l H) as (r & -> & R). cbn [bind]. eauto.
Qed.
Lemma get9 l (i j : Z) : list9 l -> 0 <= i < 3 -> 0 <= j < 3 -> exists v, get (Mat 3 3 l) i j = Val v /\ nth (Z.to_nat (i + j * 3)) l zero = v.
Proof. intros (a & b & c & d & e & f & g & h & k & ->) Hi Hj. assert (i = 0 \/ i = 1 \/ i = 2) as [->|[->| ->]] by lia; assert (j = 0 \/ j = 1 \/ j = 2) as [->|[->| ->]] by lia; eexists; split; reflexivity. Qed.
(** Making the transformation of any matrix that is sound, for any direction of any doubles, and transforming any vertex: what ocsToWcs answers *)
Theorem C140_trans : forall A e v, zlen (md A) = mm A * mn A -> exists M r q, initWcs A e = Val M /\ trans M v = Val r /\ ocsToWcs v e = Val q /\ alike3 r q.
Proof.
  intros A e v HA. unfold initWcs, ocsToWcs. destruct (wcs9 e) as (l & -> & H9). cbn [bind]. destruct (init4_ok A HA) as (B & -> & HB). cbn [bind]. destruct H9 as (x0 & x1 & x2 & x3 & x4 & x5 & x6 & x7 & x8 & ->).
  cbn [put_all]. repeat match goal with |- context [get (Mat 3 3 ?l) ?i ?j] => change (get (Mat 3 3 l) i j) with (Val (nth (Z.to_nat (i + j * 3)) l zero)) end. cbn [bind nth Z.to_nat Z.add Z.mul Pos.mul Pos.add Pos.to_nat Pos.iter_op Nat.add].
  repeat match goal with HS : shows ?M 4 4 ?e0 |- context [set ?M ?i ?j ?w] => let B1 := fresh "B" in let E1 := fresh "E" in let H1 := fresh "H" in destruct (set_ok M 4 4 e0 i j w HS ltac:(lia) ltac:(lia)) as (B1 & E1 & H1); rewrite E1; cbn [bind]; clear HS E1 end.
  match goal with HS : shows ?M 4 4 _ |- _ => exists M; rename HS into HM; pose proof (trans_ok M v _ HM) as T end. cbv zeta in T. unfold upd in T. cbn [Z.eqb Pos.eqb andb] in T. rewrite mul_one_zero in T.
  eexists _, _. split; [reflexivity|]. split; [exact T|]. split; [cbn; reflexivity|].
  repeat split; cbn [vx vy vz]; (eapply alike_trans; [apply add_zero_r|]); rewrite (mul_comm (vx v)), (mul_comm (vy v)), (mul_comm (vz v)); repeat apply add_alike; apply add_zero_l.
Qed.
Print Assumptions C140_trans.
Lemma alike_dbl x y q : alike x y -> dbl x q -> dbl y q.
Proof. intros [->|(s & t & -> & ->)] H; [exact H|]. destruct H as [_ H]. split; [reflexivity|exact H]. Qed.
(** For a direction of length 1 the transformation brings object coordinates back to the point they are of *)
Theorem C140_roundtrip : forall A e x y z p a b c k, zlen (md A) = mm A * mn A -> direction e x y z -> point p a b c -> -900 <= k <= 900 -> (Qabs a <= q2 k)%Q -> (Qabs b <= q2 k)%Q -> (Qabs c <= q2 k)%Q ->
  exists q M r, wcsToOcs p e = Val q /\ initWcs A e = Val M /\ trans M q = Val r /\ point_near (k - 35) r a b c.
Proof.
  intros A e x y z p a b c k HA D Pt K Ha Hb Hc. destruct (C123_roundtrip _ _ _ _ _ _ _ _ _ D Pt K Ha Hb Hc) as ((q & r & E1 & E2 & r1 & r2 & r3 & (D1 & D2 & D3) & N) & _).
  destruct (C140_trans A e q HA) as (M & r' & q' & F1 & F2 & F3 & (L1 & L2 & L3)). rewrite E2 in F3. injection F3 as <-.
  assert (S : forall x y, alike x y -> alike y x) by (intros ? ? [->|(s & t & -> & ->)]; [now left|right; eauto]).
  exists q, M, r'. repeat (split; [assumption|]). exists r1, r2, r3. split; [|exact N]. split; [|split]; eapply alike_dbl; eauto.
Qed.
Print Assumptions C140_roundtrip.
(** the direction (0, 0, -1) on a 2x2 matrix of zeros, and the vertex (3, -7, 1000): mirrored in x and z *)
Definition m22 : mat := Mat 2 2 (repeat (int64f 0) 4).
Example C140_ex : (let* M := initWcs m22 (Z3 0 0 (-1)) in trans M (Z3 3 (-7) 1000)) = Val (Z3 (-3) (-7) (-1000)) /\ zlen (md m22) = mm m22 * mn m22.
Proof. split; vm_compute; reflexivity. Qed.
(** What the matrix is, place by place: the matrix of the direction in its upper left 3x3 places, 1 in the corner, 0 elsewhere *)
Theorem C140_places : forall A e, zlen (md A) = mm A * mn A -> exists M W g h, wcsMatrix e = Val W /\ shows W 3 3 h /\ initWcs A e = Val M /\ shows M 4 4 g /\
  (forall i j, 0 <= i < 3 -> 0 <= j < 3 -> g i j = h i j) /\ (forall i, 0 <= i < 3 -> g i 3 = zero /\ g 3 i = zero) /\ g 3 3 = int64f 1.
Proof.
  intros A e HA. unfold initWcs. destruct (wcs9 e) as (l & -> & H9). cbn [bind]. destruct (init4_ok A HA) as (B & -> & HB). cbn [bind]. destruct H9 as (x0 & x1 & x2 & x3 & x4 & x5 & x6 & x7 & x8 & ->).
  pose proof (shows_list 3 [x0; x1; x2; x3; x4; x5; x6; x7; x8] ltac:(lia) eq_refl) as HW.
  cbn [put_all]. repeat match goal with |- context [get (Mat 3 3 ?l) ?i ?j] => change (get (Mat 3 3 l) i j) with (Val (nth (Z.to_nat (i + j * 3)) l zero)) end. cbn [bind nth Z.to_nat Z.add Z.mul Pos.mul Pos.add Pos.to_nat Pos.iter_op Nat.add].
  repeat match goal with HS : shows ?M 4 4 ?e0 |- context [set ?M ?i ?j ?w] => let B1 := fresh "B" in let E1 := fresh "E" in let H1 := fresh "H" in destruct (set_ok M 4 4 e0 i j w HS ltac:(lia) ltac:(lia)) as (B1 & E1 & H1); rewrite E1; cbn [bind]; clear HS E1 end.
  match goal with HS : shows ?M 4 4 _ |- _ => exists M; rename HS into HM end. eexists _, _, _. split; [reflexivity|]. split; [exact HW|]. split; [reflexivity|]. split; [exact HM|]. unfold upd. split; [|split].
  - intros i j Hi Hj. assert (i = 0 \/ i = 1 \/ i = 2) as [->|[->| ->]] by lia; assert (j = 0 \/ j = 1 \/ j = 2) as [->|[->| ->]] by lia; reflexivity.
  - intros i Hi. assert (i = 0 \/ i = 1 \/ i = 2) as [->|[->| ->]] by lia; split; reflexivity.
  - reflexivity.
Qed.
Print Assumptions C140_places.
