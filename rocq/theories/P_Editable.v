(** P_Editable.v -- the setMember functions (C121). *)
From Coq Require Import Reals QArith Qabs Qreals.
From Flocq Require Import Core.
From Verif Require Import Base M_Float M_MathF M_Rect M_Matrix M_Geometry M_Xml L_Xml M_Undo M_Editable S_Double S_Matrix L_Double L_Decimal P_MathF.
Local Open Scope Z_scope.

Definition spec {A} (um : bool) (old v : A) (r : effect A) : Prop :=
  member r = v /\ failed r = false /\ ((st r = eNotChanged /\ v = old /\ told r = false) \/ (st r = eOK /\ v <> old /\ told r = um)).
Lemma plain_spec {A} (same : A -> A -> bool) (H : forall a b, same a b = true <-> a = b) um old v : spec um old v (set_plain same um old v).
Proof.
  unfold spec, set_plain. destruct (same v old) eqn:E; cbn; [apply H in E; subst; auto 6|]. split; [reflexivity|]. split; [reflexivity|]. right. repeat split. intros C. apply H in C. congruence.
Qed.
(** strings, bools and small integers: the member is the value afterwards; eNotChanged exactly when it was before; every change is told to the undo manager *)
Theorem C121_exact um (s t : list Z) (a b : bool) (m n : Z) : spec um s t (set_string um s t) /\ spec um a b (set_bool um a b) /\ spec um m n (set_uint8 um m n) /\ spec um m n (set_int16 um m n).
Proof. split; [apply plain_spec, same_iff|]. split; [apply plain_spec, Bool.eqb_true_iff|]. split; apply plain_spec, Z.eqb_eq. Qed.
(** integers with a range: a value inside is set, another one outside changes nothing and marks the transaction *)
Theorem C121_range um m v lo hi : (lo <= v <= hi -> spec um m v (set_int64 um m v lo hi)) /\
  (~ lo <= v <= hi -> v <> m -> set_int64 um m v lo hi = E eInvalidInput m false um) /\ (lo <= m <= hi -> lo <= member (set_int64 um m v lo hi) <= hi).
Proof.
  unfold set_int64, spec. rewrite Z.geb_leb. destruct (Z.eqb_spec v m) as [->|N]; cbn.
  - split; [auto 6|]. split; [now intros|auto].
  - destruct (Z.leb_spec lo v), (Z.leb_spec v hi); cbn; (split; [intros; try lia; auto 7|]); (split; [intros; try lia; auto|]); intros; lia.
Qed.
(** a range that excludes the present value is not reported when the value is set again *)
Theorem C121_range_refuted um m lo hi : set_int64 um m m lo hi = E eNotChanged m false false.
Proof. unfold set_int64. now rewrite Z.eqb_refl. Qed.

(** ** doubles *)
Lemma eqb_q x y a b : dbl x a -> dbl y b -> (SFeqb x y = true <-> (a == b)%Q).
Proof.
  intros X Y. apply dbl_r in X. apply dbl_r in Y. rewrite (eqb_r _ _ _ _ X Y). split; [|intros H; apply Qeq_eqR in H; now apply Req_bool_true]. destruct (Req_bool_spec (Q2R a) (Q2R b)) as [H|H]; [|discriminate]. intros _. now apply eqR_Qeq.
Qed.
Lemma nan_iff x : isNaN x = true <-> x = S754_nan.
Proof.
  unfold isNaN. destruct x as [s|s| |s m e]; unfold SFeqb; cbn; try (split; [discriminate|discriminate]); try (destruct s; split; discriminate); [now split|].
  rewrite Z.compare_refl. change (Pos.compare_cont Eq m m) with (m ?= m)%positive. rewrite Pos.compare_refl. destruct s; split; discriminate.
Qed.
Lemma finite_dbl m : double m -> (match m with S754_zero _ | S754_finite _ _ _ => True | _ => False end) -> exists q, dbl m q.
Proof. intros V F. destruct m as [s|s| |s k e]; try contradiction; eexists; (split; [exact V|reflexivity]). Qed.
Lemma dbl_eq m a b : dbl m a -> (a == b)%Q -> dbl m b.
Proof. intros [V M] E. split; [exact V|]. destruct m; try contradiction; now rewrite <- E. Qed.
Lemma dbl_fun m a b : dbl m a -> dbl m b -> (a == b)%Q.
Proof. intros [_ A] [_ B]. destruct m; try contradiction; now rewrite A, B. Qed.
(** a number replaces the old value (numerically: 0.0 and -0.0 are the same), NaN never *)
Theorem C121_double um m v q : double m -> dbl v q -> let r := set_double um m v in dbl (member r) q /\ failed r = false /\
  ((st r = eNotChanged /\ told r = false /\ member r = m /\ dbl m q) \/ (st r = eOK /\ told r = um /\ member r = v /\ ~ dbl m q)).
Proof.
  intros D V. cbv zeta. unfold set_double. assert (N : isNaN v = false) by (apply Bool.not_true_is_false; intros C; apply nan_iff in C; subst; destruct V as [_ []]). rewrite N.
  destruct (SFeqb v m) eqn:Q; cbn [member failed st told].
  - assert (F : exists b, dbl m b). { apply finite_dbl; [exact D|]. destruct m as [s|s| |s k e]; try exact I; destruct V as [_ V], v as [t|t| |t l f]; try contradiction; try discriminate; destruct s, t; discriminate. }
    destruct F as [b M]. apply (eqb_q v m q b V M) in Q. assert (dbl m q) by (apply (dbl_eq m b); [exact M|now symmetry]). auto 7.
  - split; [exact V|]. split; [reflexivity|]. right. repeat split; try reflexivity. intros M. apply Bool.not_true_iff_false in Q. apply Q. now apply (eqb_q v m q q V M).
Qed.
Theorem C121_nan um m : set_double um m S754_nan = E eInvalidInput m false false.
Proof. reflexivity. Qed.
(** so a member that is no NaN never becomes one, whatever is set *)
Theorem C121_never_nan l : forall um m, m <> S754_nan -> fold_left (fun m v => member (set_double um m v)) l m <> S754_nan.
Proof.
  induction l as [|v l IH]; intros um m H; [exact H|]. cbn [fold_left]. apply IH. unfold set_double. destruct (isNaN v) eqn:N; [exact H|]. destruct (SFeqb v m); [exact H|]. cbn. intros C. apply nan_iff in C. congruence.
Qed.

(** three doubles, infinities and NaN included *)
Definition doubles (v : vertex3) : Prop := double (vx v) /\ double (vy v) /\ double (vz v).
(** ** Vertex3: after every call the member is the value up to a millionth in every coordinate, and unchanged when it was before *)
Theorem C121_vertex um m v x y z : doubles m -> point v x y z -> let r := set_vertex3 um m v in exists x' y' z', point (member r) x' y' z' /\ failed r = false /\
  (Qabs (x' - x) < 1 # 1000000)%Q /\ (Qabs (y' - y) < 1 # 1000000)%Q /\ (Qabs (z' - z) < 1 # 1000000)%Q /\
  ((st r = eNotChanged /\ member r = m /\ told r = false) \/ (st r = eOK /\ member r = v /\ told r = um)).
Proof.
  intros (DX & DY & DZ) (X & Y & Z0). cbv zeta. unfold set_vertex3, set_plain. destruct (eq3 v m) eqn:Q; cbn [member failed st told].
  - unfold eq3 in Q. apply andb_prop in Q as [Q Q3]. apply andb_prop in Q as [Q1 Q2].
    assert (F : forall a b q, dbl a q -> double b -> isEqual a b = true -> exists p, dbl b p /\ (Qabs (p - q) < 1 # 1000000)%Q).
    { intros a b q A B H. assert (F : exists p, dbl b p). { apply finite_dbl; [exact B|]. destruct b as [s|s| |s k e]; try exact I; destruct A as [_ A], a as [t|t| |t l f]; try contradiction; try (destruct s, t; vm_compute in H; discriminate); try (destruct t; vm_compute in H; discriminate); try (destruct s; vm_compute in H; discriminate). }
      destruct F as [p P]. exists p. split; [exact P|]. apply (C92_equal a b q p A P) in H. rewrite Qabs_Qminus. exact H. }
    destruct (F _ _ _ X DX Q1) as (x' & X' & LX). destruct (F _ _ _ Y DY Q2) as (y' & Y' & LY). destruct (F _ _ _ Z0 DZ Q3) as (z' & Z' & LZ). exists x', y', z'. split; [now split|]. auto 8.
  - exists x, y, z. split; [now split|]. assert (T : forall a : QArith_base.Q, (Qabs (a - a) < 1 # 1000000)%Q) by (intros a; setoid_replace (a - a)%Q with 0%Q by ring; reflexivity). auto 9.
Qed.
(** but small moves are dropped, and a point that is no number is taken, although a double is not *)
Theorem C121_small_refuted um m v a b c x y z : point m a b c -> point v x y z -> (Qabs (x - a) <= (1 # 1000000) - q2 (-71))%Q -> (Qabs (y - b) <= (1 # 1000000) - q2 (-71))%Q -> (Qabs (z - c) <= (1 # 1000000) - q2 (-71))%Q ->
  set_vertex3 um m v = E eNotChanged m false false.
Proof.
  intros (A & B & C) (X & Y & Z0) H1 H2 H3. unfold set_vertex3, set_plain, eq3. rewrite (proj2 (C92_equal _ _ _ _ X A) H1), (proj2 (C92_equal _ _ _ _ Y B) H2), (proj2 (C92_equal _ _ _ _ Z0 C) H3). reflexivity.
Qed.
Theorem C121_vertex_nan_refuted um m y z : set_vertex3 um m (V3 S754_nan y z) = E eOK (V3 S754_nan y z) um false.
Proof. unfold set_vertex3, set_plain, eq3. replace (isEqual (vx (V3 S754_nan y z)) (vx m)) with false; [reflexivity|]. cbn [vx]. now destruct (vx m) as [s|s| |s k e]; try destruct s. Qed.

(** ** cases that meet the hypotheses *)
Example ex_double : double (int64f 3) /\ dbl (int64f 4) 4 /\ set_double true (int64f 3) (int64f 4) = E eOK (int64f 4) true false /\ set_double true (S754_zero false) (S754_zero true) = E eNotChanged (S754_zero false) false false.
Proof. split; [reflexivity|]. split; [split; reflexivity|]. split; reflexivity. Qed.
Example ex_vertex : st (set_vertex3 true (V3 (int64f 1) (int64f 2) (int64f 3)) (V3 (int64f 1) (int64f 2) (int64f 4))) = eOK. Proof. reflexivity. Qed.
Example ex_small : st (set_vertex3 true (V3 (S754_zero false) (int64f 2) (int64f 3)) (V3 (S754_finite false 4503599627370496 (-75)) (int64f 2) (int64f 3))) = eNotChanged. Proof. reflexivity. Qed.
Example ex_range : set_int64 true 5 11 0 10 = E eInvalidInput 5 false true. Proof. reflexivity. Qed.
Print Assumptions C121_exact.
Print Assumptions C121_range.
Print Assumptions C121_range_refuted.
Print Assumptions C121_double.
Print Assumptions C121_nan.
Print Assumptions C121_never_nan.
Print Assumptions C121_vertex.
Print Assumptions C121_small_refuted.
Print Assumptions C121_vertex_nan_refuted.
