(** L_Nurbs5.v -- from the rational numbers to the real ones; reads; parameters outside the knots. *)
From Coq Require Import Reals Lra Psatz QArith Qabs Qreals.
From Flocq Require Import Core.
From Verif Require Import Base M_Float M_MathF M_Rect M_Matrix M_Geometry M_Nurbs S_Double S_Matrix S_Nurbs L_Double L_MathF P_MathF L_Matrix L_Matrix2 L_Matrix4 L_Matrix5 L_Geometry L_Geometry2 L_Nurbs L_Nurbs2 L_Nurbs3 L_Nurbs4.
Local Open Scope Z_scope.

Lemma Q2R_div0 a b : Q2R (a / b) = if Req_EM_T (Q2R b) 0 then 0%R else (Q2R a / Q2R b)%R.
Proof.
  destruct (Req_EM_T (Q2R b) 0) as [E|E].
  - assert (B : b == 0) by (apply eqR_Qeq; rewrite E; unfold Q2R; cbn; lra). assert (D : a / b == 0). { rewrite B. unfold Qdiv. change (/ 0)%Q with 0%Q. ring. } apply Qeq_eqR in D. rewrite D. unfold Q2R. cbn. lra.
  - assert (~ b == 0). { intros H. apply E. apply Qeq_eqR in H. rewrite H. unfold Q2R. cbn. lra. } now apply Q2R_div.
Qed.
Lemma Q2R_lt_dec a b : Qle_bool a b = false <-> (Q2R b < Q2R a)%R.
Proof. split; intros H; [apply Qlt_Rlt, Qnot_le_lt; intros L; apply Qle_bool_iff in L; congruence|]. destruct (Qle_bool a b) eqn:E; [|reflexivity]. apply Qle_bool_iff, Qle_Rle in E. lra. Qed.
Lemma bspline_r u q k : forall i, Q2R (bspline u k i q) = bR (fun i => Q2R (u i)) (Q2R q) k i.
Proof.
  induction k as [|k IH]; intros i.
  - cbn [bspline bR]. destruct (Qle_bool (u i) q) eqn:E1; cbn [andb].
    + apply Qle_bool_iff, Qle_Rle in E1. destruct (Rle_dec _ _); [|lra]. destruct (Qle_bool (u (i + 1)) q) eqn:E2; cbn [negb].
      * apply Qle_bool_iff, Qle_Rle in E2. destruct (Rlt_dec _ _); [lra|]. unfold Q2R. cbn. lra.
      * apply Q2R_lt_dec in E2. destruct (Rlt_dec _ _); [|lra]. unfold Q2R. cbn. lra.
    + apply Q2R_lt_dec in E1. destruct (Rle_dec _ _); [lra|]. unfold Q2R. cbn. lra.
  - cbn [bspline bR]. rewrite Q2R_plus, !Q2R_mult, !IH, !Q2R_div0, !Q2R_minus. unfold al, be. replace (i + 1 + Z.of_nat (S k)) with (i + Z.of_nat (S k) + 1) by lia. reflexivity.
Qed.
Lemma qsum_r n f : Q2R (qsum (Z.of_nat n) f) = rsum n (fun i => Q2R (f i)).
Proof.
  unfold qsum. rewrite Nat2Z.id. induction n as [|n IH]; [unfold Q2R; cbn; lra|]. rewrite zrange_S, map_app. cbn [rsum map]. rewrite <- IH. clear IH. generalize (map f (zrange n)) as l. induction l as [|a l IHl]; cbn [app fold_right]; [rewrite !Q2R_plus; unfold Q2R at 2 3; cbn; lra|]. rewrite !Q2R_plus, IHl. lra.
Qed.
Lemma Q2R_abs q : Q2R (Qabs q) = Rabs (Q2R q).
Proof. apply Qabs_case; intros H; apply Qle_Rle in H; replace (Q2R 0) with 0%R in H by (unfold Q2R; cbn; lra); [now rewrite Rabs_pos_eq|]. rewrite Q2R_opp. now rewrite Rabs_left1. Qed.

(** reads of the knots and weights: defined, or UB *)
Lemma rd_ok {A} (l : list A) i : 0 <= i < zlen l -> exists a, rd l i = Val a.
Proof. intros H. unfold rd, lget. destruct (i <? 0) eqn:E; [lia|]. destruct (nth_error l (Z.to_nat i)) eqn:N; [eauto|]. apply nth_error_None in N. unfold zlen in H. lia. Qed.
Lemma rd_val {A} (l : list A) i a : rd l i = Val a -> 0 <= i < zlen l.
Proof. unfold rd, lget, zlen. destruct (i <? 0) eqn:E; [discriminate|]. destruct (nth_error l (Z.to_nat i)) eqn:N; [|discriminate]. intros _. assert (nth_error l (Z.to_nat i) <> None) by congruence. apply nth_error_Some in H. lia. Qed.
Lemma rd_two {A} (l : list A) i : (exists a, rd l i = Val a) \/ rd l i = UB.
Proof. unfold rd. destruct (lget l i); [left; eauto|now right]. Qed.
Definition two {A} (o : out A) : Prop := (exists a, o = Val a) \/ o = UB.
Lemma two_bind {A B} (o : out A) (f : A -> out B) : two o -> (forall a, two (f a)) -> two (bind o f).
Proof. intros [[a ->]| ->] H; [apply H|now right]. Qed.
Lemma two_val {A} (a : A) : two (Val a). Proof. left. eauto. Qed.
Lemma basis_two c k : forall i t, two (basisN c k i t).
Proof.
  induction k as [|k IH]; intros i t; cbn [basisN].
  - apply two_bind; [apply rd_two|]. intros a. destruct (SFleb a t); [|apply two_val]. apply two_bind; [apply rd_two|]. intros; apply two_val.
  - repeat (apply two_bind; [apply rd_two|intros ?]). apply two_bind; [destruct (isEqual _ _); [apply two_val|apply two_bind; [apply IH|intros; apply two_val]]|]. intros ?. apply two_bind; [destruct (isEqual _ _); [apply two_val|apply two_bind; [apply IH|intros; apply two_val]]|]. intros; apply two_val.
Qed.
Lemma fold_two {A} (f : out A -> Z -> out A) l : (forall o j, two o -> two (f o j)) -> forall o, two o -> two (fold_left f l o).
Proof. intros H. induction l as [|j l IH]; intros o O; cbn [fold_left]; [exact O|]. apply IH, H, O. Qed.
Lemma sum_two c k t : two (sumWN c k t).
Proof. apply fold_two; [|apply two_val]. intros o j O. apply two_bind; [exact O|]. intros b. apply two_bind; [apply rd_two|]. intros w. apply two_bind; [apply basis_two|]. intros; apply two_val. Qed.
Lemma ratio_two c i k t : two (ratio c i k t).
Proof. apply two_bind; [apply rd_two|]. intros w. apply two_bind; [apply basis_two|]. intros x. apply two_bind; [apply sum_two|]. intros; apply two_val. Qed.
Lemma point_two c t : two (pointAt c t).
Proof. apply fold_two; [|apply two_val]. intros o j O. apply two_bind; [exact O|]. intros b. apply two_bind; [apply rd_two|]. intros w. apply two_bind; [apply ratio_two|]. intros; apply two_val. Qed.
Lemma u32_in z : 0 <= z < 4294967296 -> u32 z = z. Proof. intros H. unfold u32. now apply Z.mod_small. Qed.
Lemma basis_ok c k : forall i t, 0 <= i -> i + Z.of_nat k + 1 < zlen (knots c) -> zlen (knots c) <= 2 ^ 32 -> exists x, basisN c k i t = Val x.
Proof.
  induction k as [|k IH]; intros i t I J L; cbn [basisN].
  - destruct (rd_ok (knots c) i ltac:(lia)) as [a ->]. destruct (rd_ok (knots c) (i + 1) ltac:(lia)) as [b E]. cbn [bind]. rewrite u32_in by lia. rewrite E. cbn [bind]. destruct (SFleb a t); eauto.
  - rewrite !u32_in by lia. destruct (rd_ok (knots c) i ltac:(lia)) as [a ->]. destruct (rd_ok (knots c) (i + Z.of_nat (S k)) ltac:(lia)) as [b ->]. destruct (rd_ok (knots c) (i + Z.of_nat (S k) + 1) ltac:(lia)) as [d ->]. destruct (rd_ok (knots c) (i + 1) ltac:(lia)) as [e ->]. cbn [bind].
    destruct (IH i t ltac:(lia) ltac:(lia) L) as [x ->]. destruct (IH (i + 1) t ltac:(lia) ltac:(lia) L) as [y ->]. cbn [bind]. destruct (isEqual (sub64 b a) f0), (isEqual (sub64 d e) f0); cbn [bind]; eauto.
Qed.
Lemma basis_needs c k i t x : (1 <= k)%nat -> 0 <= i -> i + Z.of_nat k + 1 < 2 ^ 32 -> basisN c k i t = Val x -> i + Z.of_nat k + 1 < zlen (knots c).
Proof.
  destruct k as [|k]; [lia|]. intros _ I J. cbn [basisN]. destruct (rd_two (knots c) i) as [[a ->]| ->]; [|discriminate]. cbn [bind]. rewrite !u32_in by lia. destruct (rd_two (knots c) (i + Z.of_nat (S k))) as [[b ->]| ->]; [|discriminate]. cbn [bind]. destruct (rd_two (knots c) (i + Z.of_nat (S k) + 1)) as [[d E]| ->]; [|discriminate]. intros _. now apply rd_val in E.
Qed.
Lemma fold_UB {A} (f : out A -> Z -> out A) l : (forall j, f UB j = UB) -> fold_left f l UB = UB.
Proof. intros H. induction l as [|j l IH]; cbn [fold_left]; [reflexivity|]. now rewrite H. Qed.
(** if the sum has a value, all its terms have *)
Lemma sum_val c k t m : forall x, fold_left (sumf c k t) (zrange m) (Val f0) = Val x -> forall j, 0 <= j < Z.of_nat m -> (exists v, rd (weights c) j = Val v) /\ exists v, basisN c k j t = Val v.
Proof.
  induction m as [|m IH]; intros x; [intros _ j J; lia|]. rewrite zrange_S, fold_left_app. cbn [fold_left]. destruct (fold_left (sumf c k t) (zrange m) (Val f0)) as [y| | |] eqn:E; try discriminate. cbn [sumf bind]. destruct (rd (weights c) (Z.of_nat m)) as [w| | |] eqn:Ew; try discriminate. cbn [bind]. destruct (basisN c k (Z.of_nat m) t) as [v| | |] eqn:B; try discriminate. intros _ j J.
  destruct (Z.eq_dec j (Z.of_nat m)) as [->|]; [rewrite B, Ew; eauto|apply (IH y eq_refl); lia].
Qed.
Lemma point_needs c t P : pointAt c t = Val P -> (1 <= length (ctrl c))%nat -> exists x, sumWN c (Z.to_nat (degree c)) t = Val x.
Proof.
  unfold pointAt. destruct (length (ctrl c)) as [|m] eqn:L; [lia|]. intros H _. change (zrange (S m)) with (0 :: map Z.of_nat (seq 1 m)) in H. cbn [fold_left bind] in H.
  destruct (rd (ctrl c) 0) as [p| | |] eqn:E0; cbn [bind] in H; try (rewrite fold_UB in H by reflexivity; discriminate); try (unfold rd in E0; destruct (lget (ctrl c) 0); discriminate).
  destruct (ratio_two c 0 (Z.to_nat (degree c)) t) as [[r Er]|Er]; rewrite Er in H; cbn [bind] in H; [|rewrite fold_UB in H by reflexivity; discriminate].
  unfold ratio in Er. destruct (rd (weights c) 0); try discriminate. cbn [bind] in Er. destruct (basisN c (Z.to_nat (degree c)) 0 t); try discriminate. cbn [bind] in Er. destruct (sumWN c (Z.to_nat (degree c)) t); try discriminate. eauto.
Qed.
