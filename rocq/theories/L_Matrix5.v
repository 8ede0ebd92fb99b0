(** L_Matrix5.v -- transformations, norms, vectors. *)
From Coq Require Import Reals Lra ZArith QArith Qabs Qpower Qreals.
From Flocq Require Import Core BinarySingleNaN.
From Coq Require Import SpecFloat.
From Verif Require Import Base M_Float M_MathF M_Rect M_Matrix L_Float S_Double L_Double L_MathF S_Matrix L_Matrix L_Matrix2 L_Matrix3 L_Matrix4 L_Grid.
Local Open Scope Z_scope.

(** * square root *)
Lemma sqrt_equiv (x : binary_float 53 1024) : SFsqrt 53 1024 (B2SF x) = B2SF (@Bsqrt 53 1024 p53 e1024 mode_NE x).
Proof.
  destruct x as [sx|sx| |sx mx ex Bx]; [reflexivity|now destruct sx|reflexivity|]. destruct sx; [reflexivity|]. cbn [B2SF Bsqrt SFsqrt]. rewrite B2SF_SF2B. set (q := SFsqrt_core_binary _ _ _ _). destruct q as [[m' e'] l']. apply round_aux_equiv.
Qed.
Lemma sqrt_r x a : is64 x a -> (0 <= a)%R -> is64 (SFsqrt 53 1024 x) (r64 (R_sqrt.sqrt a)).
Proof.
  intros (b & <- & F & <-) A. rewrite sqrt_equiv. destruct (@Bsqrt_correct 53 1024 p53 e1024 mode_NE b) as (E & Fi & _). eexists. split; [reflexivity|]. split; [|exact E]. rewrite Fi. destruct b as [s|s| |s m x Bx]; try discriminate F; [reflexivity|]. destruct s; [exfalso|reflexivity].
  cbn [B2R] in A. assert (H : (F2R (Float radix2 (Zneg m) x) < 0)%R) by (apply F2R_lt_0; cbn; lia). cbn [cond_Zopp] in A. change (- Z.pos m) with (Zneg m) in A. lra.
Qed.
(** * the last steps of a transformation *)
Lemma fsum4 g : fsum 4 g = add64 (add64 (add64 (add64 zero (g 0)) (g 1)) (g 2)) (g 3).
Proof. reflexivity. Qed.
Lemma trans_ok A v e : shows A 4 4 e ->
  let row i := add64 (add64 (add64 (add64 zero (mul64 (vx v) (e i 0))) (mul64 (vy v) (e i 1))) (mul64 (vz v) (e i 2))) (mul64 (int64f 1) (e i 3)) in
  trans A v = Val (V3 (row 0) (row 1) (row 2)).
Proof.
  intros H row. unfold trans. rewrite (copy_ptr_ok A 4 4 e H). cbn [bind].
  destruct (mulv_ok A 4 4 e [vx v; vy v; vz v; int64f 1] (fun k => if k =? 0 then vx v else if k =? 1 then vy v else if k =? 2 then vz v else int64f 1) H) as (l & E & L & G); [reflexivity| |].
  - intros k Hk. cases k Hk; reflexivity.
  - rewrite E. cbn [bind]. rewrite (rd_ok l 0 _ (G 0 ltac:(lia))), (rd_ok l 1 _ (G 1 ltac:(lia))), (rd_ok l 2 _ (G 2 ltac:(lia))). cbn [bind]. rewrite !fsum4. reflexivity.
Qed.
Lemma zeros16 : shows (Mat 4 4 (repeat zero 16)) 4 4 (fun _ _ => zero).
Proof. apply (shows_ext _ _ _ _ _ (shows_list 4 (repeat zero 16) ltac:(lia) eq_refl)). intros. apply nth_repeat. Qed.
Lemma init4_ok A : zlen (md A) = mm A * mn A -> exists A', init4 A = Val A' /\ shows A' 4 4 (fun _ _ => zero).
Proof.
  intros L. unfold init4. destruct (Z.eqb_spec (mm A) 4) as [E1|]; cbn [andb].
  - destruct (Z.eqb_spec (mn A) 4) as [E2|].
    + destruct (shows_some A) as (e & H); try lia. rewrite E1, E2 in H. exact (zeros_ok A 4 4 e H).
    + eexists. split; [reflexivity|]. apply zeros16.
  - eexists. split; [reflexivity|]. apply zeros16.
Qed.
Definition upds (e : Z -> Z -> spec_float) (l : list (Z * Z * spec_float)) : Z -> Z -> spec_float := fold_left (fun e a => upd e (fst (fst a)) (snd (fst a)) (snd a)) l e.
Lemma sets_ok r c : forall l A e, shows A r c e -> Forall (fun a => 0 <= fst (fst a) < r /\ 0 <= snd (fst a) < c) l -> exists A', sets A l = Val A' /\ shows A' r c (upds e l).
Proof.
  induction l as [|[[i j] v] l IH]; intros A e H F; [exists A; split; [reflexivity|exact H]|]. inversion_clear F as [|? ? [Hi Hj] F']. cbn [fst snd] in *. cbn [sets]. destruct (set_ok A r c e i j v H Hi Hj) as (A1 & -> & S1). cbn [bind]. exact (IH A1 _ S1 F').
Qed.
Ltac in4 := repeat first [apply Forall_nil | apply Forall_cons; [cbn [fst snd]; lia|]].
Ltac mat_init A V := let A1 := fresh "A1" in let E := fresh "E" in let S := fresh "S" in destruct (init4_ok A V) as (A1 & E & S); rewrite E; cbn [bind].
Ltac ent := cbv [upds fold_left upd fst snd Z.eqb Pos.eqb andb].
Lemma mul_one x a : is64 x a -> is64 (mul64 x (int64f 1)) a /\ is64 (mul64 (int64f 1) x) a.
Proof.
  intros X. pose proof (fmt64 x a X) as F. pose proof (is64_max x a X) as M. split.
  - pose proof (mul_r 53 1024 p53 e1024 x (int64f 1) a 1 X one_r) as H. rewrite Rmult_1_r in H. fold r64 in H. rewrite (r64_fmt a F) in H. exact (H M).
  - pose proof (mul_r 53 1024 p53 e1024 (int64f 1) x 1 a one_r X) as H. rewrite Rmult_1_l in H. fold r64 in H. rewrite (r64_fmt a F) in H. exact (H M).
Qed.
Lemma zr : is64 zero 0.
Proof. exists (B754_zero false). repeat split. Qed.
Lemma mul_nil x a : is64 x a -> is64 (mul64 x zero) 0 /\ is64 (mul64 zero x) 0.
Proof.
  intros X. pose proof (bpow_gt_0 radix2 1024) as P. split.
  - pose proof (mul_r 53 1024 p53 e1024 x zero a 0 X zr) as H. rewrite Rmult_0_r in H. fold r64 in H. rewrite r64_0, Rabs_R0 in H. exact (H P).
  - pose proof (mul_r 53 1024 p53 e1024 zero x 0 a zr X) as H. rewrite Rmult_0_l in H. fold r64 in H. rewrite r64_0, Rabs_R0 in H. exact (H P).
Qed.
Lemma add_nil x y a : is64 x a -> is64 y 0 -> is64 (add64 x y) a /\ is64 (add64 y x) a.
Proof.
  intros X Y. pose proof (fmt64 x a X) as F. pose proof (is64_max x a X) as M. split.
  - pose proof (add_r 53 1024 p53 e1024 x y a 0 X Y) as H. rewrite Rplus_0_r in H. fold r64 in H. rewrite (r64_fmt a F) in H. exact (H M).
  - pose proof (add_r 53 1024 p53 e1024 y x 0 a Y X) as H. rewrite Rplus_0_l in H. fold r64 in H. rewrite (r64_fmt a F) in H. exact (H M).
Qed.
Lemma no_inf s q : ~ dbl (S754_infinity s) q.
Proof. intros [_ H]. exact H. Qed.
Lemma add_case x y a b : is64 x a -> is64 y b -> is64 (add64 x y) (r64 (a + b)) \/ (bpow radix2 1024 <= Rabs (r64 (a + b)))%R /\ exists s, add64 x y = S754_infinity s.
Proof.
  intros X Y. destruct (Rlt_or_le (Rabs (r64 (a + b))) (bpow radix2 1024)) as [L|L]; [left; now apply (add_r 53 1024 p53 e1024)|right]. split; [exact L|].
  destruct X as (bx & <- & Fx & <-). destruct Y as (by_ & <- & Fy & <-). unfold add64. rewrite (add_equiv 53 1024 p53 e1024). pose proof (@Bplus_correct 53 1024 p53 e1024 mode_NE bx by_ Fx Fy) as H. cbn [round_mode] in H. rewrite Rlt_bool_false in H by exact L. destruct H as [E S]. rewrite E. eexists. reflexivity.
Qed.
Lemma mul_case x y a b : is64 x a -> is64 y b -> is64 (mul64 x y) (r64 (a * b)) \/ (bpow radix2 1024 <= Rabs (r64 (a * b)))%R /\ exists s, mul64 x y = S754_infinity s.
Proof.
  intros X Y. destruct (Rlt_or_le (Rabs (r64 (a * b))) (bpow radix2 1024)) as [L|L]; [left; now apply (mul_r 53 1024 p53 e1024)|right]. split; [exact L|].
  destruct X as (bx & <- & Fx & <-). destruct Y as (by_ & <- & Fy & <-). unfold mul64. rewrite (mul_equiv 53 1024 p53 e1024). pose proof (@Bmult_correct 53 1024 p53 e1024 mode_NE bx by_) as H. cbn [round_mode] in H. rewrite Rlt_bool_false in H by exact L. rewrite H. eexists. reflexivity.
Qed.
Lemma same_r x y a : is64 x a -> is64 y a -> same_number x y.
Proof. intros X Y q. rewrite !dbl_r. split; intros H. - now rewrite (is_r_inj 53 1024 _ _ _ H X). - now rewrite (is_r_inj 53 1024 _ _ _ H Y). Qed.
Lemma add_same x y x' y' a b : is64 x a -> is64 x' a -> is64 y b -> is64 y' b -> same_number (add64 x y) (add64 x' y').
Proof.
  intros X X' Y Y'. destruct (add_case x y a b X Y) as [H|[L (s & E)]]; destruct (add_case x' y' a b X' Y') as [H'|[L' (s' & E')]].
  - exact (same_r _ _ _ H H').
  - apply is64_max in H. exfalso. lra.
  - apply is64_max in H'. exfalso. lra.
  - rewrite E, E'. intros q. split; intros Q; now apply no_inf in Q.
Qed.
Lemma nil_zero x a : is64 x a -> exists s, mul64 x zero = S754_zero s.
Proof. intros (b & <- & F & _). destruct b as [s|s| |s m e B]; try discriminate F; cbn; eauto. Qed.
Lemma inf_zero s t : add64 (S754_infinity s) (S754_zero t) = S754_infinity s.
Proof. reflexivity. Qed.
Lemma dbl_64 x q : dbl x q -> is64 x (Q2R q).
Proof. apply dbl_r. Qed.
Lemma move_row x y z d qx qy qz qd : dbl x qx -> dbl y qy -> dbl z qz -> dbl d qd ->
  same_number (add64 (add64 (add64 (add64 zero (mul64 x (int64f 1))) (mul64 y zero)) (mul64 z zero)) (mul64 (int64f 1) d)) (add64 x d) /\
  same_number (add64 (add64 (add64 (add64 zero (mul64 y zero)) (mul64 x (int64f 1))) (mul64 z zero)) (mul64 (int64f 1) d)) (add64 x d) /\
  same_number (add64 (add64 (add64 (add64 zero (mul64 y zero)) (mul64 z zero)) (mul64 x (int64f 1))) (mul64 (int64f 1) d)) (add64 x d).
Proof.
  intros X Y Z D. apply dbl_64 in X, Y, Z, D. pose proof (proj1 (mul_one _ _ X)) as X1. pose proof (proj1 (mul_nil _ _ Y)) as Y1. pose proof (proj1 (mul_nil _ _ Z)) as Z1. pose proof (proj2 (mul_one _ _ D)) as D1.
  split; [|split]; (eapply add_same; [| exact X | exact D1 | exact D]).
  - exact (proj1 (add_nil _ _ _ (proj1 (add_nil _ _ _ (proj2 (add_nil _ _ _ X1 zr)) Y1)) Z1)).
  - exact (proj1 (add_nil _ _ _ (proj2 (add_nil _ _ _ X1 (proj2 (add_nil _ _ _ Y1 zr)))) Z1)).
  - exact (proj2 (add_nil _ _ _ X1 (proj1 (add_nil _ _ _ (proj2 (add_nil _ _ _ Y1 zr)) Z1)))).
Qed.
Lemma scale_row x y z f qx qy qz qf : dbl x qx -> dbl y qy -> dbl z qz -> dbl f qf ->
  same_number (add64 (add64 (add64 (add64 zero (mul64 x f)) (mul64 y zero)) (mul64 z zero)) (mul64 (int64f 1) zero)) (mul64 x f) /\
  same_number (add64 (add64 (add64 (add64 zero (mul64 y zero)) (mul64 x f)) (mul64 z zero)) (mul64 (int64f 1) zero)) (mul64 x f) /\
  same_number (add64 (add64 (add64 (add64 zero (mul64 y zero)) (mul64 z zero)) (mul64 x f)) (mul64 (int64f 1) zero)) (mul64 x f).
Proof.
  intros X Y Z F. apply dbl_64 in X, Y, Z, F. pose proof (proj1 (mul_nil _ _ Y)) as Y1. pose proof (proj1 (mul_nil _ _ Z)) as Z1. pose proof (proj1 (mul_nil _ _ one_r)) as O1.
  destruct (nil_zero y _ Y) as (s1 & E1). destruct (nil_zero z _ Z) as (s2 & E2). destruct (nil_zero (int64f 1) _ one_r) as (s3 & E3).
  destruct (mul_case x f _ _ X F) as [H|[_ (s & E)]].
  - split; [|split]; (eapply same_r; [| exact H]).
    + exact (proj1 (add_nil _ _ _ (proj1 (add_nil _ _ _ (proj1 (add_nil _ _ _ (proj2 (add_nil _ _ _ H zr)) Y1)) Z1)) O1)).
    + exact (proj1 (add_nil _ _ _ (proj1 (add_nil _ _ _ (proj2 (add_nil _ _ _ H (proj2 (add_nil _ _ _ Y1 zr)))) Z1)) O1)).
    + exact (proj1 (add_nil _ _ _ (proj2 (add_nil _ _ _ H (proj1 (add_nil _ _ _ (proj2 (add_nil _ _ _ Y1 zr)) Z1)))) O1)).
  - rewrite E1, E2, E3, E. destruct s1, s2, s3, s; (split; [|split]); intros q; split; intros Q; exact Q.
Qed.
Lemma moving_ok A d : zlen (md A) = mm A * mn A -> exists M e, initMoving A d = Val M /\ shows M 4 4 e /\
  (e 0 0 = int64f 1 /\ e 0 1 = zero /\ e 0 2 = zero /\ e 0 3 = vx d) /\ (e 1 0 = zero /\ e 1 1 = int64f 1 /\ e 1 2 = zero /\ e 1 3 = vy d) /\ (e 2 0 = zero /\ e 2 1 = zero /\ e 2 2 = int64f 1 /\ e 2 3 = vz d) /\ (e 3 0 = zero /\ e 3 1 = zero /\ e 3 2 = zero /\ e 3 3 = int64f 1).
Proof.
  intros V. unfold initMoving. mat_init A V. destruct (diag_ok _ 4 4 _ (int64f 1) S) as (A2 & -> & S2). cbn [bind]. destruct (sets_ok 4 4 [(0, 3, vx d); (1, 3, vy d); (2, 3, vz d)] A2 _ S2 ltac:(in4)) as (A3 & -> & S3). do 2 eexists. split; [reflexivity|]. split; [exact S3|]. repeat split.
Qed.
Lemma scaling_ok A f : zlen (md A) = mm A * mn A -> exists M e, initScaling A f = Val M /\ shows M 4 4 e /\
  (e 0 0 = vx f /\ e 0 1 = zero /\ e 0 2 = zero /\ e 0 3 = zero) /\ (e 1 0 = zero /\ e 1 1 = vy f /\ e 1 2 = zero /\ e 1 3 = zero) /\ (e 2 0 = zero /\ e 2 1 = zero /\ e 2 2 = vz f /\ e 2 3 = zero) /\ (e 3 0 = zero /\ e 3 1 = zero /\ e 3 2 = zero /\ e 3 3 = int64f 1).
Proof.
  intros V. unfold initScaling. mat_init A V. destruct (sets_ok 4 4 [(0, 0, vx f); (1, 1, vy f); (2, 2, vz f); (3, 3, int64f 1)] A1 _ S ltac:(in4)) as (A3 & -> & S3). do 2 eexists. split; [reflexivity|]. split; [exact S3|]. repeat split.
Qed.
Lemma scalingAt_ok A p f : zlen (md A) = mm A * mn A -> exists M e, initScalingAt A p f = Val M /\ shows M 4 4 e /\ let off x := sub64 x (mul64 f x) in
  (e 0 0 = f /\ e 0 1 = zero /\ e 0 2 = zero /\ e 0 3 = off (vx p)) /\ (e 1 0 = zero /\ e 1 1 = f /\ e 1 2 = zero /\ e 1 3 = off (vy p)) /\ (e 2 0 = zero /\ e 2 1 = zero /\ e 2 2 = f /\ e 2 3 = off (vz p)) /\ (e 3 0 = zero /\ e 3 1 = zero /\ e 3 2 = zero /\ e 3 3 = int64f 1).
Proof.
  intros V. unfold initScalingAt. mat_init A V. match goal with |- exists M e, sets _ ?l = _ /\ _ => destruct (sets_ok 4 4 l A1 _ S ltac:(in4)) as (A3 & -> & S3) end. do 2 eexists. split; [reflexivity|]. split; [exact S3|]. repeat split.
Qed.
Lemma mirroring_ok A p n : zlen (md A) = mm A * mn A -> exists M e, initMirroring A p n = Val M /\ shows M 4 4 e /\
  let a := vx n in let b := vy n in let c := vz n in let d := sub64 (sub64 (mul64 (fneg (vx p)) a) (mul64 (vy p) b)) (mul64 (vz p) c) in
  let two := int64f 2 in let one := int64f 1 in let m2 x y := mul64 (mul64 (fneg two) x) y in
  (e 0 0 = sub64 one (mul64 (mul64 two a) a) /\ e 0 1 = m2 b a /\ e 0 2 = m2 a c /\ e 0 3 = m2 a d) /\ (e 1 0 = m2 a b /\ e 1 1 = sub64 one (mul64 (mul64 two b) b) /\ e 1 2 = m2 b c /\ e 1 3 = m2 b d) /\
  (e 2 0 = m2 a c /\ e 2 1 = m2 b c /\ e 2 2 = sub64 one (mul64 (mul64 two c) c) /\ e 2 3 = m2 c d) /\ (e 3 0 = zero /\ e 3 1 = zero /\ e 3 2 = zero /\ e 3 3 = one).
Proof.
  intros V. unfold initMirroring. mat_init A V. match goal with |- exists M e, sets _ ?l = _ /\ _ => destruct (sets_ok 4 4 l A1 _ S ltac:(in4)) as (A3 & -> & S3) end. do 2 eexists. split; [reflexivity|]. split; [exact S3|]. cbv zeta. clear. repeat split.
Qed.
Lemma rotationZ_ok A c s : zlen (md A) = mm A * mn A -> exists M e, initRotationZ A c s = Val M /\ shows M 4 4 e /\
  (e 0 0 = c /\ e 0 1 = fneg s /\ e 0 2 = zero /\ e 0 3 = zero) /\ (e 1 0 = s /\ e 1 1 = c /\ e 1 2 = zero /\ e 1 3 = zero) /\ (e 2 0 = zero /\ e 2 1 = zero /\ e 2 2 = int64f 1 /\ e 2 3 = zero) /\ (e 3 0 = zero /\ e 3 1 = zero /\ e 3 2 = zero /\ e 3 3 = int64f 1).
Proof.
  intros V. unfold initRotationZ. mat_init A V. match goal with |- exists M e, sets _ ?l = _ /\ _ => destruct (sets_ok 4 4 l A1 _ S ltac:(in4)) as (A3 & -> & S3) end. do 2 eexists. split; [reflexivity|]. split; [exact S3|]. repeat split.
Qed.
Lemma rotation_ok A p ax c s : zlen (md A) = mm A * mn A -> exists M e, initRotation A p ax c s = Val M /\ shows M 4 4 e /\
  let x := vx ax in let y := vy ax in let z := vz ax in let k := sub64 (int64f 1) c in let q u v := mul64 (mul64 u v) k in
  let r0 := add64 c (q x x) in let r3 := sub64 (q x y) (mul64 z s) in let r6 := add64 (q x z) (mul64 y s) in
  let r1 := add64 (q y x) (mul64 z s) in let r4 := add64 c (q y y) in let r7 := sub64 (q y z) (mul64 x s) in
  let r2 := sub64 (q z x) (mul64 y s) in let r5 := add64 (q y z) (mul64 x s) in let r8 := add64 c (q z z) in
  let off t a b e := sub64 (sub64 (sub64 t (mul64 (vx p) a)) (mul64 (vy p) b)) (mul64 (vz p) e) in
  (e 0 0 = r0 /\ e 0 1 = r3 /\ e 0 2 = r6 /\ e 0 3 = off (vx p) r0 r3 r6) /\ (e 1 0 = r1 /\ e 1 1 = r4 /\ e 1 2 = r7 /\ e 1 3 = off (vy p) r1 r4 r7) /\
  (e 2 0 = r2 /\ e 2 1 = r5 /\ e 2 2 = r8 /\ e 2 3 = off (vz p) r2 r5 r8) /\ (e 3 0 = zero /\ e 3 1 = zero /\ e 3 2 = zero /\ e 3 3 = int64f 1).
Proof.
  intros V. unfold initRotation. cbv zeta. mat_init A V. match goal with |- exists M e, sets _ ?l = _ /\ _ => destruct (sets_ok 4 4 l A1 _ S ltac:(in4)) as (A3 & -> & S3) end. do 2 eexists. split; [reflexivity|]. split; [exact S3|]. clear. generalize add64, sub64, mul64. intros. repeat split.
Qed.
Lemma identity_ok A : zlen (md A) = mm A * mn A -> exists M, initIdentity A = Val M /\ shows M 4 4 (fun i j => if i =? j then int64f 1 else zero).
Proof. intros V. unfold initIdentity. mat_init A V. exact (diag_ok _ 4 4 _ (int64f 1) S). Qed.
(** * norms *)
Lemma abs_at k z x : at_ k z x -> at_ k (Z.abs z) (SFabs x).
Proof.
  rewrite !at_r. intros (b & <- & F & E). exists (Babs b). split; [now destruct b|]. split; [now rewrite is_finite_Babs|]. rewrite B2R_Babs, E, Rabs_mult, abs_IZR. rewrite (Rabs_pos_eq (bpow _ _)) by apply bpow_ge_0. reflexivity.
Qed.
Lemma fold_max_app l a : fold_right Z.max 0 (l ++ [a]) = Z.max (fold_right Z.max 0 l) (Z.max a 0).
Proof. induction l as [|b l IH]; cbn [fold_right app]; lia. Qed.
Lemma zmax_S n g : 0 <= n -> zmax (n + 1) g = Z.max (zmax n g) (Z.max (g n) 0).
Proof. intros N. unfold zmax. replace (Z.to_nat (n + 1)) with (S (Z.to_nat n)) by lia. rewrite zrange_S, map_app. cbn [map]. rewrite fold_max_app. now replace (Z.of_nat (Z.to_nat n)) with n by lia. Qed.
Lemma max_step k a b x y : at_ k a x -> at_ k b y -> 0 <= a -> 0 <= b -> at_ k (Z.max a (Z.max b 0)) (if SFltb x y then y else x).
Proof.
  intros X Y A B. pose proof X as X'. pose proof Y as Y'. rewrite at_r in X', Y'. rewrite (ltb_grid k x y a b X' Y'). destruct (Z.ltb_spec a b); [replace (Z.max a (Z.max b 0)) with b by lia; exact Y|replace (Z.max a (Z.max b 0)) with a by lia; exact X].
Qed.
Lemma zsum_pos n g : 0 <= n -> (forall k, 0 <= k < n -> 0 <= g k) -> 0 <= zsum n g.
Proof. intros N H. apply (zind (fun m => 0 <= zsum m g) n); [rewrite zsum_0; lia| |lia]. intros m Hm IH. rewrite zsum_S by lia. specialize (H m Hm). lia. Qed.
(** the two norms share their loops *)
Lemma norm_loops k n m F (g : Z -> Z -> out spec_float) (f : Z -> Z -> Z) : 0 <= n -> 0 <= m -> -1000 <= k <= 900 -> 0 <= F -> m * F <= 2 ^ 53 ->
  (forall a b, 0 <= a < n -> 0 <= b < m -> exists x, g a b = Val x /\ at_ k (f a b) x /\ - F <= f a b <= F) ->
  exists r, loop0 n (fun a norm => let* sum := loop0 m (fun b sum => let* v := g a b in Val (add64 sum (SFabs v))) zero in Val (if SFltb norm sum then sum else norm)) zero = Val r /\ at_ k (zmax n (fun a => zsum m (fun b => Z.abs (f a b)))) r.
Proof.
  intros N M K F0 B H. apply (loop0_inv (fun a r => at_ k (zmax a (fun a => zsum m (fun b => Z.abs (f a b)))) r)); [exact N|apply zero_at|]. intros a r Ha R.
  destruct (loop0_inv (fun b s => at_ k (zsum b (fun b => Z.abs (f a b))) s) (fun b sum => let* v := g a b in Val (add64 sum (SFabs v))) m zero M) as (s & E & Sm).
  - apply zero_at.
  - intros b s Hb Hs. destruct (H a b Ha Hb) as (x & -> & X & Bx). cbn [bind]. eexists. split; [reflexivity|]. rewrite zsum_S by lia. apply add_at; [exact Hs|now apply abs_at|exact K|].
    pose proof (zsum_bnd (b + 1) (fun b => Z.abs (f a b)) F ltac:(lia)) as Q. rewrite zsum_S in Q by lia. cbv beta in Q. specialize (Q ltac:(intros q Hq; destruct (H a q Ha ltac:(lia)) as (? & _ & _ & ?); lia)). nia.
  - rewrite E. cbn [bind]. eexists. split; [reflexivity|]. rewrite zmax_S by lia. apply max_step; [exact R|exact Sm| |].
    + unfold zmax. clear. induction (map (fun a0 => zsum m (fun b => Z.abs (f a0 b))) (zrange (Z.to_nat a))); cbn [fold_right]; lia.
    + apply zsum_pos; [exact M|intros; lia].
Qed.
Lemma norm1_ok A r c k f F : holds A r c k f -> within r c f F -> 0 <= F -> r * F <= 2 ^ 53 -> -1000 <= k <= 900 -> exists x, norm1 A = Val x /\ at_ k (zmax c (fun j => zsum r (fun i => Z.abs (f i j)))) x.
Proof.
  intros (e & H & G) W F0 B K. pose proof H as (E1 & E2 & R & C & _). unfold norm1. rewrite E1, E2. apply (norm_loops k c r F (fun col row => get A row col) (fun j i => f i j) C R K F0 B). intros j i Hj Hi. exists (e i j). split; [now apply (shows_get A r c e)|]. split; [now apply G|now apply W].
Qed.
Lemma normInf_ok A r c k f F : holds A r c k f -> within r c f F -> 0 <= F -> c * F <= 2 ^ 53 -> -1000 <= k <= 900 -> exists x, normInf A = Val x /\ at_ k (zmax r (fun i => zsum c (fun j => Z.abs (f i j)))) x.
Proof.
  intros (e & H & G) W F0 B K. pose proof H as (E1 & E2 & R & C & _). unfold normInf. rewrite E1, E2. apply (norm_loops k r c F (fun row col => get A row col) f R C K F0 B). intros i j Hi Hj. exists (e i j). split; [now apply (shows_get A r c e)|]. split; [now apply G|now apply W].
Qed.
Lemma trace_ok A r c e : shows A r c e -> trace A = Val (fsum (Z.min r c) (fun i => e i i)).
Proof.
  intros H. pose proof H as (E1 & E2 & R & C & B & L & _). unfold trace. rewrite E1, E2. destruct (loop0_inv (fun k s => s = fsum k (fun i => e i i)) (fun i sum => let* j := chk64 (i * (r + 1)) in let* v := rd (md A) j in Val (add64 sum v)) (Z.min r c) zero) as (s & E & ->); [lia|reflexivity| |exact E].
  intros k s Hk ->. pose proof (cell r c k k ltac:(lia) ltac:(lia)). rewrite chk_ok by lia. cbn [bind]. replace (k * (r + 1)) with (k + k * r) by ring. rewrite (shows_rd A r c e k k H) by lia. cbn [bind]. eexists. split; [reflexivity|]. now rewrite fsum_S by lia.
Qed.
Lemma count_ok A r c e : shows A r c e -> nonZeroElementCount A = Val (zsum r (fun i => zsum c (fun j => nz (e i j)))).
Proof.
  intros H. pose proof H as (E1 & E2 & R & C & B & L & _). unfold nonZeroElementCount. rewrite E1, E2.
  assert (Bn : forall a, 0 <= a <= r -> 0 <= zsum a (fun i => zsum c (fun j => nz (e i j))) <= a * c).
  { apply zind; [rewrite zsum_0; lia|]. intros m Hm IH. rewrite zsum_S by lia. assert (Q : 0 <= zsum c (fun j => nz (e m j)) <= c). { split; [apply zsum_pos; [exact C|intros; unfold nz; destruct (SFeqb _ _); lia]|]. pose proof (zsum_bnd c (fun j => nz (e m j)) 1 C ltac:(intros; unfold nz; destruct (SFeqb _ _); lia)). lia. } nia. }
  destruct (loop0_inv (fun a n => n = zsum a (fun i => zsum c (fun j => nz (e i j)))) (fun r0 n => loop0 c (fun c0 n => let* v := get A r0 c0 in Val (if SFeqb v zero then n else u32 (n + 1))) n) r 0) as (s & E & ->); [exact R|reflexivity| |exact E].
  intros a n Ha ->. destruct (loop0_inv (fun b n => n = zsum a (fun i => zsum c (fun j => nz (e i j))) + zsum b (fun j => nz (e a j))) (fun c0 n => let* v := get A a c0 in Val (if SFeqb v zero then n else u32 (n + 1))) c (zsum a (fun i => zsum c (fun j => nz (e i j))))) as (s & E & ->); [exact C|rewrite zsum_0; lia| |].
  - intros b n Hb ->. rewrite (shows_get A r c e a b H Ha Hb). cbn [bind]. eexists. split; [reflexivity|]. rewrite zsum_S by lia. cbv beta. change (nz (e a b)) with (if SFeqb (e a b) zero then 0 else 1). destruct (SFeqb (e a b) zero); [lia|].
    unfold u32. specialize (Bn a ltac:(lia)). assert (Q : 0 <= zsum b (fun j => nz (e a j)) <= b). { split; [apply zsum_pos; [lia|intros; unfold nz; destruct (SFeqb _ _); lia]|]. pose proof (zsum_bnd b (fun j => nz (e a j)) 1 ltac:(lia) ltac:(intros; unfold nz; destruct (SFeqb _ _); lia)). lia. } rewrite Z.mod_small; [lia|]. nia.
  - exists (zsum a (fun i => zsum c (fun j => nz (e i j))) + zsum c (fun j => nz (e a j))). split; [exact E|]. now rewrite (zsum_S a) by lia.
Qed.
