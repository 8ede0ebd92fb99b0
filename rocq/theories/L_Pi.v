(** L_Pi.v -- the number pi: it lies between the double of math.h and the next one; cosines of near angles. *)
From Coq Require Import Reals Lra Psatz ZArith QArith Qreals Machin Lia.
Local Open Scope R_scope.
Fixpoint qp (q : Q) (n : nat) : Q := match n with O => 1%Q | S n => (q * qp q n)%Q end.
Lemma qp_r q n : Q2R (qp q n) = (Q2R q) ^ n.
Proof. induction n as [|n IH]; [unfold Q2R; cbn; lra|]. cbn [qp pow]. now rewrite Q2R_mult, IH. Qed.
Definition odd_ (n : nat) : positive := Pos.of_succ_nat (2 * n).
Definition tq (n : nat) : Q := Qred (qp (-1 # 1) n * (2 * (qp (1 # 3) (2 * n + 1) * (1 # odd_ n)) + qp (1 # 7) (2 * n + 1) * (1 # odd_ n)))%Q.
Fixpoint pis (n : nat) : Q := match n with O => tq O | S m => Qred (pis m + tq n)%Q end.
Lemma odd_r n : Q2R (1 # odd_ n) = / INR (2 * n + 1).
Proof. unfold Q2R. cbn [Qnum Qden]. rewrite Rmult_1_l. f_equal. rewrite INR_IZR_INZ. f_equal. unfold odd_. rewrite Zpos_P_of_succ_nat. lia. Qed.
Lemma tq_r n : Q2R (tq n) = tg_alt PI_2_3_7_tg n.
Proof.
  unfold tq, tg_alt, PI_2_3_7_tg, Ratan_seq. rewrite (Qeq_eqR _ _ (Qred_correct _)). rewrite Q2R_mult, Q2R_plus, !Q2R_mult, !qp_r, !odd_r.
  assert (E : Q2R (-1 # 1) = -1 /\ Q2R 2 = 2 /\ Q2R (1 # 3) = / 3 /\ Q2R (1 # 7) = / 7) by (repeat split; unfold Q2R; cbn; lra). destruct E as (-> & -> & -> & ->). unfold Rdiv. ring.
Qed.
Lemma pisr n : Q2R (pis n) = sum_f_R0 (tg_alt PI_2_3_7_tg) n.
Proof. induction n as [|n IH]; cbn [pis sum_f_R0]; [apply tq_r|]. now rewrite (Qeq_eqR _ _ (Qred_correct _)), Q2R_plus, IH, tq_r. Qed.
Lemma pi_low : IZR 7074237752028440 / 2251799813685248 < PI.
Proof.
  destruct (PI_2_3_7_ineq 9) as [H _]. rewrite <- pisr in H. assert (L : (7074237752028440 # 9007199254740992 < pis (S (2 * 9)))%Q) by (vm_compute; reflexivity). apply Qlt_Rlt in L. unfold Q2R in L at 1. cbn [Qnum Qden] in L. lra.
Qed.
Lemma pi_high : PI < IZR 7074237752028441 / 2251799813685248.
Proof.
  destruct (PI_2_3_7_ineq 9) as [_ H]. rewrite <- pisr in H. assert (L : (pis (2 * 9) < 7074237752028441 # 9007199254740992)%Q) by (vm_compute; reflexivity). apply Qlt_Rlt in L. unfold Q2R in L at 2. cbn [Qnum Qden] in L. lra.
Qed.
Lemma sin_abs x : Rabs (sin x) <= Rabs x.
Proof.
  destruct (Rtotal_order x 0) as [H|[->|H]]; [|rewrite sin_0; lra|].
  - rewrite <- (Rabs_Ropp (sin x)), <- sin_neg, <- (Rabs_Ropp x). pose proof (sin_lt_x (- x) ltac:(lra)). destruct (Rle_lt_dec (- x) 1).
    + pose proof (sin_ge_0 (- x) ltac:(lra) ltac:(pose proof pi_low; lra)). rewrite !Rabs_pos_eq by lra. lra.
    + pose proof (SIN_bound (- x)). rewrite (Rabs_pos_eq (- x)) by lra. apply Rabs_le. lra.
  - pose proof (sin_lt_x x H). destruct (Rle_lt_dec x 1).
    + pose proof (sin_ge_0 x ltac:(lra) ltac:(pose proof pi_low; lra)). rewrite !Rabs_pos_eq by lra. lra.
    + pose proof (SIN_bound x). rewrite (Rabs_pos_eq x) by lra. apply Rabs_le. lra.
Qed.
Lemma cos_near a b : Rabs (cos a - cos b) <= Rabs (a - b).
Proof.
  rewrite form2. rewrite !Rabs_mult. pose proof (sin_abs ((a - b) / 2)) as H. pose proof (SIN_bound ((a + b) / 2)) as S. assert (S' : Rabs (sin ((a + b) / 2)) <= 1) by (apply Rabs_le; lra).
  replace (Rabs (-2)) with 2 by (rewrite Rabs_left; lra). replace (Rabs ((a - b) / 2)) with (Rabs (a - b) / 2) in H by (unfold Rdiv; rewrite Rabs_mult, (Rabs_pos_eq (/ 2)) by lra; reflexivity).
  pose proof (Rabs_pos (sin ((a - b) / 2))). pose proof (Rabs_pos (sin ((a + b) / 2))). pose proof (Rabs_pos (a - b)). nra.
Qed.
