(** L_Nurbs.v -- B-splines over the real numbers: sign, support, sum. *)
From Coq Require Import Reals Lra Psatz.
From Verif Require Import Base.
Local Open Scope R_scope.

Fixpoint rsum (n : nat) (f : Z -> R) : R := match n with O => 0 | S n' => rsum n' f + f (Z.of_nat n') end.
Lemma rsum_ext n f g : (forall i, (0 <= i < Z.of_nat n)%Z -> f i = g i) -> rsum n f = rsum n g.
Proof. induction n as [|n IH]; intros H; [reflexivity|]. cbn [rsum]. rewrite IH, (H (Z.of_nat n)) by (intros; try apply H; lia). reflexivity. Qed.
Lemma rsum_add n f g : rsum n (fun i => f i + g i) = rsum n f + rsum n g.
Proof. induction n as [|n IH]; cbn [rsum]; lra. Qed.
Lemma rsum_scal n f a : rsum n (fun i => f i * a) = rsum n f * a.
Proof. induction n as [|n IH]; cbn [rsum]; lra. Qed.
Lemma rsum_le n f g : (forall i, (0 <= i < Z.of_nat n)%Z -> f i <= g i) -> rsum n f <= rsum n g.
Proof. induction n as [|n IH]; intros H; cbn [rsum]; [lra|]. pose proof (H (Z.of_nat n) ltac:(lia)). specialize (IH ltac:(intros; apply H; lia)). lra. Qed.
Lemma rsum_pos n f : (forall i, (0 <= i < Z.of_nat n)%Z -> 0 <= f i) -> 0 <= rsum n f.
Proof. intros H. induction n as [|n IH]; cbn [rsum]; [lra|]. pose proof (H (Z.of_nat n) ltac:(lia)). specialize (IH ltac:(intros; apply H; lia)). lra. Qed.
Lemma rsum_shift n f : rsum (S n) f = f 0%Z + rsum n (fun i => f (i + 1)%Z).
Proof. induction n as [|n IH]; [cbn; lra|]. cbn [rsum] in *. rewrite IH. replace (Z.of_nat (S n)) with (Z.of_nat n + 1)%Z by lia. lra. Qed.
Lemma rsum_mono n m f : (n <= m)%nat -> (forall i, (0 <= i < Z.of_nat m)%Z -> 0 <= f i) -> rsum n f <= rsum m f.
Proof. intros L H. induction L as [|m L IH]; [lra|]. cbn [rsum]. pose proof (H (Z.of_nat m) ltac:(lia)). specialize (IH ltac:(intros; apply H; lia)). lra. Qed.

Section B.
Variables (u : Z -> R) (K : Z) (t : R).
Definition al (k : nat) (i : Z) : R := if Req_EM_T (u (i + Z.of_nat k)%Z - u i) 0 then 0 else (t - u i) / (u (i + Z.of_nat k)%Z - u i).
Definition be (k : nat) (i : Z) : R := if Req_EM_T (u (i + Z.of_nat k)%Z - u i) 0 then 0 else (u (i + Z.of_nat k)%Z - t) / (u (i + Z.of_nat k)%Z - u i).
Fixpoint bR (k : nat) (i : Z) : R :=
  match k with
  | O => if Rle_dec (u i) t then if Rlt_dec t (u (i + 1)%Z) then 1 else 0 else 0
  | S k' => al k i * bR k' i + be k (i + 1) * bR k' (i + 1)
  end.
Hypothesis mono : forall i, (0 <= i)%Z -> (i + 1 < K)%Z -> u i <= u (i + 1)%Z.
Lemma umono i j : (0 <= i <= j)%Z -> (j < K)%Z -> u i <= u j.
Proof. intros H J. replace j with (i + Z.of_nat (Z.to_nat (j - i)))%Z in * by lia. induction (Z.to_nat (j - i)) as [|n IH]; [rewrite Z.add_0_r; lra|]. specialize (IH ltac:(lia) ltac:(lia)). pose proof (mono (i + Z.of_nat n) ltac:(lia) ltac:(lia)) as M. replace (i + Z.of_nat n + 1)%Z with (i + Z.of_nat (S n))%Z in M by lia. lra. Qed.
Lemma bR_out k : forall i, (0 <= i)%Z -> (i + Z.of_nat k + 1 < K)%Z -> t < u i \/ u (i + Z.of_nat k + 1)%Z <= t -> bR k i = 0.
Proof.
  induction k as [|k IH]; intros i I J H; cbn [bR].
  - replace (i + Z.of_nat 0 + 1)%Z with (i + 1)%Z in H by lia. destruct (Rle_dec (u i) t); [|reflexivity]. destruct (Rlt_dec t (u (i + 1)%Z)); [exfalso; lra|reflexivity].
  - pose proof (umono i (i + 1) ltac:(lia) ltac:(lia)). pose proof (umono (i + Z.of_nat k + 1) (i + Z.of_nat (S k) + 1) ltac:(lia) ltac:(lia)).
    rewrite (IH i ltac:(lia) ltac:(lia)) by lra. rewrite (IH (i + 1)%Z ltac:(lia) ltac:(lia)); [lra|]. replace (i + 1 + Z.of_nat k + 1)%Z with (i + Z.of_nat (S k) + 1)%Z by lia. lra.
Qed.
Lemma al_01 k i : (0 <= i)%Z -> (i + Z.of_nat k < K)%Z -> u i <= t <= u (i + Z.of_nat k)%Z -> 0 <= al k i <= 1 /\ 0 <= be k i <= 1.
Proof.
  intros I J H. unfold al, be. destruct (Req_EM_T _ 0) as [E|E]; [lra|]. assert (0 < u (i + Z.of_nat k)%Z - u i) by lra. pose proof (Rinv_0_lt_compat _ H0). unfold Rdiv.
  assert ((u (i + Z.of_nat k)%Z - u i) * / (u (i + Z.of_nat k)%Z - u i) = 1) by (field; lra). split; split; nra.
Qed.
Lemma al_be k i : u i < u (i + Z.of_nat k)%Z -> al k i + be k i = 1.
Proof. intros H. unfold al, be. destruct (Req_EM_T _ 0) as [E|E]; [lra|]. field. lra. Qed.
(** the support *)
Lemma bR_in k i : (0 <= i)%Z -> (i + Z.of_nat k + 1 < K)%Z -> bR k i <> 0 -> u i <= t < u (i + Z.of_nat k + 1)%Z.
Proof. intros I J H. destruct (Rle_lt_dec (u i) t) as [A|A]; [destruct (Rle_lt_dec (u (i + Z.of_nat k + 1)%Z) t) as [B|B]; [|lra]|]; exfalso; apply H, bR_out; auto. Qed.
Lemma bR_bnd k : forall i, (0 <= i)%Z -> (i + Z.of_nat k + 1 < K)%Z -> 0 <= bR k i <= 2 ^ k.
Proof.
  induction k as [|k IH]; intros i I J.
  - cbn. destruct (Rle_dec _ _); [destruct (Rlt_dec _ _)|]; lra.
  - cbn [bR]. assert (T1 : 0 <= al (S k) i * bR k i <= 2 ^ k).
    { pose proof (IH i ltac:(lia) ltac:(lia)) as B. destruct (Req_dec (bR k i) 0) as [->|N]; [rewrite Rmult_0_r; lra|]. apply bR_in in N; try lia. replace (i + Z.of_nat k + 1)%Z with (i + Z.of_nat (S k))%Z in N by lia. pose proof (al_01 (S k) i ltac:(lia) ltac:(lia) ltac:(lra)). nra. }
    assert (T2 : 0 <= be (S k) (i + 1) * bR k (i + 1) <= 2 ^ k).
    { pose proof (IH (i + 1)%Z ltac:(lia) ltac:(lia)) as B. destruct (Req_dec (bR k (i + 1)) 0) as [->|N]; [rewrite Rmult_0_r; lra|]. apply bR_in in N; try lia. replace (i + 1 + Z.of_nat k + 1)%Z with (i + 1 + Z.of_nat (S k))%Z in N by lia. pose proof (al_01 (S k) (i + 1) ltac:(lia) ltac:(lia) ltac:(lra)). nra. }
    cbn [pow]. lra.
Qed.
(** the functions of one degree add up to 1 *)
Lemma bR_sum k j : (Z.of_nat k <= j)%Z -> (j + Z.of_nat k + 1 < K)%Z -> u j <= t < u (j + 1)%Z -> rsum (Z.to_nat (K - Z.of_nat k - 1)) (bR k) = 1.
Proof.
  induction k as [|k IH]; intros J1 J2 H.
  - rewrite (rsum_ext _ _ (fun i => if Z.eq_dec i j then 1 else 0)).
    + assert (G : forall n, rsum n (fun i => if Z.eq_dec i j then 1 else 0) = if Z_lt_dec j (Z.of_nat n) then 1 else 0).
      { induction n as [|n IHn]; cbn [rsum]; [destruct (Z_lt_dec j _); [lia|reflexivity]|]. rewrite IHn. destruct (Z_lt_dec j (Z.of_nat n)), (Z.eq_dec (Z.of_nat n) j), (Z_lt_dec j (Z.of_nat (S n))); try lia; lra. }
      rewrite G. destruct (Z_lt_dec j _); [reflexivity|lia].
    + intros i I. destruct (Z.eq_dec i j) as [->|N].
      * cbn. destruct (Rle_dec _ _); [destruct (Rlt_dec _ _)|]; lra.
      * apply bR_out; try lia. replace (i + Z.of_nat 0 + 1)%Z with (i + 1)%Z by lia. destruct (Z_lt_dec i j); [right; pose proof (umono (i + 1) j ltac:(lia) ltac:(lia)); lra|left; pose proof (umono (j + 1) i ltac:(lia) ltac:(lia)); lra].
  - specialize (IH ltac:(lia) ltac:(lia) H). set (L := Z.to_nat (K - Z.of_nat (S k) - 1)). replace (Z.to_nat (K - Z.of_nat k - 1)) with (S L) in IH by (subst L; lia).
    assert (E : forall i, (0 <= i)%Z -> (i + Z.of_nat k + 1 < K)%Z -> al (S k) i * bR k i + be (S k) i * bR k i = bR k i).
    { intros i I I2. destruct (Req_dec (bR k i) 0) as [->|N]; [lra|]. apply bR_in in N; try lia. rewrite <- Rmult_plus_distr_r, al_be; [lra|]. replace (i + Z.of_nat (S k))%Z with (i + Z.of_nat k + 1)%Z by lia. lra. }
    assert (G : forall n, (Z.of_nat n <= Z.of_nat L)%Z -> rsum n (bR (S k)) = rsum (S n) (bR k) - be (S k) 0 * bR k 0 - al (S k) (Z.of_nat n) * bR k (Z.of_nat n)).
    { induction n as [|n IHn]; intros Ln; cbn [rsum].
      - pose proof (E 0%Z ltac:(lia) ltac:(subst L; lia)). change (Z.of_nat 0) with 0%Z. lra.
      - rewrite IHn by lia. cbn [rsum bR]. pose proof (E (Z.of_nat n + 1)%Z ltac:(lia) ltac:(subst L; lia)) as E1. replace (Z.of_nat (S n)) with (Z.of_nat n + 1)%Z by lia. lra. }
    rewrite (G L ltac:(lia)), IH. rewrite (bR_out k 0), (bR_out k (Z.of_nat L)); try (subst L; lia); [lra| |].
    + left. pose proof (umono (j + 1) (Z.of_nat L) ltac:(subst L; lia) ltac:(subst L; lia)). lra.
    + right. pose proof (umono (0 + Z.of_nat k + 1) j ltac:(lia) ltac:(lia)). lra.
Qed.
Lemma span a b : (0 <= a <= b)%Z -> (b < K)%Z -> u a <= t < u b -> exists j, (a <= j < b)%Z /\ u j <= t < u (j + 1)%Z.
Proof.
  intros A B H. replace b with (a + Z.of_nat (Z.to_nat (b - a)))%Z in * by lia. induction (Z.to_nat (b - a)) as [|n IH]; [rewrite Z.add_0_r in H; lra|].
  destruct (Rlt_dec t (u (a + Z.of_nat n)%Z)) as [C|C].
  - destruct (IH ltac:(lia) ltac:(lia) ltac:(lra)) as (j & J & HJ). exists j. split; [lia|exact HJ].
  - exists (a + Z.of_nat n)%Z. split; [lia|]. replace (a + Z.of_nat n + 1)%Z with (a + Z.of_nat (S n))%Z by lia. lra.
Qed.
End B.
