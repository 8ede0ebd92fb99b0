(** L_Matrix3.v -- the adjugate, rules for determinants. *)
From Coq Require Import Reals Lra ZArith QArith Qabs Qpower Qreals.
From Flocq Require Import Core BinarySingleNaN Relative.
From Coq Require Import SpecFloat.
From Verif Require Import Base M_Float M_MathF M_Rect M_Matrix L_Float S_Double L_Double L_MathF S_Matrix L_Matrix L_Matrix2.
Local Open Scope Z_scope.

(** * the adjugate *)
Ltac cases i H := match type of H with _ <= i < 1 => assert (i = 0) by lia; subst i | _ <= i < 2 => assert (i = 0 \/ i = 1) as [->| ->] by lia | _ <= i < 3 => assert (i = 0 \/ i = 1 \/ i = 2) as [->|[->| ->]] by lia | _ <= i < 4 => assert (i = 0 \/ i = 1 \/ i = 2 \/ i = 3) as [->|[->|[->| ->]]] by lia end.
Lemma adj_r n f i j : 1 <= n <= 4 -> 0 <= i < n -> 0 <= j < n -> zprod n f (zadj (Z.to_nat n) f) i j = zdet (Z.to_nat n) f * ident i j.
Proof.
  intros N Hi Hj. unfold zprod, ident. assert (Cs : n = 1 \/ n = 2 \/ n = 3 \/ n = 4) by lia. destruct Cs as [->|[->|[->| ->]]].
  - change (Z.to_nat 1) with 1%nat. rewrite zsum1, zdet1. unfold zadj. cbn [Nat.sub zdet]. cases i Hi. cases j Hj. idx. cbn [Z.eqb]. ring.
  - change (Z.to_nat 2) with 2%nat. rewrite zsum2, zdet2. unfold zadj. cbn [Nat.sub]. cases i Hi; cases j Hj; rewrite !zdet1; idx; cbn [Z.eqb Pos.eqb]; ring.
  - change (Z.to_nat 3) with 3%nat. rewrite zsum3, zdet3. unfold zadj. cbn [Nat.sub]. cases i Hi; cases j Hj; rewrite !zdet2; idx; cbn [Z.eqb Pos.eqb]; ring.
  - change (Z.to_nat 4) with 4%nat. rewrite zsum4, zdet4. unfold zadj. cbn [Nat.sub]. cases i Hi; cases j Hj; rewrite !zdet3; idx; cbn [Z.eqb Pos.eqb]; ring.
Qed.
Lemma adj_l n f i j : 1 <= n <= 4 -> 0 <= i < n -> 0 <= j < n -> zprod n (zadj (Z.to_nat n) f) f i j = zdet (Z.to_nat n) f * ident i j.
Proof.
  intros N Hi Hj. unfold zprod, ident. assert (Cs : n = 1 \/ n = 2 \/ n = 3 \/ n = 4) by lia. destruct Cs as [->|[->|[->| ->]]].
  - change (Z.to_nat 1) with 1%nat. rewrite zsum1, zdet1. unfold zadj. cbn [Nat.sub zdet]. cases i Hi. cases j Hj. idx. cbn [Z.eqb]. ring.
  - change (Z.to_nat 2) with 2%nat. rewrite zsum2, zdet2. unfold zadj. cbn [Nat.sub]. cases i Hi; cases j Hj; rewrite !zdet1; idx; cbn [Z.eqb Pos.eqb]; ring.
  - change (Z.to_nat 3) with 3%nat. rewrite zsum3, zdet3. unfold zadj. cbn [Nat.sub]. cases i Hi; cases j Hj; rewrite !zdet2; idx; cbn [Z.eqb Pos.eqb]; ring.
  - change (Z.to_nat 4) with 4%nat. rewrite zsum4, zdet4. unfold zadj. cbn [Nat.sub]. cases i Hi; cases j Hj; rewrite !zdet3; idx; cbn [Z.eqb Pos.eqb]; ring.
Qed.
(** rules for determinants *)
Lemma det_transpose n f : 0 <= n <= 4 -> zdet (Z.to_nat n) (fun i j => f j i) = zdet (Z.to_nat n) f.
Proof.
  intros N. assert (Cs : n = 0 \/ n = 1 \/ n = 2 \/ n = 3 \/ n = 4) by lia. destruct Cs as [->|[->|[->|[->| ->]]]].
  - reflexivity.
  - change (Z.to_nat 1) with 1%nat. now rewrite !zdet1.
  - change (Z.to_nat 2) with 2%nat. rewrite !zdet2. ring.
  - change (Z.to_nat 3) with 3%nat. rewrite !zdet3. ring.
  - change (Z.to_nat 4) with 4%nat. rewrite !zdet4. cbv zeta. ring.
Qed.
Lemma det_mult n f g : 0 <= n <= 4 -> zdet (Z.to_nat n) (zprod n f g) = zdet (Z.to_nat n) f * zdet (Z.to_nat n) g.
Proof.
  intros N. assert (Cs : n = 0 \/ n = 1 \/ n = 2 \/ n = 3 \/ n = 4) by lia. unfold zprod. destruct Cs as [->|[->|[->|[->| ->]]]].
  - reflexivity.
  - change (Z.to_nat 1) with 1%nat. now rewrite !zdet1, zsum1.
  - change (Z.to_nat 2) with 2%nat. rewrite !zdet2, !zsum2. ring.
  - change (Z.to_nat 3) with 3%nat. rewrite !zdet3, !zsum3. ring.
  - change (Z.to_nat 4) with 4%nat. rewrite !zdet4, !zsum4. cbv zeta. ring.
Qed.
