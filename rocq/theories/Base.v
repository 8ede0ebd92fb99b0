(** Base.v -- machine integers, outcomes, bounds-checked buffers.

    Nothing in this file models a particular function of /repo; it gives the
    vocabulary in which the C++ semantics is written down:
    - [out A]: outcome of running a piece of C++ code.  [Val] normal result,
      [Exn] a C++ exception is thrown, [UB] undefined behaviour (out-of-bounds
      access, signed overflow, null dereference ...), [Fuel] the model's loop
      bound was used up (never a normal-looking value).
    - wrap functions for the fixed width integer types of include/core/Types.h.
    - [rd]/[wr]: array access, [UB] outside the allocated block. *)
From Coq Require Export List ZArith Lia Bool.
From Coq Require Export ZifyBool ZifyNat.
Export ListNotations.
Open Scope Z_scope.

(** * Outcomes *)
Inductive out (A : Type) : Type :=
| Val (a : A) | Exn | UB | Fuel.
Arguments Val {A} a. Arguments Exn {A}. Arguments UB {A}. Arguments Fuel {A}.

Definition bind {A B} (m : out A) (f : A -> out B) : out B :=
  match m with Val a => f a | Exn => Exn | UB => UB | Fuel => Fuel end.

Notation "'let*' x := m 'in' k" := (bind m (fun x => k))
  (at level 200, x pattern, m at level 100, k at level 200, right associativity).

Definition omap {A B} (f : A -> B) (m : out A) : out B := bind m (fun a => Val (f a)).

(** * Fixed width integers *)
Definition u8  (z : Z) : Z := z mod 256.
Definition u16 (z : Z) : Z := z mod 65536.
Definition u32 (z : Z) : Z := z mod 4294967296.
Definition u64 (z : Z) : Z := z mod 18446744073709551616.
Definition s8  (z : Z) : Z := (z + 128) mod 256 - 128.
Definition s16 (z : Z) : Z := (z + 32768) mod 65536 - 32768.
Definition s32 (z : Z) : Z := (z + 2147483648) mod 4294967296 - 2147483648.
Definition s64 (z : Z) : Z := (z + 9223372036854775808) mod 18446744073709551616 - 9223372036854775808.

Definition in_s32 (z : Z) : bool := (-2147483648 <=? z) && (z <=? 2147483647).
Definition in_s64 (z : Z) : bool := (-9223372036854775808 <=? z) && (z <=? 9223372036854775807).
Definition in_u8  (z : Z) : bool := (0 <=? z) && (z <? 256).
Definition in_u16 (z : Z) : bool := (0 <=? z) && (z <? 65536).
Definition in_u32 (z : Z) : bool := (0 <=? z) && (z <? 4294967296).
Definition in_u64 (z : Z) : bool := (0 <=? z) && (z <? 18446744073709551616).

(** signed arithmetic: overflow is undefined *)
Definition chk32 (z : Z) : out Z := if in_s32 z then Val z else UB.
Definition chk64 (z : Z) : out Z := if in_s64 z then Val z else UB.

(** * Buffers *)
Definition zlen {A} (l : list A) : Z := Z.of_nat (length l).

Definition lget {A} (l : list A) (i : Z) : option A :=
  if i <? 0 then None else nth_error l (Z.to_nat i).

Fixpoint nset {A} (l : list A) (n : nat) (a : A) : option (list A) :=
  match l, n with
  | [], _ => None
  | _ :: t, O => Some (a :: t)
  | x :: t, S m => match nset t m a with Some t' => Some (x :: t') | None => None end
  end.

Definition lset {A} (l : list A) (i : Z) (a : A) : option (list A) :=
  if i <? 0 then None else nset l (Z.to_nat i) a.

Definition rd {A} (l : list A) (i : Z) : out A :=
  match lget l i with Some a => Val a | None => UB end.
Definition wr {A} (l : list A) (i : Z) (a : A) : out (list A) :=
  match lset l i a with Some l' => Val l' | None => UB end.

(** * Lemmas *)
Lemma zlen_nonneg {A} (l : list A) : 0 <= zlen l.
Proof. unfold zlen; lia. Qed.
Lemma zlen_nil {A} : zlen (@nil A) = 0. Proof. reflexivity. Qed.
Lemma zlen_cons {A} (a : A) l : zlen (a :: l) = 1 + zlen l.
Proof. unfold zlen; cbn [length]; lia. Qed.
Lemma zlen_app {A} (l l' : list A) : zlen (l ++ l') = zlen l + zlen l'.
Proof. unfold zlen; rewrite app_length; lia. Qed.
Lemma zlen_map {A B} (f : A -> B) l : zlen (map f l) = zlen l.
Proof. unfold zlen; rewrite map_length; lia. Qed.
Lemma zlen_rev {A} (l : list A) : zlen (rev l) = zlen l.
Proof. unfold zlen; rewrite rev_length; lia. Qed.
Lemma zlen_repeat {A} (a : A) n : zlen (repeat a n) = Z.of_nat n.
Proof. unfold zlen; rewrite repeat_length; lia. Qed.
Lemma zlen_zero {A} (l : list A) : zlen l = 0 -> l = [].
Proof. destruct l; [reflexivity|rewrite zlen_cons; pose proof (zlen_nonneg l); lia]. Qed.

Lemma nset_spec {A} (l : list A) n a :
  nset l n a = if (n <? length l)%nat then Some (firstn n l ++ a :: skipn (S n) l) else None.
Proof.
  revert n; induction l as [|x l IH]; intros [|n]; cbn [nset length firstn skipn app].
  - reflexivity.
  - reflexivity.
  - reflexivity.
  - rewrite IH.
    destruct (n <? length l)%nat eqn:E; destruct (S n <? S (length l))%nat eqn:E'; try reflexivity;
      exfalso; lia.
Qed.

Lemma lget_app_l {A} (l l' : list A) i : i < zlen l -> lget (l ++ l') i = lget l i.
Proof.
  unfold lget, zlen; intros H. destruct (i <? 0) eqn:E; [reflexivity|].
  apply nth_error_app1; lia.
Qed.
Lemma lget_app_r {A} (l l' : list A) i : zlen l <= i -> lget (l ++ l') i = lget l' (i - zlen l).
Proof.
  unfold lget, zlen; intros H. destruct (i <? 0) eqn:E; [lia|].
  destruct (i - Z.of_nat (length l) <? 0) eqn:E'; [lia|].
  rewrite nth_error_app2 by lia. f_equal; lia.
Qed.
Lemma lget_cons_0 {A} (a : A) l : lget (a :: l) 0 = Some a.
Proof. reflexivity. Qed.
Lemma lget_cons_S {A} (a : A) l i : 0 < i -> lget (a :: l) i = lget l (i - 1).
Proof.
  intros H. change (a :: l) with ([a] ++ l). rewrite lget_app_r; [|rewrite zlen_cons, zlen_nil; lia].
  reflexivity.
Qed.
Lemma lget_some_range {A} (l : list A) i a : lget l i = Some a -> 0 <= i < zlen l.
Proof.
  unfold lget, zlen; destruct (i <? 0) eqn:E; [discriminate|]. intros H.
  assert (Z.to_nat i < length l)%nat by (apply nth_error_Some; congruence). lia.
Qed.
Lemma lget_none_range {A} (l : list A) i : lget l i = None -> i < 0 \/ zlen l <= i.
Proof.
  unfold lget, zlen; destruct (i <? 0) eqn:E; [lia|]. intros H.
  apply nth_error_None in H. lia.
Qed.
Lemma lget_range {A} (l : list A) i : 0 <= i < zlen l -> exists a, lget l i = Some a.
Proof.
  intros H. destruct (lget l i) eqn:E; [eauto|]. apply lget_none_range in E; lia.
Qed.
Lemma lget_out {A} (l : list A) i : i < 0 \/ zlen l <= i -> lget l i = None.
Proof.
  intros H. destruct (lget l i) eqn:E; [|reflexivity]. apply lget_some_range in E; lia.
Qed.
Lemma lget_mid {A} (p : list A) x s : lget (p ++ x :: s) (zlen p) = Some x.
Proof. rewrite lget_app_r by lia. replace (zlen p - zlen p) with 0 by lia. reflexivity. Qed.
Lemma lget_map {A B} (f : A -> B) l i : lget (map f l) i = option_map f (lget l i).
Proof. unfold lget. destruct (i <? 0); [reflexivity|]. apply nth_error_map. Qed.
Lemma lget_In {A} (l : list A) i a : lget l i = Some a -> In a l.
Proof. unfold lget. destruct (i <? 0); [discriminate|]. apply nth_error_In. Qed.
Lemma In_lget {A} (l : list A) a : In a l -> exists i, 0 <= i < zlen l /\ lget l i = Some a.
Proof.
  intros H. apply In_nth_error in H as [n Hn]. exists (Z.of_nat n).
  assert (H : lget l (Z.of_nat n) = Some a).
  { unfold lget. destruct (Z.of_nat n <? 0) eqn:E; [lia|]. now rewrite Nat2Z.id. }
  split; [eapply lget_some_range; eauto|exact H].
Qed.
Lemma lget_ext {A} (l l' : list A) : (forall i, lget l i = lget l' i) -> l = l'.
Proof.
  revert l'; induction l as [|x l IH]; intros [|y l'] H.
  - reflexivity.
  - specialize (H 0); discriminate.
  - specialize (H 0); discriminate.
  - pose proof (H 0) as H0; cbn in H0; injection H0 as ->. f_equal. apply IH. intros i.
    destruct (Z.ltb_spec i 0); [rewrite !lget_out by lia; reflexivity|].
    specialize (H (i + 1)). rewrite !lget_cons_S in H by lia.
    now replace (i + 1 - 1) with i in H by lia.
Qed.

Lemma rd_app_l {A} (l l' : list A) i : i < zlen l -> rd (l ++ l') i = rd l i.
Proof. intros; unfold rd; now rewrite lget_app_l. Qed.
Lemma rd_app_r {A} (l l' : list A) i : zlen l <= i -> rd (l ++ l') i = rd l' (i - zlen l).
Proof. intros; unfold rd; now rewrite lget_app_r. Qed.
Lemma rd_mid {A} (p : list A) x s : rd (p ++ x :: s) (zlen p) = Val x.
Proof. unfold rd; now rewrite lget_mid. Qed.
Lemma rd_mid' {A} (p : list A) x s i : i = zlen p -> rd (p ++ x :: s) i = Val x.
Proof. intros ->; apply rd_mid. Qed.
Lemma rd_in {A} (l : list A) i : 0 <= i < zlen l -> exists a, rd l i = Val a.
Proof. intros H; apply lget_range in H as [a Ha]; exists a; unfold rd; now rewrite Ha. Qed.
Lemma rd_out {A} (l : list A) i : i < 0 \/ zlen l <= i -> rd l i = UB.
Proof. intros H; unfold rd; now rewrite lget_out. Qed.

Lemma lset_app {A} (p : list A) x s a : lset (p ++ x :: s) (zlen p) a = Some (p ++ a :: s).
Proof.
  unfold lset, zlen. destruct (Z.of_nat (length p) <? 0) eqn:E; [lia|]. rewrite Nat2Z.id, nset_spec.
  rewrite app_length. cbn [length]. destruct (length p <? length p + S (length s))%nat eqn:E2; [|lia].
  rewrite firstn_app, Nat.sub_diag, firstn_all, firstn_O, app_nil_r.
  rewrite skipn_app, skipn_all2 by lia.
  replace (S (length p) - length p)%nat with 1%nat by lia. reflexivity.
Qed.
Lemma wr_mid {A} (p : list A) x s a i : i = zlen p -> wr (p ++ x :: s) i a = Val (p ++ a :: s).
Proof. intros ->; unfold wr; now rewrite lset_app. Qed.
Lemma lset_out {A} (l : list A) i a : i < 0 \/ zlen l <= i -> lset l i a = None.
Proof.
  unfold lset, zlen; intros H. destruct (i <? 0) eqn:E; [reflexivity|].
  rewrite nset_spec. destruct (Z.to_nat i <? length l)%nat eqn:E2; [lia|reflexivity].
Qed.
Lemma wr_out {A} (l : list A) i a : i < 0 \/ zlen l <= i -> wr l i a = UB.
Proof. intros; unfold wr; now rewrite lset_out. Qed.
Lemma split_at {A} (l : list A) i : 0 <= i < zlen l -> exists p x s, l = p ++ x :: s /\ zlen p = i.
Proof.
  intros H. apply lget_range in H as Ha. destruct Ha as [a Ha].
  unfold lget in Ha. destruct (i <? 0) eqn:E; [lia|].
  apply nth_error_split in Ha as (p & s & -> & Hp). exists p, a, s. split; [reflexivity|]. unfold zlen; lia.
Qed.
Lemma split_len {A} (l : list A) i : 0 <= i <= zlen l -> exists p s, l = p ++ s /\ zlen p = i.
Proof.
  intros H. exists (firstn (Z.to_nat i) l), (skipn (Z.to_nat i) l).
  rewrite firstn_skipn. split; [reflexivity|]. unfold zlen in *. rewrite firstn_length. lia.
Qed.
Lemma lset_get {A} (l : list A) i a l' j :
  lset l i a = Some l' -> lget l' j = if j =? i then Some a else lget l j.
Proof.
  intros H. destruct (Z.ltb_spec i 0); [rewrite lset_out in H by lia; discriminate|].
  destruct (Z.ltb_spec i (zlen l)); [|rewrite lset_out in H by lia; discriminate].
  destruct (split_at l i) as (p & x & s & -> & Hp); [lia|]. subst i.
  rewrite lset_app in H. injection H as <-.
  destruct (Z.eqb_spec j (zlen p)) as [->|Hne]; [apply lget_mid|].
  destruct (Z.ltb_spec j (zlen p)); [rewrite !lget_app_l by lia; reflexivity|].
  rewrite !lget_app_r by lia. rewrite !lget_cons_S by lia. reflexivity.
Qed.
Lemma lset_zlen {A} (l : list A) i a l' : lset l i a = Some l' -> zlen l' = zlen l.
Proof.
  intros H. destruct (Z.ltb_spec i 0); [rewrite lset_out in H by lia; discriminate|].
  destruct (Z.ltb_spec i (zlen l)); [|rewrite lset_out in H by lia; discriminate].
  destruct (split_at l i) as (p & x & s & -> & Hp); [lia|]. subst i.
  rewrite lset_app in H. injection H as <-. rewrite !zlen_app, !zlen_cons. reflexivity.
Qed.
Lemma lset_range {A} (l : list A) i a : 0 <= i < zlen l -> exists l', lset l i a = Some l'.
Proof.
  intros H. destruct (split_at l i) as (p & x & s & -> & Hp); [lia|]. subst i.
  rewrite lset_app. eauto.
Qed.

(** * finite sweeps over an integer interval [0,n) *)
Definition zrange (n : nat) : list Z := map Z.of_nat (seq 0 n).
Lemma in_zrange n z : In z (zrange n) <-> 0 <= z < Z.of_nat n.
Proof.
  unfold zrange. rewrite in_map_iff. split.
  - intros (x & <- & Hx). apply in_seq in Hx. lia.
  - intros H. exists (Z.to_nat z). split; [lia|]. apply in_seq. lia.
Qed.
Lemma sweep (n : nat) (f : Z -> bool) :
  forallb f (zrange n) = true -> forall z, 0 <= z < Z.of_nat n -> f z = true.
Proof. intros H z Hz. rewrite forallb_forall in H. apply H. now apply in_zrange. Qed.

(** sweep over [0,n) with binary counting, for larger domains *)
Fixpoint zall_aux (f : Z -> bool) (lo : Z) (n : nat) : bool :=
  match n with O => true | S m => f lo && zall_aux f (lo + 1) m end.
Lemma zall_aux_spec f n lo : zall_aux f lo n = true -> forall z, lo <= z < lo + Z.of_nat n -> f z = true.
Proof.
  revert lo; induction n as [|n IH]; intros lo H z Hz; [lia|].
  cbn [zall_aux] in H. apply andb_true_iff in H as [H1 H2].
  destruct (Z.eq_dec z lo) as [->|Hne]; [exact H1|]. apply (IH (lo + 1)); [exact H2|lia].
Qed.
(** 2^k consecutive values from [lo] *)
Fixpoint zall2 (f : Z -> bool) (lo : Z) (k : nat) : bool :=
  match k with O => f lo | S m => zall2 f lo m && zall2 f (lo + 2 ^ Z.of_nat m) m end.
Lemma zall2_spec f k lo : zall2 f lo k = true -> forall z, lo <= z < lo + 2 ^ Z.of_nat k -> f z = true.
Proof.
  revert lo; induction k as [|k IH]; intros lo H z Hz; cbn [zall2] in H.
  - cbn in Hz. replace z with lo by lia. exact H.
  - apply andb_true_iff in H as [H1 H2]. rewrite Nat2Z.inj_succ, Z.pow_succ_r in Hz by lia.
    destruct (Z.ltb_spec z (lo + 2 ^ Z.of_nat k)).
    + apply (IH lo H1). lia.
    + apply (IH _ H2). lia.
Qed.

(** bytes and 16 bit units *)
Definition byte (z : Z) : Prop := 0 <= z < 256.
Definition unit16 (z : Z) : Prop := 0 <= z < 65536.

Lemma u8_id z : 0 <= z < 256 -> u8 z = z. Proof. intros; unfold u8; now apply Z.mod_small. Qed.
Lemma u16_id z : 0 <= z < 65536 -> u16 z = z. Proof. intros; unfold u16; now apply Z.mod_small. Qed.
Lemma u32_id z : 0 <= z < 4294967296 -> u32 z = z. Proof. intros; unfold u32; now apply Z.mod_small. Qed.
Lemma u64_id z : 0 <= z < 18446744073709551616 -> u64 z = z. Proof. intros; unfold u64; now apply Z.mod_small. Qed.
Lemma s32_id z : -2147483648 <= z <= 2147483647 -> s32 z = z.
Proof. intros; unfold s32; rewrite Z.mod_small; lia. Qed.
Lemma s64_id z : -9223372036854775808 <= z <= 9223372036854775807 -> s64 z = z.
Proof. intros; unfold s64; rewrite Z.mod_small; lia. Qed.
