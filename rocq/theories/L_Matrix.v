(** L_Matrix.v -- lemmas for P_Matrix. *)
From Coq Require Import ZArith.
From Verif Require Import Base M_Float M_MathF M_Rect M_Matrix S_Double S_Matrix.
Local Open Scope Z_scope.

(** * loops *)
Lemma loop_inv {S : Type} (P : Z -> S -> Prop) (f : Z -> S -> out S) : forall n i s, P i s ->
  (forall j s, i <= j < i + Z.of_nat n -> P j s -> exists s', f j s = Val s' /\ P (j + 1) s') -> exists s', loop n i f s = Val s' /\ P (i + Z.of_nat n) s'.
Proof.
  induction n as [|n IH]; intros i s H St; cbn [loop]; [exists s; split; [reflexivity|]; replace (i + Z.of_nat 0) with i by lia; exact H|].
  destruct (St i s ltac:(lia) H) as (s1 & -> & H1). cbn [bind]. destruct (IH (i + 1) s1 H1) as (s' & E & H2); [intros j t Hj; apply St; lia|]. exists s'. split; [exact E|]. replace (i + Z.of_nat (Datatypes.S n)) with (i + 1 + Z.of_nat n) by lia. exact H2.
Qed.
Lemma loop0_inv {S : Type} (P : Z -> S -> Prop) (f : Z -> S -> out S) n s : 0 <= n -> P 0 s ->
  (forall j s, 0 <= j < n -> P j s -> exists s', f j s = Val s' /\ P (j + 1) s') -> exists s', loop0 n f s = Val s' /\ P n s'.
Proof. intros N H St. unfold loop0. destruct (loop_inv P f (Z.to_nat n) 0 s H) as (s' & E & H'); [intros j t Hj; apply St; lia|]. exists s'. split; [exact E|]. replace (0 + Z.of_nat (Z.to_nat n)) with n in H' by lia. exact H'. Qed.
Lemma loop0_neg {S : Type} (f : Z -> S -> out S) n s : n <= 0 -> loop0 n f s = Val s.
Proof. intros H. unfold loop0. replace (Z.to_nat n) with O by lia. reflexivity. Qed.
(** * elements *)
Lemma wr_ok {A} (l : list A) i v : 0 <= i < zlen l -> exists l', wr l i v = Val l' /\ zlen l' = zlen l /\ forall q, lget l' q = if q =? i then Some v else lget l q.
Proof.
  intros H. unfold wr. destruct (lset_range l i v H) as (l' & E). rewrite E. exists l'. split; [reflexivity|]. split; [exact (lset_zlen _ _ _ _ E)|]. intros q. exact (lset_get _ _ _ _ _ E).
Qed.
Lemma cell r c i j : 0 <= i < r -> 0 <= j < c -> 0 <= i + j * r < r * c.
Proof. intros. nia. Qed.
Lemma cell_inj r i j i' j' : 0 <= i < r -> 0 <= i' < r -> i + j * r = i' + j' * r -> i = i' /\ j = j'.
Proof. intros. assert (j = j') by nia. subst. lia. Qed.
Lemma chk_ok z : -9223372036854775808 <= z <= 9223372036854775807 -> chk64 z = Val z.
Proof. intros H. unfold chk64, in_s64. replace ((-9223372036854775808 <=? z) && (z <=? 9223372036854775807)) with true by lia. reflexivity. Qed.
Lemma index_ok A i j : 0 <= i < mm A -> 0 <= j < mn A -> mm A * mn A <= 4294967295 -> index A i j = Val (i + j * mm A).
Proof. intros Hi Hj B. pose proof (cell _ _ i j Hi Hj) as C. unfold index. assert (0 <= j * mm A <= 4294967295) by nia. rewrite (chk_ok (j * mm A)) by lia. cbn [bind]. apply chk_ok. lia. Qed.
Lemma rd_ok {A} (l : list A) i v : lget l i = Some v -> rd l i = Val v.
Proof. intros H. unfold rd. now rewrite H. Qed.
Lemma rd_inv {A} (l : list A) i v : rd l i = Val v -> lget l i = Some v.
Proof. unfold rd. destruct (lget l i); intros H; [injection H as ->; reflexivity|discriminate]. Qed.
(** the elements in the array *)
Lemma shows_iff A r c e : shows A r c e <-> (mm A = r /\ mn A = c /\ 0 <= r /\ 0 <= c /\ r * c <= 4294967295 /\ zlen (md A) = r * c /\ forall i j, 0 <= i < r -> 0 <= j < c -> lget (md A) (i + j * r) = Some (e i j)).
Proof.
  unfold shows. split; intros (E1 & E2 & R & C & B & L & H); (split; [exact E1|]); (split; [exact E2|]); (split; [exact R|]); (split; [exact C|]); (split; [exact B|]); (split; [exact L|]); intros i j Hi Hj; specialize (H i j Hi Hj).
  - unfold get in H. rewrite index_ok in H by (rewrite ?E1, ?E2; assumption). cbn [bind] in H. rewrite E1 in H. now apply rd_inv.
  - unfold get. rewrite index_ok by (rewrite ?E1, ?E2; assumption). cbn [bind]. rewrite E1. now apply rd_ok.
Qed.
Lemma shows_rd A r c e i j : shows A r c e -> 0 <= i < r -> 0 <= j < c -> rd (md A) (i + j * r) = Val (e i j).
Proof. intros H Hi Hj. apply shows_iff in H as (_ & _ & _ & _ & _ & _ & H). apply rd_ok. now apply H. Qed.
Lemma shows_get A r c e i j : shows A r c e -> 0 <= i < r -> 0 <= j < c -> get A i j = Val (e i j).
Proof. intros (_ & _ & _ & _ & _ & _ & H). apply H. Qed.
Lemma shows_ext A r c e e' : shows A r c e -> (forall i j, 0 <= i < r -> 0 <= j < c -> e i j = e' i j) -> shows A r c e'.
Proof. unfold shows. intros (E1 & E2 & R & C & B & L & H) X. repeat (split; [assumption|]). intros i j Hi Hj. rewrite <- X by assumption. now apply H. Qed.
(** every matrix of the right size shows something *)
Lemma shows_some A : 0 <= mm A -> 0 <= mn A -> mm A * mn A <= 4294967295 -> zlen (md A) = mm A * mn A -> exists e, shows A (mm A) (mn A) e.
Proof.
  intros R C B L. exists (fun i j => match lget (md A) (i + j * mm A) with Some v => v | None => zero end). apply shows_iff. repeat (split; [assumption || reflexivity|]). intros i j Hi Hj. destruct (lget (md A) (i + j * mm A)) eqn:E; [reflexivity|]. apply lget_none_range in E. pose proof (cell _ _ _ _ Hi Hj). lia.
Qed.
(** writing one cell *)
Lemma wr_shows A r c e i j v : shows A r c e -> 0 <= i < r -> 0 <= j < c -> exists d, wr (md A) (i + j * r) v = Val d /\ shows (Mat r c d) r c (upd e i j v).
Proof.
  intros H Hi Hj. apply shows_iff in H as (E1 & E2 & R & C & B & L & H). pose proof (cell _ _ _ _ Hi Hj) as I. destruct (wr_ok (md A) (i + j * r) v ltac:(lia)) as (d & E & Ld & G). exists d. split; [exact E|]. apply shows_iff. cbn [mm mn md]. repeat (split; [assumption || reflexivity|]). split; [congruence|].
  intros i' j' Hi' Hj'. rewrite G. unfold upd. destruct (Z.eqb_spec (i' + j' * r) (i + j * r)) as [Q|Q].
  - apply (cell_inj r i' j' i j Hi' Hi) in Q as [-> ->]. now rewrite !Z.eqb_refl.
  - destruct (Z.eqb_spec i' i) as [->|N]; [destruct (Z.eqb_spec j' j) as [->|N2]; [congruence|]|]; cbn [andb]; now apply H.
Qed.
Lemma set_ok A r c e i j v : shows A r c e -> 0 <= i < r -> 0 <= j < c -> exists A', set A i j v = Val A' /\ shows A' r c (upd e i j v).
Proof.
  intros H Hi Hj. destruct (wr_shows A r c e i j v H Hi Hj) as (d & E & S). pose proof H as (E1 & E2 & _ & _ & B & _). exists (Mat r c d). split; [|exact S]. unfold set. rewrite index_ok by (rewrite ?E1, ?E2; assumption). cbn [bind]. rewrite E1, E. cbn [bind]. now rewrite E2.
Qed.
Lemma add_ok A r c e i j v : shows A r c e -> 0 <= i < r -> 0 <= j < c -> exists A', add A i j v = Val A' /\ shows A' r c (upd e i j (add64 (e i j) v)).
Proof.
  intros H Hi Hj. destruct (wr_shows A r c e i j (add64 (e i j) v) H Hi Hj) as (d & E & S). pose proof H as (E1 & E2 & _ & _ & B & _). exists (Mat r c d). split; [|exact S]. unfold add. rewrite index_ok by (rewrite ?E1, ?E2; assumption). cbn [bind]. rewrite E1, (shows_rd A r c e i j H Hi Hj). cbn [bind]. rewrite E. cbn [bind]. now rewrite E2.
Qed.
Lemma lget_repeat {A} (v : A) n i : 0 <= i < Z.of_nat n -> lget (repeat v n) i = Some v.
Proof. intros H. destruct (lget_range (repeat v n) i) as (a & E); [rewrite zlen_repeat; lia|]. rewrite E. apply lget_In, repeat_spec in E. now subst. Qed.
Lemma new_ok r c : 0 <= r -> 0 <= c -> r * c <= 4294967295 -> exists A, mat_new r c = Val A /\ shows A r c (fun _ _ => zero).
Proof.
  intros R C B. assert (0 <= r * c) by nia. unfold mat_new. rewrite chk_ok by lia. cbn [bind]. replace (r * c <? 0) with false by lia. replace (r * c >? 4294967295) with false by lia. eexists. split; [reflexivity|]. apply shows_iff. cbn [mm mn md]. repeat (split; [assumption || reflexivity|]). split; [rewrite zlen_repeat; lia|].
  intros i j Hi Hj. pose proof (cell _ _ _ _ Hi Hj). apply lget_repeat. lia.
Qed.
Lemma copy_list_ok l c : 0 <= c <= 4294967295 -> zlen l = c -> copy_list l c = Val l.
Proof.
  intros C L. unfold copy_list. replace (c >? 4294967295) with false by lia.
  destruct (loop0_inv (fun i d => zlen d = c /\ forall q, 0 <= q < i -> lget d q = lget l q) (fun i d => let* v := rd l i in wr d i v) c (repeat zero (Z.to_nat c))) as (d & E & Ld & G); [lia|split; [rewrite zlen_repeat; lia|intros; lia]| |].
  - intros j d Hj (Ld & G). destruct (lget_range l j ltac:(lia)) as (v & Ev). rewrite (rd_ok l j v Ev). cbn [bind]. destruct (wr_ok d j v ltac:(lia)) as (d' & E & L' & G'). exists d'. split; [exact E|]. split; [congruence|]. intros q Hq. rewrite G'. destruct (Z.eqb_spec q j) as [->|N]; [now rewrite Ev|apply G; lia].
  - rewrite E. f_equal. apply lget_ext. intros q. destruct (Z.lt_ge_cases q 0); [rewrite !lget_out by lia; reflexivity|]. destruct (Z.lt_ge_cases q c); [apply G; lia|rewrite !lget_out by lia; reflexivity].
Qed.
Lemma copy_ptr_ok A r c e : shows A r c e -> mat_copy_ptr A = Val A.
Proof.
  intros (E1 & E2 & R & C & B & L & _). assert (0 <= r * c) by nia. unfold mat_copy_ptr. rewrite E1, E2. rewrite chk_ok by lia. cbn [bind]. replace (r * c <? 0) with false by lia. rewrite (copy_list_ok (md A) (r * c)) by lia. cbn [bind]. rewrite <- E1, <- E2. now destruct A.
Qed.
Lemma copy_ok A r c e : shows A r c e -> mat_copy A = Val A.
Proof.
  intros (E1 & E2 & R & C & B & L & _). assert (0 <= r * c) by nia. unfold mat_copy. rewrite E1, E2. rewrite chk_ok by lia. cbn [bind]. destruct (Z.gtb_spec (r * c) 0) as [G|G].
  - rewrite (copy_list_ok (md A) (r * c)) by lia. cbn [bind]. rewrite <- E1, <- E2. now destruct A.
  - rewrite <- E1, <- E2. assert (md A = []) by (destruct (md A); [reflexivity|rewrite zlen_cons in L; pose proof (zlen_nonneg l); lia]). destruct A as [m n d]. cbn [md mm mn] in *. now subst d.
Qed.
Lemma zeros_ok A r c e : shows A r c e -> exists A', zeros A = Val A' /\ shows A' r c (fun _ _ => zero).
Proof.
  intros (E1 & E2 & R & C & B & L & _). assert (0 <= r * c) by nia. unfold zeros. rewrite E1, E2, chk_ok by lia. cbn [bind]. replace (r * c >? 4294967295) with false by lia.
  destruct (loop0_inv (fun i d => zlen d = r * c /\ forall q, 0 <= q < i -> lget d q = Some zero) (fun i d => wr d i zero) (r * c) (md A)) as (d & E & Ld & G); [lia|split; [exact L|intros; lia]| |].
  - intros j d Hj (Ld & G). destruct (wr_ok d j zero ltac:(lia)) as (d' & E & L' & G'). exists d'. split; [exact E|]. split; [congruence|]. intros q Hq. rewrite G'. destruct (Z.eqb_spec q j) as [->|N]; [reflexivity|apply G; lia].
  - rewrite E. cbn [bind]. eexists. split; [reflexivity|]. apply shows_iff. cbn [mm mn md]. repeat (split; [assumption || reflexivity|]). intros i j Hi Hj. pose proof (cell _ _ _ _ Hi Hj). apply G. lia.
Qed.
Ltac bcase := repeat match goal with |- context [if ?b then _ else _] => destruct b eqn:? end; try reflexivity; exfalso; lia.
(** ** nested loops over all (i, j) that write one cell each *)
Lemma transpose_ok A r c e : shows A r c e -> exists A', transpose A = Val A' /\ shows A' c r (fun i j => e j i).
Proof.
  intros H. unfold transpose. rewrite (copy_ptr_ok A r c e H). cbn [bind]. pose proof H as (E1 & E2 & R & C & B & L & _). rewrite E1, E2.
  destruct (shows_some (Mat c r (md A))) as (e0 & H0); [cbn; lia..|cbn [mm mn md]; lia|]. cbn [mm mn] in H0.
  set (part := fun a b i j => if (j <? a) || ((j =? a) && (i <? b)) then e j i else e0 i j).
  destruct (loop0_inv (fun a M => shows M c r (part a 0)) (fun a M => loop0 c (fun b M => let* v := get A a b in set M b a v) M) r (Mat c r (md A)) R) as (M & E & S).
  - apply (shows_ext _ _ _ _ _ H0). intros i j Hi Hj. unfold part. replace (j <? 0) with false by lia. replace ((j =? 0) && (i <? 0)) with false by lia. reflexivity.
  - intros a M Ha S. destruct (loop0_inv (fun b M => shows M c r (part a b)) (fun b M => let* v := get A a b in set M b a v) c M C S) as (M' & E & S').
    + intros b M2 Hb S2. rewrite (shows_get A r c e a b H Ha Hb). cbn [bind]. destruct (set_ok M2 c r (part a b) b a (e a b) S2 Hb Ha) as (M3 & E & S3). exists M3. split; [exact E|]. apply (shows_ext _ _ _ _ _ S3). intros i j Hi Hj. unfold upd, part.
      destruct (Z.eqb_spec i b) as [->|N]; destruct (Z.eqb_spec j a) as [->|N2]; cbn [andb]; bcase.
    + exists M'. split; [exact E|]. apply (shows_ext _ _ _ _ _ S'). intros i j Hi Hj. unfold part. bcase.
  - exists M. split; [exact E|]. apply (shows_ext _ _ _ _ _ S). intros i j Hi Hj. unfold part. replace (j <? r) with true by lia. reflexivity.
Qed.
Lemma insert_ok M r c e A r' c' e' r0 c0 : shows M r c e -> shows A r' c' e' -> r <= 9223372036854775807 -> c <= 9223372036854775807 -> 0 <= r0 <= 9223372036854775807 -> 0 <= c0 <= 9223372036854775807 ->
  exists M', insert M A r0 c0 = Val M' /\ shows M' r c (fun i j => if (r0 <=? i) && (i <? r0 + r') && ((c0 <=? j) && (j <? c0 + c')) then e' (i - r0) (j - c0) else e i j).
Proof.
  intros H HA Hr Hc R0 C0. pose proof H as (E1 & E2 & R & C & B & L & _). pose proof HA as (E1' & E2' & R' & C' & B' & L' & _). unfold insert. rewrite E1, E2, E1', E2'. rewrite !chk_ok by lia. cbn [bind].
  set (rows := Z.min (r - r0) r'). set (cols := Z.min (c - c0) c'). destruct (Z.le_gt_cases rows 0) as [Nr|Nr]; [rewrite loop0_neg by exact Nr; exists M; split; [reflexivity|]; apply (shows_ext _ _ _ _ _ H); intros; bcase|].
  set (part := fun a b i j => if (r0 <=? i) && ((i <? r0 + a) && (c0 <=? j) && (j <? c0 + c') || (i =? r0 + a) && (c0 <=? j) && (j <? c0 + b)) then e' (i - r0) (j - c0) else e i j).
  destruct (loop0_inv (fun a M => shows M r c (part a 0)) (fun r1 M => loop0 cols (fun c1 M => let* v := get A r1 c1 in set M (r1 + r0) (c1 + c0) v) M) rows M ltac:(lia)) as (M' & E & S).
  - apply (shows_ext _ _ _ _ _ H). intros i j Hi Hj. unfold part. bcase.
  - intros a M1 Ha S. destruct (Z.le_gt_cases cols 0) as [Nc|Nc].
    { rewrite loop0_neg by exact Nc. exists M1. split; [reflexivity|]. apply (shows_ext _ _ _ _ _ S). intros i j Hi Hj. unfold part. bcase. }
    destruct (loop0_inv (fun b M => shows M r c (part a b)) (fun c1 M => let* v := get A a c1 in set M (a + r0) (c1 + c0) v) cols M1 ltac:(lia) S) as (M2 & E & S2).
    + intros b M3 Hb S3. rewrite (shows_get A r' c' e' a b HA ltac:(lia) ltac:(lia)). cbn [bind]. destruct (set_ok M3 r c (part a b) (a + r0) (b + c0) (e' a b) S3 ltac:(lia) ltac:(lia)) as (M4 & E & S4). exists M4. split; [exact E|]. apply (shows_ext _ _ _ _ _ S4). intros i j Hi Hj. unfold upd, part.
      destruct (Z.eqb_spec i (a + r0)) as [->|N]; [destruct (Z.eqb_spec j (b + c0)) as [->|N2]|]; cbn [andb]; replace (a + r0 - r0) with a by lia; replace (b + c0 - c0) with b by lia; bcase.
    + exists M2. split; [exact E|]. apply (shows_ext _ _ _ _ _ S2). intros i j Hi Hj. unfold part. bcase.
  - exists M'. split; [exact E|]. apply (shows_ext _ _ _ _ _ S). intros i j Hi Hj. unfold part. bcase.
Qed.
Lemma diag_ok A r c e v : shows A r c e -> exists A', diag A v = Val A' /\ shows A' r c (fun i j => if i =? j then v else e i j).
Proof.
  intros H. pose proof H as (E1 & E2 & R & C & B & L & _). unfold diag. rewrite E1, E2.
  destruct (loop0_inv (fun k M => shows M r c (fun i j => if (i =? j) && (i <? k) then v else e i j)) (fun i M => let* j := chk64 (i * (r + 1)) in let* d := wr (md M) j v in Val (Mat r c d)) (Z.min r c) A) as (M' & E & S); [lia|apply (shows_ext _ _ _ _ _ H); intros; bcase| |].
  - intros k M Hk S. pose proof (cell r c k k ltac:(lia) ltac:(lia)). rewrite chk_ok by lia. cbn [bind]. replace (k * (r + 1)) with (k + k * r) by ring. destruct (wr_shows M r c _ k k v S ltac:(lia) ltac:(lia)) as (d & -> & Sd). cbn [bind]. eexists. split; [reflexivity|]. apply (shows_ext _ _ _ _ _ Sd). intros i j Hi Hj. unfold upd.
    destruct (Z.eqb_spec i k) as [->|N]; [destruct (Z.eqb_spec j k) as [->|N2]|]; cbn [andb]; bcase.
  - exists M'. split; [exact E|]. apply (shows_ext _ _ _ _ _ S). intros i j Hi Hj. bcase.
Qed.
(** ** arithmetic *)
Lemma zrange_S n : zrange (S n) = zrange n ++ [Z.of_nat n].
Proof. unfold zrange. rewrite seq_S, map_app. reflexivity. Qed.
Lemma fsum_S n f : 0 <= n -> fsum (n + 1) f = add64 (fsum n f) (f n).
Proof. intros N. unfold fsum. replace (Z.to_nat (n + 1)) with (S (Z.to_nat n)) by lia. rewrite zrange_S, fold_left_app. cbn [fold_left]. now replace (Z.of_nat (Z.to_nat n)) with n by lia. Qed.
Lemma fsum_ext n f g : (forall k, 0 <= k < n -> f k = g k) -> fsum n f = fsum n g.
Proof.
  intros H. destruct (Z.le_gt_cases n 0) as [N|N]; [unfold fsum; now replace (Z.to_nat n) with O by lia|]. assert (K : forall m, (Z.of_nat m <= n) -> fsum (Z.of_nat m) f = fsum (Z.of_nat m) g).
  { induction m as [|m IH]; intros Hm; [reflexivity|]. replace (Z.of_nat (S m)) with (Z.of_nat m + 1) by lia. rewrite !fsum_S by lia. rewrite IH by lia. f_equal. apply H. lia. }
  specialize (K (Z.to_nat n)). replace (Z.of_nat (Z.to_nat n)) with n in K by lia. apply K. lia.
Qed.
Lemma mul_ok A B r n c e e' : shows A r n e -> shows B n c e' -> r * c <= 4294967295 ->
  exists R, mul A B = Val R /\ shows R r c (fun i j => fsum n (fun k => mul64 (e i k) (e' k j))).
Proof.
  intros HA HB Bd. pose proof HA as (A1 & A2 & R & N & BA & LA & _). pose proof HB as (B1 & B2 & _ & C & BB & LB & _). unfold mul. rewrite A1, A2, B1, B2, Z.eqb_refl. destruct (new_ok r c R C Bd) as (M0 & -> & S0). cbn [bind].
  set (out := fun i j => fsum n (fun k => mul64 (e i k) (e' k j))). set (part := fun a b i j => if (i <? a) || ((i =? a) && (j <? b)) then out i j else zero).
  destruct (loop0_inv (fun a M => shows M r c (part a 0)) (fun i R => loop0 c (fun j R => loop0 n (fun k R => let* a := rd (md A) (i + k * r) in let* b := rd (md B) (k + j * n) in let* r0 := rd (md R) (i + j * r) in let* d := wr (md R) (i + j * r) (add64 r0 (mul64 a b)) in Val (Mat (mm R) (mn R) d)) R) R) r M0 R) as (M' & E & S).
  - apply (shows_ext _ _ _ _ _ S0). intros i j Hi Hj. unfold part. bcase.
  - intros i M1 Hi S1. destruct (loop0_inv (fun b M => shows M r c (part i b)) (fun j R => loop0 n (fun k R => let* a := rd (md A) (i + k * r) in let* b := rd (md B) (k + j * n) in let* r0 := rd (md R) (i + j * r) in let* d := wr (md R) (i + j * r) (add64 r0 (mul64 a b)) in Val (Mat (mm R) (mn R) d)) R) c M1 C S1) as (M2 & E & S2).
    + intros j M3 Hj S3. destruct (loop0_inv (fun k M => shows M r c (upd (part i j) i j (fsum k (fun k => mul64 (e i k) (e' k j))))) (fun k R => let* a := rd (md A) (i + k * r) in let* b := rd (md B) (k + j * n) in let* r0 := rd (md R) (i + j * r) in let* d := wr (md R) (i + j * r) (add64 r0 (mul64 a b)) in Val (Mat (mm R) (mn R) d)) n M3 N) as (M4 & E & S4).
      * apply (shows_ext _ _ _ _ _ S3). intros i' j' Hi' Hj'. unfold upd, part, fsum. change (zrange (Z.to_nat 0)) with (@nil Z). cbn [fold_left]. destruct (Z.eqb_spec i' i) as [->|N1]; [destruct (Z.eqb_spec j' j) as [->|N2]|]; cbn [andb]; bcase.
      * intros k M5 Hk S5. rewrite (shows_rd A r n e i k HA Hi Hk). cbn [bind]. rewrite (shows_rd B n c e' k j HB Hk Hj). cbn [bind]. rewrite (shows_rd M5 r c _ i j S5 Hi Hj). cbn [bind]. pose proof S5 as (P1 & P2 & _). rewrite P1, P2.
        destruct (wr_shows M5 r c _ i j (add64 (upd (part i j) i j (fsum k (fun k => mul64 (e i k) (e' k j))) i j) (mul64 (e i k) (e' k j))) S5 Hi Hj) as (d & -> & Sd). cbn [bind]. eexists. split; [reflexivity|]. apply (shows_ext _ _ _ _ _ Sd). intros i' j' Hi' Hj'. unfold upd. rewrite !Z.eqb_refl. cbn [andb]. rewrite fsum_S by lia. bcase.
      * exists M4. split; [exact E|]. apply (shows_ext _ _ _ _ _ S4). intros i' j' Hi' Hj'. unfold upd, part. fold (out i j). destruct (Z.eqb_spec i' i) as [->|N1]; [destruct (Z.eqb_spec j' j) as [->|N2]|]; cbn [andb]; bcase.
    + exists M2. split; [exact E|]. apply (shows_ext _ _ _ _ _ S2). intros i' j' Hi' Hj'. unfold part. bcase.
  - exists M'. split; [exact E|]. apply (shows_ext _ _ _ _ _ S). intros i j Hi Hj. unfold part. bcase.
Qed.
Lemma pointwise_ok op A B n e e' : shows A n n e -> shows B n n e' -> exists R, pointwise op A B = Val R /\ shows R n n (fun i j => op (e i j) (e' i j)).
Proof.
  intros HA HB. pose proof HA as (A1 & A2 & R & _ & BA & LA & _). pose proof HB as (B1 & B2 & _ & C & BB & LB & _). unfold pointwise. rewrite A1, A2, B1, B2, Z.eqb_refl. destruct (new_ok n n R R BA) as (M0 & -> & S0). cbn [bind].
  set (part := fun a b i j => if (i <? a) || ((i =? a) && (j <? b)) then op (e i j) (e' i j) else zero).
  destruct (loop0_inv (fun a M => shows M n n (part a 0)) (fun i R => loop0 n (fun j R => let* a := rd (md A) (i + j * n) in let* b := rd (md B) (i + j * n) in let* d := wr (md R) (i + j * n) (op a b) in Val (Mat (mm R) (mn R) d)) R) n M0 R) as (M' & E & S).
  - apply (shows_ext _ _ _ _ _ S0). intros i j Hi Hj. unfold part. bcase.
  - intros i M1 Hi S1. destruct (loop0_inv (fun b M => shows M n n (part i b)) (fun j R => let* a := rd (md A) (i + j * n) in let* b := rd (md B) (i + j * n) in let* d := wr (md R) (i + j * n) (op a b) in Val (Mat (mm R) (mn R) d)) n M1 R S1) as (M2 & E & S2).
    + intros j M3 Hj S3. rewrite (shows_rd A n n e i j HA Hi Hj). cbn [bind]. rewrite (shows_rd B n n e' i j HB Hi Hj). cbn [bind]. destruct (wr_shows M3 n n _ i j (op (e i j) (e' i j)) S3 Hi Hj) as (d & -> & Sd). cbn [bind]. pose proof S3 as (P1 & P2 & _). rewrite P1, P2. eexists. split; [reflexivity|]. apply (shows_ext _ _ _ _ _ Sd). intros i' j' Hi' Hj'. unfold upd, part.
      destruct (Z.eqb_spec i' i) as [->|N1]; [destruct (Z.eqb_spec j' j) as [->|N2]|]; cbn [andb]; bcase.
    + exists M2. split; [exact E|]. apply (shows_ext _ _ _ _ _ S2). intros i' j' Hi' Hj'. unfold part. bcase.
  - exists M'. split; [exact E|]. apply (shows_ext _ _ _ _ _ S). intros i j Hi Hj. unfold part. bcase.
Qed.
Lemma each_ok f A r c e : shows A r c e -> exists R, each f A = Val R /\ shows R r c (fun i j => f (e i j)).
Proof.
  intros H. pose proof H as H'. apply shows_iff in H' as (E1 & E2 & R & C & B & L & G). unfold each. rewrite E1, E2. destruct (new_ok r c R C B) as (M0 & -> & S0). cbn [bind]. assert (0 <= r * c) by nia.
  destruct (loop0_inv (fun k M => mm M = r /\ mn M = c /\ zlen (md M) = r * c /\ forall q, 0 <= q < k -> lget (md M) q = option_map f (lget (md A) q)) (fun i R => let* a := rd (md A) i in let* d := wr (md R) i (f a) in Val (Mat (mm R) (mn R) d)) (r * c) M0) as (M & E & P1 & P2 & P3 & P4); [lia| | |].
  - destruct S0 as (Q1 & Q2 & _ & _ & _ & Q3 & _). repeat (split; [assumption|]). intros; lia.
  - intros k M Hk (Q1 & Q2 & Q3 & Q4). destruct (lget_range (md A) k ltac:(lia)) as (a & Ea). rewrite (rd_ok _ _ _ Ea). cbn [bind]. destruct (wr_ok (md M) k (f a) ltac:(lia)) as (d & -> & Ld & Gd). cbn [bind]. eexists. split; [reflexivity|]. cbn [mm mn md]. repeat (split; [assumption || congruence|]). intros q Hq. rewrite Gd. destruct (Z.eqb_spec q k) as [->|N]; [now rewrite Ea|apply Q4; lia].
  - exists M. split; [exact E|]. apply shows_iff. repeat (split; [assumption|]). intros i j Hi Hj. pose proof (cell _ _ _ _ Hi Hj). rewrite P4 by lia. rewrite G by assumption. reflexivity.
Qed.
Lemma mulv_ok A r c e b (v : Z -> spec_float) : shows A r c e -> zlen b = c -> (forall k, 0 <= k < c -> lget b k = Some (v k)) ->
  exists l, mulv A b = Val l /\ zlen l = r /\ forall i, 0 <= i < r -> lget l i = Some (fsum c (fun k => mul64 (v k) (e i k))).
Proof.
  intros H Lb Hv. pose proof H as (E1 & E2 & R & C & B & L & _). unfold mulv. rewrite E1, E2, Lb, Z.eqb_refl. set (out := fun i => fsum c (fun k => mul64 (v k) (e i k))).
  destruct (loop0_inv (fun k l => zlen l = r /\ forall i, 0 <= i < k -> lget l i = Some (out i)) (fun r0 l => let* l := wr l r0 zero in loop0 c (fun c0 l => let* x := rd b c0 in let* v := get A r0 c0 in let* o := rd l r0 in wr l r0 (add64 o (mul64 x v))) l) r (repeat zero (Z.to_nat r)) R) as (l & E & Ll & G); [split; [rewrite zlen_repeat; lia|intros; lia]| |exists l; auto].
  intros i l Hi (Ll & G). destruct (wr_ok l i zero ltac:(lia)) as (l1 & -> & L1 & G1). cbn [bind].
  destruct (loop0_inv (fun k l2 => zlen l2 = r /\ forall q, lget l2 q = if q =? i then Some (fsum k (fun k => mul64 (v k) (e i k))) else lget l q) (fun c0 l => let* x := rd b c0 in let* v := get A i c0 in let* o := rd l i in wr l i (add64 o (mul64 x v))) c l1 C) as (l2 & E & L2 & G2).
  - split; [lia|]. intros q. rewrite G1. reflexivity.
  - intros k l2 Hk (L2 & G2). rewrite (rd_ok b k (v k) (Hv k Hk)). cbn [bind]. rewrite (shows_get A r c e i k H Hi Hk). cbn [bind]. pose proof (G2 i) as Gi. rewrite Z.eqb_refl in Gi. rewrite (rd_ok _ _ _ Gi). cbn [bind]. destruct (wr_ok l2 i (add64 (fsum k (fun k => mul64 (v k) (e i k))) (mul64 (v k) (e i k))) ltac:(lia)) as (l3 & E & L3 & G3). exists l3. split; [exact E|]. split; [lia|]. intros q. rewrite G3, fsum_S by lia. destruct (Z.eqb_spec q i); [reflexivity|]. rewrite G2. destruct (Z.eqb_spec q i); [contradiction|reflexivity].
  - exists l2. split; [exact E|]. split; [exact L2|]. intros q Hq. rewrite G2. destruct (Z.eqb_spec q i) as [->|N]; [reflexivity|apply G; lia].
Qed.
