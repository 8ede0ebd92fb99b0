(** P_Matrix.v -- matrices: elements, product, sum, determinant, inverse. *)
From Coq Require Import Reals Lra QArith Qabs Qreals.
From Flocq Require Import Core.
From Verif Require Import Base M_Float M_MathF M_Rect M_Matrix S_Double S_Matrix L_Double L_MathF L_Color5 L_Matrix L_Matrix2 L_Matrix3 L_Grid L_Matrix4 L_Matrix5 L_Matrix6.
Local Open Scope Z_scope.

(** * C101: elements *)
Theorem C101_new r c : 0 <= r -> 0 <= c -> r * c <= 4294967295 -> exists A, mat_new r c = Val A /\ shows A r c (fun _ _ => S754_zero false).
Proof. exact (new_ok r c). Qed.
Theorem C101_set A r c e i j v : shows A r c e -> 0 <= i < r -> 0 <= j < c ->
  exists A', set A i j v = Val A' /\ get A' i j = Val v /\ shows A' r c (fun a b => if (a =? i) && (b =? j) then v else e a b).
Proof.
  intros H Hi Hj. destruct (set_ok A r c e i j v H Hi Hj) as (A' & E & S). exists A'. split; [exact E|]. split; [|exact S]. rewrite (shows_get A' r c _ i j S Hi Hj). unfold upd. now rewrite !Z.eqb_refl.
Qed.
Theorem C101_add A r c e i j v : shows A r c e -> 0 <= i < r -> 0 <= j < c ->
  exists A', add A i j v = Val A' /\ shows A' r c (fun a b => if (a =? i) && (b =? j) then add64 (e i j) v else e a b).
Proof. exact (add_ok A r c e i j v). Qed.
Theorem C101_zeros A r c e : shows A r c e -> exists A', zeros A = Val A' /\ shows A' r c (fun _ _ => S754_zero false).
Proof. exact (zeros_ok A r c e). Qed.
Theorem C101_copy A r c e B : shows A r c e -> mat_copy A = Val A /\ mat_copy_ptr A = Val A /\ mat_assign B A = Val A.
Proof. intros H. split; [exact (copy_ok A r c e H)|]. split; [exact (copy_ptr_ok A r c e H)|exact (copy_ok A r c e H)]. Qed.
Theorem C101_transpose A r c e : shows A r c e -> exists A', transpose A = Val A' /\ shows A' c r (fun i j => e j i).
Proof. exact (transpose_ok A r c e). Qed.
Lemma mat_eq A B r c e : shows A r c e -> shows B r c e -> A = B.
Proof.
  intros HA HB. apply shows_iff in HA as (A1 & A2 & R & C & Bd & LA & GA). apply shows_iff in HB as (B1 & B2 & _ & _ & _ & LB & GB). destruct A as [m n d], B as [mq nq d']. cbn [mm mn md] in *. subst m n mq nq. f_equal. apply lget_ext. intros q. destruct (Z.lt_ge_cases q 0); [rewrite !lget_out by lia; reflexivity|]. destruct (Z.lt_ge_cases q (r * c)) as [Q|Q]; [|rewrite !lget_out by lia; reflexivity].
  assert (M : 0 < r) by (destruct (Z.eq_dec r 0) as [->|]; lia). pose proof (Z.div_mod q r ltac:(lia)) as D. assert (R1 : 0 <= q mod r < r) by (apply Z.mod_pos_bound; lia). assert (R2 : 0 <= q / r < c) by (split; [apply Z.div_pos; lia|apply Z.div_lt_upper_bound; lia]).
  replace q with (q mod r + q / r * r) by lia. now rewrite GA, GB.
Qed.
Theorem C101_transpose_twice A r c e : shows A r c e -> (let* B := transpose A in transpose B) = Val A.
Proof.
  intros H. destruct (transpose_ok A r c e H) as (B & -> & S). cbn [bind]. destruct (transpose_ok B c r _ S) as (A' & -> & S'). cbv beta in S'. f_equal. symmetry. exact (mat_eq A A' r c e H S').
Qed.
Theorem C101_insert M r c e A r' c' e' r0 c0 : shows M r c e -> shows A r' c' e' -> r <= 9223372036854775807 -> c <= 9223372036854775807 -> 0 <= r0 <= 9223372036854775807 -> 0 <= c0 <= 9223372036854775807 ->
  exists M', insert M A r0 c0 = Val M' /\ shows M' r c (fun i j => if (r0 <=? i) && (i <? r0 + r') && ((c0 <=? j) && (j <? c0 + c')) then e' (i - r0) (j - c0) else e i j).
Proof. exact (insert_ok M r c e A r' c' e' r0 c0). Qed.
Theorem C101_diag A r c e v : shows A r c e -> exists A', diag A v = Val A' /\ shows A' r c (fun i j => if i =? j then v else e i j).
Proof. exact (diag_ok A r c e v). Qed.
(** a row index that is too large by one is not rejected: it reaches the first row of the next column *)
Theorem C101_alias_refuted A r c e j v : shows A r c e -> 0 <= j -> j + 1 < c -> 0 < r -> set A r j v = set A 0 (j + 1) v /\ exists A', set A r j v = Val A' /\ get A' 0 (j + 1) = Val v.
Proof.
  intros H J1 J2 R. pose proof H as (E1 & E2 & _ & _ & B & _). assert (Q : index A r j = index A 0 (j + 1)).
  { rewrite (index_ok A 0 (j + 1)) by lia. unfold index. rewrite E1. pose proof (cell r c 0 (j + 1) ltac:(lia) ltac:(lia)). assert (0 <= j * r <= 4294967295) by nia. rewrite (chk_ok (j * r)) by lia. cbn [bind]. rewrite chk_ok by lia. f_equal. ring. }
  assert (T : set A r j v = set A 0 (j + 1) v) by (unfold set; now rewrite Q). split; [exact T|]. rewrite T. destruct (set_ok A r c e 0 (j + 1) v H ltac:(lia) ltac:(lia)) as (A' & E & S). exists A'. split; [exact E|]. rewrite (shows_get A' r c _ 0 (j + 1) S) by lia. unfold upd. now rewrite !Z.eqb_refl.
Qed.
(** a column index that is too large leaves the array *)
Theorem C101_range_refuted A r c e i v : shows A r c e -> 0 <= i < r -> 0 < c -> set A i c v = UB /\ get A i c = UB.
Proof.
  intros H Hi C0. pose proof H as (E1 & E2 & _ & C & B & L & _). assert (r <= r * c) by nia. assert (Ix : index A i c = Val (i + c * r)). { unfold index. rewrite E1. rewrite (chk_ok (c * r)) by lia. cbn [bind]. apply chk_ok. lia. }
  unfold set, get. rewrite Ix. cbn [bind]. unfold wr, rd. rewrite lget_out by lia. rewrite lset_out by lia. split; reflexivity.
Qed.
(** 2^32 and more elements: the constructor never returns *)
Theorem C101_large_refuted r c : 4294967295 < r * c <= 9223372036854775807 -> mat_new r c = Fuel.
Proof. intros H. unfold mat_new. rewrite chk_ok by lia. cbn [bind]. replace (r * c <? 0) with false by lia. replace (r * c >? 4294967295) with true by lia. reflexivity. Qed.
(** * C102: product *)
(** all doubles: the sums run from left to right and start with 0 *)
Theorem C102_product A B r n c e e' : shows A r n e -> shows B n c e' -> r * c <= 4294967295 ->
  exists R, mul A B = Val R /\ shows R r c (fun i j => fsum n (fun k => mul64 (e i k) (e' k j))).
Proof. exact (mul_ok A B r n c e e'). Qed.
Theorem C102_mismatch A B : mn A <> mm B -> mul A B = Exn.
Proof. intros H. unfold mul. destruct (Z.eqb_spec (mn A) (mm B)); [contradiction|reflexivity]. Qed.
(** the product of vectors *)
Theorem C102_vector A r c e b : shows A r c e -> zlen b = c -> exists l, mulv A b = Val l /\ zlen l = r /\ forall i, 0 <= i < r -> vat l i = fsum c (fun k => mul64 (vat b k) (e i k)).
Proof.
  intros H L. destruct (mulv_ok A r c e b (vat b) H L) as (l & E & Ll & G). { intros k Hk. apply rd_inv. apply rd_vat. lia. } exists l. split; [exact E|]. split; [exact Ll|]. intros i Hi. unfold vat at 1. exact (lget_nth_d l i _ _ (G i Hi)).
Qed.
(** numbers of a grid: no rounding at all *)
Theorem C102_exact A B r n c k1 k2 f g F G : holds A r n k1 f -> holds B n c k2 g -> within r n f F -> within n c g G -> 0 <= F -> 0 <= G -> n * F * G <= 2 ^ 53 -> r * c <= 4294967295 -> -1000 <= k1 + k2 <= 900 ->
  exists R, mul A B = Val R /\ holds R r c (k1 + k2) (zprod n f g).
Proof. exact (mul_grid A B r n c k1 k2 f g F G). Qed.
Lemma holds_ext A r c k f g : holds A r c k f -> (forall i j, 0 <= i < r -> 0 <= j < c -> f i j = g i j) -> holds A r c k g.
Proof. intros (e & H & E) X. exists e. split; [exact H|]. intros i j Hi Hj. rewrite <- X by assumption. now apply E. Qed.
Lemma at_eq k z x k' z' : at_ k z x -> (inject_Z z * q2 k == inject_Z z' * q2 k')%Q -> at_ k' z' x.
Proof. unfold at_. intros H E. exact (dbl_eq _ _ _ H E). Qed.
Lemma prod_ident_r n f i j : 0 <= j < n -> zprod n f ident i j = f i j.
Proof. intros H. unfold zprod. rewrite (zsum_one n _ j H). - unfold ident. rewrite Z.eqb_refl. ring. - intros k Hk N. unfold ident. destruct (Z.eqb_spec k j); [contradiction|ring]. Qed.
Lemma prod_ident_l n f i j : 0 <= i < n -> zprod n ident f i j = f i j.
Proof. intros H. unfold zprod. rewrite (zsum_one n _ i H). - unfold ident. rewrite Z.eqb_refl. ring. - intros k Hk N. unfold ident. destruct (Z.eqb_spec i k); [congruence|ring]. Qed.
Lemma ident_within r c : within r c ident 1.
Proof. intros i j _ _. unfold ident. destruct (i =? j); lia. Qed.
(** the identity changes nothing *)
Theorem C102_identity A I J r c k f F : holds A r c k f -> holds I c c 0 ident -> holds J r r 0 ident -> within r c f F -> 0 <= F -> r * F <= 2 ^ 53 -> c * F <= 2 ^ 53 -> -1000 <= k <= 900 ->
  (exists R, mul A I = Val R /\ holds R r c k f) /\ (exists R, mul J A = Val R /\ holds R r c k f).
Proof.
  intros HA HI HJ W F0 B1 B2 K. pose proof HA as (e & (_ & _ & _ & _ & Bd & _) & _). split.
  - destruct (mul_grid A I r c c k 0 f ident F 1 HA HI W (ident_within c c)) as (R & E & S); try lia. exists R. split; [exact E|]. rewrite Z.add_0_r in S. apply (holds_ext _ _ _ _ _ _ S). intros i j Hi Hj. now apply prod_ident_r.
  - destruct (mul_grid J A r r c 0 k ident f 1 F HJ HA (ident_within r r) W) as (R & E & S); try lia. exists R. split; [exact E|]. rewrite Z.add_0_l in S. apply (holds_ext _ _ _ _ _ _ S). intros i j Hi Hj. now apply prod_ident_l.
Qed.
Lemma prod_assoc n m f g h i j : 0 <= n -> 0 <= m -> zprod m (zprod n f g) h i j = zprod n f (zprod m g h) i j.
Proof.
  intros N M. unfold zprod. transitivity (zsum m (fun b => zsum n (fun a => f i a * g a b * h b j))).
  - apply zsum_ext. intros b Hb. rewrite Z.mul_comm, <- zsum_mul by exact N. apply zsum_ext. intros; ring.
  - rewrite (zsum_swap m n) by assumption. apply zsum_ext. intros a Ha. rewrite <- zsum_mul by exact M. apply zsum_ext. intros; ring.
Qed.
Lemma prod_within r n c f g F G : 0 <= n -> 0 <= F -> 0 <= G -> within r n f F -> within n c g G -> within r c (zprod n f g) (n * F * G).
Proof.
  intros N F0 G0 W1 W2 i j Hi Hj. unfold zprod. pose proof (zsum_bnd n (fun k => f i k * g k j) (F * G) N) as B. assert (Q : forall k, 0 <= k < n -> - (F * G) <= f i k * g k j <= F * G) by (intros k Hk; specialize (W1 i k Hi Hk); specialize (W2 k j Hk Hj); nia). specialize (B Q). nia.
Qed.
(** the order of two products does not matter as long as nothing is rounded *)
Theorem C102_assoc A B C r n m c k1 k2 k3 f g h F G H : holds A r n k1 f -> holds B n m k2 g -> holds C m c k3 h -> within r n f F -> within n m g G -> within m c h H -> 0 <= F -> 0 <= G -> 0 <= H ->
  n * F * G <= 2 ^ 53 -> m * G * H <= 2 ^ 53 -> n * F * G * m * H <= 2 ^ 53 -> r * m <= 4294967295 -> n * c <= 4294967295 -> r * c <= 4294967295 -> -300 <= k1 <= 300 -> -300 <= k2 <= 300 -> -300 <= k3 <= 300 ->
  exists AB BC L R, mul A B = Val AB /\ mul AB C = Val L /\ mul B C = Val BC /\ mul A BC = Val R /\ holds L r c (k1 + k2 + k3) (zprod n f (zprod m g h)) /\ holds R r c (k1 + k2 + k3) (zprod n f (zprod m g h)).
Proof.
  intros HA HB HC WF WG WH F0 G0 H0 B1 B2 B3 D1 D2 D3 K1 K2 K3. pose proof HA as (? & (_ & _ & _ & N & _) & _). pose proof HB as (? & (_ & _ & _ & M & _) & _).
  destruct (mul_grid A B r n m k1 k2 f g F G HA HB WF WG F0 G0 B1 D1 ltac:(lia)) as (AB & EAB & SAB). destruct (mul_grid B C n m c k2 k3 g h G H HB HC WG WH G0 H0 B2 D2 ltac:(lia)) as (BC & EBC & SBC).
  pose proof (prod_within r n m f g F G N F0 G0 WF WG) as W1. pose proof (prod_within n m c g h G H M G0 H0 WG WH) as W2.
  destruct (mul_grid AB C r m c (k1 + k2) k3 _ h (n * F * G) H SAB HC W1 WH) as (L & EL & SL); try lia; try nia. destruct (mul_grid A BC r n c k1 (k2 + k3) f _ F (m * G * H) HA SBC WF W2) as (R & ER & SR); try lia; try nia.
  exists AB, BC, L, R. split; [exact EAB|]. split; [exact EL|]. split; [exact EBC|]. split; [exact ER|]. rewrite Z.add_assoc in SR. split; [|exact SR]. apply (holds_ext _ _ _ _ _ _ SL). intros i j Hi Hj. now apply prod_assoc.
Qed.
(** with rounding it does *)
Definition tenth (z : Z) : spec_float := div64 (int64f z) (int64f 10).
Theorem C102_assoc_refuted : exists A B C L R, (let* AB := mul A B in mul AB C) = Val L /\ (let* BC := mul B C in mul A BC) = Val R /\ L <> R.
Proof. exists (mat_of (tenth 1)), (mat_of (tenth 2)), (mat_of (tenth 3)). eexists. eexists. split; [vm_compute; reflexivity|]. split; [vm_compute; reflexivity|]. intros H. discriminate H. Qed.
(** * C103: sum, difference, multiples *)
Theorem C103_square A B n e e' : shows A n n e -> shows B n n e' ->
  (exists R, plus A B = Val R /\ shows R n n (fun i j => add64 (e i j) (e' i j))) /\ (exists R, minus A B = Val R /\ shows R n n (fun i j => sub64 (e i j) (e' i j))).
Proof. intros HA HB. split; exact (pointwise_ok _ A B n e e' HA HB). Qed.
Theorem C103_multiples A r c e d : shows A r c e ->
  (exists R, scale d A = Val R /\ shows R r c (fun i j => mul64 d (e i j))) /\ (exists R, divide A d = Val R /\ shows R r c (fun i j => div64 (e i j) d)).
Proof. intros H. split; exact (each_ok _ A r c e H). Qed.
(** two matrices of the same shape are rejected unless they are square *)
Theorem C103_shape_refuted A B r c e e' : shows A r c e -> shows B r c e' -> r <> c -> plus A B = Exn /\ minus A B = Exn.
Proof. intros (A1 & A2 & _) (B1 & B2 & _) N. unfold plus, minus, pointwise. rewrite A2, B1. destruct (Z.eqb_spec c r) as [Q|_]; [congruence|split; reflexivity]. Qed.
Lemma loop_ub {S} (P : S -> Prop) (f : Z -> S -> out S) a : (forall i s, P s -> f i s = UB \/ exists t, f i s = Val t /\ P t) -> (forall s, P s -> f a s = UB) -> forall n i s, P s -> i <= a < i + Z.of_nat n -> loop n i f s = UB.
Proof.
  intros F U. induction n as [|n IH]; intros i s H I; [lia|]. cbn [loop]. destruct (Z.eq_dec i a) as [->|N]; [rewrite U by exact H; reflexivity|]. destruct (F i s H) as [->|(t & -> & T)]; [reflexivity|]. cbn [bind]. apply IH; [exact T|lia].
Qed.
Lemma rd_cases {A} (l : list A) i : rd l i = UB \/ exists v, rd l i = Val v.
Proof. unfold rd. destruct (lget l i) as [v|]; [right; now exists v|now left]. Qed.
Lemma wr_cases {A} (l : list A) i v : wr l i v = UB \/ exists l', wr l i v = Val l'.
Proof. unfold wr. destruct (lset l i v) as [v'|]; [right; now exists v'|now left]. Qed.
(** two matrices that can be multiplied are added without any check: if the second is wider, the array is left *)
Theorem C103_ub_refuted A B r n c e e' : shows A r n e -> shows B n c e' -> 0 < r -> n < c -> r * c <= 4294967295 -> plus A B = UB /\ minus A B = UB.
Proof.
  intros HA HB R N L. assert (G : forall op, pointwise op A B = UB); [|split; apply G]. intros op. pose proof HA as (A1 & A2 & _ & N0 & _ & LA & _). pose proof HB as (B1 & B2 & _). unfold pointwise. rewrite A1, A2, B1, B2, Z.eqb_refl. destruct (new_ok r c ltac:(lia) ltac:(lia) L) as (M0 & -> & S0). cbn [bind].
  unfold loop0 at 1. destruct (Z.to_nat r) as [|m] eqn:Er; [lia|]. cbn [loop]. unfold loop0. rewrite (loop_ub (fun _ => True) _ n); [reflexivity| | |exact I|lia].
  - intros j s _. destruct (rd_cases (md A) (0 + j * r)) as [->|(x & ->)]; [now left|]. cbn [bind]. destruct (rd_cases (md B) (0 + j * r)) as [->|(y & ->)]; [now left|]. cbn [bind]. destruct (wr_cases (md s) (0 + j * r) (op x y)) as [->|(d & ->)]; [now left|]. right. eexists. split; [reflexivity|exact I].
  - intros s _. unfold rd at 1. rewrite lget_out by lia. reflexivity.
Qed.
(** * C104: determinant *)
Theorem C104_det A n k f : 1 <= n <= 4 -> holds A n n k f -> within n n f (limit n) -> -250 <= k <= 225 -> exists x, det A = Val (Some x) /\ at_ (k * n) (zdet (Z.to_nat n) f) x.
Proof. intros N (e & H & G) W K. destruct (det_ok A n e f k N H G W K) as (x & E & X & _). now exists x. Qed.
Theorem C104_none A : (mm A <> mn A \/ mm A < 1 \/ mm A > 4) -> det A = Val None /\ inverse A = Val None.
Proof.
  intros H. unfold det, inverse. destruct (Z.eqb_spec (mm A) (mn A)); [|split; reflexivity]. replace (mm A =? 1) with false by lia. replace (mm A =? 2) with false by lia. replace (mm A =? 3) with false by lia. replace (mm A =? 4) with false by lia. split; reflexivity.
Qed.
Theorem C104_transpose A n k f : 1 <= n <= 4 -> holds A n n k f -> within n n f (limit n) -> -250 <= k <= 225 ->
  exists T x y, transpose A = Val T /\ det A = Val (Some x) /\ det T = Val (Some y) /\ same_number x y.
Proof.
  intros N H W K. destruct (C104_det A n k f N H W K) as (x & Ex & X). destruct H as (e & S & G). destruct (transpose_ok A n n e S) as (T & ET & ST). destruct (det_ok T n _ (fun i j => f j i) k N ST) as (y & Ey & Y & _); [intros i j Hi Hj; now apply G|intros i j Hi Hj; now apply W|exact K|]. rewrite det_transpose in Y by lia. exists T, x, y. split; [exact ET|]. split; [exact Ex|]. split; [exact Ey|]. rewrite at_r in X, Y. exact (same_r _ _ _ X Y).
Qed.
Theorem C104_product A B n k1 k2 f g F G : 1 <= n <= 4 -> holds A n n k1 f -> holds B n n k2 g -> within n n f F -> within n n g G -> 0 <= F -> 0 <= G -> n * F * G <= limit n -> -250 <= k1 + k2 <= 225 ->
  exists R x, mul A B = Val R /\ det R = Val (Some x) /\ at_ ((k1 + k2) * n) (zdet (Z.to_nat n) f * zdet (Z.to_nat n) g) x.
Proof.
  intros N HA HB WF WG F0 G0 L K. assert (L53 : limit n <= 2 ^ 53) by (unfold limit; repeat match goal with |- context [if ?b then _ else _] => destruct b end; lia).
  destruct (mul_grid A B n n n k1 k2 f g F G HA HB WF WG F0 G0) as (R & E & S); [lia|nia|lia|]. assert (W : within n n (zprod n f g) (limit n)). { intros i j Hi Hj. pose proof (prod_within n n n f g F G ltac:(lia) F0 G0 WF WG i j Hi Hj). lia. }
  destruct (C104_det R n _ _ N S W K) as (x & Ex & X). rewrite det_mult in X by lia. now exists R, x.
Qed.
(** * C105: inverse *)
Lemma zdet_bnd : forall n f B, 0 <= B -> (forall i j, 0 <= i < Z.of_nat n -> 0 <= j < Z.of_nat n -> - B <= f i j <= B) -> - (Z.of_nat (fact n) * B ^ Z.of_nat n) <= zdet n f <= Z.of_nat (fact n) * B ^ Z.of_nat n.
Proof.
  induction n as [|n IH]; intros f B B0 H; [cbn; lia|]. change (fact (S n)) with (S n * fact n)%nat. cbn [zdet].
  set (M := Z.of_nat (fact n) * B ^ Z.of_nat n) in *. assert (M0 : 0 <= M) by (unfold M; pose proof (Z.pow_nonneg B (Z.of_nat n) B0); nia).
  pose proof (zsum_bnd (Z.of_nat (S n)) (fun i => (if Z.even i then 1 else -1) * f i 0 * zdet n (fun r c => f (if r <? i then r else r + 1) (c + 1))) (B * M) ltac:(lia)) as Sb. replace (Z.of_nat (S n * fact n) * B ^ Z.of_nat (S n)) with (Z.of_nat (S n) * (B * M)). 2:{ unfold M. rewrite Nat2Z.inj_mul, (Nat2Z.inj_succ n), Z.pow_succ_r by lia. ring. }
  apply Sb. intros i Hi. assert (D : - M <= zdet n (fun r c => f (if r <? i then r else r + 1) (c + 1)) <= M). { apply IH; [exact B0|]. intros r c Hr Hc. apply H; [destruct (Z.ltb_spec r i)|]; lia. }
  specialize (H i 0 Hi ltac:(lia)). set (dd := zdet n _) in *. clearbody dd. destruct (Z.even i); nia.
Qed.
Lemma adj_within n f : 1 <= n <= 4 -> within n n f (limit n) -> exists G, 0 <= G /\ n * limit n * G <= 2 ^ 53 /\ within n n (zadj (Z.to_nat n) f) G.
Proof.
  intros N W. set (m := (Z.to_nat n - 1)%nat). assert (Em : Z.of_nat m = n - 1) by lia. assert (L0 : 0 <= limit n) by (unfold limit; repeat match goal with |- context [if ?b then _ else _] => destruct b end; lia).
  exists (Z.of_nat (fact m) * limit n ^ Z.of_nat m). split; [pose proof (Z.pow_nonneg (limit n) (Z.of_nat m) L0); nia|]. split.
  - assert (Q : n = 1 \/ n = 2 \/ n = 3 \/ n = 4) by lia. unfold m. destruct Q as [->|[->|[->| ->]]]; vm_compute; discriminate.
  - intros i j Hi Hj. unfold zadj. fold m. assert (D : - (Z.of_nat (fact m) * limit n ^ Z.of_nat m) <= zdet m (fun r c => f (if r <? j then r else r + 1) (if c <? i then c else c + 1)) <= Z.of_nat (fact m) * limit n ^ Z.of_nat m).
    { apply zdet_bnd; [exact L0|]. intros r c Hr Hc. apply W; [destruct (Z.ltb_spec r j)|destruct (Z.ltb_spec c i)]; lia. }
    set (dd := zdet m _) in *. clearbody dd. destruct (Z.even (i + j)); lia.
Qed.
(** the determinant is a power of two, or minus one: A * inverse(A) and inverse(A) * A are the identity, without any error *)
Theorem C105_exact A n k f s d : 1 <= n <= 4 -> holds A n n k f -> within n n f (limit n) -> -250 <= k <= 225 -> (s = 1 \/ s = -1) -> 0 <= d <= 53 -> zdet (Z.to_nat n) f = s * 2 ^ d ->
  exists A' L R, inverse A = Val (Some A') /\ mul A A' = Val R /\ mul A' A = Val L /\ holds R n n 0 ident /\ holds L n n 0 ident.
Proof.
  intros N H W K S D E. destruct (inv_exact A n f k s d N H W K S D E) as (A' & EA & HA'). destruct (adj_within n f N W) as (G & G0 & GB & WG).
  assert (WG' : within n n (fun i j => s * zadj (Z.to_nat n) f i j) G) by (intros i j Hi Hj; specialize (WG i j Hi Hj); destruct S as [->| ->]; lia).
  assert (L0 : 0 <= limit n) by (unfold limit; repeat match goal with |- context [if ?b then _ else _] => destruct b end; lia).
  assert (Fin : forall M h, holds M n n (- d) h -> (forall i j, 0 <= i < n -> 0 <= j < n -> h i j = 2 ^ d * ident i j) -> holds M n n 0 ident).
  { intros M h (e & Sh & Ah) X. exists e. split; [exact Sh|]. intros i j Hi Hj. refine (at_eq _ _ _ _ _ (Ah i j Hi Hj) _). rewrite X by assumption. rewrite <- (q2_shift (ident i j) 0 (- d)) by lia. replace (0 - - d) with d by lia. rewrite (Z.mul_comm (2 ^ d)). reflexivity. }
  destruct (mul_grid A A' n n n k (- k - d) f _ (limit n) G H HA' W WG' L0 G0 GB) as (R & ER & HR); [nia|lia|]. destruct (mul_grid A' A n n n (- k - d) k _ f G (limit n) HA' H WG' W G0 L0) as (L & EL & HL); [nia|nia|lia|].
  exists A', L, R. split; [exact EA|]. split; [exact ER|]. split; [exact EL|]. replace (k + (- k - d)) with (- d) in HR by lia. replace (- k - d + k) with (- d) in HL by lia. split; [apply (Fin R _ HR)|apply (Fin L _ HL)]; intros i j Hi Hj.
  - transitivity (s * zprod n f (zadj (Z.to_nat n) f) i j); [unfold zprod; rewrite <- zsum_mul by lia; apply zsum_ext; intros; ring|]. rewrite adj_r by lia. rewrite E. destruct S as [->| ->]; ring.
  - transitivity (s * zprod n (zadj (Z.to_nat n) f) f i j); [unfold zprod; rewrite <- zsum_mul by lia; apply zsum_ext; intros; ring|]. rewrite adj_l by lia. rewrite E. destruct S as [->| ->]; ring.
Qed.
(** in general the entries are those of the inverse, adjugate over determinant, with a relative error of at most 2^-51 *)
Theorem C105_near A n k f : 1 <= n <= 4 -> holds A n n k f -> within n n f (limit n) -> -250 <= k <= 225 -> zdet (Z.to_nat n) f <> 0 ->
  exists A' g, inverse A = Val (Some A') /\ shows A' n n g /\ forall i j, 0 <= i < n -> 0 <= j < n ->
    exists q, dbl (g i j) q /\ (Qabs (q * (inject_Z (zdet (Z.to_nat n) f) * q2 k) - inject_Z (zadj (Z.to_nat n) f i j)) <= Qabs (inject_Z (zadj (Z.to_nat n) f i j)) * q2 (-51))%Q.
Proof.
  intros N H W K D. destruct (inv_near A n f k N H W K D) as (A' & g & E & S & X). exists A', g. split; [exact E|]. split; [exact S|]. intros i j Hi Hj. destruct (X i j Hi Hj) as (r & R & B). destruct (is_dbl _ _ R) as (q & Dq & <-). exists q. split; [exact Dq|]. apply Rle_Qle. rewrite Q2R_abs, Q2R_minus, !Q2R_mult, Q2R_abs, !Q2R_Z, !Q2R_q2. exact B.
Qed.
(** adjugate over determinant is the inverse *)
Theorem C105_inverse n f i j : 1 <= n <= 4 -> 0 <= i < n -> 0 <= j < n ->
  zprod n f (zadj (Z.to_nat n) f) i j = zdet (Z.to_nat n) f * ident i j /\ zprod n (zadj (Z.to_nat n) f) f i j = zdet (Z.to_nat n) f * ident i j.
Proof. intros N Hi Hj. split; [exact (adj_r n f i j N Hi Hj)|exact (adj_l n f i j N Hi Hj)]. Qed.
(** a matrix without inverse is not reported: the answer is a matrix without a single number *)
Theorem C105_singular_refuted A n k f : 1 <= n <= 4 -> holds A n n k f -> within n n f (limit n) -> -250 <= k <= 225 -> zdet (Z.to_nat n) f = 0 ->
  exists A' g, inverse A = Val (Some A') /\ shows A' n n g /\ forall i j q, 0 <= i < n -> 0 <= j < n -> ~ dbl (g i j) q.
Proof. exact (inv_singular A n f k). Qed.
(** * the hypotheses are met *)
(** the matrix of the integers l, column by column *)
Definition imat (n : Z) (l : list Z) : mat := Mat n n (map int64f l).
Lemma imat_holds n l : 0 <= n <= 4 -> zlen l = n * n -> Forall (fun z => - 2 ^ 53 <= z <= 2 ^ 53) l -> holds (imat n l) n n 0 (fun i j => nth (Z.to_nat (i + j * n)) l 0).
Proof.
  intros N L F. exists (fun i j => nth (Z.to_nat (i + j * n)) (map int64f l) (S754_zero false)). split; [apply shows_list; [exact N|unfold zlen in *; rewrite map_length; exact L]|]. intros i j Hi Hj. change (S754_zero false) with (int64f 0). rewrite map_nth. rewrite at_r. cbn [bpow]. rewrite Rmult_1_r. apply int64_r.
  pose proof (cell n n i j Hi Hj). rewrite Forall_forall in F. assert (In (nth (Z.to_nat (i + j * n)) l 0) l) as Q by (apply nth_In; unfold zlen in L; lia). specialize (F _ Q). lia.
Qed.
Lemma imat_within n l B : 0 <= n <= 4 -> zlen l = n * n -> Forall (fun z => - B <= z <= B) l -> within n n (fun i j => nth (Z.to_nat (i + j * n)) l 0) B.
Proof. intros N L F i j Hi Hj. pose proof (cell n n i j Hi Hj). rewrite Forall_forall in F. apply F. apply nth_In. unfold zlen in L. lia. Qed.
Ltac small := repeat (apply Forall_cons; [cbn; lia|]); apply Forall_nil.
Example ex_C101 : exists A e, shows A 2 3 e /\ exists A', set A 1 2 (int64f 5) = Val A' /\ get A' 1 2 = Val (int64f 5).
Proof. destruct (C101_new 2 3 ltac:(lia) ltac:(lia) ltac:(lia)) as (A & _ & S). exists A, (fun _ _ => S754_zero false). split; [exact S|]. destruct (C101_set A 2 3 _ 1 2 (int64f 5) S ltac:(lia) ltac:(lia)) as (A' & E & G & _). now exists A'. Qed.
Example ex_C102 : exists R, mul (imat 2 [1; 3; 2; 4]) (imat 2 [5; 7; 6; 8]) = Val R /\ get R 1 0 = Val (int64f 43) /\ get R 0 1 = Val (int64f 22).
Proof. eexists. split; [vm_compute; reflexivity|]. split; vm_compute; reflexivity. Qed.
Example ex_C102_hyp : holds (imat 2 [1; 3; 2; 4]) 2 2 0 (fun i j => nth (Z.to_nat (i + j * 2)) [1; 3; 2; 4] 0) /\ within 2 2 (fun i j => nth (Z.to_nat (i + j * 2)) [1; 3; 2; 4] 0) 4.
Proof. split; [apply imat_holds; [lia|reflexivity|small]|apply imat_within; [lia|reflexivity|small]]. Qed.
Example ex_C103 : exists A B e e', shows A 1 2 e /\ shows B 2 3 e' /\ plus A B = UB.
Proof.
  destruct (C101_new 1 2 ltac:(lia) ltac:(lia) ltac:(lia)) as (A & _ & S). destruct (C101_new 2 3 ltac:(lia) ltac:(lia) ltac:(lia)) as (B & _ & T). exists A, B. do 2 eexists. split; [exact S|]. split; [exact T|]. exact (proj1 (C103_ub_refuted A B 1 2 3 _ _ S T ltac:(lia) ltac:(lia) ltac:(lia))).
Qed.
Example ex_C104 : det (imat 3 [2; 0; 1; 3; 5; 1; 1; 4; 2]) = Val (Some (int64f 19)).
Proof. vm_compute. reflexivity. Qed.
(** determinant -2: the inverse is exact; determinant 3: it is not, but near; determinant 0 *)
Example ex_C105 : zdet 2 (fun i j => nth (Z.to_nat (i + j * 2)) [1; 3; 2; 4] 0) = -1 * 2 ^ 1 /\ zdet 2 (fun i j => nth (Z.to_nat (i + j * 2)) [1; 3; 2; 9] 0) = 3 /\ zdet 2 (fun i j => nth (Z.to_nat (i + j * 2)) [1; 3; 2; 6] 0) = 0 /\
  inverse (imat 2 [1; 3; 2; 6]) = Val (Some (Mat 2 2 [S754_infinity false; S754_infinity true; S754_infinity true; S754_infinity false])).
Proof. split; [vm_compute; reflexivity|]. split; [vm_compute; reflexivity|]. split; [vm_compute; reflexivity|]. vm_compute. reflexivity. Qed.
Example ex_C105_product : exists A' R, inverse (imat 2 [1; 3; 2; 4]) = Val (Some A') /\ mul (imat 2 [1; 3; 2; 4]) A' = Val R /\ md R = map int64f [1; 0; 0; 1].
Proof. do 2 eexists. split; [vm_compute; reflexivity|]. split; vm_compute; reflexivity. Qed.
Print Assumptions C101_new.
Print Assumptions C101_set.
Print Assumptions C101_add.
Print Assumptions C101_zeros.
Print Assumptions C101_copy.
Print Assumptions C101_transpose.
Print Assumptions C101_transpose_twice.
Print Assumptions C101_insert.
Print Assumptions C101_diag.
Print Assumptions C101_alias_refuted.
Print Assumptions C101_range_refuted.
Print Assumptions C101_large_refuted.
Print Assumptions C102_product.
Print Assumptions C102_mismatch.
Print Assumptions C102_vector.
Print Assumptions C102_exact.
Print Assumptions C102_identity.
Print Assumptions C102_assoc.
Print Assumptions C102_assoc_refuted.
Print Assumptions C103_square.
Print Assumptions C103_multiples.
Print Assumptions C103_shape_refuted.
Print Assumptions C103_ub_refuted.
Print Assumptions C104_det.
Print Assumptions C104_none.
Print Assumptions C104_transpose.
Print Assumptions C104_product.
Print Assumptions C105_exact.
Print Assumptions C105_near.
Print Assumptions C105_inverse.
Print Assumptions C105_singular_refuted.
