(** L_Matrix2.v -- exact arithmetic on a grid: determinant and inverse. *)
From Coq Require Import Reals Lra ZArith QArith Qabs Qpower Qreals.
From Flocq Require Import Core BinarySingleNaN.
From Coq Require Import SpecFloat.
From Verif Require Import Base M_Float M_MathF M_Rect M_Matrix L_Float S_Double L_Double L_MathF S_Matrix L_Matrix.
Local Open Scope Z_scope.

Lemma at_r k z x : at_ k z x <-> is64 x (IZR z * bpow radix2 k).
Proof. unfold at_. rewrite dbl_r, Q2R_mult, Q2R_Z, Q2R_q2. reflexivity. Qed.
Lemma big z k : -1000 <= k <= 900 -> - 2 ^ 53 <= z <= 2 ^ 53 -> (Rabs (IZR z * bpow radix2 k) <= bpow radix2 (53 + k))%R.
Proof. intros K H. apply grid_big; lia. Qed.
Lemma mul_at k1 k2 z1 z2 x y : at_ k1 z1 x -> at_ k2 z2 y -> -1000 <= k1 + k2 <= 900 -> - 2 ^ 53 <= z1 * z2 <= 2 ^ 53 -> at_ (k1 + k2) (z1 * z2) (mul64 x y).
Proof.
  rewrite !at_r. intros X Y K B. assert (E : (IZR z1 * bpow radix2 k1 * (IZR z2 * bpow radix2 k2) = IZR (z1 * z2) * bpow radix2 (k1 + k2))%R) by (rewrite mult_IZR, bpow_plus; ring).
  pose proof (mul64_r x y _ _ (53 + (k1 + k2)) ltac:(lia) X Y) as M. rewrite E in M. specialize (M (big _ _ K B)). rewrite r64_fmt in M by (apply fmt_grid; lia). exact M.
Qed.
Lemma add_at k z1 z2 x y : at_ k z1 x -> at_ k z2 y -> -1000 <= k <= 900 -> - 2 ^ 53 <= z1 + z2 <= 2 ^ 53 -> at_ k (z1 + z2) (add64 x y).
Proof. rewrite !at_r. intros X Y K B. apply add_grid; [exact K|exact X|exact Y|lia]. Qed.
Lemma sub_at k z1 z2 x y : at_ k z1 x -> at_ k z2 y -> -1000 <= k <= 900 -> - 2 ^ 53 <= z1 - z2 <= 2 ^ 53 -> at_ k (z1 - z2) (sub64 x y).
Proof. rewrite !at_r. intros X Y K B. apply sub_grid; [exact K|exact X|exact Y|lia]. Qed.
Lemma opp_at k z x : at_ k z x -> at_ k (- z) (fneg x).
Proof. rewrite !at_r. intros X. apply opp_r in X. rewrite opp_IZR, Ropp_mult_distr_l_reverse. exact X. Qed.
Lemma zero_at k : at_ k 0 zero.
Proof. rewrite at_r. rewrite Rmult_0_l. exists (B754_zero false). repeat split. Qed.
(** * polynomials *)
Inductive ex := EV (v : Z) | EAdd (a b : ex) | ESub (a b : ex) | EMul (a b : ex) | ENeg (a : ex).
Fixpoint evf (ad su mu : spec_float -> spec_float -> spec_float) (ne : spec_float -> spec_float) (x : Z -> spec_float) (e : ex) : spec_float :=
  match e with EV v => x v | EAdd a b => ad (evf ad su mu ne x a) (evf ad su mu ne x b) | ESub a b => su (evf ad su mu ne x a) (evf ad su mu ne x b) | EMul a b => mu (evf ad su mu ne x a) (evf ad su mu ne x b) | ENeg a => ne (evf ad su mu ne x a) end.
Fixpoint evz (z : Z -> Z) (e : ex) : Z :=
  match e with EV v => z v | EAdd a b => evz z a + evz z b | ESub a b => evz z a - evz z b | EMul a b => evz z a * evz z b | ENeg a => - evz z a end.
Fixpoint deg (e : ex) : Z := match e with EV _ => 1 | EAdd a _ => deg a | ESub a _ => deg a | EMul a b => deg a + deg b | ENeg a => deg a end.
Fixpoint bnd (B : Z) (e : ex) : Z := match e with EV _ => B | EAdd a b => bnd B a + bnd B b | ESub a b => bnd B a + bnd B b | EMul a b => bnd B a * bnd B b | ENeg a => bnd B a end.
Fixpoint okx (N B : Z) (e : ex) : bool :=
  (bnd B e <=? 2 ^ 53) &&
  match e with EV v => (0 <=? v) && (v <? N) | EAdd a b => (deg a =? deg b) && okx N B a && okx N B b | ESub a b => (deg a =? deg b) && okx N B a && okx N B b | EMul a b => okx N B a && okx N B b | ENeg a => okx N B a end.
Lemma deg_pos e : 1 <= deg e.
Proof. induction e; cbn [deg]; lia. Qed.
Lemma ex_ok N B k x z e : 0 <= B -> (forall v, 0 <= v < N -> at_ k (z v) (x v) /\ - B <= z v <= B) -> okx N B e = true -> -1000 <= k * deg e <= 900 -> -250 <= k <= 225 -> deg e <= 4 ->
  at_ (k * deg e) (evz z e) (evf add64 sub64 mul64 fneg x e) /\ - bnd B e <= evz z e <= bnd B e.
Proof.
  intros B0 H. induction e as [v|a IHa b IHb|a IHa b IHb|a IHa b IHb|a IHa]; cbn [okx evf evz deg]; intros O K Kk D; apply andb_true_iff in O as [O1 O2]; apply Z.leb_le in O1; cbn [bnd] in O1.
  - apply andb_true_iff in O2 as [V1 V2]. destruct (H v ltac:(lia)) as [H1 H2]. split; [now rewrite Z.mul_1_r|cbn [bnd]; lia].
  - apply andb_true_iff in O2 as [O2 O4]. apply andb_true_iff in O2 as [O2 O3]. apply Z.eqb_eq in O2. destruct (IHa O3 K Kk D) as [Ia Ja]. destruct (IHb O4 ltac:(rewrite <- O2; exact K) Kk ltac:(lia)) as [Ib Jb]. rewrite <- O2 in Ib. cbn [bnd]. split; [|lia]. apply add_at; [exact Ia|exact Ib|exact K|lia].
  - apply andb_true_iff in O2 as [O2 O4]. apply andb_true_iff in O2 as [O2 O3]. apply Z.eqb_eq in O2. destruct (IHa O3 K Kk D) as [Ia Ja]. destruct (IHb O4 ltac:(rewrite <- O2; exact K) Kk ltac:(lia)) as [Ib Jb]. rewrite <- O2 in Ib. cbn [bnd]. split; [|lia]. apply sub_at; [exact Ia|exact Ib|exact K|lia].
  - apply andb_true_iff in O2 as [O3 O4]. pose proof (deg_pos a). pose proof (deg_pos b). destruct (IHa O3 ltac:(nia) Kk ltac:(lia)) as [Ia Ja]. destruct (IHb O4 ltac:(nia) Kk ltac:(lia)) as [Ib Jb]. cbn [bnd]. assert (Bz : - (bnd B a * bnd B b) <= evz z a * evz z b <= bnd B a * bnd B b) by nia. split; [|exact Bz]. rewrite Z.mul_add_distr_l in *. apply mul_at; [exact Ia|exact Ib|lia|lia].
  - destruct (IHa O2 K Kk D) as [Ia Ja]. cbn [bnd]. split; [now apply opp_at|lia].
Qed.
Ltac reify ad su mu ne x t :=
  match t with
  | ad ?a ?b => let a' := reify ad su mu ne x a in let b' := reify ad su mu ne x b in constr:(EAdd a' b')
  | su ?a ?b => let a' := reify ad su mu ne x a in let b' := reify ad su mu ne x b in constr:(ESub a' b')
  | mu ?a ?b => let a' := reify ad su mu ne x a in let b' := reify ad su mu ne x b in constr:(EMul a' b')
  | ne ?a => let a' := reify ad su mu ne x a in constr:(ENeg a')
  | x ?v => constr:(EV v)
  end.
(** * determinant *)
(** the elements in the order of the array *)
Definition el {T} (n : Z) (e : Z -> Z -> T) (v : Z) : T := e (v mod n) (v / n).
Lemma el_range n v : 0 < n -> 0 <= v < n * n -> 0 <= v mod n < n /\ 0 <= v / n < n.
Proof. intros N V. split; [apply Z.mod_pos_bound; lia|]. split; [apply Z.div_pos; lia|apply Z.div_lt_upper_bound; lia]. Qed.
Lemma rd_el A n e v : shows A n n e -> 0 <= v < n * n -> rd (md A) v = Val (el n e v).
Proof.
  intros H V. pose proof H as (_ & _ & N0 & _). assert (N : 0 < n) by (destruct (Z.eq_dec n 0) as [->|]; lia). destruct (el_range n v N V) as [R1 R2].
  pose proof (Z.div_mod v n ltac:(lia)) as E. pose proof (shows_rd A n n e (v mod n) (v / n) H R1 R2) as S. unfold el. rewrite <- S. f_equal. rewrite E at 1. ring.
Qed.
Lemma el_ok k B n e f : 0 < n -> (forall i j, 0 <= i < n -> 0 <= j < n -> at_ k (f i j) (e i j)) -> within n n f B -> forall v, 0 <= v < n * n -> at_ k (el n f v) (el n e v) /\ - B <= el n f v <= B.
Proof. intros N H W v V. destruct (el_range n v N V) as [R1 R2]. unfold el. split; [now apply H|now apply W]. Qed.
Lemma zsum1 g : zsum 1 g = g 0. Proof. unfold zsum. change (zrange (Z.to_nat 1)) with [0]. cbn. lia. Qed.
Lemma zsum2 g : zsum 2 g = g 0 + g 1. Proof. unfold zsum. change (zrange (Z.to_nat 2)) with [0; 1]. cbn. lia. Qed.
Lemma zsum3 g : zsum 3 g = g 0 + g 1 + g 2. Proof. unfold zsum. change (zrange (Z.to_nat 3)) with [0; 1; 2]. cbn. lia. Qed.
Lemma zsum4 g : zsum 4 g = g 0 + g 1 + g 2 + g 3. Proof. unfold zsum. change (zrange (Z.to_nat 4)) with [0; 1; 2; 3]. cbn. lia. Qed.
Ltac idx := repeat match goal with |- context [Z.even ?t] => let b := eval compute in (Z.even t) in change (Z.even t) with b | |- context [?a <? ?b] => let c := eval compute in (a <? b) in change (a <? b) with c end; cbv iota; change (0 + 1) with 1; change (1 + 1) with 2; change (2 + 1) with 3.
Lemma zdet1 f : zdet 1 f = f 0 0. Proof. change (zdet 1 f) with (zsum 1 (fun i => (if Z.even i then 1 else -1) * f i 0 * zdet 0 (fun r c => f (if r <? i then r else r + 1) (c + 1)))). rewrite zsum1. cbn [Z.even zdet]. lia. Qed.
Lemma zdet2 f : zdet 2 f = f 0 0 * f 1 1 - f 1 0 * f 0 1.
Proof. change (zdet 2 f) with (zsum 2 (fun i => (if Z.even i then 1 else -1) * f i 0 * zdet 1 (fun r c => f (if r <? i then r else r + 1) (c + 1)))). rewrite zsum2, !zdet1. idx. ring. Qed.
Lemma zdet3 f : zdet 3 f = f 0 0 * (f 1 1 * f 2 2 - f 2 1 * f 1 2) - f 1 0 * (f 0 1 * f 2 2 - f 2 1 * f 0 2) + f 2 0 * (f 0 1 * f 1 2 - f 1 1 * f 0 2).
Proof. change (zdet 3 f) with (zsum 3 (fun i => (if Z.even i then 1 else -1) * f i 0 * zdet 2 (fun r c => f (if r <? i then r else r + 1) (c + 1)))). rewrite zsum3, !zdet2. idx. ring. Qed.
Lemma zdet4 f : let d3 a b c := f a 1 * (f b 2 * f c 3 - f c 2 * f b 3) - f b 1 * (f a 2 * f c 3 - f c 2 * f a 3) + f c 1 * (f a 2 * f b 3 - f b 2 * f a 3) in
  zdet 4 f = f 0 0 * d3 1 2 3 - f 1 0 * d3 0 2 3 + f 2 0 * d3 0 1 3 - f 3 0 * d3 0 1 2.
Proof. cbv zeta. change (zdet 4 f) with (zsum 4 (fun i => (if Z.even i then 1 else -1) * f i 0 * zdet 3 (fun r c => f (if r <? i then r else r + 1) (c + 1)))). rewrite zsum4, !zdet3. idx. ring. Qed.
Ltac rds n e H := repeat (rewrite (rd_el _ n e _ H) by lia; cbn [bind]).
Ltac elz := repeat match goal with |- context [el ?n ?f ?v] => let i := eval compute in (v mod n) in let j := eval compute in (v / n) in change (el n f v) with (f i j) end.
(** one polynomial of the elements, of degree D *)
Lemma poly ad su mu ne n k e f E D : ad = add64 -> su = sub64 -> mu = mul64 -> ne = fneg -> 1 <= n <= 4 -> (forall i j, 0 <= i < n -> 0 <= j < n -> at_ k (f i j) (e i j)) -> within n n f (limit n) -> -250 <= k <= 225 -> okx (n * n) (limit n) E = true -> deg E = D -> D <= 4 -> bnd (limit n) E <= 2 ^ 53 ->
  at_ (k * D) (evz (el n f) E) (evf ad su mu ne (el n e) E) /\ - 2 ^ 53 <= evz (el n f) E <= 2 ^ 53.
Proof.
  intros -> -> -> -> N G W K O ED D4 B. pose proof (deg_pos E). subst D. destruct (ex_ok (n * n) (limit n) k (el n e) (el n f) E) as [R1 R2]; try assumption.
  - unfold limit. repeat match goal with |- context [if ?b then _ else _] => destruct b end; lia.
  - apply el_ok; [lia|exact G|exact W].
  - nia.
  - split; [exact R1|lia].
Qed.
Lemma det2 A e f k : shows A 2 2 e -> (forall i j, 0 <= i < 2 -> 0 <= j < 2 -> at_ k (f i j) (e i j)) -> within 2 2 f (limit 2) -> -250 <= k <= 225 ->
  exists x, det A = Val (Some x) /\ at_ (k * 2) (zdet 2 f) x /\ - 2 ^ 53 <= zdet 2 f <= 2 ^ 53.
Proof.
  intros H G W K. enough (D : exists E, det A = Val (Some (evf add64 sub64 mul64 fneg (el 2 e) E)) /\ okx (2 * 2) (limit 2) E = true /\ deg E = 2 /\ (bnd (limit 2) E <=? 2 ^ 53) = true /\ evz (el 2 f) E = zdet 2 f).
  { destruct D as (E & D1 & D2 & D3 & D4 & D5). apply Z.leb_le in D4. destruct (poly add64 sub64 mul64 fneg 2 k e f E 2 eq_refl eq_refl eq_refl eq_refl ltac:(lia) G W K D2 D3 ltac:(lia) D4) as [R1 R2]. rewrite D5 in R1, R2. eexists. split; [exact D1|]. split; [exact R1|exact R2]. }
  pose proof H as (E1 & E2 & _). unfold det. rewrite E1, E2, Z.eqb_refl. generalize add64, sub64, mul64, fneg. intros ad su mu ne. cbn [Z.eqb Pos.eqb]; cbv zeta; cbv beta.
  rds 2 e H. match goal with |- exists x, Val (Some ?t) = _ /\ _ => let E := reify ad su mu ne (el 2 e) t in exists E end. split; [cbn [evf]; reflexivity|]. split; [vm_compute; reflexivity|]. split; [reflexivity|]. split; [vm_compute; reflexivity|]. rewrite zdet2. cbn [evz]. elz. ring.
Qed.
Lemma det3 A e f k : shows A 3 3 e -> (forall i j, 0 <= i < 3 -> 0 <= j < 3 -> at_ k (f i j) (e i j)) -> within 3 3 f (limit 3) -> -250 <= k <= 225 ->
  exists x, det A = Val (Some x) /\ at_ (k * 3) (zdet 3 f) x /\ - 2 ^ 53 <= zdet 3 f <= 2 ^ 53.
Proof.
  intros H G W K. enough (D : exists E, det A = Val (Some (evf add64 sub64 mul64 fneg (el 3 e) E)) /\ okx (3 * 3) (limit 3) E = true /\ deg E = 3 /\ (bnd (limit 3) E <=? 2 ^ 53) = true /\ evz (el 3 f) E = zdet 3 f).
  { destruct D as (E & D1 & D2 & D3 & D4 & D5). apply Z.leb_le in D4. destruct (poly add64 sub64 mul64 fneg 3 k e f E 3 eq_refl eq_refl eq_refl eq_refl ltac:(lia) G W K D2 D3 ltac:(lia) D4) as [R1 R2]. rewrite D5 in R1, R2. eexists. split; [exact D1|]. split; [exact R1|exact R2]. }
  pose proof H as (E1 & E2 & _). unfold det. rewrite E1, E2, Z.eqb_refl. generalize add64, sub64, mul64, fneg. intros ad su mu ne. cbn [Z.eqb Pos.eqb]; cbv zeta; cbv beta.
  rds 3 e H. match goal with |- exists x, Val (Some ?t) = _ /\ _ => let E := reify ad su mu ne (el 3 e) t in exists E end. split; [cbn [evf]; reflexivity|]. split; [vm_compute; reflexivity|]. split; [reflexivity|]. split; [vm_compute; reflexivity|]. rewrite zdet3. cbn [evz]. elz. ring.
Qed.
Lemma det4 A e f k : shows A 4 4 e -> (forall i j, 0 <= i < 4 -> 0 <= j < 4 -> at_ k (f i j) (e i j)) -> within 4 4 f (limit 4) -> -250 <= k <= 225 ->
  exists x, det A = Val (Some x) /\ at_ (k * 4) (zdet 4 f) x /\ - 2 ^ 53 <= zdet 4 f <= 2 ^ 53.
Proof.
  intros H G W K. enough (D : exists E, det A = Val (Some (evf add64 sub64 mul64 fneg (el 4 e) E)) /\ okx (4 * 4) (limit 4) E = true /\ deg E = 4 /\ (bnd (limit 4) E <=? 2 ^ 53) = true /\ evz (el 4 f) E = zdet 4 f).
  { destruct D as (E & D1 & D2 & D3 & D4 & D5). apply Z.leb_le in D4. destruct (poly add64 sub64 mul64 fneg 4 k e f E 4 eq_refl eq_refl eq_refl eq_refl ltac:(lia) G W K D2 D3 ltac:(lia) D4) as [R1 R2]. rewrite D5 in R1, R2. eexists. split; [exact D1|]. split; [exact R1|exact R2]. }
  pose proof H as (E1 & E2 & _). unfold det. rewrite E1, E2, Z.eqb_refl. generalize add64, sub64, mul64, fneg. intros ad su mu ne. cbn [Z.eqb Pos.eqb]; cbv zeta; cbv beta.
  rds 4 e H. match goal with |- exists x, Val (Some ?t) = _ /\ _ => let E := reify ad su mu ne (el 4 e) t in exists E end. split; [cbn [evf]; reflexivity|]. split; [vm_compute; reflexivity|]. split; [reflexivity|]. split; [vm_compute; reflexivity|]. rewrite zdet4. cbn [evz]. elz. ring.
Qed.
Lemma det_ok A n e f k : 1 <= n <= 4 -> shows A n n e -> (forall i j, 0 <= i < n -> 0 <= j < n -> at_ k (f i j) (e i j)) -> within n n f (limit n) -> -250 <= k <= 225 ->
  exists x, det A = Val (Some x) /\ at_ (k * n) (zdet (Z.to_nat n) f) x /\ - 2 ^ 53 <= zdet (Z.to_nat n) f <= 2 ^ 53.
Proof.
  intros N H G W K. assert (Cs : n = 1 \/ n = 2 \/ n = 3 \/ n = 4) by lia. destruct Cs as [->|[->|[->| ->]]].
  - pose proof H as (E1 & E2 & _). unfold det. rewrite E1, E2. change (1 =? 1) with true. cbv iota zeta. rds 1 e H. eexists. split; [reflexivity|]. change (Z.to_nat 1) with 1%nat. rewrite zdet1, Z.mul_1_r. change (el 1 e 0) with (e 0 0). split; [apply G; lia|]. apply W; lia.
  - change (Z.to_nat 2) with 2%nat. now apply (det2 A e).
  - change (Z.to_nat 3) with 3%nat. now apply (det3 A e).
  - change (Z.to_nat 4) with 4%nat. now apply (det4 A e).
Qed.
(** * inverse *)
Lemma lget_zrange n q : 0 <= q < Z.of_nat n -> lget (zrange n) q = Some q.
Proof.
  intros Q. unfold lget, zrange. destruct (Z.ltb_spec q 0); [lia|]. rewrite nth_error_map. assert (E : nth_error (seq 0 n) (Z.to_nat q) = Some (Z.to_nat q)).
  { rewrite (nth_error_nth' _ O) by (rewrite seq_length; lia). rewrite seq_nth by lia. reflexivity. } rewrite E. cbn [option_map]. f_equal. lia.
Qed.
Lemma lget_nth_d {A} (l : list A) q v d : lget l q = Some v -> nth (Z.to_nat q) l d = v.
Proof. unfold lget. destruct (q <? 0); [discriminate|]. intros H. now apply nth_error_nth. Qed.
(** the array of a small matrix *)
Lemma md_el A n e : shows A n n e -> md A = map (el n e) (zrange (Z.to_nat (n * n))).
Proof.
  intros H. pose proof H as (E1 & E2 & N0 & _ & _ & L & _). assert (0 <= n * n) by nia. apply lget_ext. intros q. destruct (Z.lt_ge_cases q 0); [rewrite !lget_out by lia; reflexivity|]. destruct (Z.lt_ge_cases q (n * n)) as [Q|Q].
  - rewrite (rd_inv _ _ _ (rd_el A n e q H ltac:(lia))). symmetry. rewrite lget_map, lget_zrange by lia. reflexivity.
  - rewrite (lget_out (md A)) by lia. symmetry. apply lget_out. right. unfold zrange. rewrite zlen_map, zlen_map. unfold zlen. rewrite seq_length. lia.
Qed.
Lemma shows_list n l : 0 <= n <= 4 -> zlen l = n * n -> shows (Mat n n l) n n (fun i j => nth (Z.to_nat (i + j * n)) l zero).
Proof.
  intros N L. apply shows_iff. cbn [mm mn md]. repeat (split; [reflexivity || lia|]). split; [nia|]. split; [exact L|]. intros i j Hi Hj. pose proof (cell _ _ _ _ Hi Hj) as C. destruct (lget_range l (i + j * n) ltac:(lia)) as (v & Ev). rewrite Ev. f_equal. symmetry. now apply lget_nth_d.
Qed.
Ltac run := match goal with |- exists Es, ?L = _ /\ _ => let L' := eval lazy [rd wr lget lset nset Z.ltb Z.compare Z.to_nat Pos.to_nat Pos.iter_op Nat.add nth_error bind] in L in change L with L' end.
Ltac lift ad su mu ne x t l :=
  match l with
  | [] => constr:(@nil ex)
  | mu ?a t :: ?l => let a' := reify ad su mu ne x a in let l' := lift ad su mu ne x t l in constr:(a' :: l')
  end.
Lemma inv2 A e f dt : shows A 2 2 e -> det A = Val (Some dt) ->
  exists Es, inverse A = Val (Some (Mat 2 2 (map (fun E => mul64 (evf add64 sub64 mul64 fneg (el 2 e) E) (div64 (int64f 1) dt)) Es))) /\ length Es = Z.to_nat (2 * 2) /\
    forallb (fun E => okx (2 * 2) (limit 2) E && (deg E =? 2 - 1)) Es = true /\ (forall i j, 0 <= i < 2 -> 0 <= j < 2 -> evz (el 2 f) (nth (Z.to_nat (i + j * 2)) Es (EV 0)) = zadj 2 f i j).
Proof.
  intros H D. pose proof H as (E1 & E2 & _). unfold inverse. rewrite E1, E2, Z.eqb_refl, D. rewrite (md_el A 2 e H). change (zrange (Z.to_nat (2 * 2))) with [0; 1; 2; 3]. cbn [map]. cbn [Z.eqb Pos.eqb orb bind]. cbv zeta beta. generalize (div64 (int64f 1) dt). intros t. generalize add64, sub64, mul64, fneg. intros ad su mu ne.
  run. match goal with |- exists x, Val (Some (Mat _ _ ?l)) = _ /\ _ => let E := lift ad su mu ne (el 2 e) t l in exists E end. split; [cbn [evf map]; reflexivity|]. split; [reflexivity|]. split; [vm_compute; reflexivity|].
  intros i j Hi Hj. assert (Ci : i = 0 \/ i = 1) by lia. assert (Cj : j = 0 \/ j = 1) by lia. unfold zadj. cbn [Nat.sub].
  destruct Ci as [->| ->]; destruct Cj as [->| ->]; rewrite ?zdet1, ?zdet2, ?zdet3; (match goal with |- context [nth ?q ?l ?d] => let q' := eval compute in q in let v := eval cbv [nth] in (nth q' l d) in change (nth q l d) with v end); cbn [evz]; elz; idx; ring.
Qed.
Lemma inv3 A e f dt : shows A 3 3 e -> det A = Val (Some dt) ->
  exists Es, inverse A = Val (Some (Mat 3 3 (map (fun E => mul64 (evf add64 sub64 mul64 fneg (el 3 e) E) (div64 (int64f 1) dt)) Es))) /\ length Es = Z.to_nat (3 * 3) /\
    forallb (fun E => okx (3 * 3) (limit 3) E && (deg E =? 3 - 1)) Es = true /\ (forall i j, 0 <= i < 3 -> 0 <= j < 3 -> evz (el 3 f) (nth (Z.to_nat (i + j * 3)) Es (EV 0)) = zadj 3 f i j).
Proof.
  intros H D. pose proof H as (E1 & E2 & _). unfold inverse. rewrite E1, E2, Z.eqb_refl, D. rewrite (md_el A 3 e H). change (zrange (Z.to_nat (3 * 3))) with [0; 1; 2; 3; 4; 5; 6; 7; 8]. cbn [map]. cbn [Z.eqb Pos.eqb orb bind]. cbv zeta beta. generalize (div64 (int64f 1) dt). intros t. generalize add64, sub64, mul64, fneg. intros ad su mu ne.
  run. match goal with |- exists x, Val (Some (Mat _ _ ?l)) = _ /\ _ => let E := lift ad su mu ne (el 3 e) t l in exists E end. split; [cbn [evf map]; reflexivity|]. split; [reflexivity|]. split; [vm_compute; reflexivity|].
  intros i j Hi Hj. assert (Ci : i = 0 \/ i = 1 \/ i = 2) by lia. assert (Cj : j = 0 \/ j = 1 \/ j = 2) by lia. unfold zadj. cbn [Nat.sub].
  destruct Ci as [->|[->| ->]]; destruct Cj as [->|[->| ->]]; rewrite ?zdet1, ?zdet2, ?zdet3; (match goal with |- context [nth ?q ?l ?d] => let q' := eval compute in q in let v := eval cbv [nth] in (nth q' l d) in change (nth q l d) with v end); cbn [evz]; elz; idx; ring.
Qed.
Lemma inv4 A e f dt : shows A 4 4 e -> det A = Val (Some dt) ->
  exists Es, inverse A = Val (Some (Mat 4 4 (map (fun E => mul64 (evf add64 sub64 mul64 fneg (el 4 e) E) (div64 (int64f 1) dt)) Es))) /\ length Es = Z.to_nat (4 * 4) /\
    forallb (fun E => okx (4 * 4) (limit 4) E && (deg E =? 4 - 1)) Es = true /\ (forall i j, 0 <= i < 4 -> 0 <= j < 4 -> evz (el 4 f) (nth (Z.to_nat (i + j * 4)) Es (EV 0)) = zadj 4 f i j).
Proof.
  intros H D. pose proof H as (E1 & E2 & _). unfold inverse. rewrite E1, E2, Z.eqb_refl, D. rewrite (md_el A 4 e H). change (zrange (Z.to_nat (4 * 4))) with [0; 1; 2; 3; 4; 5; 6; 7; 8; 9; 10; 11; 12; 13; 14; 15]. cbn [map]. cbn [Z.eqb Pos.eqb orb bind]. cbv zeta beta. generalize (div64 (int64f 1) dt). intros t. generalize add64, sub64, mul64, fneg. intros ad su mu ne.
  run. match goal with |- exists x, Val (Some (Mat _ _ ?l)) = _ /\ _ => let E := lift ad su mu ne (el 4 e) t l in exists E end. split; [cbn [evf map]; reflexivity|]. split; [reflexivity|]. split; [vm_compute; reflexivity|].
  intros i j Hi Hj. assert (Ci : i = 0 \/ i = 1 \/ i = 2 \/ i = 3) by lia. assert (Cj : j = 0 \/ j = 1 \/ j = 2 \/ j = 3) by lia. unfold zadj. cbn [Nat.sub].
  destruct Ci as [->|[->|[->| ->]]]; destruct Cj as [->|[->|[->| ->]]]; rewrite ?zdet1, ?zdet2, ?zdet3; (match goal with |- context [nth ?q ?l ?d] => let q' := eval compute in q in let v := eval cbv [nth] in (nth q' l d) in change (nth q l d) with v end); cbn [evz]; elz; idx; ring.
Qed.
