(** L_Grid.v -- polynomials of doubles from different grids. *)
From Coq Require Import Reals Lra ZArith QArith Qabs Qpower Qreals.
From Flocq Require Import Core BinarySingleNaN.
From Coq Require Import SpecFloat.
From Verif Require Import Base M_Float M_MathF M_Rect M_Matrix L_Float S_Double L_Double L_MathF S_Matrix L_Matrix L_Matrix2.
Local Open Scope Z_scope.

Lemma at_shift k k' z x : k' <= k -> at_ k z x -> at_ k' (z * 2 ^ (k - k')) x.
Proof.
  intros K. rewrite !at_r. intros H. rewrite mult_IZR. change 2 with (radix_val radix2) at 1. rewrite IZR_Zpower by lia. rewrite Rmult_assoc, <- bpow_plus. now replace (k - k' + k') with k by lia.
Qed.
(** the grid of the variable v is 2^(K v), its bound B v steps *)
Fixpoint xp (K : Z -> Z) (e : ex) : Z :=
  match e with EV v => K v | EAdd a b => Z.min (xp K a) (xp K b) | ESub a b => Z.min (xp K a) (xp K b) | EMul a b => xp K a + xp K b | ENeg a => xp K a end.
Fixpoint gz (K : Z -> Z) (z : Z -> Z) (e : ex) : Z :=
  match e with
  | EV v => z v
  | EAdd a b => gz K z a * 2 ^ (xp K a - xp K e) + gz K z b * 2 ^ (xp K b - xp K e)
  | ESub a b => gz K z a * 2 ^ (xp K a - xp K e) - gz K z b * 2 ^ (xp K b - xp K e)
  | EMul a b => gz K z a * gz K z b
  | ENeg a => - gz K z a
  end.
Fixpoint gb (K : Z -> Z) (B : Z -> Z) (e : ex) : Z :=
  match e with
  | EV v => B v
  | EAdd a b => gb K B a * 2 ^ (xp K a - xp K e) + gb K B b * 2 ^ (xp K b - xp K e)
  | ESub a b => gb K B a * 2 ^ (xp K a - xp K e) + gb K B b * 2 ^ (xp K b - xp K e)
  | EMul a b => gb K B a * gb K B b
  | ENeg a => gb K B a
  end.
Fixpoint gok (K B : Z -> Z) (N : Z) (e : ex) : bool :=
  (gb K B e <=? 2 ^ 53) && (-1000 <=? xp K e) && (xp K e <=? 900) &&
  match e with EV v => (0 <=? v) && (v <? N) | EAdd a b | ESub a b | EMul a b => gok K B N a && gok K B N b | ENeg a => gok K B N a end.
Lemma gx_ok K B N x z e : (forall v, 0 <= v < N -> at_ (K v) (z v) (x v) /\ - B v <= z v <= B v) -> gok K B N e = true ->
  at_ (xp K e) (gz K z e) (evf add64 sub64 mul64 fneg x e) /\ - gb K B e <= gz K z e <= gb K B e.
Proof.
  intros H. induction e as [v|a IHa b IHb|a IHa b IHb|a IHa b IHb|a IHa]; cbn [gok evf]; intros O; apply andb_true_iff in O as [O O2]; apply andb_true_iff in O as [O O3]; apply andb_true_iff in O as [O1 O4]; apply Z.leb_le in O1, O3, O4.
  - apply andb_true_iff in O2 as [V1 V2]. cbn [xp gz gb]. apply H. lia.
  - apply andb_true_iff in O2 as [O5 O6]. destruct (IHa O5) as [Ia Ja]. destruct (IHb O6) as [Ib Jb]. cbn [gz gb]. set (m := xp K (EAdd a b)) in *. assert (Ma : m <= xp K a) by (unfold m; cbn [xp]; lia). assert (Mb : m <= xp K b) by (unfold m; cbn [xp]; lia). cbn [gb] in O1. fold m in O1.
    pose proof (Z.pow_pos_nonneg 2 (xp K a - m) ltac:(lia) ltac:(lia)) as Pa. pose proof (Z.pow_pos_nonneg 2 (xp K b - m) ltac:(lia) ltac:(lia)) as Pb. set (pa := 2 ^ (xp K a - m)) in *. set (pb := 2 ^ (xp K b - m)) in *.
    assert (Q1 : - (gb K B a * pa) <= gz K z a * pa <= gb K B a * pa) by nia. assert (Q2 : - (gb K B b * pb) <= gz K z b * pb <= gb K B b * pb) by nia. split; [|lia]. apply add_at; [now apply at_shift|now apply at_shift|lia|lia].
  - apply andb_true_iff in O2 as [O5 O6]. destruct (IHa O5) as [Ia Ja]. destruct (IHb O6) as [Ib Jb]. cbn [gz gb]. set (m := xp K (ESub a b)) in *. assert (Ma : m <= xp K a) by (unfold m; cbn [xp]; lia). assert (Mb : m <= xp K b) by (unfold m; cbn [xp]; lia). cbn [gb] in O1. fold m in O1.
    pose proof (Z.pow_pos_nonneg 2 (xp K a - m) ltac:(lia) ltac:(lia)) as Pa. pose proof (Z.pow_pos_nonneg 2 (xp K b - m) ltac:(lia) ltac:(lia)) as Pb. set (pa := 2 ^ (xp K a - m)) in *. set (pb := 2 ^ (xp K b - m)) in *.
    assert (Q1 : - (gb K B a * pa) <= gz K z a * pa <= gb K B a * pa) by nia. assert (Q2 : - (gb K B b * pb) <= gz K z b * pb <= gb K B b * pb) by nia. split; [|lia]. apply sub_at; [now apply at_shift|now apply at_shift|lia|lia].
  - apply andb_true_iff in O2 as [O5 O6]. destruct (IHa O5) as [Ia Ja]. destruct (IHb O6) as [Ib Jb]. cbn [gz gb xp]. cbn [gb] in O1. cbn [xp] in O3, O4. assert (Q : - (gb K B a * gb K B b) <= gz K z a * gz K z b <= gb K B a * gb K B b) by nia. split; [|exact Q]. apply mul_at; [exact Ia|exact Ib|lia|lia].
  - destruct (IHa O2) as [Ia Ja]. cbn [gz gb xp]. split; [now apply opp_at|lia].
Qed.
(** the values as rational numbers *)
Fixpoint evq (q : Z -> Q) (e : ex) : Q :=
  match e with EV v => q v | EAdd a b => (evq q a + evq q b)%Q | ESub a b => (evq q a - evq q b)%Q | EMul a b => (evq q a * evq q b)%Q | ENeg a => (- evq q a)%Q end.
Lemma q2_plus a b : (q2 (a + b) == q2 a * q2 b)%Q.
Proof. unfold q2. apply Qpower_plus. discriminate. Qed.
Lemma q2_int n : 0 <= n -> (inject_Z (2 ^ n) == q2 n)%Q.
Proof. intros N. unfold q2. change (2 # 1)%Q with (inject_Z 2). now rewrite <- Zpower_Qpower. Qed.
Lemma q2_shift z a b : b <= a -> (inject_Z (z * 2 ^ (a - b)) * q2 b == inject_Z z * q2 a)%Q.
Proof. intros H. rewrite inject_Z_mult, q2_int by lia. rewrite <- Qmult_assoc, <- q2_plus. now replace (a - b + b) with a by lia. Qed.
Lemma evq_gz K z q e : (forall v, (q v == inject_Z (z v) * q2 (K v))%Q) -> (inject_Z (gz K z e) * q2 (xp K e) == evq q e)%Q.
Proof.
  intros H. induction e as [v|a IHa b IHb|a IHa b IHb|a IHa b IHb|a IHa]; cbn [gz evq].
  - cbn [xp]. now rewrite H.
  - rewrite inject_Z_plus, Qmult_plus_distr_l. rewrite !q2_shift by (cbn [xp]; lia). now rewrite IHa, IHb.
  - unfold Qminus, Z.sub at 1. rewrite inject_Z_plus, Qmult_plus_distr_l, <- IHa, <- IHb. rewrite q2_shift by (cbn [xp]; lia). rewrite inject_Z_opp. rewrite <- (q2_shift (gz K z b) (xp K b) (xp K (ESub a b))) by (cbn [xp]; lia). ring.
  - cbn [xp]. rewrite inject_Z_mult, q2_plus, <- IHa, <- IHb. ring.
  - cbn [xp]. rewrite inject_Z_opp, <- IHa. ring.
Qed.
Lemma gx_q K B N x z q e : (forall v, 0 <= v < N -> at_ (K v) (z v) (x v) /\ - B v <= z v <= B v) -> (forall v, (q v == inject_Z (z v) * q2 (K v))%Q) -> gok K B N e = true -> dbl (evf add64 sub64 mul64 fneg x e) (evq q e).
Proof. intros H Q O. destruct (gx_ok K B N x z e H O) as [R _]. unfold at_ in R. apply (dbl_eq _ _ _ R). now apply evq_gz. Qed.
(** variables from lists: [l] the doubles and their steps, [kb] their grids and bounds *)
Definition xof (l : list (spec_float * Z)) (v : Z) : spec_float := fst (nth (Z.to_nat v) l (S754_zero false, 0)).
Definition zof (l : list (spec_float * Z)) (v : Z) : Z := snd (nth (Z.to_nat v) l (S754_zero false, 0)).
Definition kof (kb : list (Z * Z)) (v : Z) : Z := fst (nth (Z.to_nat v) kb (0, 0)).
Definition bof (kb : list (Z * Z)) (v : Z) : Z := snd (nth (Z.to_nat v) kb (0, 0)).
Definition var_ok (a : spec_float * Z) (b : Z * Z) : Prop := at_ (fst b) (snd a) (fst a) /\ - snd b <= snd a <= snd b.
Lemma gx_l l kb t q e : Forall2 var_ok l kb -> gok (kof kb) (bof kb) (zlen l) e = true -> evf add64 sub64 mul64 fneg (xof l) e = t -> (evq (fun v => inject_Z (zof l v) * q2 (kof kb v))%Q e == q)%Q -> dbl t q.
Proof.
  intros F O <- Q. refine (dbl_eq _ _ _ _ Q). apply (gx_q (kof kb) (bof kb) (zlen l) (xof l) (zof l)); [|reflexivity|exact O]. intros v V.
  assert (G : forall n l kb, Forall2 var_ok l kb -> (n < length l)%nat -> var_ok (nth n l (S754_zero false, 0)) (nth n kb (0, 0))).
  { clear. induction n as [|n IH]; intros l kb F Hn; destruct F as [|a b l kb H F]; cbn [length] in Hn; try lia; cbn [nth]; [exact H|apply IH; [exact F|lia]]. }
  apply (G (Z.to_nat v) l kb F). unfold zlen in V. lia.
Qed.
Ltac lookup t l n := match l with (t, _) :: _ => constr:(EV n) | _ :: ?l => let n' := eval compute in (n + 1) in lookup t l n' end.
Ltac reifyl l t :=
  match t with
  | add64 ?a ?b => let a' := reifyl l a in let b' := reifyl l b in constr:(EAdd a' b')
  | sub64 ?a ?b => let a' := reifyl l a in let b' := reifyl l b in constr:(ESub a' b')
  | mul64 ?a ?b => let a' := reifyl l a in let b' := reifyl l b in constr:(EMul a' b')
  | fneg ?a => let a' := reifyl l a in constr:(ENeg a')
  | _ => lookup t l 0
  end.
Lemma coord_var k b x q : coord k b x q -> exists z, var_ok (x, z) (- k, 2 ^ b) /\ (q == inject_Z z * q2 (- k))%Q.
Proof. intros (D & z & B & E). exists z. split; [|exact E]. split; [|exact B]. exact (dbl_eq _ _ _ D E). Qed.
Lemma int_var n : - 2 ^ 53 <= n <= 2 ^ 53 -> 0 <= n -> var_ok (int64f n, n) (0, n).
Proof. intros N P. split; [|cbn [fst snd]; lia]. cbn [fst snd]. rewrite at_r. cbn [bpow]. rewrite Rmult_1_r. apply int64_r. lia. Qed.
Lemma zero_var : var_ok (S754_zero false, 0) (0, 0).
Proof. split; [apply zero_at|cbn; lia]. Qed.
Ltac vars := repeat first [apply Forall2_nil | apply Forall2_cons; [first [assumption | apply zero_var | apply int_var; lia]|]].
Ltac qvars := cbv [evq zof kof nth fst snd Z.to_nat Pos.to_nat Pos.iter_op Nat.add]; change (q2 0) with 1%Q; change (inject_Z 0) with 0%Q; change (inject_Z 1) with 1%Q; change (inject_Z 2) with 2%Q.
Ltac by_grid l kb := match goal with |- dbl ?t ?q => let E := reifyl l t in apply (gx_l l kb t q E) end; [vars | vm_compute; reflexivity | generalize add64, sub64, mul64, fneg; intros; reflexivity | qvars].
