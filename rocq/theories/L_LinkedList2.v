From Verif Require Import Base M_Undo M_LinkedList S_LinkedList L_LinkedList.
Ltac Zify.zify_post_hook ::= Z.to_euclidean_division_equations.
Ltac ucell := unfold cnext, cprev, cdata, cstart, cend, ccount, this in *.
(** nodes: element, data *)
Definition hd_id (es : list (Z * Z)) (q : Z) : Z := match es with [] => q | (e, _) :: _ => e end.
Fixpoint last_id (p : Z) (es : list (Z * Z)) : Z := match es with [] => p | (e, _) :: t => last_id e t end.
Fixpoint dls (c : list Z) (p : Z) (es : list (Z * Z)) (q : Z) : Prop :=
  match es with
  | [] => True
  | (e, d) :: t => lget c (cprev e) = Some p /\ lget c (cnext e) = Some (hd_id t q) /\ lget c (cdata e) = Some d /\ dls c e t q
  end.
Lemma hd_app a b q : hd_id (a ++ b) q = hd_id a (hd_id b q). Proof. destruct a as [|[e d] a]; reflexivity. Qed.
Lemma last_app a : forall p b, last_id p (a ++ b) = last_id (last_id p a) b.
Proof. induction a as [|[e d] a IH]; intros p b; [reflexivity|]. cbn [app last_id]. apply IH. Qed.
Lemma dls_app c a : forall p b q, dls c p (a ++ b) q <-> dls c p a (hd_id b q) /\ dls c (last_id p a) b q.
Proof.
  induction a as [|[e d] a IH]; intros p b q; [cbn [app dls last_id]; tauto|]. cbn [app dls last_id]. rewrite hd_app, IH. tauto.
Qed.
Lemma dls_frame c c' es : forall p q, (forall e l, In e (map fst es) -> l = cnext e \/ l = cprev e \/ l = cdata e -> lget c' l = lget c l) -> dls c p es q -> dls c' p es q.
Proof.
  induction es as [|[e d] es IH]; intros p q F H; [exact Logic.I|]. cbn [dls] in *. destruct H as (H1 & H2 & H3 & H4).
  rewrite !(F e) by (cbn [map fst]; auto; now left). repeat (split; [assumption|]). apply IH; [|exact H4]. intros x l Hx. apply F. now right.
Qed.
Record lrep (N : nat) (f : Z) (c : list Z) (es : list (Z * Z)) : Prop := Lrep {
  lr_len : zlen c = 3 * Z.of_nat N + 3;
  lr_start : lget c cstart = Some (hd_id es 0);
  lr_end : lget c cend = Some (last_id 0 es);
  lr_count : lget c ccount = Some (u32 (zlen es));
  lr_dls : dls c 0 es 0;
  lr_nd : NoDup (map fst es);
  lr_in : Forall (fun e => 2 <= e < f) (map fst es);
  lr_f : 2 <= f <= Z.of_nat N + 2;
  lr_fresh : forall e, f <= e < Z.of_nat N + 2 -> lget c (cnext e) = Some 0 /\ lget c (cprev e) = Some 0
}.
Lemma regs_app xs : forall ys m w, regs (xs ++ ys) m w = let* (m, w) := regs xs m w in regs ys m w.
Proof. induction xs as [|x xs IH]; intros ys m w; [reflexivity|]. cbn [app regs]. destruct (reg1 x m w) as [[m1 w1]| | |]; try reflexivity. cbn [bind]. apply IH. Qed.
Lemma regs_none xs : forall w, regs xs None w = Val (None, w).
Proof. induction xs as [|x xs IH]; intros w; [reflexivity|]. cbn [regs]. unfold reg1, reg_ref, reg_val. destruct (eref x); cbn [bind]; apply IH. Qed.
Lemma apply_app xs : forall ys c, apply_ef (xs ++ ys) c = apply_ef ys (apply_ef xs c).
Proof. induction xs as [|x xs IH]; intros; [reflexivity|]. cbn [app apply_ef]. apply IH. Qed.

(** * the changes the calls make *)
Definition opt {A} (b : bool) (l : list A) : list A := if b then l else [].
Definition add_effs (i e st n : Z) : list ef :=
  EF i (cprev i) e true :: opt (negb (e =? 0)) [EF e (cnext e) i true] ++ opt (st =? 0) [EF this cstart i true] ++ [EF this cend i true; EF this ccount (u32 (n + 1)) false].
Definition before_effs (x i p st n : Z) : list ef :=
  EF i (cprev i) p true :: EF i (cnext i) x true :: opt (st =? x) [EF this cstart i true] ++ EF x (cprev x) i true :: opt (negb (p =? 0)) [EF x (cnext p) i true] ++ [EF this ccount (u32 (n + 1)) false].
Definition remove_effs (e p q st en n : Z) : list ef :=
  opt (negb (p =? 0)) [EF p (cnext p) q true] ++ opt (negb (q =? 0)) [EF q (cprev q) p true] ++ opt (st =? e) [EF this cstart q true] ++ opt (en =? e) [EF this cend p true] ++
  [EF e (cprev e) 0 true; EF e (cnext e) 0 true; EF this ccount (u32 (n - 1)) false].
Definition swap_effs (e1 e2 x y : Z) : list ef := [EF e1 (cdata e1) y true; EF e2 (cdata e2) x true].

Ltac stepregs H := repeat match type of H with
  | bind (reg_ref ?a ?b ?c ?d) _ = _ => destruct (reg_ref a b c d) as [[? ?]| | |]; try discriminate; cbn [bind] in H |- *
  | bind (reg_val ?a ?b ?c ?d) _ = _ => destruct (reg_val a b c d) as [[? ?]| | |]; try discriminate; cbn [bind] in H |- *
  end; injection H as -> ->.
Ltac cg := rewrite ?cset_get by (rewrite ?cset_zlen; lia).
Ltac eqs := repeat match goal with |- context [?a =? ?b] => first [replace (a =? b) with true by lia | replace (a =? b) with false by lia | destruct (Z.eqb_spec a b)] end.
Lemma add_item_code N i e st n m c r g m1 r1 : zlen c = 3 * Z.of_nat N + 3 -> lget c cend = Some e -> lget c cstart = Some st -> lget c ccount = Some n ->
  2 <= i < Z.of_nat N + 2 -> e = 0 \/ 2 <= e < Z.of_nat N + 2 -> e <> i -> 1 <= r1 i -> (e <> 0 -> 1 <= r1 e) ->
  regs (add_effs i e st n) m (World c r g) = Val (m1, World c r1 g) ->
  ll_add_item i m (World c r g) = Val (m1, World (apply_ef (add_effs i e st n) c) r1 g).
Proof.
  intros L Ge Gs Gn Hi He Ne Ai Ae H. unfold ll_add_item. rewrite (read_ok _ _ _ _ _ Ge), (read_ok _ _ _ _ _ Gs). cbn [bind]. unfold add_effs in *.
  destruct (Z.eqb_spec e 0) as [->|E0]; destruct (Z.eqb_spec st 0) as [->|S0]; cbn [negb opt app regs apply_ef] in *; unfold reg1 in H; cbn [eref eo el evl] in *; stepregs H; ucell.
  all: rewrite putm_ok by (rewrite ?cset_zlen; lia); cbn [bind].
  all: repeat (rewrite putm_ok by (rewrite ?cset_zlen; lia); cbn [bind]).
  all: rewrite write_ok by (rewrite ?cset_zlen; lia); cbn [bind].
  all: try (rewrite write_ok by (rewrite ?cset_zlen; lia); cbn [bind]).
  all: rewrite (read_ok _ _ _ _ n) by (cg; eqs; congruence || lia); cbn [bind].
  all: rewrite write_ok by (rewrite ?cset_zlen; lia); cbn [bind].
  all: do 3 f_equal; apply lget_ext; intros j; cg; eqs; reflexivity || lia.
Qed.
Lemma before_item_code N x i p st n m c r g m1 r1 : zlen c = 3 * Z.of_nat N + 3 -> lget c (cprev x) = Some p -> lget c cstart = Some st -> lget c ccount = Some n ->
  2 <= i < Z.of_nat N + 2 -> 2 <= x < Z.of_nat N + 2 -> x <> i -> p = 0 \/ 2 <= p < Z.of_nat N + 2 -> p <> i -> p <> x -> 1 <= r x -> 1 <= r1 i -> 1 <= r1 x -> (p <> 0 -> 1 <= r1 p) ->
  regs (before_effs x i p st n) m (World c r g) = Val (m1, World c r1 g) ->
  ll_add_before_item x i m (World c r g) = Val (m1, World (apply_ef (before_effs x i p st n) c) r1 g).
Proof.
  intros L Gp Gs Gn Hi Hx Ne Hp Np Npx Ax0 Ai Ax Ap H. unfold ll_add_before_item. rewrite (getm_ok _ _ _ _ _ p) by (auto; lia). rewrite (read_ok _ _ _ _ _ Gs). cbn [bind]. unfold before_effs in *.
  destruct (Z.eqb_spec p 0) as [->|P0]; destruct (Z.eqb_spec st x) as [->|S0]; cbn [negb opt app regs apply_ef] in *; unfold reg1 in H; cbn [eref eo el evl] in *; stepregs H; ucell.
  all: repeat first [rewrite putm_ok by (rewrite ?cset_zlen; lia); cbn [bind] | rewrite write_ok by (rewrite ?cset_zlen; lia); cbn [bind] | rewrite (read_ok _ _ _ _ n) by (cg; eqs; congruence || lia); cbn [bind]].
  all: do 3 f_equal; apply lget_ext; intros j; cg; eqs; reflexivity || lia.
Qed.
Lemma remove_item_code N e p q st en n m c r g m1 r1 m2 r2 r3 : zlen c = 3 * Z.of_nat N + 3 -> lget c (cprev e) = Some p -> lget c (cnext e) = Some q -> lget c cstart = Some st -> lget c cend = Some en -> lget c ccount = Some n ->
  2 <= e < Z.of_nat N + 2 -> p = 0 \/ 2 <= p < Z.of_nat N + 2 -> q = 0 \/ 2 <= q < Z.of_nat N + 2 -> p <> e -> q <> e -> 1 <= r e -> 1 <= r2 e -> (p <> 0 -> 1 <= r2 p) -> (q <> 0 -> 1 <= r2 q) ->
  regs (remove_effs e p q st en n) m (World c r g) = Val (m1, World c r1 g) -> reg_release e m1 (World c r1 g) = Val (m2, World c r2 g) -> (forall c, release e (World c r2 g) = Val (World c r3 g)) ->
  ll_remove_item e m (World c r g) = Val (m2, World (apply_ef (remove_effs e p q st en n) c) r3 g).
Proof.
  intros L Gp Gq Gs Ge Gn He Hp Hq Np Nq Ae0 Ae Ap Aq H HR HX. unfold ll_remove_item. rewrite (getm_ok _ _ _ _ _ p) by (auto; lia). cbn [bind]. rewrite (getm_ok _ _ _ _ _ q) by (auto; lia). rewrite (read_ok _ _ _ _ _ Gs), (read_ok _ _ _ _ _ Ge). cbn [bind]. unfold remove_effs in *.
  destruct (Z.eqb_spec p 0) as [->|P0]; destruct (Z.eqb_spec q 0) as [->|Q0]; destruct (Z.eqb_spec st e) as [->|S0]; destruct (Z.eqb_spec en e) as [->|E0]; cbn [negb opt app regs apply_ef] in *; unfold reg1 in H; cbn [eref eo el evl] in *; cbn [bind]; stepregs H; rewrite HR; cbn [bind]; ucell.
  all: repeat first [rewrite putm_ok by (rewrite ?cset_zlen; lia); cbn [bind] | rewrite write_ok by (rewrite ?cset_zlen; lia); cbn [bind]
    | rewrite (getm_ok _ _ _ _ (3 * e - 3) q) by (try lia; cg; eqs; congruence || lia); cbn [bind]
    | rewrite (getm_ok _ _ _ _ (3 * e - 2) p) by (try lia; cg; eqs; congruence || lia); cbn [bind]
    | rewrite (getm_ok _ _ _ _ (3 * e - 3) 0) by (try lia; cg; eqs; congruence || lia); cbn [bind]
    | rewrite (getm_ok _ _ _ _ (3 * e - 2) 0) by (try lia; cg; eqs; congruence || lia); cbn [bind]
    | progress cbn [bind] | rewrite HX; cbn [bind]
    | progress (change (0 =? 0) with true; cbn [negb]) | progress (replace (q =? 0) with false by lia; cbn [negb]) | progress (replace (p =? 0) with false by lia; cbn [negb])
    | rewrite (read_ok _ _ _ _ n) by (cg; eqs; congruence || lia); cbn [bind]].
  all: do 3 f_equal; apply lget_ext; intros j; cg; eqs; reflexivity || lia.
Qed.
