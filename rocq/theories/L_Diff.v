From Verif Require Import Base M_Diff S_Diff.
Ltac Zify.zify_post_hook ::= Z.to_euclidean_division_equations.
Section L.
Context (eq : Z -> Z -> bool).
Fixpoint lv (a : list Z) : list Z -> Z :=
  fix lv2 (b : list Z) : Z :=
    match a, b with
    | [], _ => zlen b
    | _, [] => zlen a
    | x :: a', y :: b' => if eq x y then lv a' b' else 1 + Z.min (lv a' b') (Z.min (lv a' b) (lv2 b'))
    end.
Lemma lv_nil_l b : lv [] b = zlen b. Proof. destruct b; reflexivity. Qed.
Lemma lv_nil_r a : lv a [] = zlen a. Proof. destruct a; reflexivity. Qed.
Lemma lv_cons x a y b : lv (x :: a) (y :: b) = if eq x y then lv a b else 1 + Z.min (lv a b) (Z.min (lv a (y :: b)) (lv (x :: a) b)).
Proof. reflexivity. Qed.
Lemma lv_step n : forall a b, (length a + length b <= n)%nat ->
  (forall x, lv a b - 1 <= lv (x :: a) b <= lv a b + 1) /\ (forall y, lv a b - 1 <= lv a (y :: b) <= lv a b + 1) /\ (forall x y, lv a b <= lv (x :: a) (y :: b) <= lv a b + 1).
Proof.
  induction n as [|n IH]; intros a b H.
  - destruct a; [|cbn [length] in H; lia]. destruct b; [|cbn [length] in H; lia]. split; [intros x|split; [intros y|intros x y]]; try rewrite lv_cons; rewrite ?lv_nil_l, ?lv_nil_r; cbn; try destruct (eq x y); cbn; lia.
  - assert (P1 : forall x, lv a b - 1 <= lv (x :: a) b <= lv a b + 1).
    { intros x. destruct b as [|y b]; [rewrite !lv_nil_r, zlen_cons; lia|]. cbn [length] in H. destruct (IH a b ltac:(lia)) as (I1 & I2 & I3). rewrite lv_cons. specialize (I2 y). specialize (I1 x). destruct (eq x y); lia. }
    assert (P2 : forall y, lv a b - 1 <= lv a (y :: b) <= lv a b + 1).
    { intros y. destruct a as [|x a]; [rewrite !lv_nil_l, zlen_cons; lia|]. cbn [length] in H. destruct (IH a b ltac:(lia)) as (I1 & I2 & I3). rewrite lv_cons. specialize (I2 y). specialize (I1 x). destruct (eq x y); lia. }
    split; [exact P1|]. split; [exact P2|]. intros x y. rewrite lv_cons. specialize (P1 x). specialize (P2 y). destruct (eq x y); lia.
Qed.
Lemma lv_x a b x : lv a b - 1 <= lv (x :: a) b <= lv a b + 1. Proof. apply (lv_step _ a b (le_n _)). Qed.
Lemma lv_y a b y : lv a b - 1 <= lv a (y :: b) <= lv a b + 1. Proof. apply (lv_step _ a b (le_n _)). Qed.
Lemma lv_xy a b x y : lv a b <= lv (x :: a) (y :: b) <= lv a b + 1. Proof. apply (lv_step _ a b (le_n _)). Qed.
Lemma edits_lv c a b : edits eq c a b -> lv a b <= c.
Proof.
  induction 1 as [|c x y a b E H IH|c x y a b H IH|c y a b H IH|c x a b H IH].
  - reflexivity.
  - rewrite lv_cons, E. exact IH.
  - pose proof (lv_xy a b x y). lia.
  - pose proof (lv_y a b y). lia.
  - pose proof (lv_x a b x). lia.
Qed.
Lemma lv_edits a : forall b, edits eq (lv a b) a b.
Proof.
  induction a as [|x a IHa].
  - induction b as [|y b IHb]; rewrite lv_nil_l in *; [constructor|]. rewrite zlen_cons, Z.add_comm. now constructor.
  - induction b as [|y b IHb].
    + rewrite lv_nil_r, zlen_cons, Z.add_comm. constructor. specialize (IHa []). now rewrite lv_nil_r in IHa.
    + rewrite lv_cons. destruct (eq x y) eqn:E; [now constructor|]. rewrite (Z.add_comm 1).
      destruct (Z.min_spec (lv a b) (Z.min (lv a (y :: b)) (lv (x :: a) b))) as [[_ ->]|[_ ->]]; [now apply e_subst|].
      destruct (Z.min_spec (lv a (y :: b)) (lv (x :: a) b)) as [[_ ->]|[_ ->]]; [now apply e_del|now apply e_ins].
Qed.
Lemma snoc_keep c a b x y : edits eq c a b -> eq x y = true -> edits eq c (a ++ [x]) (b ++ [y]).
Proof. intros H E. induction H; cbn [app]; try now constructor. apply e_keep; [exact E|constructor]. Qed.
Lemma snoc_subst c a b x y : edits eq c a b -> edits eq (c + 1) (a ++ [x]) (b ++ [y]).
Proof. intros H. induction H; cbn [app]; try now constructor. apply e_subst. constructor. Qed.
Lemma snoc_ins c a b y : edits eq c a b -> edits eq (c + 1) a (b ++ [y]).
Proof. intros H. induction H; cbn [app]; try now constructor. apply e_ins. constructor. Qed.
Lemma snoc_del c a b x : edits eq c a b -> edits eq (c + 1) (a ++ [x]) b.
Proof. intros H. induction H; cbn [app]; try now constructor. apply (e_del eq 0 x [] []). constructor. Qed.
Lemma edits_rev c a b : edits eq c a b -> edits eq c (rev a) (rev b).
Proof. induction 1; cbn [rev]; [constructor|now apply snoc_keep|now apply snoc_subst|now apply snoc_ins|now apply snoc_del]. Qed.
Lemma least_rev a b : least_cost eq (lv (rev a) (rev b)) a b.
Proof.
  split.
  - pose proof (lv_edits (rev a) (rev b)) as H. apply edits_rev in H. now rewrite !rev_involutive in H.
  - intros c H. apply edits_lv. now apply edits_rev.
Qed.
(** scripts *)
Lemma script_snoc os a b o x y : script eq os a b -> match o with
  | DEqual => eq x y = true -> script eq (os ++ [o]) (a ++ [x]) (b ++ [y])
  | DModified => eq x y = false -> script eq (os ++ [o]) (a ++ [x]) (b ++ [y])
  | DAdd => script eq (os ++ [o]) a (b ++ [y])
  | DDelete => script eq (os ++ [o]) (a ++ [x]) b
  | DStart => True end.
Proof.
  intros H. destruct o; try exact I; try intros E; induction H; cbn [app]; try (now constructor); try (constructor; [assumption|constructor]); constructor; constructor.
Qed.

Context (u v : list Z) (sym : forall x y, eq x y = eq y x).
(** distance of the prefixes of lengths i and j *)
Definition pd (i j : Z) : Z := lv (rev (firstn (Z.to_nat i) u)) (rev (firstn (Z.to_nat j) v)).
Lemma firstn_next (l : list Z) i : 0 < i <= zlen l -> exists x, lget l (i - 1) = Some x /\ firstn (Z.to_nat i) l = firstn (Z.to_nat (i - 1)) l ++ [x].
Proof.
  intros H. destruct (lget_range l (i - 1) ltac:(lia)) as [x E]. exists x. split; [exact E|]. unfold lget in E. replace (i - 1 <? 0) with false in E by lia.
  replace (Z.to_nat i) with (S (Z.to_nat (i - 1))) by lia. revert E. generalize (Z.to_nat (i - 1)). clear. intros n. revert l. induction n as [|n IH]; intros [|y l] E; cbn [nth_error] in *; try discriminate; [injection E as ->; reflexivity|]. cbn [firstn app]. f_equal. now apply IH.
Qed.
Lemma pd_0_l j : 0 <= j <= zlen v -> pd 0 j = j.
Proof. intros H. unfold pd. change (Z.to_nat 0) with O. cbn [firstn rev]. rewrite lv_nil_l. unfold zlen in *. rewrite rev_length, firstn_length. lia. Qed.
Lemma pd_0_r i : 0 <= i <= zlen u -> pd i 0 = i.
Proof. intros H. unfold pd. change (Z.to_nat 0) with O. cbn [firstn rev]. rewrite lv_nil_r. unfold zlen in *. rewrite rev_length, firstn_length. lia. Qed.
Lemma pd_step i j : 0 < i <= zlen u -> 0 < j <= zlen v -> exists x y, lget u (i - 1) = Some x /\ lget v (j - 1) = Some y /\
  pd i j = (if eq x y then pd (i - 1) (j - 1) else 1 + Z.min (pd (i - 1) (j - 1)) (Z.min (pd (i - 1) j) (pd i (j - 1)))) /\
  pd (i - 1) (j - 1) <= pd i j <= pd (i - 1) (j - 1) + 1 /\ pd (i - 1) (j - 1) - 1 <= pd i (j - 1) <= pd (i - 1) (j - 1) + 1 /\ pd (i - 1) (j - 1) - 1 <= pd (i - 1) j <= pd (i - 1) (j - 1) + 1.
Proof.
  intros Hi Hj. destruct (firstn_next u i Hi) as (x & Ex & Fx). destruct (firstn_next v j Hj) as (y & Ey & Fy). exists x, y. split; [exact Ex|]. split; [exact Ey|].
  unfold pd. rewrite Fx, Fy, !rev_app_distr. cbn [rev app]. split; [reflexivity|]. split; [apply lv_xy|]. split; [apply lv_x|apply lv_y].
Qed.
(** the cell i of diagonal k *)
Definition crow (k i : Z) : Z := if k <? 0 then i + Z.abs k else i.
Definition ccol (k i : Z) : Z := if k <? 0 then i else i + k.
Definition inside (k i : Z) : Prop := 0 <= i /\ crow k i <= zlen u /\ ccol k i <= zlen v.
Record good (st : memo) : Prop := {
  g_pos : forall k, 1 <= zlen (st k);
  g_val : forall k i, 0 <= i < zlen (st k) -> inside k i -> lget (st k) i = Some (pd (crow k i) (ccol k i))
}.
Lemma good0 : good memo0.
Proof.
  constructor; unfold memo0.
  - intros k. change (zlen [Z.abs k]) with 1. lia.
  - intros k i Hi (I1 & I2 & I3). change (zlen [Z.abs k]) with 1 in Hi. replace i with 0 in * by lia. change (lget [Z.abs k] 0) with (Some (Z.abs k)). f_equal. unfold crow, ccol in *. destruct (Z.ltb_spec k 0); [rewrite pd_0_r; lia|rewrite pd_0_l; lia].
Qed.
Lemma push_get st k x k' : push_elem st k x k' = if k' =? k then st k ++ [x] else st k'. Proof. reflexivity. Qed.
Lemma good_push st k : good st -> inside k (zlen (st k)) -> good (push_elem st k (pd (crow k (zlen (st k))) (ccol k (zlen (st k))))).
Proof.
  intros G I. constructor.
  - intros k'. rewrite push_get. destruct (k' =? k); [rewrite zlen_app; change (zlen [_]) with 1; pose proof (g_pos st G k); lia|apply G].
  - intros k' i Hi I'. rewrite push_get in *. destruct (Z.eqb_spec k' k) as [->|]; [|now apply G]. rewrite zlen_app in Hi. change (zlen [_]) with 1 in Hi. destruct (Z_lt_dec i (zlen (st k))) as [L|L].
    + rewrite lget_app_l by lia. apply G; [lia|exact I'].
    + replace i with (zlen (st k)) by lia. rewrite lget_app_r by lia. rewrite Z.sub_diag. reflexivity.
Qed.
Ltac ifs := repeat match goal with |- context [if ?b then _ else _] => lazymatch b with context [if _ then _ else _] => fail | _ => destruct b eqn:? end end.
(** neighbours: left of (r,c) for k >= 0, upper for k < 0, and so on *)
Lemma left_cell k i :
  crow (below k) (if k =? 0 then i - 1 else i) = (if k <? 0 then crow k i - 1 else crow k i) /\ ccol (below k) (if k =? 0 then i - 1 else i) = (if k <? 0 then ccol k i else ccol k i - 1).
Proof. unfold crow, ccol, below. split; ifs; lia. Qed.
Lemma upper_cell k i : crow (above k) (i - 1) = (if k <? 0 then crow k i else crow k i - 1) /\ ccol (above k) (i - 1) = (if k <? 0 then ccol k i - 1 else ccol k i).
Proof. unfold crow, ccol, above. split; ifs; lia. Qed.
Lemma lget_at l i (x : Z) : lget l i = Some x -> at_ l i = Val x. Proof. unfold at_. now intros ->. Qed.
(** objects compared at an inner cell *)
Lemma objs k i : 1 <= i -> inside k i -> exists x y, lget u (crow k i - 1) = Some x /\ lget v (ccol k i - 1) = Some y /\
  objectU u v k i = Val (if k <? 0 then y else x) /\ objectV u v k i = Val (if k <? 0 then x else y) /\ eq (if k <? 0 then y else x) (if k <? 0 then x else y) = eq x y.
Proof.
  intros Hi (I1 & I2 & I3). unfold crow, ccol, objectU, objectV in *. destruct (Z.ltb_spec k 0).
  - destruct (lget_range u (i + Z.abs k - 1) ltac:(lia)) as [x Ex]. destruct (lget_range v (i - 1) ltac:(lia)) as [y Ey]. exists x, y. repeat split; auto; try (apply lget_at; auto). rewrite <- Ex. f_equal. lia.
  - destruct (lget_range u (i - 1) ltac:(lia)) as [x Ex]. destruct (lget_range v (i + k - 1) ltac:(lia)) as [y Ey]. exists x, y. repeat split; auto; try (apply lget_at; auto). rewrite <- Ey. f_equal. lia.
Qed.
Definition csum (k i : Z) : Z := 2 * i + Z.abs k.
Definition need (s : Z) : Z := (s + 1) * (s + 1).
Lemma csum_below k i : csum (below k) (if k =? 0 then i - 1 else i) = csum k i - 1.
Proof. unfold csum, below. ifs; lia. Qed.
Lemma csum_above k i : csum (above k) (i - 1) = csum k i - 1.
Proof. unfold csum, above. ifs; lia. Qed.
Definition frame (s : Z) (st st' : memo) : Prop := forall k, s < csum k (zlen (st k)) -> st' k = st k.
Definition loop_ok (loop : Z -> Z -> Z -> memo -> out (Z * memo)) (k j : Z) : Prop :=
  forall st, good st -> inside k j -> zlen (st k) <= j + 1 -> exists st', loop k j (pd (crow k (zlen (st k) - 1)) (ccol k (zlen (st k) - 1))) st = Val (pd (crow k j) (ccol k j), st') /\ good st' /\ frame (csum k j) st st' /\ j < zlen (st' k).
Lemma inside_mono k i j : 0 <= i <= j -> inside k j -> inside k i.
Proof. unfold inside, crow, ccol. ifs; lia. Qed.
Lemma entry_of_loop loop k j st : loop_ok loop k j -> good st -> inside k j ->
  exists st', entry_with loop k j st = Val (pd (crow k j) (ccol k j), st') /\ good st' /\ frame (csum k j) st st' /\ j < zlen (st' k).
Proof.
  intros L G I. unfold entry_with. pose proof (g_pos st G k). destruct (Z.ltb_spec j (zlen (st k))) as [H1|H1].
  - destruct I as (I1 & I2). rewrite (lget_at _ _ _ (g_val st G k j ltac:(lia) (conj I1 I2))). cbn [bind]. exists st. split; [reflexivity|]. split; [exact G|]. split; [intros k' _; reflexivity|lia].
  - assert (I' : inside k (zlen (st k) - 1)) by (eapply inside_mono; [|exact I]; lia). rewrite (lget_at _ _ _ (g_val st G k (zlen (st k) - 1) ltac:(lia) I')). cbn [bind]. apply L; auto. lia.
Qed.
Lemma frame_trans s t st1 st2 st3 : s <= t -> frame s st1 st2 -> frame t st2 st3 -> frame t st1 st3.
Proof. intros H A B k Hk. rewrite B; [apply A; lia|]. rewrite A; lia. Qed.
Lemma cell_step k i : 1 <= i -> inside k i -> exists x y, objectU u v k i = Val x /\ objectV u v k i = Val y /\
  let me := pd (crow k i) (ccol k i) in let lu := pd (crow k (i - 1)) (ccol k (i - 1)) in
  let l := pd (crow (below k) (if k =? 0 then i - 1 else i)) (ccol (below k) (if k =? 0 then i - 1 else i)) in let up := pd (crow (above k) (i - 1)) (ccol (above k) (i - 1)) in
  inside (below k) (if k =? 0 then i - 1 else i) /\ inside (above k) (i - 1) /\
  (eq x y = true -> me = lu) /\ (eq x y = false -> me = 1 + Z.min lu (Z.min l up)) /\ lu <= me <= lu + 1 /\ lu - 1 <= l <= lu + 1 /\ lu - 1 <= up <= lu + 1.
Proof.
  intros Hi I. destruct (objs k i Hi I) as (x & y & Gx & Gy & Ou & Ov & Es). exists (if k <? 0 then y else x), (if k <? 0 then x else y). split; [exact Ou|]. split; [exact Ov|]. cbv zeta. rewrite Es.
  destruct (left_cell k i) as [L1 L2]. destruct (upper_cell k i) as [U1 U2]. rewrite L1, L2, U1, U2.
  split. { unfold inside. rewrite L1, L2. destruct I as (I1 & I2 & I3). unfold crow, ccol in *. ifs; lia. }
  split. { unfold inside. rewrite U1, U2. destruct I as (I1 & I2 & I3). unfold crow, ccol in *. ifs; lia. }
  assert (B : 0 < crow k i <= zlen u /\ 0 < ccol k i <= zlen v). { destruct I as (I1 & I2 & I3). unfold crow, ccol in *. ifs; lia. } destruct B as [Br Bc].
  destruct (pd_step (crow k i) (ccol k i) Br Bc) as (x' & y' & Gx' & Gy' & P1 & P2 & P3 & P4). rewrite Gx in Gx'. injection Gx' as <-. rewrite Gy in Gy'. injection Gy' as <-.
  assert (C1 : crow k (i - 1) = crow k i - 1) by (unfold crow; ifs; lia). assert (C2 : ccol k (i - 1) = ccol k i - 1) by (unfold ccol; ifs; lia). rewrite C1, C2.
  destruct (k <? 0), (eq x y); repeat split; try discriminate; intros; lia.
Qed.
Lemma loop_main : forall n k j, csum k j <= Z.of_nat n -> forall fuel, need (csum k j) <= Z.of_nat fuel -> loop_ok (entry_loop eq u v fuel) k j.
Proof.
  induction n as [n IH] using (well_founded_induction lt_wf). intros k j Hn.
  assert (M : forall m fuel st, good st -> inside k j -> zlen (st k) <= j + 1 -> j + 1 - zlen (st k) <= Z.of_nat m -> csum k j * csum k j + Z.of_nat m + 1 <= Z.of_nat fuel ->
    exists st', entry_loop eq u v fuel k j (pd (crow k (zlen (st k) - 1)) (ccol k (zlen (st k) - 1))) st = Val (pd (crow k j) (ccol k j), st') /\ good st' /\ frame (csum k j) st st' /\ j < zlen (st' k)).
  { induction m as [|m IHm]; intros fuel st G I Hz Hm Hf; (destruct fuel as [|fuel]; [exfalso; clear - Hf; pose proof (Z.square_nonneg (csum k j)); lia|]); cbn [entry_loop]; pose proof (g_pos st G k) as Gp.
    - replace (zlen (st k) <=? j) with false by lia. exists st. replace (zlen (st k) - 1) with j by lia. split; [reflexivity|]. split; [exact G|]. split; [intros k' _; reflexivity|lia].
    - destruct (Z.leb_spec (zlen (st k)) j) as [H|H].
      2:{ exists st. replace (zlen (st k) - 1) with j by lia. split; [reflexivity|]. split; [exact G|]. split; [intros k' _; reflexivity|lia]. }
      set (i := zlen (st k)) in *. assert (Ii : inside k i) by (eapply inside_mono; [|exact I]; lia).
      destruct (cell_step k i ltac:(lia) Ii) as (x & y & -> & -> & Il & Iu & E1 & E2 & B1 & B2 & B3). cbn [bind].
      assert (Hc : csum k i <= csum k j) by (unfold csum; lia). assert (Hp : 2 <= csum k i) by (unfold csum; lia).
      assert (Nst : forall k0 j0 st0, csum k0 j0 = csum k i - 1 -> good st0 -> inside k0 j0 -> exists st', entry_with (entry_loop eq u v fuel) k0 j0 st0 = Val (pd (crow k0 j0) (ccol k0 j0), st') /\ good st' /\ frame (csum k i - 1) st0 st').
      { intros k0 j0 st0 Hs G0 I0. destruct (entry_of_loop (entry_loop eq u v fuel) k0 j0 st0) as (st' & A1 & A2 & A3 & _); auto; [|exists st'; rewrite <- Hs; auto].
        apply (IH (Z.to_nat (csum k0 j0)) ltac:(lia) k0 j0 ltac:(lia)). unfold need. rewrite Hs. clear - Hf Hc Hp. nia. }
      assert (Fin : forall st1, good st1 -> frame (csum k i - 1) st st1 -> exists st', entry_loop eq u v fuel k j (pd (crow k i) (ccol k i)) (push_elem st1 k (pd (crow k i) (ccol k i))) = Val (pd (crow k j) (ccol k j), st') /\ good st' /\ frame (csum k j) st st' /\ j < zlen (st' k)).
      { intros st1 G1 F1. assert (Ek : st1 k = st k) by (apply F1; fold i; lia). assert (Ez : zlen (push_elem st1 k (pd (crow k i) (ccol k i)) k) = i + 1) by (rewrite push_get, Z.eqb_refl, zlen_app, Ek; reflexivity).
        assert (G2 : good (push_elem st1 k (pd (crow k i) (ccol k i)))) by (pose proof (good_push st1 k G1) as P; rewrite Ek in P; fold i in P; auto).
        destruct (IHm fuel (push_elem st1 k (pd (crow k i) (ccol k i))) G2 I) as (st' & A1 & A2 & A3 & A4); rewrite ?Ez in *; [lia..|]. replace (i + 1 - 1) with i in A1 by lia. exists st'. split; [exact A1|]. split; [exact A2|]. split; [|exact A4].
        intros k' Hk'. destruct (Z.eq_dec k' k) as [->|Nk]; [exfalso; fold i in Hk'; lia|]. assert (S1 : st1 k' = st k') by (apply F1; lia). assert (P1 : push_elem st1 k (pd (crow k i) (ccol k i)) k' = st k') by (rewrite push_get; replace (k' =? k) with false by lia; exact S1). rewrite A3; rewrite P1; auto. }
      destruct (eq x y) eqn:Exy.
      { cbn [bind]. rewrite <- (E1 eq_refl). apply Fin; [exact G|]. intros k' _. reflexivity. }
      specialize (E2 eq_refl). unfold left_with. destruct (Nst (below k) (if k =? 0 then i - 1 else i) st (csum_below k i) G Il) as (st1 & -> & G1 & F1). cbn [bind].
      destruct (Z.ltb_spec (pd (crow (below k) (if k =? 0 then i - 1 else i)) (ccol (below k) (if k =? 0 then i - 1 else i))) (pd (crow k (i - 1)) (ccol k (i - 1)))) as [Hl|Hl].
      { cbn [bind]. replace (pd (crow (below k) (if k =? 0 then i - 1 else i)) (ccol (below k) (if k =? 0 then i - 1 else i)) + 1) with (pd (crow k i) (ccol k i)) by lia. apply Fin; auto. }
      unfold upper_with. destruct (Nst (above k) (i - 1) st1 (csum_above k i) G1 Iu) as (st2 & -> & G2 & F2). cbn [bind].
      match goal with |- context [push_elem st2 k ?e] => replace e with (pd (crow k i) (ccol k i)) end. { apply Fin; auto. eapply frame_trans; [|exact F1|exact F2]; lia. }
      match goal with |- context [if ?b then _ else _] => destruct b eqn:? end; lia. }
  intros fuel Hf st G I Hz. pose proof (g_pos st G k). destruct I as (I1 & I2). apply (M (Z.to_nat (j + 1 - zlen (st k))) fuel st G (conj I1 I2) Hz); [lia|]. unfold need, csum in *. nia.
Qed.
Lemma entry_main fuel k j st : good st -> inside k j -> need (csum k j) <= Z.of_nat fuel ->
  exists st', entry eq u v fuel k j st = Val (pd (crow k j) (ccol k j), st') /\ good st' /\ j < zlen (st' k).
Proof.
  intros G I Hf. destruct (entry_of_loop (entry_loop eq u v fuel) k j st) as (st' & A1 & A2 & _ & A4); auto; [|exists st'; auto].
  apply (loop_main (Z.to_nat (csum k j))); [unfold csum; destruct I; lia|exact Hf].
Qed.

(** the trace *)
Definition rep (steps : list dstep) : Prop := forall n s, nth_error steps n = Some s ->
  reported u v (rows_of (map d_op (firstn (Datatypes.S n) steps))) (cols_of (map d_op (firstn (Datatypes.S n) steps))) s.
Definition trace_ok (steps : list dstep) (r c : Z) : Prop :=
  script eq (map d_op steps) (firstn (Z.to_nat r) u) (firstn (Z.to_nat c) v) /\ changes (map d_op steps) = pd r c /\ rep steps.
Lemma script_len os a b : script eq os a b -> rows_of os = zlen a /\ cols_of os = zlen b.
Proof.
  unfold rows_of, cols_of. induction 1 as [|x y os a b E H IH|x y os a b E H IH|y os a b H IH|x os a b H IH]; [split; reflexivity|..]; cbn [filter takes_u takes_v]; rewrite ?zlen_cons; lia.
Qed.
Lemma firstn_len (l : list Z) r : 0 <= r <= zlen l -> zlen (firstn (Z.to_nat r) l) = r.
Proof. unfold zlen. intros H. rewrite firstn_length. lia. Qed.
Lemma rep_snoc steps s r c : rep steps -> rows_of (map d_op (steps ++ [s])) = r -> cols_of (map d_op (steps ++ [s])) = c -> reported u v r c s -> rep (steps ++ [s]).
Proof.
  intros R Hr Hc Hs n t Hn. destruct (Nat.lt_ge_cases n (length steps)) as [L|L].
  - rewrite nth_error_app1 in Hn by lia. rewrite firstn_app. replace (Datatypes.S n - length steps)%nat with O by lia. cbn [firstn]. rewrite app_nil_r. now apply R.
  - rewrite nth_error_app2 in Hn by lia. destruct (n - length steps)%nat as [|d] eqn:Ed; [|destruct d; discriminate]. injection Hn as <-.
    rewrite firstn_all2 by (rewrite app_length; cbn; lia). now rewrite Hr, Hc.
Qed.
Lemma changes_snoc os o : changes (os ++ [o]) = changes os + (if is_change o then 1 else 0).
Proof. unfold changes. rewrite filter_app, zlen_app. cbn [filter]. destruct (is_change o); reflexivity. Qed.
Lemma trace_snoc steps r c s x y :
  trace_ok steps (if takes_u (d_op s) then r - 1 else r) (if takes_v (d_op s) then c - 1 else c) ->
  (takes_u (d_op s) = true -> 0 < r /\ lget u (r - 1) = Some x) -> (takes_v (d_op s) = true -> 0 < c /\ lget v (c - 1) = Some y) ->
  0 <= r <= zlen u -> 0 <= c <= zlen v ->
  (d_op s = DEqual -> eq x y = true) -> (d_op s = DModified -> eq x y = false) -> d_op s <> DStart ->
  pd r c = pd (if takes_u (d_op s) then r - 1 else r) (if takes_v (d_op s) then c - 1 else c) + (if is_change (d_op s) then 1 else 0) ->
  reported u v r c s -> trace_ok (steps ++ [s]) r c.
Proof.
  intros (T1 & T2 & T3) Hu Hv Br Bc He Hm Hst Hp Hr.
  assert (A : script eq (map d_op (steps ++ [s])) (firstn (Z.to_nat r) u) (firstn (Z.to_nat c) v)).
  { rewrite map_app. cbn [map].
    assert (Fu : takes_u (d_op s) = true -> firstn (Z.to_nat r) u = firstn (Z.to_nat (r - 1)) u ++ [x]).
    { intros H. destruct (Hu H) as [P G]. destruct (firstn_next u r ltac:(lia)) as (x' & G' & F). rewrite G in G'. now injection G' as <-. }
    assert (Fv : takes_v (d_op s) = true -> firstn (Z.to_nat c) v = firstn (Z.to_nat (c - 1)) v ++ [y]).
    { intros H. destruct (Hv H) as [P G]. destruct (firstn_next v c ltac:(lia)) as (y' & G' & F). rewrite G in G'. now injection G' as <-. }
    pose proof (script_snoc _ _ _ (d_op s) x y T1) as Sn. destruct (d_op s); cbn [takes_u takes_v] in *; try congruence; rewrite ?Fu, ?Fv by reflexivity; auto. }
  split; [exact A|]. split.
  - rewrite map_app. cbn [map]. rewrite changes_snoc, T2. lia.
  - apply script_len in A as [A1 A2]. rewrite firstn_len in A1, A2 by lia. eapply rep_snoc; eauto.
Qed.
Lemma crow_pred k i : crow k (i - 1) = crow k i - 1. Proof. unfold crow; ifs; lia. Qed.
Lemma ccol_pred k i : ccol k (i - 1) = ccol k i - 1. Proof. unfold ccol; ifs; lia. Qed.
Lemma need_mono a b : 0 <= a <= b -> need a <= need b.
Proof. intros H. unfold need. apply Z.mul_le_mono_nonneg; lia. Qed.
Lemma obj_edge k : inside k 0 -> k <> 0 -> exists x, objectV u v k 0 = Val x /\ (k < 0 -> lget u (crow k 0 - 1) = Some x) /\ (0 < k -> lget v (ccol k 0 - 1) = Some x).
Proof.
  intros (_ & I2 & I3) N. unfold crow, ccol, objectV in *. destruct (Z.ltb_spec k 0) as [H|H].
  - destruct (lget_range u (Z.abs k + 0 - 1) ltac:(lia)) as [x E]. exists x. split; [now apply lget_at|]. split; intros; [|lia]. rewrite <- E. f_equal. lia.
  - destruct (lget_range v (Z.abs k + 0 - 1) ltac:(lia)) as [x E]. exists x. split; [now apply lget_at|]. split; intros; [lia|]. rewrite <- E. f_equal. lia.
Qed.
Lemma bt_main fuel : forall n k i st, good st -> inside k i -> need (csum k i) <= Z.of_nat fuel -> csum k i < Z.of_nat n ->
  exists steps, backtrace eq u v fuel k i st n = Val (DStep DStart None None :: steps) /\ trace_ok steps (crow k i) (ccol k i).
Proof.
  induction n as [|n IH]; intros k i st G I Hf Hn; [destruct I; unfold csum in Hn; lia|]. cbn [backtrace]. unfold bt_op.
  assert (Bd : 0 <= crow k i <= zlen u /\ 0 <= ccol k i <= zlen v) by (destruct I as (I1 & I2 & I3); unfold crow, ccol in *; ifs; lia). destruct Bd as [Br Bc].
  destruct (Z.eqb_spec i 0) as [->|Hi].
  - cbn [bind]. destruct (Z.eqb_spec k 0) as [->|Hk].
    + exists []. split; [reflexivity|]. split; [constructor|]. split; [|intros m s Hm; destruct m; discriminate]. reflexivity.
    + destruct (obj_edge k I Hk) as (x & Ox & X1 & X2).
      assert (Ib : inside (below k) 0) by (clear - I Hk; revert I; unfold inside, crow, ccol, below; ifs; lia).
      assert (Cb : csum (below k) 0 = csum k 0 - 1) by (unfold csum, below; ifs; lia).
      destruct (IH (below k) 0 st G Ib) as (steps & E & T); [pose proof (need_mono (csum (below k) 0) (csum k 0)); destruct I; unfold csum in *; lia|lia|].
      destruct (Z.gtb_spec k 0) as [H|H]; rewrite Ox; cbn [bind].
      * replace (k >=? 0) with true by lia. rewrite E. cbn [bind]. exists (steps ++ [DStep DAdd (Some x) None]). split; [reflexivity|].
        assert (R1 : crow (below k) 0 = crow k 0) by (unfold crow, below; ifs; lia). assert (R2 : ccol (below k) 0 = ccol k 0 - 1) by (unfold ccol, below; ifs; lia).
        assert (P1 : crow k 0 = 0) by (unfold crow; ifs; lia). rewrite R1, R2 in T.
        apply (trace_snoc steps _ _ _ 0 x); cbn [d_op takes_u takes_v is_change]; auto; try discriminate.
        -- intros _. split; [unfold ccol; ifs; lia|apply X2; lia].
        -- rewrite P1, !pd_0_l; [lia| |]; unfold ccol in *; ifs; lia.
        -- unfold reported. cbn [d_op d_obj1 d_obj2]. replace (crow k 0 <=? ccol k 0) with true by (unfold crow, ccol; ifs; lia). split; [symmetry; apply X2; lia|reflexivity].
      * replace (k >=? 0) with false by lia. rewrite E. cbn [bind]. exists (steps ++ [DStep DDelete (Some x) None]). split; [reflexivity|].
        assert (R1 : crow (below k) 0 = crow k 0 - 1) by (unfold crow, below; ifs; lia). assert (R2 : ccol (below k) 0 = ccol k 0) by (unfold ccol, below; ifs; lia).
        assert (P1 : ccol k 0 = 0) by (unfold ccol; ifs; lia). rewrite R1, R2 in T.
        apply (trace_snoc steps _ _ _ x 0); cbn [d_op takes_u takes_v is_change]; auto; try discriminate.
        -- intros _. split; [unfold crow; ifs; lia|apply X1; lia].
        -- rewrite P1, !pd_0_r; [lia| |]; unfold crow in *; ifs; lia.
        -- unfold reported. cbn [d_op d_obj1 d_obj2]. replace (crow k 0 <=? ccol k 0) with false by (unfold crow, ccol; ifs; lia). split; [symmetry; apply X1; lia|reflexivity].
  - assert (Hi1 : 1 <= i) by (destruct I; lia).
    assert (Bd' : 0 < crow k i /\ 0 < ccol k i) by (destruct I as (I1 & I2 & I3); unfold crow, ccol in *; ifs; lia). destruct Bd' as [Br0 Bc0].
    destruct (objs k i Hi1 I) as (x & y & Gx & Gy & Ou & Ov & Es).
    destruct (cell_step k i Hi1 I) as (x' & y' & Ou' & Ov' & Il & Iu & E1 & E2 & B1 & B2 & B3).
    rewrite Ou in Ou'. injection Ou' as <-. rewrite Ov in Ov'. injection Ov' as <-. rewrite Es in *. rewrite !Ou, !Ov. cbn [bind]. rewrite Es.
    assert (Ip : inside k (i - 1)) by (eapply inside_mono; [|exact I]; lia).
    assert (Hk : (k <? 0) = negb (crow k i <=? ccol k i)) by (unfold crow, ccol; ifs; lia).
    assert (Bpos : 0 <= csum (below k) (if k =? 0 then i - 1 else i) /\ 0 <= csum (above k) (i - 1) /\ csum k (i - 1) = csum k i - 2 /\ 0 <= csum k (i - 1)) by (unfold csum; ifs; lia).
    destruct Bpos as (Q1 & Q2 & Q3 & Q4).
    assert (N1 : need (csum k (i - 1)) <= need (csum k i)) by (apply need_mono; lia).
    assert (N2 : need (csum (below k) (if k =? 0 then i - 1 else i)) <= need (csum k i)) by (apply need_mono; rewrite csum_below in *; lia).
    assert (N3 : need (csum (above k) (i - 1)) <= need (csum k i)) by (apply need_mono; rewrite csum_above in *; lia).
    assert (Dn : forall st', good st' -> exists steps, backtrace eq u v fuel k (i - 1) st' n = Val (DStep DStart None None :: steps) /\ trace_ok steps (crow k i - 1) (ccol k i - 1)).
    { intros st' G'. destruct (IH k (i - 1) st' G' Ip) as (steps & A & B); [lia|lia|]. rewrite crow_pred, ccol_pred in B. eauto. }
    destruct (eq x y) eqn:Exy.
    + cbn [bind]. destruct (Dn st G) as (steps & -> & T). cbn [bind]. exists (steps ++ [DStep DEqual None None]). split; [reflexivity|].
      apply (trace_snoc steps _ _ _ x y); cbn [d_op takes_u takes_v is_change]; auto; try discriminate; [rewrite (E1 eq_refl), crow_pred, ccol_pred; lia|split; reflexivity].
    + specialize (E2 eq_refl).
      destruct (entry_main fuel k i st G I Hf) as (st1 & -> & G1 & _). cbn [bind].
      unfold left_entry, left_with. destruct (entry_main fuel (below k) (if k =? 0 then i - 1 else i) st1 G1 Il ltac:(lia)) as (st2 & W & G2 & _). unfold entry in W. rewrite W. clear W. cbn [bind].
      destruct (entry_main fuel k (i - 1) st2 G2 Ip ltac:(lia)) as (st3 & -> & G3 & _). cbn [bind].
      destruct (left_cell k i) as [L1 L2]. destruct (upper_cell k i) as [U1 U2]. rewrite ?crow_pred, ?ccol_pred in E2, B1, B2, B3 |- *. rewrite ?L1, ?L2, ?U1, ?U2 in E2, B1, B2, B3 |- *.
      match goal with |- context [if ?a =? ?b then _ else if ?c =? ?d then _ else _] => destruct (Z.eqb_spec a b) as [F|F]; [|destruct (Z.eqb_spec c d) as [F'|F']] end.
      * (* the neighbour on the diagonal below *)
        destruct (IH (below k) (if k =? 0 then i - 1 else i) st3 G3 Il) as (steps & A & B); [lia|rewrite csum_below; lia|]. rewrite L1, L2 in B.
        destruct (Z.ltb_spec k 0) as [K|K].
        -- replace (k >=? 0) with false by lia. replace (k =? 0) with false in * by lia. rewrite A. cbn [bind]. exists (steps ++ [DStep DDelete (Some x) None]). split; [reflexivity|].
           apply (trace_snoc steps _ _ _ x y); cbn [d_op takes_u takes_v is_change]; auto; try discriminate; [repeat match goal with H : context [pd (crow (below _) _)] |- _ => progress rewrite L1, L2 in H | H : context [pd (crow (above _) _)] |- _ => progress rewrite U1, U2 in H end; lia|].
           unfold reported. cbn [d_op d_obj1 d_obj2]. replace (crow k i <=? ccol k i) with false by lia. auto.
        -- replace (k >=? 0) with true by lia.
           assert (X : (if k =? 0 then backtrace eq u v fuel (below k) (i - 1) st3 n else backtrace eq u v fuel (below k) i st3 n) = Val (DStep DStart None None :: steps)) by (destruct (k =? 0); exact A).
           rewrite X. cbn [bind]. exists (steps ++ [DStep DAdd (Some y) None]). split; [reflexivity|].
           apply (trace_snoc steps _ _ _ x y); cbn [d_op takes_u takes_v is_change]; auto; try discriminate; [repeat match goal with H : context [pd (crow (below _) _)] |- _ => progress rewrite L1, L2 in H | H : context [pd (crow (above _) _)] |- _ => progress rewrite U1, U2 in H end; lia|].
           unfold reported. cbn [d_op d_obj1 d_obj2]. replace (crow k i <=? ccol k i) with true by lia. auto.
      * destruct (Dn st3 G3) as (steps & -> & T). cbn [bind]. eexists (steps ++ [_]). split; [reflexivity|].
        apply (trace_snoc steps _ _ _ x y); cbn [d_op takes_u takes_v is_change]; auto; try discriminate; [repeat match goal with H : context [pd (crow (below _) _)] |- _ => progress rewrite L1, L2 in H | H : context [pd (crow (above _) _)] |- _ => progress rewrite U1, U2 in H end; lia|].
        unfold reported. cbn [d_op d_obj1 d_obj2]. rewrite Hk. destruct (crow k i <=? ccol k i); cbn [negb]; auto.
      * destruct (IH (above k) (i - 1) st3 G3 Iu) as (steps & A & B); [lia|rewrite csum_above; lia|]. rewrite U1, U2 in B.
        destruct (Z.ltb_spec k 0) as [K|K].
        -- replace (k >=? 0) with false by lia. replace (k =? 0) with false in * by lia. rewrite A. cbn [bind]. exists (steps ++ [DStep DAdd (Some x) None]). split; [reflexivity|].
           apply (trace_snoc steps _ _ _ x y); cbn [d_op takes_u takes_v is_change]; auto; try discriminate; [repeat match goal with H : context [pd (crow (below _) _)] |- _ => progress rewrite L1, L2 in H | H : context [pd (crow (above _) _)] |- _ => progress rewrite U1, U2 in H end; lia|].
           unfold reported. cbn [d_op d_obj1 d_obj2]. replace (crow k i <=? ccol k i) with false by lia. auto.
        -- replace (k >=? 0) with true by lia.
           assert (X : (if k =? 0 then backtrace eq u v fuel (above k) (i - 1) st3 n else backtrace eq u v fuel (above k) (i - 1) st3 n) = Val (DStep DStart None None :: steps)) by (destruct (k =? 0); exact A).
           rewrite X. cbn [bind]. exists (steps ++ [DStep DDelete (Some y) None]). split; [reflexivity|].
           apply (trace_snoc steps _ _ _ x y); cbn [d_op takes_u takes_v is_change]; auto; try discriminate; [repeat match goal with H : context [pd (crow (below _) _)] |- _ => progress rewrite L1, L2 in H | H : context [pd (crow (above _) _)] |- _ => progress rewrite U1, U2 in H end; lia|].
           unfold reported. cbn [d_op d_obj1 d_obj2]. replace (crow k i <=? ccol k i) with true by lia. auto.
Qed.
Lemma iter_above_pos n : Nat.iter n above 0 = Z.of_nat n.
Proof. induction n as [|n IH]; [reflexivity|]. cbn [Nat.iter nat_rect]. change (nat_rect (fun _ => Z) 0 (fun _ => above) n) with (Nat.iter n above 0). rewrite IH. unfold above. ifs; lia. Qed.
Lemma iter_above_neg n : Nat.iter n above (-1) = -1 - Z.of_nat n.
Proof. induction n as [|n IH]; [reflexivity|]. cbn [Nat.iter nat_rect]. change (nat_rect (fun _ => Z) (-1) (fun _ => above) n) with (Nat.iter n above (-1)). rewrite IH. unfold above. ifs; lia. Qed.
Lemma solve_main fuel : Z.min (zlen u) (zlen v) < 2^31 -> need (zlen u + zlen v) <= Z.of_nat fuel ->
  exists d steps, solve eq u v fuel = Val (d, DStep DStart None None :: steps) /\ least_cost eq d u v /\
    script eq (map d_op steps) u v /\ changes (map d_op steps) = d /\ rep steps.
Proof.
  intros Hm Hf. pose proof (zlen_nonneg u) as Pu. pose proof (zlen_nonneg v) as Pv.
  assert (Hk : forall A (f : Z -> A), f (if zlen v - zlen u >=? 0 then Nat.iter (Z.to_nat (zlen v - zlen u)) above 0 else Nat.iter (Z.to_nat (- (zlen v - zlen u) - 1)) above (below 0)) = f (zlen v - zlen u)).
  { intros A f. f_equal. destruct (Z.geb_spec (zlen v - zlen u) 0); [rewrite iter_above_pos; lia|]. change (below 0) with (-1). rewrite iter_above_neg. lia. }
  unfold solve. cbv zeta. rewrite (Hk _ (fun k => let* (d, st) := entry eq u v fuel k (Z.min (zlen u) (zlen v)) memo0 in let* r := backtrace eq u v fuel k (s32 (Z.min (zlen u) (zlen v))) st fuel in Val (d, r))).
  set (k := zlen v - zlen u). set (i := Z.min (zlen u) (zlen v)) in *.
  assert (Cr : crow k i = zlen u) by (unfold crow, k, i; ifs; lia). assert (Cc : ccol k i = zlen v) by (unfold ccol, k, i; ifs; lia).
  assert (I : inside k i) by (unfold inside; rewrite Cr, Cc; unfold i; lia). assert (Cs : csum k i = zlen u + zlen v) by (unfold csum, k, i; lia).
  destruct (entry_main fuel k i memo0 good0 I ltac:(rewrite Cs; lia)) as (st & -> & G & _). cbn [bind].
  replace (s32 i) with i by (unfold s32; rewrite Z.mod_small; lia).
  destruct (bt_main fuel fuel k i st G I) as (steps & -> & T1 & T2 & T3); [rewrite Cs; lia| |].
  { rewrite Cs. unfold need in Hf. clear - Hf Pu Pv. nia. }
  cbn [bind]. rewrite Cr, Cc in *. exists (pd (zlen u) (zlen v)), steps. split; [reflexivity|].
  assert (Au : firstn (Z.to_nat (zlen u)) u = u) by (apply firstn_all2; unfold zlen; lia). assert (Av : firstn (Z.to_nat (zlen v)) v = v) by (apply firstn_all2; unfold zlen; lia).
  split; [unfold pd; rewrite Au, Av; apply least_rev|]. rewrite Au, Av in T1. auto.
Qed.
End L.
