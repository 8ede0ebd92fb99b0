From Verif Require Import Base M_Undo M_LinkedList S_LinkedList L_LinkedList L_LinkedList2 L_LinkedList3 L_LinkedList4.
Ltac Zify.zify_post_hook ::= Z.to_euclidean_division_equations.
Record i29 (N : nat) (r0 : Z -> Z) (w : world) (s : llist) (l : list Z) (cp : option nat) (es : list (Z * Z)) : Prop := I29 {
  i_rep : lrep N (lfresh s) (cells w) es;
  i_l : datas es = l;
  i_in : forall e, 2 <= e < Z.of_nat N + 2 -> In e (ids es) \/ lfresh s <= e -> rc w e = 1;
  i_out : forall e, 2 <= e < lfresh s -> ~ In e (ids es) -> rc w e = 0;
  i_else : forall o, ~ (2 <= o < Z.of_nat N + 2) -> rc w o = r0 o;
  i_cur : match cp with None => lcur s = 0 | Some k => nth_error (ids es) k = Some (lcur s) end
}.
Lemma rep_ids N f c es e : lrep N f c es -> In e (ids es) -> 2 <= e < f. Proof. intros R. exact (proj1 (Forall_forall _ _) (lr_in _ _ _ _ R) e). Qed.
Lemma i29_alive N r0 c r g s l cp es : i29 N r0 (World c r g) s l cp es -> alive r es.
Proof. intros H e He. pose proof (rep_ids _ _ _ _ _ (i_rep _ _ _ _ _ _ _ H) He). pose proof (lr_f _ _ _ _ (i_rep _ _ _ _ _ _ _ H)). split; [lia|]. pose proof (i_in _ _ _ _ _ _ _ H e ltac:(lia) (or_introl He)) as K. cbn [rc] in K. lia. Qed.
Lemma at_pos_hd (es : list (Z * Z)) k : match at_pos k (datas es) with None => hd_id (skipn k es) 0 = 0 | Some j => nth_error (ids es) j = Some (hd_id (skipn k es) 0) end.
Proof.
  unfold at_pos. rewrite map_length. destruct (Nat.ltb_spec k (length es)).
  - revert k H. induction es as [|[e d] es IH]; intros k H; [cbn [length] in H; lia|]. destruct k as [|k]; [reflexivity|]. cbn [skipn map nth_error fst]. apply IH. cbn [length] in H. lia.
  - rewrite skipn_all2 by lia. reflexivity.
Qed.
Lemma at_pos_hd' (es : list (Z * Z)) k p : p = hd_id (skipn k es) 0 -> match at_pos k (datas es) with None => p = 0 | Some j => nth_error (ids es) j = Some p end.
Proof. intros ->. apply at_pos_hd. Qed.
Lemma skipn_len {A} (a b : list A) k : k = length a -> skipn k (a ++ b) = b.
Proof. intros ->. rewrite skipn_app, Nat.sub_diag, skipn_all. reflexivity. Qed.
Lemma firstn_len {A} (a b : list A) k : k = length a -> firstn k (a ++ b) = a.
Proof. intros ->. rewrite firstn_app, Nat.sub_diag, firstn_all. cbn [firstn]. apply app_nil_r. Qed.
Lemma index_datas x (a : list (Z * Z)) e b : ~ In x (datas a) -> index_of x (datas (a ++ (e, x) :: b)) = Some (length a).
Proof. intros H. rewrite map_app, index_of_app_r by exact H. cbn [map snd index_of]. rewrite Z.eqb_refl, map_length. f_equal. lia. Qed.
Lemma insert_datas (a : list (Z * Z)) n (f : Z) d b : insert_at (length a) d (datas (a ++ n :: b)) = datas (a ++ (f, d) :: n :: b).
Proof. unfold insert_at. rewrite !map_app. rewrite firstn_len, skipn_len by now rewrite map_length. reflexivity. Qed.
Lemma remove_datas (a : list (Z * Z)) n b : remove_at (length a) (datas (a ++ n :: b)) = datas (a ++ b).
Proof. unfold remove_at. rewrite !map_app. rewrite firstn_len by now rewrite map_length. cbn [map]. replace (datas a ++ snd n :: datas b) with ((datas a ++ [snd n]) ++ datas b) by (rewrite <- app_assoc; reflexivity). rewrite skipn_len; [reflexivity|]. rewrite app_length, map_length. cbn [length]. lia. Qed.
Lemma rewind_ok N f c r g es s : lrep N f c es -> ll_rewind (World c r g) s = Val (LL (hd_id es 0) (lfresh s)).
Proof. intros R. unfold ll_rewind. rewrite (read_ok _ _ _ _ _ (lr_start _ _ _ _ R)). reflexivity. Qed.
Lemma hd_0 f es : Forall (fun e => 2 <= e < f) (ids es) -> hd_id es 0 = 0 \/ 2 <= hd_id es 0 < f.
Proof. intros H. destruct es; [now left|right]. apply hd_pos; [exact H|discriminate]. Qed.
Lemma last_0 f es : Forall (fun e => 2 <= e < f) (ids es) -> last_id 0 es = 0 \/ 2 <= last_id 0 es < f.
Proof. intros H. destruct es; [now left|right]. apply last_pos; [exact H|discriminate]. Qed.
Lemma forall_app_ids (P : Z -> Prop) (a b : list (Z * Z)) : Forall P (ids (a ++ b)) -> Forall P (ids a) /\ Forall P (ids b).
Proof. rewrite ids_app. apply Forall_app. Qed.
Lemma alive_last r es : alive r es -> last_id 0 es <> 0 -> 1 <= r (last_id 0 es).
Proof. intros A H. destruct es; [cbn [last_id] in H; lia|]. apply A. apply last_in. discriminate. Qed.
Lemma alive_hd r es : alive r es -> hd_id es 0 <> 0 -> 1 <= r (hd_id es 0).
Proof. intros A H. destruct es; [cbn [hd_id] in H; lia|]. apply A. apply hd_in. discriminate. Qed.
Lemma alive_app r a b : alive r (a ++ b) -> alive r a /\ alive r b.
Proof. intros H. split; intros e He; apply H; rewrite ids_app; apply in_or_app; auto. Qed.

(** * add *)
Lemma add_code N f c r g es d m m1 r1 m2 r2 cu : lrep N f c es -> f < Z.of_nat N + 2 -> 1 <= r1 f -> alive r2 es -> 1 <= r2 f ->
  regs [EF f (cdata f) d true] m (World c r g) = Val (m1, World c r1 g) ->
  regs (add_effs f (last_id 0 es) (hd_id es 0) (u32 (zlen es))) m1 (World (cset c (cdata f) d) r1 g) = Val (m2, World (cset c (cdata f) d) r2 g) ->
  ll_add d m (World c r g) (LL cu f) = Val (m2, World (apply_ef (add_effs f (last_id 0 es) (hd_id es 0) (u32 (zlen es))) (cset c (cdata f) d)) r2 g, LL cu (f + 1)).
Proof.
  intros R Hf A1 A2 A3 R1 R2. pose proof (lr_f _ _ _ _ R). pose proof (lr_len _ _ _ _ R) as L. unfold ll_add. cbn [lfresh lcur]. cbn [regs] in R1. unfold reg1 in R1. cbn [eref eo el] in R1.
  destruct (reg_ref f (cdata f) m (World c r g)) as [[mm ww]| | |]; try discriminate. cbn [bind] in *. injection R1 as -> ->. rewrite putm_ok by (ucell; lia). cbn [bind].
  pose proof (last_0 f es (lr_in _ _ _ _ R)) as HL.
  erewrite (add_item_code N f (last_id 0 es) (hd_id es 0) (u32 (zlen es))); [reflexivity|..]; try exact R2; rewrite ?cset_zlen; auto; try lia.
  - pose proof (lr_end _ _ _ _ R). ceval; lia.
  - pose proof (lr_start _ _ _ _ R). ceval; lia.
  - pose proof (lr_count _ _ _ _ R). ceval; lia.
  - now apply alive_last.
Qed.
(** * addBefore, after the search *)
Lemma before_code N f c r g a x dx b d m m1 r1 m2 r2 cu :
  let es := a ++ (x, dx) :: b in
  lrep N f c es -> f < Z.of_nat N + 2 -> 1 <= r1 f -> alive r1 es -> alive r2 es -> 1 <= r2 f ->
  regs [EF f (cdata f) d true] m (World c r g) = Val (m1, World c r1 g) ->
  regs (before_effs x f (last_id 0 a) (hd_id es 0) (u32 (zlen es))) m1 (World (cset c (cdata f) d) r1 g) = Val (m2, World (cset c (cdata f) d) r2 g) ->
  (let item := f in
    let* (m, w) := reg_ref item (cdata item) m (World c r g) in
    let* w := putm item (cdata item) d w in
    let* (m, w) := ll_add_before_item x item m w in
    Val (m, w, LL cu (f + 1))) = Val (m2, World (apply_ef (before_effs x f (last_id 0 a) (hd_id es 0) (u32 (zlen es))) (cset c (cdata f) d)) r2 g, LL cu (f + 1)).
Proof.
  intros es R Hf A1 A1' A2 A3 R1 R2. pose proof (lr_f _ _ _ _ R). pose proof (lr_len _ _ _ _ R) as L. cbn [regs] in R1. unfold reg1 in R1. cbn [eref eo el] in R1. cbv zeta.
  destruct (reg_ref f (cdata f) m (World c r g)) as [[mm ww]| | |]; try discriminate. cbn [bind] in *. injection R1 as -> ->. rewrite putm_ok by (ucell; lia). cbn [bind].
  destruct (forall_app_ids _ _ _ (lr_in _ _ _ _ R)) as [Fa _]. pose proof (last_0 f a Fa) as HL. assert (Ix : In x (ids es)) by (unfold es; rewrite ids_app; apply in_or_app; right; now left). pose proof (rep_ids _ _ _ _ _ R Ix) as Hx.
  destruct (A1' x Ix) as [_ Ax1]. destruct (A2 x Ix) as [_ Ax2]. destruct (alive_app r2 _ _ A2) as [A2a _].
  assert (Npx : last_id 0 a <> x). { destruct a as [|n a0]; [cbn [last_id]; lia|]. intros E. pose proof (lr_nd _ _ _ _ R) as ND. unfold es in ND. rewrite ids_app in ND. apply nd_app_iff in ND as (_ & _ & ND). apply (ND x); [rewrite <- E; apply last_in; discriminate|now left]. }
  pose proof (lr_dls _ _ _ _ R) as D. unfold es in D. rewrite dls_app in D. destruct D as [_ (Dx & _)].
  erewrite (before_item_code N x f (last_id 0 a) (hd_id es 0) (u32 (zlen es))); [reflexivity|..]; try exact R2; rewrite ?cset_zlen; auto; try lia.
  - ceval; lia.
  - pose proof (lr_start _ _ _ _ R). ceval; lia.
  - pose proof (lr_count _ _ _ _ R). ceval; lia.
  - now apply alive_last.
Qed.
(** * removeItem *)
Lemma remove_code N f c r g a e de b m m1 r1 m2 r2 r3 :
  let es := a ++ (e, de) :: b in
  lrep N f c es -> 1 <= r e -> alive r2 es ->
  regs (remove_effs e (last_id 0 a) (hd_id b 0) (hd_id es 0) (last_id 0 es) (u32 (zlen es))) m (World c r g) = Val (m1, World c r1 g) -> reg_release e m1 (World c r1 g) = Val (m2, World c r2 g) -> (forall c, release e (World c r2 g) = Val (World c r3 g)) ->
  ll_remove_item e m (World c r g) = Val (m2, World (apply_ef (remove_effs e (last_id 0 a) (hd_id b 0) (hd_id es 0) (last_id 0 es) (u32 (zlen es))) c) r3 g).
Proof.
  intros es R A1 A2 R1 R2 R3. pose proof (lr_f _ _ _ _ R). pose proof (lr_len _ _ _ _ R) as L.
  destruct (forall_app_ids _ _ _ (lr_in _ _ _ _ R)) as [Fa Fb]. inversion Fb as [|? ? Fe Fb']; subst. cbn [fst] in Fe. pose proof (last_0 f a Fa) as HL. pose proof (hd_0 f b Fb') as HH.
  destruct (alive_app r2 _ _ A2) as [A2a A2b]. pose proof (alive_tl _ _ _ A2b) as A2b'. destruct (A2b e (or_introl eq_refl)) as [_ Ae].
  pose proof (lr_nd _ _ _ _ R) as ND. unfold es in ND. rewrite ids_app in ND. apply nd_app_iff in ND as (_ & NDb & ND). cbn [map fst] in NDb. apply NoDup_cons_iff in NDb as [NDe _].
  assert (Npe : last_id 0 a <> e). { destruct a as [|n a0]; [cbn [last_id]; lia|]. intros E. apply (ND e); [rewrite <- E; apply last_in; discriminate|now left]. }
  assert (Nqe : hd_id b 0 <> e). { destruct b as [|n b0]; [cbn [hd_id]; lia|]. intros E. apply NDe. rewrite <- E. apply hd_in. discriminate. }
  pose proof (lr_dls _ _ _ _ R) as D. unfold es in D. rewrite dls_app in D. destruct D as [_ (Dx & Dy & _)].
  eapply remove_item_code; eauto; try lia; try apply R.
  - now apply alive_last.
  - now apply alive_hd.
Qed.
