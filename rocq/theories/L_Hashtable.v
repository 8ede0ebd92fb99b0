From Verif Require Import Base M_String S_String L_String P_String M_Hashtable S_Hashtable.
From Coq Require Export Permutation.
Ltac Zify.zify_post_hook ::= Z.to_euclidean_division_equations.

(** * heap *)
Lemma hderef_lget h p n : hderef h p = Val n <-> lget h (p - 1) = Some (Some n).
Proof. unfold hderef. destruct (lget h (p - 1)) as [[c|]|]; split; intros E; try discriminate; congruence. Qed.
Lemma hderef_range h p n : hderef h p = Val n -> 1 <= p <= zlen h.
Proof. rewrite hderef_lget. intros E. apply lget_some_range in E. lia. Qed.
Lemma hwr_ok h p n c : hderef h p = Val n -> exists h', wr h (p - 1) c = Val h' /\ forall q, hderef h' q = if q =? p then match c with Some b => Val b | None => UB end else hderef h q.
Proof.
  intros E. pose proof (hderef_range _ _ _ E). destruct (lset_range h (p - 1) c ltac:(lia)) as [h' Em]. exists h'. unfold wr. rewrite Em. split; [reflexivity|]. intros q. unfold hderef. rewrite (lset_get _ _ _ _ _ Em). destruct (Z.eqb_spec (q - 1) (p - 1)), (Z.eqb_spec q p); try lia; reflexivity.
Qed.
Lemma hstore_ok h p n m : hderef h p = Val n -> exists h', hstore h p m = Val h' /\ forall q, hderef h' q = if q =? p then Val m else hderef h q.
Proof. intros E. unfold hstore. rewrite E. cbn [bind]. exact (hwr_ok h p n (Some m) E). Qed.
Lemma hfree_ok h p n : hderef h p = Val n -> exists h', hfree h p = Val h' /\ forall q, hderef h' q = if q =? p then UB else hderef h q.
Proof. intros E. unfold hfree. rewrite E. cbn [bind]. exact (hwr_ok h p n None E). Qed.
Lemma hnew_get h n q : hderef (h ++ [Some n]) q = if q =? zlen h + 1 then Val n else hderef h q.
Proof.
  unfold hderef. destruct (Z.eqb_spec q (zlen h + 1)) as [->|N]; [replace (zlen h + 1 - 1) with (zlen h) by lia; now rewrite lget_mid|].
  destruct (Z.ltb_spec (q - 1) (zlen h)); [now rewrite lget_app_l by lia|]. rewrite !lget_out; [reflexivity|lia|rewrite zlen_app; change (zlen [Some n]) with 1; lia].
Qed.
Lemma hderef_dec h q : hlive h q \/ hderef h q = UB.
Proof. unfold hlive, hderef. destruct (lget h (q - 1)) as [[n|]|]; eauto. Qed.

(** * chains *)
Record ent := EN { ea : Z; eh : Z; ek : jstr; ev : Z }.
Definition ekey (e : ent) : Z * list Z := (eh e, text (ek e)).
Definition eok (e : ent) : Prop := sound (ek e) /\ zlen (text (ek e)) < 2 ^ 31 /\ Forall unit16 (text (ek e)) /\ hash (ek e) = 0.
Fixpoint seg (h : hheap) (p : Z) (l : list ent) (q : Z) : Prop :=
  match l with [] => p = q | e :: l => ea e = p /\ p <> 0 /\ exists r, hderef h p = Val (HN (eh e) (ek e) (ev e) r) /\ seg h r l q end.
Lemma seg_app h l1 l2 : forall p q, seg h p (l1 ++ l2) q <-> exists r, seg h p l1 r /\ seg h r l2 q.
Proof.
  induction l1 as [|e l1 IH]; intros p q; cbn [app seg].
  - split; [intros H; exists p; auto|intros (r & -> & H); exact H].
  - split.
    + intros (A & B & r & D & S). apply IH in S as (r2 & S1 & S2). exists r2. split; [split; [exact A|split; [exact B|exists r; auto]]|exact S2].
    + intros (r2 & (A & B & r & D & S1) & S2). split; [exact A|split; [exact B|]]. exists r. split; [exact D|]. apply IH. exists r2. auto.
Qed.
Lemma seg_frame h h' l : forall p q, seg h p l q -> (forall e, In e l -> hderef h' (ea e) = hderef h (ea e)) -> seg h' p l q.
Proof.
  induction l as [|e l IH]; intros p q S F; [exact S|]. destruct S as (A & B & r & D & S). subst p. split; [reflexivity|]. split; [exact B|]. exists r. split; [rewrite F; [exact D|now left]|]. apply IH; [exact S|]. intros e' He'. apply F. now right.
Qed.
Lemma seg_live h l : forall p q e, seg h p l q -> In e l -> exists r, ea e <> 0 /\ hderef h (ea e) = Val (HN (eh e) (ek e) (ev e) r).
Proof.
  induction l as [|x l IH]; intros p q e S I; [destruct I|]. destruct S as (A & B & r & D & S). destruct I as [->|I]; [subst; exists r; auto|]. eapply IH; eauto.
Qed.
Lemma equals_dec s t : sound s -> sound t -> zlen (text s) < 2 ^ 31 -> equals s t = Val (if text_dec (text s) (text t) then true else false).
Proof.
  intros S T L. destruct (C13_equals s t S T ltac:(change (2 ^ 31) with 2147483648 in L; change (2 ^ 32) with 4294967296; lia)) as (b & -> & H). f_equal. destruct (text_dec (text s) (text t)) as [e|n]; [now apply H|]. destruct b; [exfalso; tauto|reflexivity].
Qed.
Lemma find_loop_ok h hash key : sound key -> forall l fuel p, seg h p l 0 -> Forall eok l -> (length l < fuel)%nat ->
  (find_loop h p hash key fuel = Val 0 /\ forall e, In e l -> ekey e <> (hash, text key)) \/
  (exists l1 e l2, l = l1 ++ e :: l2 /\ find_loop h p hash key fuel = Val (ea e) /\ ea e <> 0 /\ ekey e = (hash, text key)).
Proof.
  intros Sk. induction l as [|e l IH]; intros fuel p S F Hf; (destruct fuel as [|fuel]; [cbn in Hf; lia|]); cbn [find_loop].
  - cbn in S. subst p. left. split; [reflexivity|intros e []].
  - destruct S as (A & B & r & D & S). destruct (Z.eqb_spec p 0); [contradiction|]. rewrite D. cbn [bind nhash nkey nnext]. apply Forall_cons_iff in F as [[Se [Le _]] F]. cbn [length] in Hf.
    destruct (Z.eqb_spec (eh e) hash) as [Eh|Nh].
    + rewrite equals_dec by assumption. cbn [bind]. destruct (text_dec (text (ek e)) (text key)) as [Et|Nt].
      * right. exists [], e, l. rewrite A. split; [reflexivity|]. split; [reflexivity|]. split; [exact B|]. unfold ekey. congruence.
      * destruct (IH fuel r S F ltac:(lia)) as [[E N]|(l1 & x & l2 & -> & E & Nx & Kx)].
        -- left. split; [exact E|]. intros x [<-|I]; [unfold ekey; congruence|now apply N].
        -- right. exists (e :: l1), x, l2. auto.
    + cbn [bind]. destruct (IH fuel r S F ltac:(lia)) as [[E N]|(l1 & x & l2 & -> & E & Nx & Kx)].
      * left. split; [exact E|]. intros x [<-|I]; [unfold ekey; congruence|now apply N].
      * right. exists (e :: l1), x, l2. auto.
Qed.
Lemma remove_loop_ok h d i hash key p0 : sound key -> rd d i = Val p0 -> forall l fuel l1 prev p, seg h p0 l1 p -> seg h p l 0 -> Forall eok l ->
  (l1 = [] /\ prev = 0 \/ exists l0 pe, l1 = l0 ++ [pe] /\ prev = ea pe) -> NoDup (map ea (l1 ++ l)) -> (length l < fuel)%nat ->
  (remove_loop h d i prev p hash key fuel = Val (None, h, d) /\ forall e, In e l -> ekey e <> (hash, text key)) \/
  (exists l2 e l3 h' p0', l = l2 ++ e :: l3 /\ ekey e = (hash, text key) /\ remove_loop h d i prev p hash key fuel = (let* d' := wr d i p0' in Val (Some (ev e), h', d')) /\
     seg h' p0' (l1 ++ l2 ++ l3) 0 /\ hderef h' (ea e) = UB /\ forall q, ~ In q (map ea (l1 ++ l)) -> hderef h' q = hderef h q).
Proof.
  intros Sk Rd. induction l as [|e l IH]; intros fuel l1 prev p S1 S F Hp ND Hf; (destruct fuel as [|fuel]; [cbn in Hf; lia|]); cbn [remove_loop].
  - cbn in S. subst p. left. split; [reflexivity|intros e []].
  - destruct S as (A & B & r & D & S). destruct (Z.eqb_spec p 0); [contradiction|]. rewrite D. cbn [bind nhash nkey nnext nval]. apply Forall_cons_iff in F as [[Se [Le _]] F]. cbn [length] in Hf.
    assert (Step : ekey e <> (hash, text key) -> (remove_loop h d i p r hash key fuel = Val (None, h, d) /\ (forall e0, In e0 (e :: l) -> ekey e0 <> (hash, text key))) \/
      (exists l2 e0 l3 h' p0', e :: l = l2 ++ e0 :: l3 /\ ekey e0 = (hash, text key) /\ remove_loop h d i p r hash key fuel = (let* d' := wr d i p0' in Val (Some (ev e0), h', d')) /\
         seg h' p0' (l1 ++ l2 ++ l3) 0 /\ hderef h' (ea e0) = UB /\ forall q, ~ In q (map ea (l1 ++ e :: l)) -> hderef h' q = hderef h q)).
    { intros Ne. destruct (IH fuel (l1 ++ [e]) p r) as [[E N]|(l2 & x & l3 & h' & p0' & -> & Kx & E & Sx & Dx & Fx)].
      - apply seg_app. exists p. split; [exact S1|]. split; [exact A|]. split; [exact B|]. exists r. split; [exact D|reflexivity].
      - exact S.
      - exact F.
      - right. exists l1, e. auto.
      - rewrite <- app_assoc. exact ND.
      - lia.
      - left. split; [exact E|]. intros x [<-|I]; [exact Ne|now apply N].
      - right. exists (e :: l2), x, l3, h', p0'. split; [reflexivity|]. split; [exact Kx|]. split; [exact E|]. rewrite <- app_assoc in Sx. split; [exact Sx|]. split; [exact Dx|]. intros q Hq. apply Fx. rewrite <- app_assoc. exact Hq. }
    destruct (Z.eqb_spec (eh e) hash) as [Eh|Nh]; [|cbn [bind]; apply Step; unfold ekey; congruence].
    rewrite equals_dec by assumption. cbn [bind]. destruct (text_dec (text (ek e)) (text key)) as [Et|Nt]; [|apply Step; unfold ekey; congruence]. clear Step IH.
    right. exists [], e, l. rewrite map_app in ND. cbn [map] in ND. pose proof (NoDup_remove_1 _ _ _ ND) as ND1. pose proof (NoDup_remove_2 _ _ _ ND) as ND2. rewrite A in ND2.
    destruct Hp as [[-> ->]|(l0 & pe & -> & ->)].
    + cbn [Z.eqb negb]. destruct (hfree_ok h p _ D) as (h' & Eh' & G). exists h', r. split; [reflexivity|]. split; [unfold ekey; congruence|]. split; [destruct (wr d i r) as [d'| | |]; cbn [bind]; rewrite ?Eh'; reflexivity|].
      cbn [app]. split; [apply (seg_frame h); [exact S|]|].
      * intros x Hx. rewrite G. destruct (Z.eqb_spec (ea x) p) as [Ex|]; [|reflexivity]. exfalso. apply ND2. apply in_or_app. right. rewrite <- Ex. now apply in_map.
      * split; [rewrite A, G, Z.eqb_refl; reflexivity|]. intros q Hq. rewrite G. destruct (Z.eqb_spec q p) as [->|]; [|reflexivity]. exfalso. apply Hq. cbn [map app]. left. exact A.
    + pose proof S1 as S1'. apply seg_app in S1' as (r0 & Sl0 & Spe). destruct Spe as (Ape & Bpe & r1 & Dpe & Er1). cbn in Er1. subst r1 r0. destruct (Z.eqb_spec (ea pe) 0); [contradiction|]. cbn [negb]. rewrite Dpe. cbn [bind nhash nkey nval].
      destruct (hstore_ok h (ea pe) _ (HN (eh pe) (ek pe) (ev pe) r) Dpe) as (h1 & E1 & G1). rewrite E1. cbn [bind].
      assert (Npe : ea pe <> p) by (intros Ex; apply ND2; rewrite map_app, <- Ex; apply in_or_app; left; apply in_or_app; right; now left).
      assert (D1 : hderef h1 p = Val (HN (eh e) (ek e) (ev e) r)) by (rewrite G1; destruct (Z.eqb_spec p (ea pe)); [congruence|exact D]).
      destruct (hfree_ok h1 p _ D1) as (h' & Eh' & G). rewrite Eh'. cbn [bind]. exists h', p0. split; [reflexivity|]. split; [unfold ekey; congruence|]. split.
      * unfold wr. destruct (lset_range d i p0) as [d' Ed]; [unfold rd in Rd; destruct (lget d i) eqn:El; [apply lget_some_range in El; exact El|discriminate]|]. rewrite Ed. cbn [bind]. do 2 f_equal. apply lget_ext. intros j. rewrite (lset_get _ _ _ _ _ Ed). destruct (Z.eqb_spec j i) as [->|]; [|reflexivity]. unfold rd in Rd. destruct (lget d i); congruence.
      * assert (NDf : forall x, In x (l0 ++ pe :: l) -> ea x <> p). { intros x Hx Ex. apply ND2. rewrite map_app, <- app_assoc. cbn [map app]. replace (map ea l0 ++ ea pe :: map ea l) with (map ea (l0 ++ pe :: l)) by (rewrite map_app; reflexivity). rewrite <- Ex. now apply in_map. }
        assert (NDp : forall x, In x (l0 ++ l) -> ea x <> ea pe). { intros x Hx Ex. rewrite map_app, <- app_assoc in ND1. cbn [map app] in ND1. apply NoDup_remove_2 in ND1. apply ND1. rewrite <- map_app, <- Ex. now apply in_map. }
        split.
        -- cbn [app]. rewrite <- app_assoc. cbn [app]. apply seg_app. exists (ea pe). split; [apply (seg_frame h); [exact Sl0|]|].
           ++ intros x Hx. rewrite G, G1. pose proof (NDf x ltac:(apply in_or_app; now left)). pose proof (NDp x ltac:(apply in_or_app; now left)). destruct (Z.eqb_spec (ea x) p); [contradiction|]. destruct (Z.eqb_spec (ea x) (ea pe)); [contradiction|reflexivity].
           ++ cbn [seg]. split; [reflexivity|]. split; [exact Bpe|]. exists r. split.
              ** rewrite G, G1. destruct (Z.eqb_spec (ea pe) p); [contradiction|]. now rewrite Z.eqb_refl.
              ** apply (seg_frame h); [exact S|]. intros x Hx. rewrite G, G1. pose proof (NDf x ltac:(apply in_or_app; right; now right)). pose proof (NDp x ltac:(apply in_or_app; now right)). destruct (Z.eqb_spec (ea x) p); [contradiction|]. destruct (Z.eqb_spec (ea x) (ea pe)); [contradiction|reflexivity].
        -- split; [rewrite A, G, Z.eqb_refl; reflexivity|]. intros q Hq. rewrite G, G1. rewrite map_app in Hq. cbn [map] in Hq. destruct (Z.eqb_spec q p) as [->|]; [exfalso; apply Hq; apply in_or_app; right; left; exact A|]. destruct (Z.eqb_spec q (ea pe)) as [->|]; [exfalso; apply Hq; apply in_or_app; left; rewrite map_app; apply in_or_app; right; now left|reflexivity].
Qed.
Lemma free_chain_ok l : forall fuel h p, seg h p l 0 -> NoDup (map ea l) -> (length l < fuel)%nat -> exists h', free_chain h p fuel = Val h' /\ (forall q, In q (map ea l) -> hderef h' q = UB) /\ (forall q, ~ In q (map ea l) -> hderef h' q = hderef h q).
Proof.
  induction l as [|e l IH]; intros fuel h p S ND Hf; (destruct fuel as [|fuel]; [cbn in Hf; lia|]); cbn [free_chain].
  - cbn in S. subst p. exists h. split; [reflexivity|]. split; [intros q []|auto].
  - destruct S as (A & B & r & D & S). destruct (Z.eqb_spec p 0); [contradiction|]. rewrite D. cbn [bind]. destruct (hfree_ok h p _ D) as (h1 & -> & G). cbn [bind nnext]. cbn [map length] in *. inversion ND as [|? ? N1 N2]; subst.
    destruct (IH fuel h1 r) as (h' & -> & U & Fr); [apply (seg_frame h); [exact S|]; intros x Hx; rewrite G; destruct (Z.eqb_spec (ea x) (ea e)) as [Ex|]; [exfalso; apply N1; rewrite <- Ex; now apply in_map|reflexivity]|exact N2|lia|].
    exists h'. split; [reflexivity|]. split.
    + intros q [<-|Hq]; [|now apply U]. rewrite Fr by exact N1. now rewrite G, Z.eqb_refl.
    + intros q Hq. rewrite Fr by (intros I; apply Hq; now right). rewrite G. destruct (Z.eqb_spec q (ea e)) as [->|]; [exfalso; apply Hq; now left|reflexivity].
Qed.

(** * buckets *)
Lemma Forall2_length {A B} (R : A -> B -> Prop) a b : Forall2 R a b -> length a = length b. Proof. induction 1; cbn; congruence. Qed.
Lemma F2_split {A B} (R : A -> B -> Prop) d b i : Forall2 R d b -> 0 <= i < zlen d ->
  exists d1 p d2 b1 l b2, d = d1 ++ p :: d2 /\ b = b1 ++ l :: b2 /\ zlen d1 = i /\ zlen b1 = i /\ Forall2 R d1 b1 /\ R p l /\ Forall2 R d2 b2.
Proof.
  intros F Hi. destruct (split_at d i Hi) as (d1 & p & d2 & -> & L). apply Forall2_app_inv_l in F as (b1 & b' & F1 & F2 & ->). inversion F2 as [|? l ? b2 Rp F3]; subst. exists d1, p, d2, b1, l, b2. repeat split; auto. unfold zlen. f_equal. symmetry. eapply Forall2_length; eauto.
Qed.
Lemma F2_frame h h' d b : Forall2 (fun p l => seg h p l 0) d b -> (forall e, In e (concat b) -> hderef h' (ea e) = hderef h (ea e)) -> Forall2 (fun p l => seg h' p l 0) d b.
Proof.
  induction 1 as [|p l d b S F IH]; intros G; constructor.
  - apply (seg_frame h); [exact S|]. intros e He. apply G. cbn. apply in_or_app. now left.
  - apply IH. intros e He. apply G. cbn. apply in_or_app. now right.
Qed.
Lemma concat_mid {A} (b1 : list (list A)) l b2 : concat (b1 ++ l :: b2) = concat b1 ++ l ++ concat b2.
Proof. now rewrite concat_app. Qed.
Lemma hindex_range hash n : 0 < n -> 0 <= hindex hash n < n. Proof. intros H. unfold hindex. apply Z.mod_pos_bound. exact H. Qed.
(** every entry is in the bucket of its hash *)
Definition placed (b : list (list ent)) : Prop := forall i l e, lget b i = Some l -> In e l -> hindex (eh e) (zlen b) = i.
Lemma placed_mid b1 l l' b2 : placed (b1 ++ l :: b2) -> (forall e, In e l' -> In e l \/ hindex (eh e) (zlen (b1 ++ l :: b2)) = zlen b1) -> placed (b1 ++ l' :: b2).
Proof.
  intros P H i x e G I. assert (L : zlen (b1 ++ l' :: b2) = zlen (b1 ++ l :: b2)) by (rewrite !zlen_app, !zlen_cons; reflexivity). rewrite L.
  destruct (Z.eq_dec i (zlen b1)) as [->|N].
  - rewrite lget_mid in G. injection G as <-. destruct (H e I) as [I'|E]; [|exact E]. apply (P (zlen b1) l); [apply lget_mid|exact I'].
  - apply (P i x); [|exact I]. destruct (Z.ltb_spec i (zlen b1)); [rewrite lget_app_l in * by lia; exact G|]. rewrite lget_app_r in * by lia. rewrite lget_cons_S in * by lia. exact G.
Qed.
Lemma in_concat_lget {A} (b : list (list A)) e : In e (concat b) -> exists i l, lget b i = Some l /\ In e l.
Proof. intros H. apply in_concat in H as (l & Hl & He). apply In_lget in Hl as (i & _ & G). exists i, l. auto. Qed.
(** an entry with this hash can only be in that bucket *)
Lemma placed_here b1 l b2 e hash : placed (b1 ++ l :: b2) -> hindex hash (zlen (b1 ++ l :: b2)) = zlen b1 -> In e (concat (b1 ++ l :: b2)) -> eh e = hash -> In e l.
Proof.
  intros P H I E. apply in_concat_lget in I as (i & x & G & Ix). pose proof (P i x e G Ix) as Hi. rewrite E, H in Hi. subst i. rewrite lget_mid in G. congruence.
Qed.
(** * moving the chains *)
Lemma move_loop_ok l : forall fuel h nd nb p, seg h p l 0 -> Forall2 (fun p l => seg h p l 0) nd nb -> placed nb -> NoDup (map ea (l ++ concat nb)) -> 0 < zlen nb -> (length l < fuel)%nat ->
  exists h' nd' nb', move_loop h nd p fuel = Val (h', nd') /\ Forall2 (fun p l => seg h' p l 0) nd' nb' /\ placed nb' /\ Permutation (concat nb') (l ++ concat nb) /\ zlen nb' = zlen nb /\
    (forall q, ~ In q (map ea (l ++ concat nb)) -> hderef h' q = hderef h q).
Proof.
  induction l as [|e l IH]; intros fuel h nd nb p S F P ND L0 Hf; (destruct fuel as [|fuel]; [cbn in Hf; lia|]); cbn [move_loop].
  - cbn in S. subst p. exists h, nd, nb. cbn [Z.eqb app]. repeat split; auto.
  - destruct S as (A & B & r & D & S). destruct (Z.eqb_spec p 0); [contradiction|]. rewrite D. cbn [bind nhash nkey nval nnext]. cbn [length] in Hf.
    assert (Ln : zlen nd = zlen nb) by (unfold zlen; f_equal; eapply Forall2_length; eauto).
    set (i := hindex (eh e) (zlen nd)). assert (Hi : 0 <= i < zlen nd) by (apply hindex_range; lia).
    destruct (F2_split _ _ _ i F Hi) as (d1 & q & d2 & b1 & x & b2 & -> & -> & Ld & Lb & F1 & Sq & F2). rewrite rd_mid' by lia. cbn [bind].
    destruct (hstore_ok h p _ (HN (eh e) (ek e) (ev e) q) D) as (h1 & -> & G). cbn [bind]. rewrite wr_mid by lia. cbn [bind].
    assert (ND' : NoDup (map ea (l ++ concat (b1 ++ (e :: x) :: b2)))).
    { eapply Permutation_NoDup; [|exact ND]. apply Permutation_map. rewrite !concat_mid. cbn [app]. rewrite !app_assoc. apply Permutation_cons_app. rewrite <- !app_assoc. apply Permutation_refl. }
    assert (Ne : forall y, In y (l ++ concat (b1 ++ x :: b2)) -> ea y <> p). { intros y Hy Ey. cbn [map app] in ND. inversion ND as [|? ? N1 N2]; subst. apply N1. rewrite <- Ey. now apply in_map. }
    assert (Gk : forall y, In y (l ++ concat (b1 ++ x :: b2)) -> hderef h1 (ea y) = hderef h (ea y)). { intros y Hy. rewrite G. destruct (Z.eqb_spec (ea y) p) as [Ey|]; [destruct (Ne y Hy Ey)|reflexivity]. }
    assert (Fb : Forall2 (fun p l => seg h1 p l 0) (d1 ++ p :: d2) (b1 ++ (e :: x) :: b2)).
    { assert (K : forall y, In y (concat b1) \/ In y x \/ In y (concat b2) -> In y (l ++ concat (b1 ++ x :: b2))) by (intros y Hy; apply in_or_app; right; rewrite concat_mid; rewrite !in_app_iff; tauto).
      apply Forall2_app; [apply (F2_frame h); [exact F1|]; intros y Hy; apply Gk, K; auto|]. constructor; [|apply (F2_frame h); [exact F2|]; intros y Hy; apply Gk, K; auto].
      split; [exact A|]. split; [exact B|]. exists q. split; [now rewrite G, Z.eqb_refl|]. apply (seg_frame h); [exact Sq|]. intros y Hy. apply Gk, K. auto. }
    destruct (IH fuel h1 (d1 ++ p :: d2) (b1 ++ (e :: x) :: b2) r) as (h' & nd' & nb' & E & F' & P' & Pm & Lz & Fr).
    + apply (seg_frame h); [exact S|]. intros y Hy. apply Gk. apply in_or_app. now left.
    + exact Fb.
    + apply (placed_mid b1 x); [exact P|]. intros y [<-|Hy]; [|now left]. right. fold i in Lb. rewrite <- Ln. fold i. lia.
    + exact ND'.
    + rewrite zlen_app, zlen_cons in *. exact L0.
    + lia.
    + exists h', nd', nb'. split; [exact E|]. split; [exact F'|]. split; [exact P'|]. split.
      * rewrite Pm. rewrite !concat_mid. cbn [app]. rewrite !app_assoc. apply Permutation_sym. apply Permutation_cons_app. rewrite <- !app_assoc. apply Permutation_refl.
      * split; [rewrite Lz, !zlen_app, !zlen_cons; reflexivity|]. intros z Hz. rewrite Fr.
        -- rewrite G. destruct (Z.eqb_spec z p) as [->|]; [|reflexivity]. exfalso. apply Hz. left. exact A.
        -- intros Iz. apply Hz. eapply Permutation_in; [|exact Iz]. apply Permutation_map, Permutation_sym. cbn [app]. rewrite !concat_mid. cbn [app]. rewrite !app_assoc. apply Permutation_cons_app. rewrite <- !app_assoc. apply Permutation_refl.
Qed.
Lemma NoDup_app_l {A} (a b : list A) : NoDup (a ++ b) -> NoDup a. Proof. induction a as [|x a IH]; intros H; [constructor|]. inversion H; subst. constructor; [intros I; apply H2; apply in_or_app; now left|auto]. Qed.
Lemma NoDup_app_r {A} (a b : list A) : NoDup (a ++ b) -> NoDup b. Proof. induction a as [|x a IH]; intros H; [exact H|]. inversion H; subst. auto. Qed.
Lemma NoDup_app_disj {A} (a b : list A) x : NoDup (a ++ b) -> In x a -> In x b -> False.
Proof. induction a as [|y a IH]; intros H I J; [destruct I|]. inversion H as [|? ? H2 H3]; subst. destruct I as [->|I]; [apply H2, in_or_app; now right|eauto]. Qed.
Lemma move_all_ok : forall od ob fuel h nd nb, Forall2 (fun p l => seg h p l 0) od ob -> Forall2 (fun p l => seg h p l 0) nd nb -> placed nb -> NoDup (map ea (concat ob ++ concat nb)) -> 0 < zlen nb -> (length (concat ob) < fuel)%nat ->
  exists h' nd' nb', move_all h nd od fuel = Val (h', nd') /\ Forall2 (fun p l => seg h' p l 0) nd' nb' /\ placed nb' /\ Permutation (concat nb') (concat ob ++ concat nb) /\ zlen nb' = zlen nb /\
    (forall q, ~ In q (map ea (concat ob ++ concat nb)) -> hderef h' q = hderef h q).
Proof.
  induction od as [|p od IH]; intros ob fuel h nd nb Fo Fn P ND L0 Hf; inversion Fo as [|? l ? ob' S Fo']; subst; cbn [move_all].
  - exists h, nd, nb. cbn. repeat split; auto.
  - cbn [concat] in *. rewrite app_length in Hf. rewrite <- app_assoc in ND.
    assert (NDl : NoDup (map ea (l ++ concat nb))). { eapply Permutation_NoDup in ND; [|apply Permutation_map; rewrite Permutation_app_comm, <- app_assoc; apply Permutation_app_head; apply Permutation_app_comm]. rewrite map_app in ND. apply NoDup_app_r in ND. eapply Permutation_NoDup; [|exact ND]. apply Permutation_map. apply Permutation_refl || apply Permutation_app_comm. }
    destruct (move_loop_ok l fuel h nd nb p S Fn P NDl L0 ltac:(lia)) as (h1 & nd1 & nb1 & -> & F1 & P1 & Pm1 & L1 & Fr1). cbn [bind].
    destruct (IH ob' fuel h1 nd1 nb1) as (h' & nd' & nb' & E & F' & P' & Pm & Lz & Fr).
    + apply (F2_frame h); [exact Fo'|]. intros e He. apply Fr1. intros I. rewrite !map_app in *. apply (in_map ea) in He. apply in_app_iff in I as [I|I].
      * apply (NoDup_app_disj _ _ (ea e) ND I). apply in_or_app. now left.
      * apply NoDup_app_r in ND. apply (NoDup_app_disj _ _ (ea e) ND He I).
    + exact F1.
    + exact P1.
    + eapply Permutation_NoDup; [|exact ND]. apply Permutation_map. rewrite Pm1. rewrite !app_assoc. apply Permutation_app_tail. apply Permutation_app_comm.
    + lia.
    + lia.
    + exists h', nd', nb'. split; [exact E|]. split; [exact F'|]. split; [exact P'|]. split.
      * rewrite Pm, Pm1. rewrite !app_assoc. apply Permutation_app_tail. apply Permutation_app_comm.
      * split; [lia|]. intros q Hq. rewrite !map_app, !in_app_iff in Hq. rewrite Fr; [apply Fr1; rewrite map_app, in_app_iff; tauto|].
        intros I. rewrite map_app, in_app_iff in I. destruct I as [I|I]; [tauto|]. eapply Permutation_in in I; [|apply Permutation_map; exact Pm1]. rewrite map_app, in_app_iff in I. tauto.
Qed.

(** * finite maps *)
Section MapLemmas.
Context {K : Type} (dec : forall a b : K, {a = b} + {a <> b}).
Lemma same_true a b : same dec a b = true <-> a = b. Proof. unfold same. destruct (dec a b); split; intros; try discriminate; auto; contradiction. Qed.
Lemma same_false a b : same dec a b = false <-> a <> b. Proof. unfold same. destruct (dec a b); split; intros; try discriminate; auto; contradiction. Qed.
Lemma mget_in m k v : NoDup (map fst m) -> mget dec m k = Some v <-> In (k, v) m.
Proof.
  induction m as [|[k' v'] m IH]; intros N; cbn [mget]; [split; [discriminate|intros []]|]. cbn [map fst] in N. inversion N as [|? ? N1 N2]; subst. unfold same. destruct (dec k' k) as [->|Nk].
  - split; [intros E; injection E as ->; now left|]. intros [E|I]; [congruence|]. exfalso. apply N1. now apply (in_map fst) in I.
  - rewrite IH by exact N2. split; [now right|]. intros [E|I]; [congruence|exact I].
Qed.
Lemma mget_none m k : mget dec m k = None <-> ~ In k (map fst m).
Proof.
  induction m as [|[k' v'] m IH]; cbn [mget map fst]; [split; auto|]. unfold same. destruct (dec k' k) as [->|Nk]; [split; [discriminate|intros H; exfalso; apply H; now left]|]. rewrite IH. cbn [In]. tauto.
Qed.
Lemma mget_perm m m' k : NoDup (map fst m) -> Permutation m m' -> mget dec m k = mget dec m' k.
Proof.
  intros N P. assert (N' : NoDup (map fst m')) by (eapply Permutation_NoDup; [apply Permutation_map, P|exact N]). destruct (mget dec m k) as [v|] eqn:E.
  - symmetry. apply mget_in; [exact N'|]. eapply Permutation_in; [exact P|]. now apply mget_in in E.
  - symmetry. apply mget_none. apply mget_none in E. intros I. apply E. eapply Permutation_in; [apply Permutation_sym, Permutation_map, P|exact I].
Qed.
Lemma mremove_perm m m' k : Permutation m m' -> Permutation (mremove dec m k) (mremove dec m' k).
Proof.
  unfold mremove. induction 1 as [|x a b P IH|x y a|a b c P1 IH1 P2 IH2]; cbn [filter].
  - constructor.
  - destruct (negb _); [now constructor|exact IH].
  - destruct (negb (same dec (fst y) k)), (negb (same dec (fst x) k)); try apply Permutation_refl. apply perm_swap.
  - eapply Permutation_trans; eauto.
Qed.
Lemma mremove_out m k : ~ In k (map fst m) -> mremove dec m k = m.
Proof.
  unfold mremove. induction m as [|e m IH]; intros N; [reflexivity|]. cbn [filter map In] in *. replace (same dec (fst e) k) with false by (symmetry; apply same_false; tauto). cbn [negb]. rewrite IH by tauto. reflexivity.
Qed.
Lemma mremove_mid a b k v : NoDup (map fst (a ++ (k, v) :: b)) -> mremove dec (a ++ (k, v) :: b) k = a ++ b.
Proof.
  intros N. rewrite map_app in N. cbn [map fst] in N. pose proof (NoDup_remove_2 _ _ _ N) as N2. rewrite in_app_iff in N2. unfold mremove. rewrite filter_app. cbn [filter fst]. replace (same dec k k) with true by (symmetry; now apply same_true). cbn [negb].
  fold (mremove dec a k). fold (mremove dec b k). rewrite !mremove_out by tauto. reflexivity.
Qed.
Lemma mremove_nodup m k : NoDup (map fst m) -> NoDup (map fst (mremove dec m k)).
Proof.
  unfold mremove. induction m as [|e m IH]; intros N; [constructor|]. cbn [filter map] in *. inversion N as [|? ? N1 N2]; subst. destruct (negb _); [|auto]. cbn [map]. constructor; [|auto]. intros I. apply N1. apply in_map_iff in I as (x & Ex & Ix). apply filter_In in Ix as [Ix _]. rewrite <- Ex. now apply in_map.
Qed.
Lemma mremove_notin m k : ~ In k (map fst (mremove dec m k)).
Proof. unfold mremove. intros I. apply in_map_iff in I as (x & Ex & Ix). apply filter_In in Ix as [_ Ix]. rewrite negb_true_iff, same_false in Ix. contradiction. Qed.
End MapLemmas.

(** * the whole table *)
Definition absent (e : ent) : (Z * list Z) * Z := (ekey e, ev e).
Definition inv (h0 h : hheap) (t : htab) (b : list (list ent)) : Prop :=
  Forall2 (fun p l => seg h p l 0) (hdata t) b /\ NoDup (map ea (concat b)) /\ (forall e, In e (concat b) -> hderef h0 (ea e) = UB /\ eok e) /\
  (forall q, ~ In q (map ea (concat b)) -> hderef h q = hderef h0 q) /\ placed b /\ NoDup (map ekey (concat b)) /\ hcount t = zlen (concat b) /\ 0 < zlen b.
Definition models (b : list (list ent)) (m : fmap (Z * list Z)) : Prop := Permutation m (map absent (concat b)).
Lemma models_nodup b m : NoDup (map ekey (concat b)) -> models b m -> NoDup (map fst m).
Proof. intros N P. eapply Permutation_NoDup; [apply Permutation_map, Permutation_sym, P|]. rewrite map_map. exact N. Qed.
Lemma models_get b m k : NoDup (map ekey (concat b)) -> models b m -> mget pair_dec m k = mget pair_dec (map absent (concat b)) k.
Proof. intros N P. apply mget_perm; [eapply models_nodup; eauto|exact P]. Qed.
Lemma inv_eok h0 h t b : inv h0 h t b -> Forall eok (concat b).
Proof. intros (_ & _ & H & _). apply Forall_forall. intros e He. now apply H. Qed.
Lemma inv_len h0 h t b : inv h0 h t b -> zlen (hdata t) = zlen b.
Proof. intros (F & _). unfold zlen. f_equal. eapply Forall2_length; eauto. Qed.
(** look at the bucket of a hash *)
Lemma inv_bucket h0 h t b hash : inv h0 h t b -> exists d1 p d2 b1 l b2, hdata t = d1 ++ p :: d2 /\ b = b1 ++ l :: b2 /\ hindex hash (zlen (hdata t)) = zlen d1 /\ zlen b1 = zlen d1 /\
  Forall2 (fun p l => seg h p l 0) d1 b1 /\ seg h p l 0 /\ Forall2 (fun p l => seg h p l 0) d2 b2 /\ (forall e, In e (concat b) -> eh e = hash -> In e l).
Proof.
  intros I. pose proof (inv_len _ _ _ _ I) as L. destruct I as (F & _ & _ & _ & P & _ & _ & L0). pose proof (hindex_range hash (zlen (hdata t)) ltac:(lia)) as Hi.
  destruct (F2_split _ _ _ _ F Hi) as (d1 & p & d2 & b1 & l & b2 & E1 & -> & Ld & Lb & F1 & S & F2). exists d1, p, d2, b1, l, b2. repeat split; auto; try lia.
  intros e He Eh. apply (placed_here b1 l b2 e hash); auto. rewrite <- L. lia.
Qed.
Lemma const_hash_ok s : proper s -> const_hash_code s = Val (reported s).
Proof.
  intros (S & U & L). unfold reported. destruct (Z.eqb_spec (hash s) 0) as [E|N].
  - now apply C14_hash_is_polynomial.
  - unfold const_hash_code. destruct (Z.eqb_spec (hash s) 0); [contradiction|reflexivity].
Qed.
Lemma hash_code_ok s : proper s -> exists s', hash_code s = Val (reported s, s') /\ text s' = text s /\ proper s'.
Proof.
  intros (S & U & L). unfold reported. destruct (Z.eqb_spec (hash s) 0) as [E|N].
  - destruct (C14_hash_is_polynomial s S U L E) as (_ & s' & H & T & _). exists s'. split; [exact H|]. split; [exact T|]. unfold proper. rewrite T. split; [|auto]. unfold hash_code in H. rewrite E in H. cbn [Z.eqb negb] in H. destruct (hash_loop _ _ _ _); try discriminate. cbn [bind] in H. injection H as _ <-. exact S.
  - exists s. unfold hash_code. destruct (Z.eqb_spec (hash s) 0); [contradiction|]. split; [reflexivity|]. split; [reflexivity|]. split; auto.
Qed.
Lemma bucket_len (b1 : list (list ent)) l b2 : (length l <= length (concat (b1 ++ l :: b2)))%nat.
Proof. rewrite concat_mid, !app_length. lia. Qed.
Lemma get_ok h0 h t b m s fuel : inv h0 h t b -> models b m -> proper s -> (length (concat b) < fuel)%nat -> ht_get h t s fuel = Val (mval pair_dec m (key_of s)).
Proof.
  intros I M P Hf. unfold ht_get. rewrite const_hash_ok by exact P. cbn [bind]. destruct (inv_bucket h0 h t b (reported s) I) as (d1 & p & d2 & b1 & l & b2 & Ed & -> & Ei & Lb & F1 & S & F2 & Here). rewrite Ei, Ed, rd_mid. cbn [bind].
  pose proof (inv_eok _ _ _ _ I) as Ek. rewrite concat_mid, !Forall_app in Ek. destruct Ek as (_ & Ek & _). pose proof (bucket_len b1 l b2). destruct I as (_ & _ & _ & _ & _ & NK & _). unfold mval. rewrite (models_get _ _ _ NK M).
  assert (NF : NoDup (map fst (map absent (concat (b1 ++ l :: b2))))) by (rewrite map_map; exact NK).
  destruct (find_loop_ok h (reported s) s ltac:(apply P) l fuel p S Ek ltac:(lia)) as [[-> N]|(l1 & e & l2 & -> & -> & Ne & Ke)]; cbn [bind].
  - cbn [Z.eqb]. replace (mget pair_dec _ (key_of s)) with (@None Z); [reflexivity|]. symmetry. apply mget_none. rewrite map_map. intros I. apply in_map_iff in I as (e & Ee & Ie). cbn [absent fst] in Ee. apply (N e); [|exact Ee]. apply Here; [exact Ie|]. unfold ekey, key_of in Ee. congruence.
  - destruct (Z.eqb_spec (ea e) 0); [contradiction|]. destruct (seg_live h _ p 0 e S ltac:(apply in_or_app; right; now left)) as (r & _ & ->). cbn [bind nval].
    replace (mget pair_dec _ (key_of s)) with (Some (ev e)); [reflexivity|]. symmetry. apply mget_in; [exact NF|]. replace (key_of s, ev e) with (absent e) by (unfold absent; rewrite Ke; reflexivity). apply in_map. rewrite concat_mid, !in_app_iff. right. left. right. now left.
Qed.

(** * growing *)
Lemma concat_nils {A} n : concat (repeat (@nil A) n) = []. Proof. induction n; cbn; auto. Qed.
Lemma zlen_repeat {A} (x : A) n : zlen (repeat x n) = Z.of_nat n. Proof. unfold zlen. now rewrite repeat_length. Qed.
Lemma placed_nils n : placed (repeat [] n).
Proof. intros i l e G I. apply lget_In in G. apply repeat_spec in G. subst l. destruct I. Qed.
Lemma F2_nils h n : Forall2 (fun p l => seg h p l 0) (repeat 0 n) (repeat [] n).
Proof. induction n; cbn [repeat]; constructor; auto. reflexivity. Qed.
Lemma inv_live h0 h t b e : inv h0 h t b -> In e (concat b) -> ea e <> 0 /\ exists r, hderef h (ea e) = Val (HN (eh e) (ek e) (ev e) r).
Proof.
  intros (F & _) I. revert I. induction F as [|p l d b' S F IH]; intros I; [destruct I|]. cbn [concat] in I. apply in_app_iff in I as [I|I]; [|auto]. destruct (seg_live _ _ _ _ _ S I) as (r & N & D). eauto.
Qed.
Lemma chk64_val z : - 2 ^ 63 <= z < 2 ^ 63 -> chk64 z = Val z. Proof. intros H. unfold chk64, in_s64. replace (_ && _) with true; [reflexivity|]. symmetry. rewrite andb_true_iff. lia. Qed.
Lemma rehash_ok h0 h t b fuel : inv h0 h t b -> zlen (hdata t) < 2 ^ 61 -> (length (concat b) < fuel)%nat ->
  exists h' t' b', rehash h t fuel = Val (h', t') /\ inv h0 h' t' b' /\ Permutation (concat b') (concat b) /\ zlen (hdata t') = 2 * zlen (hdata t) + 1 /\ hthreshold t' = (3 * (2 * zlen (hdata t) + 1) + 3) / 4 /\ hcount t' = hcount t.
Proof.
  intros I L Hf. pose proof (inv_len _ _ _ _ I) as Ln. destruct I as (F & ND & Dead & Fr & P & NK & C & L0). unfold rehash. rewrite chk64_val by lia. cbn [bind].
  set (n := Z.to_nat (zlen (hdata t) * 2 + 1)). assert (Hn : Z.of_nat n = zlen (hdata t) * 2 + 1) by (unfold n; lia).
  destruct (move_all_ok (hdata t) b fuel h (repeat 0 n) (repeat [] n)) as (h' & nd' & nb' & -> & F' & P' & Pm & Lz & Fr').
  - exact F.
  - apply F2_nils.
  - apply placed_nils.
  - rewrite concat_nils, app_nil_r. exact ND.
  - rewrite zlen_repeat. lia.
  - exact Hf.
  - cbn [bind]. rewrite concat_nils, app_nil_r in Pm, Fr'. rewrite zlen_repeat in Lz. exists h', (HT nd' (hcount t) ((3 * (zlen (hdata t) * 2 + 1) + 3) / 4)), nb'. split; [reflexivity|]. cbn [hdata hthreshold hcount].
    assert (Ld : zlen nd' = zlen nb') by (unfold zlen; f_equal; eapply Forall2_length; eauto).
    split; [|split; [exact Pm|split; [lia|split; [f_equal; lia|reflexivity]]]]. repeat split; cbn [hdata hcount].
    + exact F'.
    + eapply Permutation_NoDup; [apply Permutation_map, Permutation_sym, Pm|exact ND].
    + now apply Dead, (Permutation_in e Pm).
    + apply (Dead e), (Permutation_in e Pm); assumption.
    + apply (Dead e), (Permutation_in e Pm); assumption.
    + apply (Dead e), (Permutation_in e Pm); assumption.
    + apply (Dead e), (Permutation_in e Pm); assumption.
    + apply (Dead e), (Permutation_in e Pm); assumption.
    + intros q Hq. assert (Hq' : ~ In q (map ea (concat b))) by (intros Iq; apply Hq; eapply Permutation_in; [apply Permutation_map, Permutation_sym, Pm|exact Iq]). rewrite Fr', Fr; auto.
    + exact P'.
    + eapply Permutation_NoDup; [apply Permutation_map, Permutation_sym, Pm|exact NK].
    + rewrite C. unfold zlen. f_equal. symmetry. now apply Permutation_length.
    + lia.
Qed.
(** replacing one bucket *)
Lemma inv_update h0 h t d1 p d2 b1 l b2 h' p' l' c' thr' : inv h0 h t (b1 ++ l :: b2) -> hdata t = d1 ++ p :: d2 -> zlen b1 = zlen d1 ->
  Forall2 (fun p l => seg h p l 0) d1 b1 -> Forall2 (fun p l => seg h p l 0) d2 b2 -> seg h' p' l' 0 ->
  (forall e, In e (concat b1 ++ concat b2) -> hderef h' (ea e) = hderef h (ea e)) ->
  NoDup (map ea (concat (b1 ++ l' :: b2))) -> NoDup (map ekey (concat (b1 ++ l' :: b2))) ->
  (forall e, In e l' -> hderef h0 (ea e) = UB /\ eok e /\ hindex (eh e) (zlen (hdata t)) = zlen d1) ->
  (forall q, ~ In q (map ea (concat (b1 ++ l' :: b2))) -> hderef h' q = hderef h0 q) -> c' = zlen (concat (b1 ++ l' :: b2)) ->
  inv h0 h' (HT (d1 ++ p' :: d2) c' thr') (b1 ++ l' :: b2).
Proof.
  intros I Ed Lb F1 F2 S Fr ND NK Dead Fr0 C. pose proof (inv_len _ _ _ _ I) as Ln. destruct I as (F & ND0 & Dead0 & _ & P & _ & _ & L0).
  repeat split; cbn [hdata hcount]; auto.
  - apply Forall2_app; [apply (F2_frame h); [exact F1|]; intros e He; apply Fr, in_or_app; now left|]. constructor; [exact S|]. apply (F2_frame h); [exact F2|]. intros e He. apply Fr, in_or_app. now right.
  - rewrite concat_mid, !in_app_iff in H. destruct H as [H|[H|H]]; [|now apply Dead|]; apply Dead0; rewrite concat_mid, !in_app_iff; tauto.
  - rewrite concat_mid, !in_app_iff in H. destruct H as [H|[H|H]]; [|now apply Dead|]; apply Dead0; rewrite concat_mid, !in_app_iff; tauto.
  - rewrite concat_mid, !in_app_iff in H. destruct H as [H|[H|H]]; [|now apply Dead|]; apply Dead0; rewrite concat_mid, !in_app_iff; tauto.
  - rewrite concat_mid, !in_app_iff in H. destruct H as [H|[H|H]]; [|now apply Dead|]; apply Dead0; rewrite concat_mid, !in_app_iff; tauto.
  - rewrite concat_mid, !in_app_iff in H. destruct H as [H|[H|H]]; [|now apply Dead|]; apply Dead0; rewrite concat_mid, !in_app_iff; tauto.
  - rewrite concat_mid, !in_app_iff in H. destruct H as [H|[H|H]]; [|now apply Dead|]; apply Dead0; rewrite concat_mid, !in_app_iff; tauto.
  - apply (placed_mid b1 l); [exact P|]. intros e He. right. rewrite <- Ln. destruct (Dead e He) as (_ & _ & E). lia.
  - rewrite zlen_app, zlen_cons in *. exact L0.
Qed.
Lemma inv_hidx h0 h t b1 l b2 e : inv h0 h t (b1 ++ l :: b2) -> In e l -> hindex (eh e) (zlen (hdata t)) = zlen b1.
Proof. intros I He. rewrite (inv_len _ _ _ _ I). destruct I as (_ & _ & _ & _ & P & _). apply (P (zlen b1) l); [apply lget_mid|exact He]. Qed.
(** room for the array of pointers after [K] calls; the load *)
Definition fit (K : Z) (t : htab) : Prop := hcount t <= K /\ hcount t <= hthreshold t /\ 3 * zlen (hdata t) - 1 <= 4 * hthreshold t <= 3 * zlen (hdata t) + 3 /\ zlen (hdata t) <= 3 * K + 7.
Lemma map_mid {A B} (f : A -> B) a x b : map f (a ++ x :: b) = map f a ++ f x :: map f b. Proof. now rewrite map_app. Qed.
Lemma put_ok h0 h t b m s v fuel K : inv h0 h t b -> models b m -> proper s -> (length (concat b) < fuel)%nat -> fit K t -> K < 2 ^ 59 ->
  exists h' t' b', ht_put h t s v fuel = Val (mval pair_dec m (key_of s), h', t') /\ inv h0 h' t' b' /\ models b' (mput pair_dec m (key_of s) v) /\ (length (concat b') <= length (concat b) + 1)%nat /\ fit (K + 1) t'.
Proof.
  intros I M P Hf Fit HK. unfold ht_put. destruct (copy_ctor_ok s (text s) ltac:(apply sound_repr, P)) as (s1 & -> & R1 & H1 & _). cbn [bind].
  assert (T1 : text s1 = text s) by (now apply repr_text). assert (S1 : sound s1) by (eapply repr_text; eauto).
  assert (P1 : proper s1) by (unfold proper; rewrite T1; split; [exact S1|apply P]).
  assert (Rep1 : reported s1 = reported s) by (unfold reported; now rewrite T1, H1).
  destruct (hash_code_ok s1 P1) as (s2 & -> & T2 & P2). rewrite Rep1. rewrite T1 in T2. cbn [bind].
  destruct (inv_bucket h0 h t b (reported s) I) as (d1 & p & d2 & b1 & l & b2 & Ed & -> & Ei & Lb & F1 & S & F2 & Here). rewrite Ei. replace (rd (hdata t) (zlen d1)) with (Val p) by (rewrite Ed, rd_mid; reflexivity). cbn [bind].
  pose proof (inv_eok _ _ _ _ I) as Ek. rewrite concat_mid, !Forall_app in Ek. destruct Ek as (_ & Ek & _). pose proof (bucket_len b1 l b2).
  pose proof I as I'. destruct I' as (_ & ND & Dead & Fr & _ & NK & C & _). pose proof (models_nodup _ _ NK M) as NM.
  destruct (find_loop_ok h (reported s) s2 ltac:(apply P2) l fuel p S Ek ltac:(lia)) as [[-> N]|(l1 & e & l2 & -> & -> & Ne & Ke)]; cbn [bind].
  - cbn [Z.eqb negb]. rewrite T2 in N.
    assert (Fresh : ~ In (key_of s) (map fst m)). { intros J. eapply Permutation_in in J; [|apply Permutation_map, M]. rewrite map_map in J. apply in_map_iff in J as (e & Ee & Ie). cbn [absent fst] in Ee. apply (N e); [|exact Ee]. apply Here; [exact Ie|]. unfold ekey, key_of in Ee. congruence. }
    assert (V0 : mval pair_dec m (key_of s) = 0) by (unfold mval; replace (mget pair_dec m (key_of s)) with (@None Z) by (symmetry; now apply mget_none); reflexivity).
    rewrite V0. clear V0.
    assert (Grow : exists h1 t1 b', (if hcount t >=? hthreshold t then rehash h t fuel else Val (h, t)) = Val (h1, t1) /\ inv h0 h1 t1 b' /\ Permutation (concat b') (concat (b1 ++ l :: b2)) /\ hcount t1 = hcount t /\ hcount t1 < hthreshold t1 /\
              3 * zlen (hdata t1) - 1 <= 4 * hthreshold t1 <= 3 * zlen (hdata t1) + 3 /\ zlen (hdata t1) <= 3 * K + 7).
    { destruct Fit as (K1 & K2 & K3 & K4). pose proof (zlen_nonneg (hdata t)). rewrite Z.geb_leb. destruct (Z.leb_spec (hthreshold t) (hcount t)).
      - destruct (rehash_ok h0 h t _ fuel I ltac:(lia) ltac:(lia)) as (h1 & t1 & b' & -> & I1 & Pm & L1 & Th & C1). exists h1, t1, b'. split; [reflexivity|]. split; [exact I1|]. split; [exact Pm|]. split; [exact C1|]. rewrite C1, Th, L1. lia.
      - exists h, t, (b1 ++ l :: b2). split; [reflexivity|]. split; [exact I|]. split; [apply Permutation_refl|]. lia. }
    destruct Grow as (h1 & t1 & b' & -> & I1 & Pm & C1 & Ld1 & Th1 & Cap1). cbn [bind].
    clear d1 p d2 F1 S F2 Ed Ei Lb Here N Ek H1.
    assert (Pm' : Permutation m (map absent (concat b'))) by (etransitivity; [exact M|apply Permutation_map, Permutation_sym, Pm]).
    destruct (inv_bucket h0 h1 t1 b' (reported s) I1) as (d1 & p & d2 & c1 & x & c2 & Ed & -> & Ei & Lb & F1 & S & F2 & _). rewrite Ei, Ed, rd_mid. cbn [bind].
    destruct (assign_ok (str_of []) s2 (text s)) as (k & -> & Rk & Hk); [rewrite <- T2; apply sound_repr, P2|]. cbn [bind].
    pose proof I1 as I1'. destruct I1' as (_ & ND1 & Dead1 & Fr1 & _ & NK1 & C1' & _).
    set (a := zlen h1 + 1). replace (zlen (h1 ++ [Some (HN (reported s) k v p)])) with a by (rewrite zlen_app; reflexivity). rewrite wr_mid by reflexivity. cbn [bind].
    set (h2 := h1 ++ [Some (HN (reported s) k v p)]). set (e := EN a (reported s) k v).
    assert (Tk : text k = text s) by (now apply repr_text).
    assert (Na : ~ In a (map ea (concat (c1 ++ x :: c2)))). { intros J. apply in_map_iff in J as (y & Ey & Iy). destruct (inv_live _ _ _ _ y I1 Iy) as (_ & r & D). apply hderef_range in D. unfold a in Ey. lia. }
    assert (G : forall q, hderef h2 q = if q =? a then Val (HN (reported s) k v p) else hderef h1 q) by (intros q; apply hnew_get).
    assert (Keep : forall y, In y (concat (c1 ++ x :: c2)) -> hderef h2 (ea y) = hderef h1 (ea y)). { intros y Hy. rewrite G. destruct (Z.eqb_spec (ea y) a) as [E|]; [|reflexivity]. exfalso. apply Na. rewrite <- E. now apply in_map. }
    assert (PmE : Permutation (e :: concat (c1 ++ x :: c2)) (concat (c1 ++ (e :: x) :: c2))). { rewrite !concat_mid. cbn [app]. apply Permutation_middle. }
    assert (Nk : ~ In (ekey e) (map ekey (concat (c1 ++ x :: c2)))). { intros J. apply Fresh. eapply Permutation_in; [apply Permutation_map, Permutation_sym, Pm'|]. rewrite map_map. unfold ekey at 1 in J. cbn [e eh ek] in J. rewrite Tk in J. exact J. }
    assert (UBa : hderef h0 a = UB). { rewrite <- Fr1 by exact Na. unfold hderef. rewrite lget_out; [reflexivity|]. unfold a. lia. }
    exists h2, (HT (d1 ++ a :: d2) (hcount t1 + 1) (hthreshold t1)), (c1 ++ (e :: x) :: c2). split; [reflexivity|]. split; [|split; [|split]].
    + eapply (inv_update h0 h1 t1 d1 p d2 c1 x c2 h2 a (e :: x)); auto.
      * split; [reflexivity|]. split; [unfold a; pose proof (zlen_nonneg h1); lia|]. exists p. split; [rewrite G, Z.eqb_refl; reflexivity|]. apply (seg_frame h1); [exact S|]. intros y Hy. apply Keep. rewrite concat_mid, !in_app_iff. auto.
      * intros y Hy. apply Keep. rewrite concat_mid, !in_app_iff. apply in_app_iff in Hy. tauto.
      * eapply Permutation_NoDup; [apply Permutation_map, PmE|]. cbn [map]. now constructor.
      * eapply Permutation_NoDup; [apply Permutation_map, PmE|]. cbn [map]. now constructor.
      * intros y [<-|Hy].
        -- split; [exact UBa|]. split; [|exact Ei]. unfold eok. cbn [e ek]. rewrite Tk. split; [eapply repr_text; eauto|]. split; [apply P|]. split; [apply P|exact Hk].
        -- assert (Iy : In y (concat (c1 ++ x :: c2))) by (rewrite concat_mid, !in_app_iff; auto). destruct (Dead1 y Iy). split; [assumption|]. split; [assumption|]. rewrite (inv_hidx _ _ _ _ _ _ _ I1 Hy). exact Lb.
      * intros q Hq. rewrite G. destruct (Z.eqb_spec q a) as [->|Nq]; [exfalso; apply Hq; eapply Permutation_in; [apply Permutation_map, PmE|now left]|]. apply Fr1. intros J. apply Hq. eapply Permutation_in; [apply Permutation_map, PmE|]. now right.
      * rewrite C1'. rewrite <- (Permutation_length PmE : _ = _) || idtac. unfold zlen. rewrite <- (Permutation_length PmE). cbn [length]. lia.
    + unfold models, mput. rewrite mremove_out by exact Fresh. eapply Permutation_trans; [|apply Permutation_map, PmE]. cbn [map]. replace (absent e) with (key_of s, v) by (unfold absent, ekey, key_of; cbn [e eh ek ev]; now rewrite Tk). now constructor.
    + rewrite <- (Permutation_length PmE), <- (Permutation_length Pm). cbn [length]. lia.
    + destruct Fit as (K1 & K2 & _ & _). unfold fit. cbn [hcount hthreshold hdata]. rewrite Ed in Th1, Cap1. rewrite !zlen_app, !zlen_cons in *. lia.
  - rewrite T2 in Ke. destruct (Z.eqb_spec (ea e) 0); [contradiction|]. cbn [negb]. destruct (seg_live h _ p 0 e S ltac:(apply in_or_app; right; now left)) as (r & _ & De). rewrite De. cbn [bind nhash nkey nnext nval].
    destruct (hstore_ok h (ea e) _ (HN (eh e) (ek e) v r) De) as (h' & -> & G). cbn [bind].
    set (e' := EN (ea e) (eh e) (ek e) v).
    assert (Hlist : concat (b1 ++ (l1 ++ e :: l2) :: b2) = (concat b1 ++ l1) ++ e :: (l2 ++ concat b2)) by (rewrite concat_mid, <- !app_assoc; reflexivity).
    assert (Hlist' : concat (b1 ++ (l1 ++ e' :: l2) :: b2) = (concat b1 ++ l1) ++ e' :: (l2 ++ concat b2)) by (rewrite concat_mid, <- !app_assoc; reflexivity).
    assert (Eea : map ea (concat (b1 ++ (l1 ++ e' :: l2) :: b2)) = map ea (concat (b1 ++ (l1 ++ e :: l2) :: b2))) by (rewrite Hlist, Hlist', !map_mid; reflexivity).
    assert (Eek : map ekey (concat (b1 ++ (l1 ++ e' :: l2) :: b2)) = map ekey (concat (b1 ++ (l1 ++ e :: l2) :: b2))) by (rewrite Hlist, Hlist', !map_mid; reflexivity).
    assert (Oth : forall y, In y ((concat b1 ++ l1) ++ (l2 ++ concat b2)) -> hderef h' (ea y) = hderef h (ea y)).
    { intros y Hy. rewrite G. destruct (Z.eqb_spec (ea y) (ea e)) as [E|]; [|reflexivity]. exfalso. rewrite Hlist, map_mid in ND. apply NoDup_remove_2 in ND. apply ND. rewrite <- map_app, <- E. now apply in_map. }
    assert (MV : mget pair_dec m (key_of s) = Some (ev e)). { rewrite (models_get _ _ _ NK M). apply mget_in; [rewrite map_map; exact NK|]. replace (key_of s, ev e) with (absent e) by (unfold absent; rewrite Ke; reflexivity). apply in_map. rewrite Hlist, !in_app_iff. right. now left. }
    unfold mval. rewrite MV. exists h', t, (b1 ++ (l1 ++ e' :: l2) :: b2). split; [reflexivity|]. split; [|split; [|split]].
    + replace t with (HT (d1 ++ p :: d2) (hcount t) (hthreshold t)) by (destruct t; cbn in Ed; subst; reflexivity). eapply (inv_update h0 h t d1 p d2 b1 (l1 ++ e :: l2) b2 h' p (l1 ++ e' :: l2)); auto.
      * apply seg_app in S as (r0 & Sl1 & A & B & r1 & D1 & Sl2). apply seg_app. exists r0. split; [apply (seg_frame h); [exact Sl1|]; intros y Hy; apply Oth; rewrite !in_app_iff; tauto|]. split; [exact A|]. split; [exact B|]. exists r1. split; [rewrite <- A, G, Z.eqb_refl; cbn [e' eh ek ev]; rewrite <- A in D1; rewrite De in D1; congruence|]. apply (seg_frame h); [exact Sl2|]. intros y Hy. apply Oth. rewrite !in_app_iff. tauto.
      * intros y Hy. apply Oth. rewrite !in_app_iff in *. tauto.
      * rewrite Eea. exact ND.
      * rewrite Eek. exact NK.
      * intros y Hy. assert (Z0 : exists z, In z (l1 ++ e :: l2) /\ ea z = ea y /\ ek z = ek y /\ eh z = eh y). { apply in_app_iff in Hy as [Hy|[<-|Hy]]; [exists y|exists e|exists y]; rewrite in_app_iff; cbn [In]; auto. }
        destruct Z0 as (z & Iz & E1 & E2 & E3). assert (Iz' : In z (concat (b1 ++ (l1 ++ e :: l2) :: b2))) by (rewrite concat_mid, in_app_iff, in_app_iff; auto). destruct (Dead z Iz') as (U & O). rewrite <- E1, <- E3. split; [exact U|]. split; [unfold eok in *; now rewrite <- E2|]. rewrite (inv_hidx _ _ _ _ _ _ _ I Iz). exact Lb.
      * intros q Hq. rewrite Eea in Hq. rewrite <- Fr by exact Hq. rewrite G. destruct (Z.eqb_spec q (ea e)) as [->|]; [|reflexivity]. exfalso. apply Hq. apply in_map. rewrite Hlist, !in_app_iff. right. now left.
      * rewrite C. apply (f_equal (@zlen Z)) in Eea. unfold zlen in *. rewrite !map_length in Eea. lia.
    + unfold models, mput. eapply Permutation_trans; [apply perm_skip, mremove_perm, M|]. rewrite Hlist, Hlist', !map_mid. replace (absent e) with (key_of s, ev e) by (unfold absent; rewrite Ke; reflexivity). rewrite mremove_mid.
      * replace (absent e') with (key_of s, v) by (unfold absent, ekey in *; cbn [e' eh ek ev]; unfold key_of; congruence). apply Permutation_middle.
      * replace (key_of s, ev e) with (absent e) by (unfold absent; rewrite Ke; reflexivity). rewrite <- map_mid, <- Hlist, map_map. exact NK.
    + rewrite Hlist, Hlist', !app_length. cbn [length]. lia.
    + unfold fit in *. lia.
Qed.
Lemma remove_ok h0 h t b m s fuel K : inv h0 h t b -> models b m -> proper s -> (length (concat b) < fuel)%nat -> fit K t ->
  exists h' t' b', ht_remove h t s fuel = Val (mval pair_dec m (key_of s), h', t') /\ inv h0 h' t' b' /\ models b' (mremove pair_dec m (key_of s)) /\ (length (concat b') <= length (concat b))%nat /\ fit K t'.
Proof.
  intros I M P Hf Fit. unfold ht_remove. rewrite const_hash_ok by exact P. cbn [bind].
  destruct (inv_bucket h0 h t b (reported s) I) as (d1 & p & d2 & b1 & l & b2 & Ed & -> & Ei & Lb & F1 & S & F2 & Here). rewrite Ei.
  assert (Rd : rd (hdata t) (zlen d1) = Val p) by (rewrite Ed, rd_mid; reflexivity). rewrite Rd. cbn [bind].
  pose proof (inv_eok _ _ _ _ I) as Ek. rewrite concat_mid, !Forall_app in Ek. destruct Ek as (_ & Ek & _). pose proof (bucket_len b1 l b2).
  pose proof I as I'. destruct I' as (_ & ND & Dead & Fr & _ & NK & C & _). pose proof (models_nodup _ _ NK M) as NM.
  assert (NDl : NoDup (map ea l)) by (rewrite concat_mid, !map_app in ND; apply NoDup_app_r in ND; now apply NoDup_app_l in ND).
  destruct (remove_loop_ok h (hdata t) (zlen d1) (reported s) s p ltac:(apply P) Rd l fuel [] 0 p eq_refl S Ek ltac:(left; auto) NDl ltac:(lia)) as [[-> N]|(l2 & e & l3 & h' & p' & -> & Ke & -> & Sx & Dx & Fx)]; cbn [bind].
  - assert (Fresh : ~ In (key_of s) (map fst m)). { intros J. eapply Permutation_in in J; [|apply Permutation_map, M]. rewrite map_map in J. apply in_map_iff in J as (e & Ee & Ie). cbn [absent fst] in Ee. apply (N e); [|exact Ee]. apply Here; [exact Ie|]. unfold ekey, key_of in Ee. congruence. }
    replace (mval pair_dec m (key_of s)) with 0 by (unfold mval; replace (mget pair_dec m (key_of s)) with (@None Z) by (symmetry; now apply mget_none); reflexivity).
    exists h, t, (b1 ++ l :: b2). rewrite mremove_out by exact Fresh. split; [destruct t; reflexivity|]. auto.
  - rewrite Ed, wr_mid by reflexivity. cbn [bind]. cbn [app] in *.
    assert (Hlist : concat (b1 ++ (l2 ++ e :: l3) :: b2) = (concat b1 ++ l2) ++ e :: (l3 ++ concat b2)) by (rewrite concat_mid, <- !app_assoc; reflexivity).
    assert (Hlist' : concat (b1 ++ (l2 ++ l3) :: b2) = (concat b1 ++ l2) ++ (l3 ++ concat b2)) by (rewrite concat_mid, <- !app_assoc; reflexivity).
    assert (NDm : NoDup (map ea (concat (b1 ++ (l2 ++ l3) :: b2)))) by (rewrite Hlist, map_mid in ND; rewrite Hlist', map_app; now apply NoDup_remove_1 in ND).
    assert (NKm : NoDup (map ekey (concat (b1 ++ (l2 ++ l3) :: b2)))) by (rewrite Hlist, map_mid in NK; rewrite Hlist', map_app; now apply NoDup_remove_1 in NK).
    assert (MV : mget pair_dec m (key_of s) = Some (ev e)). { rewrite (models_get _ _ _ NK M). apply mget_in; [rewrite map_map; exact NK|]. replace (key_of s, ev e) with (absent e) by (unfold absent; rewrite Ke; reflexivity). apply in_map. rewrite Hlist, !in_app_iff. right. now left. }
    unfold mval. rewrite MV. exists h', (HT (d1 ++ p' :: d2) (hcount t - 1) (hthreshold t)), (b1 ++ (l2 ++ l3) :: b2). split; [reflexivity|].
    assert (Cn : hcount t - 1 = zlen (concat (b1 ++ (l2 ++ l3) :: b2))) by (rewrite C, Hlist, Hlist', !zlen_app, zlen_cons, zlen_app; lia).
    split; [|split; [|split]].
    + eapply (inv_update h0 h t d1 p d2 b1 (l2 ++ e :: l3) b2 h' p' (l2 ++ l3)); auto.
      * intros y Hy. apply Fx. intros J. rewrite concat_mid, map_app, map_app in ND. apply in_app_iff in Hy as [Hy|Hy]; apply (in_map ea) in Hy.
        -- apply (NoDup_app_disj _ _ (ea y) ND Hy). apply in_or_app. left. exact J.
        -- apply NoDup_app_r in ND. apply (NoDup_app_disj _ _ (ea y) ND J Hy).
      * intros y Hy. assert (Iy : In y (l2 ++ e :: l3)) by (rewrite in_app_iff in *; cbn [In]; tauto). assert (Iy' : In y (concat (b1 ++ (l2 ++ e :: l3) :: b2))) by (rewrite concat_mid, in_app_iff, in_app_iff; auto). destruct (Dead y Iy'). split; [assumption|]. split; [assumption|]. rewrite (inv_hidx _ _ _ _ _ _ _ I Iy). exact Lb.
      * intros q Hq. destruct (Z.eq_dec q (ea e)) as [->|Nq].
        -- rewrite Dx. symmetry. apply Dead. rewrite Hlist, in_app_iff. right. now left.
        -- assert (Hq' : ~ In q (map ea (concat (b1 ++ (l2 ++ e :: l3) :: b2)))). { intros J. apply Hq. rewrite Hlist, map_mid in J. rewrite Hlist', map_app. apply in_app_iff in J as [J|[J|J]]; [apply in_or_app; now left|congruence|apply in_or_app; now right]. }
           rewrite <- Fr by exact Hq'. apply Fx. intros J. apply Hq'. rewrite concat_mid, map_app, map_app. apply in_or_app. right. apply in_or_app. left. exact J.
    + unfold models. eapply Permutation_trans; [apply mremove_perm, M|]. rewrite Hlist, Hlist', map_mid. replace (absent e) with (key_of s, ev e) by (unfold absent; rewrite Ke; reflexivity). rewrite mremove_mid; [rewrite <- map_app; apply Permutation_refl|].
      replace (key_of s, ev e) with (absent e) by (unfold absent; rewrite Ke; reflexivity). rewrite <- map_mid, <- Hlist, map_map. exact NK.
    + rewrite Hlist, Hlist', !app_length. cbn [length]. rewrite !app_length. lia.
    + unfold fit in *. cbn [hcount hthreshold hdata]. rewrite Ed in Fit. rewrite !zlen_app, !zlen_cons in *. lia.
Qed.
Lemma free_all_ok : forall d b fuel h, Forall2 (fun p l => seg h p l 0) d b -> NoDup (map ea (concat b)) -> (length (concat b) < fuel)%nat ->
  exists h', free_all h d fuel = Val h' /\ (forall q, In q (map ea (concat b)) -> hderef h' q = UB) /\ (forall q, ~ In q (map ea (concat b)) -> hderef h' q = hderef h q).
Proof.
  induction d as [|p d IH]; intros b fuel h F ND Hf; inversion F as [|? l ? b' S F']; subst; cbn [free_all].
  - exists h. split; [reflexivity|]. split; [intros q []|auto].
  - cbn [concat] in *. rewrite map_app in *. rewrite app_length in Hf. destruct (free_chain_ok l fuel h p S ltac:(now apply NoDup_app_l in ND) ltac:(lia)) as (h1 & -> & U1 & Fr1). cbn [bind].
    destruct (IH b' fuel h1) as (h' & -> & U & Fr).
    + apply (F2_frame h); [exact F'|]. intros e He. apply Fr1. intros J. apply (in_map ea) in He. exact (NoDup_app_disj _ _ _ ND J He).
    + now apply NoDup_app_r in ND.
    + lia.
    + exists h'. split; [reflexivity|]. split; intros q Hq; rewrite in_app_iff in Hq.
      * destruct Hq as [Hq|Hq]; [|auto]. rewrite Fr by (intros J; exact (NoDup_app_disj _ _ _ ND Hq J)). auto.
      * rewrite Fr, Fr1 by tauto. reflexivity.
Qed.
Lemma inv_empty h0 h n thr : (0 < n)%nat -> (forall q, hderef h q = hderef h0 q) -> inv h0 h (HT (repeat 0 n) 0 thr) (repeat [] n).
Proof.
  intros Hn E. unfold inv. cbn [hdata hcount]. rewrite concat_nils. split; [apply F2_nils|]. split; [constructor|]. split; [intros e []|]. split; [auto|]. split; [apply placed_nils|]. split; [constructor|]. split; [reflexivity|]. rewrite zlen_repeat. lia.
Qed.
Lemma clear_ok h0 h t b fuel K : inv h0 h t b -> (length (concat b) < fuel)%nat -> fit K t -> 0 <= K ->
  exists h' t' b', ht_clear h t fuel = Val (h', t') /\ inv h0 h' t' b' /\ concat b' = [] /\ fit K t' /\ (forall q, hderef h' q = hderef h0 q).
Proof.
  intros I Hf Fit HK. pose proof (inv_len _ _ _ _ I) as Ln. destruct I as (F & ND & Dead & Fr & P & NK & C & L0). unfold ht_clear. destruct (free_all_ok (hdata t) b fuel h F ND Hf) as (h' & -> & U & Fr'). cbn [bind].
  assert (Back : forall q, hderef h' q = hderef h0 q).
  { intros q. destruct (in_dec Z.eq_dec q (map ea (concat b))) as [J|J]; [|now rewrite Fr', Fr]. rewrite U by exact J. apply in_map_iff in J as (e & <- & Ie). symmetry. now apply Dead. }
  exists h', (HT (repeat 0 (length (hdata t))) 0 (hthreshold t)), (repeat [] (length (hdata t))). split; [reflexivity|]. split; [|split; [apply concat_nils|split; [|exact Back]]].
  - apply inv_empty; [unfold zlen in *; lia|exact Back].
  - unfold fit in *. cbn [hcount hthreshold hdata]. rewrite zlen_repeat. fold (zlen (hdata t)). pose proof (zlen_nonneg (concat b)). lia.
Qed.
Lemma models_len b m : models b m -> zlen m = zlen (concat b).
Proof. intros P. unfold zlen. rewrite (Permutation_length P), map_length. reflexivity. Qed.
Lemma step_ok h0 h t b m o fuel K : inv h0 h t b -> models b m -> proper_op o -> (length (concat b) < fuel)%nat -> fit K t -> 0 <= K < 2 ^ 59 ->
  exists a h' t' b', hexec o fuel h t = Val (a, h', t') /\ hspec pair_dec key_of o m = (a, snd (hspec pair_dec key_of o m)) /\ inv h0 h' t' b' /\ models b' (snd (hspec pair_dec key_of o m)) /\ (length (concat b') <= length (concat b) + 1)%nat /\ fit (K + 1) t'.
Proof.
  intros I M P Hf Fit HK. assert (Fit1 : fit (K + 1) t) by (unfold fit in *; lia). destruct o as [s v|s|s|s| |]; cbn [hexec hspec snd proper_op opkey] in *.
  - destruct (put_ok h0 h t b m s v fuel K I M P Hf Fit ltac:(lia)) as (h' & t' & b' & -> & I' & M' & L' & F'). cbn [bind]. eexists _, h', t', b'. split; [reflexivity|]. split; [reflexivity|]. split; [exact I'|]. split; [exact M'|]. split; [lia|exact F'].
  - rewrite (get_ok h0 h t b m s fuel I M P Hf). cbn [bind]. eexists _, h, t, b. split; [reflexivity|]. split; [reflexivity|]. split; [exact I|]. split; [exact M|]. split; [lia|exact Fit1].
  - unfold ht_contains. rewrite (get_ok h0 h t b m s fuel I M P Hf). cbn [bind]. eexists _, h, t, b. split; [reflexivity|]. split; [reflexivity|]. split; [exact I|]. split; [exact M|]. split; [lia|exact Fit1].
  - destruct (remove_ok h0 h t b m s fuel (K + 1) I M P Hf Fit1) as (h' & t' & b' & -> & I' & M' & L' & F'). cbn [bind]. eexists _, h', t', b'. split; [reflexivity|]. split; [reflexivity|]. split; [exact I'|]. split; [exact M'|]. split; [lia|exact F'].
  - destruct (clear_ok h0 h t b fuel (K + 1) I Hf Fit1 ltac:(lia)) as (h' & t' & b' & -> & I' & E & F' & _). cbn [bind]. eexists _, h', t', b'. split; [reflexivity|]. split; [reflexivity|]. split; [exact I'|]. split; [unfold models; rewrite E; constructor|]. split; [rewrite E; cbn; lia|exact F'].
  - eexists _, h, t, b. split; [reflexivity|]. split; [rewrite (models_len _ _ M); destruct I as (_ & _ & _ & _ & _ & _ & -> & _); reflexivity|]. split; [exact I|]. split; [exact M|]. split; [lia|exact Fit1].
Qed.
Lemma steps_ok h0 : forall os h t b m fuel K, inv h0 h t b -> models b m -> Forall proper_op os -> (length (concat b) + length os < fuel)%nat -> fit K t -> 0 <= K -> K + zlen os < 2 ^ 59 ->
  exists h' t' b', hexec_all os fuel h t = Val (fst (hspecs pair_dec key_of os m), h', t') /\ inv h0 h' t' b' /\ models b' (snd (hspecs pair_dec key_of os m)) /\ (length (concat b') <= length (concat b) + length os)%nat /\ fit (K + zlen os) t'.
Proof.
  induction os as [|o os IH]; intros h t b m fuel K I M P Hf Fit HK HB; cbn [hexec_all hspecs].
  - exists h, t, b. cbn [fst snd length]. split; [reflexivity|]. split; [exact I|]. split; [exact M|]. split; [lia|]. now rewrite Z.add_0_r.
  - rewrite zlen_cons in *. pose proof (zlen_nonneg os). cbn [length] in *. inversion P as [|? ? Po Ps]; subst.
    destruct (step_ok h0 h t b m o fuel K I M Po ltac:(lia) Fit ltac:(lia)) as (a & h1 & t1 & b1 & -> & E & I1 & M1 & L1 & F1). cbn [bind]. rewrite E. set (m1 := snd (hspec pair_dec key_of o m)) in *.
    destruct (IH h1 t1 b1 m1 fuel (K + 1) I1 M1 Ps ltac:(lia) F1 ltac:(lia) ltac:(lia)) as (h' & t' & b' & -> & I' & M' & L' & F'). cbn [bind]. exists h', t', b'. destruct (hspecs pair_dec key_of os m1) as [r m2]. cbn [fst snd] in *.
    split; [reflexivity|]. split; [exact I'|]. split; [exact M'|]. split; [lia|]. replace (K + (1 + zlen os)) with (K + 1 + zlen os) by lia || idtac. replace (K + (zlen os + 1)) with (K + 1 + zlen os) by lia. exact F'.
Qed.
Lemma new_ok h : inv h h ht_new (repeat [] 7) /\ models (repeat [] 7) [] /\ fit 0 ht_new.
Proof.
  split; [|split; [constructor|]].
  - apply (inv_empty h h 7 5); [lia|auto].
  - unfold fit, ht_new. cbn. lia.
Qed.

(** * iteration *)
Definition itrep (h : hheap) (t : htab) (b : list (list ent)) (it : hiter) (es : list ent) : Prop :=
  exists l b1 b2, seg h (ientry it) l 0 /\ b = b1 ++ b2 /\ zlen b1 = iindex it /\ es = l ++ concat b2.
Lemma it_skip_ok h t b : Forall2 (fun p l => seg h p l 0) (hdata t) b -> forall fuel it es, itrep h t b it es -> (Z.to_nat (zlen b - iindex it) < fuel)%nat ->
  exists it', it_skip t it fuel = Val it' /\ itrep h t b it' es /\ iindex it <= iindex it' /\ (ientry it' = 0 <-> es = []).
Proof.
  intros F. assert (Ln : zlen (hdata t) = zlen b) by (unfold zlen; f_equal; eapply Forall2_length; eauto). induction fuel as [|fuel IH]; intros [p i] es R Hf; [lia|]. cbn [ientry iindex it_skip] in *. rewrite Ln.
  destruct R as (l & b1 & b2 & S & Eb & L & Ee). cbn [ientry iindex] in *.
  destruct (Z.eqb_spec p 0) as [->|Np]; cbn [andb].
  - assert (El : l = []) by (destruct l as [|e l]; [reflexivity|]; destruct S as (_ & N & _); contradiction). subst l. cbn [app] in Ee. destruct (Z.ltb_spec i (zlen b)).
    + rewrite <- L. destruct b2 as [|x b2]; [rewrite app_nil_r in Eb; subst; lia|]. pose proof F as F'. rewrite Eb in F'. apply Forall2_app_inv_r in F' as (d1 & d2' & F1 & F2 & Ed). inversion F2 as [|q ? d2 ? Sx F3]; subst.
      rewrite Ed. assert (Ld : zlen d1 = zlen b1) by (unfold zlen; f_equal; eapply Forall2_length; eauto). rewrite rd_mid' by lia. cbn [bind].
      destruct (IH (HI q (zlen b1 + 1)) (concat (x :: b2))) as (it' & E & R' & Le & Z0).
      * exists x, (b1 ++ [x]), b2. cbn [ientry iindex]. split; [exact Sx|]. split; [now rewrite <- app_assoc|]. split; [rewrite zlen_app; reflexivity|reflexivity].
      * cbn [iindex]. lia.
      * exists it'. cbn [iindex] in Le. split; [exact E|]. split; [exact R'|]. split; [lia|exact Z0].
    + exists (HI 0 i). split; [reflexivity|]. assert (b2 = []) by (destruct b2; [reflexivity|]; subst b; rewrite zlen_app, zlen_cons in *; pose proof (zlen_nonneg b2); lia). subst. split; [exists [], b1, []; auto|]. cbn. split; [lia|tauto].
  - exists (HI p i). split; [reflexivity|]. split; [exists l, b1, b2; auto|]. cbn. split; [lia|]. split; [contradiction|]. intros E. destruct l as [|e l]; [cbn in S; contradiction|]. subst es. discriminate.
Qed.
Definition shown (e : ent) : list Z * Z := (text (ek e), ev e).
Lemma itexec_ok h t b fuel : Forall2 (fun p l => seg h p l 0) (hdata t) b -> (length b < fuel)%nat -> forall cs it es, itrep h t b it es -> itexec cs h t it fuel = Val (itspec cs (map shown es)).
Proof.
  intros F Hf. induction cs as [|c cs IH]; intros it es R; cbn [itexec itspec]; [reflexivity|].
  destruct (it_skip_ok h t b F fuel it es R) as (it' & E & R' & Le & Z0); [destruct R as (l & b1 & b2 & _ & _ & L & _); pose proof (zlen_nonneg b1); unfold zlen in *; lia|].
  destruct c.
  - unfold it_has_next. rewrite E. cbn [bind]. rewrite (IH it' es R'). cbn [bind]. do 2 f_equal. f_equal. destruct es as [|e es]; cbn [map]; destruct (Z.eqb_spec (ientry it') 0) as [E0|N0]; try reflexivity; [exfalso; tauto|]. apply Z0 in E0. discriminate.
  - unfold it_next. rewrite E. cbn [bind]. destruct (Z.eqb_spec (ientry it') 0) as [E0|N0]; cbn [negb bind].
    + apply Z0 in E0. subst es. rewrite (IH it' [] R'). reflexivity.
    + destruct es as [|e es]; [exfalso; tauto|]. destruct R' as (l & b1 & b2 & S & Eb & L & Ee). destruct l as [|e0 l]; [cbn in S; contradiction|]. cbn [app] in Ee. injection Ee as <- Ee. destruct S as (A & B & r & D & S). rewrite D. cbn [bind nnext].
      rewrite (IH (HI r (iindex it')) es); [|exists l, b1, b2; auto]. reflexivity.
Qed.

(** * clean keys *)
Definition drop_hash (e : (Z * list Z) * Z) : list Z * Z := (snd (fst e), snd e).
Definition pure (m : fmap (Z * list Z)) : Prop := Forall (fun e => fst (fst e) = poly (snd (fst e))) m.
Lemma pure_same k s : fst k = poly (snd k) -> clean s -> same pair_dec k (key_of s) = same text_dec (snd k) (text s).
Proof.
  intros E C. unfold clean in C. destruct k as [x u]. cbn [fst snd] in *. unfold key_of. rewrite C. unfold same. destruct (pair_dec (x, u) (poly (text s), text s)) as [e|n], (text_dec u (text s)) as [e'|n']; try reflexivity; exfalso; congruence.
Qed.
Lemma pure_get m s : pure m -> clean s -> mget pair_dec m (key_of s) = mget text_dec (map drop_hash m) (text s).
Proof.
  intros P C. induction P as [|[k v] m E P IH]; [reflexivity|]. cbn [mget map drop_hash fst snd]. rewrite (pure_same k s E C). now rewrite IH.
Qed.
Lemma pure_remove m s : pure m -> clean s -> map drop_hash (mremove pair_dec m (key_of s)) = mremove text_dec (map drop_hash m) (text s) /\ pure (mremove pair_dec m (key_of s)).
Proof.
  intros P C. induction P as [|[k v] m E P [IH1 IH2]]; [split; [reflexivity|constructor]|]. unfold mremove in *. cbn [filter map drop_hash fst snd] in *. rewrite (pure_same k s E C). destruct (negb _); cbn [map]; [|auto]. rewrite IH1. split; [reflexivity|]. constructor; auto.
Qed.
Lemma pure_step o m : pure m -> clean_op o -> hspec text_dec text o (map drop_hash m) = (fst (hspec pair_dec key_of o m), map drop_hash (snd (hspec pair_dec key_of o m))) /\ pure (snd (hspec pair_dec key_of o m)).
Proof.
  intros P C. unfold clean_op in C. destruct o as [s v|s|s|s| |]; cbn [opkey hspec fst snd] in *; unfold mval; try rewrite (pure_get m s P C); try (split; [reflexivity|exact P]).
  - destruct (pure_remove m s P C) as [E Q]. split; [|constructor; [exact C|exact Q]]. f_equal. unfold mput. cbn [map drop_hash fst snd]. now rewrite E.
  - destruct (pure_remove m s P C) as [E Q]. now rewrite E.
  - split; [reflexivity|constructor].
  - split; [|exact P]. unfold zlen. now rewrite map_length.
Qed.
Lemma pure_steps : forall os m, pure m -> Forall clean_op os -> hspecs text_dec text os (map drop_hash m) = (fst (hspecs pair_dec key_of os m), map drop_hash (snd (hspecs pair_dec key_of os m))).
Proof.
  induction os as [|o os IH]; intros m P C; [reflexivity|]. inversion C as [|? ? Co Cs]; subst. cbn [hspecs]. destruct (pure_step o m P Co) as [E Q]. rewrite E. destruct (hspec pair_dec key_of o m) as [a m1]. cbn [fst snd] in *. rewrite (IH m1 Q Cs). destruct (hspecs pair_dec key_of os m1) as [r m2]. reflexivity.
Qed.
Lemma pure_all : forall os m, pure m -> Forall clean_op os -> pure (snd (hspecs pair_dec key_of os m)).
Proof.
  induction os as [|o os IH]; intros m P C; [exact P|]. inversion C as [|? ? Co Cs]; subst. cbn [hspecs]. destruct (pure_step o m P Co) as [_ Q]. destruct (hspec pair_dec key_of o m) as [a m1]. cbn [fst snd] in *. specialize (IH m1 Q Cs). destruct (hspecs pair_dec key_of os m1). exact IH.
Qed.
Lemma pure_nodup m : pure m -> NoDup (map fst m) -> NoDup (map (fun e : (Z * list Z) * Z => snd (fst e)) m).
Proof.
  induction 1 as [|e m E P IH]; intros N; cbn [map] in *; [constructor|]. inversion N as [|? ? N1 N2]; subst. constructor; [|auto]. intros J. apply N1. apply in_map_iff in J as (x & Ex & Ix). unfold pure in P. rewrite Forall_forall in P. pose proof (P x Ix) as Px. apply in_map_iff. exists x. split; [|exact Ix]. destruct (fst x), (fst e). cbn [fst snd] in *. congruence.
Qed.
Lemma poly_range t : 0 <= poly t < 2 ^ 32.
Proof. destruct t; cbn [poly]; [lia|apply Z.mod_pos_bound; lia]. Qed.
Lemma wr_len {A} (l : list A) i x l' : wr l i x = Val l' -> zlen l' = zlen l.
Proof. unfold wr. destruct (lset l i x) eqn:E; [|discriminate]. intros H. injection H as <-. eapply lset_zlen; eauto. Qed.
Lemma move_loop_len : forall fuel h nd p h' nd', move_loop h nd p fuel = Val (h', nd') -> zlen nd' = zlen nd.
Proof.
  induction fuel as [|fuel IH]; intros h nd p h' nd' E; [discriminate|]. cbn [move_loop] in E. destruct (p =? 0); [now injection E as _ <-|].
  destruct (hderef h p) as [e| | |]; try discriminate. cbn [bind] in E. destruct (rd nd _) as [q| | |]; try discriminate. cbn [bind] in E. destruct (hstore _ _ _) as [h1| | |]; try discriminate. cbn [bind] in E. destruct (wr nd _ p) as [nd1| | |] eqn:W; try discriminate. cbn [bind] in E. apply IH in E. apply wr_len in W. lia.
Qed.
Lemma move_all_len : forall od h nd fuel h' nd', move_all h nd od fuel = Val (h', nd') -> zlen nd' = zlen nd.
Proof.
  induction od as [|p od IH]; intros h nd fuel h' nd' E; cbn [move_all] in E; [now injection E as _ <-|]. destruct (move_loop h nd p fuel) as [[h1 nd1]| | |] eqn:M; try discriminate. cbn [bind] in E. apply IH in E. apply move_loop_len in M. lia.
Qed.
Lemma remove_loop_len : forall fuel h d i prev p hs key r h' d', remove_loop h d i prev p hs key fuel = Val (r, h', d') -> zlen d' = zlen d.
Proof.
  induction fuel as [|fuel IH]; intros h d i prev p hs key r h' d' E; [discriminate|]. cbn [remove_loop] in E. destruct (p =? 0); [now injection E as _ _ <-|].
  destruct (hderef h p) as [e| | |]; try discriminate. cbn [bind] in E. destruct (if nhash e =? hs then equals (nkey e) key else Val false) as [eq| | |]; try discriminate. cbn [bind] in E. destruct eq; [|now apply IH in E].
  destruct (negb (prev =? 0)).
  - destruct (hderef h prev) as [pe| | |]; try discriminate. cbn [bind] in E. destruct (hstore _ _ _) as [h1| | |]; try discriminate. cbn [bind] in E. destruct (hfree h1 p) as [h2| | |]; try discriminate. cbn [bind] in E. now injection E as _ _ <-.
  - destruct (wr d i (nnext e)) as [d1| | |] eqn:W; try discriminate. cbn [bind] in E. destruct (hfree h p) as [h2| | |]; try discriminate. cbn [bind] in E. injection E as _ _ <-. now apply wr_len in W.
Qed.
Lemma hexec_grows o fuel h t a h' t' : hexec o fuel h t = Val (a, h', t') -> zlen (hdata t) <= zlen (hdata t').
Proof.
  destruct o as [s v|s|s|s| |]; cbn [hexec].
  - unfold ht_put. destruct (copy_ctor s) as [s1| | |]; try discriminate. cbn [bind]. destruct (hash_code s1) as [[x s2]| | |]; try discriminate. cbn [bind]. destruct (rd (hdata t) _) as [p| | |]; try discriminate. cbn [bind]. destruct (find_loop h p x s2 fuel) as [f| | |]; try discriminate. cbn [bind].
    destruct (negb (f =? 0)).
    + destruct (hderef h f) as [e| | |]; try discriminate. cbn [bind]. destruct (hstore h f _) as [h1| | |]; try discriminate. cbn [bind]. intros E. injection E as _ _ <-. lia.
    + assert (G : forall h1 t1, (if hcount t >=? hthreshold t then rehash h t fuel else Val (h, t)) = Val (h1, t1) -> zlen (hdata t) <= zlen (hdata t1)).
      { intros h1 t1. destruct (hcount t >=? hthreshold t); [|intros E; injection E as _ <-; lia]. unfold rehash, chk64. destruct (in_s64 _); [|discriminate]. cbn [bind]. destruct (move_all _ _ _ _) as [[h2 nd]| | |] eqn:M; try discriminate. cbn [bind]. intros E. injection E as _ <-. cbn [hdata]. apply move_all_len in M. rewrite zlen_repeat in M. pose proof (zlen_nonneg (hdata t)). lia. }
      destruct (if hcount t >=? hthreshold t then rehash h t fuel else Val (h, t)) as [[h1 t1]| | |]; try discriminate. specialize (G h1 t1 eq_refl). cbn [bind]. destruct (rd (hdata t1) _) as [e| | |]; try discriminate. cbn [bind]. destruct (assign _ _) as [k| | |]; try discriminate. cbn [bind]. destruct (wr (hdata t1) _ _) as [d| | |] eqn:W; try discriminate. cbn [bind]. intros E. injection E as _ _ <-. cbn [hdata]. apply wr_len in W. lia.
  - destruct (ht_get _ _ _ _); try discriminate. cbn [bind]. intros E. injection E as _ _ <-. lia.
  - destruct (ht_contains _ _ _ _); try discriminate. cbn [bind]. intros E. injection E as _ _ <-. lia.
  - unfold ht_remove. destruct (const_hash_code s) as [x| | |]; try discriminate. cbn [bind]. destruct (rd _ _) as [p| | |]; try discriminate. cbn [bind]. destruct (remove_loop _ _ _ _ _ _ _ _) as [[[r h1] d]| | |] eqn:R; try discriminate. apply remove_loop_len in R. cbn [bind]. destruct r as [v|]; cbn [bind]; intros E; injection E as _ _ <-; cbn [hdata]; lia.
  - unfold ht_clear. destruct (free_all _ _ _); try discriminate. cbn [bind]. intros E. injection E as _ _ <-. cbn [hdata]. rewrite zlen_repeat. unfold zlen. lia.
  - intros E. injection E as _ _ <-. lia.
Qed.
Lemma hexec_all_grows : forall os fuel h t r h' t' n, hexec_all os fuel h t = Val (r, h', t') -> n <= zlen (hdata t) -> n <= zlen (hdata t').
Proof.
  induction os as [|o os IH]; intros fuel h t r h' t' n E Hn; cbn [hexec_all] in E; [now injection E as _ _ <-|]. destruct (hexec o fuel h t) as [[[a h1] t1]| | |] eqn:X; try discriminate. cbn [bind] in E. destruct (hexec_all os fuel h1 t1) as [[[r1 h2] t2]| | |] eqn:Y; try discriminate. cbn [bind] in E. injection E as _ _ <-. apply hexec_grows in X. eapply IH; [exact Y|lia].
Qed.
