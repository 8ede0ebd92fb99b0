From Verif Require Import Base M_Undo M_LinkedList S_LinkedList L_LinkedList L_LinkedList2.
Ltac Zify.zify_post_hook ::= Z.to_euclidean_division_equations.
Notation ids es := (map fst es).
(** elements not in the list are unlinked *)
Definition lz (N : nat) (c : list Z) (es : list (Z * Z)) : Prop := forall e, 2 <= e < Z.of_nat N + 2 -> ~ In e (ids es) -> lget c (cnext e) = Some 0 /\ lget c (cprev e) = Some 0.
Lemma hd_pos es q f : Forall (fun e => 2 <= e < f) (ids es) -> es <> [] -> 2 <= hd_id es q < f.
Proof. destruct es as [|[e d] es]; [congruence|]. intros H _. inversion H; subst. cbn [hd_id fst] in *. lia. Qed.
Lemma last_pos es f : forall q, Forall (fun e => 2 <= e < f) (ids es) -> es <> [] -> 2 <= last_id q es < f.
Proof. induction es as [|[e d] es IH]; [congruence|]. intros q H _. inversion H; subst. cbn [last_id fst] in *. destruct es as [|x es]; [cbn [last_id]; lia|]. apply IH; [assumption|discriminate]. Qed.
Lemma hd_in es q : es <> [] -> In (hd_id es q) (ids es). Proof. destruct es as [|[e d] es]; [congruence|]. intros _. now left. Qed.
Lemma last_in es : forall q, es <> [] -> In (last_id q es) (ids es).
Proof. induction es as [|[e d] es IH]; [congruence|]. intros q _. cbn [last_id map fst]. destruct es as [|x es]; [now left|]. right. apply IH. discriminate. Qed.
Lemma snoc_cases {A} (l : list A) : l = [] \/ exists a x, l = a ++ [x].
Proof. destruct l using rev_ind; [now left|right; eauto]. Qed.
Lemma u32_succ n : u32 (u32 n + 1) = u32 (n + 1). Proof. unfold u32. apply Zplus_mod_idemp_l. Qed.
Lemma u32_pred n : u32 (u32 n - 1) = u32 (n - 1). Proof. unfold u32. apply Zminus_mod_idemp_l. Qed.
Ltac ceval := cbn [apply_ef app opt el evl negb]; ucell; cg; eqs; try reflexivity; try assumption; try congruence.
Lemma nd_app_iff {A} (a b : list A) : NoDup (a ++ b) <-> NoDup a /\ NoDup b /\ forall x, In x a -> ~ In x b.
Proof.
  induction a as [|x a IH]; cbn [app].
  - split; [intros H; split; [constructor|split; [exact H|intros ? []]]|tauto].
  - split.
    + intros H. inversion H as [|? ? H1 H2]; subst. apply IH in H2 as (Ha & Hb & Hab). split; [constructor; [intros I; apply H1, in_or_app; now left|exact Ha]|]. split; [exact Hb|]. intros y [<-|Hy]; [intros I; apply H1, in_or_app; now right|now apply Hab].
    + intros (Ha & Hb & Hab). inversion Ha as [|? ? H1 H2]; subst. constructor; [intros I; apply in_app_or in I as [I|I]; [now apply H1|exact (Hab x (or_introl eq_refl) I)]|]. apply IH. split; [exact H2|]. split; [exact Hb|]. intros y Hy. apply Hab. now right.
Qed.
Lemma add_rep N f c es d : lrep N f c es -> f < Z.of_nat N + 2 ->
  let c1 := cset c (cdata f) d in
  let c2 := apply_ef (add_effs f (last_id 0 es) (hd_id es 0) (u32 (zlen es))) c1 in
  lrep N (f + 1) c2 (es ++ [(f, d)]) /\ (lz N c es -> lz N c2 (es ++ [(f, d)])) /\ (forall e, 2 <= e < Z.of_nat N + 2 -> lget c2 (cdata e) = if e =? f then Some d else lget c (cdata e)).
Proof.
  intros [L Gs Ge Gn D ND In_ Hf Fr] Hlt c1 c2. destruct (Fr f ltac:(lia)) as [Ff1 Ff2].
  destruct (snoc_cases es) as [->|(a & [e de] & ->)].
  - unfold c2, c1, add_effs. cbn [last_id hd_id]. change (negb (0 =? 0)) with false. change (0 =? 0) with true. split; [|split].
    + constructor; cbn [app map fst hd_id last_id zlen length]; rewrite ?apply_zlen, ?cset_zlen; auto; try lia.
      * ceval; lia.
      * ceval; lia.
      * ceval; lia.
      * cbn [dls hd_id]. ucell. split; [ceval; lia|]. split; [ceval; lia|]. split; [ceval; lia|exact Logic.I].
      * constructor; [intros []|constructor].
      * constructor; [lia|constructor].
      * intros x Hx. destruct (Fr x ltac:(lia)). ucell. split; ceval; lia.
    + intros Z0 x Hx Nx. cbn [app map fst] in Nx. assert (x <> f) by (intros ->; apply Nx; now left). destruct (Z0 x Hx ltac:(intros [])). ucell. split; ceval; lia.
    + intros x Hx. ucell. ceval; lia.
  - rewrite map_app in ND, In_. cbn [map fst] in ND, In_. apply Forall_app in In_ as [Ia Ie]. inversion Ie as [|? ? He _]; subst. apply nd_app_iff in ND as (NDa & _ & NDe).
    rewrite dls_app in D. destruct D as [Da De]. cbn [dls hd_id] in Da, De. destruct De as (De1 & De2 & De3 & _).
    assert (Hst : 2 <= hd_id (a ++ [(e, de)]) 0 < f) by (apply hd_pos; [rewrite map_app; apply Forall_app; auto|intros H; destruct a; discriminate]).
    unfold c2, c1, add_effs. rewrite !last_app in *. cbn [last_id] in *. replace (negb (e =? 0)) with true by lia. replace (hd_id (a ++ [(e, de)]) 0 =? 0) with false by lia. split; [|split].
    + constructor; rewrite ?apply_zlen, ?cset_zlen; auto; try lia.
      * rewrite hd_app. assert (Hh : hd_id (a ++ [(e, de)]) (hd_id [(f, d)] 0) = hd_id (a ++ [(e, de)]) 0) by (rewrite !hd_app; reflexivity). rewrite Hh. ceval; lia.
      * rewrite !last_app. cbn [last_id]. ceval; lia.
      * rewrite u32_succ. rewrite (zlen_app _ [(f, d)]). change (zlen [(f, d)]) with 1. ceval; lia.
      * rewrite dls_app, dls_app. cbn [dls hd_id last_id app]. rewrite last_app. cbn [last_id].
        assert (A1 : forall x l, In x (ids a) -> l = cnext x \/ l = cprev x \/ l = cdata x -> lget (apply_ef ([EF f (cprev f) e true] ++ [EF e (cnext e) f true] ++ [EF this cend f true; EF this ccount (u32 (u32 (zlen (a ++ [(e, de)])) + 1)) false]) (cset c (cdata f) d)) l = lget c l).
        { intros x l Hx Hl. assert (x <> e) by (intros ->; apply (NDe e Hx); now left). pose proof (proj1 (Forall_forall _ _) Ia x Hx) as Bx. cbn beta in Bx. ucell. destruct Hl as [Hl|[Hl|Hl]]; subst l; ceval; lia. }
        split; [split; [|split; [|split; [|split; [|exact Logic.I]]]]|split; [|split; [|split; [|exact Logic.I]]]].
        -- eapply dls_frame; [exact A1|exact Da].
        -- ucell. ceval; lia.
        -- ucell. ceval; lia.
        -- ucell. ceval; lia.
        -- ucell. ceval; lia.
        -- ucell. ceval; lia.
        -- ucell. ceval; lia.
      * rewrite !map_app. cbn [map fst]. apply nd_app_iff. split; [apply nd_app_iff; split; [exact NDa|]; split; [constructor; [intros []|constructor]|exact NDe]|]. split; [constructor; [intros []|constructor]|].
        intros x Hx [<-|[]]. apply in_app_or in Hx as [Hx|[<-|[]]]; [|lia]. pose proof (proj1 (Forall_forall _ _) Ia f Hx) as Bx. cbn beta in Bx. lia.
      * rewrite !map_app. cbn [map fst]. apply Forall_app; split; [apply Forall_app; split|].
        -- eapply Forall_impl; [|exact Ia]. cbn beta. intros; lia.
        -- constructor; [lia|constructor].
        -- constructor; [lia|constructor].
      * intros x Hx. destruct (Fr x ltac:(lia)). ucell. split; ceval; lia.
    + intros Z0 x Hx Nx. rewrite map_app in Nx. assert (x <> f) by (intros ->; apply Nx, in_or_app; right; now left). assert (Nx' : ~ In x (ids (a ++ [(e, de)]))) by (intros I; apply Nx, in_or_app; now left). assert (x <> e) by (intros ->; apply Nx'; rewrite map_app; apply in_or_app; right; now left). destruct (Z0 x Hx Nx'). ucell. split; ceval; lia.
    + intros x Hx. ucell. ceval; lia.
Qed.

Lemma ids_app (a b : list (Z * Z)) : ids (a ++ b) = ids a ++ ids b. Proof. apply map_app. Qed.
Lemma last_id_snoc p a e d : last_id p (a ++ [(e, d)]) = e. Proof. rewrite last_app. reflexivity. Qed.
Lemma hd_ne a x dx b : NoDup (ids (a ++ (x, dx) :: b)) -> a <> [] -> hd_id (a ++ (x, dx) :: b) 0 <> x.
Proof. intros H Ha E. destruct a as [|[y dy] a]; [congruence|]. cbn [app hd_id] in E. subst y. rewrite ids_app in H. apply nd_app_iff in H as (_ & _ & H). apply (H x); [now left|now left]. Qed.
Lemma last_ne a x dx b : NoDup (ids (a ++ (x, dx) :: b)) -> b <> [] -> last_id 0 (a ++ (x, dx) :: b) <> x.
Proof.
  intros H Hb E. rewrite last_app in E. cbn [last_id] in E. rewrite ids_app in H. apply nd_app_iff in H as (_ & H & _). inversion H as [|? ? H1 _]; subst. apply H1. cbn [fst]. rewrite <- E at 1. now apply last_in.
Qed.
Ltac inb H := pose proof (proj1 (Forall_forall _ _) H) as B; cbn beta in B.
Lemma before_rep N f c a x dx b d : lrep N f c (a ++ (x, dx) :: b) -> f < Z.of_nat N + 2 ->
  let es := a ++ (x, dx) :: b in
  let c1 := cset c (cdata f) d in
  let c2 := apply_ef (before_effs x f (last_id 0 a) (hd_id es 0) (u32 (zlen es))) c1 in
  let es' := a ++ (f, d) :: (x, dx) :: b in
  lrep N (f + 1) c2 es' /\ (lz N c es -> lz N c2 es') /\ (forall e, 2 <= e < Z.of_nat N + 2 -> lget c2 (cdata e) = if e =? f then Some d else lget c (cdata e)).
Proof.
  intros [L Gs Ge Gn D ND In_ Hf Fr] Hlt es c1 c2 es'. destruct (Fr f ltac:(lia)) as [Ff1 Ff2].
  assert (Hz : u32 (u32 (zlen es) + 1) = u32 (zlen es')) by (rewrite u32_succ; unfold es, es'; rewrite !zlen_app, !zlen_cons; f_equal; lia).
  assert (Hin : forall e, In e (ids es) -> 2 <= e < f) by (intros e He; exact (proj1 (Forall_forall _ _) In_ e He)).
  assert (Hx : 2 <= x < f) by (apply Hin; unfold es; rewrite ids_app; apply in_or_app; right; now left).
  assert (Hids : forall e, In e (ids es') <-> e = f \/ In e (ids es)).
  { intros e. unfold es, es'. rewrite !ids_app, !in_app_iff. cbn [map fst In]. intuition. }
  assert (ND' : NoDup (ids es')).
  { unfold es'. rewrite ids_app. cbn [map fst]. unfold es in *. rewrite ids_app in ND. cbn [map fst] in ND. apply NoDup_Add with (a := f) (l := ids a ++ x :: ids b); [apply Add_app|]. split; [exact ND|].
    intros I. specialize (Hin f). rewrite ids_app in Hin. specialize (Hin I). lia. }
  assert (In' : Forall (fun e => 2 <= e < f + 1) (ids es')).
  { apply Forall_forall. intros e He. apply Hids in He as [->|He]; [lia|]. specialize (Hin e He). lia. }
  assert (Hend : last_id 0 es' = last_id 0 es) by (unfold es, es'; rewrite !last_app; reflexivity).
  assert (NDx := ND). rewrite ids_app in NDx. apply nd_app_iff in NDx as (NDa & NDb & NDab). cbn [map fst] in NDb. inversion NDb as [|? ? Nxb NDb']; subst.
  assert (D' := D). rewrite dls_app in D'. destruct D' as [Da (Dx1 & Dx2 & Dx3 & Db)]. cbn [hd_id] in Da.
  destruct (snoc_cases a) as [Ea|(a' & [p dp] & Ea)].
  - assert (E1 : last_id 0 a = 0) by (rewrite Ea; reflexivity). assert (E2 : hd_id es 0 = x) by (unfold es; rewrite Ea; reflexivity). assert (E3 : hd_id es' 0 = f) by (unfold es'; rewrite Ea; reflexivity).
    unfold c2, before_effs. rewrite E1, E2, Z.eqb_refl, Hz. change (negb (0 =? 0)) with false. fold es in Ge, Gs, Gn. rewrite E1 in Dx1. split; [|split].
    + constructor; unfold c1; rewrite ?apply_zlen, ?cset_zlen; auto; try lia.
      * rewrite E3. ceval; lia.
      * rewrite Hend. ceval; lia.
      * ceval; lia.
      * unfold es'. rewrite Ea. cbn [app dls hd_id]. repeat match goal with |- _ /\ _ => split end; try (ucell; ceval; lia).
        eapply dls_frame; [|exact Db]. intros y l Hy Hl. assert (y <> x) by congruence. assert (2 <= y < f) by (apply Hin; unfold es; rewrite ids_app; apply in_or_app; right; now right). ucell. destruct Hl as [Hl|[Hl|Hl]]; subst l; ceval; lia.
      * intros y Hy. destruct (Fr y ltac:(lia)). ucell. split; ceval; lia.
    + intros Z0 y Hy Ny. rewrite Hids in Ny. assert (y <> f) by tauto. assert (Ny' : ~ In y (ids es)) by tauto. assert (y <> x) by (intros ->; apply Ny'; unfold es; rewrite ids_app; apply in_or_app; right; now left). destruct (Z0 y Hy Ny'). unfold c1. ucell. split; ceval; lia.
    + intros y Hy. unfold c1. ucell. ceval; lia.
  - assert (E1 : last_id 0 a = p) by (rewrite Ea; apply last_id_snoc).
    assert (Pa : In p (ids a)) by (rewrite Ea, ids_app; apply in_or_app; right; now left).
    assert (Hp : 2 <= p < f) by (apply Hin; unfold es; rewrite ids_app; apply in_or_app; now left).
    assert (Npx : p <> x) by (intros ->; apply (NDab x Pa); now left).
    assert (Hst : hd_id es 0 <> x) by (apply hd_ne; [exact ND|rewrite Ea; intros H; destruct a'; discriminate]).
    assert (E3 : hd_id es' 0 = hd_id es 0) by (unfold es', es; rewrite Ea, !hd_app; destruct a' as [|[? ?] ?]; reflexivity).
    unfold c2, before_effs. rewrite E1, Hz. replace (hd_id es 0 =? x) with false by lia. replace (negb (p =? 0)) with true by lia. fold es in Ge, Gs, Gn. rewrite E1 in Dx1.
    rewrite Ea in Da. rewrite dls_app in Da. cbn [dls hd_id] in Da. destruct Da as [Da (Dp1 & Dp2 & Dp3 & _)].
    assert (NDa' := NDa). rewrite Ea, ids_app in NDa'. apply nd_app_iff in NDa' as (_ & _ & NDp).
    split; [|split].
    + constructor; unfold c1; rewrite ?apply_zlen, ?cset_zlen; auto; try lia.
      * rewrite E3. ceval; lia.
      * rewrite Hend. ceval; lia.
      * ceval; lia.
      * unfold es'. rewrite dls_app, Ea, dls_app, last_id_snoc. cbn [dls hd_id]. repeat match goal with |- _ /\ _ => split end; try exact Logic.I; try (ucell; ceval; lia).
        -- eapply dls_frame; [|exact Da]. intros y l Hy Hl. assert (Hya : In y (ids a)) by (rewrite Ea, ids_app; apply in_or_app; now left). assert (y <> x) by (intros ->; apply (NDab x Hya); now left). assert (y <> p) by (intros ->; apply (NDp p Hy); now left). assert (2 <= y < f) by (apply Hin; unfold es; rewrite ids_app; apply in_or_app; now left). ucell. destruct Hl as [Hl|[Hl|Hl]]; subst l; ceval; lia.
        -- eapply dls_frame; [|exact Db]. intros y l Hy Hl. assert (y <> x) by congruence. assert (y <> p) by (intros ->; apply (NDab p Pa); now right). assert (2 <= y < f) by (apply Hin; unfold es; rewrite ids_app; apply in_or_app; right; now right). ucell. destruct Hl as [Hl|[Hl|Hl]]; subst l; ceval; lia.
      * intros y Hy. destruct (Fr y ltac:(lia)). ucell. split; ceval; lia.
    + intros Z0 y Hy Ny. rewrite Hids in Ny. assert (y <> f) by tauto. assert (Ny' : ~ In y (ids es)) by tauto. assert (y <> x) by (intros ->; apply Ny'; unfold es; rewrite ids_app; apply in_or_app; right; now left). assert (y <> p) by (intros ->; apply Ny'; unfold es; rewrite ids_app; apply in_or_app; now left). destruct (Z0 y Hy Ny'). unfold c1. ucell. split; ceval; lia.
    + intros y Hy. unfold c1. ucell. ceval; lia.
Qed.

Lemma remove_rep N f c a e de b : lrep N f c (a ++ (e, de) :: b) ->
  let es := a ++ (e, de) :: b in
  let c2 := apply_ef (remove_effs e (last_id 0 a) (hd_id b 0) (hd_id es 0) (last_id 0 es) (u32 (zlen es))) c in
  lrep N f c2 (a ++ b) /\ (lz N c es -> lz N c2 (a ++ b)) /\ (forall y, 2 <= y < Z.of_nat N + 2 -> lget c2 (cdata y) = lget c (cdata y)).
Proof.
  intros [L Gs Ge Gn D ND In_ Hf Fr] es c2.
  assert (Hz : u32 (u32 (zlen es) - 1) = u32 (zlen (a ++ b))) by (rewrite u32_pred; unfold es; rewrite !zlen_app, !zlen_cons; f_equal; lia).
  assert (Hin : forall e, In e (ids es) -> 2 <= e < f) by (intros y Hy; exact (proj1 (Forall_forall _ _) In_ y Hy)).
  assert (Hids : forall y, In y (ids es) <-> y = e \/ In y (ids (a ++ b))).
  { intros y. unfold es. rewrite !ids_app, !in_app_iff. cbn [map fst In]. intuition. }
  assert (He : 2 <= e < f) by (apply Hin; rewrite Hids; now left).
  assert (ND' : NoDup (ids (a ++ b))).
  { rewrite ids_app in *. cbn [map fst] in ND. eapply NoDup_remove_1; exact ND. }
  assert (Ne : ~ In e (ids (a ++ b))).
  { rewrite ids_app in *. cbn [map fst] in ND. eapply NoDup_remove_2; exact ND. }
  assert (In' : Forall (fun e => 2 <= e < f) (ids (a ++ b))).
  { apply Forall_forall. intros y Hy. apply Hin, Hids. now right. }
  assert (NDx := ND). rewrite ids_app in NDx. apply nd_app_iff in NDx as (NDa & NDb & NDab). cbn [map fst] in NDb. inversion NDb as [|? ? Nxb NDb']; subst.
  assert (D' := D). rewrite dls_app in D'. destruct D' as [Da (Dx1 & Dx2 & Dx3 & Db)]. cbn [hd_id] in Da.
  assert (Ia : forall y, In y (ids a) -> 2 <= y < f /\ y <> e).
  { intros y Hy. split; [apply Hin; unfold es; rewrite ids_app; apply in_or_app; now left|]. intros ->. apply (NDab e Hy). now left. }
  assert (Ib : forall y, In y (ids b) -> 2 <= y < f /\ y <> e).
  { intros y Hy. split; [apply Hin; unfold es; rewrite ids_app; apply in_or_app; right; now right|]. intros ->. exact (Nxb Hy). }
  assert (Iab : forall y z, In y (ids a) -> In z (ids b) -> y <> z) by (intros y z Hy Hz' ->; apply (NDab z Hy); now right).
  assert (HP : a = [] /\ last_id 0 a = 0 /\ hd_id es 0 = e \/ exists a' p dp, a = a' ++ [(p, dp)] /\ last_id 0 a = p /\ In p (ids a) /\ hd_id es 0 <> e /\ hd_id (a ++ b) 0 = hd_id es 0).
  { destruct (snoc_cases a) as [Ea|(a' & [p dp] & Ea)]; [left; unfold es; rewrite Ea; auto|right]. exists a', p, dp. split; [exact Ea|]. split; [rewrite Ea; apply last_id_snoc|]. split; [rewrite Ea, ids_app; apply in_or_app; right; now left|].
    split; [apply hd_ne; [exact ND|rewrite Ea; intros H; destruct a'; discriminate]|unfold es; rewrite Ea, !hd_app; destruct a' as [|[? ?] ?]; reflexivity]. }
  assert (HQ : b = [] /\ last_id 0 es = e \/ exists q dq b', b = (q, dq) :: b' /\ In q (ids b) /\ last_id 0 es <> e /\ last_id 0 (a ++ b) = last_id 0 es).
  { destruct b as [|[q dq] b']; [left; split; [reflexivity|unfold es; apply last_id_snoc]|right]. exists q, dq, b'. split; [reflexivity|]. split; [now left|]. split; [apply last_ne; [exact ND|discriminate]|]. unfold es. rewrite !last_app. reflexivity. }
  assert (Frm : forall c2, (forall y l, In y (ids (a ++ b)) -> l = cnext y \/ l = cprev y \/ l = cdata y -> lget c2 l = lget c l) -> dls c2 0 a e /\ dls c2 e b 0).
  { intros c3 F. split; (eapply dls_frame; [|eassumption]); intros y l Hy; apply F; rewrite ids_app; apply in_or_app; auto. }
  fold es in Ge, Gs, Gn. unfold c2, remove_effs. rewrite Hz.
  destruct HP as [(Ea & -> & ->)|(a' & p & dp & Ea & -> & Pa & Hst & Hhd)]; destruct HQ as [(Eb & ->)|(q & dq & b' & Eb & Qb & Hen & Hls)].
  - rewrite Eb. cbn [hd_id]. rewrite (Z.eqb_refl e). change (negb (0 =? 0)) with false. rewrite Ea in *. rewrite Eb in *. cbn [app] in *. split; [|split].
    + constructor; rewrite ?apply_zlen; auto; cbn [hd_id last_id]; try (ceval; lia); try exact Logic.I. intros y Hy. destruct (Fr y ltac:(lia)). ucell. split; ceval; lia.
    + intros Z0 y Hy Ny. ucell. destruct (Z.eq_dec y e) as [->|Hne]; [split; ceval; lia|]. destruct (Z0 y Hy) as [Z1 Z2]; [intros I; apply Hids in I as [I|[]]; contradiction|]. ucell. split; ceval; lia.
    + intros y Hy. ucell. ceval; lia.
  - assert (Hq : hd_id b 0 = q) by (rewrite Eb; reflexivity). rewrite Hq in *. destruct (Ib q Qb) as [Bq Nqe]. rewrite (Z.eqb_refl e). change (negb (0 =? 0)) with false. replace (negb (q =? 0)) with true by lia. replace (last_id 0 es =? e) with false by lia.
    assert (Eab : a ++ b = (q, dq) :: b') by (rewrite Ea, Eb; reflexivity). rewrite Eb in Db, NDb'. cbn [dls hd_id] in Db. destruct Db as (Db1 & Db2 & Db3 & Db). cbn [map fst] in NDb'. inversion NDb' as [|? ? Nqb _]; subst.
    split; [|split].
    + constructor; rewrite ?apply_zlen; auto.
      * rewrite Eab. cbn [hd_id]. ceval; lia.
      * rewrite Hls. ceval; lia.
      * ceval; lia.
      * rewrite Eab. cbn [dls hd_id]. repeat match goal with |- _ /\ _ => split end; try (ucell; ceval; lia).
        eapply dls_frame; [|exact Db]. intros y l Hy Hl. assert (y <> q) by congruence. destruct (Ib y ltac:(now right)). ucell. destruct Hl as [Hl|[Hl|Hl]]; subst l; ceval; lia.
      * intros y Hy. destruct (Fr y ltac:(lia)). ucell. split; ceval; lia.
    + intros Z0 y Hy Ny. assert (y <> q) by (intros ->; apply Ny; rewrite Eab; now left). ucell. destruct (Z.eq_dec y e) as [->|Hne]; [split; ceval; lia|]. destruct (Z0 y Hy) as [Z1 Z2]; [intros I; apply Hids in I as [I|I]; contradiction|]. ucell. split; ceval; lia.
    + intros y Hy. ucell. ceval; lia.
  - rewrite Eb. cbn [hd_id]. destruct (Ia p Pa) as [Bp Npe]. rewrite (Z.eqb_refl e). change (negb (0 =? 0)) with false. replace (negb (p =? 0)) with true by lia. replace (hd_id es 0 =? e) with false by lia.
    rewrite Ea in Da, NDa. rewrite dls_app in Da. cbn [dls hd_id] in Da. destruct Da as [Da (Dp1 & Dp2 & Dp3 & _)]. rewrite ids_app in NDa. apply nd_app_iff in NDa as (_ & _ & NDp).
    rewrite Eb, app_nil_r in *. cbn [hd_id] in *. split; [|split].
    + constructor; rewrite ?apply_zlen; auto.
      * rewrite Hhd. ceval; lia.
      * rewrite Ea, last_id_snoc. ceval; lia.
      * ceval; lia.
      * rewrite Ea, dls_app. cbn [dls hd_id]. repeat match goal with |- _ /\ _ => split end; try exact Logic.I; try (ucell; ceval; lia).
        eapply dls_frame; [|exact Da]. intros y l Hy Hl. assert (y <> p) by (intros ->; apply (NDp p Hy); now left). destruct (Ia y) as [? ?]; [rewrite Ea, ids_app; apply in_or_app; now left|]. ucell. destruct Hl as [Hl|[Hl|Hl]]; subst l; ceval; lia.
      * intros y Hy. destruct (Fr y ltac:(lia)). ucell. split; ceval; lia.
    + intros Z0 y Hy Ny. assert (y <> p) by (intros ->; exact (Ny Pa)). ucell. destruct (Z.eq_dec y e) as [->|Hne]; [split; ceval; lia|]. destruct (Z0 y Hy) as [Z1 Z2]; [intros I; apply Hids in I as [I|I]; contradiction|]. ucell. split; ceval; lia.
    + intros y Hy. ucell. ceval; lia.
  - assert (Hq : hd_id b 0 = q) by (rewrite Eb; reflexivity). rewrite Hq in *. destruct (Ib q Qb) as [Bq Nqe]. destruct (Ia p Pa) as [Bp Npe]. pose proof (Iab p q Pa Qb) as Npq. replace (negb (p =? 0)) with true by lia. replace (negb (q =? 0)) with true by lia. replace (last_id 0 es =? e) with false by lia. replace (hd_id es 0 =? e) with false by lia.
    rewrite Ea in Da, NDa. rewrite dls_app in Da. cbn [dls hd_id] in Da. destruct Da as [Da (Dp1 & Dp2 & Dp3 & _)]. rewrite ids_app in NDa. apply nd_app_iff in NDa as (_ & _ & NDp).
    rewrite Eb in Db, NDb'. cbn [dls hd_id] in Db. destruct Db as (Db1 & Db2 & Db3 & Db). cbn [map fst] in NDb'. apply NoDup_cons_iff in NDb' as [Nqb _].
    assert (Hb' : forall y, In y (ids b') -> In y (ids b)) by (intros y Hy; rewrite Eb; now right). assert (Ha' : forall y, In y (ids a') -> In y (ids a)) by (intros y Hy; rewrite Ea, ids_app; apply in_or_app; now left).
    split; [|split].
    + constructor; rewrite ?apply_zlen; auto.
      * rewrite Hhd. ceval; lia.
      * rewrite Hls. ceval; lia.
      * ceval; lia.
      * rewrite Ea, Eb, dls_app, dls_app, last_id_snoc. cbn [dls hd_id]. repeat match goal with |- _ /\ _ => split end; try exact Logic.I; try (ucell; ceval; lia).
        -- eapply dls_frame; [|exact Da]. intros y l Hy Hl. assert (y <> p) by (intros ->; apply (NDp p Hy); now left). assert (y <> q) by (apply Iab; auto). destruct (Ia y (Ha' y Hy)) as [? ?]. ucell. destruct Hl as [Hl|[Hl|Hl]]; subst l; ceval; lia.
        -- eapply dls_frame; [|exact Db]. intros y l Hy Hl. assert (y <> q) by congruence. assert (y <> p) by (intros ->; apply (Iab p p); auto). destruct (Ib y (Hb' y Hy)) as [? ?]. ucell. destruct Hl as [Hl|[Hl|Hl]]; subst l; ceval; lia.
      * intros y Hy. destruct (Fr y ltac:(lia)). ucell. split; ceval; lia.
    + intros Z0 y Hy Ny. rewrite ids_app, in_app_iff in Ny. assert (y <> p) by (intros ->; tauto). assert (y <> q) by (intros ->; tauto). ucell. destruct (Z.eq_dec y e) as [->|Hne]; [split; ceval; lia|]. destruct (Z0 y Hy) as [Z1 Z2]; [intros I; apply Hids in I as [I|I]; [contradiction|rewrite ids_app, in_app_iff in I; tauto]|]. ucell. split; ceval; lia.
    + intros y Hy. ucell. ceval; lia.
Qed.
