From Verif Require Import Base M_Stack S_Stack.
Ltac Zify.zify_post_hook ::= Z.to_euclidean_division_equations.

(** the chain of nodes starting at p: addresses and values *)
Inductive chain {A} (h : heap A) : Z -> list Z -> list A -> Prop :=
| ch_nil : chain h 0 [] []
| ch_cons p q x ps l : p <> 0 -> deref h p = Val (SN q x) -> chain h q ps l -> chain h p (p :: ps) (x :: l).
Lemma deref_range {A} (h : heap A) p n : deref h p = Val n -> 1 <= p <= zlen h.
Proof. unfold deref. destruct (lget h (p - 1)) as [[m|]|] eqn:E; try discriminate. apply lget_some_range in E. lia. Qed.
Lemma deref_lget {A} (h : heap A) p n : deref h p = Val n <-> lget h (p - 1) = Some (Some n).
Proof. unfold deref. destruct (lget h (p - 1)) as [[m|]|]; split; intros E; try discriminate; congruence. Qed.
Lemma chain_frame {A} (h h' : heap A) p ps l : chain h p ps l -> (forall q, In q ps -> deref h' q = deref h q) -> chain h' p ps l.
Proof. induction 1 as [|p q x ps l N D C IH]; intros F; [constructor|]. apply ch_cons with q; [exact N|rewrite F; [exact D|now left]|]. apply IH. intros r Hr. apply F. now right. Qed.
Lemma chain_len {A} (h : heap A) p ps l : chain h p ps l -> length ps = length l. Proof. induction 1; cbn; lia. Qed.
Lemma chain_live {A} (h : heap A) p ps l : chain h p ps l -> forall q, In q ps -> live h q.
Proof. induction 1 as [|p q x ps l N D C IH]; intros r Hr; [destruct Hr|]. destruct Hr as [<-|Hr]; [exists (SN q x); exact D|auto]. Qed.
Lemma wr_deref {A} (h : heap A) p (c : option (snode A)) n : deref h p = Val n -> exists h', wr h (p - 1) c = Val h' /\ zlen h' = zlen h /\
  (forall q, deref h' q = if q =? p then match c with Some m => Val m | None => UB end else deref h q).
Proof.
  intros D. pose proof (deref_range _ _ _ D) as R. destruct (lset_range h (p - 1) c ltac:(lia)) as [h' E]. exists h'. unfold wr. rewrite E. split; [reflexivity|]. split; [eapply lset_zlen; eauto|]. intros q. unfold deref. rewrite (lset_get _ _ _ _ _ E).
  destruct (Z.eqb_spec (q - 1) (p - 1)), (Z.eqb_spec q p); try lia; reflexivity.
Qed.
Lemma alloc_deref {A} (h : heap A) n q : deref (h ++ [Some n]) q = if q =? zlen h + 1 then Val n else deref h q.
Proof.
  unfold deref. destruct (Z.eqb_spec q (zlen h + 1)) as [->|N]; [replace (zlen h + 1 - 1) with (zlen h) by lia; now rewrite lget_mid|].
  destruct (Z.ltb_spec (q - 1) (zlen h)); [now rewrite lget_app_l by lia|]. rewrite !lget_out; [reflexivity|lia|rewrite zlen_app; change (zlen [Some n]) with 1; lia].
Qed.
(** everything that must hold between calls: the stack owns the cells ps *)
Definition owns {A} (h : heap A) (s : stack) (ps : list Z) (l : list A) : Prop := chain h (stop s) ps l /\ NoDup ps /\ scount s = zlen l mod 2 ^ 32.
(** cells outside ps keep their contents *)
Definition frame {A} (h h' : heap A) (ps ps' : list Z) : Prop := forall q, ~ In q ps -> ~ In q ps' -> deref h' q = deref h q.
(** new cells are fresh *)
Lemma push_ok {A} h s ps (l : list A) x : owns h s ps l -> exists h' s' p, push h s x = (h', s') /\ owns h' s' (p :: ps) (x :: l) /\ (forall q, live h q -> q <> p /\ deref h' q = deref h q) /\ (forall q, q <> p -> deref h' q = deref h q).
Proof.
  intros (C & N & K). unfold push, alloc. eexists _, _, (zlen h + 1). split; [reflexivity|]. pose proof (zlen_nonneg h).
  assert (Fr : forall q, live h q -> q <> zlen h + 1) by (intros q (n & D); apply deref_range in D; lia).
  split; [split; [|split]|split].
  - cbn [stop]. apply ch_cons with (stop s); [lia|now rewrite alloc_deref, Z.eqb_refl|]. apply (chain_frame h); [exact C|]. intros q Hq. rewrite alloc_deref. pose proof (Fr q (chain_live _ _ _ _ C q Hq)). destruct (Z.eqb_spec q (zlen h + 1)); [contradiction|reflexivity].
  - constructor; [|exact N]. intros I. exact (Fr _ (chain_live _ _ _ _ C _ I) eq_refl).
  - cbn [scount]. rewrite K, zlen_cons. unfold u32. change (2 ^ 32) with 4294967296. rewrite Zplus_mod_idemp_l. f_equal. lia.
  - intros q Hq. split; [now apply Fr|]. rewrite alloc_deref. destruct (Z.eqb_spec q (zlen h + 1)); [destruct (Fr q Hq); assumption|reflexivity].
  - intros q Hq. rewrite alloc_deref. destruct (Z.eqb_spec q (zlen h + 1)); [contradiction|reflexivity].
Qed.
Lemma pop_ok {A} h s p ps (x : A) l : owns h s (p :: ps) (x :: l) -> exists h' s', pop h s = Val (x, h', s') /\ owns h' s' ps l /\ deref h' p = UB /\ (forall q, q <> p -> deref h' q = deref h q).
Proof.
  intros (C & N & K). inversion C as [|? q ? ? ? Np D C']; subst. inversion N as [|? ? N1 N2]; subst. unfold pop, free. rewrite D. cbn [bind]. destruct (wr_deref h (stop s) None _ D) as (h' & -> & _ & G). cbn [bind sval sprev]. eexists _, _. split; [reflexivity|]. split; [split; [|split]|split].
  - cbn [stop]. apply (chain_frame h); [exact C'|]. intros r Hr. rewrite G. destruct (Z.eqb_spec r (stop s)) as [->|]; [contradiction|reflexivity].
  - exact N2.
  - cbn [scount]. rewrite K, zlen_cons. unfold u32. change (2 ^ 32) with 4294967296. rewrite Zminus_mod_idemp_l. f_equal. lia.
  - now rewrite G, Z.eqb_refl.
  - intros r Hr. rewrite G. destruct (Z.eqb_spec r (stop s)); [contradiction|reflexivity].
Qed.
Lemma owns_top {A} h s ps (l : list A) : owns h s ps l -> has_elements s = match l with [] => false | _ => true end.
Proof. intros (C & _). unfold has_elements. remember (stop s) as t eqn:Et. destruct C as [|p q x ps l Np D C]; [reflexivity|]. destruct (Z.eqb_spec p 0); [contradiction|reflexivity]. Qed.
Lemma clear_ok {A} fuel : forall h s ps (l : list A), owns h s ps l -> (length l < fuel)%nat -> exists h' s', clear h s fuel = Val (h', s') /\ owns h' s' [] [] /\ (forall q, In q ps -> deref h' q = UB) /\ (forall q, ~ In q ps -> deref h' q = deref h q).
Proof.
  induction fuel as [|fuel IH]; intros h s ps l H Hf; [lia|]. cbn [clear]. rewrite (owns_top _ _ _ _ H). destruct l as [|x l].
  - destruct H as (C & N & K). inversion C; subst. exists h, s. split; [reflexivity|]. split; [split; [exact C|split; assumption]|]. split; [intros q []|auto].
  - destruct ps as [|p ps]; [destruct H as (C & _); inversion C|]. destruct (pop_ok _ _ _ _ _ _ H) as (h1 & s1 & -> & H1 & D & G). cbn [bind length] in *. destruct (IH h1 s1 ps l H1 ltac:(lia)) as (h' & s' & -> & O & E1 & E2). exists h', s'.
    split; [reflexivity|]. split; [exact O|]. destruct H as (_ & N & _). inversion N as [|? ? N1 N2]; subst. split.
    + intros q [<-|Hq]; [|auto]. rewrite E2 by exact N1. exact D.
    + intros q Hq. rewrite E2 by (intros I; apply Hq; now right). apply G. intros ->. apply Hq. now left.
Qed.
Lemma reverse_loop_ok {A} fuel : forall (h : heap A) t ps l acc qs m, chain h t ps l -> chain h acc qs m -> NoDup (ps ++ qs) -> (length l < fuel)%nat ->
  exists h' t' rs, reverse_loop h t acc fuel = Val (h', t') /\ chain h' t' rs (rev l ++ m) /\ NoDup rs /\ (forall q, In q rs <-> In q (ps ++ qs)) /\ (forall q, ~ In q (ps ++ qs) -> deref h' q = deref h q) /\ zlen h' = zlen h.
Proof.
  induction fuel as [|fuel IH]; intros h t ps l acc qs m C1 C2 N Hf; [lia|]. cbn [reverse_loop]. inversion C1 as [|? q x ps' l' Nt D C]; subst.
  - cbn [Z.eqb rev app]. exists h, acc, qs. repeat split; auto; tauto.
  - destruct (Z.eqb_spec t 0); [contradiction|]. rewrite D. cbn [bind sval sprev]. unfold store. rewrite D. cbn [bind]. destruct (wr_deref h t (Some (SN acc x)) _ D) as (h1 & -> & Z1 & G). cbn [bind].
    inversion N as [|? ? N1 N2]; subst. cbn [length] in Hf.
    assert (Cq : chain h1 q ps' l'). { apply (chain_frame h); [exact C|]. intros r Hr. rewrite G. destruct (Z.eqb_spec r t) as [->|]; [exfalso; apply N1; apply in_or_app; now left|reflexivity]. }
    assert (Ct : chain h1 t (t :: qs) (x :: m)). { apply ch_cons with acc; [exact Nt|now rewrite G, Z.eqb_refl|]. apply (chain_frame h); [exact C2|]. intros r Hr. rewrite G. destruct (Z.eqb_spec r t) as [->|]; [exfalso; apply N1; apply in_or_app; now right|reflexivity]. }
    destruct (IH h1 q ps' l' t (t :: qs) (x :: m) Cq Ct) as (h' & t' & rs & -> & R1 & R2 & R3 & R4 & R5); [apply NoDup_Add with (a := t) (l := ps' ++ qs); [apply Add_app|split; assumption]|lia|].
    exists h', t', rs. split; [reflexivity|]. cbn [rev]. rewrite <- app_assoc. split; [exact R1|]. split; [exact R2|]. split; [|split; [|lia]].
    + intros r. rewrite R3. cbn [app In]. rewrite !in_app_iff. cbn [In]. tauto.
    + intros r Hr. rewrite R4 by (intros I; apply Hr; cbn [app In]; rewrite in_app_iff in *; cbn [In] in I; tauto). rewrite G. destruct (Z.eqb_spec r t) as [->|]; [exfalso; apply Hr; now left|reflexivity].
Qed.
(** relative to the heap h0 in which the stack was made: the stack owns only cells that were free then, all other cells are as they were *)
Definition inv {A} (h0 h : heap A) (s : stack) (l : list A) : Prop :=
  exists ps, owns h s ps l /\ (forall q, In q ps -> deref h0 q = UB) /\ (forall q, ~ In q ps -> deref h q = deref h0 q).
Lemma deref_dec {A} (h : heap A) q : live h q \/ deref h q = UB.
Proof. unfold live, deref. destruct (lget h (q - 1)) as [[n|]|]; eauto. Qed.
Lemma inv_new {A} (h : heap A) : inv h h stack_new [].
Proof. exists []. split; [split; [constructor|split; [constructor|reflexivity]]|]. split; [intros q []|reflexivity]. Qed.
Lemma ksteps_length {A} (os : list (kop A)) : forall l r l', ksteps os l = Some (r, l') -> (length l' <= length l + length os)%nat.
Proof.
  induction os as [|o os IH]; intros l r l' H; cbn in H; [injection H as <- <-; lia|]. destruct (kstep o l) as [[a l1]|] eqn:E; [|discriminate]. destruct (ksteps os l1) as [[r1 l2]|] eqn:E2; [|discriminate]. injection H as <- <-.
  apply IH in E2. assert (length l1 <= S (length l))%nat; [|cbn; lia]. destruct o, l as [|? [|? [|? l]]]; cbn in E; try discriminate; injection E as <- <-; cbn; rewrite ?app_length, ?rev_length; cbn; lia.
Qed.
Lemma owns_sprev {A} h s p ps (x : A) l : owns h s (p :: ps) (x :: l) -> p = stop s /\ stop s <> 0 /\ exists q, deref h (stop s) = Val (SN q x) /\ owns h (ST q (zlen l mod 2 ^ 32)) ps l.
Proof. intros (C & N & K). inversion C as [|? q ? ? ? Np D C']; subst. split; [reflexivity|]. split; [exact Np|]. exists q. split; [exact D|]. inversion N; subst. repeat split; auto. Qed.
Lemma step_ok {A} (h0 : heap A) fuel o h s l : inv h0 h s l -> (length l < fuel)%nat ->
  match kstep o l with
  | Some (a, l') => exists h' s', kexec o fuel h s = Val (a, h', s') /\ inv h0 h' s' l'
  | None => kexec o fuel h s = UB
  end.
Proof.
  intros (ps & O & I1 & I2) Hf.
  assert (L : length ps = length l) by (destruct O as (C & _); eapply chain_len; eauto).
  assert (Same : inv h0 h s l) by (exists ps; auto).
  assert (E0 : l = [] -> stop s = 0) by (intros ->; destruct O as (C & _); now inversion C).
  destruct o as [x| | | | | | | |].
  - destruct (push_ok h s ps l x O) as (h' & s' & p & E & O' & F1 & F2). cbn [kstep kexec]. rewrite E. exists h', s'. split; [reflexivity|]. exists (p :: ps). split; [exact O'|]. 
    assert (Hp : ~ live h p) by (intros Hl; now destruct (F1 p Hl)).
    assert (Np : ~ In p ps) by (destruct O' as (_ & N & _); now inversion N).
    split; [intros q [<-|Hq]; [|auto]|intros q Hq; rewrite F2; [apply I2; intros i; apply Hq; now right|intros ->; apply Hq; now left]].
    rewrite <- I2 by exact Np. destruct (deref_dec h p); [contradiction|assumption].
  - destruct l as [|x l]; cbn [kstep kexec].
    + unfold pop. rewrite (E0 eq_refl). reflexivity.
    + destruct ps as [|p ps]; [discriminate|]. destruct (pop_ok _ _ _ _ _ _ O) as (h' & s' & -> & O' & D & G). exists h', s'. split; [reflexivity|]. exists ps. split; [exact O'|]. split; [intros q Hq; apply I1; now right|].
      intros q Hq. destruct (Z.eq_dec q p) as [->|Nq]; [rewrite D; symmetry; apply I1; now left|]. rewrite G by exact Nq. apply I2. intros [->|]; contradiction.
  - destruct l as [|x l]; cbn [kstep kexec]; unfold top.
    + rewrite (E0 eq_refl). reflexivity.
    + destruct ps as [|p ps]; [discriminate|]. destruct (owns_sprev _ _ _ _ _ _ O) as (_ & _ & q & -> & _). exists h, s. split; [reflexivity|exact Same].
  - assert (E : kstep KTop2 l = Some (match l with _ :: y :: _ => KVal y | _ => KThrow end, l)) by (destruct l as [|? [|? l]]; reflexivity). rewrite E. exists h, s. split; [|exact Same]. cbn [kexec].
    cut (thrown (top2 h s) = Val (match l with _ :: y :: _ => KVal y | _ => KThrow end)); [intros ->; reflexivity|]. unfold top2.
    destruct l as [|x l]; [rewrite (E0 eq_refl); reflexivity|]. destruct ps as [|p ps]; [discriminate|]. destruct (owns_sprev _ _ _ _ _ _ O) as (_ & Nz & q & -> & O2). destruct (Z.eqb_spec (stop s) 0); [contradiction|]. cbn [bind sprev].
    destruct l as [|y l]; [destruct O2 as (C & _); inversion C as [Eq|]; cbn in Eq; subst; reflexivity|]. destruct ps as [|p2 ps]; [discriminate|]. destruct (owns_sprev _ _ _ _ _ _ O2) as (_ & Nz2 & q2 & D2 & O3). cbn [stop] in *. destruct (Z.eqb_spec q 0); [contradiction|]. rewrite D2. reflexivity.
  - assert (E : kstep KTop3 l = Some (match l with _ :: _ :: z :: _ => KVal z | _ => KThrow end, l)) by (destruct l as [|? [|? [|? l]]]; reflexivity). rewrite E. exists h, s. split; [|exact Same]. cbn [kexec].
    cut (thrown (top3 h s) = Val (match l with _ :: _ :: z :: _ => KVal z | _ => KThrow end)); [intros ->; reflexivity|]. unfold top3.
    destruct l as [|x l]; [rewrite (E0 eq_refl); reflexivity|]. destruct ps as [|p ps]; [discriminate|]. destruct (owns_sprev _ _ _ _ _ _ O) as (_ & Nz & q & -> & O2). destruct (Z.eqb_spec (stop s) 0); [contradiction|]. cbn [bind sprev].
    destruct l as [|y l]; [destruct O2 as (C & _); inversion C as [Eq|]; cbn in Eq; subst; reflexivity|]. destruct ps as [|p2 ps]; [discriminate|]. destruct (owns_sprev _ _ _ _ _ _ O2) as (_ & Nz2 & q2 & D2 & O3). cbn [stop] in *. destruct (Z.eqb_spec q 0); [contradiction|]. rewrite D2. cbn [bind sprev].
    destruct l as [|z l]; [destruct O3 as (C & _); inversion C as [Eq|]; cbn in Eq; subst; reflexivity|]. destruct ps as [|p3 ps]; [discriminate|]. destruct (owns_sprev _ _ _ _ _ _ O3) as (_ & Nz3 & q3 & D3 & _). cbn [stop] in *. destruct (Z.eqb_spec q2 0); [contradiction|]. rewrite D3. reflexivity.
  - destruct (clear_ok fuel _ _ _ _ O Hf) as (h' & s' & E & O' & G1 & G2). replace (kstep KClear l) with (Some (@KUnit A, @nil A)) by (destruct l; reflexivity). cbn [kexec]. rewrite E. exists h', s'. split; [reflexivity|]. exists []. split; [exact O'|]. split; [intros q []|]. intros q _. destruct (in_dec Z.eq_dec q ps) as [i|n]; [rewrite G1 by exact i; symmetry; auto|rewrite G2 by exact n; auto].
  - destruct O as (C & N & K). destruct (reverse_loop_ok fuel h (stop s) ps l 0 [] [] C ltac:(constructor) ltac:(now rewrite app_nil_r) Hf) as (h' & t & rs & E & R1 & R2 & R3 & R4 & _). rewrite app_nil_r in *. replace (kstep KReverse l) with (Some (@KUnit A, rev l)) by (destruct l; reflexivity). cbn [kexec]. unfold reverse. rewrite E. cbn [bind]. eexists _, _. split; [reflexivity|]. exists rs.
    split; [split; [exact R1|split; [exact R2|]]|split; intros q Hq].
    + cbn [scount]. rewrite K. unfold zlen. now rewrite rev_length.
    + apply I1. now apply R3.
    + rewrite R4 by (intros i; apply Hq; now apply R3). apply I2. intros i. apply Hq. now apply R3.
  - replace (kstep KSize l) with (Some (@KNum A (zlen l mod 2 ^ 32), l)) by (destruct l; reflexivity). exists h, s. split; [|exact Same]. cbn. destruct O as (_ & _ & ->). reflexivity.
  - replace (kstep KHas l) with (Some (@KBool A (match l with [] => false | _ => true end), l)) by (destruct l; reflexivity). exists h, s. split; [|exact Same]. cbn. rewrite (owns_top _ _ _ _ O). reflexivity.
Qed.
Lemma steps_ok {A} (h0 : heap A) fuel os : forall h s l, inv h0 h s l -> (length l + length os < fuel)%nat ->
  match ksteps os l with
  | Some (r, l') => exists h' s', kexec_all os fuel h s = Val (r, h', s') /\ inv h0 h' s' l'
  | None => kexec_all os fuel h s = UB
  end.
Proof.
  induction os as [|o os IH]; intros h s l H Hf; cbn [ksteps kexec_all]; [exists h, s; auto|]. cbn [length] in Hf. pose proof (step_ok h0 fuel o h s l H ltac:(lia)) as S1.
  destruct (kstep o l) as [[a l1]|] eqn:E; [|rewrite S1; reflexivity]. destruct S1 as (h1 & s1 & -> & H1). cbn [bind].
  assert (length l1 <= S (length l))%nat by (pose proof (ksteps_length [o] l [a] l1); cbn in *; rewrite E in *; specialize (H0 eq_refl); lia).
  specialize (IH h1 s1 l1 H1 ltac:(lia)). destruct (ksteps os l1) as [[r l2]|]; [|rewrite IH; reflexivity]. destruct IH as (h2 & s2 & -> & H2). exists h2, s2. auto.
Qed.
