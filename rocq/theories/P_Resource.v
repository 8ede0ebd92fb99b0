(** P_Resource.v -- C126: Resources and the streams they share. *)
From Verif Require Import Base M_Resource S_Resource.

Definition is_ref (x : nat) (m : option nat) : bool := match m with Some y => Nat.eqb y x | None => false end.
Definition cnt (L : list (nat * option nat)) (x : nat) : Z := zlen (filter (fun p => is_ref x (snd p)) L).
Definition one (m : option nat) (x : nat) : Z := if is_ref x m then 1 else 0.
Lemma cnt_cons r m L x : cnt ((r, m) :: L) x = one m x + cnt L x.
Proof. unfold cnt, one. cbn [filter snd]. destruct (is_ref x m); [rewrite zlen_cons|]; lia. Qed.
Lemma cnt_mid L1 r m L2 x : cnt (L1 ++ (r, m) :: L2) x = one m x + cnt (L1 ++ L2) x.
Proof. induction L1 as [|[q n] L1 IH]; cbn [app]; rewrite !cnt_cons; [reflexivity|]. rewrite IH. lia. Qed.
Lemma cnt_nn L x : 0 <= cnt L x. Proof. apply zlen_nonneg. Qed.
Lemma one_nn m x : 0 <= one m x. Proof. unfold one. destruct (is_ref x m); lia. Qed.
(** [L]: the objects, [lost]: references that nobody will give back *)
Record inv (s : state) (L : list (nat * option nat)) (lost : nat -> Z) : Prop := Inv {
  i_nd : NoDup (map fst L);
  i_var : forall r m, vars s r = Some m <-> In (r, m) L;
  i_rng : forall r x, In (r, Some x) L -> (x < length (heap s))%nat;
  i_lost : forall x, 0 <= lost x;
  i_new : forall x, (length (heap s) <= x)%nat -> lost x = 0;
  i_cnt : forall x v, nth_error (heap s) x = Some v -> match v with Live n => n = cnt L x + lost x /\ 0 < n | Freed => cnt L x + lost x = 0 end }.
Lemma set_eq {A} (f : nat -> A) i v : set f i v i = v. Proof. unfold set. now rewrite Nat.eqb_refl. Qed.
Lemma set_ne {A} (f : nat -> A) i v x : x <> i -> set f i v x = f x. Proof. intros N. unfold set. destruct (Nat.eqb_spec x i); congruence. Qed.
Lemma put_len h x v : length (put h x v) = length h. Proof. revert x. induction h; intros [|x]; cbn; auto. Qed.
Lemma put_nth h x v y : nth_error (put h x v) y = if Nat.eqb y x then match nth_error h y with Some _ => Some v | None => None end else nth_error h y.
Proof. revert x y. induction h as [|a h IH]; intros [|x] [|y]; cbn; try reflexivity; [destruct (Nat.eqb y x); reflexivity|apply IH]. Qed.
(** taking a reference for [m] *)
Lemma retain_ok s L lost m : inv s L lost -> (exists r, In (r, m) L) -> exists h, match m with Some x => retain (heap s) x | None => Val (heap s) end = Val h /\ length h = length (heap s) /\
  forall x v, nth_error h x = Some v -> match v with Live n => n = cnt L x + lost x + one m x /\ 0 < n | Freed => cnt L x + lost x + one m x = 0 end.
Proof.
  intros [ND IV IR IL IN IC] [r Hr]. destruct m as [x|].
  - pose proof (IR _ _ Hr) as B. unfold retain. destruct (nth_error (heap s) x) as [[n|]|] eqn:E.
    + exists (put (heap s) x (Live (n + 1))). split; [reflexivity|]. split; [apply put_len|]. intros y v. rewrite put_nth. unfold one. cbn [is_ref]. rewrite (Nat.eqb_sym x y). destruct (Nat.eqb_spec y x) as [->|N].
      * rewrite E. intros [= <-]. specialize (IC _ _ E). cbn in IC. lia.
      * intros G. specialize (IC _ _ G). rewrite Z.add_0_r. exact IC.
    + exfalso. specialize (IC _ _ E). cbn in IC. apply in_split in Hr as (L1 & L2 & ->). rewrite cnt_mid in IC. unfold one in IC. cbn in IC. rewrite Nat.eqb_refl in IC. pose proof (cnt_nn (L1 ++ L2) x). specialize (IL x). lia.
    + apply nth_error_None in E. lia.
  - exists (heap s). split; [reflexivity|]. split; [reflexivity|]. intros x v G. specialize (IC _ _ G). unfold one. cbn. rewrite Z.add_0_r. exact IC.
Qed.
Lemma in_mid {A} (p a : A) L1 L2 : In p (L1 ++ a :: L2) <-> p = a \/ In p (L1 ++ L2).
Proof. rewrite !in_app_iff. cbn. intuition congruence. Qed.
Lemma nd_mid (r : nat) (m : option nat) L1 L2 : NoDup (map fst (L1 ++ (r, m) :: L2)) -> NoDup (map fst (L1 ++ L2)) /\ ~ In r (map fst (L1 ++ L2)).
Proof. rewrite map_app. cbn. intros H. rewrite map_app. split; [now apply NoDup_remove_1 in H|now apply NoDup_remove_2 in H]. Qed.
Lemma in_fst {A B} (a : A) (b : B) (L : list (A * B)) : In (a, b) L -> In a (map fst L). Proof. intros H. apply in_map_iff. exists (a, b). auto. Qed.

Lemma vars_none s L lost r : inv s L lost -> vars s r = None -> ~ In r (map fst L).
Proof. intros I Hr H. apply in_map_iff in H. destruct H as ([r' m] & Er & H). cbn in Er. subst r'. apply (i_var _ _ _ I) in H. congruence. Qed.
Lemma cnt_fresh s L lost x : inv s L lost -> (length (heap s) <= x)%nat -> cnt L x = 0.
Proof.
  intros I Hx. unfold cnt. destruct (filter (fun p => is_ref x (snd p)) L) as [|[r m] l] eqn:F; [reflexivity|]. exfalso. assert (H : In (r, m) (filter (fun p => is_ref x (snd p)) L)) by (rewrite F; now left).
  apply filter_In in H. destruct H as [H1 H2]. cbn in H2. destruct m as [y|]; [|discriminate]. cbn in H2. apply Nat.eqb_eq in H2. subst y. apply (i_rng _ _ _ I) in H1. lia.
Qed.
(** a new object *)
Lemma add_inv s L lost r m h : inv s L lost -> ~ In r (map fst L) -> (length (heap s) <= length h)%nat -> (forall x, m = Some x -> (x < length h)%nat) ->
  (forall x v, nth_error h x = Some v -> match v with Live n => n = cnt L x + lost x + one m x /\ 0 < n | Freed => cnt L x + lost x + one m x = 0 end) ->
  inv (St (set (vars s) r (Some m)) h) ((r, m) :: L) lost.
Proof.
  intros [ND IV IR IL IN IC] Nr Hl Hm Hc. split; cbn; auto.
  - constructor; assumption.
  - intros r' m'. destruct (Nat.eq_dec r' r) as [->|N].
    + rewrite set_eq. split; [intros [= <-]; now left|]. intros [H|H]; [congruence|]. destruct (Nr (in_fst _ _ _ H)).
    + rewrite set_ne by exact N. rewrite IV. split; [auto|]. intros [H|H]; [congruence|exact H].
  - intros r' x [H|H]; [injection H as <- ->; auto|]. apply IR in H. lia.
  - intros x Hx. apply IN. lia.
  - intros x v G. rewrite cnt_cons. specialize (Hc x v G). destruct v; lia.
Qed.
(** the end of an object; [lost'] and the heap must fit *)
Lemma del_inv s L1 r m L2 lost lost' h : inv s (L1 ++ (r, m) :: L2) lost -> length h = length (heap s) -> (forall x, 0 <= lost' x) -> (forall x, (length h <= x)%nat -> lost' x = 0) ->
  (forall x v, nth_error h x = Some v -> match v with Live n => n = cnt (L1 ++ L2) x + lost' x /\ 0 < n | Freed => cnt (L1 ++ L2) x + lost' x = 0 end) ->
  inv (St (set (vars s) r None) h) (L1 ++ L2) lost'.
Proof.
  intros [ND IV IR IL IN IC] Hl H0 Hn Hc. apply nd_mid in ND. destruct ND as [ND Nr]. split; cbn; auto.
  - intros r' m'. destruct (Nat.eq_dec r' r) as [->|N].
    + rewrite set_eq. split; [discriminate|]. intros H. destruct (Nr (in_fst _ _ _ H)).
    + rewrite set_ne by exact N. rewrite IV, in_mid. split; [intros [H|H]; [congruence|exact H]|auto].
  - intros r' x H. rewrite Hl. apply (IR r'). rewrite in_mid. auto.
Qed.
Lemma inv_ext f g h L lost : (forall r, f r = g r) -> inv (St f h) L lost -> inv (St g h) L lost.
Proof. intros E [ND IV IR IL IN IC]. split; cbn in *; auto. intros r m. rewrite <- E. apply IV. Qed.
(** what a step does to the references *)
Lemma step_inv o s L lost s' : inv s L lost -> exec o s = Val s' -> exists L' lost', inv s' L' lost' /\ (forall x, lost x <= lost' x) /\
  (forall r q x, o = Assign r q -> r <> q -> In (r, Some x) L -> lost' x = lost x + 1) /\ ((forall r q, o = Assign r q -> r = q) -> forall x, lost' x = lost x).
Proof.
  intros I E. pose proof I as [ND IV IR IL IN IC].
  destruct o as [r found|r q|r q|r|r|r]; cbn in E.
  - destruct (vars s r) eqn:Vr; [discriminate|]. pose proof (vars_none _ _ _ _ I Vr) as Nr. destruct found; injection E as <-.
    + exists ((r, Some (length (heap s))) :: L), lost. split; [|split; [intros; lia|split; [discriminate|reflexivity]]]. apply add_inv; auto.
      * rewrite app_length. lia.
      * intros x [= <-]. rewrite app_length. cbn. lia.
      * intros x v G. unfold one. cbn [is_ref]. destruct (Nat.eqb_spec (length (heap s)) x) as [<-|N].
        -- rewrite nth_error_app2, Nat.sub_diag in G by lia. injection G as <-. rewrite (cnt_fresh _ _ _ _ I), IN by lia. lia.
        -- assert (G' : nth_error (heap s) x = Some v). { rewrite nth_error_app1 in G; [exact G|]. assert (x < length (heap s ++ [Live 1]))%nat by (apply nth_error_Some; congruence). rewrite app_length in H. cbn in H. lia. } rewrite Z.add_0_r. exact (IC _ _ G').
    + exists ((r, None) :: L), lost. split; [|split; [intros; lia|split; [discriminate|reflexivity]]]. apply add_inv; auto; [discriminate|]. intros x v G. unfold one. cbn. rewrite Z.add_0_r. exact (IC _ _ G).
  - destruct (vars s r) eqn:Vr; [discriminate|]. destruct (vars s q) as [m|] eqn:Vq; [|discriminate]. pose proof (vars_none _ _ _ _ I Vr) as Nr. apply IV in Vq. destruct (retain_ok s L lost m I (ex_intro _ q Vq)) as (h & Eh & Lh & Ch). rewrite Eh in E. cbn in E. injection E as <-.
    exists ((r, m) :: L), lost. split; [|split; [intros; lia|split; [discriminate|reflexivity]]]. apply add_inv; auto; [lia|]. intros x ->. rewrite Lh. eauto.
  - destruct (vars s r) as [m0|] eqn:Vr; [|discriminate]. destruct (vars s q) as [m|] eqn:Vq; [|discriminate]. destruct (Nat.eqb_spec r q) as [->|N].
    { injection E as <-. exists L, lost. split; [exact I|]. split; [intros; lia|]. split; [|reflexivity]. intros r' q' x [= <- <-] H. congruence. }
    apply IV in Vr, Vq. destruct (retain_ok s L lost m I (ex_intro _ q Vq)) as (h & Eh & Lh & Ch). rewrite Eh in E. cbn in E. injection E as <-. pose proof Vr as Vr0. apply in_split in Vr as (L1 & L2 & ->). set (lost' := fun x => lost x + one m0 x).
    assert (Dl : inv (St (set (vars s) r None) (heap s)) (L1 ++ L2) lost').
    { apply (del_inv s L1 r m0 L2 lost); auto; unfold lost'.
      - intros x. pose proof (one_nn m0 x). specialize (IL x). lia.
      - intros x Hx. rewrite IN by exact Hx. unfold one. destruct m0 as [y|]; cbn; [|reflexivity]. destruct (Nat.eqb_spec y x) as [->|]; [|reflexivity]. apply IR in Vr0. lia.
      - intros x v G. specialize (IC x v G). rewrite cnt_mid in IC. destruct v; lia. }
    exists ((r, m) :: L1 ++ L2), lost'. split.
    + apply (inv_ext (set (set (vars s) r None) r (Some m))); [intros y; unfold set; now destruct (Nat.eqb y r)|]. apply (add_inv (St (set (vars s) r None) (heap s)) (L1 ++ L2) lost' r m h Dl).
      * apply nd_mid in ND. apply ND.
      * cbn. lia.
      * intros x ->. rewrite Lh. eauto.
      * intros x v G. specialize (Ch x v G). rewrite cnt_mid in Ch. unfold lost'. destruct v; lia.
    + unfold lost'. split; [intros x; pose proof (one_nn m0 x); lia|]. split.
      * intros r' q' x [= <- <-] _ H. assert (m0 = Some x) as ->. { apply IV in H. apply IV in Vr0. congruence. } unfold one. cbn. now rewrite Nat.eqb_refl.
      * intros H. destruct N. exact (H _ _ eq_refl).
  - destruct (vars s r) as [m|] eqn:Vr; [|discriminate]. apply IV in Vr. pose proof Vr as Vr0. apply in_split in Vr as (L1 & L2 & ->).
    assert (K : exists h, s' = St (set (vars s) r None) h /\ length h = length (heap s) /\ forall x v, nth_error h x = Some v -> match v with Live n => n = cnt (L1 ++ L2) x + lost x /\ 0 < n | Freed => cnt (L1 ++ L2) x + lost x = 0 end).
    { destruct m as [x|].
      - unfold release in E. destruct (nth_error (heap s) x) as [[n|]|] eqn:G; try discriminate. cbn in E. injection E as <-. eexists. split; [reflexivity|]. split; [apply put_len|]. intros y v. rewrite put_nth. destruct (Nat.eqb_spec y x) as [->|N].
        + rewrite G. intros [= <-]. specialize (IC _ _ G). rewrite cnt_mid in IC. unfold one in IC. cbn [is_ref] in IC. rewrite Nat.eqb_refl in IC. pose proof (cnt_nn (L1 ++ L2) x). specialize (IL x). destruct (Z.eqb_spec (n - 1) 0); lia.
        + intros G2. specialize (IC _ _ G2). rewrite cnt_mid in IC. unfold one in IC. cbn [is_ref] in IC. destruct (Nat.eqb_spec x y); [congruence|]. destruct v; lia.
      - cbn in E. injection E as <-. eexists. split; [reflexivity|]. split; [reflexivity|]. intros y v G. specialize (IC _ _ G). rewrite cnt_mid in IC. unfold one in IC. cbn in IC. destruct v; lia. }
    destruct K as (h & -> & Lh & Ch). exists (L1 ++ L2), lost. split; [|split; [intros; lia|split; [discriminate|reflexivity]]]. apply (del_inv s L1 r m L2 lost); auto. intros x Hx. apply IN. lia.
  - destruct (vars s r) as [[x|]|] eqn:Vr; try discriminate. destruct (deref (heap s) x); try discriminate. injection E as <-. exists L, lost. split; [exact I|]. split; [intros; lia|]. split; [discriminate|reflexivity].
  - destruct (vars s r) as [[x|]|] eqn:Vr; try discriminate; [destruct (deref (heap s) x); try discriminate|]; injection E as <-; exists L, lost; (split; [exact I|]; split; [intros; lia|]; split; [discriminate|reflexivity]).
Qed.
Lemma all_inv l : forall s L lost s', inv s L lost -> exec_all l s = Val s' -> exists L' lost', inv s' L' lost' /\ (forall x, lost x <= lost' x) /\ (no_assignment l -> forall x, lost' x = lost x).
Proof.
  induction l as [|o l IH]; intros s L lost s' I E; cbn in E; [injection E as <-; exists L, lost; split; [exact I|split; [intros; lia|reflexivity]]|]. destruct (exec o s) as [s1| | |] eqn:E1; try discriminate. cbn in E.
  destruct (step_inv _ _ _ _ _ I E1) as (L1 & lost1 & I1 & M1 & _ & N1). destruct (IH _ _ _ _ I1 E) as (L2 & lost2 & I2 & M2 & N2). exists L2, lost2. split; [exact I2|]. split; [intros x; specialize (M1 x); specialize (M2 x); lia|].
  intros H x. rewrite N2, N1; [reflexivity| |]; intros r q Hi; [subst o|]; apply (H r q); cbn; auto.
Qed.
Lemma empty_inv : inv empty [] (fun _ => 0).
Proof. split; cbn; try constructor; try (intros; tauto); try (intros; lia); try discriminate. intros [|x] v G; discriminate. Qed.
Lemma exec_app a b s : exec_all (a ++ b) s = let* s1 := exec_all a s in exec_all b s1.
Proof. revert s. induction a as [|o a IH]; intros s; cbn; [reflexivity|]. destruct (exec o s); cbn; auto. Qed.
Lemma cnt_pos s L lost r x : inv s L lost -> vars s r = Some (Some x) -> 0 < cnt L x.
Proof. intros I H. apply (i_var _ _ _ I) in H. apply in_split in H as (L1 & L2 & ->). rewrite cnt_mid. unfold one. cbn. rewrite Nat.eqb_refl. pose proof (cnt_nn (L1 ++ L2) x). lia. Qed.
Lemma cnt_ref s L lost x : inv s L lost -> 0 < cnt L x -> exists r, vars s r = Some (Some x).
Proof.
  intros I H. unfold cnt in H. destruct (filter (fun p => is_ref x (snd p)) L) as [|[r m] l] eqn:F; [cbn in H; lia|]. assert (G : In (r, m) (filter (fun p => is_ref x (snd p)) L)) by (rewrite F; now left). apply filter_In in G. destruct G as [G1 G2]. destruct m as [y|]; [|discriminate]. cbn in G2. apply Nat.eqb_eq in G2. subst y. exists r. now apply (i_var _ _ _ I).
Qed.

(** * C126 *)
(** a Resource never refers to a stream that was deleted, whatever was copied, assigned and destroyed before *)
Theorem C126_alive : forall l s r x, exec_all l empty = Val s -> refers s r x -> is_live s x.
Proof.
  intros l s r x E H. destruct (all_inv _ _ _ _ _ empty_inv E) as (L & lost & I & _). pose proof (cnt_pos _ _ _ _ _ I H) as C. pose proof (proj1 (i_var _ _ _ I _ _) H) as V. apply (i_rng _ _ _ I) in V. unfold is_live. destruct (nth_error (heap s) x) as [[n|]|] eqn:G; [eauto| |apply nth_error_None in G; lia].
  exfalso. pose proof (i_cnt _ _ _ I _ _ G) as K. cbn in K. pose proof (i_lost _ _ _ I x). lia.
Qed.
(** so every program that names existing objects, and uses only those that were found, runs *)
Theorem C126_safe : forall l, well_formed l [] -> exists s, exec_all l empty = Val s.
Proof.
  assert (K : forall l live s L lost, inv s L lost -> (forall r b, In (r, b) live <-> exists m, In (r, m) L /\ b = (match m with Some _ => true | None => false end)) -> well_formed l live -> exists s', exec_all l s = Val s').
  { induction l as [|o l IH]; intros live s L lost I Lv W; cbn [exec_all]; [eauto|].
    assert (Dom : forall r, In r (map fst live) <-> vars s r <> None).
    { intros r. rewrite in_map_iff. split.
      - intros ([r' b] & Er & H). cbn in Er. subst r'. apply Lv in H. destruct H as (m & H & _). apply (i_var _ _ _ I) in H. congruence.
      - intros H. destruct (vars s r) as [m|] eqn:V; [|congruence]. apply (i_var _ _ _ I) in V. exists (r, match m with Some _ => true | None => false end). split; [reflexivity|]. apply Lv. eauto. }
    assert (Go : forall s1 live1, exec o s = Val s1 -> well_formed l live1 -> (forall r b, In (r, b) live1 <-> exists m, vars s1 r = Some m /\ b = (match m with Some _ => true | None => false end)) -> exists s', (let* s := exec o s in exec_all l s) = Val s').
    { intros s1 live1 E W1 Lv1. rewrite E. cbn. destruct (step_inv _ _ _ _ _ I E) as (L1 & lost1 & I1 & _). apply (IH live1 s1 L1 lost1 I1); [|exact W1]. intros r b. rewrite Lv1. split; intros (m & H & Hb); exists m; (split; [now apply (i_var _ _ _ I1)|exact Hb]). }
    assert (LvV : forall r b, In (r, b) live <-> exists m, vars s r = Some m /\ b = (match m with Some _ => true | None => false end)). { intros r b. rewrite Lv. split; intros (m & H & Hb); exists m; (split; [now apply (i_var _ _ _ I)|exact Hb]). }
    destruct o as [r found|r q|r q|r|r|r]; cbn [well_formed] in W.
    - destruct W as [N W]. assert (V : vars s r = None) by (destruct (vars s r) eqn:V; [exfalso; apply N, Dom; congruence|reflexivity]).
      destruct found; (eapply Go; [cbn; rewrite V; reflexivity|exact W|]); intros r' b; cbn; (destruct (Nat.eq_dec r' r) as [->|Nr]; [rewrite set_eq|rewrite set_ne by exact Nr]).
      1,3: split; [intros [H|H]; [injection H as <-; eauto|exfalso; apply N; eapply in_fst; exact H]|intros (m & [= <-] & ->); now left].
      all: rewrite LvV; split; [intros [H|H]; [congruence|exact H]|auto].
    - destruct W as (N & b & Hq & W). assert (V : vars s r = None) by (destruct (vars s r) eqn:V; [exfalso; apply N, Dom; congruence|reflexivity]). apply LvV in Hq. destruct Hq as (m & Vq & Eb). pose proof (proj1 (i_var _ _ _ I _ _) Vq) as Hi. destruct (retain_ok s L lost m I (ex_intro _ q Hi)) as (h & Eh & _).
      eapply Go; [cbn; rewrite V, Vq, Eh; reflexivity|exact W|]. intros r' b'. cbn. destruct (Nat.eq_dec r' r) as [->|Nr]; [rewrite set_eq|rewrite set_ne by exact Nr].
      + split; [intros [H|H]; [injection H as <-; eauto|exfalso; apply N; eapply in_fst; exact H]|intros (m' & [= <-] & ->); left; congruence].
      + rewrite LvV. split; [intros [H|H]; [congruence|exact H]|auto].
    - destruct W as (Hr & b & Hq & W). apply Dom in Hr. destruct (vars s r) as [m0|] eqn:Vr; [|congruence]. apply LvV in Hq. destruct Hq as (m & Vq & Eb). pose proof (proj1 (i_var _ _ _ I _ _) Vq) as Hi. destruct (retain_ok s L lost m I (ex_intro _ q Hi)) as (h & Eh & _).
      destruct (Nat.eqb_spec r q) as [->|Nq].
      + eapply Go; [cbn; rewrite Vq, Nat.eqb_refl; reflexivity|exact W|]. intros r' b'. cbn. rewrite filter_In. cbn [fst]. destruct (Nat.eqb_spec r' q) as [->|Nr]; cbn.
        * split; [intros [H|[_ H]]; [injection H as <-; eauto|discriminate]|]. intros (m' & V' & ->). left. rewrite Vq in V'. injection V' as <-. now rewrite Eb.
        * rewrite LvV. split; [intros [H|[H _]]; [congruence|exact H]|auto].
      + eapply Go; [cbn; rewrite Vr, Vq; destruct (Nat.eqb_spec r q); [congruence|]; rewrite Eh; reflexivity|exact W|]. intros r' b'. cbn. rewrite filter_In. cbn [fst]. destruct (Nat.eqb_spec r' r) as [->|Nr]; cbn; [rewrite set_eq|rewrite set_ne by exact Nr].
        * split; [intros [H|[_ H]]; [injection H as <-; eauto|discriminate]|]. intros (m' & [= <-] & ->). left. now rewrite Eb.
        * rewrite LvV. split; [intros [H|[H _]]; [congruence|exact H]|auto].
    - destruct W as [Hr W]. apply Dom in Hr. destruct (vars s r) as [m|] eqn:Vr; [|congruence]. assert (R : exists h, match m with Some x => release (heap s) x | None => Val (heap s) end = Val h).
      { destruct m as [x|]; [|eauto]. unfold release. pose proof (cnt_pos _ _ _ _ _ I Vr) as C. pose proof (proj1 (i_var _ _ _ I _ _) Vr) as V. apply (i_rng _ _ _ I) in V. destruct (nth_error (heap s) x) as [[n|]|] eqn:G; [eauto| |apply nth_error_None in G; lia]. exfalso. pose proof (i_cnt _ _ _ I _ _ G) as K. cbn in K. pose proof (i_lost _ _ _ I x). lia. }
      destruct R as [h Eh]. eapply Go; [cbn; rewrite Vr, Eh; reflexivity|exact W|]. intros r' b'. cbn. rewrite filter_In. cbn [fst]. destruct (Nat.eqb_spec r' r) as [->|Nr]; cbn; [rewrite set_eq|rewrite set_ne by exact Nr].
      + split; [intros [_ H]; discriminate|intros (m' & H & _); discriminate].
      + rewrite LvV. intuition.
    - destruct W as [Hr W]. apply LvV in Hr. destruct Hr as ([x|] & Vr & Eb); [|discriminate]. eapply Go; [|exact W|exact LvV]. cbn. rewrite Vr. unfold deref. pose proof (cnt_pos _ _ _ _ _ I Vr) as C. pose proof (proj1 (i_var _ _ _ I _ _) Vr) as V. apply (i_rng _ _ _ I) in V.
      destruct (nth_error (heap s) x) as [[n|]|] eqn:G; [reflexivity| |apply nth_error_None in G; lia]. exfalso. pose proof (i_cnt _ _ _ I _ _ G) as K. cbn in K. pose proof (i_lost _ _ _ I x). lia.
    - destruct W as [Hr W]. apply Dom in Hr. destruct (vars s r) as [[x|]|] eqn:Vr; [| |congruence]; (eapply Go; [|exact W|exact LvV]); cbn; rewrite Vr; [|reflexivity]. unfold deref. pose proof (cnt_pos _ _ _ _ _ I Vr) as C. pose proof (proj1 (i_var _ _ _ I _ _) Vr) as V. apply (i_rng _ _ _ I) in V.
      destruct (nth_error (heap s) x) as [[n|]|] eqn:G; [reflexivity| |apply nth_error_None in G; lia]. exfalso. pose proof (i_cnt _ _ _ I _ _ G) as K. cbn in K. pose proof (i_lost _ _ _ I x). lia. }
  intros l W. refine (K l [] empty [] (fun _ => 0) empty_inv _ W). intros r b. split; [intros []|intros (m & [] & _)].
Qed.
(** without assignments a stream is deleted exactly when no Resource refers to it any more *)
Theorem C126_deleted_with_last_reference : forall l s x, no_assignment l -> exec_all l empty = Val s -> (x < length (heap s))%nat -> (is_live s x <-> exists r, refers s r x).
Proof.
  intros l s x N E Hx. split; [|intros [r H]; eapply C126_alive; eauto]. intros [n G]. destruct (all_inv _ _ _ _ _ empty_inv E) as (L & lost & I & _ & H). pose proof (i_cnt _ _ _ I _ _ G) as C. cbn in C. rewrite (H N) in C. apply (cnt_ref _ _ _ _ I). lia.
Qed.
(** an assignment forgets the stream of its left-hand side: that stream is never deleted, whatever happens afterwards *)
Theorem C126_assignment_leaks_refuted : forall l1 r q l2 s1 x s, exec_all l1 empty = Val s1 -> refers s1 r x -> r <> q -> exec_all (l1 ++ Assign r q :: l2) empty = Val s -> is_live s x.
Proof.
  intros l1 r q l2 s1 x s E1 H N E. rewrite exec_app, E1 in E. cbn [bind exec_all] in E. destruct (exec (Assign r q) s1) as [s2| | |] eqn:E2; try discriminate. cbn [bind] in E.
  destruct (all_inv _ _ _ _ _ empty_inv E1) as (L1 & lost1 & I1 & _). pose proof (proj1 (i_var _ _ _ I1 _ _) H) as Hi. pose proof (i_rng _ _ _ I1 _ _ Hi) as Hx. destruct (step_inv _ _ _ _ _ I1 E2) as (L2 & lost2 & I2 & M2 & Ad & _). specialize (Ad r q x eq_refl N Hi).
  destruct (all_inv _ _ _ _ _ I2 E) as (L3 & lost3 & I3 & M3 & _). pose proof (i_lost _ _ _ I1 x). specialize (M3 x). pose proof (cnt_nn L3 x).
  destruct (Nat.lt_ge_cases x (length (heap s))) as [B|B]; [|exfalso; pose proof (i_new _ _ _ I3 x B); lia]. unfold is_live. destruct (nth_error (heap s) x) as [[n|]|] eqn:G; [eauto| |apply nth_error_None in G; lia]. exfalso. pose proof (i_cnt _ _ _ I3 _ _ G) as K. cbn in K. lia.
Qed.
(** the search for a translation file: each candidate that does not exist leaks one stream, also when all Resources are gone at the end *)
Theorem C126_search_leaks_refuted : forall a b c d : bool, let k := (if a then 0 else if b then 1 else if c then 2 else 3)%nat in
  exists s, exec_all (trans_file 0 1 [a; b; c; d] ++ [Destroy 0%nat]) empty = Val s /\ (forall r, vars s r = None) /\ length (heap s) = S k /\ forall x, (x < k)%nat -> nth_error (heap s) x = Some (Live 1).
Proof.
  intros a b c d k. destruct a; [|destruct b; [|destruct c; [|destruct d]]]; (eexists; split; [vm_compute; reflexivity|]; split; [intros r; destruct r as [|[|r]]; reflexivity|]; split; [reflexivity|]); intros x Hx; subst k; cbv iota in Hx; do 3 (destruct x as [|x]; [reflexivity || lia|]); lia.
Qed.
(** on Android: a resource that was not found has no stream, everything but size() and exists() is undefined *)
Theorem C126_not_found_refuted : forall r, exec_all [New r false; Use r] empty = UB /\ exists s, exec_all [New r false; Ask r; Destroy r] empty = Val s.
Proof. intros r. unfold exec_all, exec. cbn [vars empty bind]. rewrite set_eq. split; [reflexivity|]. cbn. rewrite set_eq. cbn. rewrite ?set_eq. eexists. reflexivity. Qed.
Example C126_ex : well_formed [New 0 true; Copy 1 0; Use 1; Destroy 0; Use 1; Destroy 1]%nat [] /\ exists s, exec_all [New 0 true; Copy 1 0; Destroy 0; Destroy 1]%nat empty = Val s /\ heap s = [Freed].
Proof. split; [cbn; intuition; eexists; intuition|]. eexists. split; reflexivity. Qed.
Print Assumptions C126_alive.
Print Assumptions C126_safe.
Print Assumptions C126_deleted_with_last_reference.
Print Assumptions C126_assignment_leaks_refuted.
Print Assumptions C126_search_leaks_refuted.
Print Assumptions C126_not_found_refuted.
