(** P_Fs.v -- property C128: files and directories. *)
From Verif Require Import Base M_Fs S_Fs.
From Coq Require Import Permutation.
Lemma below_spec p : forall q r, below p q = Some r <-> q = p ++ r.
Proof.
  induction p as [|x p IH]; intros q r; cbn; [split; [now intros [= ->]|now intros ->]|]. destruct q as [|y q]; [split; discriminate|]. destruct (list_eq_dec Z.eq_dec x y) as [->|N].
  - rewrite IH. split; [now intros ->|now intros [= ->]]. - split; [discriminate|intros [= ? ?]; congruence].
Qed.
Lemma below_app p r : below p (p ++ r) = Some r. Proof. now apply below_spec. Qed.
Lemma child_spec p q x : child_of p q = Some x <-> q = p ++ [x].
Proof.
  unfold child_of. destruct (below p q) as [r|] eqn:E.
  - apply below_spec in E. subst q. split.
    + destruct r as [|y [|z r]]; try discriminate. now intros [= ->].
    + intros H. apply app_inv_head in H. now subst r.
  - split; [discriminate|]. intros ->. rewrite below_app in E. discriminate.
Qed.
Lemma get_in l p k : NoDup (map fst l) -> get l p = Some k <-> In (p, k) l.
Proof.
  induction l as [|[q j] l IH]; cbn; intros N; [split; [discriminate|intros []]|]. inversion N as [|? ? N1 N2]; subst. destruct (peq q p) as [->|Nq].
  - split; [intros [= ->]; now left|]. intros [[= ->]|H]; [reflexivity|]. destruct N1. now apply (in_map fst) in H.
  - rewrite (IH N2). split; [now right|]. intros [[= ? ?]|H]; [congruence|exact H].
Qed.
Lemma get_key l p : (exists k, get l p = Some k) <-> In p (map fst l).
Proof.
  induction l as [|[q j] l IH]; cbn; [split; [intros [k [=]]|intros []]|]. destruct (peq q p) as [->|N]; [split; [now left|eauto]|]. rewrite IH. split; [now right|intros [?|?]; [congruence|assumption]].
Qed.
Lemma get_none l p : get l p = None <-> ~ In p (map fst l).
Proof. rewrite <- get_key. destruct (get l p); split; try congruence; [intros H; destruct H; eauto|intros _ [k [=]]]. Qed.
Lemma get_del l p q : get (del l p) q = if peq p q then None else get l q.
Proof.
  unfold del in *. induction l as [|[r k] l IH]; cbn [filter get fst]; [now destruct (peq p q)|]. destruct (peq r p) as [->|N]; cbn [get].
  - rewrite IH. now destruct (peq p q).
  - rewrite IH. destruct (peq r q) as [->|]; [destruct (peq p q); [congruence|]; destruct (peq q q); congruence|destruct (peq p q); congruence].
Qed.
Lemma del_in l p e : In e (del l p) <-> In e l /\ fst e <> p.
Proof. unfold del. rewrite filter_In. destruct (peq (fst e) p); split; intros [A B]; split; congruence || auto. Qed.
Lemma nodup_filter {A B} (f : A -> B) g l : NoDup (map f l) -> NoDup (map f (filter g l)).
Proof.
  induction l as [|x l IH]; cbn; intros N; [exact N|]. inversion N as [|? ? N1 N2]; subst. destruct (g x); [|auto]. cbn. constructor; [|auto]. intros H. apply N1. apply in_map_iff in H as (y & E & H). apply filter_In in H as [H _]. rewrite <- E. now apply in_map.
Qed.
Lemma snoc_case {A} (p : list A) : p = [] \/ exists d x, p = d ++ [x]. Proof. destruct p as [|a p] using rev_ind; [now left|right; eauto]. Qed.
Lemma snoc_ne {A} (d : list A) x : d ++ [x] <> []. Proof. now destruct d. Qed.

(** everything on the way to something is a directory *)
Lemma above s p r k : wf s -> r <> [] -> get (entries s) (p ++ r) = Some k -> get (entries s) p = Some KDir.
Proof.
  intros W. revert k. induction r as [|x r IH] using rev_ind; intros k N H; [congruence|]. rewrite app_assoc in H. apply (w_in _ W) in H. destruct r as [|y r]; [now rewrite app_nil_r in H|]. apply (IH KDir); [discriminate|exact H].
Qed.
Lemma walk_iff l rest : forall pre, walk l pre rest = None <-> forall a x b, rest = a ++ x :: b -> get l (pre ++ a) = Some KDir.
Proof.
  induction rest as [|y r IH]; intros pre; cbn [walk]; [split; [intros _ [|? ?] ? ? [=]|reflexivity]|]. split.
  - intros H a x b E. destruct (get l pre) as [[]|] eqn:G; try discriminate. destruct a as [|z a]; cbn in E; injection E as E1 E2; [now rewrite app_nil_r|].
    apply (proj1 (IH (pre ++ [y])) H a x b) in E2. rewrite <- app_assoc in E2. subst z. exact E2.
  - intros H. pose proof (H [] y r eq_refl) as G. rewrite app_nil_r in G. rewrite G. apply IH. intros a x b E. rewrite <- app_assoc. apply (H (y :: a) x b). cbn. now rewrite E.
Qed.
Lemma walk_parent s d x : wf s -> walk (entries s) [] (d ++ [x]) = None <-> get (entries s) d = Some KDir.
Proof.
  intros W. rewrite walk_iff. split; [intros H; apply (H d x []); reflexivity|]. intros G a y b E. cbn. destruct (snoc_case b) as [->|(b' & z & ->)].
  - apply app_inj_tail in E as [-> _]. exact G.
  - replace (a ++ y :: b' ++ [z]) with ((a ++ y :: b') ++ [z]) in E by now rewrite <- app_assoc. apply app_inj_tail in E as [-> _]. eapply above; [exact W| |exact G]. discriminate.
Qed.
Lemma walk_some s p k : wf s -> get (entries s) p = Some k -> walk (entries s) [] p = None.
Proof. intros W G. destruct (snoc_case p) as [->|(d & x & ->)]; [reflexivity|]. apply (walk_parent _ _ _ W). eapply (w_in _ W). exact G. Qed.
Lemma lstat_ok s p k : wf s -> lstat (entries s) p = Ok k <-> get (entries s) p = Some k.
Proof.
  intros W. unfold lstat. split.
  - destruct (walk _ _ _); [discriminate|]. destruct (get _ _); [now intros [= ->]|discriminate].
  - intros G. now rewrite (walk_some _ _ _ W G), G.
Qed.
Lemma lstat_absent s p : get (entries s) p = None -> exists e, lstat (entries s) p = Err e.
Proof. intros G. unfold lstat. rewrite G. destruct (walk _ _ _); eauto. Qed.
Lemma parent_iff s p : wf s -> in_directory s p <-> p <> [] /\ walk (entries s) [] p = None.
Proof.
  intros W. split.
  - intros (d & x & -> & G). split; [apply snoc_ne|]. now apply (walk_parent _ _ _ W).
  - intros [N H]. destruct (snoc_case p) as [->|(d & x & ->)]; [congruence|]. exists d, x. split; [reflexivity|]. apply (walk_parent s d x W), H.
Qed.
Lemma children_in s p x : In x (children (entries s) p) <-> exists k, get (entries s) (p ++ [x]) = Some k.
Proof.
  rewrite get_key. induction (entries s) as [|[q k] l IH]; cbn; [tauto|]. destruct (child_of p q) as [y|] eqn:C.
  - apply child_spec in C. subst q. cbn. rewrite IH. split; intros [H|H]; auto; [left; now subst|left]. apply app_inv_head in H. congruence.
  - rewrite IH. split; [now right|]. intros [H|H]; [|exact H]. apply child_spec in H. congruence.
Qed.
Lemma children_nodup l p : NoDup (map fst l) -> NoDup (children l p).
Proof.
  induction l as [|[q k] l IH]; cbn; intros N; [constructor|]. inversion N as [|? ? N1 N2]; subst. destruct (child_of p q) as [y|] eqn:C; [|auto]. constructor; [|auto].
  apply child_spec in C. subst q. pose proof (children_in (FS l []) p y) as K. cbn in K. rewrite K, get_key. exact N1.
Qed.
Lemma children_nil s p : children (entries s) p = [] <-> forall x, get (entries s) (p ++ [x]) = None.
Proof.
  split.
  - intros E x. destruct (get (entries s) (p ++ [x])) eqn:G; [|reflexivity]. assert (In x (children (entries s) p)) by (apply children_in; eauto). rewrite E in H. destruct H.
  - intros H. destruct (children (entries s) p) as [|x l] eqn:E; [reflexivity|]. assert (K : In x (children (entries s) p)) by (rewrite E; now left). apply children_in in K as [k K]. rewrite H in K. discriminate.
Qed.

(** ** changing the table *)
Lemma wf_add s p k d : wf s -> in_directory s p -> at_ s p = None -> (length (data s) <= length d)%nat -> (forall i, k = KReg i -> (length (data s) <= i < length d)%nat) -> wf (FS ((p, k) :: entries s) d).
Proof.
  intros W (d0 & x0 & Ep & G0) A L K. unfold at_ in *. constructor; cbn [entries data get].
  - destruct (peq p []) as [->|]; [destruct d0; discriminate|apply (w_root _ W)].
  - cbn. constructor; [now apply get_none|apply (w_names _ W)].
  - intros q x j. destruct (peq p (q ++ [x])) as [->|N].
    + apply app_inj_tail in Ep as [-> ->]. intros _. destruct (peq (d0 ++ [x0]) d0) as [E|_]; [exfalso; apply (f_equal (@length name)) in E; rewrite app_length in E; cbn in E; lia|exact G0].
    + intros H. apply (w_in _ W) in H. destruct (peq p q) as [->|]; [congruence|exact H].
  - intros q i. destruct (peq p q) as [->|N]; [intros [= ->]; specialize (K i eq_refl); lia|]. intros H. apply (w_data _ W) in H. lia.
  - intros q r i. destruct (peq p q) as [<-|N1], (peq p r) as [<-|N2]; auto.
    + intros [= ->] H. apply (w_data _ W) in H. specialize (K i eq_refl). lia.
    + intros H [= ->]. apply (w_data _ W) in H. specialize (K i eq_refl). lia.
    + apply (w_own _ W).
Qed.
Lemma wf_del s p : wf s -> p <> [] -> (forall x, at_ s (p ++ [x]) = None) -> wf (FS (del (entries s) p) (data s)).
Proof.
  intros W N C. unfold at_ in *. constructor; cbn [entries data].
  - rewrite get_del. destruct (peq p []); [congruence|apply (w_root _ W)].
  - apply nodup_filter, (w_names _ W).
  - intros q x k. rewrite !get_del. destruct (peq p (q ++ [x])); [discriminate|]. intros H. destruct (peq p q) as [<-|]; [rewrite C in H; discriminate|]. eapply (w_in _ W), H.
  - intros q i. rewrite get_del. destruct (peq p q); [discriminate|apply (w_data _ W)].
  - intros q r i. rewrite !get_del. destruct (peq p q); [discriminate|]. destruct (peq p r); [discriminate|apply (w_own _ W)].
Qed.
Lemma leaf_no_child s p k x : wf s -> at_ s p = Some k -> k <> KDir -> at_ s (p ++ [x]) = None.
Proof. intros W G N. unfold at_ in *. destruct (get (entries s) (p ++ [x])) eqn:E; [|reflexivity]. apply (w_in _ W) in E. congruence. Qed.
(** nothing is below a path that has no child *)
Lemma nothing_below s p r : wf s -> (forall x, at_ s (p ++ [x]) = None) -> r <> [] -> at_ s (p ++ r) = None.
Proof.
  intros W C N. unfold at_ in *. destruct r as [|x r]; [congruence|]. destruct (get (entries s) (p ++ x :: r)) eqn:E; [|reflexivity]. destruct r as [|y r]; [now rewrite C in E|].
  replace (p ++ x :: y :: r) with ((p ++ [x]) ++ y :: r) in E by now rewrite <- app_assoc. apply above in E; [congruence|exact W|discriminate].
Qed.

(** ** renaming *)
Definition key_of (p q z : path) : path := match below p z with Some r => q ++ r | None => z end.
Lemma moved_keys p q l : map fst (moved p q l) = map (key_of p q) (map fst l).
Proof. unfold moved. induction l as [|[z k] l IH]; cbn [map fst snd]; [reflexivity|]. rewrite IH. unfold key_of. now destruct (below p z). Qed.
Lemma get_moved p q l z : (forall r, get l (q ++ r) = None) -> get (moved p q l) z = match below q z with Some r => get l (p ++ r) | None => match below p z with Some _ => None | None => get l z end end.
Proof.
  intros N. assert (K : forall r, ~ In (q ++ r) (map fst l)) by (intros r; apply get_none, N). clear N. revert K. unfold moved. induction l as [|[y k] l IH]; intros K; cbn [map get fst].
  - destruct (below q z); [reflexivity|]. now destruct (below p z).
  - assert (K' : forall r, ~ In (q ++ r) (map fst l)) by (intros r H; apply (K r); now right). specialize (IH K').
    assert (Ky : forall r, y <> q ++ r) by (intros r ->; apply (K r); now left).
    destruct (below p y) as [t|] eqn:B; cbn [fst snd].
    + apply below_spec in B. subst y. destruct (peq (q ++ t) z) as [<-|Nz].
      * rewrite below_app. cbn. destruct (peq (p ++ t) (p ++ t)); congruence.
      * rewrite IH. destruct (below q z) as [r|] eqn:Bq; [apply below_spec in Bq; subst z; destruct (peq (p ++ t) (p ++ r)) as [E|]; [apply app_inv_head in E; congruence|reflexivity]|].
        destruct (below p z) as [r|] eqn:Bp; [reflexivity|]. destruct (peq (p ++ t) z) as [<-|]; [rewrite below_app in Bp; discriminate|reflexivity].
    + destruct (peq y z) as [->|Nz].
      * destruct (below q z) as [r|] eqn:Bq; [apply below_spec in Bq; exfalso; now apply (Ky r)|]. now rewrite B.
      * rewrite IH. destruct (below q z) as [r|] eqn:Bq; [destruct (peq y (p ++ r)) as [->|]; [rewrite below_app in B; discriminate|reflexivity]|]. reflexivity.
Qed.
Lemma nodup_keys p q l : (forall r, ~ In (q ++ r) l) -> NoDup l -> NoDup (map (key_of p q) l).
Proof.
  intros K N. induction l as [|y l IH]; cbn; [constructor|]. inversion N as [|? ? N1 N2]; subst. constructor; [|apply IH; [intros r H; apply (K r); now right|exact N2]].
  intros H. apply in_map_iff in H as (z & E & H). apply N1. replace y with z; [exact H|]. unfold key_of in E. destruct (below p z) as [r|] eqn:Bz, (below p y) as [t|] eqn:By.
  - apply below_spec in Bz, By. apply app_inv_head in E. congruence.
  - exfalso. apply (K r). left. now symmetry.
  - exfalso. apply (K t). right. now rewrite <- E.
  - exact E.
Qed.
(** the target is free or can be replaced *)
Definition free_for (s : fs) (k : kind) (q : path) : Prop := at_ s q = None \/ (k = KDir /\ empty_dir s q) \/ (k <> KDir /\ not_dir (at_ s q)).
Lemma free_below s k q : wf s -> free_for s k q -> forall r, r <> [] -> at_ s (q ++ r) = None.
Proof.
  intros W F r N. destruct F as [F|[[_ [_ F]]|[_ (x & F & Nx)]]].
  - unfold at_ in *. destruct (get (entries s) (q ++ r)) eqn:E; [|reflexivity]. apply above in E; [congruence|exact W|exact N].
  - now apply nothing_below.
  - apply nothing_below; auto. intros y. eapply leaf_no_child; eauto.
Qed.
Lemma gone s k q r : wf s -> free_for s k q -> get (del (entries s) q) (q ++ r) = None.
Proof.
  intros W F. rewrite get_del. destruct (peq q (q ++ r)) as [_|N]; [reflexivity|]. apply (free_below s k q W F). intros ->. now rewrite app_nil_r in N.
Qed.
Lemma app_self {A} (p r : list A) : p = p ++ r -> r = [].
Proof. intros E. rewrite <- (app_nil_r p) in E at 1. now apply app_inv_head in E. Qed.
Lemma at_moved s p q k z : wf s -> free_for s k q -> at_ (FS (moved p q (del (entries s) q)) (data s)) z =
  match below q z with Some r => (if peq q (p ++ r) then None else at_ s (p ++ r)) | None => match below p z with Some _ => None | None => at_ s z end end.
Proof.
  intros W F. unfold at_. cbn [entries]. rewrite get_moved by (intros r; eapply gone; eauto). destruct (below q z) as [r|] eqn:Bq; [apply get_del|]. destruct (below p z); [reflexivity|]. rewrite get_del.
  destruct (peq q z) as [->|]; [|reflexivity]. replace z with (z ++ []) in Bq at 2 by apply app_nil_r. rewrite below_app in Bq. discriminate.
Qed.
Lemma wf_moved s p q k : wf s -> at_ s p = Some k -> p <> [] -> in_directory s q -> (forall r, q <> p ++ r) -> free_for s k q -> wf (FS (moved p q (del (entries s) q)) (data s)).
Proof.
  intros W Ap Np (d & x0 & Eq & Gd) Nb F. assert (Nq : q <> []) by (rewrite Eq; apply snoc_ne). pose proof (at_moved s p q k) as M. unfold at_ in M.
  assert (Q0 : forall r, (if peq q (p ++ r) then None else get (entries s) (p ++ r)) = get (entries s) (p ++ r)) by (intros r; destruct (peq q (p ++ r)) as [E|]; [now apply Nb in E|reflexivity]).
  constructor; cbn [data].
  - rewrite (M [] W F). destruct (below q []) as [r|] eqn:B; [apply below_spec in B; symmetry in B; apply app_eq_nil in B as [? _]; congruence|]. destruct (below p []) as [r|] eqn:B'; [apply below_spec in B'; symmetry in B'; apply app_eq_nil in B' as [? _]; congruence|]. apply (w_root _ W).
  - cbn [entries]. rewrite moved_keys. apply nodup_keys; [|apply nodup_filter, (w_names _ W)]. intros r. apply get_none. eapply gone; eauto.
  - intros z x j. rewrite !(M _ W F). destruct (below q (z ++ [x])) as [r|] eqn:B.
    + rewrite Q0. apply below_spec in B. destruct (snoc_case r) as [->|(r' & y & ->)].
      * rewrite app_nil_r in *. intros _. assert (z = d) by (rewrite Eq in B; now apply app_inj_tail in B). subst z.
        destruct (below q d) as [r|] eqn:B1; [apply below_spec in B1; exfalso; rewrite Eq in B1; rewrite <- app_assoc in B1; apply app_self in B1; discriminate|].
        destruct (below p d) as [r|] eqn:B2; [apply below_spec in B2; exfalso; apply (Nb (r ++ [x0])); rewrite Eq, B2; now rewrite <- app_assoc|exact Gd].
      * rewrite app_assoc in B. apply app_inj_tail in B as [-> ->]. rewrite below_app, Q0, app_assoc. apply (w_in _ W).
    + destruct (below p (z ++ [x])) as [r|] eqn:B2; [discriminate|]. intros H. apply (w_in _ W) in H. destruct (below q z) as [r|] eqn:B3; [apply below_spec in B3; subst z; rewrite <- app_assoc, below_app in B; discriminate|].
      destruct (below p z) as [r|] eqn:B4; [apply below_spec in B4; subst z; rewrite <- app_assoc, below_app in B2; discriminate|exact H].
  - intros z i. rewrite (M _ W F). destruct (below q z); [rewrite Q0; apply (w_data _ W)|]. destruct (below p z); [discriminate|apply (w_data _ W)].
  - intros y z i. rewrite !(M _ W F). destruct (below q y) as [r|] eqn:B1, (below q z) as [t|] eqn:B2; rewrite ?Q0.
    + intros H1 H2. pose proof (w_own _ W _ _ _ H1 H2) as E. apply app_inv_head in E. apply below_spec in B1, B2. congruence.
    + destruct (below p z) eqn:B3; [discriminate|]. intros H1 H2. pose proof (w_own _ W _ _ _ H1 H2) as E. rewrite <- E, below_app in B3. discriminate.
    + destruct (below p y) eqn:B3; [discriminate|]. intros H1 H2. pose proof (w_own _ W _ _ _ H1 H2) as E. rewrite E, below_app in B3. discriminate.
    + destruct (below p y); [discriminate|]. destruct (below p z); [discriminate|]. apply (w_own _ W).
Qed.
(** rename of the operating system, on file systems that make sense *)
Lemma rename_ok s p q k : wf s -> at_ s p = Some k -> p <> [] -> in_directory s q -> p <> q -> (forall r, q <> p ++ r) -> free_for s k q -> sys_rename s p q = Ok (FS (moved p q (del (entries s) q)) (data s)).
Proof.
  intros W Ap Np D Ne Nb F. unfold sys_rename. rewrite (proj2 (lstat_ok _ _ _ W) Ap). destruct (proj1 (parent_iff _ _ W) D) as [Nq ->].
  destruct p as [|p0 p]; [congruence|]. destruct q as [|q0 q]; [congruence|]. destruct (peq (p0 :: p) (q0 :: q)); [congruence|]. destruct (below (p0 :: p) (q0 :: q)) eqn:B; [apply below_spec in B; now apply Nb in B|].
  unfold free_for, empty_dir, not_dir, at_ in F. destruct F as [F|[[-> [F C]]|[Nk (x & F & Nx)]]].
  - rewrite F. now destruct k.
  - rewrite F. apply children_nil in C. now rewrite C.
  - rewrite F. destruct k; [congruence| | |]; destruct x; congruence || reflexivity.
Qed.
Lemma rename_inv s p q s' : wf s -> sys_rename s p q = Ok s' -> exists k, at_ s p = Some k /\ p <> [] /\ in_directory s q /\ (p = q /\ s' = s \/ p <> q /\ (forall r, q <> p ++ r) /\ free_for s k q).
Proof.
  intros W. unfold sys_rename. destruct (lstat (entries s) p) as [k|] eqn:L; [|discriminate]. apply (lstat_ok _ _ _ W) in L. destruct (walk (entries s) [] q) eqn:Wq; [discriminate|]. intros H. exists k. split; [exact L|].
  destruct p as [|p0 p]; [discriminate|]. split; [discriminate|]. destruct q as [|q0 q]; [discriminate|]. split; [apply (parent_iff _ _ W); split; [discriminate|exact Wq]|].
  destruct (peq (p0 :: p) (q0 :: q)) as [E|Ne]; [left; split; congruence|]. right. split; [exact Ne|]. destruct (below (p0 :: p) (q0 :: q)) eqn:B; [discriminate|].
  split; [intros r E; rewrite E, below_app in B; discriminate|]. unfold free_for, empty_dir, not_dir, at_. destruct (get (entries s) (q0 :: q)) as [x|] eqn:G; [|now left]. right.
  destruct k; [|right|right|right]; destruct x; try discriminate; try (destruct (below (q0 :: q) (p0 :: p)); discriminate); try (split; [discriminate|]; eexists; split; [reflexivity|discriminate]).
  left. split; [reflexivity|]. split; [reflexivity|]. destruct (children (entries s) (q0 :: q)) eqn:C; [|discriminate]. now apply children_nil.
Qed.

(** * C128 *)
Theorem C128_make_directory : forall f w, wf (disk w) -> let '(b, w') := f_make_directory f w in
  (b = true <-> in_directory (disk w) (fpath f) /\ at_ (disk w) (fpath f) = None) /\
  (b = true -> at_ (disk w') (fpath f) = Some KDir /\ only_at (fpath f) (disk w) (disk w') /\ data (disk w') = data (disk w) /\ wf (disk w')) /\ (b = false -> w' = w).
Proof.
  intros [p h] [s l] W. cbn [disk fpath] in *. unfold f_make_directory, sys_mkdir. cbn [disk fpath]. destruct (walk (entries s) [] p) eqn:Wk.
  - split; [|split; [discriminate|reflexivity]]. split; [discriminate|]. intros [D _]. apply (parent_iff _ _ W) in D as [_ D]. congruence.
  - destruct (get (entries s) p) eqn:G; [split; [split; [discriminate|intros [_ A]; unfold at_ in A; congruence]|split; [discriminate|reflexivity]]|].
    assert (D : in_directory s p). { apply (parent_iff _ _ W). split; [|exact Wk]. intros ->. rewrite (w_root _ W) in G. discriminate. }
    split; [tauto|]. split; [|discriminate]. intros _. cbn [disk]. unfold at_. cbn [entries get data]. destruct (peq p p); [|congruence]. split; [reflexivity|]. split; [|split; [reflexivity|]].
    + intros q N. unfold at_. cbn [entries get]. destruct (peq p q); congruence.
    + apply wf_add; auto. discriminate.
Qed.
(** remove deletes a file, a link or an empty directory, nothing else *)
Theorem C128_remove : forall f w k, wf (disk w) -> at_ (disk w) (fpath f) = Some k -> exists b w', f_remove f w = Val (b, w') /\
  (b = true <-> fpath f <> [] /\ (k = KDir -> empty_dir (disk w) (fpath f))) /\
  (b = true -> at_ (disk w') (fpath f) = None /\ only_at (fpath f) (disk w) (disk w') /\ data (disk w') = data (disk w) /\ wf (disk w')) /\ (b = false -> w' = w).
Proof.
  intros [p h] [s l] k W A. cbn [disk fpath] in *. unfold f_remove, f_is_directory, with_lstat. cbn [disk fpath]. pose proof (proj2 (lstat_ok _ _ _ W) A) as L. rewrite L. cbn [bind].
  assert (Del : (forall x, at_ s (p ++ [x]) = None) -> p <> [] -> at_ (FS (del (entries s) p) (data s)) p = None /\ only_at p s (FS (del (entries s) p) (data s)) /\ wf (FS (del (entries s) p) (data s))).
  { intros C N. split; [unfold at_; cbn [entries]; rewrite get_del; destruct (peq p p); congruence|]. split; [|now apply wf_del]. intros q Nq. unfold at_. cbn [entries]. rewrite get_del. destruct (peq p q); congruence. }
  assert (Np : k <> KDir -> p <> []) by (intros Nk ->; unfold at_ in A; rewrite (w_root _ W) in A; congruence).
  destruct (match k with KDir => true | _ => false end) eqn:K.
  - destruct k; try discriminate. unfold sys_rmdir. rewrite L. unfold c_remove, sys_unlink. rewrite L. unfold sys_rmdir. rewrite L. destruct p as [|p0 p].
    + eexists _, _. split; [reflexivity|]. split; [split; [discriminate|intros [? _]; congruence]|]. split; [discriminate|reflexivity].
    + destruct (children (entries s) (p0 :: p)) eqn:C.
      * assert (C' : forall x, at_ s ((p0 :: p) ++ [x]) = None) by now apply children_nil. destruct (Del C' ltac:(discriminate)) as (D1 & D2 & D3). eexists _, _. split; [reflexivity|]. cbn [disk data]. split; [split; [intros _; split; [discriminate|intros _; split; assumption]|reflexivity]|]. split; [auto|discriminate].
      * eexists _, _. split; [reflexivity|]. split; [split; [discriminate|]|split; [discriminate|reflexivity]]. intros [_ E]. destruct (E eq_refl) as [_ E']. apply children_nil in E'. congruence.
  - assert (Nk : k <> KDir) by (intros ->; discriminate). unfold c_remove, sys_unlink. rewrite L. assert (E : (match k with KDir => Err EISDIR | _ => Ok (FS (del (entries s) p) (data s)) end) = Ok (FS (del (entries s) p) (data s))) by now destruct k. rewrite E.
    destruct (Del (fun x => leaf_no_child s p k x W A Nk) (Np Nk)) as (D1 & D2 & D3). eexists _, _. split; [reflexivity|]. cbn [disk data]. split; [split; [intros _; split; [auto|congruence]|reflexivity]|]. split; [auto|discriminate].
Qed.
(** renaming moves everything below along; it replaces what is at the new path if that is possible *)
Theorem C128_rename : forall f w q, wf (disk w) -> let '(b, f', w') := f_rename q f w in let p := fpath f in let s := disk w in let s' := disk w' in
  (b = true <-> exists k, at_ s p = Some k /\ p <> [] /\ in_directory s q /\ (p = q \/ (forall r, q <> p ++ r) /\ free_for s k q)) /\
  (b = true -> fpath f' = q /\ fh f' = fh f /\ wf s' /\ data s' = data s /\ hs w' = hs w /\ (forall r, at_ s' (q ++ r) = at_ s (p ++ r)) /\ (p <> q -> forall r, at_ s' (p ++ r) = None) /\
     forall z, (forall r, z <> p ++ r) -> (forall r, z <> q ++ r) -> at_ s' z = at_ s z) /\
  (b = false -> f' = f /\ w' = w).
Proof.
  intros [p h] [s l] q W. cbn [disk fpath fh] in *. unfold f_rename. cbn [disk fpath fh]. destruct (sys_rename s p q) as [s'|e] eqn:R; cbv zeta; cbn [disk fpath fh].
  - destruct (rename_inv _ _ _ _ W R) as (k & A & Np & D & C). split; [split; [intros _|reflexivity]|]. { exists k. split; [exact A|]. split; [exact Np|]. split; [exact D|]. destruct C as [[C _]|C]; tauto. }
    split; [|discriminate]. intros _. split; [reflexivity|]. split; [reflexivity|]. destruct C as [[-> ->]|(Ne & Nb & Fr)]; [split; [exact W|split; [reflexivity|]]; split; [reflexivity|]; split; [reflexivity|]; split; [congruence|reflexivity]|].
    rewrite (rename_ok _ _ _ _ W A Np D Ne Nb Fr) in R. injection R as <-. split; [eapply wf_moved; eauto|]. split; [reflexivity|]. split; [reflexivity|]. pose proof (fun z => at_moved s p q k z W Fr) as M. split; [|split].
    + intros r. rewrite M, below_app. destruct (peq q (p ++ r)) as [E|]; [now apply Nb in E|reflexivity].
    + intros _ r. rewrite M. destruct (below q (p ++ r)) as [t|] eqn:B; [|now rewrite below_app]. exfalso. apply below_spec in B.
      (* then p would be below q, or q below p *)
      assert (Cmp : forall (a b c d : path), a ++ b = c ++ d -> (exists t, c = a ++ t) \/ (exists t, a = c ++ t)).
      { clear. induction a as [|x a IH]; intros b c d E; [left; now exists c|]. destruct c as [|y c]; [right; now exists (x :: a)|]. cbn in E. injection E as -> E. destruct (IH _ _ _ E) as [[t ->]|[t ->]]; [left|right]; now exists t. }
      destruct (Cmp _ _ _ _ B) as [[u ->]|[u ->]]; [now apply (Nb u)|]. destruct u as [|u0 u]; [now rewrite app_nil_r in Ne|]. pose proof (free_below s k q W Fr (u0 :: u) ltac:(discriminate)). congruence.
    + intros z Z1 Z2. rewrite M. destruct (below q z) eqn:B1; [apply below_spec in B1; now apply Z2 in B1|]. destruct (below p z) eqn:B2; [apply below_spec in B2; now apply Z1 in B2|reflexivity].
  - split; [|split; [discriminate|auto]]. split; [discriminate|]. intros (k & A & Np & D & C). exfalso. destruct (peq p q) as [->|Ne].
    + unfold sys_rename in R. rewrite (proj2 (lstat_ok _ _ _ W) A) in R. destruct (proj1 (parent_iff _ _ W) D) as [_ Wq]. rewrite Wq in R. destruct q; [congruence|]. destruct (peq _ _); congruence.
    + destruct C as [|[Nb Fr]]; [congruence|]. rewrite (rename_ok _ _ _ _ W A Np D Ne Nb Fr) in R. discriminate.
Qed.
(** ** creating *)
Lemma put_len {A} (l : list A) i v : length (put l i v) = length l.
Proof. revert i. induction l as [|x l IH]; intros [|i]; cbn; auto. Qed.
Lemma put_same {A} (l : list A) i v : (i < length l)%nat -> nth_error (put l i v) i = Some v.
Proof. revert i. induction l as [|x l IH]; intros [|i] L; cbn in *; try lia; [reflexivity|]. apply IH. lia. Qed.
Lemma put_other {A} (l : list A) i j v : i <> j -> nth_error (put l i v) j = nth_error l j.
Proof. revert i j. induction l as [|x l IH]; intros [|i] [|j] N; cbn; try congruence. apply IH. congruence. Qed.
Lemma put_app {A} (l : list A) x v : put (l ++ [x]) (length l) v = l ++ [v].
Proof. induction l as [|y l IH]; cbn; [reflexivity|]. now rewrite IH. Qed.
Lemma put_put {A} (l : list A) i v w : put (put l i v) i w = put l i w.
Proof. revert i. induction l as [|x l IH]; intros [|i]; cbn; congruence. Qed.
Lemma wf_data_only s d : wf s -> length d = length (data s) -> wf (FS (entries s) d).
Proof. intros W L. constructor; cbn [entries data]; [apply (w_root _ W)|apply (w_names _ W)|apply (w_in _ W)|intros p i H; apply (w_data _ W) in H; lia|apply (w_own _ W)]. Qed.
Definition no_link (k : option kind) : Prop := forall t, k <> Some (KLink t).
Lemma follow_id n s p : wf s -> walk (entries s) [] p = None -> no_link (at_ s p) -> follow n (entries s) p = Ok (p, at_ s p).
Proof. intros W Wk N. unfold at_, no_link in *. destruct n; cbn [follow]; rewrite Wk; destruct (get (entries s) p) as [[]|]; try reflexivity; now destruct (N t). Qed.
Lemma follow_walk n l p e : walk l [] p = Some e -> follow n l p = Err e.
Proof. intros H. destruct n; cbn [follow]; now rewrite H. Qed.
Opaque max_links.
Theorem C128_create : forall f w, wf (disk w) -> no_link (at_ (disk w) (fpath f)) -> exists b w', f_create true f w = Val (RBool b, F (fpath f) None, w') /\
  (b = true <-> in_directory (disk w) (fpath f) /\ (at_ (disk w) (fpath f) = None \/ exists l, holds (disk w) (fpath f) l)) /\
  (b = true -> holds (disk w') (fpath f) [] /\ only_at (fpath f) (disk w) (disk w') /\ (forall q l, q <> fpath f -> holds (disk w) q l -> holds (disk w') q l) /\ wf (disk w')) /\ (b = false -> w' = w).
Proof.
  intros [p h] [s hl] W NL. cbn [disk fpath] in *. unfold f_create, fopen. cbn [disk fpath]. destruct (walk (entries s) [] p) as [e|] eqn:Wk.
  { rewrite (follow_walk _ _ _ _ Wk). eexists _, _. split; [reflexivity|]. split; [|split; [discriminate|reflexivity]]. split; [discriminate|]. intros [D _]. apply (parent_iff _ _ W) in D as [_ D]. congruence. }
  rewrite (follow_id _ _ _ W Wk NL). assert (Dp : p <> [] -> in_directory s p) by (intros N; apply (parent_iff _ _ W); auto).
  assert (Cl : forall i s' , f_close true (F p (Some (length hl))) (M_Fs.W s' (hl ++ [Some (H (Some i) 0 MWrite LNone)])) = Val (RUnit, F p None, M_Fs.W s' (hl ++ [None]))).
  { intros i s'. unfold f_close, with_handle. cbn [fh hs fpath disk]. rewrite nth_error_app2, Nat.sub_diag by lia. cbn [nth_error]. now rewrite put_app. }
  destruct (at_ s p) as [[|i|t|]|] eqn:A.
  - eexists _, _. split; [reflexivity|]. split; [|split; [discriminate|reflexivity]]. split; [discriminate|]. intros [_ [[=]|(l & i & E & _)]]. congruence.
  - unfold add_handle. cbn [hs]. rewrite Cl. cbn [bind]. eexists _, _. split; [reflexivity|]. pose proof (w_data _ W _ _ A) as Li. assert (Np : p <> []) by (intros ->; unfold at_ in A; rewrite (w_root _ W) in A; discriminate).
    split; [split; [intros _; split; [auto|right]|reflexivity]|split; [|discriminate]].
    + destruct (nth_error (data s) i) as [l|] eqn:E; [exists l, i; auto|]. apply nth_error_None in E. lia.
    + intros _. cbn [disk]. split; [exists i; split; [exact A|now apply put_same]|]. split; [intros q _; reflexivity|]. split; [|apply wf_data_only; auto; apply put_len].
      intros q l Nq (j & Aq & E). exists j. split; [exact Aq|]. cbn [data]. rewrite put_other; [exact E|]. intros ->. now apply Nq, (w_own _ W _ _ _ Aq).
  - now destruct (NL t).
  - eexists _, _. split; [reflexivity|]. split; [|split; [discriminate|reflexivity]]. split; [discriminate|]. intros [_ [[=]|(l & i & E & _)]]. congruence.
  - unfold add_handle. cbn [hs]. rewrite Cl. cbn [bind]. eexists _, _. split; [reflexivity|]. assert (Np : p <> []) by (intros ->; unfold at_ in A; rewrite (w_root _ W) in A; discriminate).
    split; [split; [intros _; split; [auto|now left]|reflexivity]|split; [|discriminate]]. intros _. cbn [disk].
    split; [exists (length (data s)); split; [unfold at_; cbn [entries get]; destruct (peq p p); congruence|cbn [data]; now rewrite nth_error_app2, Nat.sub_diag by lia]|]. split; [intros q Nq; unfold at_; cbn [entries get]; destruct (peq p q); congruence|]. split.
    + intros q l Nq (j & Aq & E). exists j. split; [unfold at_ in *; cbn [entries get]; destruct (peq p q); [congruence|exact Aq]|]. cbn [data]. rewrite nth_error_app1; [exact E|]. apply nth_error_Some. congruence.
    + apply wf_add; auto; [rewrite app_length; cbn; lia|]. intros i [= <-]. rewrite app_length. cbn. lia.
Qed.
(** File.h: nothing happens if the file already exists. It loses its content, and the answer is the one for a new file *)
Theorem C128_create_keeps_refuted : forall f w l, wf (disk w) -> holds (disk w) (fpath f) l -> exists w', f_create true f w = Val (RBool true, F (fpath f) None, w') /\ holds (disk w') (fpath f) [].
Proof.
  intros f w l W Hl. destruct (C128_create f w W) as (b & w' & E & Hb & Ht & _). { intros t. destruct Hl as (i & -> & _). discriminate. }
  exists w'. destruct Hl as (i & A & Ed). assert (B : b = true). { apply Hb. split; [|right; exists l, i; auto]. apply (parent_iff _ _ W). split; [|eapply walk_some; eauto]. intros N. unfold at_ in A. rewrite N, (w_root _ W) in A. discriminate. }
  subst b. split; [exact E|]. exact (proj1 (Ht eq_refl)).
Qed.

(** ** asking *)
Definition count_true (l : list bool) : nat := length (filter (fun b => b) l).
Theorem C128_kinds : forall f w k, wf (disk w) -> at_ (disk w) (fpath f) = Some k -> exists d r l p, f_is_directory f w = Val d /\ f_is_file f w = Val r /\ f_is_link f w = Val l /\ f_is_pipe f w = Val p /\
  count_true [d; r; l; p] = 1%nat /\ (d = true <-> k = KDir) /\ (r = true <-> exists c, holds (disk w) (fpath f) c) /\ (l = true <-> exists t, k = KLink t) /\ (p = true <-> k = KPipe).
Proof.
  intros f w k W A. unfold f_is_directory, f_is_file, f_is_link, f_is_pipe, with_lstat. rewrite (proj2 (lstat_ok _ _ _ W) A). eexists _, _, _, _. do 4 (split; [reflexivity|]).
  assert (R : (exists c, holds (disk w) (fpath f) c) <-> exists i, k = KReg i).
  { split; [intros (c & i & E & _); exists i; congruence|]. intros (i & ->). pose proof (w_data _ W _ _ A) as L. destruct (nth_error (data (disk w)) i) as [c|] eqn:E; [exists c, i; auto|]. apply nth_error_None in E. lia. }
  rewrite R. destruct k; (split; [reflexivity|]); repeat split; try discriminate; try (intros [? [=]]); eauto.
Qed.
(** asked of a path where nothing is, all four look at memory that was never written (and so do remove and compareTo) *)
Theorem C128_kinds_refuted : forall f w, at_ (disk w) (fpath f) = None ->
  f_is_directory f w = UB /\ f_is_file f w = UB /\ f_is_link f w = UB /\ f_is_pipe f w = UB /\ f_remove f w = UB /\ f_list f w = UB /\ forall cmp g, f_compare cmp f g w = UB.
Proof.
  intros f w A. destruct (lstat_absent _ _ A) as [e L]. unfold f_remove, f_list, f_compare, f_is_directory, f_is_file, f_is_link, f_is_pipe, with_lstat. rewrite L. repeat split.
Qed.
(** exists follows links, isFile and the others do not: a link to nothing is a link that does not exist *)
Theorem C128_exists : forall f w k, wf (disk w) -> at_ (disk w) (fpath f) = k -> no_link k -> f_exists f w = true <-> k <> None.
Proof.
  intros f w k W A N. unfold f_exists, stat. destruct (walk (entries (disk w)) [] (fpath f)) eqn:Wk.
  - rewrite (follow_walk _ _ _ _ Wk). split; [discriminate|]. intros E. destruct k; [|congruence]. rewrite (walk_some _ _ _ W A) in Wk. discriminate.
  - rewrite follow_id by (rewrite ?A; auto). rewrite A. destruct k; split; congruence.
Qed.
Theorem C128_exists_link_refuted : forall f w t, wf (disk w) -> at_ (disk w) (fpath f) = Some (KLink t) -> at_ (disk w) t = None -> f_exists f w = false /\ f_is_link f w = Val true.
Proof.
  intros f w t W A B. split; [|unfold f_is_link, with_lstat; now rewrite (proj2 (lstat_ok _ _ _ W) A)].
  assert (Wk : walk (entries (disk w)) [] (fpath f) = None) by (eapply walk_some; eauto). unfold f_exists, stat. unfold at_ in *. change max_links with (S (S 38)). cbn [follow]. rewrite Wk, A. rewrite B. now destruct (walk _ [] t).
Qed.
(** ** listing *)
Lemma fill_same p l : fill p l l = RFiles (map (fun x => p ++ [x]) l).
Proof. unfold fill. rewrite Nat.ltb_irrefl, Nat.sub_diag. cbn. now rewrite app_nil_r. Qed.
Theorem C128_list : forall f w k, wf (disk w) -> at_ (disk w) (fpath f) = Some k ->
  (k <> KDir -> f_list f w = Val RNull) /\
  (k = KDir -> exists l, f_list f w = Val (RFiles ((fpath f ++ [dot]) :: (fpath f ++ [dotdot]) :: l)) /\ NoDup l /\ forall z, In z l <-> (exists x, z = fpath f ++ [x]) /\ at_ (disk w) z <> None).
Proof.
  intros f w k W A. unfold f_list, f_is_directory, with_lstat. rewrite (proj2 (lstat_ok _ _ _ W) A). cbn [bind]. split; [intros N; now destruct k|]. intros ->. cbn [negb]. rewrite fill_same. cbn [map].
  eexists. split; [reflexivity|]. split.
  - pose proof (children_nodup _ (fpath f) (w_names _ W)) as N. revert N. generalize (children (entries (disk w)) (fpath f)). induction l as [|x l IH]; cbn; intros N; [constructor|]. inversion N as [|? ? N1 N2]; subst. constructor; [|auto].
    intros Hin. apply in_map_iff in Hin as (y & E & Hin). apply app_inv_head in E. congruence.
  - intros z. rewrite in_map_iff. unfold at_. split.
    + intros (x & <- & Hin). apply children_in in Hin as [k Hin]. split; [eauto|congruence].
    + intros [(x & ->) N]. exists x. split; [reflexivity|]. apply children_in. destruct (get _ _); [eauto|congruence].
Qed.
(** the two passes over the directory can see different things: a file that appears in between makes it throw, one that disappears leaves a null element *)
Theorem C128_list_race_refuted : forall p first x, fill p first (x :: first) = RThrow /\ fill p (x :: first) first = RFiles (map (fun x => p ++ [x]) first ++ [[[]]]).
Proof.
  intros p l x. unfold fill. cbn [length]. split; [now rewrite (proj2 (Nat.ltb_lt _ _)) by lia|]. rewrite (proj2 (Nat.ltb_ge _ _)) by lia. replace (S (length l) - length l)%nat with 1%nat by lia. reflexivity.
Qed.
(** ** the time of the last change; within one second the order is right *)
Theorem C128_modified_within_second : forall s ns ns', 0 <= ns -> ns <= ns' -> ns' < 1000000000 -> modified_ms s ns <= modified_ms s ns' /\ 0 <= modified_ms s ns - s * 1000 < 1000000.
Proof. intros s ns ns' R L R'. unfold modified_ms. pose proof (Z.div_le_mono ns ns' 1000 ltac:(lia) L). assert (0 <= ns / 1000 < 1000000) by (split; [apply Z.div_pos; lia|apply Z.div_lt_upper_bound; lia]). lia. Qed.
(** the nanoseconds are divided by a thousand, not a million: the answer is up to 999 seconds off, and the later of two times can get the earlier answer *)
Theorem C128_modified_refuted : forall s, (forall ns, 2000000 <= ns < 1000000000 -> modified_ms s ns > s * 1000 + ns / 1000000 + 1) /\ modified_ms s 999999999 - (s * 1000 + 999) = 999000 /\ modified_ms (s + 1) 0 < modified_ms s 999999999.
Proof.
  intros s. unfold modified_ms. split; [|change (999999999 / 1000) with 999999; change (0 / 1000) with 0; lia]. intros ns R. pose proof (Z.div_mod ns 1000 ltac:(lia)). pose proof (Z.mod_pos_bound ns 1000 ltac:(lia)). pose proof (Z.div_mod ns 1000000 ltac:(lia)). pose proof (Z.mod_pos_bound ns 1000000 ltac:(lia)). lia.
Qed.
(** ** ordering: directories first, then by path *)
Definition there (w : world) (f : file) : Prop := at_ (disk w) (fpath f) <> None.
Theorem C128_compare : forall cmp w, wf (disk w) -> (forall p q, Z.sgn (cmp p q) = - Z.sgn (cmp q p)) -> (forall p q r, cmp p q <= 0 -> cmp q r <= 0 -> cmp p r <= 0) ->
  (forall f g, there w f -> there w g -> exists c, f_compare cmp f g w = Val c /\ (forall e, f_compare cmp g f w = Val e -> Z.sgn e = - Z.sgn c) /\ (at_ (disk w) (fpath f) = Some KDir -> at_ (disk w) (fpath g) <> Some KDir -> c < 0)) /\
  forall f g h a b c, there w f -> there w g -> there w h -> f_compare cmp f g w = Val a -> f_compare cmp g h w = Val b -> f_compare cmp f h w = Val c -> a <= 0 -> b <= 0 -> c <= 0.
Proof.
  intros cmp w W An Tr. assert (D : forall f, there w f -> f_is_directory f w = Val (match at_ (disk w) (fpath f) with Some KDir => true | _ => false end)).
  { intros f N. unfold there in N. destruct (at_ (disk w) (fpath f)) as [k|] eqn:A; [|congruence]. unfold f_is_directory, with_lstat. rewrite (proj2 (lstat_ok _ _ _ W) A). now destruct k. }
  split.
  - intros f g Tf Tg. unfold f_compare. rewrite (D f Tf), (D g Tg). cbn [bind]. destruct (at_ (disk w) (fpath f)) as [[]|], (at_ (disk w) (fpath g)) as [[]|]; cbn [Bool.eqb]; eexists; (split; [reflexivity|]); (split; [intros e [= <-]; (reflexivity || apply An)|]); intros; congruence || lia.
  - intros f g h a b c Tf Tg Th. unfold f_compare. rewrite (D f Tf), (D g Tg), (D h Th). cbn [bind]. destruct (match at_ (disk w) (fpath f) with Some KDir => true | _ => false end), (match at_ (disk w) (fpath g) with Some KDir => true | _ => false end), (match at_ (disk w) (fpath h) with Some KDir => true | _ => false end); cbn [Bool.eqb]; intros [= <-] [= <-] [= <-]; try lia; apply Tr.
Qed.
(** ** every sequence of calls *)
Theorem C128_wellformed : forall l w w', wf (disk w) -> nexec_all l w = Val w' -> wf (disk w').
Proof.
  induction l as [|o l IH]; intros w w' W; cbn [nexec_all]; [now intros [= <-]|]. destruct (nexec o w) as [w1| | |] eqn:E; cbn [bind]; try discriminate. apply IH. clear IH w'. destruct o as [p|p|p|p q]; cbn [nexec] in E.
  - injection E as <-. pose proof (C128_make_directory (F p None) w W) as M. destruct (f_make_directory (F p None) w) as [[] w']; cbn [snd]; [apply M; reflexivity|]. destruct M as (_ & _ & M). now rewrite (M eq_refl).
  - destruct (f_create true (F p None) w) as [[[r f] w']| | |] eqn:C; cbn [bind] in E; try discriminate. injection E as <-.
    destruct w as [s hl]. cbn [disk] in *. unfold f_create, fopen in C. cbn [disk fpath] in C. destruct (follow max_links (entries s) p) as [[q k]|e] eqn:Fo; [|injection C as _ _ <-; exact W].
    assert (FA : k = at_ s q /\ walk (entries s) [] q = None). { clear C. revert p Fo. generalize max_links. intros n. induction n as [|n IH]; intros p; cbn [follow]; destruct (walk (entries s) [] p) eqn:Wk; try discriminate; unfold at_; destruct (get (entries s) p) as [[]|] eqn:G; try discriminate; try (intros [= <- <-]; auto). apply IH. }
    destruct FA as [FA Wq]. unfold add_handle in C. cbn [hs] in C.
    assert (Cl : forall i s', f_close true (F p (Some (length hl))) (M_Fs.W s' (hl ++ [Some (H (Some i) 0 MWrite LNone)])) = Val (RUnit, F p None, M_Fs.W s' (hl ++ [None]))).
    { intros i s'. unfold f_close, with_handle. cbn [fh hs fpath disk]. rewrite nth_error_app2, Nat.sub_diag by lia. cbn [nth_error]. now rewrite put_app. }
    destruct k as [[|i|t|]|]; try (injection C as _ _ <-; exact W); rewrite Cl in C; cbn [bind] in C; injection C as _ _ <-; cbn [disk].
    + apply wf_data_only; auto. apply put_len.
    + apply wf_add; auto; [|now rewrite app_length; cbn; lia|intros i [= <-]; rewrite app_length; cbn; lia]. apply (parent_iff _ _ W). split; [|exact Wq]. intros ->. unfold at_ in FA. rewrite (w_root _ W) in FA. discriminate.
  - destruct (f_remove (F p None) w) as [[b w']| | |] eqn:C; cbn [bind] in E; try discriminate. injection E as <-. destruct (at_ (disk w) p) as [k|] eqn:A.
    + destruct (C128_remove (F p None) w k W A) as (b' & w'' & R & _ & T & Fa). rewrite R in C. injection C as -> ->. destruct b; [now apply T|]. now rewrite Fa.
    + destruct (C128_kinds_refuted (F p None) w A) as (_ & _ & _ & _ & R & _). congruence.
  - pose proof (C128_rename (F p None) w q W) as M. destruct (f_rename q (F p None) w) as [[[] f] w']; injection E as <-; [now apply M|]. destruct M as (_ & _ & M). now destruct (M eq_refl) as [_ ->].
Qed.
(** a directory can be "opened" for reading: eOK, and then nothing can be read *)
Theorem C128_open_directory_refuted : forall f w n, wf (disk w) -> at_ (disk w) (fpath f) = Some KDir -> 0 <= n -> exists f' w', f_open MRead f w = Val (RStatus eOK, f', w') /\ f_read n f' w' = Val (RBytes [], w').
Proof.
  intros f w n W A N. unfold f_open, fopen. rewrite (follow_id _ _ _ W (walk_some _ _ _ W A)) by (rewrite A; discriminate). rewrite A. unfold add_handle. eexists _, _. split; [reflexivity|].
  unfold f_read, with_handle. cbn [fh hs]. rewrite nth_error_app2, Nat.sub_diag by lia. cbn [nth_error hmode hino]. now rewrite (proj2 (Z.ltb_ge n 0)) by lia.
Qed.

(** ** a concrete case: /a, /a/b (holding "xy"), /c *)
Definition na : name := [97]. Definition nb : name := [98]. Definition nc : name := [99].
Definition ex0 : world := W (FS [([], KDir)] []) [].
Definition ex_s : fs := FS [([nc], KDir); ([na; nb], KReg 0%nat); ([na], KDir); ([], KDir)] [[120; 121]].
Example ex_wf : wf ex_s.
Proof.
  assert (W0 : wf (FS [([], KDir)] [])). { constructor; cbn [entries data]. - reflexivity. - repeat constructor; auto. - intros p x k. cbn [get]. destruct (peq [] (p ++ [x])) as [E|]; [now destruct p|discriminate]. - intros p i. cbn [get]. now destruct (peq [] p). - intros p q i. cbn [get]. destruct (peq [] p); discriminate. }
  assert (W1 : wf (FS [([na], KDir); ([], KDir)] [])). { apply (wf_add _ [na] KDir [] W0); [exists [], na; split; reflexivity|reflexivity|cbn; lia|discriminate]. }
  assert (W2 : wf (FS [([na; nb], KReg 0%nat); ([na], KDir); ([], KDir)] [[120; 121]])). { apply (wf_add _ [na; nb] (KReg 0) [[120; 121]] W1); [exists [na], nb; split; reflexivity|reflexivity|cbn; lia|intros i [= <-]; cbn; lia]. }
  apply (wf_add _ [nc] KDir [[120; 121]] W2); [exists [], nc; split; reflexivity|reflexivity|cbn; lia|discriminate].
Qed.
Example ex_rename : exists w', f_rename [nc; nb] (F [na] None) (W ex_s []) = (true, F [nc; nb] None, w') /\ at_ (disk w') [nc; nb; nb] = Some (KReg 0%nat) /\ at_ (disk w') [na; nb] = None. Proof. eexists. vm_compute. repeat split. Qed.
Example ex_list : f_list (F [] None) (W ex_s []) = Val (RFiles [[dot]; [dotdot]; [nc]; [na]]). Proof. vm_compute. reflexivity. Qed.
Example ex_remove : fst (match f_remove (F [na] None) (W ex_s []) with Val x => x | _ => (true, ex0) end) = false. Proof. vm_compute. reflexivity. Qed.
Example ex_seq : exists w', nexec_all [NMkdir [na]; NCreate [na; nb]; NMkdir [nc]; NRename [na] [nc; na]; NRemove [nc; na; nb]; NRemove [nc; na]; NRemove [nc]] ex0 = Val w' /\ entries (disk w') = [([], KDir)]. Proof. eexists. vm_compute. split; reflexivity. Qed.
Print Assumptions C128_make_directory.
Print Assumptions C128_remove.
Print Assumptions C128_rename.
Print Assumptions C128_create.
Print Assumptions C128_create_keeps_refuted.
Print Assumptions C128_kinds.
Print Assumptions C128_kinds_refuted.
Print Assumptions C128_exists.
Print Assumptions C128_exists_link_refuted.
Print Assumptions C128_list.
Print Assumptions C128_list_race_refuted.
Print Assumptions C128_modified_within_second.
Print Assumptions C128_modified_refuted.
Print Assumptions C128_compare.
Print Assumptions C128_wellformed.
Print Assumptions C128_open_directory_refuted.
