(** P_Diff.v -- C41-C43: edit distance and edit script of two sequences of objects (DiffDistance / DiffDiag / DiffBacktrace). *)
From Verif Require Import Base M_Diff S_Diff L_Diff.
Section P.
Context (eq : Z -> Z -> bool) (sym : forall x y, eq x y = eq y x).
(** enough steps for the lazy evaluation *)
Definition enough (u v : list Z) (fuel : nat) : Prop := (zlen u + zlen v + 1) * (zlen u + zlen v + 1) <= Z.of_nat fuel.
Lemma solved u v fuel : Z.min (zlen u) (zlen v) < 2^31 -> enough u v fuel -> exists d steps, solve eq u v fuel = Val (d, DStep DStart None None :: steps) /\ least_cost eq d u v /\
    script eq (map d_op steps) u v /\ changes (map d_op steps) = d /\ rep u v steps.
Proof. intros. now apply solve_main. Qed.
(** C41: solve ends and the distance is the least number of insertions, deletions and replacements *)
Theorem C41_distance u v fuel : Z.min (zlen u) (zlen v) < 2^31 -> enough u v fuel -> exists d trace, solve eq u v fuel = Val (d, trace) /\ least_cost eq d u v.
Proof. intros A B. destruct (solved u v fuel A B) as (d & s & E & L & _). eauto. Qed.
Lemma edits_nonneg c a b : edits eq c a b -> 0 <= c. Proof. clear sym. induction 1; lia. Qed.
Lemma edits_flip c a b : edits eq c a b -> edits eq c b a.
Proof. induction 1; try (now constructor). constructor; [now rewrite sym|assumption]. Qed.
(** C41: the order of the two sequences does not matter *)
Theorem C41_symmetric u v fuel d t d' t' : Z.min (zlen u) (zlen v) < 2^31 -> enough u v fuel -> solve eq u v fuel = Val (d, t) -> solve eq v u fuel = Val (d', t') -> d = d'.
Proof.
  intros A B E E'. destruct (C41_distance u v fuel A B) as (d1 & t1 & E1 & L1 & M1). destruct (C41_distance v u fuel ltac:(lia) ltac:(unfold enough in *; lia)) as (d2 & t2 & E2 & L2 & M2).
  rewrite E in E1. injection E1 as <- _. rewrite E' in E2. injection E2 as <- _. apply edits_flip in L1, L2. specialize (M1 _ L2). specialize (M2 _ L1). lia.
Qed.
(** C41: distance zero exactly for sequences equal element by element *)
Theorem C41_zero u v fuel : Z.min (zlen u) (zlen v) < 2^31 -> enough u v fuel -> (exists t, solve eq u v fuel = Val (0, t)) <-> Forall2 (fun x y => eq x y = true) u v.
Proof.
  intros A B. destruct (C41_distance u v fuel A B) as (d & t & E & L & M). split.
  - intros [t' E']. rewrite E in E'. injection E' as -> ->. clear M E. remember 0 as z eqn:Hz. revert Hz. clear A B. induction L as [|c x y a b Q H IH|c x y a b H IH|c y a b H IH|c x a b H IH]; intros Hz; try (apply edits_nonneg in H; lia); constructor; auto.
  - intros F. assert (H : edits eq 0 u v) by (clear - F; induction F; now constructor). specialize (M _ H). apply edits_nonneg in L. replace d with 0 in * by lia. eauto.
Qed.
(** C41: triangle inequality, when equals is transitive: the distance is a metric on sequences *)
Lemma edits_trans (trans : forall x y z, eq x y = true -> eq y z = true -> eq x z = true) c a b : edits eq c a b -> forall c' e, edits eq c' b e -> exists c'', edits eq c'' a e /\ c'' <= c + c'.
Proof. clear sym.
  induction 1 as [|c x y a b Q H IH|c x y a b H IH|c y a b H IH|c x a b H IH]; intros c' e H'.
  - exists c'. split; [exact H'|lia].
  - remember (y :: b) as yb eqn:Hy. revert y b Hy Q H IH. induction H' as [|c' x' y' a' b' Q' H' IH'|c' x' y' a' b' H' IH'|c' y' a' b' H' IH'|c' x' a' b' H' IH']; intros y b Hy Q H IH; try discriminate.
    + injection Hy as -> ->. destruct (IH _ _ H') as (c2 & E & L). exists c2. split; [|lia]. apply e_keep; eauto.
    + injection Hy as -> ->. destruct (IH _ _ H') as (c2 & E & L). exists (c2 + 1). split; [|lia]. now apply e_subst.
    + destruct (IH' _ _ Hy Q H IH) as (c2 & E & L). exists (c2 + 1). split; [|lia]. now apply e_ins.
    + injection Hy as -> ->. destruct (IH _ _ H') as (c2 & E & L). exists (c2 + 1). split; [|lia]. now apply e_del.
  - remember (y :: b) as yb eqn:Hy. revert y b Hy H IH. induction H' as [|c' x' y' a' b' Q' H' IH'|c' x' y' a' b' H' IH'|c' y' a' b' H' IH'|c' x' a' b' H' IH']; intros y b Hy H IH; try discriminate.
    + injection Hy as -> ->. destruct (IH _ _ H') as (c2 & E & L). exists (c2 + 1). split; [|lia]. now apply e_subst.
    + injection Hy as -> ->. destruct (IH _ _ H') as (c2 & E & L). exists (c2 + 1). split; [|lia]. now apply e_subst.
    + destruct (IH' _ _ Hy H IH) as (c2 & E & L). exists (c2 + 1). split; [|lia]. now apply e_ins.
    + injection Hy as -> ->. destruct (IH _ _ H') as (c2 & E & L). exists (c2 + 1). split; [|lia]. now apply e_del.
  - remember (y :: b) as yb eqn:Hy. revert y b Hy H IH. induction H' as [|c' x' y' a' b' Q' H' IH'|c' x' y' a' b' H' IH'|c' y' a' b' H' IH'|c' x' a' b' H' IH']; intros y b Hy H IH; try discriminate.
    + injection Hy as -> ->. destruct (IH _ _ H') as (c2 & E & L). exists (c2 + 1). split; [|lia]. now apply e_ins.
    + injection Hy as -> ->. destruct (IH _ _ H') as (c2 & E & L). exists (c2 + 1). split; [|lia]. now apply e_ins.
    + destruct (IH' _ _ Hy H IH) as (c2 & E & L). exists (c2 + 1). split; [|lia]. now apply e_ins.
    + injection Hy as -> ->. destruct (IH _ _ H') as (c2 & E & L). exists c2. split; [|lia]. exact E.
  - destruct (IH _ _ H') as (c2 & E & L). exists (c2 + 1). split; [|lia]. now apply e_del.
Qed.
Theorem C41_triangle (trans : forall x y z, eq x y = true -> eq y z = true -> eq x z = true) u v w fuel d1 t1 d2 t2 d3 t3 :
  Z.max (zlen u) (Z.max (zlen v) (zlen w)) < 2^31 -> enough u v fuel -> enough v w fuel -> enough u w fuel ->
  solve eq u v fuel = Val (d1, t1) -> solve eq v w fuel = Val (d2, t2) -> solve eq u w fuel = Val (d3, t3) -> d3 <= d1 + d2.
Proof.
  intros A B1 B2 B3 E1 E2 E3. destruct (C41_distance u v fuel ltac:(lia) B1) as (? & ? & F1 & L1 & _). destruct (C41_distance v w fuel ltac:(lia) B2) as (? & ? & F2 & L2 & _). destruct (C41_distance u w fuel ltac:(lia) B3) as (? & ? & F3 & _ & M3).
  rewrite E1 in F1. rewrite E2 in F2. rewrite E3 in F3. injection F1 as <- _. injection F2 as <- _. injection F3 as <- _. destruct (edits_trans trans _ _ _ L1 _ _ L2) as (c & Ec & Lc). specialize (M3 _ Ec). lia.
Qed.
(** C42: the trace starts with the start mark, its operations turn the first sequence into the second and the number of changes is the distance *)
Theorem C42_script u v fuel : Z.min (zlen u) (zlen v) < 2^31 -> enough u v fuel -> exists d steps, solve eq u v fuel = Val (d, DStep DStart None None :: steps) /\
  script eq (map d_op steps) u v /\ changes (map d_op steps) = d /\ forall os, script eq os u v -> d <= changes os.
Proof.
  intros A B. destruct (solved u v fuel A B) as (d & s & E & L & S1 & S2 & _). exists d, s. repeat split; auto. intros os So. apply (proj2 L). clear - So.
  assert (C : forall o os, changes (o :: os) = (if is_change o then 1 else 0) + changes os) by (intros o os'; unfold changes; cbn [filter]; destruct (is_change o); rewrite ?zlen_cons; lia).
  induction So; rewrite ?C; cbn [is_change]; [constructor|now apply e_keep| | |]; rewrite Z.add_comm; now constructor.
Qed.
(** C43: which objects the n-th step reports: an addition or deletion carries the element of the second sequence when at least as many elements of it have been
    passed as of the first, and the element of the first sequence otherwise; a modification carries both, exchanged in the latter case *)
Theorem C43_objects u v fuel : Z.min (zlen u) (zlen v) < 2^31 -> enough u v fuel -> exists d steps, solve eq u v fuel = Val (d, DStep DStart None None :: steps) /\
  forall n s, nth_error steps n = Some s -> let before := map d_op (firstn (Datatypes.S n) steps) in reported u v (rows_of before) (cols_of before) s.
Proof. intros A B. destruct (solved u v fuel A B) as (d & s & E & _ & _ & _ & R). exists d, s. split; [exact E|exact R]. Qed.
(** C43 as one would expect it *)
Definition reports_right (u v : list Z) (i j : Z) (s : dstep) : Prop :=
  match d_op s with
  | DStart | DEqual => True
  | DModified => d_obj1 s = lget u (i - 1) /\ d_obj2 s = lget v (j - 1)
  | DAdd => d_obj1 s = lget v (j - 1)
  | DDelete => d_obj1 s = lget u (i - 1)
  end.
Definition all_right (u v : list Z) (steps : list dstep) : Prop :=
  forall n s, nth_error steps n = Some s -> let before := map d_op (firstn (Datatypes.S n) steps) in reports_right u v (rows_of before) (cols_of before) s.
(** C43: it holds on the prefixes where it can: additions with i <= j, deletions with i > j, modifications with i <= j *)
Theorem C43_right_side u v fuel : Z.min (zlen u) (zlen v) < 2^31 -> enough u v fuel -> exists d steps, solve eq u v fuel = Val (d, DStep DStart None None :: steps) /\
  forall n s, nth_error steps n = Some s -> let before := map d_op (firstn (Datatypes.S n) steps) in
    match d_op s with DAdd | DModified => rows_of before <= cols_of before | DDelete => cols_of before < rows_of before | _ => True end -> reports_right u v (rows_of before) (cols_of before) s.
Proof.
  intros A B. destruct (C43_objects u v fuel A B) as (d & s & E & R). exists d, s. split; [exact E|]. intros n t Hn before Hb. specialize (R n t Hn). cbv zeta in R. fold before in R. unfold reported, reports_right in *.
  destruct (d_op t); try exact I.
  - replace (rows_of before <=? cols_of before) with true in R by lia. tauto.
  - replace (rows_of before <=? cols_of before) with false in R by lia. tauto.
  - replace (rows_of before <=? cols_of before) with true in R by lia. tauto.
Qed.
End P.
(** C43 is false: an addition reports an element of the wrong sequence *)
Theorem C43_add_refuted : exists u v d steps, solve Z.eqb u v 200 = Val (d, DStep DStart None None :: steps) /\ ~ all_right u v steps.
Proof.
  exists [1;2;3;4;5;9], [3;4;6;5], 4. eexists. split; [vm_compute; reflexivity|]. intros H. specialize (H 4%nat _ eq_refl). vm_compute in H. discriminate.
Qed.
(** C43 is false: a modification has the two objects exchanged *)
Theorem C43_modified_refuted : exists u v d steps, solve Z.eqb u v 200 = Val (d, DStep DStart None None :: steps) /\ map d_op steps = [DDelete; DEqual; DModified] /\ ~ all_right u v steps.
Proof.
  exists [1;2;3], [2;7], 2. eexists. split; [vm_compute; reflexivity|]. split; [reflexivity|]. intros H. specialize (H 2%nat _ eq_refl). vm_compute in H. destruct H. discriminate.
Qed.
(** C41 needs a symmetric equals *)
Theorem C41_asymmetric_refuted : exists eq u v d t, solve eq u v 200 = Val (d, t) /\ ~ least_cost eq d u v.
Proof.
  exists (fun a b => (a =? 1) && (b =? 2))%bool, [5;1], [2], 2. eexists. split; [vm_compute; reflexivity|]. intros [_ H]. assert (E : edits (fun a b => (a =? 1) && (b =? 2))%bool 1 [5;1] [2]) by (apply (e_del _ 0); apply e_keep; [reflexivity|constructor]). specialize (H _ E). lia.
Qed.
(** the hypotheses are met: kitten / sitting *)
Example diff_ex : enough [11;9;20;20;5;14] [19;9;20;20;9;14;7] 200 /\ (exists t, solve Z.eqb [11;9;20;20;5;14] [19;9;20;20;9;14;7] 200 = Val (3, t) /\ map d_op t = [DStart; DModified; DEqual; DEqual; DEqual; DModified; DEqual; DAdd]).
Proof. split; [vm_compute; discriminate|]. eexists. split; vm_compute; reflexivity. Qed.
Example diff_ex2 : exists t, solve Z.eqb [] [1;2] 200 = Val (2, t). Proof. eexists. vm_compute. reflexivity. Qed.
Print Assumptions C41_distance. Print Assumptions C41_symmetric. Print Assumptions C41_zero. Print Assumptions C41_triangle. Print Assumptions C42_script.
Print Assumptions C43_objects. Print Assumptions C43_right_side. Print Assumptions C43_add_refuted. Print Assumptions C43_modified_refuted. Print Assumptions C41_asymmetric_refuted.
