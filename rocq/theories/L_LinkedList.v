From Verif Require Import Base M_Undo S_Undo L_Undo L_Undo2 L_Undo3 M_LinkedList S_LinkedList.
Ltac Zify.zify_post_hook ::= Z.to_euclidean_division_equations.

(** * cells *)
Definition cset (c : list Z) (l v : Z) : list Z := match lset c l v with Some c => c | None => c end.
Lemma cset_zlen c l v : zlen (cset c l v) = zlen c.
Proof. unfold cset. destruct (lset c l v) eqn:E; [|reflexivity]. eapply lset_zlen; eauto. Qed.
Lemma cset_get c l v j : 0 <= l < zlen c -> lget (cset c l v) j = if j =? l then Some v else lget c j.
Proof. intros H. unfold cset. destruct (lset_range c l v H) as [c' E]. rewrite E. rewrite (lset_get _ _ _ _ _ E). reflexivity. Qed.
Lemma write_ok c r g l v : 0 <= l < zlen c -> write_cell l v (World c r g) = Val (World (cset c l v) r g).
Proof. intros H. unfold write_cell, wr, cset. cbn [cells rc regen]. destruct (lset_range c l v H) as [c' ->]. reflexivity. Qed.
Lemma read_ok c r g l v : lget c l = Some v -> read_cell l (World c r g) = Val v.
Proof. intros H. unfold read_cell, rd. cbn [cells]. now rewrite H. Qed.
Lemma getm_ok c r g e l v : e <> 0 -> 1 <= r e -> lget c l = Some v -> getm e l (World c r g) = Val v.
Proof. intros N A H. unfold getm. cbn [rc]. replace ((e =? 0) || (r e <=? 0)) with false by lia. now apply read_ok. Qed.
Lemma putm_ok c r g e l v : e <> 0 -> 1 <= r e -> 0 <= l < zlen c -> putm e l v (World c r g) = Val (World (cset c l v) r g).
Proof. intros N A H. unfold putm. cbn [rc]. replace ((e =? 0) || (r e <=? 0)) with false by lia. now apply write_ok. Qed.

(** * registering only changes reference counts *)
Record ef := EF { eo : Z; el : Z; evl : Z; eref : bool }.
Definition reg1 (x : ef) (m : option um) (w : world) := if eref x then reg_ref (eo x) (el x) m w else reg_val (eo x) (el x) m w.
Fixpoint regs (xs : list ef) (m : option um) (w : world) : out (option um * world) :=
  match xs with [] => Val (m, w) | x :: xs => let* (m, w) := reg1 x m w in regs xs m w end.
Fixpoint apply_ef (xs : list ef) (c : list Z) : list Z := match xs with [] => c | x :: xs => apply_ef xs (cset c (el x) (evl x)) end.
Lemma apply_zlen xs : forall c, zlen (apply_ef xs c) = zlen c.
Proof. induction xs as [|x xs IH]; intros c; [reflexivity|]. cbn [apply_ef]. rewrite IH. apply cset_zlen. Qed.
Lemma retain_frame o c r g w : retain o (World c r g) = Val w -> exists r', w = World c r' g /\ forall c0, retain o (World c0 r g) = Val (World c0 r' g).
Proof. unfold retain. cbn [rc cells regen]. destruct (r o <=? 0); [discriminate|]. intros E. injection E as <-. eexists. split; reflexivity. Qed.
Lemma release_frame o c r g w : release o (World c r g) = Val w -> exists r', w = World c r' g /\ forall c0, release o (World c0 r g) = Val (World c0 r' g).
Proof. unfold release. cbn [rc cells regen]. destruct (r o <=? 0); [discriminate|]. intros E. injection E as <-. eexists. split; reflexivity. Qed.
Lemma retain_opt_frame o c r g w : retain_opt o (World c r g) = Val w -> exists r', w = World c r' g /\ forall c0, retain_opt o (World c0 r g) = Val (World c0 r' g).
Proof. unfold retain_opt. destruct (o =? 0); [intros E; injection E as <-; eexists; split; reflexivity|apply retain_frame]. Qed.
Lemma release_opt_frame o c r g w : release_opt o (World c r g) = Val w -> exists r', w = World c r' g /\ forall c0, release_opt o (World c0 r g) = Val (World c0 r' g).
Proof. unfold release_opt. destruct (o =? 0); [intros E; injection E as <-; eexists; split; reflexivity|apply release_frame]. Qed.
Lemma delete_change_frame x c r g w : delete_change x (World c r g) = Val w -> exists r', w = World c r' g /\ forall c0, delete_change x (World c0 r g) = Val (World c0 r' g).
Proof.
  unfold delete_change. destruct (c_kind x) as [l v|l v v1 v2 sw| |rl]; cbn [bind]; try apply release_frame.
  destruct (release_opt v1 (World c r g)) as [w1| | |] eqn:E1; try discriminate. destruct (release_opt_frame _ _ _ _ _ E1) as (r1 & -> & F1). cbn [bind].
  destruct (release_opt v2 (World c r1 g)) as [w2| | |] eqn:E2; try discriminate. destruct (release_opt_frame _ _ _ _ _ E2) as (r2 & -> & F2). cbn [bind]. intros E3. destruct (release_frame _ _ _ _ _ E3) as (r3 & -> & F3). exists r3. split; [reflexivity|]. intros c0. rewrite F1. cbn [bind]. rewrite F2. cbn [bind]. apply F3.
Qed.
Lemma delete_all_frame cs : forall c r g w, delete_all cs (World c r g) = Val w -> exists r', w = World c r' g /\ forall c0, delete_all cs (World c0 r g) = Val (World c0 r' g).
Proof.
  induction cs as [|x cs IH]; intros c r g w E; cbn [delete_all] in *; [injection E as <-; eexists; split; reflexivity|].
  destruct (delete_change x (World c r g)) as [w1| | |] eqn:E1; try discriminate. destruct (delete_change_frame _ _ _ _ _ E1) as (r1 & -> & F1). cbn [bind] in E. destruct (IH _ _ _ _ E) as (r2 & -> & F2). exists r2. split; [reflexivity|]. intros c0. rewrite F1. cbn [bind]. apply F2.
Qed.
Lemma delete_steps_frame ss : forall c r g w, delete_steps ss (World c r g) = Val w -> exists r', w = World c r' g /\ forall c0, delete_steps ss (World c0 r g) = Val (World c0 r' g).
Proof.
  induction ss as [|x ss IH]; intros c r g w E; cbn [delete_steps] in *; [injection E as <-; eexists; split; reflexivity|].
  destruct (delete_step x (World c r g)) as [w1| | |] eqn:E1; try discriminate. unfold delete_step in *. destruct (delete_all_frame _ _ _ _ _ E1) as (r1 & -> & F1). cbn [bind] in E. destruct (IH _ _ _ _ E) as (r2 & -> & F2). exists r2. split; [reflexivity|]. intros c0. rewrite F1. cbn [bind]. apply F2.
Qed.
Lemma register_frame x m c r g m' w : register x m (World c r g) = Val (m', w) -> exists r', w = World c r' g /\ forall c0, register x m (World c0 r g) = Val (m', World c0 r' g).
Proof.
  unfold register. destruct (negb (active m)).
  - destruct (delete_change x (World c r g)) as [w1| | |] eqn:E1; try discriminate. destruct (delete_change_frame _ _ _ _ _ E1) as (r1 & -> & F1). cbn [bind]. intros E. injection E as <- <-. exists r1. split; [reflexivity|]. intros c0. rewrite F1. reflexivity.
  - destruct (level m >? 0).
    + intros E. injection E as <- <-. exists r. split; reflexivity.
    + unfold clear_redo. cbn [redoS active open_ current undoS undoN redoN level trans tstatus changed]. destruct (delete_steps (redoS m) (World c r g)) as [w1| | |] eqn:E1; try discriminate. destruct (delete_steps_frame _ _ _ _ _ E1) as (r1 & -> & F1). cbn [bind]. intros E. injection E as <- <-. exists r1. split; [reflexivity|]. intros c0. rewrite F1. reflexivity.
Qed.
Lemma reg1_frame x m c r g m' w : reg1 x (Some m) (World c r g) = Val (m', w) -> exists u r', m' = Some u /\ w = World c r' g /\ forall c0, lget c0 (el x) = lget c (el x) -> reg1 x (Some m) (World c0 r g) = Val (Some u, World c0 r' g).
Proof.
  unfold reg1, reg_ref, reg_val, new_ref, new_val, read_cell, rd. destruct (eref x).
  - destruct (retain (eo x) (World c r g)) as [w1| | |] eqn:E1; try discriminate. destruct (retain_frame _ _ _ _ _ E1) as (r1 & -> & F1). cbn [bind cells]. destruct (lget c (el x)) as [v|] eqn:G; try discriminate. cbn [bind].
    destruct (retain_opt v (World c r1 g)) as [w2| | |] eqn:E2; try discriminate. destruct (retain_opt_frame _ _ _ _ _ E2) as (r2 & -> & F2). cbn [bind].
    destruct (register _ m (World c r2 g)) as [[u w3]| | |] eqn:E3; try discriminate. destruct (register_frame _ _ _ _ _ _ _ E3) as (r3 & -> & F3). cbn [bind]. intros E. injection E as <- <-. exists u, r3. split; [reflexivity|]. split; [reflexivity|]. intros c0 H. rewrite F1. cbn [bind cells]. rewrite H. cbn [bind]. rewrite F2. cbn [bind]. rewrite F3. reflexivity.
  - destruct (retain (eo x) (World c r g)) as [w1| | |] eqn:E1; try discriminate. destruct (retain_frame _ _ _ _ _ E1) as (r1 & -> & F1). cbn [bind cells]. destruct (lget c (el x)) as [v|] eqn:G; try discriminate. cbn [bind].
    destruct (register _ m (World c r1 g)) as [[u w3]| | |] eqn:E3; try discriminate. destruct (register_frame _ _ _ _ _ _ _ E3) as (r3 & -> & F3). cbn [bind]. intros E. injection E as <- <-. exists u, r3. split; [reflexivity|]. split; [reflexivity|]. intros c0 H. rewrite F1. cbn [bind cells]. rewrite H. cbn [bind]. rewrite F3. reflexivity.
Qed.
Lemma reg_release_frame o m c r g m' w : reg_release o (Some m) (World c r g) = Val (m', w) -> exists u r', m' = Some u /\ w = World c r' g /\ forall c0, reg_release o (Some m) (World c0 r g) = Val (Some u, World c0 r' g).
Proof.
  unfold reg_release, new_rel. destruct (retain o (World c r g)) as [w1| | |] eqn:E1; try discriminate. destruct (retain_frame _ _ _ _ _ E1) as (r1 & -> & F1). cbn [bind].
  destruct (register _ m (World c r1 g)) as [[u w3]| | |] eqn:E3; try discriminate. destruct (register_frame _ _ _ _ _ _ _ E3) as (r3 & -> & F3). cbn [bind]. intros E. injection E as <- <-. exists u, r3. split; [reflexivity|]. split; [reflexivity|]. intros c0. rewrite F1. cbn [bind]. rewrite F3. reflexivity.
Qed.

(** * the changes of one call, under the undo manager's refinement *)
Definition op_of (x : ef) : op := if eref x then OSetRef (eo x) (el x) (evl x) else OSet (eo x) (el x) (evl x) 0 4294967295.
Fixpoint fits (c0 c : list Z) (xs : list ef) : Prop := match xs with [] => True | x :: xs => lget c0 (el x) = lget c (el x) /\ fits c0 (cset c (el x) (evl x)) xs end.
Lemma fits_nodup xs : forall c0 c, NoDup (map el xs) -> (forall x, In x xs -> lget c0 (el x) = lget c (el x)) -> Forall (fun x => 0 <= el x < zlen c) xs -> fits c0 c xs.
Proof.
  induction xs as [|x xs IH]; intros c0 c ND H R; [exact Logic.I|]. cbn [map] in ND. inversion ND as [|? ? N1 N2]; subst. inversion R as [|? ? R1 R2]; subst. split; [apply H; now left|]. apply IH; [exact N2| |].
  - intros y Hy. rewrite cset_get by exact R1. destruct (Z.eqb_spec (el y) (el x)) as [E|]; [exfalso; apply N1; rewrite <- E; now apply in_map|]. apply H. now right.
  - eapply Forall_impl; [|exact R2]. intros y Hy. rewrite cset_zlen. exact Hy.
Qed.
(** the value really changes where it is a plain value *)
Definition ef_ok (rs : list Z) (d : doc) (c : list Z) (x : ef) : Prop :=
  owned d (eo x) /\ 0 <= el x < zlen c /\
  if eref x then In (el x) rs /\ (evl x = 0 \/ 1 <= refs (cur d) (evl x)) else ~ In (el x) rs /\ 0 <= evl x <= 4294967295.
Fixpoint changing (c : list Z) (xs : list ef) : Prop := match xs with [] => True | x :: xs => (eref x = false -> lget c (el x) <> Some (evl x)) /\ changing (cset c (el x) (evl x)) xs end.
Lemma edit_edit s1 s2 d : tx d = None -> edit s2 (edit s1 d) = edit s2 d.
Proof. intros T. unfold edit. rewrite T. cbn [tx past cur future base tstat plain]. reflexivity. Qed.
Lemma edit_tx s d : tx d = None -> tx (edit s d) = None. Proof. intros T. unfold edit. now rewrite T. Qed.
Lemma edit_cur s d : cur (edit s d) = s. Proof. unfold edit. destruct (tx d) as [[[? ?] ?]|]; reflexivity. Qed.
Lemma edit_plain s d : plain (edit s d) = plain d. Proof. unfold edit. destruct (tx d) as [[[? ?] ?]|]; reflexivity. Qed.
Lemma edit_owned s d o : refs s = refs (cur d) -> owned d o -> owned (edit s d) o.
Proof. intros R H. unfold owned in *. rewrite edit_plain, edit_cur, R. exact H. Qed.
Lemma exec_ef x m c r g m' w' a : (eref x = false -> exists y, lget c (el x) = Some y /\ y <> evl x /\ 0 <= evl x <= 4294967295) -> exec (op_of x) m (World c r g) = Val (a, m', w') ->
  exists r', reg1 x (Some m) (World c r g) = Val (Some m', World c r' g) /\ write_cell (el x) (evl x) (World c r' g) = Val w'.
Proof.
  intros K E. destruct (reg1 x (Some m) (World c r g)) as [[mm w1]| | |] eqn:R.
  - destruct (reg1_frame _ _ _ _ _ _ _ R) as (u & r1 & -> & -> & _). exists r1. unfold op_of, reg1, reg_ref, reg_val in *. destruct (eref x) eqn:Er.
    + cbn [exec] in E. unfold set_ref in E. destruct (new_ref (eo x) (el x) (World c r g)) as [[ch w2]| | |]; try discriminate. cbn [bind] in *. destruct (register ch m w2) as [[u2 w3]| | |]; try discriminate. cbn [bind] in *. injection R as -> ->. destruct (write_cell (el x) (evl x) (World c r1 g)) as [w4| | |]; try discriminate. cbn [bind] in E. injection E as _ <- <-. auto.
    + destruct (K eq_refl) as (y & Gy & Ne & Rg). cbn [exec] in E. unfold set_member in E. rewrite (read_ok _ _ _ _ _ Gy) in E. cbn [bind] in E. replace (evl x =? y) with false in E by lia. replace ((0 <=? evl x) && (evl x <=? 4294967295)) with true in E by lia. cbn [negb] in E.
      destruct (new_val (eo x) (el x) (World c r g)) as [[ch w2]| | |]; try discriminate. cbn [bind] in *. destruct (register ch m w2) as [[u2 w3]| | |]; try discriminate. cbn [bind] in *. injection R as -> ->. destruct (write_cell (el x) (evl x) (World c r1 g)) as [w4| | |]; try discriminate. cbn [bind] in E. injection E as _ <- <-. auto.
  - exfalso. unfold op_of, reg1, reg_ref, reg_val in *. destruct (eref x) eqn:Er.
    + cbn [exec] in E. unfold set_ref in E. destruct (new_ref (eo x) (el x) (World c r g)) as [[ch w2]| | |]; try discriminate. cbn [bind] in *. destruct (register ch m w2) as [[u2 w3]| | |]; discriminate.
    + destruct (K eq_refl) as (y & Gy & Ne & Rg). cbn [exec] in E. unfold set_member in E. rewrite (read_ok _ _ _ _ _ Gy) in E. cbn [bind] in E. replace (evl x =? y) with false in E by lia. replace ((0 <=? evl x) && (evl x <=? 4294967295)) with true in E by lia. cbn [negb] in E.
      destruct (new_val (eo x) (el x) (World c r g)) as [[ch w2]| | |]; try discriminate. cbn [bind] in *. destruct (register ch m w2) as [[u2 w3]| | |]; discriminate.
  - exfalso. unfold op_of, reg1, reg_ref, reg_val in *. destruct (eref x) eqn:Er.
    + cbn [exec] in E. unfold set_ref in E. destruct (new_ref (eo x) (el x) (World c r g)) as [[ch w2]| | |]; try discriminate. cbn [bind] in *. destruct (register ch m w2) as [[u2 w3]| | |]; discriminate.
    + destruct (K eq_refl) as (y & Gy & Ne & Rg). cbn [exec] in E. unfold set_member in E. rewrite (read_ok _ _ _ _ _ Gy) in E. cbn [bind] in E. replace (evl x =? y) with false in E by lia. replace ((0 <=? evl x) && (evl x <=? 4294967295)) with true in E by lia. cbn [negb] in E.
      destruct (new_val (eo x) (el x) (World c r g)) as [[ch w2]| | |]; try discriminate. cbn [bind] in *. destruct (register ch m w2) as [[u2 w3]| | |]; discriminate.
  - exfalso. unfold op_of, reg1, reg_ref, reg_val in *. destruct (eref x) eqn:Er.
    + cbn [exec] in E. unfold set_ref in E. destruct (new_ref (eo x) (el x) (World c r g)) as [[ch w2]| | |]; try discriminate. cbn [bind] in *. destruct (register ch m w2) as [[u2 w3]| | |]; discriminate.
    + destruct (K eq_refl) as (y & Gy & Ne & Rg). cbn [exec] in E. unfold set_member in E. rewrite (read_ok _ _ _ _ _ Gy) in E. cbn [bind] in E. replace (evl x =? y) with false in E by lia. replace ((0 <=? evl x) && (evl x <=? 4294967295)) with true in E by lia. cbn [negb] in E.
      destruct (new_val (eo x) (el x) (World c r g)) as [[ch w2]| | |]; try discriminate. cbn [bind] in *. destruct (register ch m w2) as [[u2 w3]| | |]; discriminate.
Qed.
Lemma do_op_ef x d : 0 <= el x < zlen (vals (cur d)) -> (eref x = false -> lget (vals (cur d)) (el x) <> Some (evl x) /\ 0 <= evl x <= 4294967295) ->
  snd (do_op (op_of x) d) = edit (Snap (cset (vals (cur d)) (el x) (evl x)) (refs (cur d))) d.
Proof.
  intros Rg K. unfold op_of. destruct (eref x) eqn:Er; cbn [do_op snd]; [reflexivity|]. destruct (K eq_refl) as [Ne B]. destruct (lget_range _ _ Rg) as [y G]. rewrite G in *.
  destruct (Z.eqb_spec y (evl x)) as [->|]; [contradiction|]. replace ((0 <=? evl x) && (evl x <=? 4294967295)) with true by lia. reflexivity.
Qed.
Lemma edits_ok rs xs : forall n d m c0 r g, sim rs n d m (World (vals (cur d)) r g) -> tx d = None -> 0 <= n -> n + zlen xs < 4294967296 -> Forall (ef_ok rs d (vals (cur d))) xs -> changing (vals (cur d)) xs -> fits c0 (vals (cur d)) xs ->
  exists m' r' d', regs xs (Some m) (World c0 r g) = Val (Some m', World c0 r' g) /\ sim rs (n + zlen xs) d' m' (World (apply_ef xs (vals (cur d))) r' g) /\
    (xs = [] /\ d' = d \/ xs <> [] /\ d' = edit (Snap (apply_ef xs (vals (cur d))) (refs (cur d))) d).
Proof.
  induction xs as [|x xs IH]; intros n d m c0 r g S T Hn Hb F Ch Ft; cbn [regs apply_ef].
  - exists m, r, d. change (zlen (@nil ef)) with 0. rewrite Z.add_0_r. auto.
  - rewrite zlen_cons in *. pose proof (zlen_nonneg xs). inversion F as [|? ? Fx Fs]; subst. destruct Ch as [Cx Cs]. destruct Ft as [Fe Fts]. destruct Fx as (Ow & Rg & Kx).
    assert (A : allowed rs (op_of x) d) by (unfold op_of; destruct (eref x); cbn [allowed]; tauto).
    destruct (exec_ok rs n d m _ (op_of x) S ltac:(lia) A) as (m1 & w1 & E & S1).
    rewrite do_op_ef in S1; [|exact Rg|intros Er; rewrite Er in Kx; split; [now apply Cx|tauto]].
    apply exec_ef in E; [|intros Er; rewrite Er in Kx; destruct (lget_range _ _ Rg) as [y G]; exists y; split; [exact G|]; split; [intros ->; exact (Cx Er G)|tauto]].
    destruct E as (r1 & E & W1). rewrite write_ok in W1 by exact Rg. injection W1 as <-.
    destruct (reg1_frame _ _ _ _ _ _ _ E) as (u & r2 & E1 & E2 & E3). injection E1 as <-. injection E2 as <-. rewrite (E3 c0 Fe). cbn [bind].
    set (d1 := edit (Snap (cset (vals (cur d)) (el x) (evl x)) (refs (cur d))) d) in *.
    assert (V1 : vals (cur d1) = cset (vals (cur d)) (el x) (evl x)) by (unfold d1; rewrite edit_cur; reflexivity).
    destruct (IH (n + 1) d1 m1 c0 r1 g) as (m' & r' & d' & R' & S' & D').
    + rewrite V1. exact S1.
    + unfold d1. now apply edit_tx.
    + lia.
    + lia.
    + rewrite V1. eapply Forall_impl; [|exact Fs]. intros y (O1 & O2 & O3). unfold ef_ok. rewrite cset_zlen. unfold d1. rewrite edit_cur. split; [apply edit_owned; auto|]. split; [exact O2|exact O3].
    + rewrite V1. exact Cs.
    + rewrite V1. exact Fts.
    + rewrite V1 in *. exists m', r', d'. split; [exact R'|]. split; [replace (n + (1 + zlen xs)) with (n + 1 + zlen xs) by lia; exact S'|]. right. split; [discriminate|].
      destruct D' as [[-> ->]|[_ ->]]; [reflexivity|]. unfold d1. rewrite edit_cur. cbn [refs]. apply edit_edit. exact T.
Qed.
Lemma release_ok rs n d m c0 r g e : sim rs n d m (World (vals (cur d)) r g) -> tx d = None -> 0 <= n -> n + 1 < 4294967296 -> allowed rs (ORelease e) d ->
  exists m' r' r'', reg_release e (Some m) (World c0 r g) = Val (Some m', World c0 r' g) /\ (forall c, release e (World c r' g) = Val (World c r'' g)) /\
    sim rs (n + 1) (edit (add_ref (cur d) e (-1)) d) m' (World (vals (cur d)) r'' g).
Proof.
  intros S T Hn Hb A. destruct (exec_ok rs n d m _ (ORelease e) S ltac:(lia) A) as (m1 & w1 & E & S1). cbn [exec do_op snd fst] in *. unfold undoable_release in E.
  destruct (reg_release e (Some m) (World (vals (cur d)) r g)) as [[mm w2]| | |] eqn:R; [|unfold reg_release in R; destruct (new_rel e true _) as [[ch w3]| | |]; try discriminate; cbn [bind] in *; destruct (register ch m w3) as [[u w4]| | |]; discriminate..].
  destruct (reg_release_frame _ _ _ _ _ _ _ R) as (u & r1 & -> & -> & F). unfold reg_release in R. destruct (new_rel e true _) as [[ch w3]| | |]; try discriminate; cbn [bind] in *; destruct (register ch m w3) as [[u2 w4]| | |]; try discriminate. cbn [bind] in *. injection R as -> ->.
  destruct (release e (World (vals (cur d)) r1 g)) as [w5| | |] eqn:E5; try discriminate. destruct (release_frame _ _ _ _ _ E5) as (r2 & -> & F2). cbn [bind] in E. injection E as <- <-. exists u, r1, r2. split; [apply F|]. split; [exact F2|exact S1].
Qed.
