(** P_LinkedList.v -- C29, C30: LinkedList (src/core/LinkedList.cpp). *)
From Verif Require Import Base M_Undo S_Undo L_Undo L_Undo2 L_Undo3 M_LinkedList S_LinkedList L_LinkedList L_LinkedList2 L_LinkedList3 L_LinkedList4 L_LinkedList5 L_LinkedList6 L_LinkedList7 L_LinkedList8 L_LinkedList9 L_LinkedList10 L_LinkedList11.
Ltac Zify.zify_post_hook ::= Z.to_euclidean_division_equations.
Lemma c29_run N w os fuel : fresh_world N w -> (length os <= N)%nat -> (length os < fuel)%nat -> zlen os < 2 ^ 32 ->
  match lsteps os [] None with
  | Some (rs, l', cp') => exists w' s' es', lexec_all os fuel w ll_new = Val (rs, w', s') /\ i29 N (rc w) w' s' l' cp' es'
  | None => lexec_all os fuel w ll_new = UB
  end.
Proof. intros F HN Hf Hz. apply (lsteps_ok N (rc w) os w ll_new [] None []); [now apply fresh_i29|..]; change (zlen (@nil Z)) with 0; change (2 ^ 32) with 4294967296 in Hz; cbn [ll_new lfresh]; unfold zlen in *; lia. Qed.

(** Every history of calls without an undo manager, starting with an empty list, answers like a sequence with a reading position; where the sequence
    has no answer (next at the end) the behaviour is undefined. Afterwards the forward chain, the backward chain and the count show exactly that
    sequence, exactly one element object is alive per entry, all other elements ever allocated are freed, and no other reference count changed. *)
Theorem C29_history : forall N w os fuel, fresh_world N w -> (length os <= N)%nat -> (length os < fuel)%nat -> zlen os < 2 ^ 32 ->
  match lsteps os [] None with
  | Some (rs, l, _) =>
      exists w' s', lexec_all os fuel w ll_new = Val (rs, w', s') /\ shows w' l /\
        exists ns, NoDup ns /\ length ns = length l /\ (forall e, In e ns -> 2 <= e < lfresh s' /\ rc w' e = 1) /\
          (forall e, 2 <= e < lfresh s' -> ~ In e ns -> rc w' e = 0) /\ (forall o, ~ (2 <= o < lfresh s') -> rc w' o = rc w o)
  | None => lexec_all os fuel w ll_new = UB
  end.
Proof.
  intros N w os fuel F HN Hf Hz. pose proof (c29_run N w os fuel F HN Hf Hz) as R. destruct (lsteps os [] None) as [[[rs l] cp]|]; [|exact R].
  destruct R as (w' & s' & es & E & I). exists w', s'. split; [exact E|]. destruct w' as [c r g]. assert (A := i29_alive _ _ _ _ _ _ _ _ _ I). destruct I as [Re El Iin Iout Ielse _]. split; [rewrite <- El; eapply shows_ok; eauto|].
  cbn [cells rc] in *. pose proof (lr_f _ _ _ _ Re). exists (map fst es). split; [apply Re|]. split; [rewrite <- El, !map_length; reflexivity|].
  split; [intros e He; pose proof (rep_ids _ _ _ _ _ Re He); split; [assumption|apply Iin; [lia|now left]]|]. split; [exact Iout|].
  intros o Ho. destruct (Z_le_dec 2 o) as [K|K]; [destruct (Z_lt_dec o (Z.of_nat N + 2)) as [K2|K2]|]; [|apply Ielse; lia..]. rewrite Iin by (try right; lia). destruct F as (_ & _ & F & _). symmetry. apply F. lia.
Qed.
Print Assumptions C29_history.
(** After every history an iterator made by a LinkedListIterator delivers the sequence in order, seek showing what next will deliver, and nullptr at the end. *)
Theorem C29_iterator : forall N w os fuel rs l cp, fresh_world N w -> (length os <= N)%nat -> (length os < fuel)%nat -> zlen os < 2 ^ 32 -> lsteps os [] None = Some (rs, l, cp) ->
  exists w' s' p, lexec_all os fuel w ll_new = Val (rs, w', s') /\ lit_new w' = Val p /\ it_all p w' (S (length l)) = Val (l, 0).
Proof.
  intros N w os fuel rs l cp F HN Hf Hz Hs. pose proof (c29_run N w os fuel F HN Hf Hz) as R. rewrite Hs in R. destruct R as (w' & s' & es & E & I). exists w', s'. destruct w' as [c r g]. assert (A := i29_alive _ _ _ _ _ _ _ _ _ I). destruct I as [Re El _ _ _ _].
  exists (hd_id es 0). split; [exact E|]. split; [unfold lit_new; apply read_ok; apply Re|]. rewrite <- El. apply (it_all_ok c r g es 0 (S (length (datas es)))); [apply Re|exact A|rewrite map_length; lia].
Qed.
Print Assumptions C29_iterator.
Definition w0 (N : nat) : world := World (repeat 0 (3 * N + 3)) (fun o => if (1 <=? o) && (o <? Z.of_nat N + 2) then 1 else if 100 <=? o then 5 else 0) (fun _ => false).
Lemma w0_fresh N : (N < 90)%nat -> fresh_world N (w0 N).
Proof.
  intros H. split; [reflexivity|]. cbn [w0 rc]. split; [unfold this; replace ((1 <=? 1) && (1 <? Z.of_nat N + 2)) with true by lia; lia|]. split.
  - intros e He. replace ((1 <=? e) && (e <? Z.of_nat N + 2)) with true by lia. reflexivity.
  - intros o. destruct ((1 <=? o) && (o <? Z.of_nat N + 2)); [lia|]. destruct (100 <=? o); lia.
Qed.
Definition h29 := [LAdd 100; LAdd 200; LAddBefore 200 300; LAdd 100; LRewind; LNext; LNext; LRemove 100; LNext; LHasNext; LAddBefore 999 1; LHasNext; LFirst; LLast; LSize].
Example C29_nontrivial : lsteps h29 [] None = Some ([LUnit; LUnit; LUnit; LUnit; LUnit; LObj 100; LObj 300; LBool true; LObj 300; LBool true; LUnit; LBool false; LObj 300; LObj 100; LNum 3], [300; 200; 100], None)
  /\ fresh_world 20 (w0 20) /\ match lexec_all h29 30 (w0 20) ll_new with Val (rs, w, _) => rs = [LUnit; LUnit; LUnit; LUnit; LUnit; LObj 100; LObj 300; LBool true; LObj 300; LBool true; LUnit; LBool false; LObj 300; LObj 100; LNum 3] | _ => False end.
Proof. split; [reflexivity|]. split; [apply w0_fresh; lia|]. vm_compute. reflexivity. Qed.
(** reading past the end is undefined *)
Example C29_past_end : lsteps [LAdd 100; LRewind; LNext; LNext] [] None = None /\ lexec_all [LAdd 100; LRewind; LNext; LNext] 30 (w0 20) ll_new = UB.
Proof. split; reflexivity. Qed.
(** "swapData exchanges two entries" is false without an undo manager: nothing is exchanged. *)
Theorem C29_swap_refuted : ~ forall N w x y fuel, fresh_world N w -> (2 < N)%nat -> (4 < fuel)%nat -> x <> y ->
  exists rs w' s', lexec_all [LAdd x; LAdd y; LSwap x y] fuel w ll_new = Val (rs, w', s') /\ shows w' [y; x].
Proof.
  intros H. destruct (H 20%nat (w0 20) 100 200 30%nat (w0_fresh 20 ltac:(lia)) ltac:(lia) ltac:(lia) ltac:(lia)) as (rs & w' & s' & E & S).
  destruct S as (a & b & Sa & _ & _ & S). destruct (S 5%nat ltac:(cbn [length]; lia)) as [S1 _]. vm_compute in E. injection E as <- <- <-. vm_compute in Sa. injection Sa as <-. vm_compute in S1. discriminate.
Qed.
Print Assumptions C29_swap_refuted.

(** * C30: with an undo manager *)
Definition d0 : ldoc := LDoc [] [] [] None.
Lemma c30_run N w os fuel : fresh_world N w -> (length os <= N)%nat -> (length os < fuel)%nat -> ucosts os d0 < 2 ^ 32 -> Forall (fun o => Forall (client N w) (uop_objs o)) os ->
  exists m' w' s', uexec_all os fuel (set_active true new_um) w ll_new = Val (fst (usteps os d0), m', w', s') /\ shows w' (lnow (snd (usteps os d0))).
Proof.
  intros F HN Hf Hb Ho. destruct (ustart N w F) as [S U]. set (K := fun o => if o =? 1 then 0 else rc w o) in *. change (2 ^ 32) with 4294967296 in Hb. fold d0 in U.
  assert (Ho' : Forall (fun o => Forall (cli N K) (uop_objs o)) os).
  { eapply Forall_impl; [|exact Ho]. intros o. apply Forall_impl. intros x [Hx|[H1 H2]]; [now left|right]. split; [exact H1|]. unfold K. replace (x =? 1) with false by lia. exact H2. }
  destruct (usteps_ok N K os 0 _ d0 _ w ll_new fuel S U) as (m' & w' & s' & d' & n' & E & S' & U'); cbn [ll_new lfresh]; try (unfold zlen; lia); try assumption; try lia.
  exists m', w', s'. split; [exact E|]. destruct w' as [c r g]. destruct (u_cur _ _ _ _ _ U') as (es & O & El). rewrite <- El. destruct (s_w _ _ _ _ _ S') as [Ec _]. cbn [cells] in Ec. subst c. eapply shows_ok; [apply O|eapply sim_alive; [exact S'|exact O]].
Qed.
(** Every history of calls with an active undo manager -- edits of the list mixed with closing steps, undo, redo and forgetting the history -- never
    touches a dead object and answers like the history of sequences: undo returns to the sequence at the beginning of the last step, redo to the one at
    its end, a new edit ends the redos. Afterwards both chains and the count show exactly the present sequence. *)
Theorem C30_history : forall N w os fuel, fresh_world N w -> (length os <= N)%nat -> (length os < fuel)%nat -> ucosts os d0 < 2 ^ 32 -> Forall (fun o => Forall (client N w) (uop_objs o)) os ->
  exists m' w' s', uexec_all os fuel (set_active true new_um) w ll_new = Val (fst (usteps os d0), m', w', s') /\ shows w' (lnow (snd (usteps os d0))).
Proof. exact c30_run. Qed.
Print Assumptions C30_history.

Lemma usteps_app a b d : usteps (a ++ b) d = (fst (usteps a d) ++ fst (usteps b (snd (usteps a d))), snd (usteps b (snd (usteps a d)))).
Proof. revert d. induction a as [|o a IH]; intros d; cbn [usteps app fst snd]; [now rewrite <- surjective_pairing|]. destruct (ustep o d) as [x d1]. rewrite IH. destruct (usteps a d1) as [r d2]. cbn [fst snd app]. now destruct (usteps b d2). Qed.
(** calls on the list itself *)
Definition list_call (o : uop) : bool := match o with UClose | UUndo | URedo | UForget => false | _ => true end.
Lemma list_call_step o d : list_call o = true -> let d' := snd (ustep o d) in d' = d \/ lpast d' = lpast d /\ lfuture d' = [] /\ lbase d' = Some (match lbase d with Some b => b | None => lnow d end).
Proof.
  intros H. destruct o; try discriminate; cbn [ustep snd]; unfold ledit; auto.
  - destruct (index_of x (lnow d)); auto.
  - destruct (index_of x (lnow d)); auto.
  - destruct (reach x y (lnow d)) as [k|]; auto. destruct (last_index_of x (firstn k (lnow d))), (last_index_of y (firstn k (lnow d))); auto.
  - destruct (lnow d) eqn:E; auto.
Qed.
Lemma list_calls_steps es : forall d, forallb list_call es = true -> let d' := snd (usteps es d) in d' = d \/ lpast d' = lpast d /\ lfuture d' = [] /\ lbase d' = Some (match lbase d with Some b => b | None => lnow d end).
Proof.
  induction es as [|o es IH]; intros d H; cbn [usteps]; [now left|]. cbn [forallb] in H. apply andb_prop in H as [H1 H2]. pose proof (list_call_step o d H1) as P. destruct (ustep o d) as [x d1]. specialize (IH d1 H2). destruct (usteps es d1) as [r d2]. cbn [snd] in *.
  destruct P as [P|(P1 & P2 & P3)]; [subst d1; exact IH|]. right. destruct IH as [->|(I1 & I2 & I3)]; [auto|]. rewrite I1, P1, I2, I3, P3. auto.
Qed.
Lemma closed_step d : lbase (snd (ustep UClose d)) = None /\ lnow (snd (ustep UClose d)) = lnow d.
Proof. cbn [ustep snd]. destruct (lbase d) eqn:E; cbn [lbase lnow]; auto. Qed.
(** Whatever happened before, and whatever calls a step consists of, if it changed the list then undo brings back the list before the step and redo the list after it. *)
Theorem C30_undo_redo : forall N w os es fuel, fresh_world N w -> forallb list_call es = true -> let before := os ++ [UClose] in let all := before ++ es ++ [UClose; UUndo; URedo] in
  (length all <= N)%nat -> (length all < fuel)%nat -> ucosts all d0 < 2 ^ 32 -> Forall (fun o => Forall (client N w) (uop_objs o)) all ->
  let l1 := lnow (snd (usteps before d0)) in let l2 := lnow (snd (usteps (before ++ es) d0)) in l1 <> l2 ->
  exists m0 w0 s0, uexec_all (before ++ es) fuel (set_active true new_um) w ll_new = Val (fst (usteps (before ++ es) d0), m0, w0, s0) /\ shows w0 l2 /\
  exists m1 w1 s1, uexec_all [UClose; UUndo] fuel m0 w0 s0 = Val ([LUnit; LBool true], m1, w1, s1) /\ shows w1 l1 /\
  exists m2 w2 s2, uexec_all [URedo] fuel m1 w1 s1 = Val ([LBool true], m2, w2, s2) /\ shows w2 l2.
Proof.
  intros N w os es fuel F He before all HN Hf Hb Ho l1 l2 Ne.
  assert (Ap : forall a b m x s, uexec_all (a ++ b) fuel m x s = let* (r, m, x, s) := uexec_all a fuel m x s in let* (r2, m, x, s) := uexec_all b fuel m x s in Val (r ++ r2, m, x, s)).
  { induction a as [|o a IH]; intros b m x s; cbn [uexec_all app bind].
    - destruct (uexec_all b fuel m x s) as [[[[? ?] ?] ?]| | |]; reflexivity.
    - destruct (uexec o fuel m x s) as [[[[a1 m1] x1] s1]| | |]; try reflexivity. cbn [bind]. rewrite IH. destruct (uexec_all a fuel m1 x1 s1) as [[[[a2 m2] x2] s2]| | |]; try reflexivity. cbn [bind]. destruct (uexec_all b fuel m2 x2 s2) as [[[[a3 m3] x3] s3]| | |]; reflexivity. }
  assert (Cl : forall a b d, ucosts (a ++ b) d = ucosts a d + ucosts b (snd (usteps a d))).
  { induction a as [|o a IH]; intros b d; cbn [app ucosts usteps snd]; [lia|]. rewrite IH. destruct (ustep o d) as [x d1]. cbn [snd]. destruct (usteps a d1) as [r d2]. cbn [snd]. lia. }
  assert (Pre : forall p q, all = p ++ q -> exists m' w' s', uexec_all p fuel (set_active true new_um) w ll_new = Val (fst (usteps p d0), m', w', s') /\ shows w' (lnow (snd (usteps p d0)))).
  { intros p q E. apply (c30_run N w p fuel F); rewrite ?E, ?app_length in *; try lia.
    - rewrite Cl in Hb. pose proof (ucosts_pos q (snd (usteps p d0))). lia.
    - apply Forall_app in Ho. apply Ho. }
  unfold l1 in Ne. unfold before in l1. pose proof (usteps_app os [UClose] d0) as Eb. fold before in Eb. cbn [usteps] in Eb. destruct (closed_step (snd (usteps os d0))) as [Cb Cn]. set (d1 := snd (usteps before d0)) in *.
  assert (Ed1 : d1 = snd (ustep UClose (snd (usteps os d0)))) by (unfold d1; rewrite Eb; destruct (ustep UClose (snd (usteps os d0))); reflexivity). rewrite <- Ed1 in Cb, Cn.
  pose proof (usteps_app before es d0) as E2. fold d1 in E2. set (d2 := snd (usteps (before ++ es) d0)) in *. assert (Ed2 : d2 = snd (usteps es d1)) by (unfold d2; rewrite E2; reflexivity).
  destruct (list_calls_steps es d1 He) as [P|(P1 & P2 & P3)]; [exfalso; apply Ne; unfold l2; rewrite Ed2, P; reflexivity|]. rewrite <- Ed2 in P1, P2, P3. rewrite Cb in P3.
  destruct (Pre (before ++ es) [UClose; UUndo; URedo]) as (m0 & w0 & s0 & R0 & S0); [unfold all; now rewrite app_assoc|].
  exists m0, w0, s0. split; [exact R0|]. split; [exact S0|].
  destruct (Pre ((before ++ es) ++ [UClose; UUndo]) [URedo]) as (m1 & w1 & s1 & R1 & S1); [unfold all; now rewrite <- !app_assoc|].
  rewrite Ap, R0 in R1. cbn [bind] in R1. rewrite (usteps_app (before ++ es) [UClose; UUndo]) in R1, S1. fold d2 in R1, S1. cbn [usteps ustep] in R1, S1. rewrite P3 in R1, S1. cbn [lbase lpast lnow fst snd] in R1, S1.
  destruct (uexec_all [UClose; UUndo] fuel m0 w0 s0) as [[[[r1 m1'] w1'] s1']| | |] eqn:X1; try discriminate. cbn [bind] in R1. injection R1 as Er <- <- <-. apply app_inv_head in Er. subst r1.
  exists m1', w1', s1'. split; [reflexivity|]. split; [exact S1|].
  destruct (Pre (((before ++ es) ++ [UClose; UUndo]) ++ [URedo]) []) as (m2 & w2 & s2 & R2 & S2); [unfold all; now rewrite app_nil_r, <- !app_assoc|].
  rewrite Ap, Ap, R0 in R2. cbn [bind] in R2. rewrite X1 in R2. cbn [bind] in R2. rewrite <- (app_assoc (before ++ es)) in R2, S2. rewrite (usteps_app (before ++ es)) in R2, S2. fold d2 in R2, S2. cbn [app] in R2, S2. cbn [usteps ustep] in R2, S2. rewrite P3 in R2, S2. cbn [lbase lpast lfuture lnow fst snd] in R2, S2.
  destruct (uexec_all [URedo] fuel m1' w1' s1') as [[[[r2 m2'] w2'] s2']| | |] eqn:X2; try discriminate. cbn [bind] in R2. injection R2 as Er <- <- <-. rewrite <- app_assoc in Er. apply app_inv_head in Er. cbn [app] in Er. injection Er as ->.
  exists m2', w2', s2'. split; [reflexivity|exact S2].
Qed.
Print Assumptions C30_undo_redo.
Definition h30 := [UAdd 100; UAdd 200; UClose; UAddBefore 200 300; URemove 100; USwap 300 200; UContents; UClose; UUndo; UContents; URedo; UContents; UUndo; UClear; UClose; USize; UUndo; UContents; UUndo; UUndo; ULast].
Definition r30 := [LUnit; LUnit; LUnit; LUnit; LBool true; LUnit; LAll [200; 300]; LUnit; LBool true; LAll [100; 200]; LBool true; LAll [200; 300]; LBool true; LUnit; LUnit; LNum 0; LBool true; LAll [100; 200]; LBool true; LBool false; LObj 0].
Lemma h30_objs : Forall (fun o => Forall (client 40 (w0 40)) (uop_objs o)) h30.
Proof. repeat (apply Forall_cons || apply Forall_nil); right; cbn; lia. Qed.
Example C30_nontrivial : fresh_world 40 (w0 40) /\ Forall (fun o => Forall (client 40 (w0 40)) (uop_objs o)) h30 /\ ucosts h30 d0 < 2 ^ 32 /\ fst (usteps h30 d0) = r30
  /\ match uexec_all h30 50 (set_active true new_um) (w0 40) ll_new with Val (rs, _, _, _) => rs = r30 | _ => False end.
Proof. split; [apply w0_fresh; lia|]. split; [exact h30_objs|]. split; [vm_compute; reflexivity|]. split; [reflexivity|]. vm_compute. reflexivity. Qed.
(** "Once the history is forgotten only the elements of the list are alive" is false: an element that was added and undone is never freed. *)
Theorem C30_no_leak_refuted : ~ forall N w os fuel, fresh_world N w -> (length os < N)%nat -> (length os + 1 < fuel)%nat -> Forall (fun o => Forall (client N w) (uop_objs o)) os ->
  exists rs m' w' s' l, uexec_all (os ++ [UForget]) fuel (set_active true new_um) w ll_new = Val (rs, m', w', s') /\ shows w' l /\
    exists ns, length ns = length l /\ forall e, 2 <= e < lfresh s' -> rc w' e <> 0 -> In e ns.
Proof.
  intros H. destruct (H 20%nat (w0 20) [UAdd 100; UClose; UUndo] 30%nat) as (rs & m' & w' & s' & l & E & (a & b & Sa & _ & _ & S) & ns & Ln & L).
  - apply w0_fresh; lia.
  - cbn [length]; lia.
  - cbn [length]; lia.
  - repeat (apply Forall_cons || apply Forall_nil); right; cbn; lia.
  - vm_compute in E. injection E as <- <- <- <-. vm_compute in Sa. injection Sa as <-. assert (S1 := S (Datatypes.S (length l)) ltac:(lia)). destruct S1 as [S1 _]. cbn in S1. injection S1 as S1. subst l. destruct ns; [|discriminate]. exact (L 2 ltac:(cbn [lfresh]; lia) ltac:(vm_compute; discriminate)).
Qed.
Print Assumptions C30_no_leak_refuted.
