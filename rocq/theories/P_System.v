(** P_System.v -- C133: settings across the sessions of a program. *)
From Coq Require Import Permutation.
From Verif Require Import L_Utf8.
From Verif Require Import Base M_String M_Hashtable M_Preferences S_String S_Utf8 S_Tokenizer S_Integer S_Hashtable S_Preferences M_System S_System.
From Verif Require Import L_String L_Preferences L_Preferences2 L_Preferences3 L_Preferences4 L_Preferences5 L_Preferences6 P_Preferences.
(** * maps with the same lookups *)
Definition same_map (m m' : settings) : Prop := forall k, lookup m k = lookup m' k.
Lemma store_same m m' k v : same_map m m' -> same_map (store m k v) (store m' k v).
Proof. intros H x. unfold store. rewrite !lookup_update. destruct (text_dec k x); [reflexivity|apply H]. Qed.
Lemma pspec_same o m m' : on_map o -> same_map m m' -> fst (pspec o m) = fst (pspec o m') /\ same_map (snd (pspec o m)) (snd (pspec o m')).
Proof. intros O H. destruct o; cbn [on_map] in O; try contradiction; cbn [pspec fst snd]; rewrite ?H; split; try reflexivity; try exact H; now apply store_same. Qed.
Lemma pfits_same o m m' : on_map o -> same_map m m' -> pfits o m -> pfits o m'.
Proof. intros O H. destruct o; cbn [on_map] in O; try contradiction; cbn [pfits]; rewrite ?H; auto. Qed.
Lemma update_nodup m k v : NoDup (map fst m) -> NoDup (map fst (update m k v)).
Proof.
  intros N. unfold update. cbn [map fst]. constructor.
  - intros I. apply in_map_iff in I as (r & E & I). apply filter_In in I as [_ I]. destruct (text_dec (fst r) k); [discriminate|contradiction].
  - induction m as [|r m IH]; [constructor|]. cbn [map] in N. inversion N as [|? ? N1 N2]; subst. cbn [filter]. destruct (text_dec (fst r) k); [auto|]. cbn [map]. constructor; [|auto]. intros I. apply N1. apply in_map_iff in I as (x & E & I). apply filter_In in I as [I _]. rewrite <- E. now apply in_map.
Qed.
Lemma pspec_nodup o m : on_map o -> NoDup (map fst m) -> NoDup (map fst (snd (pspec o m))).
Proof. intros O N. destruct o; cbn [on_map] in O; try contradiction; cbn [pspec snd]; auto; now apply update_nodup. Qed.
Lemma lookup_some_in m k v : lookup m k = Some v -> In (k, v) m.
Proof. induction m as [|[k' v'] m IH]; intros E; [discriminate|]. cbn [lookup] in E. destruct (text_dec k' k) as [->|]; [injection E as ->; now left|right; auto]. Qed.
Lemma same_perm m m' : NoDup (map fst m) -> NoDup (map fst m') -> same_map m m' -> Permutation m m'.
Proof.
  intros N N' H. apply NoDup_Permutation; [now apply NoDup_map_inv in N|now apply NoDup_map_inv in N'|]. intros [k v]. split; intros I.
  - apply lookup_some_in. rewrite <- H. now apply lookup_in.
  - apply lookup_some_in. rewrite H. now apply lookup_in.
Qed.
Lemma bytes_perm (a b : list (list Z)) : Permutation a b -> zlen (bytes_of (concat a)) = zlen (bytes_of (concat b)).
Proof. induction 1; cbn [concat]; rewrite ?bytes_app, ?zlen_app; lia. Qed.
Lemma file_perm m m' : Permutation m m' -> zlen (file_of m) = zlen (file_of m').
Proof.
  intros P. unfold file_of, file_lines. apply bytes_perm. etransitivity; [apply (proj2 (sort_lines_ok (map line_of m)))|]. etransitivity; [apply Permutation_map, P|]. apply Permutation_sym, (proj2 (sort_lines_ok (map line_of m'))).
Qed.
Lemma survives_perm m m' : Permutation m m' -> survives m -> survives m'.
Proof.
  intros P (A & B & C & D). unfold survives. rewrite <- (file_perm _ _ P).
  assert (K : forall Q : list Z * list Z -> Prop, Forall Q m -> Forall Q m') by (intros Q F; rewrite Forall_forall in *; intros r I; apply F; eapply Permutation_in; [apply Permutation_sym, P|exact I]). auto.
Qed.
Lemma pinv_nodup p m K : pinv p m K -> NoDup (map fst m).
Proof. intros (b & mz & St). eapply pstate_nodup; eauto. Qed.
(** * the state *)
Section Run.
Context (fuel : nat).
Definition loads (bytes : list Z) (m : settings) : Prop :=
  zlen bytes < 2 ^ 31 /\ exists q mq, load prefs_new bytes fuel = Val q /\ pinv q mq (zlen bytes) /\ same_map mq m.
Definition agree (n : Z) (d : disk) (s : sysst) (w : world) : Prop :=
  (forall b, b <> [] -> match d b with Some bytes => loads bytes (kept w b) | None => kept w b = [] end) /\ (forall b, NoDup (map fst (kept w b))) /\
  g_charsets s = negb (over w) /\
  match g_prefs s, running w with
  | None, None => True
  | Some (p, b), Some (m, b') => b = b' /\ b <> [] /\ NoDup (map fst m) /\ exists mq K, pinv p mq K /\ 0 <= K <= 2 ^ 31 + n /\ same_map mq m
  | _, _ => False
  end.
Lemma saves p m mq K : pinv p mq K -> 0 <= K < 2 ^ 58 -> 3 * K + 8 < Z.of_nat fuel -> 2 ^ 31 < Z.of_nat fuel -> NoDup (map fst m) -> same_map mq m -> survives m -> exists bytes, save p fuel = Val bytes /\ loads bytes m.
Proof.
  intros I HK Hf Hf2 N Sm Sv. pose proof (same_perm mq m (pinv_nodup _ _ _ I) N Sm) as Pm. apply (survives_perm m mq (Permutation_sym Pm)) in Sv as (A & B & C & D).
  destruct (round_trip p mq K fuel I) as (q & mq' & Es & El & Iq & Lq); auto; [lia|lia|change (2 ^ 31) with 2147483648 in *; lia|].
  exists (file_of mq). split; [exact Es|]. split; [exact D|]. exists q, mq'. split; [exact El|]. split; [exact Iq|]. intros k. rewrite Lq, <- Sm.
  destruct (lookup mq k) as [v|] eqn:E; [|reflexivity]. cbn [option_map]. f_equal. apply grow_never. apply lookup_some_in in E. rewrite Forall_forall in B. exact (B _ E).
Qed.
Lemma agree_keep n d s w : agree n d s w -> 0 <= n < 2 ^ 57 -> 3 * (2 ^ 31 + n) + 8 < Z.of_nat fuel -> match running w with Some (m, _) => survives m | None => True end ->
  exists d', save_preferences fuel d s = Val d' /\ agree n d' s (keep w).
Proof.
  intros (A & B & G0 & C) Hn Hf Sv. unfold save_preferences, keep. destruct (g_prefs s) as [[p b]|] eqn:G, (running w) as [[m b']|] eqn:R; try contradiction.
  - destruct C as (<- & Nb & N & mq & K & I & HK & Sm). change (2 ^ 31) with 2147483648 in *. change (2 ^ 57) with 144115188075855872 in *.
    destruct (saves p m mq K I ltac:(change (2 ^ 58) with 288230376151711744; lia) ltac:(lia) ltac:(change (2 ^ 31) with 2147483648; lia) N Sm Sv) as (bytes & Es & L). rewrite Es. cbn [bind]. eexists. split; [reflexivity|].
    split; [|split; [|split; [exact G0|]]].
    + intros x Hx. cbn [kept]. unfold disk_set. destruct (list_eq_dec Z.eq_dec x b) as [->|]; [exact L|]. now apply A.
    + intros x. cbn [kept]. destruct (list_eq_dec Z.eq_dec x b); [exact N|apply B].
    + rewrite G. cbn [running]. rewrite ?R. split; [reflexivity|]. split; [exact Nb|]. split; [exact N|]. exists mq, K. auto.
  - exists d. split; [reflexivity|]. split; [exact A|]. split; [exact B|]. split; [exact G0|]. now rewrite G, R.
Qed.
Lemma sstep n d s w o : agree n d s w -> 0 <= n < 2 ^ 57 -> 3 * (2 ^ 31 + n + 1) + 8 < Z.of_nat fuel -> sfits o w ->
  exists d' s', sexec o fuel d s = Val (fst (sspec o w), (d', s')) /\ agree (n + 1) d' s' (snd (sspec o w)).
Proof.
  intros H Hn Hf F. pose proof H as (A & B & G0 & C). destruct o as [b|o| | | |].
  - cbn [sexec sspec fst snd]. unfold sys_init, convert. cbn [sfits] in F. rewrite F in G0. cbn [negb] in G0. rewrite G0. cbn [bind]. destruct b as [|c b].
    + cbn [bind]. exists d, s. split; [reflexivity|]. split; [exact A|]. split; [exact B|]. split; [now rewrite G0, F|]. destruct (g_prefs s) as [[p x]|], (running w) as [[m y]|]; try contradiction; [|exact I]. destruct C as (E & Nb & N & mq & K & I & HK & Sm). split; [exact E|]. split; [exact Nb|]. split; [exact N|]. exists mq, K. split; [exact I|]. split; [lia|exact Sm].
    + set (b' := c :: b) in *. specialize (A b' ltac:(discriminate)) as Ab. destruct (d b') as [bytes|].
      * destruct Ab as (L & q & mq & El & Iq & Sm). rewrite El. cbn [bind]. exists d. eexists. split; [reflexivity|]. split; [exact A|]. split; [exact B|]. cbn [g_prefs g_charsets running over]. split; [now rewrite ?G0, F|]. split; [reflexivity|]. split; [discriminate|]. split; [apply B|]. exists mq, (zlen bytes). split; [exact Iq|]. pose proof (zlen_nonneg bytes). split; [lia|exact Sm].
      * cbn [bind]. exists d. eexists. split; [reflexivity|]. split; [exact A|]. split; [exact B|]. cbn [g_prefs g_charsets running over]. split; [now rewrite ?G0, F|]. split; [reflexivity|]. split; [discriminate|]. split; [apply B|]. exists [], 0. split; [exact pinv_new|]. split; [change (2 ^ 31) with 2147483648; lia|]. rewrite Ab. intros k. reflexivity.
  - cbn [sfits] in F. destruct F as [O F]. destruct (running w) as [[m b]|] eqn:R; [|contradiction]. destruct (g_prefs s) as [[p b']|] eqn:G; [|contradiction]. destruct C as (<- & Nb & N & mq & K & I & HK & Sm).
    cbn [sexec sspec]. rewrite R. unfold sys_pref. rewrite G. change (2 ^ 31) with 2147483648 in *. change (2 ^ 57) with 144115188075855872 in *.
    assert (W : weight o = 1) by (destruct o; cbn [on_map] in O; try contradiction; reflexivity).
    destruct (step_ok p mq K o fuel I) as (p' & E & I'); [apply (pfits_same o m mq O); [intros k; symmetry; apply Sm|exact F]|lia|rewrite W; change (2 ^ 59) with 576460752303423488; lia|rewrite W; lia|].
    destruct (pspec_same o mq m O Sm) as [Ea Es]. rewrite E. cbn [bind]. rewrite Ea. destruct (pspec o m) as [a m'] eqn:Q. cbn [fst snd] in *. exists d. eexists. split; [reflexivity|]. split; [exact A|]. split; [exact B|]. cbn [g_prefs g_charsets running over]. split; [exact G0|]. split; [reflexivity|]. split; [exact Nb|].
    split; [replace m' with (snd (pspec o m)) by (now rewrite Q); now apply pspec_nodup|]. exists (snd (pspec o mq)), (K + weight o). split; [exact I'|]. split; [rewrite W; lia|exact Es].
  - cbn [sfits] in F. destruct (agree_keep n d s w H Hn ltac:(lia) F) as (d' & E & G). cbn [sexec sspec fst snd]. rewrite E. cbn [bind]. exists d', s. split; [reflexivity|]. destruct G as (A' & B' & G' & C'). split; [exact A'|]. split; [exact B'|]. split; [exact G'|]. destruct (g_prefs s) as [[p x]|], (running (keep w)) as [[m y]|]; try contradiction; [|exact I]. destruct C' as (E' & Nb & N & mq & K & I & HK & Sm). split; [exact E'|]. split; [exact Nb|]. split; [exact N|]. exists mq, K. split; [exact I|]. split; [lia|exact Sm].
  - cbn [sfits] in F. destruct (agree_keep n d s w H Hn ltac:(lia) F) as (d' & E & G). cbn [sexec sspec fst snd]. unfold sys_quit. rewrite E. cbn [bind]. destruct G as (A' & B' & G' & C').
    destruct (g_prefs s) as [[p x]|] eqn:Gs.
    + destruct (running w) as [[m y]|]; [|contradiction]. destruct C as (_ & _ & _ & mq & K & I & HK & _). change (2 ^ 31) with 2147483648 in *. change (2 ^ 57) with 144115188075855872 in *.
      destruct (destroy_ok p mq K fuel I ltac:(lia) ltac:(change (2 ^ 59) with 576460752303423488; lia)) as (p' & Ed & _). rewrite Ed. cbn [bind]. exists d'. eexists. split; [reflexivity|]. split; [exact A'|]. split; [exact B'|]. split; [reflexivity|]. exact Logic.I.
    + exists d'. eexists. split; [reflexivity|]. split; [exact A'|]. split; [exact B'|]. split; [reflexivity|]. exact Logic.I.
  - cbn [sexec sspec fst snd]. cbn [sfits] in F. unfold convert. rewrite F in G0. cbn [negb] in G0. rewrite G0. cbn [bind]. exists d, s. split; [reflexivity|]. split; [exact A|]. split; [exact B|]. split; [now rewrite G0, F|].
    destruct (g_prefs s) as [[p x]|], (running w) as [[m y]|]; try contradiction; [|exact I]. destruct C as (E' & Nb & N & mq & K & I & HK & Sm). split; [exact E'|]. split; [exact Nb|]. split; [exact N|]. exists mq, K. split; [exact I|]. split; [lia|exact Sm].
  - cbn [sexec sspec fst snd]. exists d, sys_new. split; [reflexivity|]. split; [exact A|]. split; [exact B|]. split; [reflexivity|]. exact I.
Qed.
Lemma srun : forall os n d s w, agree n d s w -> 0 <= n -> n + zlen os < 2 ^ 57 -> 3 * (2 ^ 31 + n + zlen os) + 8 < Z.of_nat fuel -> all_sfit os w ->
  exists r, sexec_all os fuel d s = Val (fst (sspecs os w), r).
Proof.
  induction os as [|o os IH]; intros n d s w H Hn Hs Hf F; [exists (d, s); reflexivity|]. rewrite zlen_cons in *. pose proof (zlen_nonneg os). destruct F as [F1 F2].
  destruct (sstep n d s w o H ltac:(lia) ltac:(lia) F1) as (d' & s' & E & H'). cbn [sexec_all sspecs]. rewrite E. cbn [bind fst snd]. destruct (sspec o w) as [a w'] eqn:Q. cbn [fst snd] in *.
  destruct (IH (n + 1) d' s' w' H' ltac:(lia) ltac:(lia) ltac:(lia) F2) as (r & ->). cbn [bind]. destruct (sspecs os w') as [b w2]. cbn [fst]. eauto.
Qed.
End Run.
(** C133: any sequence of init, use, save, quit and crash answers like a map per bundle that is kept when it is saved *)
Theorem C133_sessions : forall os fuel, zlen os < 2 ^ 57 -> 3 * (2 ^ 31 + zlen os) + 8 < Z.of_nat fuel -> all_sfit os world_new ->
  exists r, sexec_all os fuel (fun _ => None) sys_new = Val (fst (sspecs os world_new), r).
Proof.
  intros os fuel H Hf F. apply (srun fuel os 0); [|lia|lia|lia|exact F]. split; [|split; [|split]]; [reflexivity|constructor|reflexivity|exact I].
Qed.
Print Assumptions C133_sessions.
(** a value is there again after quit and init, and a value that was not saved is not after a crash *)
Lemma sspec_init b w : b <> [] -> sspec (SInit b) w = ([], World (Some (kept w b, b)) (kept w) (over w)).
Proof. destruct b; [contradiction|reflexivity]. Qed.
Lemma sspecs_cons o os w : fst (sspecs (o :: os) w) = fst (sspec o w) ++ fst (sspecs os (snd (sspec o w))).
Proof. cbn [sspecs]. destruct (sspec o w) as [a w']. cbn [fst snd]. now destruct (sspecs os w'). Qed.
Lemma fits_cons o os w : all_sfit (o :: os) w <-> sfits o w /\ all_sfit os (snd (sspec o w)). Proof. reflexivity. Qed.
Lemma sspec_pref o m b kp ov : sspec (SPref o) (World (Some (m, b)) kp ov) = ([fst (pspec o m)], World (Some (snd (pspec o m), b)) kp ov).
Proof. cbn [sspec running kept over]. now destruct (pspec o m). Qed.

Lemma sspec_quit w : sspec SQuit w = ([], World None (kept (keep w)) true). Proof. reflexivity. Qed.
Lemma sspec_end w : sspec SEnd w = ([], World None (kept w) false). Proof. reflexivity. Qed.
Ltac spec_run Nb := repeat (rewrite ?sspecs_cons, ?fits_cons, ?(sspec_init _ _ Nb), ?sspec_pref, ?sspec_quit, ?sspec_end; cbn [sfits world_new running kept over pspec fst snd app keep on_map pfits]).
Theorem C133_next_session : forall b k v fuel, b <> [] -> good_key k -> good_value v -> ~ In 13 (text v) -> ~ In 10 (text v) -> survives [(text k, text v)] -> 2 ^ 33 < Z.of_nat fuel ->
  (exists r, sexec_all [SInit b; SPref (PSet k v); SQuit; SEnd; SInit b; SPref (PValue k)] fuel (fun _ => None) sys_new = Val ([PDone; PText (text v)], r)) /\
  (exists r, sexec_all [SInit b; SPref (PSet k v); SEnd; SInit b; SPref (PHas k)] fuel (fun _ => None) sys_new = Val ([PDone; PFlag false], r)).
Proof.
  intros b k v fuel Nb Gk Gv N13 N10 Sv Hf. assert (L : one_line (text v) = text v) by (apply one_line_same; auto).
  change (2 ^ 33) with 8589934592 in Hf.
  assert (U : store [] (text k) (text v) = [(text k, text v)]) by (unfold store; rewrite L; reflexivity).
  assert (LK : lookup [(text k, text v)] (text k) = Some (text v)) by (cbn [lookup]; destruct (text_dec (text k) (text k)); [reflexivity|contradiction]).
  assert (D : forall A (x y : A), (if list_eq_dec Z.eq_dec b b then x else y) = x) by (intros; destruct (list_eq_dec Z.eq_dec b b); [reflexivity|contradiction]).
  split.
  - destruct (C133_sessions [SInit b; SPref (PSet k v); SQuit; SEnd; SInit b; SPref (PValue k)] fuel) as (r & E); [reflexivity|change (2 ^ 31) with 2147483648; change (zlen _) with 6; lia| |].
    + spec_run Nb. rewrite U. cbn [all_sfit]. tauto.
    + exists r. rewrite E. f_equal. f_equal. spec_run Nb. rewrite D, U, LK. reflexivity.
  - destruct (C133_sessions [SInit b; SPref (PSet k v); SEnd; SInit b; SPref (PHas k)] fuel) as (r & E); [reflexivity|change (2 ^ 31) with 2147483648; change (zlen _) with 5; lia| |].
    + spec_run Nb. cbn [all_sfit]. tauto.
    + exists r. rewrite E. f_equal. f_equal. spec_run Nb. reflexivity.
Qed.
(** initialising again without quit forgets what was not saved *)
Theorem C133_init_twice_refuted : forall b k v fuel, b <> [] -> good_key k -> good_value v -> 2 ^ 33 < Z.of_nat fuel ->
  exists r, sexec_all [SInit b; SPref (PSet k v); SInit b; SQuit; SEnd; SInit b; SPref (PHas k)] fuel (fun _ => None) sys_new = Val ([PDone; PFlag false], r).
Proof.
  intros b k v fuel Nb Gk Gv Hf. change (2 ^ 33) with 8589934592 in Hf.
  assert (S0 : survives []) by (split; [constructor|split; [constructor|split; [constructor|change (zlen (file_of [])) with 0; change (2 ^ 31) with 2147483648; lia]]]).
  assert (D : forall A (x y : A), (if list_eq_dec Z.eq_dec b b then x else y) = x) by (intros; destruct (list_eq_dec Z.eq_dec b b); [reflexivity|contradiction]).
  destruct (C133_sessions [SInit b; SPref (PSet k v); SInit b; SQuit; SEnd; SInit b; SPref (PHas k)] fuel) as (r & E); [reflexivity|change (2 ^ 31) with 2147483648; change (zlen _) with 7; lia| |].
  - spec_run Nb. cbn [all_sfit]. tauto.
  - exists r. rewrite E. f_equal. f_equal. spec_run Nb. rewrite D. reflexivity.
Qed.
Example C133_example : forall fuel, 2 ^ 33 < Z.of_nat fuel -> exists r, sexec_all [SInit [97]; SPref (PSet (str_of [107]) (str_of [118])); SInit [97]; SQuit; SEnd; SInit [97]; SPref (PHas (str_of [107]))] fuel (fun _ => None) sys_new = Val ([PDone; PFlag false], r).
Proof. intros fuel H. apply C133_init_twice_refuted; [discriminate|apply key_good; [u16|reflexivity]|split; [apply key_good; [u16|reflexivity]|left; vm_compute; discriminate]|exact H]. Qed.
(** a process that has called quit can neither initialise again nor convert a text: the character sets are gone *)
Theorem C133_after_quit_refuted : forall b fuel d s d' s', sys_quit fuel d s = Val (d', s') -> sexec (SInit b) fuel d' s' = UB /\ sexec SText fuel d' s' = UB.
Proof.
  intros b fuel d s d' s' H. assert (G : g_charsets s' = false).
  { unfold sys_quit in H. destruct (save_preferences fuel d s) as [x| | |]; cbn [bind] in H; try discriminate. destruct (g_prefs s) as [[p y]|]; [destruct (destroy p fuel); cbn [bind] in H; try discriminate|]; now injection H as <- <-. }
  cbn [sexec]. unfold sys_init, convert. rewrite G. split; reflexivity.
Qed.
Print Assumptions C133_after_quit_refuted.
Example ex_after_quit : sys_quit 1 (fun _ => None) sys_new = Val (fun _ => None, Sys None false).
Proof. reflexivity. Qed.
(** * a crash while the settings are written *)
(** if it happens between two lines, the settings of the lines written are there, and no others *)
Theorem C133_torn_save : forall m fuel, NoDup (map fst m) -> survives m -> zlen (file_of m) < Z.of_nat fuel ->
  exists rows, Permutation m rows /\ file_of m = bytes_of (concat (map line_of rows)) /\
  forall j, exists q, load prefs_new (bytes_of (concat (map line_of (firstn j rows)))) fuel = Val q /\
    forall key, good_key key -> 3 * zlen (file_of m) + 8 < Z.of_nat fuel ->
      (exists u, value q key fuel = Val u /\ text u = text_or (lookup (firstn j rows) (text key))) /\
      has_value q key fuel = Val (match lookup (firstn j rows) (text key) with Some _ => true | None => false end).
Proof.
  intros m fuel N Sv Hf. destruct (file_rows m) as (rs & El & Pm). exists rs. split; [exact Pm|]. split; [unfold file_of; now rewrite El|]. intros j.
  pose proof Sv as (_ & _ & _ & Sz). apply (survives_perm m rs Pm) in Sv as (A & B & C & _).
  assert (Sub : forall Q : list Z * list Z -> Prop, Forall Q rs -> Forall Q (firstn j rs)) by (intros Q F; rewrite <- (firstn_skipn j rs) in F; now apply Forall_app in F).
  apply Sub in A, B, C. assert (Nr : NoDup (map fst rs)) by (eapply Permutation_NoDup; [apply Permutation_map, Pm|exact N]).
  assert (Nj : NoDup (map fst (firstn j rs))) by (rewrite <- (firstn_skipn j rs), map_app in Nr; clear - Nr; induction (map fst (firstn j rs)) as [|x l IH]; [constructor|]; cbn [app] in Nr; inversion Nr as [|? ? X1 X2]; subst; constructor; [intros I; apply X1, in_or_app; now left|auto]).
  assert (Bj : zlen (bytes_of (concat (map line_of (firstn j rs)))) <= zlen (file_of m)).
  { unfold file_of. rewrite El. rewrite <- (firstn_skipn j rs) at 2. rewrite map_app, concat_app, bytes_app, zlen_app. pose proof (zlen_nonneg (bytes_of (concat (map line_of (skipn j rs))))). lia. }
  set (rj := firstn j rs) in *. clearbody rj. clear Sub.
  assert (U : Forall (fun c => 0 < c < 65536) (concat (map line_of rj))).
  { clear - A. induction A as [|r rs P F IH]; [constructor|]. cbn [map concat]. apply Forall_app. split; [|exact IH]. destruct P as (_ & _ & _ & _ & _ & _ & _ & _ & _ & U). apply Forall_app in U as [U1 U2]. unfold line_of. apply Forall_app. split; [exact U1|]. apply Forall_app. split; [repeat constructor; lia|]. apply Forall_app. split; [|repeat constructor; lia].
    apply Forall_forall. intros c Hc. apply esc_In in Hc as [Hc|Hc]; [|lia]. rewrite Forall_forall in U2. auto. }
  assert (K : Forall (fun x => 0 < x < 256) (bytes_of (concat (map line_of rj))) /\ utf8_meaning (bytes_of (concat (map line_of rj))) = Units (concat (map line_of rj))).
  { assert (U' : Forall (fun c => 0 < c < 1114112) (concat (map line_of rj))) by (eapply Forall_impl; [|exact U]; cbv beta; intros; lia).
    assert (H : hd 0 (concat (map line_of rj)) <> 65279). { clear - A. destruct A as [|r rs Pr F0]; [cbn; lia|]. destruct Pr as (N & _ & _ & _ & _ & H & _). cbn [map concat]. unfold line_of. destruct (fst r); [contradiction|]. cbn in *. exact H. }
    unfold bytes_of. split; [now apply nz_concat|]. pose proof (decode_code_points _ U' H) as D. rewrite decode_total in D by (now apply nz_concat). destruct (utf8_meaning _) as [l| |]; try discriminate. cbn [outcome_of] in D. injection D as ->. f_equal. rewrite <- (map_id (concat (map line_of rj))) at 2. apply map_ext_in. intros c Hc. rewrite Forall_forall in U. specialize (U c Hc). cbv beta in U. lia. }
  destruct K as [Nz Me]. set (bs := bytes_of (concat (map line_of rj))) in *.
  assert (Et : file_text bs = concat (map line_of rj)) by (unfold file_text; now rewrite Me).
  pose proof (zlen_nonneg bs). change (2 ^ 31) with 2147483648 in Sz.
  destruct (load_ok prefs_new [] 0 bs fuel pinv_new Nz ltac:(change (2 ^ 31) with 2147483648; lia)) as (q & E & Iq); [now rewrite Et| |lia|lia|change (2 ^ 59) with 576460752303423488; lia|].
  { rewrite Et, lines_of_file by exact A. apply Forall_forall. intros l Hl. apply in_map_iff in Hl as (r & <- & Hr). rewrite Forall_forall in A, C. unfold safe_line. rewrite setting_of_line by auto. exact (C _ Hr). }
  exists q. split; [exact E|]. intros key Gk Hf3. rewrite Et, read_file in Iq by exact A.
  assert (LK : lookup (fold_left (fun m r => update m (fst r) (snd r)) (map grown rj) []) (text key) = lookup rj (text key)).
  { rewrite lookup_fold by (rewrite map_map; exact Nj). rewrite lookup_grown. cbn [lookup]. destruct (lookup rj (text key)) as [v|] eqn:Ev; [|reflexivity]. cbn [option_map]. f_equal. apply grow_never. apply lookup_some_in in Ev. rewrite Forall_forall in B. exact (B _ Ev). }
  rewrite (has_ok q _ _ key fuel Iq Gk) by lia. rewrite LK. split; [|reflexivity].
  destruct (value_ok q _ _ key fuel Iq Gk ltac:(lia)) as (u & Eu & Ru). exists u. split; [exact Eu|]. apply repr_text in Ru as [-> _]. now rewrite LK.
Qed.
(** at other points the last value can be cut *)
Theorem C133_torn_save_refuted : exists p bytes q u, pexec_all [PSet (str_of [107]) (str_of [118; 119])] 200 prefs_new = Val ([PDone], p) /\ save p 200 = Val bytes /\
  load prefs_new (ztake 3 bytes) 200 = Val q /\ value q (str_of [107]) 200 = Val u /\ text u = [118].
Proof.
  do 4 eexists. split; [vm_compute; reflexivity|]. split; [vm_compute; reflexivity|]. split; [vm_compute; reflexivity|]. split; vm_compute; reflexivity.
Qed.
(** a crash right after the file is opened loses every setting of the bundle, also those that an earlier session saved *)
Theorem C133_crash_after_open_refuted : forall p b bytes fuel d s k, g_prefs s = Some (p, b) -> b <> [] -> save p fuel = Val bytes -> good_key k -> 8 < Z.of_nat fuel ->
  exists d' q, crash_in_save 0 fuel d s = Val d' /\ sys_init b fuel d' sys_new = Val (Sys (Some (q, b)) true) /\ has_value q k fuel = Val false.
Proof.
  intros p b bytes fuel d s k G Nb E Gk Hf. unfold crash_in_save. rewrite G, E. cbn [bind].
  destruct (C133_torn_save [] fuel) as (rs & _ & _ & T); [constructor|repeat split; try constructor|change (zlen (file_of [])) with 0; lia|].
  destruct (T 0%nat) as (q & El & K). cbn [firstn map concat] in El. change (bytes_of []) with (@nil Z) in El. destruct (K k Gk ltac:(change (zlen (file_of [])) with 0; lia)) as [_ Hk]. cbn [firstn lookup] in Hk. exists (disk_set d b (ztake 0 bytes)), q. split; [reflexivity|].
  unfold sys_init, convert. cbn [g_charsets sys_new bind]. destruct b as [|c b]; [contradiction|]. unfold disk_set. destruct (list_eq_dec Z.eq_dec (c :: b) (c :: b)) as [_|]; [|contradiction]. change (ztake 0 bytes) with (@nil Z). rewrite El. cbn [bind]. split; [reflexivity|exact Hk].
Qed.
Print Assumptions C133_next_session.
Print Assumptions C133_init_twice_refuted.
Print Assumptions C133_torn_save.
Print Assumptions C133_torn_save_refuted.
Print Assumptions C133_crash_after_open_refuted.
