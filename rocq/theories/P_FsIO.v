(** P_FsIO.v -- property C129: reading and writing files. *)
From Verif Require Import Base M_Fs S_Fs P_Fs.
Lemma nth_firstn {A} (l : list A) n i d : (i < n)%nat -> nth i (firstn n l) d = nth i l d.
Proof. revert n i. induction l as [|x l IH]; intros [|n] [|i] L; cbn; try lia; auto. apply IH. lia. Qed.
Lemma nth_skipn {A} (l : list A) n i d : nth i (skipn n l) d = nth (n + i) l d.
Proof. revert n. induction l as [|x l IH]; intros [|n]; cbn; auto. now destruct i. Qed.
Lemma zlen_nat {A} (l : list A) : zlen l = Z.of_nat (length l). Proof. reflexivity. Qed.
Lemma slice_spec (l : list Z) p n : 0 <= p -> 0 <= n -> zlen (slice l p n) = Z.max 0 (Z.min n (zlen l - p)) /\ forall i, 0 <= i < zlen (slice l p n) -> byte (slice l p n) i = byte l (p + i).
Proof.
  intros P N. assert (L : length (slice l p n) = Nat.min (Z.to_nat n) (length l - Z.to_nat p)) by (unfold slice; now rewrite firstn_length, skipn_length).
  rewrite !zlen_nat. split; [rewrite L; lia|]. intros i R. unfold byte, slice. rewrite L in R. rewrite nth_firstn, nth_skipn by lia. f_equal. lia.
Qed.
Lemma overwrite_spec l p b : 0 <= p -> zlen (overwrite l p b) = Z.max (zlen l) (p + zlen b) /\
  forall i, 0 <= i < zlen (overwrite l p b) -> byte (overwrite l p b) i = if (p <=? i) && (i <? p + zlen b) then byte b (i - p) else if i <? zlen l then byte l i else 0.
Proof.
  intros P. assert (F : length (firstn (Z.to_nat p) (l ++ repeat 0 (Z.to_nat p))) = Z.to_nat p) by (rewrite firstn_length, app_length, repeat_length; lia).
  assert (L : length (overwrite l p b) = Nat.max (length l) (Z.to_nat p + length b)) by (unfold overwrite; rewrite !app_length, F, skipn_length; lia).
  rewrite !zlen_nat. split; [rewrite L; lia|]. intros i R. rewrite L in R. unfold byte, overwrite. destruct (Z.leb_spec p i) as [A|A]; cbn [andb].
  - rewrite app_nth2 by lia. rewrite F. destruct (Z.ltb_spec i (p + Z.of_nat (length b))) as [B|B]; cbn [andb].
    + rewrite app_nth1 by lia. f_equal. lia.
    + rewrite app_nth2 by lia. rewrite nth_skipn. destruct (Z.ltb_spec i (Z.of_nat (length l))) as [C|C]; [f_equal; lia|]. lia.
  - rewrite app_nth1 by lia. rewrite nth_firstn by lia. destruct (Z.ltb_spec i (Z.of_nat (length l))) as [C|C]; [now rewrite app_nth1 by lia|]. rewrite app_nth2 by lia. apply nth_repeat.
Qed.
Lemma content_nth s i l : nth_error (data s) i = Some l -> content s i = l. Proof. apply nth_error_nth. Qed.
Lemma hs_put {A} (l : list A) i v x : nth_error l i = Some x -> nth_error (put l i v) i = Some v. Proof. intros E. apply put_same. apply nth_error_Some. congruence. Qed.
Lemma nth_error_snoc {A} (l : list A) v : nth_error (l ++ [v]) (length l) = Some v. Proof. now rewrite nth_error_app2, Nat.sub_diag by lia. Qed.

(** opening a regular file: the position is 0, for writing only the content is dropped *)
Theorem C129_open : forall m f w l, wf (disk w) -> holds (disk w) (fpath f) l -> exists f' w', f_open m f w = Val (RStatus eOK, f', w') /\ fpath f' = fpath f /\
  streams f' w' m (fpath f) (match m with MWrite => [] | _ => l end) 0 /\ others_kept (fpath f) (disk w) (disk w') /\ wf (disk w').
Proof.
  intros m [p h] [s hl] l W (i & A & E). cbn [disk fpath] in *. unfold f_open, fopen. cbn [disk fpath]. rewrite (follow_id _ _ _ W (walk_some _ _ _ W A)) by (rewrite A; discriminate). rewrite A.
  assert (Hp : nth_error hl (length hl) = None) by (apply nth_error_None; lia).
  destruct m; unfold add_handle; cbn [hs disk fpath].
  1, 3: eexists _, _; (split; [reflexivity|]); (split; [reflexivity|]); (split; [split; [lia|]; exists (length hl), i, LNone; cbn [fh hs disk]; rewrite nth_error_snoc; auto|]); (split; [split; [reflexivity|auto]|exact W]).
  eexists _, _; (split; [reflexivity|]); (split; [reflexivity|]). split; [|split; [split; [reflexivity|]|apply wf_data_only; auto; apply put_len]].
  - split; [lia|]. exists (length hl), i, LNone. cbn [fh hs disk data]. rewrite nth_error_snoc. split; [reflexivity|]. split; [reflexivity|]. split; [exact A|]. eapply hs_put. exact E.
  - intros z k N (j & Az & Ez). exists j. split; [exact Az|]. cbn [disk data]. rewrite put_other; [exact Ez|]. intros ->. now apply N, (w_own _ W _ _ _ Az).
Qed.
(** a missing file is reported; opened for writing it appears, empty *)
Theorem C129_open_missing : forall m f w, wf (disk w) -> in_directory (disk w) (fpath f) -> at_ (disk w) (fpath f) = None ->
  (m <> MWrite -> f_open m f w = Val (RStatus eNotFound, F (fpath f) None, w)) /\
  (m = MWrite -> exists f' w', f_open m f w = Val (RStatus eOK, f', w') /\ streams f' w' m (fpath f) [] 0 /\ only_at (fpath f) (disk w) (disk w') /\ wf (disk w')).
Proof.
  intros m [p h] [s hl] W D A. cbn [disk fpath] in *. unfold f_open, fopen. cbn [disk fpath]. destruct (proj1 (parent_iff _ _ W) D) as [Np Wk]. rewrite (follow_id _ _ _ W Wk) by (rewrite A; discriminate). rewrite A. split.
  - intros N. destruct m; [reflexivity|congruence|reflexivity].
  - intros ->. unfold add_handle. cbn [hs]. eexists _, _. split; [reflexivity|]. split; [|split].
    + split; [lia|]. exists (length hl), (length (data s)), LNone. cbn [fh hs disk data]. rewrite !nth_error_snoc. split; [reflexivity|]. split; [reflexivity|]. split; [|reflexivity]. unfold at_. cbn [entries get]. destruct (peq p p); congruence.
    + intros q N. unfold at_. cbn [disk entries get]. destruct (peq p q); congruence.
    + apply wf_add; auto; cbn [disk]; [rewrite app_length; cbn; lia|]. intros i [= <-]. rewrite app_length. cbn. lia.
Qed.
Lemma walk_err l r : forall pre e, walk l pre r = Some e -> e = ENOENT \/ e = ENOTDIR.
Proof. induction r as [|y r IH]; intros pre e; cbn [walk]; [discriminate|]. destruct (get l pre) as [[]|]; intros H; try (injection H as <-; auto). eapply IH, H. Qed.
(** when the directory is missing, or is a file, that is reported as well *)
Theorem C129_open_no_directory : forall m f w d x, wf (disk w) -> fpath f = d ++ [x] -> at_ (disk w) d <> Some KDir -> exists st, st <> eOK /\ f_open m f w = Val (RStatus st, F (fpath f) None, w).
Proof.
  intros m [p h] [s hl] d x W E N. cbn [disk fpath] in *. subst p. unfold f_open, fopen. cbn [disk fpath]. destruct (walk (entries s) [] (d ++ [x])) as [e|] eqn:Wk; [|apply (walk_parent _ _ _ W) in Wk; unfold at_ in N; cbn [disk] in N; congruence].
  rewrite (follow_walk _ _ _ _ Wk). pose proof (walk_err _ _ _ _ Wk) as He. destruct He as [-> | ->]; [exists eNotFound|exists eNoDirectory]; split; (discriminate || reflexivity).
Qed.

Lemma others_id q s : others_kept q s s. Proof. split; auto. Qed.
Lemma others_trans q s s' s'' : others_kept q s s' -> others_kept q s' s'' -> others_kept q s s''. Proof. intros [A B] [C D]. split; [congruence|auto]. Qed.
(** one operation: what the array machine does, or undefined behaviour *)
Theorem C129_step : forall o f w m q l p, wf (disk w) -> streams f w m q l p ->
  match sexec o f w with
  | Val (r, w') => exists l' p', astep m o (l, p) r (l', p') /\ streams f w' m q l' p' /\ others_kept q (disk w) (disk w') /\ wf (disk w')
  | UB => True
  | _ => False
  end.
Proof.
  intros o f [s hl] m q l p W (P & h & i & la & Eh & En & A & Ed). cbn [disk hs] in *.
  assert (St : forall p' la', 0 <= p' -> streams f (M_Fs.W s (put hl h (Some (H (Some i) p' m la')))) m q l p').
  { intros p' la' P'. split; [exact P'|]. exists h, i, la'. cbn [disk hs]. split; [exact Eh|]. split; [eapply hs_put; exact En|]. auto. }
  assert (S0 : streams f (M_Fs.W s hl) m q l p) by (split; [exact P|]; exists h, i, la; auto).
  destruct o as [x|d| |n|b]; cbn [sexec].
  - unfold f_seek, with_handle. rewrite Eh. cbn [hs]. rewrite En. destruct (Z.ltb_spec x 0).
    + exists l, p. split; [now constructor|]. split; [exact S0|]. split; [apply others_id|exact W].
    + exists l, x. split; [now constructor|]. split; [now apply St|]. split; [apply others_id|exact W].
  - unfold f_move, with_handle. rewrite Eh. cbn [hs]. rewrite En. cbn [hpos]. destruct (Z.ltb_spec (p + d) 0).
    + exists l, p. split; [now constructor|]. split; [exact S0|]. split; [apply others_id|exact W].
    + exists l, (p + d). split; [now constructor|]. split; [now apply St|]. split; [apply others_id|exact W].
  - unfold f_position, with_handle. rewrite Eh. cbn [hs]. rewrite En. cbn [hpos bind]. exists l, p. split; [now constructor|]. split; [exact S0|]. split; [apply others_id|exact W].
  - unfold f_read, with_handle. rewrite Eh. cbn [hs]. rewrite En. cbn [hpos hmode hino hlast]. destruct (Z.ltb_spec n 0) as [Hn|Hn]; [exact I|]. cbn [disk]. rewrite (content_nth _ _ _ Ed). destruct (slice_spec l p n P ltac:(lia)) as [Ls Bs].
    assert (Go : forall la', m <> MWrite -> exists l' p', astep m (ORead n) (l, p) (RBytes (slice l p n)) (l', p') /\ streams f (M_Fs.W s (put hl h (Some (H (Some i) (p + zlen (slice l p n)) m la')))) m q l' p' /\ others_kept q s s /\ wf s).
    { intros la' Nm. exists l, (p + zlen (slice l p n)). split; [now constructor|]. split; [apply St; rewrite Ls; lia|]. split; [apply others_id|exact W]. }
    destruct m.
    + apply Go. discriminate.
    + exists l, p. split; [now apply A_read_w|]. split; [exact S0|]. split; [apply others_id|exact W].
    + destruct la; try exact I; apply Go; discriminate.
  - unfold f_write, with_handle. rewrite Eh. cbn [hs]. rewrite En. cbn [hpos hmode hino hlast]. cbn [disk]. rewrite (content_nth _ _ _ Ed).
    assert (Go : m <> MRead -> match (match b with [] => Val (RNum 0, M_Fs.W s hl) | _ => Val (RNum (zlen b), M_Fs.W (FS (entries s) (put (data s) i (overwrite l p b))) (put hl h (Some (H (Some i) (p + zlen b) m LWrite)))) end) with Val (r, w') => exists l' p', astep m (OWrite b) (l, p) r (l', p') /\ streams f w' m q l' p' /\ others_kept q s (disk w') /\ wf (disk w') | UB => True | _ => False end).
    { intros Nm. destruct (list_eq_dec Z.eq_dec b []) as [->|Nb].
      - exists l, p. split; [now apply A_write_nil|]. split; [exact S0|]. split; [apply others_id|exact W].
      - assert (R : match b with [] => Val (RNum 0, M_Fs.W s hl) | _ => Val (RNum (zlen b), M_Fs.W (FS (entries s) (put (data s) i (overwrite l p b))) (put hl h (Some (H (Some i) (p + zlen b) m LWrite)))) end = Val (RNum (zlen b), M_Fs.W (FS (entries s) (put (data s) i (overwrite l p b))) (put hl h (Some (H (Some i) (p + zlen b) m LWrite))))) by (destruct b; congruence).
        rewrite R. destruct (overwrite_spec l p b P) as [Lo Bo]. exists (overwrite l p b), (p + zlen b). split; [now apply A_write|]. split; [|split; [split; [reflexivity|]|cbn [disk]; apply wf_data_only; auto; apply put_len]].
        + split; [rewrite zlen_nat; lia|]. exists h, i, LWrite. cbn [disk hs data]. split; [exact Eh|]. split; [eapply hs_put; exact En|]. split; [exact A|]. eapply hs_put; exact Ed.
        + intros z k N (j & Az & Ez). exists j. split; [exact Az|]. cbn [disk data]. rewrite put_other; [exact Ez|]. intros ->. now apply N, (w_own _ W _ _ _ Az). }
    destruct m; [|apply Go; discriminate|].
    + exists l, p. split; [now apply A_write_r|]. split; [exact S0|]. split; [apply others_id|exact W].
    + destruct la as [|[]|]; try exact I; apply Go; discriminate.
Qed.
Theorem C129_history : forall os f w m q l p rs w', wf (disk w) -> streams f w m q l p -> sexec_all os f w = Val (rs, w') ->
  exists l' p', asteps m os (l, p) rs (l', p') /\ streams f w' m q l' p' /\ others_kept q (disk w) (disk w') /\ wf (disk w').
Proof.
  induction os as [|o os IH]; intros f w m q l p rs w' W S; cbn [sexec_all].
  - intros [= <- <-]. exists l, p. split; [constructor|]. split; [exact S|]. split; [apply others_id|exact W].
  - pose proof (C129_step o f w m q l p W S) as K. destruct (sexec o f w) as [[r w1]| | |]; cbn [bind]; try discriminate. destruct K as (l1 & p1 & A1 & S1 & O1 & W1).
    destruct (sexec_all os f w1) as [[rs1 w2]| | |] eqn:E; cbn [bind]; try discriminate. intros [= <- <-]. destruct (IH f w1 m q l1 p1 rs1 w2 W1 S1 E) as (l2 & p2 & A2 & S2 & O2 & W2).
    exists l2, p2. split; [econstructor; eauto|]. split; [exact S2|]. split; [eapply others_trans; eauto|exact W2].
Qed.
(** when it is defined: lengths are not negative, and in read-write mode every read or write follows a seek *)
Definition good (o : sop) : Prop := match o with ORead n => 0 <= n | _ => True end.
Lemma step_defined o f w m q l p : streams f w m q l p -> good o -> (m <> MReadWrite \/ exists h i, fh f = Some h /\ nth_error (hs w) h = Some (Some (H (Some i) p m LNone))) -> sexec o f w <> UB.
Proof.
  intros (P & h & i & la & Eh & En & A & Ed) G D. destruct o as [x|d| |n|b]; cbn [sexec].
  - unfold f_seek, with_handle. rewrite Eh, En. now destruct (x <? 0).
  - unfold f_move, with_handle. rewrite Eh, En. now destruct (_ <? 0).
  - unfold f_position, with_handle. rewrite Eh, En. discriminate.
  - cbn in G. unfold f_read, with_handle. rewrite Eh, En. cbn [hmode hino hlast]. destruct (Z.ltb_spec n 0); [lia|]. destruct m; try discriminate. destruct D as [D|(h' & i' & Eh' & En')]; [congruence|]. rewrite Eh in Eh'. injection Eh' as <-. rewrite En in En'. injection En' as _ ->. discriminate.
  - unfold f_write, with_handle. rewrite Eh, En. cbn [hmode hino hlast]. destruct m; try discriminate; [now destruct b|]. destruct D as [D|(h' & i' & Eh' & En')]; [congruence|]. rewrite Eh in Eh'. injection Eh' as <-. rewrite En in En'. injection En' as _ ->. now destruct b.
Qed.
Theorem C129_one_way_defined : forall os f w m q l p, wf (disk w) -> streams f w m q l p -> m <> MReadWrite -> Forall good os -> exists rs w', sexec_all os f w = Val (rs, w').
Proof.
  induction os as [|o os IH]; intros f w m q l p W S N G; cbn [sexec_all]; [eauto|]. inversion G as [|? ? G1 G2]; subst. pose proof (C129_step o f w m q l p W S) as K. pose proof (step_defined o f w m q l p S G1 (or_introl N)) as D.
  destruct (sexec o f w) as [[r w1]| | |]; [|contradiction|congruence|contradiction]. cbn [bind]. destruct K as (l1 & p1 & A1 & S1 & O1 & W1). destruct (IH f w1 m q l1 p1 W1 S1 N G2) as (rs & w2 & ->). cbn [bind]. eauto.
Qed.
Theorem C129_seek_first_defined : forall (os : list (Z * sop)) f w m q l p, wf (disk w) -> streams f w m q l p -> Forall (fun e => 0 <= fst e /\ good (snd e)) os ->
  exists rs w', sexec_all (flat_map (fun e => [OSeek (fst e); snd e]) os) f w = Val (rs, w').
Proof.
  induction os as [|[x o] os IH]; intros f w m q l p W S G; cbn [flat_map sexec_all app fst snd]; [eauto|]. inversion G as [|? ? [X G1] G2]; subst. cbn [fst snd] in *.
  pose proof (C129_step (OSeek x) f w m q l p W S) as K. pose proof S as (P & h & i & la & Eh & En & A & Ed). cbn [sexec] in *. unfold f_seek, with_handle in *. rewrite Eh, En in *. destruct (Z.ltb_spec x 0) as [Hx|Hx]; [lia|]. cbn [bind].
  destruct K as (l1 & p1 & A1 & S1 & O1 & W1). inversion A1; subst.
  assert (D : sexec o f (set_pos w h (M_Fs.H (Some i) p m la) p1) <> UB). { eapply step_defined; [exact S1|exact G1|]. right. exists h, i. split; [exact Eh|]. unfold set_pos. cbn [hs hino hmode]. eapply hs_put. exact En. }
  pose proof (C129_step o f _ m q l1 p1 W1 S1) as K. destruct (sexec o f _) as [[r w2]| | |]; [|contradiction|congruence|contradiction]. cbn [bind]. destruct K as (l2 & p2 & A2 & S2 & O2 & W2). destruct (IH f w2 m q l2 p2 W2 S2 G2) as (rs & w3 & ->). cbn [bind]. eauto.
Qed.
(** reading what was just written without a seek (and writing after a read that did not reach the end) is undefined *)
Theorem C129_switch_refuted : forall f w q l p b n, wf (disk w) -> streams f w MReadWrite q l p -> b <> [] -> 0 <= n -> sexec_all [OSeek p; OWrite b; ORead n] f w = UB /\ (n > 0 -> p + n <= zlen l -> sexec_all [OSeek p; ORead n; OWrite b] f w = UB).
Proof.
  intros f w q l p b n W (P & h & i & la & Eh & En & A & Ed) Nb Hn. cbn [sexec_all sexec]. unfold f_seek, with_handle. rewrite Eh, En. destruct (Z.ltb_spec p 0) as [Hp|Hp]; [lia|]. cbn [bind].
  pose proof (hs_put (hs w) h (Some (H (Some i) p MReadWrite LNone)) _ En) as E1. split.
  - unfold f_write, with_handle. rewrite Eh. unfold set_pos. cbn [hs hino hmode disk]. rewrite E1. cbn [hmode hino hlast hpos]. destruct b as [|b0 b]; [congruence|]. cbn [bind]. unfold f_read, with_handle. rewrite Eh. cbn [hs]. rewrite put_put. rewrite (hs_put (hs w) h _ _ En). cbn [hmode hino hlast]. destruct (Z.ltb_spec n 0); [lia|reflexivity].
  - intros N0 Le. unfold f_read, with_handle. rewrite Eh. unfold set_pos. cbn [hs hino hmode disk]. rewrite E1. cbn [hmode hino hlast hpos]. destruct (Z.ltb_spec n 0); [lia|]. rewrite (content_nth _ _ _ Ed). cbn [bind]. destruct (slice_spec l p n P Hn) as [Ls _]. rewrite (proj2 (Z.eqb_neq n 0)) by lia.
    assert (Ez : zlen (slice l p n) <? n = false) by (apply Z.ltb_ge; lia). rewrite Ez. unfold f_write, with_handle. rewrite Eh. cbn [hs]. rewrite put_put. rewrite (hs_put (hs w) h _ _ En). reflexivity.
Qed.
(** ** written, closed, opened, read: the same bytes *)
Definition chunk_sum (ns : list Z) : Z := fold_right Z.add 0 ns.
Lemma bytes_eq (a b : list Z) : zlen a = zlen b -> (forall i, 0 <= i < zlen a -> byte a i = byte b i) -> a = b.
Proof. rewrite !zlen_nat. intros L E. apply nth_ext with 0 0; [lia|]. intros i R. specialize (E (Z.of_nat i) ltac:(lia)). unfold byte in E. now rewrite Nat2Z.id in E. Qed.
Lemma zlen_cat {A} (a b : list A) : zlen (a ++ b) = zlen a + zlen b. Proof. unfold zlen. rewrite app_length. lia. Qed.
Lemma byte_cat a b i : 0 <= i -> byte (a ++ b) i = if i <? zlen a then byte a i else byte b (i - zlen a).
Proof.
  intros R. unfold byte. destruct (Z.ltb_spec i (zlen a)) as [H|H]; rewrite zlen_nat in H; [now rewrite app_nth1 by lia|]. rewrite app_nth2 by lia. f_equal. rewrite zlen_nat. lia.
Qed.
Lemma astep_append m b l r s' : m <> MRead -> astep m (OWrite b) (l, zlen l) r s' -> s' = (l ++ b, zlen (l ++ b)) /\ r = RNum (zlen b).
Proof.
  intros N A. inversion A as [| | | | | | |l0 p0 b0 l' N1 Nb Ll Bl E1 E2 E3 E4| |]; subst; try congruence.
  - rewrite <- zlen_cat. assert (l' = l ++ b); [|subst l'; auto]. pose proof (zlen_nat b). apply bytes_eq; [rewrite zlen_cat, Ll; lia|]. intros i R. rewrite Bl by exact R. rewrite byte_cat by lia. destruct (Z.leb_spec (zlen l) i); cbn [andb].
    + rewrite (proj2 (Z.ltb_ge i (zlen l))) by lia. rewrite (proj2 (Z.ltb_lt i _)); [reflexivity|]. lia.
    + now rewrite (proj2 (Z.ltb_lt i (zlen l))) by lia.
  - now rewrite app_nil_r.
Qed.
Lemma writes_append m bs : forall l rs s', m <> MRead -> asteps m (map OWrite bs) (l, zlen l) rs s' -> s' = (l ++ concat bs, zlen (l ++ concat bs)) /\ rs = map (fun b => RNum (zlen b)) bs.
Proof.
  induction bs as [|b bs IH]; intros l rs s' N A; cbn [map concat] in *; inversion A as [|o os s0 r s1 rs1 s2 A1 A2]; subst; [now rewrite app_nil_r|].
  apply astep_append in A1 as [-> ->]; [|exact N]. apply IH in A2 as [-> ->]; [|exact N]. now rewrite app_assoc.
Qed.
Lemma astep_slice m n l p r s' : m <> MWrite -> 0 <= p -> 0 <= n -> astep m (ORead n) (l, p) r s' -> r = RBytes (slice l p n) /\ s' = (l, p + zlen (slice l p n)).
Proof.
  intros N P Hn A. inversion A as [| | | | |l0 p0 n0 b N1 Lb Bb E1 E2 E3 E4| | | |]; subst; try congruence. destruct (slice_spec l p n P Hn) as [Ls Bs]. assert (b = slice l p n); [|subst b; auto]. apply bytes_eq; [congruence|]. intros i R. rewrite Bb by exact R. symmetry. apply Bs. lia.
Qed.
Lemma slice_app (l : list Z) p n k : 0 <= p -> 0 <= n -> 0 <= k -> slice l p n ++ slice l (p + zlen (slice l p n)) k = slice l p (n + k).
Proof.
  intros P N K. destruct (slice_spec l p n P N) as [L1 B1]. pose proof (zlen_nat (slice l p n)). destruct (slice_spec l (p + zlen (slice l p n)) k ltac:(lia) K) as [L2 B2]. destruct (slice_spec l p (n + k) P ltac:(lia)) as [L3 B3].
  assert (EL : zlen (slice l p n ++ slice l (p + zlen (slice l p n)) k) = zlen (slice l p (n + k))) by (rewrite zlen_cat, L2, L3, L1; lia).
  apply bytes_eq; [exact EL|]. intros i R. rewrite B3 by lia. rewrite byte_cat by lia. rewrite zlen_cat in R. destruct (Z.ltb_spec i (zlen (slice l p n))); [apply B1; lia|]. rewrite B2 by lia. f_equal. lia.
Qed.
Lemma reads_prefix m ns : forall l p rs s', m <> MWrite -> 0 <= p -> Forall (fun n => 0 <= n) ns -> asteps m (map ORead ns) (l, p) rs s' -> exists cs, rs = map RBytes cs /\ concat cs = slice l p (chunk_sum ns) /\ 0 <= chunk_sum ns.
Proof.
  induction ns as [|n ns IH]; intros l p rs s' N P G A; cbn [map chunk_sum fold_right] in *; inversion A as [|o os s0 r s1 rs1 s2 A1 A2]; subst; [exists []; repeat split; lia|]. inversion G as [|? ? G1 G2]; subst.
  apply astep_slice in A1 as [-> ->]; auto. pose proof (zlen_nat (slice l p n)). apply IH in A2 as (cs & -> & E & S0); auto; [|lia]. fold (chunk_sum ns). exists (slice l p n :: cs). split; [reflexivity|]. split; [|lia]. cbn [concat]. rewrite E. now apply slice_app.
Qed.
(** closing: the stream is gone, the disk is as it was *)
Theorem C129_close : forall f w m q l p, streams f w m q l p -> exists w', f_close true f w = Val (RUnit, F (fpath f) None, w') /\ disk w' = disk w /\ forall w'', f_close true (F (fpath f) None) w'' = Val (RUnit, F (fpath f) None, w'').
Proof.
  intros f w m q l p (P & h & i & la & Eh & En & A & Ed). unfold f_close. rewrite Eh. unfold with_handle. rewrite Eh, En. eexists. split; [reflexivity|]. split; reflexivity.
Qed.
Theorem C129_round_trip : forall f w bs ns, wf (disk w) -> in_directory (disk w) (fpath f) -> (at_ (disk w) (fpath f) = None \/ exists l, holds (disk w) (fpath f) l) -> Forall (fun n => 0 <= n) ns ->
  exists f1 w1 w2 f2 w3 f3 w4 cs w5,
    f_open MWrite f w = Val (RStatus eOK, f1, w1) /\
    sexec_all (map OWrite bs) f1 w1 = Val (map (fun b => RNum (zlen b)) bs, w2) /\
    f_close true f1 w2 = Val (RUnit, f2, w3) /\ holds (disk w3) (fpath f) (concat bs) /\
    f_open MRead f2 w3 = Val (RStatus eOK, f3, w4) /\
    sexec_all (map ORead ns) f3 w4 = Val (map RBytes cs, w5) /\ concat cs = firstn (Z.to_nat (chunk_sum ns)) (concat bs).
Proof.
  intros f w bs ns W D K G.
  assert (O : exists f1 w1, f_open MWrite f w = Val (RStatus eOK, f1, w1) /\ fpath f1 = fpath f /\ streams f1 w1 MWrite (fpath f) [] 0 /\ wf (disk w1)).
  { destruct K as [K|[l K]].
    - destruct (C129_open_missing MWrite f w W D K) as [_ O]. destruct (O eq_refl) as (f1 & w1 & E & S & _ & W1). exists f1, w1. split; [exact E|]. split; [|auto]. unfold f_open in E. destruct (fopen MWrite (fpath f) w) as [[h w0]|[]]; try discriminate. now injection E as <- _.
    - destruct (C129_open MWrite f w l W K) as (f1 & w1 & E & Ep & S & _ & W1). exists f1, w1. auto. }
  destruct O as (f1 & w1 & E1 & P1 & S1 & W1).
  destruct (C129_one_way_defined (map OWrite bs) f1 w1 _ _ _ _ W1 S1 ltac:(discriminate)) as (rs & w2 & E2). { clear. induction bs; constructor; auto. exact I. }
  destruct (C129_history _ _ _ _ _ _ _ _ _ W1 S1 E2) as (l2 & p2 & A2 & S2 & _ & W2). apply (writes_append MWrite bs []) in A2 as [A2 ->]; [|discriminate]. cbn [app] in A2. injection A2 as -> ->.
  destruct (C129_close _ _ _ _ _ _ S2) as (w3 & E3 & D3 & _). assert (H3 : holds (disk w3) (fpath f) (concat bs)) by (rewrite D3; destruct S2 as (_ & h & i & la & _ & _ & A & Ed); exists i; auto).
  rewrite P1 in E3. destruct (C129_open MRead (F (fpath f) None) w3 (concat bs)) as (f3 & w4 & E4 & _ & S4 & _ & W4); [now rewrite D3|exact H3|]. cbn [fpath] in *.
  destruct (C129_one_way_defined (map ORead ns) f3 w4 _ _ _ _ W4 S4 ltac:(discriminate)) as (rs & w5 & E5). { clear - G. induction G; constructor; auto. }
  destruct (C129_history _ _ _ _ _ _ _ _ _ W4 S4 E5) as (l5 & p5 & A5 & _). destruct (reads_prefix MRead ns (concat bs) 0 _ _ ltac:(discriminate) (Z.le_refl 0) G A5) as (cs & -> & C5 & _).
  exists f1, w1, w2, (F (fpath f) None), w3, f3, w4, cs, w5. do 6 (split; [assumption|]). rewrite C5. unfold slice. reflexivity.
Qed.
(** ** handles *)
(** on a File that is not open every operation but close is undefined *)
Theorem C129_unopened_refuted : forall o p w, sexec o (F p None) w = UB /\ f_close true (F p None) w = Val (RUnit, F p None, w).
Proof. intros [x|d| |n|b] p w; split; reflexivity. Qed.
(** a copy of an open File has the same handle: closing both is undefined, and so is reading from the other one *)
Theorem C129_copies_refuted : forall f w m q l p, streams f w m q l p -> forall g, fh g = fh f -> exists f' w', f_close true f w = Val (RUnit, f', w') /\ f_close true g w' = UB /\ forall o, sexec o g w' = UB.
Proof.
  intros f w m q l p (P & h & i & la & Eh & En & A & Ed) g Eg. unfold f_close. rewrite Eh. unfold with_handle at 1. rewrite Eh, En. eexists _, _. split; [reflexivity|].
  assert (N : nth_error (put (hs w) h None) h = Some None) by (eapply hs_put; exact En).
  split; [rewrite Eg, Eh; unfold with_handle; rewrite Eg, Eh; cbn [hs]; now rewrite N|]. intros o. destruct o; cbn [sexec]; unfold f_seek, f_move, f_position, f_read, f_write, with_handle; rewrite Eg, Eh; cbn [hs]; now rewrite N.
Qed.
(** if fclose reports an error, close throws and keeps the handle of the stream that is gone: closing again is undefined *)
Theorem C129_close_error_refuted : forall f w m q l p, streams f w m q l p -> exists w', f_close false f w = Val (RThrow, f, w') /\ f_is_open f = true /\ f_close true f w' = UB.
Proof.
  intros f w m q l p (P & h & i & la & Eh & En & A & Ed). unfold f_close, f_is_open. rewrite Eh. unfold with_handle. rewrite Eh, En. eexists. split; [reflexivity|]. split; [reflexivity|]. cbn [hs]. now rewrite (hs_put (hs w) h _ _ En).
Qed.
(** opening a File that is open, or creating it anew, forgets the handle without closing it *)
Theorem C129_leak_refuted : forall f w m q l p, streams f w m q l p -> wf (disk w) -> fpath f = q -> forall m', exists f' w' h hd, f_open m' f w = Val (RStatus eOK, f', w') /\ fh f = Some h /\ nth_error (hs w') h = Some (Some hd) /\ fh f' <> Some h.
Proof.
  intros f w m q l p (P & h & i & la & Eh & En & A & Ed) W Eq m'. subst q. unfold f_open, fopen. rewrite (follow_id _ _ _ W (walk_some _ _ _ W A)) by (rewrite A; discriminate). rewrite A.
  assert (Lh : (h < length (hs w))%nat) by (apply nth_error_Some; congruence). destruct m'; unfold add_handle; eexists _, _, h, _; (split; [reflexivity|]); (split; [exact Eh|]); cbn [hs fh]; (split; [rewrite nth_error_app1 by exact Lh; exact En|]); intros [= E]; lia.
Qed.
(** ** a concrete case: open /a/b (holding "xy") for reading and writing, write "z" behind a gap, read all *)
Example ex_open : exists f' w', f_open MReadWrite (F [na; nb] None) (W ex_s []) = Val (RStatus eOK, f', w') /\ streams f' w' MReadWrite [na; nb] [120; 121] 0.
Proof. destruct (C129_open MReadWrite (F [na; nb] None) (W ex_s []) [120; 121] ex_wf) as (f' & w' & E & _ & S & _); [exists 0%nat; split; reflexivity|]. exists f', w'. auto. Qed.
Example ex_io : exists f' w' w'', f_open MReadWrite (F [na; nb] None) (W ex_s []) = Val (RStatus eOK, f', w') /\
  sexec_all [OSeek 3; OWrite [122]; OSeek 0; ORead 10; OMove (-2); OPos; OSeek (-1)] f' w' = Val ([RUnit; RNum 1; RUnit; RBytes [120; 121; 0; 122]; RUnit; RNum 2; RThrow], w'').
Proof. eexists _, _, _. split; vm_compute; reflexivity. Qed.
Example ex_round : in_directory (disk (W ex_s [])) [nc; na] /\ at_ (disk (W ex_s [])) [nc; na] = None /\ wf (disk (W ex_s [])).
Proof. split; [exists [nc], na; split; reflexivity|]. split; [reflexivity|exact ex_wf]. Qed.
Print Assumptions C129_open.
Print Assumptions C129_open_missing.
Print Assumptions C129_open_no_directory.
Print Assumptions C129_step.
Print Assumptions C129_history.
Print Assumptions C129_one_way_defined.
Print Assumptions C129_seek_first_defined.
Print Assumptions C129_switch_refuted.
Print Assumptions C129_close.
Print Assumptions C129_round_trip.
Print Assumptions C129_unopened_refuted.
Print Assumptions C129_copies_refuted.
Print Assumptions C129_close_error_refuted.
Print Assumptions C129_leak_refuted.
