(** P_MemoryStream.v -- C47, C48: MemoryStream (src/core/MemoryStream.cpp). *)
From Verif Require Import Base M_String L_String M_MemoryStream S_MemoryStream.
Ltac Zify.zify_post_hook ::= Z.to_euclidean_division_equations.

Lemma in_s64_spec z : in_s64 z = true <-> - 2 ^ 63 <= z < 2 ^ 63.
Proof. unfold in_s64. rewrite andb_true_iff. change (2 ^ 63) with 9223372036854775808. lia. Qed.
Lemma in_s64_false z : in_s64 z = false <-> z < - 2 ^ 63 \/ 2 ^ 63 <= z.
Proof. unfold in_s64. rewrite andb_false_iff. change (2 ^ 63) with 9223372036854775808. lia. Qed.
Lemma chk64_eq z : chk64 z = if in_s64 z then Val z else UB. Proof. reflexivity. Qed.
Lemma memcpy_out dst d src s n : memcpy dst d src s n = if (0 <=? d) && (0 <=? s) && (0 <=? n) && (d + n <=? zlen dst) && (s + n <=? zlen src) then Val (ztake d dst ++ ztake n (zdrop s src) ++ zdrop (d + n) dst) else UB.
Proof. reflexivity. Qed.
Lemma zdrop_all {A} (l : list A) n : zlen l <= n -> zdrop n l = [].
Proof. intros H. unfold zdrop, zlen in *. apply skipn_all2. lia. Qed.
Lemma zlen_part (b : list Z) p n : 0 <= p -> 0 <= n -> p + n <= zlen b -> zlen (part b p n) = n.
Proof. intros. unfold part, ztake, zdrop, zlen in *. rewrite firstn_length, skipn_length. lia. Qed.
Lemma step_ok o b p w : p <= zlen b < 2 ^ 63 -> - 2 ^ 63 <= p ->
  match mstep o b p with
  | Some (a, b', p') => (exists w', mexec o (MS b p w) = Val (a, MS b' p' w')) /\ p' <= zlen b' /\ zlen b' = zlen b
  | None => mexec o (MS b p w) = UB
  end.
Proof.
  intros Hp Hm. pose proof (zlen_nonneg b) as Hb. destruct o as [n|d|q|o| | | |]; cbn [mstep mexec].
  - unfold ms_read, available. cbn [mbytes mpos mwlen]. rewrite (chk64_eq (p + n)). destruct (in_s64 (p + n)) eqn:E; cbn [negb bind]; [|reflexivity]. apply in_s64_spec in E.
    assert (A : (n <= 0 \/ 0 <= p) -> (if p + n <? zlen b then Val n else chk64 (zlen b - p)) = Val (Z.min n (zlen b - p))).
    { intros Hn. destruct (Z.ltb_spec (p + n) (zlen b)); [f_equal; lia|]. unfold chk64. replace (in_s64 (zlen b - p)) with true; [f_equal; lia|]. symmetry. apply in_s64_spec. lia. }
    destruct (Z.leb_spec (Z.min n (zlen b - p)) 0) as [K|K].
    + rewrite A by lia. cbn [bind]. replace (Z.min n (zlen b - p) >? 0) with false by lia. cbn [bind]. split; [exists w; reflexivity|lia].
    + destruct (Z.ltb_spec p 0) as [N|N].
      * assert (U : exists a, 0 < a /\ ((if p + n <? zlen b then Val n else chk64 (zlen b - p)) = Val a \/ (if p + n <? zlen b then Val n else chk64 (zlen b - p)) = UB)).
        { destruct (p + n <? zlen b); [exists n; split; [lia|now left]|]. exists (zlen b - p). split; [lia|]. unfold chk64. destruct (in_s64 _); auto. }
        destruct U as (a & Ha & [->| ->]); cbn [bind]; [|reflexivity]. replace (a >? 0) with true by lia. rewrite memcpy_out. replace ((0 <=? 0) && (0 <=? p)) with false by lia. reflexivity.
      * rewrite A by lia. cbn [bind]. set (k := Z.min n (zlen b - p)) in *. replace (k >? 0) with true by lia. rewrite memcpy_out, zlen_zeros by lia.
        replace ((0 <=? 0) && (0 <=? p) && (0 <=? k) && (0 + k <=? n) && (p + k <=? zlen b)) with true by lia. cbn [bind]. unfold chk64. replace (in_s64 (p + k)) with true by (symmetry; apply in_s64_spec; lia). cbn [bind].
        split; [|lia]. exists w. do 3 f_equal. fold (part b p k). change (ztake 0 (zeros n)) with (@nil Z). cbn [app]. apply ztake_app. rewrite zlen_part; lia.
  - unfold ms_write, available. cbn [mbytes mpos mwlen]. pose proof (zlen_nonneg d). destruct (Z.leb_spec 0 p) as [N|N]; cbn [andb].
    + destruct (Z.leb_spec (p + zlen d) (zlen b)) as [L|L].
      * rewrite (chk64_eq (p + zlen d)). replace (in_s64 (p + zlen d)) with true by (symmetry; apply in_s64_spec; lia). cbn [bind].
        replace (if p + zlen d <? zlen b then Val (zlen d) else chk64 (zlen b - p)) with (Val (zlen d)).
        2:{ destruct (Z.ltb_spec (p + zlen d) (zlen b)); [reflexivity|]. unfold chk64. replace (in_s64 (zlen b - p)) with true by (symmetry; apply in_s64_spec; lia). f_equal. lia. }
        cbn [bind]. replace (zlen d <? 0) with false by lia. rewrite memcpy_out. replace (_ && _ && _ && _ && _) with true by lia. cbn [bind]. unfold chk64. replace (in_s64 (p + zlen d)) with true by (symmetry; apply in_s64_spec; lia). cbn [bind].
        assert (Ed : ztake (zlen d) (zdrop 0 d) = d) by (unfold zdrop; cbn [Z.to_nat skipn]; rewrite <- (app_nil_r d) at 2; now apply ztake_app).
        rewrite Ed. fold (splice b p d). split; [eexists; reflexivity|]. unfold splice. rewrite !zlen_app. unfold ztake, zdrop, zlen in *. rewrite firstn_length, skipn_length. lia.
      * rewrite (chk64_eq (p + zlen d)). destruct (in_s64 (p + zlen d)) eqn:E; cbn [bind]; [|reflexivity]. destruct (Z.ltb_spec (p + zlen d) (zlen b)); [lia|]. rewrite (chk64_eq (zlen b - p)). destruct (in_s64 (zlen b - p)); cbn [bind]; [|reflexivity]. replace (zlen d <? 0) with false by lia. rewrite memcpy_out. replace (_ && _ && _ && _ && _) with false by lia. reflexivity.
    + rewrite (chk64_eq (p + zlen d)). destruct (in_s64 (p + zlen d)) eqn:E; cbn [bind]; [|reflexivity]. assert (U : exists a, (if p + zlen d <? zlen b then Val (zlen d) else chk64 (zlen b - p)) = Val a \/ (if p + zlen d <? zlen b then Val (zlen d) else chk64 (zlen b - p)) = UB) by (destruct (p + zlen d <? zlen b); [exists (zlen d); now left|]; unfold chk64; destruct (in_s64 (zlen b - p)); [exists (zlen b - p); now left|exists 0; now right]).
      destruct U as (a & [->| ->]); [|reflexivity].
      cbn [bind]. replace (zlen d <? 0) with false by lia. rewrite memcpy_out. replace (0 <=? p) with false by lia. reflexivity.
  - unfold ms_seek, mseek. cbn [mbytes mpos mwlen]. split; [eexists; reflexivity|]. destruct (Z.ltb_spec q (zlen b)); lia.
  - unfold ms_move. cbn [mbytes mpos mwlen]. unfold chk64. destruct (in_s64 (p + o)); cbn [bind]; [|reflexivity]. unfold ms_seek, mseek. cbn [mbytes mpos mwlen]. split; [eexists; reflexivity|]. destruct (Z.ltb_spec (p + o) (zlen b)); lia.
  - cbn. split; [eexists; reflexivity|lia].
  - cbn. split; [eexists; reflexivity|lia].
  - cbn. split; [eexists; reflexivity|lia].
  - cbn. split; [eexists; reflexivity|lia].
Qed.
(** arguments of int64 parameters *)
Definition marg (o : mop) : Prop := match o with MRead n | MSeek n | MMove n => - 2 ^ 63 <= n < 2 ^ 63 | _ => True end.
Lemma step_low o b p a b' p' : marg o -> - 2 ^ 63 <= p -> mstep o b p = Some (a, b', p') -> - 2 ^ 63 <= p'.
Proof.
  intros A L. destruct o as [n|d|q|o| | | |]; cbn [mstep marg] in *; try (intros E; injection E as <- <- <-; lia).
  - destruct (in_s64 (p + n)); cbn [negb]; [|discriminate]. destruct (Z.leb_spec (Z.min n (zlen b - p)) 0); [intros E; injection E as <- <- <-; lia|]. destruct (Z.ltb_spec p 0); [discriminate|]. intros E. injection E as <- <- <-. lia.
  - destruct (_ && _); [|discriminate]. intros E. injection E as <- <- <-. pose proof (zlen_nonneg d). lia.
  - intros E. injection E as <- <- <-. unfold mseek. destruct (_ <? _); lia.
  - destruct (in_s64 (p + o)) eqn:E; [|discriminate]. apply in_s64_spec in E. intros X. injection X as <- <- <-. unfold mseek. destruct (_ <? _); lia.
Qed.
Lemma steps_ok : forall os b p w, Forall marg os -> p <= zlen b < 2 ^ 63 -> - 2 ^ 63 <= p ->
  match msteps os b p with
  | Some (r, b', p') => exists w', mexec_all os (MS b p w) = Val (r, MS b' p' w') /\ p' <= zlen b' /\ zlen b' = zlen b
  | None => mexec_all os (MS b p w) = UB
  end.
Proof.
  induction os as [|o os IH]; intros b p w A Hp Hm; cbn [msteps mexec_all].
  - exists w. split; [reflexivity|lia].
  - inversion A as [|? ? Ao As]; subst. pose proof (step_ok o b p w Hp Hm) as S. pose proof (step_low o b p) as Lo. destruct (mstep o b p) as [[[a b1] p1]|]; [|now rewrite S]. destruct S as ((w1 & ->) & Hp1 & L1). cbn [bind]. specialize (Lo a b1 p1 Ao Hm eq_refl).
    specialize (IH b1 p1 w1 As ltac:(lia) Lo). destruct (msteps os b1 p1) as [[[r b'] p']|]; [|now rewrite IH]. destruct IH as (w' & -> & Hp' & L'). exists w'. split; [reflexivity|lia].
Qed.

(** C47. Reading chunks of any sizes from any position: every chunk is the next part of the bytes, as long as asked for or as there is. *)
Fixpoint chunks (b : list Z) (p : Z) (ns : list Z) : list mans :=
  match ns with [] => [] | n :: ns => let k := Z.min n (zlen b - p) in MGot k (part b p k) :: chunks b (p + k) ns end.
Theorem C47_reads b p ns w : Forall (fun n => 0 <= n <= 2 ^ 62) ns -> 0 <= p <= zlen b -> zlen b < 2 ^ 62 ->
  exists p' w', mexec_all (map MRead ns) (MS b p w) = Val (chunks b p ns, MS b p' w') /\ p' = Z.min (p + fold_right Z.add 0 ns) (zlen b).
Proof.
  intros F. revert p w. induction F as [|n ns Hn F IH]; intros p w Hp Hb; cbn [map mexec_all chunks fold_right].
  - exists p, w. split; [reflexivity|lia].
  - pose proof (step_ok (MRead n) b p w ltac:(lia) ltac:(lia)) as S. cbn [mstep] in S. replace (in_s64 (p + n)) with true in S by (symmetry; apply in_s64_spec; lia). cbn [negb] in S. replace (p <? 0) with false in S by lia.
    assert (Pos : 0 <= fold_right Z.add 0 ns) by (clear - F; induction F; cbn [fold_right]; lia).
    destruct (Z.leb_spec (Z.min n (zlen b - p)) 0).
    + destruct S as ((w1 & ->) & _). cbn [bind]. assert (K : Z.min n (zlen b - p) = 0) by lia. rewrite K, Z.add_0_r. destruct (IH p w1 Hp Hb) as (p' & w' & -> & E). cbn [bind]. exists p', w'. split; [reflexivity|lia].
    + destruct S as ((w1 & ->) & _). cbn [bind]. destruct (IH (p + Z.min n (zlen b - p)) w1 ltac:(lia) Hb) as (p' & w' & -> & E). cbn [bind]. exists p', w'. split; [reflexivity|lia].
Qed.
(** Put together the chunks are the bytes themselves: each once, none twice, nothing beyond the end; then 0. *)
Definition got (a : mans) : list Z := match a with MGot _ d => d | _ => [] end.
Lemma skip2 {A} : forall n m (l : list A), skipn m (skipn n l) = skipn (n + m) l.
Proof. induction n as [|n IH]; intros m l; [reflexivity|]. destruct l; [now rewrite !skipn_nil|]. apply IH. Qed.
Lemma part_app (b : list Z) p k n : 0 <= p -> 0 <= k -> p + k <= zlen b -> 0 <= n -> part b p k ++ part b (p + k) n = part b p (k + n).
Proof.
  intros Hp Hk L Hn. unfold part, ztake, zdrop. replace (Z.to_nat (k + n)) with (Z.to_nat k + Z.to_nat n)%nat by lia. replace (Z.to_nat (p + k)) with (Z.to_nat p + Z.to_nat k)%nat by lia. rewrite <- skip2. set (l := skipn (Z.to_nat p) b). rewrite <- (firstn_skipn (Z.to_nat k) l) at 3. rewrite firstn_app. rewrite firstn_firstn. replace (Nat.min _ _) with (Z.to_nat k) by lia. f_equal. f_equal. rewrite firstn_length. assert (length l = (length b - Z.to_nat p)%nat) by apply skipn_length. unfold zlen in L. lia.
Qed.
Theorem C47_all_bytes_once b p ns : Forall (fun n => 0 <= n) ns -> 0 <= p <= zlen b ->
  concat (map got (chunks b p ns)) = part b p (Z.min (fold_right Z.add 0 ns) (zlen b - p)) /\ (zlen b - p <= fold_right Z.add 0 ns -> concat (map got (chunks b p ns)) = zdrop p b).
Proof.
  intros F. revert p. induction F as [|n ns Hn F IH]; intros p Hp; cbn [chunks map concat fold_right got].
  - replace (Z.min 0 (zlen b - p)) with 0 by lia. split; [reflexivity|]. intros H. rewrite zdrop_all by lia. reflexivity.
  - assert (Pos : 0 <= fold_right Z.add 0 ns) by (clear - F; induction F; cbn [fold_right]; lia).
    destruct (IH (p + Z.min n (zlen b - p)) ltac:(lia)) as [E _]. rewrite E. assert (G : part b p (Z.min n (zlen b - p)) ++ part b (p + Z.min n (zlen b - p)) (Z.min (fold_right Z.add 0 ns) (zlen b - (p + Z.min n (zlen b - p)))) = part b p (Z.min (n + fold_right Z.add 0 ns) (zlen b - p))).
    { rewrite part_app by lia. f_equal. lia. }
    rewrite G. split; [reflexivity|]. intros H. unfold part. replace (Z.min _ _) with (zlen b - p) by lia. unfold ztake, zdrop, zlen in *. apply firstn_all2. rewrite skipn_length. lia.
Qed.

(** C48. Any history of calls has exactly the outcome of the byte-and-position machine: the same answers, bytes and position where that
    is defined, and undefined behaviour where it is not (a write that does not fit, access at a negative position, overflow of a sum). *)
Theorem C48_history b os : Forall marg os -> zlen b < 2 ^ 63 ->
  match msteps os b 0 with
  | Some (r, b', p') => exists w', mexec_all os (ms_new b) = Val (r, MS b' p' w') /\ p' <= zlen b' /\ zlen b' = zlen b
  | None => mexec_all os (ms_new b) = UB
  end.
Proof. intros A H. pose proof (zlen_nonneg b). apply steps_ok; [exact A|lia|lia]. Qed.
(** ... and mWritelength tells how far has been written. *)
Lemma step_written o b p w a b' p' w' : mexec o (MS b p w) = Val (a, MS b' p' w') -> w' = match o with MWrite d => Z.max w p' | MOpen => 0 | _ => w end.
Proof.
  destruct o as [n|d|q|o| | | |]; cbn [mexec]; unfold ms_seek, ms_open, ms_close; cbn [mbytes mpos mwlen]; try (intros E; injection E as <- <- <- <-; reflexivity).
  - unfold ms_read. destruct (available _ _) as [k| | |]; try discriminate. cbn [bind mbytes mpos mwlen]. destruct (k >? 0); [|intros E; injection E as <- <- <- <-; reflexivity].
    destruct (memcpy _ _ _ _ _) as [c| | |]; try discriminate. cbn [bind]. destruct (chk64 _) as [c'| | |]; try discriminate. intros E. injection E as <- <- <- <-. reflexivity.
  - unfold ms_write. destruct (available _ _) as [k| | |]; try discriminate. cbn [bind mbytes mpos mwlen]. destruct (if zlen d <? 0 then _ else _) as [c| | |]; try discriminate. cbn [bind]. destruct (chk64 _) as [c'| | |]; try discriminate. cbn [bind].
    intros E. injection E as <- <- <- <-. rewrite Z.gtb_ltb. destruct (Z.ltb_spec w c'); lia.
  - unfold ms_move. cbn [mbytes mpos mwlen]. destruct (chk64 _) as [c'| | |]; try discriminate. cbn [bind]. unfold ms_seek. cbn [mbytes mpos mwlen]. intros E. injection E as <- <- <- <-. reflexivity.
Qed.
Theorem C48_written b os r s : Forall marg os -> zlen b < 2 ^ 63 -> mexec_all os (ms_new b) = Val (r, s) -> mwlen s = written os b 0 0.
Proof.
  intros A H. pose proof (zlen_nonneg b). unfold ms_new. assert (G : forall p w, p <= zlen b < 2 ^ 63 -> - 2 ^ 63 <= p -> mexec_all os (MS b p w) = Val (r, s) -> mwlen s = written os b p w); [|apply G; lia]. clear H0 H.
  revert b r s A. induction os as [|o os IH]; intros b r s A p w Hp Hm; cbn [mexec_all written]; [intros E; injection E as <- <-; reflexivity|]. apply Forall_cons_iff in A as [Ao As].
  pose proof (step_ok o b p w Hp Hm) as S. pose proof (step_low o b p) as Lo. destruct (mstep o b p) as [[[a b1] p1]|] eqn:M; [|rewrite S; discriminate]. destruct S as ((w1 & S) & Hp1 & L1). rewrite S. cbn [bind]. specialize (Lo a b1 p1 Ao Hm eq_refl).
  destruct (mexec_all os (MS b1 p1 w1)) as [[r' s']| | |] eqn:E; try discriminate. cbn [bind]. intros X. injection X as _ <-. rewrite (IH b1 r' s' As p1 w1 ltac:(lia) Lo E). f_equal. apply step_written in S. rewrite S. destruct o as [n|d|q|o| | | |]; try reflexivity. f_equal.
  cbn [mstep] in M. destruct (_ && _); [|discriminate]. injection M as <- <- <-. reflexivity.
Qed.
Print Assumptions C48_written.
Example C48_written_ex : written [MWrite [1; 2; 3]; MSeek 0; MWrite [4]] [0; 0; 0; 0] 0 0 = 3 /\ written [MWrite [1; 2; 3]; MOpen; MWrite [4]] [0; 0; 0; 0] 0 0 = 1.
Proof. split; reflexivity. Qed.
(** A write that fits is stored at the position, changes nothing else and advances by its length. *)
Theorem C48_write_fits b p w d : 0 <= p -> p + zlen d <= zlen b -> zlen b < 2 ^ 63 ->
  exists w', ms_write (MS b p w) d (zlen d) = Val (zlen d, MS (splice b p d) (p + zlen d) w') /\ forall i, lget (splice b p d) i = if (p <=? i) && (i <? p + zlen d) then lget d (i - p) else lget b i.
Proof.
  intros Hp L Hb. pose proof (zlen_nonneg d). pose proof (step_ok (MWrite d) b p w ltac:(lia) ltac:(lia)) as S. cbn [mstep mexec] in S. replace ((0 <=? p) && (p + zlen d <=? zlen b)) with true in S by lia. destruct S as ((w' & S) & _). destruct (ms_write (MS b p w) d (zlen d)) as [[k s]| | |]; try discriminate. cbn [bind] in S. injection S as -> ->. exists w'. split; [reflexivity|].
  intros i. unfold splice. assert (Lt : zlen (ztake p b) = p) by (unfold ztake, zlen in *; rewrite firstn_length; lia).
  destruct (Z.ltb_spec i 0); [rewrite !lget_out by lia; destruct (Z.leb_spec p i); [lia|reflexivity]|].
  destruct (Z.leb_spec p i); cbn [andb].
  - rewrite lget_app_r by lia. rewrite Lt. destruct (Z.ltb_spec i (p + zlen d)); [rewrite lget_app_l by lia; reflexivity|]. rewrite lget_app_r by lia. unfold zdrop, lget. destruct (Z.ltb_spec (i - p - zlen d) 0); [lia|]. destruct (Z.ltb_spec i 0); [lia|]. rewrite nth_error_skipn || (rewrite <- (firstn_skipn (Z.to_nat (p + zlen d)) b) at 2; rewrite nth_error_app2; [|unfold zlen in *; rewrite firstn_length; lia]). f_equal. unfold zlen in *. rewrite ?firstn_length. lia.
  - rewrite lget_app_l by lia. unfold ztake, lget. destruct (Z.ltb_spec i 0); [lia|]. rewrite <- (firstn_skipn (Z.to_nat p) b) at 2. rewrite nth_error_app1; [reflexivity|]. unfold zlen in *. rewrite firstn_length. lia.
Qed.
(** A write that does not fit is undefined: it copies beyond the end of the buffer. *)
Theorem C48_write_overrun_refuted b p w d : 0 <= p <= zlen b -> zlen b < p + zlen d -> zlen b < 2 ^ 63 -> ms_write (MS b p w) d (zlen d) = UB.
Proof.
  intros Hp L Hb. pose proof (step_ok (MWrite d) b p w ltac:(lia) ltac:(lia)) as S. cbn [mstep mexec] in S. replace ((0 <=? p) && (p + zlen d <=? zlen b)) with false in S by lia. destruct (ms_write (MS b p w) d (zlen d)) as [[k s]| | |]; try discriminate; [reflexivity].
Qed.
(** Seeking to any negative position is accepted, and every read of a positive number of bytes is then undefined. *)
Theorem C48_negative_seek_refuted b p w q n buffer : p <= zlen b < 2 ^ 63 -> - 2 ^ 63 <= q < 0 -> 0 < n < 2 ^ 63 -> mpos (ms_seek (MS b p w) q) = q /\ ms_read (ms_seek (MS b p w) q) buffer n = UB.
Proof.
  intros Hp Hq Hn. pose proof (zlen_nonneg b). unfold ms_seek. cbn [mbytes mpos mwlen]. replace (q <? zlen b) with true by lia. split; [reflexivity|]. unfold ms_read, available. cbn [mbytes mpos mwlen]. rewrite (chk64_eq (q + n)). replace (in_s64 (q + n)) with true by (symmetry; apply in_s64_spec; lia). cbn [bind].
  destruct (Z.ltb_spec (q + n) (zlen b)); cbn [bind].
  - replace (n >? 0) with true by lia. rewrite memcpy_out. replace (0 <=? q) with false by lia. rewrite andb_false_r. reflexivity.
  - rewrite (chk64_eq (zlen b - q)). destruct (in_s64 _); cbn [bind]; [|reflexivity]. replace (zlen b - q >? 0) with true by lia. rewrite memcpy_out. replace (0 <=? q) with false by lia. rewrite andb_false_r. reflexivity.
Qed.
(** The end itself cannot be sought: seek to the size is ignored. *)
Theorem C48_seek_to_end_ignored b p w q : zlen b <= q -> ms_seek (MS b p w) q = MS b p w.
Proof. intros H. unfold ms_seek. cbn [mbytes mpos mwlen]. replace (q <? zlen b) with false by lia. reflexivity. Qed.

Example C47_ex : mexec_all (map MRead [2; 0; 5; 3]) (ms_new [1; 2; 3; 4]) = Val ([MGot 2 [1; 2]; MGot 0 []; MGot 2 [3; 4]; MGot 0 []], MS [1; 2; 3; 4] 4 0).
Proof. reflexivity. Qed.
Example C48_ex : mexec_all [MRead 1; MWrite [8; 9]; MMove (-2); MRead 3; MPos] (ms_new [1; 2; 3; 4]) = Val ([MGot 1 [1]; MNum 2; MUnit; MGot 3 [8; 9; 4]; MNum 4], MS [1; 8; 9; 4] 4 3).
Proof. reflexivity. Qed.
Print Assumptions C47_reads. Print Assumptions C47_all_bytes_once. Print Assumptions C48_history. Print Assumptions C48_write_fits.
Print Assumptions C48_write_overrun_refuted. Print Assumptions C48_negative_seek_refuted. Print Assumptions C48_seek_to_end_ignored.
