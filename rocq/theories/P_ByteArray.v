(** P_ByteArray.v -- C49: ByteArray storage; C27: ByteArray::sort. *)
From Verif Require Import Base M_Sort S_Sort L_Sort M_ByteArray S_ByteArray L_ByteArray.
Ltac Zify.zify_post_hook ::= Z.to_euclidean_division_equations.

(** ** construction *)
Lemma build_ok t buf f : (forall i, 0 <= i < zlen t -> f i = Val (option_map (fun z => z) (lget t i))) -> zlen buf = zlen t + 1 ->
  exists l, write_loop buf f 0 (length t) = Val l /\ zlen l = zlen t + 1 /\ forall j, lget l j = if (0 <=? j) && (j <? zlen t) then option_map Some (lget t j) else lget buf j.
Proof.
  intros Hf Hb. destruct (write_loop_ok f (fun i => lget t i) (length t) buf 0) as (l & E & Z1 & G); [lia|fold (zlen t); lia|intros j Hj; fold (zlen t) in Hj; rewrite Hf by lia; destruct (lget_range t j ltac:(lia)) as [c ->]; reflexivity|].
  exists l. split; [exact E|]. split; [lia|]. intros j. rewrite G. fold (zlen t). replace (0 + zlen t) with (zlen t) by lia. destruct ((0 <=? j) && (j <? zlen t)) eqn:B; [|reflexivity]. destruct (lget_range t j ltac:(lia)) as [c ->]. reflexivity.
Qed.
(** each constructor from bytes (initialiser list, buffer with length, C string, repeated byte) gives an array with exactly those
    bytes and a terminating 0 behind them *)
Theorem C49_from_list t : ba_list t = Val (rep (vec_of t)).
Proof.
  pose proof (zlen_nonneg t). unfold ba_list, fresh. replace (zlen t + 1 <? 0) with false by lia. cbn [bind].
  destruct (build_ok t (repeat None (Z.to_nat (zlen t + 1))) (fun i => let* v := rd t i in Val (Some v))) as (l & -> & Z1 & G); [intros i Hi; unfold rd; destruct (lget_range t i Hi) as [c ->]; reflexivity|rewrite zlen_repeat; lia|]. cbn [bind].
  destruct (lset_range l (zlen t) (Some 0) ltac:(lia)) as [l' E]. unfold wr. rewrite E. cbn [bind]. unfold rep, vec_of. cbn [vstore vn vlast]. do 3 f_equal. apply lget_ext. intros j. rewrite (lset_get _ _ _ _ _ E), G, rep_get. destruct (Z.eqb_spec j (zlen t)); [reflexivity|].
  destruct ((0 <=? j) && (j <? zlen t)) eqn:B; [reflexivity|]. rewrite !lget_out; [reflexivity|lia|rewrite zlen_repeat; lia].
Qed.
Print Assumptions C49_from_list.
Lemma init_buf t junk : (let* l := fresh (zlen t + 1) in let* l := wr l (zlen t) (Some 0) in let* l := write_loop l (fun i => let* v := rd (t ++ junk) i in Val (Some v)) 0 (Z.to_nat (zlen t)) in Val (BA (Some l) (zlen t))) = Val (rep (vec_of t)).
Proof.
  pose proof (zlen_nonneg t). unfold fresh. replace (zlen t + 1 <? 0) with false by lia. cbn [bind].
  destruct (lset_range (repeat (@None Z) (Z.to_nat (zlen t + 1))) (zlen t) (Some 0)) as [l' E]; [rewrite zlen_repeat; lia|]. unfold wr. rewrite E. cbn [bind]. pose proof (lset_zlen _ _ _ _ E) as Z0. rewrite zlen_repeat in Z0. replace (Z.to_nat (zlen t)) with (length t) by (unfold zlen; lia).
  destruct (build_ok t l' (fun i => let* v := rd (t ++ junk) i in Val (Some v))) as (l & -> & Z1 & G); [intros i Hi; rewrite rd_app_l by lia; unfold rd; destruct (lget_range t i Hi) as [c ->]; reflexivity|lia|]. cbn [bind].
  unfold rep, vec_of. cbn [vstore vn vlast]. do 3 f_equal. apply lget_ext. intros j. rewrite G, (lset_get _ _ _ _ _ E), rep_get. destruct (Z.eqb_spec j (zlen t)) as [->|]; [replace ((0 <=? zlen t) && (zlen t <? zlen t)) with false by lia; reflexivity|].
  destruct ((0 <=? j) && (j <? zlen t)) eqn:B; [reflexivity|]. rewrite !lget_out; [reflexivity|lia|rewrite zlen_repeat; lia].
Qed.
Theorem C49_from_buffer t junk : ba_init (Some (t ++ junk)) (zlen t) = Val (rep (vec_of t)).
Proof. unfold ba_init. pose proof (zlen_nonneg t). replace (zlen t <? 0) with false by lia. cbn [bind]. apply init_buf. Qed.
Print Assumptions C49_from_buffer.
Theorem C49_from_cstring t junk n : n < 0 -> ~ In 0 t -> ba_init (Some (t ++ 0 :: junk)) n = Val (rep (vec_of t)).
Proof.
  intros Hn H0. unfold ba_init. replace (n <? 0) with true by lia.
  assert (C : cstr_len (t ++ 0 :: junk) = Val (zlen t)). { clear Hn. induction t as [|b t IH]; [reflexivity|]. cbn [app cstr_len]. destruct (Z.eqb_spec b 0) as [->|]; [exfalso; apply H0; now left|]. rewrite IH by (intros I; apply H0; now right). cbn [bind]. now rewrite zlen_cons. }
  rewrite C. cbn [bind]. apply init_buf.
Qed.
Print Assumptions C49_from_cstring.
Theorem C49_from_size n ch : 0 <= n -> ba_make n ch = Val (rep (vec_of (repeat ch (Z.to_nat n)))).
Proof.
  intros H. unfold ba_make, fresh. replace (n + 1 <? 0) with false by lia. cbn [bind].
  destruct (lset_range (repeat (@None Z) (Z.to_nat (n + 1))) n (Some 0)) as [l' E]; [rewrite zlen_repeat; lia|]. unfold wr. rewrite E. cbn [bind]. pose proof (lset_zlen _ _ _ _ E) as Z0. rewrite zlen_repeat in Z0.
  assert (K : forall l, zlen l = n + 1 -> (forall j, lget l j = if (0 <=? j) && (j <? n) then Some (Some ch) else lget l' j) -> BA (Some l) n = rep (vec_of (repeat ch (Z.to_nat n)))).
  { intros l Zl G. unfold rep, vec_of. cbn [vstore vn vlast]. rewrite zlen_repeat. replace (Z.of_nat (Z.to_nat n)) with n by lia. do 2 f_equal. apply lget_ext. intros j. rewrite G, (lset_get _ _ _ _ _ E), rep_get, zlen_repeat. replace (Z.of_nat (Z.to_nat n)) with n by lia.
    destruct (Z.eqb_spec j n) as [->|]; [replace ((0 <=? n) && (n <? n)) with false by lia; reflexivity|]. destruct ((0 <=? j) && (j <? n)) eqn:B.
    - destruct (lget_range (repeat ch (Z.to_nat n)) j) as [c Gc]; [rewrite zlen_repeat; lia|]. rewrite Gc. apply lget_In, repeat_spec in Gc. now subst.
    - rewrite !lget_out; [reflexivity|rewrite zlen_repeat; lia|rewrite zlen_repeat; lia]. }
  unfold ba_fill. cbn [bn]. destruct (Z.leb_spec n 0).
  - f_equal. apply K; [lia|]. intros j. destruct ((0 <=? j) && (j <? n)) eqn:B; [lia|reflexivity].
  - cbn [blk bd bind]. destruct (write_loop_ok (fun _ => Val (Some ch)) (fun _ => Some ch) (Z.to_nat n) l' 0) as (l & -> & Z1 & G); [lia|lia|reflexivity|]. cbn [bind]. f_equal. apply K; [lia|]. intros j. rewrite G. now replace (0 + Z.of_nat (Z.to_nat n)) with n by lia.
Qed.
Print Assumptions C49_from_size.
Theorem C49_copy v : ba_copy (rep v) = Val (rep v).
Proof.
  pose proof (zlen_nonneg (vstore v)). unfold ba_copy, fresh. rewrite raw_rep. replace (zlen (vstore v) + 1 <? 0) with false by lia. cbn [bind]. replace (zlen (vstore v) + 1 <=? 0) with false by lia. rewrite blk_rep. cbn [bind].
  set (s := map Some (vstore v) ++ [vlast v]). destruct (write_loop_ok (fun i => rd s i) (fun i => match lget s i with Some c => c | None => None end) (Z.to_nat (zlen (vstore v) + 1)) (repeat None (Z.to_nat (zlen (vstore v) + 1))) 0) as (l & -> & Z1 & G); [lia|rewrite zlen_repeat; lia| |].
  - intros j Hj. unfold rd. destruct (lget_range s j) as [c ->]; [unfold s; rewrite zlen_rep; lia|]. reflexivity.
  - cbn [bind]. unfold rep. do 3 f_equal. fold s. apply lget_ext. intros j. rewrite G. rewrite zlen_repeat in Z1. assert (Zs : zlen s = zlen (vstore v) + 1) by (unfold s; apply zlen_rep).
    destruct ((0 <=? j) && (j <? 0 + Z.of_nat (Z.to_nat (zlen (vstore v) + 1)))) eqn:B; [destruct (lget_range s j ltac:(lia)) as [c ->]; reflexivity|]. rewrite !lget_out; [reflexivity|lia|rewrite zlen_repeat; lia].
Qed.
Print Assumptions C49_copy.
(** Refuted: a copy of a null array is not null; it owns a block without terminator. *)
Theorem C49_copy_null_refuted : ba_init None 0 = Val (BA None 0) /\ exists b, ba_copy (BA None 0) = Val b /\ bd b <> None /\ bn b = 0 /\ ba_get b 0 = UB.
Proof. split; [reflexivity|]. exists (BA (Some []) 0). repeat split; discriminate. Qed.
Print Assumptions C49_copy_null_refuted.

(** ** every history of calls *)
Theorem C49_history os v : vok v -> bdefs os v -> exists r v', bexec_all os (rep v) = Val (r, rep v') /\ bsteps os v r v' /\ vok v'.
Proof.
  revert v. induction os as [|o os IH]; intros v V D; cbn [bexec_all].
  - exists [], v. split; [reflexivity|]. split; [constructor|exact V].
  - destruct D as [D1 D2]. destruct (step_ok o v V D1) as (a & v1 & -> & S & V1). cbn [bind]. destruct (IH v1 V1 (D2 a v1 S)) as (r & v2 & -> & S2 & V2). exists (a :: r), v2. split; [reflexivity|]. split; [econstructor; eauto|exact V2].
Qed.
Print Assumptions C49_history.
(** the calls outside that domain are undefined: nothing is checked *)
Theorem C49_unchecked o v : vok v -> zlen (vstore v) < 2 ^ 63 - 1 -> ~ bdef o v -> bexec o (rep v) = UB.
Proof.
  intros V L H. destruct o as [i x|i|x|x y| |n|]; cbn [bdef] in H; try (exfalso; apply H; exact I).
  - cbn [bexec]. unfold ba_set. rewrite blk_rep. cbn [bind]. rewrite wr_out; [reflexivity|]. rewrite zlen_rep. lia.
  - cbn [bexec]. rewrite get_bad; [reflexivity|exact H].
  - cbn [bexec]. unfold ba_resize. rewrite raw_rep. unfold vok in V. destruct (Z.leb_spec n (zlen (vstore v) + 1 - 1)).
    + rewrite blk_rep. cbn [bind]. rewrite wr_out; [reflexivity|]. rewrite zlen_rep. lia.
    + unfold chk64, in_s64. replace ((-9223372036854775808 <=? n + 1) && (n + 1 <=? 9223372036854775807)) with false by lia. reflexivity.
Qed.
Print Assumptions C49_unchecked.

(** ** resize, in terms of the bytes the client sees *)
(** The common prefix is kept. Beyond the allocation the array grows with 0; inside it, the bytes left over from before the
    array was made shorter reappear. The byte behind the contents is 0, except after a reallocation, when nothing was written there. *)
Theorem C49_resize v n : vok v -> 0 <= n < 2 ^ 63 - 1 -> exists v', ba_resize (rep v) n = Val (rep v') /\ vok v' /\ vn v' = n /\
  contents v' = (if n <=? zlen (vstore v) then firstn (Z.to_nat n) (contents v ++ hidden v) else contents v ++ repeat 0 (Z.to_nat (n - vn v))) /\
  ba_get (rep v') n = (if n <=? zlen (vstore v) then Val 0 else UB).
Proof.
  intros V H. destruct (step_ok (BResize n) v V H) as (a & v' & E & S & V'). exists v'. cbn [bexec] in E. destruct (ba_resize (rep v) n) as [b| | |]; try discriminate. cbn [bind] in E. injection E as <- ->. split; [reflexivity|]. split; [exact V'|]. rewrite contents_hidden.
  inversion S as [| | | | | | |? ? Hn|?|? ? Hn|]; subst; cbn [vn].
  - split; [reflexivity|]. replace (n <=? zlen (vstore v)) with true by lia. split.
    + unfold contents. cbn [vn vstore]. apply lget_ext. intros j. rewrite !lget_firstn, upd_get by lia. destruct (Z.ltb_spec j n); [|reflexivity]. now replace (j =? n) with false by lia.
    + unfold ba_get. rewrite blk_rep. cbn [bind vstore vlast]. unfold rd. rewrite rep_get, upd_zlen, upd_get, Z.eqb_refl by lia. now replace (n =? zlen (vstore v)) with false by lia.
  - split; [reflexivity|]. replace (zlen (vstore v) <=? zlen (vstore v)) with true by lia. split; [reflexivity|]. unfold ba_get. rewrite blk_rep. cbn [bind vstore vlast]. unfold rd. now rewrite rep_get, Z.eqb_refl.
  - split; [reflexivity|]. replace (n <=? zlen (vstore v)) with false by lia. pose proof (contents_zlen v V) as Lc. unfold vok in V. set (s := contents v ++ repeat 0 (Z.to_nat (n - vn v))).
    assert (Ls : zlen s = n) by (unfold s; rewrite zlen_app, zlen_repeat; lia). split.
    + unfold contents at 1. cbn [vn vstore]. apply firstn_all2. unfold zlen in Ls. lia.
    + unfold ba_get. rewrite blk_rep. cbn [bind vstore vlast]. unfold rd. rewrite rep_get, Ls, Z.eqb_refl. reflexivity.
Qed.
Print Assumptions C49_resize.
(** Refuted: "growing appends zero bytes". Shrinking any array to k and growing it back to m shows the old bytes after position k. *)
Theorem C49_regrow_refuted t k m : 0 <= k < m -> m <= zlen t < 2 ^ 63 - 1 ->
  exists v1 v2, ba_resize (rep (vec_of t)) k = Val (rep v1) /\ contents v1 = firstn (Z.to_nat k) t /\ ba_resize (rep v1) m = Val (rep v2) /\
    contents v2 = firstn (Z.to_nat k) t ++ 0 :: firstn (Z.to_nat (m - k - 1)) (skipn (Z.to_nat (k + 1)) t).
Proof.
  intros Hk Hm. set (v := vec_of t). assert (V : vok v) by (unfold vok, v; cbn; lia). set (v1 := VEC (upd t k 0) k (Some 0)).
  assert (E1 : ba_resize (rep v) k = Val (rep v1)). { unfold ba_resize. rewrite raw_rep. cbn [v vec_of vstore]. replace (k <=? zlen t + 1 - 1) with true by lia. rewrite blk_rep. cbn [bind v vec_of vstore vlast]. rewrite wr_rep by lia. reflexivity. }
  assert (C1 : contents v1 = firstn (Z.to_nat k) t). { unfold contents. cbn [v1 vn vstore]. apply lget_ext. intros j. rewrite !lget_firstn, upd_get by lia. destruct (Z.ltb_spec j k); [|reflexivity]. now replace (j =? k) with false by lia. }
  assert (V1 : vok v1) by (unfold vok, v1; cbn [vn vstore]; rewrite upd_zlen; lia).
  destruct (C49_resize v1 m V1 ltac:(lia)) as (v2 & E2 & _ & _ & C2 & _). exists v1, v2. split; [exact E1|]. split; [exact C1|]. split; [exact E2|]. rewrite C2. cbn [v1 vstore]. rewrite upd_zlen by lia. replace (m <=? zlen t) with true by lia. change {| vstore := upd t k 0; vn := k; vlast := Some 0 |} with v1. rewrite contents_hidden. cbn [v1 vstore].
  unfold upd. rewrite firstn_app. rewrite firstn_firstn. replace (Nat.min (Z.to_nat m) (Z.to_nat k)) with (Z.to_nat k) by lia. f_equal. rewrite firstn_length. replace (Z.to_nat m - Nat.min (Z.to_nat k) (length t))%nat with (S (Z.to_nat (m - k - 1))) by (unfold zlen in *; lia). reflexivity.
Qed.
Print Assumptions C49_regrow_refuted.
(** growing a null array allocates *)
Theorem C49_resize_null n : 0 <= n < 2 ^ 63 - 1 -> ba_resize (BA None 0) n = Val (rep (VEC (repeat 0 (Z.to_nat n)) n None)).
Proof.
  intros H. unfold ba_resize, raw. cbn [bd bn]. replace (n <=? 0 - 1) with false by lia. unfold chk64, in_s64. replace ((-9223372036854775808 <=? n + 1) && (n + 1 <=? 9223372036854775807)) with true by lia. cbn [bind]. unfold fresh. replace (n + 1 <? 0) with false by lia. cbn [bind Z.leb Z.compare].
  destruct (write_loop_ok (fun _ => Val (Some 0)) (fun _ => Some 0) (Z.to_nat (n - 0)) (repeat None (Z.to_nat (n + 1))) 0) as (l & -> & Z1 & G); [lia|rewrite zlen_repeat; lia|reflexivity|]. cbn [bind]. unfold rep. cbn [vstore vn vlast]. do 3 f_equal. apply lget_ext. intros j. rewrite G, rep_get, zlen_repeat. replace (0 + Z.of_nat (Z.to_nat (n - 0))) with n by lia. replace (Z.of_nat (Z.to_nat n)) with n by lia.
  assert (T0 : forall X (a : X) m i, 0 <= i < Z.of_nat m -> lget (repeat a m) i = Some a). { intros X a m i Hi. destruct (lget_range (repeat a m) i) as [c Gc]; [rewrite zlen_repeat; lia|]. rewrite Gc. apply lget_In, repeat_spec in Gc. now subst. }
  destruct (Z.eqb_spec j n) as [->|]; [replace ((0 <=? n) && (n <? n)) with false by lia; rewrite T0 by lia; reflexivity|]. destruct ((0 <=? j) && (j <? n)) eqn:B; [rewrite T0 by lia; reflexivity|]. rewrite !lget_out; [reflexivity|rewrite zlen_repeat; lia|rewrite zlen_repeat; lia].
Qed.
Print Assumptions C49_resize_null.

(** ** replace(tgtOffset, srcOffset, buffer, length) *)
(** what it does: the target offset only shortens the copied range, the bytes always go to the start *)
Theorem C49_replace_range v tgt src w len : vok v -> vok w -> 0 <= tgt <= vn v -> vn v < 2 ^ 63 -> 0 <= len -> 0 <= src -> src + len <= zlen (vstore w) ->
  exists v', ba_replace_range (rep v) tgt src (rep w) len = Val (rep v') /\ vok v' /\
  let range := Z.to_nat (Z.min len (vn v - tgt)) in
  contents v' = firstn range (skipn (Z.to_nat src) (vstore w)) ++ skipn range (contents v) /\ hidden v' = hidden v.
Proof.
  intros V W Ht H63 Hl Hs Hr. unfold ba_replace_range. change (bn (rep v)) with (vn v). unfold chk64, in_s64. pose proof (contents_zlen v V) as Lc. unfold vok in V, W. replace ((-9223372036854775808 <=? vn v - tgt) && (vn v - tgt <=? 9223372036854775807)) with true by lia. cbn [bind].
  set (r := Z.min len (vn v - tgt)). assert (R0 : 0 <= r <= len /\ r <= vn v) by (unfold r; lia). set (c := firstn (Z.to_nat r) (skipn (Z.to_nat src) (vstore w)) ++ skipn (Z.to_nat r) (contents v)).
  assert (Lc' : zlen (firstn (Z.to_nat r) (skipn (Z.to_nat src) (vstore w))) = r) by (apply zlen_firstn; rewrite zlen_skipn; lia).
  assert (Lc2 : zlen c = vn v) by (unfold c; rewrite zlen_app, Lc', zlen_skipn; lia).
  assert (Hd : hidden v = skipn (Z.to_nat (vn v)) (vstore v)) by reflexivity. pose proof (hidden_zlen v V) as Lh.
  exists (VEC (c ++ hidden v) (vn v) (vlast v)).
  assert (Cc : contents (VEC (c ++ hidden v) (vn v) (vlast v)) = c /\ hidden (VEC (c ++ hidden v) (vn v) (vlast v)) = hidden v).
  { unfold contents, hidden. cbn [vn vstore]. fold (hidden v). assert (Hn : Z.to_nat (vn v) = length c) by (unfold zlen in Lc2; lia). rewrite Hn, firstn_app, skipn_app, firstn_all, skipn_all, Nat.sub_diag. cbn. rewrite app_nil_r. auto. }
  split; [|split; [unfold vok; cbn [vn vstore]; rewrite zlen_app; lia|exact Cc]].
  assert (Gc : forall j, lget (c ++ hidden v) j = if (0 <=? j) && (j <? r) then lget (vstore w) (src + j) else lget (vstore v) j).
  { intros j. destruct (Z.ltb_spec j r).
    - rewrite lget_app_l by lia. unfold c. rewrite lget_app_l by lia. rewrite lget_firstn, lget_skipn by lia. replace (j <? r) with true by lia. destruct (Z.leb_spec 0 j); [replace (j <? 0) with false by lia; cbn [andb]; f_equal; lia|]. cbn [andb]. replace (j <? 0) with true by lia. now rewrite lget_out by lia.
    - rewrite andb_false_r. destruct (Z.ltb_spec j (vn v)).
      + rewrite lget_app_l by lia. unfold c. rewrite lget_app_r by lia. rewrite Lc', lget_skipn by lia. replace (j - r <? 0) with false by lia. unfold contents. rewrite lget_firstn. replace (j - r + r <? vn v) with true by lia. f_equal. lia.
      + rewrite lget_app_r by lia. rewrite Lc2, Hd, lget_skipn by lia. replace (j - vn v <? 0) with false by lia. f_equal. lia. }
  destruct (Z.leb_spec r 0).
  - unfold rep. cbn [vstore vn vlast]. do 5 f_equal. apply lget_ext. intros j. rewrite Gc. destruct ((0 <=? j) && (j <? r)) eqn:B; [lia|reflexivity].
  - rewrite !blk_rep. cbn [bind]. destruct (write_loop_ok (fun a => rd (map Some (vstore w) ++ [vlast w]) (src + a)) (fun a => lget (vstore w) (src + a)) (Z.to_nat r) (map Some (vstore v) ++ [vlast v]) 0) as (l & -> & Z1 & G); [lia|rewrite zlen_rep; lia| |].
    + intros j Hj. unfold rd. rewrite rep_get. replace (src + j =? zlen (vstore w)) with false by lia. destruct (lget_range (vstore w) (src + j) ltac:(lia)) as [x ->]. reflexivity.
    + cbn [bind]. unfold rep. cbn [vstore vn vlast]. do 3 f_equal. apply lget_ext. intros j. rewrite G, !rep_get, Gc, zlen_app, Lc2, Lh. replace (0 + Z.of_nat (Z.to_nat r)) with r by lia. replace (vn v + (zlen (vstore v) - vn v)) with (zlen (vstore v)) by lia.
      destruct ((0 <=? j) && (j <? r)) eqn:B; [|reflexivity]. replace (j =? zlen (vstore v)) with false by lia. destruct (lget_range (vstore w) (src + j) ltac:(lia)) as [x ->]. reflexivity.
Qed.
Print Assumptions C49_replace_range.
(** Refuted: "the bytes go to tgtOffset". With any offset that keeps the range on the contents, the bytes before the offset
    are overwritten instead (here: every array of n bytes 7, and one byte 9 copied to offset tgt > 0, lands at 0). *)
Theorem C49_replace_offset_refuted n tgt : 0 < tgt < Z.of_nat n -> Z.of_nat n < 2 ^ 63 ->
  exists v', ba_replace_range (rep (vec_of (repeat 7 n))) tgt 0 (rep (vec_of [9])) 1 = Val (rep v') /\ lget (contents v') 0 = Some 9 /\ lget (contents v') tgt = Some 7.
Proof.
  intros Ht Hn. assert (V : vok (vec_of (repeat 7 n))) by (unfold vok; cbn [vn vstore vec_of]; rewrite zlen_repeat; lia).
  destruct (C49_replace_range (vec_of (repeat 7 n)) tgt 0 (vec_of [9]) 1 V) as (v' & E & _ & C & _); try (cbn [vn vec_of vstore]; rewrite ?zlen_repeat; unfold vok; cbn; lia).
  exists v'. split; [exact E|]. rewrite C. cbn [vn vec_of vstore]. rewrite zlen_repeat. replace (Z.to_nat (Z.min 1 (Z.of_nat n - tgt))) with 1%nat by lia. cbn [Z.to_nat skipn firstn app]. split; [reflexivity|]. unfold contents. cbn [vn vec_of vstore]. rewrite zlen_repeat, Nat2Z.id. rewrite firstn_all2 by (rewrite repeat_length; lia).
  destruct n as [|n]; [lia|]. cbn [repeat skipn]. rewrite lget_cons_S by lia. destruct (lget_range (repeat 7 n) (tgt - 1)) as [c Gc]; [rewrite zlen_repeat; lia|]. rewrite Gc. apply lget_In, repeat_spec in Gc. now subst.
Qed.
Print Assumptions C49_replace_offset_refuted.

(** ** comparison and sorting *)
Theorem C49_equal v w : vok v -> vok w -> exists e, ba_eq (rep v) (rep w) = Val e /\ (e = true <-> contents v = contents w).
Proof.
  intros V W. unfold ba_eq. change (bn (rep v)) with (vn v). change (bn (rep w)) with (vn w). pose proof (contents_zlen v V) as Lv. pose proof (contents_zlen w W) as Lw. destruct (Z.eqb_spec (vn v) (vn w)) as [En|N].
  2:{ exists false. split; [reflexivity|]. split; [discriminate|]. intros E. rewrite E in Lv. lia. }
  assert (Loop : forall k i, 0 <= i -> i + Z.of_nat k = vn v -> exists e, eq_loop (rep v) (rep w) i k = Val e /\ (e = true <-> forall j, i <= j < vn v -> lget (vstore v) j = lget (vstore w) j)).
  { induction k as [|k IH]; intros i Hi Hk; cbn [eq_loop].
    - exists true. split; [reflexivity|]. split; [intros _ j Hj; lia|reflexivity].
    - unfold vok in V, W. destruct (get_ok v i ltac:(left; lia)) as (x & Ex & Sx). destruct (get_ok w i ltac:(left; lia)) as (y & Ey & Sy). rewrite Ex. cbn [bind]. rewrite Ey. cbn [bind].
      assert (Gx : lget (vstore v) i = Some x) by (inversion Sx; subst; [assumption|lia]). assert (Gy : lget (vstore w) i = Some y) by (inversion Sy; subst; [assumption|lia]).
      destruct (Z.eqb_spec x y) as [->|Nxy].
      + destruct (IH (i + 1) ltac:(lia) ltac:(lia)) as (e & -> & He). exists e. split; [reflexivity|]. rewrite He. split; intros A j Hj; [destruct (Z.eq_dec j i) as [->|]; [congruence|apply A; lia]|apply A; lia].
      + exists false. split; [reflexivity|]. split; [discriminate|]. intros A. specialize (A i ltac:(lia)). congruence. }
  unfold vok in V, W. destruct (Loop (Z.to_nat (vn v)) 0 ltac:(lia) ltac:(lia)) as (e & -> & He). exists e. split; [reflexivity|]. rewrite He. split; intros A.
  - apply lget_ext. intros j. unfold contents. rewrite !lget_firstn, <- En. destruct (Z.ltb_spec j (vn v)); [|reflexivity]. destruct (Z.ltb_spec j 0); [rewrite !lget_out by lia; reflexivity|]. apply A. lia.
  - intros j Hj. pose proof (f_equal (fun l => lget l j) A) as B. cbn in B. unfold contents in B. rewrite !lget_firstn, <- En in B. replace (j <? vn v) with true in B by lia. exact B.
Qed.
Print Assumptions C49_equal.
(** sort() leaves a sorted permutation of the contents and touches nothing else *)
Theorem C27_bytearray_sort v : vok v -> exists v', ba_sort (rep v) = Val (rep v') /\ Permutation (contents v') (contents v) /\ sorted Z.le (contents v') /\ hidden v' = hidden v /\ vlast v' = vlast v /\ vn v' = vn v.
Proof.
  intros V. destruct (step_ok BSort v V I) as (a & v' & E & S & V'). exists v'. cbn [bexec] in E. destruct (ba_sort (rep v)) as [b| | |]; try discriminate. cbn [bind] in E. injection E as <- ->. split; [reflexivity|]. inversion S as [| | | | | |? t Pm So| | | |]; subst.
  assert (L : zlen t = vn v) by (rewrite <- (contents_zlen v V); unfold zlen; f_equal; now apply Permutation_length).
  assert (Hn : Z.to_nat (vn v) = length t) by (unfold zlen in L; lia).
  assert (C : contents (VEC (t ++ hidden v) (vn v) (vlast v)) = t) by (unfold contents; cbn [vn vstore]; rewrite Hn, firstn_app, Nat.sub_diag, firstn_all; cbn; apply app_nil_r).
  assert (D : hidden (VEC (t ++ hidden v) (vn v) (vlast v)) = hidden v) by (unfold hidden at 1; cbn [vn vstore]; rewrite Hn, skipn_app, Nat.sub_diag, skipn_all; reflexivity).
  rewrite C, D. auto.
Qed.
Print Assumptions C27_bytearray_sort.

(** not vacuous *)
Example C49_ex : bdefs [BSet 1 5; BFill 9; BSort; BResize 2] (vec_of [1; 2; 3]).
Proof.
  cbn [bdefs]. split; [cbn; lia|]. intros a1 v1 S1. split; [exact I|]. intros a2 v2 S2. split; [exact I|]. intros a3 v3 S3. split; [cbn; lia|]. auto.
Qed.
Example C49_ex_stale : bexec_all [BResize 1; BResize 3; BGet 0; BGet 1; BGet 2] (rep (vec_of [1; 2; 3])) = Val ([BUnit; BUnit; BNum 1; BNum 0; BNum 3], rep (VEC [1; 0; 3] 3 (Some 0))).
Proof. reflexivity. Qed.
