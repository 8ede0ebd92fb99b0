(** L_Inflate.v -- Inflater: reading bits and numbers, writing bytes *)
From Verif Require Import Base M_Inflate S_Inflate.
Ltac Zify.zify_post_hook ::= Z.to_euclidean_division_equations.
(** ** lists of bits *)
Lemma lsb_len n : forall v, length (lsb n v) = n. Proof. induction n; intros v; cbn [lsb length]; auto. Qed.
Lemma zlen_lsb n v : zlen (lsb n v) = Z.of_nat n. Proof. unfold zlen. now rewrite lsb_len. Qed.
Lemma zlen_msb n v : zlen (msb n v) = Z.of_nat n. Proof. unfold msb. rewrite zlen_rev. apply zlen_lsb. Qed.
Lemma lsb_snoc n : forall v, lsb (S n) v = lsb n v ++ [(v / 2 ^ Z.of_nat n) mod 2].
Proof.
  induction n as [|n IH]; intros v; [cbn; now rewrite Z.div_1_r|]. change (lsb (S (S n)) v) with (v mod 2 :: lsb (S n) (v / 2)). rewrite IH. cbn [lsb app]. rewrite Nat2Z.inj_succ, Z.pow_succ_r by lia. rewrite Z.div_div by (try lia; apply Z.pow_pos_nonneg; lia). reflexivity.
Qed.
Lemma msb_cons n v : msb (S n) v = (v / 2 ^ Z.of_nat n) mod 2 :: msb n v.
Proof. unfold msb. rewrite lsb_snoc, rev_app_distr. reflexivity. Qed.
Lemma bits_app a b : bits_of (a ++ b) = bits_of a ++ bits_of b. Proof. apply flat_map_app. Qed.
Lemma bits_len d : length (bits_of d) = (8 * length d)%nat.
Proof. unfold bits_of. induction d as [|c d IH]; [reflexivity|]. cbn [flat_map]. rewrite app_length, IH, lsb_len. cbn [length]. lia. Qed.
Lemma zlen_bits d : zlen (bits_of d) = 8 * zlen d. Proof. unfold zlen. rewrite bits_len. lia. Qed.
Lemma bit_value c k : 0 <= k -> Z.shiftr (Z.land (Z.shiftl 1 k) c) k = (c / 2 ^ k) mod 2.
Proof. intros H. rewrite Z.shiftr_land, Z.shiftr_shiftl_l, Z.sub_diag by lia. change (Z.shiftl 1 0) with (Z.ones 1). rewrite Z.land_comm, Z.land_ones by lia. now rewrite Z.shiftr_div_pow2. Qed.
Lemma skipn_lsb k n : forall v, skipn k (lsb (k + S n) v) = (v / 2 ^ Z.of_nat k) mod 2 :: skipn (S k) (lsb (k + S n) v).
Proof.
  induction k as [|k IH]; intros v; [cbn; now rewrite Z.div_1_r|]. cbn [plus lsb skipn]. rewrite IH. rewrite Nat2Z.inj_succ, Z.pow_succ_r by lia. rewrite Z.div_div by (try lia; apply Z.pow_pos_nonneg; lia). reflexivity.
Qed.
Lemma skipn_past {A} (a b : list A) n : skipn (length a + n) (a ++ b) = skipn n b.
Proof. induction a as [|x a IH]; [reflexivity|exact IH]. Qed.
Lemma lsb_inj n : forall a b, lsb n a = lsb n b -> 0 <= a < 2 ^ Z.of_nat n -> 0 <= b < 2 ^ Z.of_nat n -> a = b.
Proof.
  induction n as [|n IH]; intros a b E A B; [cbn in *; lia|]. cbn [lsb] in E. injection E as E0 E1. rewrite Nat2Z.inj_succ, Z.pow_succ_r in * by lia. apply IH in E1; lia.
Qed.
(** ** the state: [p] bits are read, [r] are left, [o] is written *)
Definition St (D : list Z) (s : inf) (p : Z) (r o : list Z) (l : bool) : Prop :=
  cb s = D /\ lastb s = l /\ 0 <= bit s < 8 /\ 0 <= ci s /\ p = 8 * ci s + bit s /\ skipn (Z.to_nat p) (bits_of D) = r /\
  exists junk, ub s = Some (map Some o ++ junk) /\ ui s = zlen o.
Lemma next_bit_ok D s p b r o l : St D s p (b :: r) o l -> exists s', next_bit s = Val (b, s') /\ St D s' (p + 1) r o l.
Proof.
  intros (C & L & B & I & P & K & O). unfold next_bit. rewrite C.
  assert (R : ci s < zlen D). { destruct (Z.ltb_spec (ci s) (zlen D)); [assumption|]. rewrite skipn_all2 in K; [discriminate|]. rewrite bits_len. unfold zlen in *. lia. }
  destruct (split_at D (ci s)) as (x & c & y & E & Zx); [lia|]. assert (Rd : rd D (ci s) = Val c) by (rewrite E, <- Zx; apply rd_mid). rewrite Rd. cbn [bind].
  assert (Kb : skipn (Z.to_nat (bit s)) (lsb 8 c ++ bits_of y) = b :: r).
  { rewrite <- K, P, E, bits_app. rewrite <- Zx. replace (Z.to_nat (8 * zlen x + bit s)) with (length (bits_of x) + Z.to_nat (bit s))%nat by (rewrite bits_len; unfold zlen; lia).
    now rewrite skipn_past. }
  rewrite bit_value by lia.
  assert (V : (c / 2 ^ bit s) mod 2 = b /\ r = skipn (S (Z.to_nat (bit s))) (lsb 8 c ++ bits_of y)).
  { pose proof (skipn_lsb (Z.to_nat (bit s)) (7 - Z.to_nat (bit s)) c) as H. replace (Z.to_nat (bit s) + S (7 - Z.to_nat (bit s)))%nat with 8%nat in H by lia.
    rewrite skipn_app in Kb. replace (Z.to_nat (bit s) - length (lsb 8 c))%nat with 0%nat in Kb by (rewrite lsb_len; lia). rewrite H in Kb. change (skipn 0 (bits_of y)) with (bits_of y) in Kb. cbn [app] in Kb. rewrite Z2Nat.id in Kb by lia. injection Kb as -> <-. split; [reflexivity|].
    rewrite skipn_app. replace (S (Z.to_nat (bit s)) - length (lsb 8 c))%nat with 0%nat by (rewrite lsb_len; lia). reflexivity. }
  destruct V as [-> Er]. assert (Kn : skipn (Z.to_nat (p + 1)) (bits_of D) = r).
  { replace (Z.to_nat (p + 1)) with (1 + Z.to_nat p)%nat by lia. assert (G : forall (X : list Z) n, skipn (1 + n) X = skipn 1 (skipn n X)) by (induction X as [|a X IH]; intros [|n]; try reflexivity; apply IH). rewrite G, K. reflexivity. }
  destruct O as (j & O1 & O2).
  destruct (Z.eqb_spec ((bit s + 1) mod 8) 0) as [E0|E0]; eexists; (split; [reflexivity|]); unfold St, set_in; cbn [cb lastb bit ci ub ui]; (split; [exact C|split; [exact L|]]); (repeat match goal with |- _ /\ _ => split end); try lia; try exact Kn; exists j; auto.
Qed.
(** numbers *)
Lemma uintxr_ok D l o n : forall s p v r ret a, St D s p (lsb n v ++ r) o l -> 0 <= v < 2 ^ Z.of_nat n -> 0 <= a -> 0 <= ret < 2 ^ a -> a + Z.of_nat n <= 16 ->
  exists s', uintxr s ret a n = Val (ret + v * 2 ^ a, s') /\ St D s' (p + Z.of_nat n) r o l.
Proof.
  induction n as [|n IH]; intros s p v r ret a Hst V A R B; cbn [uintxr lsb app] in *.
  - exists s. change (2 ^ Z.of_nat 0) with 1 in V. replace (ret + v * 2 ^ a) with ret by nia. rewrite Z.add_0_r. auto.
  - destruct (next_bit_ok _ _ _ _ _ _ _ Hst) as (s1 & -> & S1). cbn [bind].
    assert (P2 : 0 < 2 ^ a) by (apply Z.pow_pos_nonneg; lia). assert (Sa : 2 ^ (a + 1) = 2 * 2 ^ a) by (rewrite Z.pow_add_r by lia; lia).
    assert (Lo : Z.lor ret (Z.shiftl (v mod 2) a) = ret + (v mod 2) * 2 ^ a).
    { rewrite Z.shiftl_mul_pow2 by lia. rewrite <- Z.lxor_lor; [rewrite <- Z.add_nocarry_lxor; [lia|]|]; apply Z.bits_inj'; intros i Hi; rewrite Z.land_spec, Z.bits_0; (destruct (Z.ltb_spec i a); [rewrite Z.mul_pow2_bits_low by lia; apply andb_false_r|]); rewrite <- (Z.mod_small ret (2 ^ a)) by lia; rewrite Z.mod_pow2_bits_high by lia; reflexivity. }
    rewrite Lo. assert (Bd : ret + v mod 2 * 2 ^ a < 2 ^ (a + 1)) by nia. assert (B16 : 2 ^ (a + 1) <= 65536) by (change 65536 with (2 ^ 16); apply Z.pow_le_mono_r; lia).
    rewrite u16_id by nia. rewrite Nat2Z.inj_succ, Z.pow_succ_r in V by lia.
    destruct (IH s1 (p + 1) (v / 2) r (ret + v mod 2 * 2 ^ a) (a + 1) S1) as (s2 & -> & S2); [lia|lia|nia|lia|].
    exists s2. split; [|replace (p + Z.of_nat (S n)) with (p + 1 + Z.of_nat n) by lia; exact S2]. do 2 f_equal. rewrite Sa. nia.
Qed.
Lemma next_uintxr_ok D l o k s p v r : St D s p (lsb (Z.to_nat k) v ++ r) o l -> 0 <= k <= 16 -> 0 <= v < 2 ^ k -> exists s', next_uintxr s k = Val (v, s') /\ St D s' (p + k) r o l.
Proof.
  intros S K V. destruct (uintxr_ok D l o (Z.to_nat k) s p v r 0 0 S) as (s' & E & S'); try (rewrite Z2Nat.id by lia); try lia. exists s'. unfold next_uintxr. rewrite E. rewrite Z2Nat.id in S' by lia. split; [do 2 f_equal; change (2 ^ 0) with 1; lia|exact S'].
Qed.
Lemma uintx_ok D l o n : forall s p v r ret, St D s p (msb n v ++ r) o l -> 0 <= v -> 0 <= ret -> (ret + 1) * 2 ^ Z.of_nat n <= 65536 ->
  exists s', uintx s ret n = Val (ret * 2 ^ Z.of_nat n + v mod 2 ^ Z.of_nat n, s') /\ St D s' (p + Z.of_nat n) r o l.
Proof.
  induction n as [|n IH]; intros s p v r ret Hst V R B.
  - exists s. cbn [uintx]. change (2 ^ Z.of_nat 0) with 1. rewrite Z.mod_1_r, Z.mul_1_r, !Z.add_0_r. auto.
  - rewrite msb_cons in Hst. cbn [app] in Hst. cbn [uintx]. destruct (next_bit_ok _ _ _ _ _ _ _ Hst) as (s1 & -> & S1). cbn [bind]. rewrite Nat2Z.inj_succ, Z.pow_succ_r in * by lia. set (P := 2 ^ Z.of_nat n) in *. assert (HP : 0 < P) by (apply Z.pow_pos_nonneg; lia).
    rewrite Z.shiftl_mul_pow2 by lia. change (2 ^ 1) with 2. rewrite (u16_id (ret * 2)) by nia.
    assert (Hb : 0 <= (v / P) mod 2 < 2) by lia.
    assert (Lo : Z.lor (ret * 2) ((v / P) mod 2) = ret * 2 + (v / P) mod 2).
    { replace (ret * 2) with (Z.shiftl ret 1) by (rewrite Z.shiftl_mul_pow2; lia). generalize dependent ((v / P) mod 2). intros b _ Hb. assert (b = 0 \/ b = 1) as [-> | ->] by lia; [rewrite Z.lor_0_r; lia|]. destruct ret; [reflexivity|reflexivity|lia]. }
    rewrite Lo, u16_id by nia. destruct (IH s1 (p + 1) v r (ret * 2 + (v / P) mod 2) S1 V) as (s2 & -> & S2); [lia|nia|].
    exists s2. split; [|replace (p + Z.succ (Z.of_nat n)) with (p + 1 + Z.of_nat n) by lia; exact S2]. do 2 f_equal. fold P. assert (v mod (2 * P) = v mod P + P * ((v / P) mod 2)) as -> by (rewrite (Z.mul_comm 2), Z.rem_mul_r by lia; reflexivity). nia.
Qed.
Lemma next_uintx_ok D l o k s p v r : St D s p (msb (Z.to_nat k) v ++ r) o l -> 0 <= k <= 16 -> 0 <= v < 2 ^ k -> exists s', next_uintx s k = Val (v, s') /\ St D s' (p + k) r o l.
Proof.
  intros S K V. destruct (uintx_ok D l o (Z.to_nat k) s p v r 0 S) as (s' & E & S'); try (rewrite Z2Nat.id by lia); try lia. { change 65536 with (2 ^ 16). rewrite Z.mul_1_l. apply Z.pow_le_mono_r; lia. }
  exists s'. unfold next_uintx. rewrite E. rewrite Z2Nat.id in * by lia. split; [do 2 f_equal; rewrite Z.mod_small by lia; lia|exact S'].
Qed.
(** ** writing *)
Section Write.
Context (more : Z -> Z -> Z -> Z).
Lemma write_ok D s p r o l c : St D s p r o l -> 8 <= p -> exists s', write_byte more s (Some c) = Val s' /\ St D s' p r (o ++ [c]) l.
Proof.
  intros (C & L & B & I & P & K & j & O1 & O2) Hp. unfold write_byte. rewrite O1. unfold check_capacity. rewrite zlen_app, zlen_map, O2. pose proof (zlen_nonneg o).
  assert (W : forall j', j' <> [] -> exists s', (let* u := wr (map Some o ++ j') (zlen o) (Some c) in Val (set_out s u (zlen o + 1) (tout s + 1))) = Val s' /\ St D s' p r (o ++ [c]) l).
  { intros [|x j'] N; [contradiction|]. rewrite wr_mid by (now rewrite zlen_map). cbn [bind]. eexists. split; [reflexivity|]. unfold St, set_out. cbn [cb lastb bit ci ub ui]. repeat match goal with |- _ /\ _ => split end; try assumption; try lia.
    exists j'. split; [f_equal; rewrite map_app, <- app_assoc; reflexivity|rewrite zlen_app; reflexivity]. }
  destruct (Z.ltb_spec (zlen o) (zlen o + zlen j)).
  - cbn [bind]. apply W. intros ->. rewrite zlen_nil in *. lia.
  - assert (j = []) as -> by (apply zlen_zero; pose proof (zlen_nonneg j); lia). rewrite app_nil_r. replace (ci s =? 0) with false by lia. cbn [bind].
    replace (firstn (Z.to_nat (zlen o)) (map Some o)) with (map Some o) by (symmetry; apply firstn_all2; rewrite map_length; unfold zlen; lia). apply W.
    match goal with |- repeat _ (?n - _) <> _ => destruct (n - Z.to_nat (zlen o))%nat as [|k] eqn:E; [exfalso; rewrite zlen_nil in E; lia|discriminate] end.
Qed.
Lemma out_at_ok D s p r o l i b : St D s p r o l -> lget o i = Some b -> out_at s i = Val (Some b).
Proof.
  intros (_ & _ & _ & _ & _ & _ & j & O1 & _) G. unfold out_at. rewrite O1. pose proof (lget_some_range _ _ _ G). unfold rd. rewrite lget_app_l by (rewrite zlen_map; lia). rewrite lget_map, G. reflexivity.
Qed.
Lemma copy_ok D p r l src d n : forall s o a, St D s p r o l -> 8 <= p -> zlen o = src + a + d -> 0 < d -> 0 <= src -> 0 <= a -> exists s', copy_loop more s src a n = Val s' /\ St D s' p r (copy n d o) l.
Proof.
  induction n as [|n IH]; intros s o a S P Z0 Hd Hs Ha; cbn [copy_loop copy]; [eauto|]. pose proof (zlen_nonneg o). destruct (lget_range o (src + a)) as (b & G); [lia|]. rewrite (out_at_ok _ _ _ _ _ _ _ _ S G). cbn [bind].
  destruct (write_ok _ _ _ _ _ _ b S P) as (s1 & -> & S1). cbn [bind]. replace (zlen o - d) with (src + a) by lia. rewrite G. apply IH; auto; try lia. rewrite zlen_app. change (zlen [b]) with 1. lia.
Qed.
End Write.
Lemma next_u8_ok D s p c r o l : St D s p (lsb 8 c ++ r) o l -> byte c -> p mod 8 = 0 -> Forall byte D -> exists s', next_u8 s = Val (c, s') /\ St D s' (p + 8) r o l.
Proof.
  intros (C & L & B & I & P & K & O) Hc H8 Hd. unfold next_u8. assert (bit s = 0) as B0 by lia. rewrite B0. cbn [Z.eqb negb]. rewrite C.
  assert (R : ci s < zlen D). { destruct (Z.ltb_spec (ci s) (zlen D)); [assumption|]. rewrite skipn_all2 in K; [discriminate|]. rewrite bits_len. unfold zlen in *. lia. }
  destruct (split_at D (ci s)) as (x & c' & y & E & Zx); [lia|]. assert (Rd : rd D (ci s) = Val c') by (rewrite E, <- Zx; apply rd_mid). rewrite Rd. cbn [bind].
  assert (Kb : lsb 8 c' ++ bits_of y = lsb 8 c ++ r).
  { rewrite <- K, P, E, bits_app. rewrite <- Zx, B0. replace (Z.to_nat (8 * zlen x + 0)) with (length (bits_of x) + 0)%nat by (rewrite bits_len; unfold zlen; lia).
    now rewrite skipn_past. }
  assert (Hc' : byte c') by (rewrite Forall_forall in Hd; apply Hd; rewrite E; apply in_or_app; right; now left).
  assert (Q : c' = c /\ bits_of y = r).
  { apply (f_equal (firstn 8)) in Kb as F. apply (f_equal (skipn 8)) in Kb as G. rewrite !firstn_app, !lsb_len in F. rewrite !skipn_app, !lsb_len in G. rewrite (skipn_all2 (lsb 8 c')), (skipn_all2 (lsb 8 c)) in G by (rewrite lsb_len; lia). cbn [Nat.sub firstn skipn app] in F, G. rewrite !app_nil_r in F. split; [|exact G].
    apply (lsb_inj 8); [exact F|exact Hc'|exact Hc]. }
  destruct Q as [-> Qy]. eexists. split; [reflexivity|]. unfold St, set_in. cbn [cb lastb bit ci ub ui]. destruct O as (j & O1 & O2). repeat match goal with |- _ /\ _ => split end; try assumption; try lia; [|exists j; auto].
  rewrite <- Qy, E, bits_app. cbn [bits_of flat_map]. replace (Z.to_nat (p + 8)) with (length (bits_of x) + 8)%nat by (rewrite bits_len; unfold zlen in *; lia). fold (bits_of y). rewrite skipn_past. reflexivity.
Qed.
