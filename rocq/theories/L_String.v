From Verif Require Import Base M_String S_String.
Ltac Zify.zify_post_hook ::= Z.to_euclidean_division_equations.
Ltac zl := repeat first [rewrite zlen_app | rewrite zlen_cons];
  repeat match goal with |- context [zlen (@nil ?A)] => change (zlen (@nil A)) with 0 end; lia.

(** * ztake, zdrop *)
Lemma ztake_app {A} (a b : list A) n : n = zlen a -> ztake n (a ++ b) = a.
Proof. intros ->. unfold ztake, zlen. rewrite Nat2Z.id, firstn_app, Nat.sub_diag, firstn_all. cbn. apply app_nil_r. Qed.
Lemma zdrop_app {A} (a b : list A) n : n = zlen a -> zdrop n (a ++ b) = b.
Proof. intros ->. unfold zdrop, zlen. rewrite Nat2Z.id, skipn_app, Nat.sub_diag, skipn_all. reflexivity. Qed.
Lemma ztake_all {A} (a : list A) n : zlen a <= n -> ztake n a = a.
Proof. intros H. unfold ztake. apply firstn_all2. unfold zlen in H. lia. Qed.
Lemma zdrop_all {A} (a : list A) n : zlen a <= n -> zdrop n a = [].
Proof. intros H. unfold zdrop. apply skipn_all2. unfold zlen in H. lia. Qed.
Lemma zdrop_0 {A} (a : list A) n : n <= 0 -> zdrop n a = a.
Proof. intros H. unfold zdrop. replace (Z.to_nat n) with O by lia. reflexivity. Qed.
Lemma ztake_0 {A} (a : list A) n : n <= 0 -> ztake n a = [].
Proof. intros H. unfold ztake. replace (Z.to_nat n) with O by lia. reflexivity. Qed.
Lemma take_drop {A} (n : Z) (l : list A) : ztake n l ++ zdrop n l = l.
Proof. apply firstn_skipn. Qed.
Lemma zlen_ztake {A} (n : Z) (l : list A) : 0 <= n <= zlen l -> zlen (ztake n l) = n.
Proof. intros H. unfold ztake, zlen in *. rewrite firstn_length. lia. Qed.
Lemma zlen_zdrop {A} (n : Z) (l : list A) : 0 <= n <= zlen l -> zlen (zdrop n l) = zlen l - n.
Proof. intros H. unfold zdrop, zlen in *. rewrite skipn_length. lia. Qed.
Lemma zlen_zeros n : 0 <= n -> zlen (zeros n) = n.
Proof. intros H. unfold zeros. rewrite zlen_repeat. lia. Qed.
Lemma length_zlen {A} (l : list A) : length l = Z.to_nat (zlen l).
Proof. unfold zlen. now rewrite Nat2Z.id. Qed.
Lemma split3 {A} (l : list A) i n : 0 <= i -> 0 <= n -> i + n <= zlen l -> exists a b c, l = a ++ b ++ c /\ zlen a = i /\ zlen b = n.
Proof.
  intros Hi Hn H. destruct (split_len l i ltac:(lia)) as (a & r & -> & Ha). destruct (split_len r n) as (b & c & -> & Hb); [rewrite zlen_app in H; lia|].
  exists a, b, c. auto.
Qed.

(** * representation *)
Definition repr (s : jstr) (t : list Z) : Prop := exists j, buf s = t ++ j /\ len s = zlen t.
Lemma sound_repr s : sound s <-> repr s (text s).
Proof.
  unfold sound, repr, text. split.
  - intros H. exists (zdrop (len s) (buf s)). rewrite take_drop, zlen_ztake; auto.
  - intros (j & E & L). assert (L2 : len s = zlen (ztake (len s) (buf s))) by exact L. rewrite E, zlen_app, <- L2. pose proof (zlen_nonneg j). pose proof (zlen_nonneg (ztake (len s) (buf s))). lia.
Qed.
Lemma repr_text s t : repr s t -> text s = t /\ sound s.
Proof.
  intros (j & E & L). unfold text, sound. rewrite E, L. split; [now apply ztake_app|]. rewrite zlen_app. pose proof (zlen_nonneg t). pose proof (zlen_nonneg j). lia.
Qed.

Lemma memcpy_ok p m q a x c : zlen m = zlen x -> memcpy (p ++ m ++ q) (zlen p) (a ++ x ++ c) (zlen a) (zlen x) = Val (p ++ x ++ q).
Proof.
  intros E. unfold memcpy. pose proof (zlen_nonneg p). pose proof (zlen_nonneg a). pose proof (zlen_nonneg x). pose proof (zlen_nonneg q). pose proof (zlen_nonneg c).
  rewrite !zlen_app.
  replace ((0 <=? zlen p) && (0 <=? zlen a) && (0 <=? zlen x) && (zlen p + zlen x <=? zlen p + (zlen m + zlen q)) && (zlen a + zlen x <=? zlen a + (zlen x + zlen c))) with true by lia.
  rewrite (ztake_app p) by reflexivity. rewrite (zdrop_app a) by reflexivity. rewrite (ztake_app x) by reflexivity.
  rewrite (app_assoc p m q), (zdrop_app (p ++ m)); [reflexivity|]. rewrite zlen_app. lia.
Qed.
(** copying a prefix into fresh zeros *)
Lemma memcpy_zeros n t j : zlen t <= n -> memcpy (zeros n) 0 (t ++ j) 0 (zlen t) = Val (t ++ zeros (n - zlen t)).
Proof.
  intros H. pose proof (zlen_nonneg t). replace (zeros n) with ([] ++ zeros (zlen t) ++ zeros (n - zlen t)).
  - apply (memcpy_ok [] (zeros (zlen t)) (zeros (n - zlen t)) [] t j). apply zlen_zeros. lia.
  - cbn [app]. unfold zeros. rewrite <- repeat_app. f_equal. lia.
Qed.
Lemma round16_ge n : 0 <= n -> n <= round16 n < n + 16 /\ Z.rem (round16 n) 16 = 0.
Proof. intros H. unfold round16. destruct (Z.eqb_spec (Z.rem n 16) 0); lia. Qed.

Lemma str_of_repr xs : repr (str_of xs) xs.
Proof. eexists. split; reflexivity. Qed.
Lemma str_new_repr : repr str_new [].
Proof. exists (zeros 16). split; reflexivity. Qed.
Lemma copy_ctor_ok s t : repr s t -> exists s', copy_ctor s = Val s' /\ repr s' t /\ hash s' = hash s /\ zlen (buf s') = zlen (buf s) /\ len s' = len s.
Proof.
  intros (j & E & L). unfold copy_ctor. rewrite E, L, memcpy_zeros by (rewrite zlen_app; pose proof (zlen_nonneg j); lia). cbn [bind].
  eexists. split; [reflexivity|]. pose proof (zlen_nonneg j). split; [eexists; split; reflexivity|]. split; [reflexivity|]. cbn [buf len]. split; [|reflexivity]. rewrite !zlen_app, zlen_zeros; lia.
Qed.
Lemma assign_ok this s t : repr s t -> exists s', assign this s = Val s' /\ repr s' t /\ hash s' = hash this.
Proof.
  intros (j & E & L). unfold assign. rewrite E, L, memcpy_zeros by (rewrite zlen_app; pose proof (zlen_nonneg j); lia). cbn [bind].
  eexists. split; [reflexivity|]. split; [|reflexivity]. eexists. split; reflexivity.
Qed.
Lemma check_capacity_ok s t more : repr s t -> 0 <= more -> exists s' j, check_capacity more s = Val s' /\ buf s' = t ++ j /\ len s' = zlen t /\ more <= zlen j /\ hash s' = hash s.
Proof.
  intros (j & E & L) Hm. unfold check_capacity. pose proof (zlen_nonneg t). pose proof (zlen_nonneg j).
  destruct (Z.ltb_spec (len s + more) (zlen (buf s))) as [H1|H1].
  - exists s, j. rewrite E, zlen_app in H1. repeat split; auto. lia.
  - destruct (round16_ge (len s + more)) as [R1 R2]; [lia|]. destruct (Z.ltb_spec (round16 (len s + more)) 0); [lia|].
    rewrite L in R1, R2, H2. rewrite E, L, memcpy_zeros by lia. cbn [bind]. eexists _, _. split; [reflexivity|]. cbn [buf len hash]. repeat split. rewrite zlen_zeros; lia.
Qed.

Lemma append_ok s t s2 t2 : repr s t -> repr s2 t2 -> exists s', append s s2 = Val s' /\ repr s' (t ++ t2).
Proof.
  intros H (j2 & E2 & L2). unfold append. pose proof (zlen_nonneg t2). destruct (Z.eqb_spec (len s2) 0) as [E0|E0].
  - exists s. split; [reflexivity|]. rewrite E0 in L2. symmetry in L2. apply zlen_zero in L2. subst t2. now rewrite app_nil_r.
  - destruct (check_capacity_ok s t (len s2) H ltac:(lia)) as (s' & j & -> & Eb & El & Ej & _). cbn [bind].
    destruct (split_len j (len s2)) as (m & q & -> & Hm); [pose proof (zlen_nonneg j); lia|].
    rewrite Eb, El, E2, L2. change 0 with (zlen (@nil Z)). change (t2 ++ j2) with ([] ++ t2 ++ j2). rewrite memcpy_ok by lia. cbn [bind].
    eexists. split; [reflexivity|]. exists q. cbn [buf len]. rewrite app_assoc, zlen_app. auto.
Qed.
Lemma append_char_ok s t c : repr s t -> exists s', append_char s c = Val s' /\ repr s' (t ++ [c]) /\ hash s' = 0.
Proof.
  intros H. unfold append_char. destruct (check_capacity_ok s t 1 H ltac:(lia)) as (s' & j & -> & Eb & El & Ej & _). cbn [bind].
  destruct j as [|x j]; [change (zlen (@nil Z)) with 0 in Ej; lia|]. rewrite Eb, El, wr_mid by reflexivity. cbn [bind]. eexists. split; [reflexivity|]. split; [|reflexivity].
  exists j. cbn [buf len]. rewrite <- app_assoc, zlen_app. auto.
Qed.

Lemma shift_up_ok d m : forall p g a k, 1 <= d -> d <= zlen g -> a = zlen p + zlen m -> k = length m ->
  exists h, shift_up (p ++ m ++ g) a d k = Val (p ++ h ++ m ++ zdrop d g) /\ zlen h = d.
Proof.
  induction m as [|x m IH] using rev_ind; intros p g a k Hd Hg Ha Hk.
  - subst k. cbn [length shift_up]. destruct (split_len g d ltac:(lia)) as (h & r & -> & Hh). exists h. rewrite zdrop_app by lia. auto.
  - subst k. rewrite app_length. cbn [length]. replace (length m + 1)%nat with (S (length m)) by lia. cbn [shift_up].
    rewrite zlen_app in Ha. change (zlen [x]) with 1 in Ha.
    replace (p ++ (m ++ [x]) ++ g) with ((p ++ m) ++ x :: g) by (rewrite <- !app_assoc; reflexivity).
    rewrite rd_mid' by (rewrite zlen_app; lia). cbn [bind].
    destruct (split_at (x :: g) d) as (u & y & v & Eu & Hu); [rewrite zlen_cons; lia|].
    replace ((p ++ m) ++ x :: g) with (((p ++ m) ++ u) ++ y :: v) by (rewrite <- app_assoc, Eu; reflexivity).
    rewrite wr_mid by (rewrite !zlen_app; lia). cbn [bind].
    replace (((p ++ m) ++ u) ++ x :: v) with (p ++ m ++ (u ++ x :: v)) by (rewrite <- !app_assoc; reflexivity).
    destruct (IH p (u ++ x :: v) (a - 1) (length m)) as (h & -> & Hh); auto; try lia.
    { rewrite zlen_app, zlen_cons. pose proof (zlen_nonneg v). lia. }
    exists h. split; [|exact Hh]. f_equal. rewrite zdrop_app by lia.
    assert (Hv : v = zdrop d g). { destruct u as [|z u]; [change (zlen (@nil Z)) with 0 in Hu; lia|]. injection Eu as <- ->. rewrite zlen_cons in Hu.
      replace (u ++ y :: v) with ((u ++ [y]) ++ v) by (rewrite <- app_assoc; reflexivity). rewrite zdrop_app; [reflexivity|]. rewrite zlen_app. change (zlen [y]) with 1. lia. }
    rewrite <- Hv. rewrite <- !app_assoc. reflexivity.
Qed.
Lemma shift_down_ok m : forall p u q a k, a = zlen p -> k = length m ->
  exists h, shift_down (p ++ u ++ m ++ q) a (zlen u) k = Val (p ++ m ++ h) /\ zlen h = zlen u + zlen q.
Proof.
  induction m as [|x m IH]; intros p u q a k Ha Hk; subst k; cbn [length shift_down].
  - exists (u ++ q). rewrite zlen_app. auto.
  - replace (p ++ u ++ (x :: m) ++ q) with ((p ++ u) ++ x :: (m ++ q)) by (rewrite <- !app_assoc; reflexivity).
    rewrite rd_mid' by (rewrite zlen_app; lia). cbn [bind].
    assert (K : exists y w u', (p ++ u) ++ x :: m ++ q = p ++ y :: w /\ w = u' ++ m ++ q /\ zlen u' = zlen u).
    { destruct u as [|y u].
      - exists x, (m ++ q), []. rewrite app_nil_r. auto.
      - exists y, (u ++ x :: m ++ q), (u ++ [x]). rewrite <- !app_assoc. split; [reflexivity|]. split; [reflexivity|]. zl. }
    destruct K as (y & w & u' & -> & -> & Hu). rewrite wr_mid by exact Ha. cbn [bind].
    replace (p ++ x :: u' ++ m ++ q) with ((p ++ [x]) ++ u' ++ m ++ q) by (rewrite <- app_assoc; reflexivity).
    rewrite <- Hu. destruct (IH (p ++ [x]) u' q (a + 1) (length m)) as (h & -> & Hh); auto.
    { rewrite zlen_app. change (zlen [x]) with 1. lia. }
    exists h. rewrite <- app_assoc. auto.
Qed.
Lemma write_all_ok t2 : forall p m q i done s2 k, repr s2 (done ++ t2) -> zlen m = zlen t2 -> zlen p = i + zlen done -> k = length t2 ->
  write_all (p ++ m ++ q) i (zlen done) s2 k = Val (p ++ t2 ++ q).
Proof.
  induction t2 as [|x t2 IH]; intros p m q i done s2 k (j & E & L) Hm Hp Hk; subst k; cbn [length write_all].
  - apply zlen_zero in Hm. subst m. reflexivity.
  - unfold char_at. rewrite L, E, zlen_app, zlen_cons. pose proof (zlen_nonneg done). pose proof (zlen_nonneg t2).
    replace ((zlen done <? 0) || (zlen done >=? zlen done + (1 + zlen t2))) with false by lia.
    rewrite <- app_assoc. cbn [app]. rewrite rd_mid. cbn [bind]. destruct m as [|y m]; [rewrite zlen_cons in Hm; change (zlen (@nil Z)) with 0 in Hm; lia|].
    cbn [app]. rewrite wr_mid by lia. cbn [bind]. rewrite !zlen_cons in Hm.
    replace (p ++ x :: m ++ q) with ((p ++ [x]) ++ m ++ q) by (rewrite <- app_assoc; reflexivity).
    replace (zlen done + 1) with (zlen (done ++ [x])) by (rewrite zlen_app; reflexivity).
    rewrite (IH (p ++ [x]) m q i (done ++ [x]) s2 (length t2)); auto.
    + rewrite <- app_assoc. reflexivity.
    + exists j. rewrite E, L, <- !app_assoc. split; [reflexivity|]. zl.
    + lia.
    + rewrite !zlen_app. change (zlen [x]) with 1. lia.
Qed.

Lemma insert_char_ok s t i c : repr s t -> 0 <= i <= zlen t -> exists s', insert_char s i c = Val s' /\ repr s' (ztake i t ++ c :: zdrop i t).
Proof.
  intros H Hi. unfold insert_char. pose proof H as (j0 & E0 & L0). rewrite L0. replace ((i <? 0) || (i >? zlen t)) with false by lia.
  destruct (check_capacity_ok s t 1 H ltac:(lia)) as (s' & j & -> & Eb & El & Ej & _). cbn [bind].
  destruct (split_len t i Hi) as (p & m & -> & Hp). rewrite Eb, El. rewrite <- app_assoc.
  destruct (shift_up_ok 1 m p j (zlen (p ++ m)) (Z.to_nat (zlen (p ++ m) - i))) as (h & -> & Hh); try lia.
  { now rewrite zlen_app. } { rewrite length_zlen, zlen_app. f_equal. lia. }
  cbn [bind]. destruct h as [|y [|z h]]; [change (zlen (@nil Z)) with 0 in Hh; lia| |rewrite !zlen_cons in Hh; pose proof (zlen_nonneg h); lia].
  cbn [app]. rewrite wr_mid by lia. cbn [bind]. eexists. split; [reflexivity|]. exists (zdrop 1 j). cbn [buf len].
  rewrite ztake_app, zdrop_app by lia. rewrite <- app_assoc. split; [reflexivity|]. rewrite !zlen_app, zlen_cons. lia.
Qed.
Lemma insert_str_ok s t i s2 t2 : repr s t -> repr s2 t2 -> 0 <= i <= zlen t -> exists s', insert_str s i s2 = Val s' /\ repr s' (ztake i t ++ t2 ++ zdrop i t).
Proof.
  intros H H2 Hi. unfold insert_str. pose proof H as (j0 & E0 & L0). pose proof H2 as (j2 & E2 & L2). rewrite L0. replace ((i <? 0) || (i >? zlen t)) with false by lia.
  pose proof (zlen_nonneg t2). cbv zeta. destruct (check_capacity_ok s t (len s2) H ltac:(lia)) as (s' & j & -> & Eb & El & Ej & _). cbn [bind].
  destruct (split_len t i Hi) as (p & m & -> & Hp). rewrite Eb, El. rewrite <- app_assoc.
  destruct t2 as [|x t2].
  - change (zlen (@nil Z)) with 0 in L2. rewrite L2. cbn [Z.to_nat write_all app].
    assert (K : forall k p m g a, a = zlen p + zlen m -> k = length m -> shift_up (p ++ m ++ g) a 0 k = Val (p ++ m ++ g)).
    { clear. induction k as [|k IH]; intros p m g a Ha Hk; cbn [shift_up]; [reflexivity|]. destruct m as [|x m] using rev_ind; [discriminate|]. clear IHm.
      rewrite app_length in Hk. cbn [length] in Hk. rewrite zlen_app in Ha. change (zlen [x]) with 1 in Ha.
      replace (p ++ (m ++ [x]) ++ g) with ((p ++ m) ++ x :: g) by (rewrite <- !app_assoc; reflexivity). rewrite rd_mid' by (rewrite zlen_app; lia). cbn [bind].
      rewrite wr_mid by (rewrite zlen_app; lia). cbn [bind]. rewrite <- app_assoc. rewrite IH; auto; lia. }
    rewrite K; [| now rewrite zlen_app | rewrite length_zlen, zlen_app; f_equal; lia]. cbn [bind]. eexists. split; [reflexivity|]. exists j. cbn [buf len]. rewrite take_drop, <- app_assoc. split; [reflexivity|lia].
  - destruct (shift_up_ok (len s2) m p j (zlen (p ++ m)) (Z.to_nat (zlen (p ++ m) - i))) as (h & -> & Hh); try lia.
    { rewrite L2, zlen_cons. pose proof (zlen_nonneg t2). lia. } { now rewrite zlen_app. } { rewrite length_zlen, zlen_app. f_equal. lia. }
    cbn [bind]. change 0 with (zlen (@nil Z)). rewrite (write_all_ok (x :: t2) p h (m ++ zdrop (len s2) j) i [] s2); auto.
    + cbn [bind]. eexists. split; [reflexivity|]. exists (zdrop (len s2) j). cbn [buf len]. rewrite ztake_app, zdrop_app by lia. rewrite <- !app_assoc. split; [reflexivity|]. rewrite !zlen_app. lia.
    + lia. + change (zlen (@nil Z)) with 0. lia. + rewrite length_zlen. f_equal. lia.
Qed.
Lemma set_char_ok s t i c : repr s t -> 0 <= i < zlen t -> exists s', set_char_at s i c = Val s' /\ repr s' (ztake i t ++ c :: zdrop (i + 1) t) /\ hash s' = 0.
Proof.
  intros (j & E & L) Hi. unfold set_char_at. rewrite L, E. replace ((i <? 0) || (i >=? zlen t)) with false by lia.
  destruct (split_at t i Hi) as (p & x & q & -> & Hp). rewrite <- app_assoc. cbn [app]. rewrite wr_mid by lia. cbn [bind]. eexists. split; [reflexivity|]. split; [|reflexivity].
  exists j. cbn [buf len]. rewrite ztake_app by lia. replace (p ++ x :: q) with ((p ++ [x]) ++ q) by (rewrite <- app_assoc; reflexivity).
  rewrite zdrop_app by (rewrite zlen_app; change (zlen [x]) with 1; lia). rewrite <- !app_assoc. cbn [app]. split; [reflexivity|]. rewrite !zlen_app, !zlen_cons. reflexivity.
Qed.
Lemma char_at_ok s t i : repr s t -> char_at s i = match lget t i with Some c => Val c | None => Exn end.
Proof.
  intros (j & E & L). unfold char_at. rewrite L, E. destruct (lget t i) as [c|] eqn:G.
  - pose proof (lget_some_range _ _ _ G). replace ((i <? 0) || (i >=? zlen t)) with false by lia. rewrite rd_app_l by lia. unfold rd. now rewrite G.
  - pose proof (lget_none_range _ _ G). replace ((i <? 0) || (i >=? zlen t)) with true by lia. reflexivity.
Qed.
Lemma delete_range_ok s t i n : repr s t -> 0 <= i -> 0 <= n -> i + n <= zlen t -> n <= 2 ^ 62 -> zlen t <= 2 ^ 62 ->
  exists s', delete_range s i n = Val s' /\ repr s' (ztake i t ++ zdrop (i + n) t).
Proof.
  intros (j & E & L) Hi Hn H Hb1 Hb2. unfold delete_range. rewrite L, E. replace ((i <? 0) || (i >? zlen t)) with false by lia.
  unfold chk64, in_s64. pose proof (zlen_nonneg t). change (2 ^ 62) with 4611686018427387904 in *.
  replace ((-9223372036854775808 <=? zlen t - n) && (zlen t - n <=? 9223372036854775807)) with true by lia. cbn [bind].
  destruct (split3 t i n) as (p & u & m & -> & Hp & Hu); auto. rewrite <- !app_assoc.
  destruct (shift_down_ok m p u j i (Z.to_nat (zlen (p ++ u ++ m) - n - i))) as (h & E2 & Hh).
  { lia. } { rewrite length_zlen, !zlen_app. f_equal. lia. }
  rewrite Hu in E2. rewrite E2. cbn [bind]. eexists. split; [reflexivity|]. exists h. cbn [buf len].
  rewrite ztake_app by lia. rewrite (app_assoc p u m), zdrop_app by (rewrite zlen_app; lia). rewrite <- app_assoc. split; [reflexivity|]. rewrite !zlen_app. lia.
Qed.
Lemma delete_char_ok s t i : repr s t -> 0 <= i < zlen t -> exists s', delete_char_at s i = Val s' /\ repr s' (ztake i t ++ zdrop (i + 1) t).
Proof.
  intros (j & E & L) Hi. unfold delete_char_at. rewrite L, E. replace ((i <? 0) || (i >=? zlen t)) with false by lia.
  destruct (split3 t i 1) as (p & u & m & -> & Hp & Hu); try lia. rewrite <- !app_assoc.
  destruct (shift_down_ok m p u j i (Z.to_nat (zlen (p ++ u ++ m) - 1 - i))) as (h & E2 & Hh).
  { lia. } { rewrite length_zlen, !zlen_app. f_equal. lia. }
  rewrite Hu in E2. rewrite E2. cbn [bind]. eexists. split; [reflexivity|]. exists h. cbn [buf len].
  rewrite ztake_app by lia. rewrite (app_assoc p u m), zdrop_app by (rewrite zlen_app; lia). rewrite <- app_assoc. split; [reflexivity|]. rewrite !zlen_app. lia.
Qed.
Lemma zero_ok s t : repr s t -> repr (zero s) [].
Proof. intros _. exists (buf s). split; reflexivity. Qed.
Lemma clear_ok s t : repr s t -> repr (clear s) [].
Proof. intros _. unfold clear. cbn [zero buf]. destruct (zlen (buf s) >? 16); eexists; split; reflexivity. Qed.

(** substring *)
Lemma substring_ok s t b e : repr s t ->
  let b' := Z.max 0 b in let e' := Z.min (zlen t) (Z.max b' e) in
  exists s', substring s b e = Val s' /\ repr s' (ztake (e' - b') (zdrop b' t)) /\ hash s' = 0.
Proof.
  intros (j & E & L) b' e'. unfold substring. rewrite L.
  replace (if b <? 0 then 0 else b) with b' by (unfold b'; destruct (Z.ltb_spec b 0); lia).
  replace (if (if e <? b' then b' else e) >? zlen t then zlen t else if e <? b' then b' else e) with e'
    by (unfold e'; destruct (Z.ltb_spec e b'); match goal with |- context [?x >? ?y] => destruct (Z.gtb_spec x y) end; lia).
  cbv zeta. destruct (Z.gtb_spec (e' - b') 0) as [H|H].
  - destruct (check_capacity_ok str_new [] (e' - b') str_new_repr ltac:(lia)) as (r & jr & -> & Er & Lr & Hr & Hh). cbn [bind].
    destruct (split3 t b' (e' - b')) as (p & x & q & -> & Hp & Hx); [lia|lia|lia|].
    destruct (split_len jr (e' - b')) as (m & z & -> & Hm); [lia|].
    rewrite Er, E. change ([] ++ m ++ z) with ([] ++ m ++ z). rewrite <- !app_assoc. rewrite <- Hx, <- Hp. change 0 with (zlen (@nil Z)). rewrite memcpy_ok by lia. cbn [bind].
    eexists. split; [reflexivity|]. rewrite zdrop_app, ztake_app by reflexivity. split; [|exact Hh]. exists z. split; reflexivity.
  - exists str_new. split; [reflexivity|]. split; [|reflexivity]. rewrite ztake_0 by lia. apply str_new_repr.
Qed.
Lemma substring_mid s p m q : repr s (p ++ m ++ q) -> exists s', substring s (zlen p) (zlen p + zlen m) = Val s' /\ repr s' m.
Proof.
  intros H. destruct (substring_ok s _ (zlen p) (zlen p + zlen m) H) as (s' & E & R & _). exists s'. split; [exact E|].
  pose proof (zlen_nonneg p). pose proof (zlen_nonneg m). pose proof (zlen_nonneg q). cbv zeta in R. rewrite !zlen_app in R.
  replace (Z.max 0 (zlen p)) with (zlen p) in R by lia. rewrite zdrop_app in R by reflexivity.
  rewrite ztake_app in R by lia. exact R.
Qed.
Lemma substring_from_mid s p q : repr s (p ++ q) -> exists s', substring_from s (zlen p) = Val s' /\ repr s' q.
Proof.
  intros H. unfold substring_from. pose proof H as (j & _ & ->). rewrite zlen_app. destruct (substring_mid s p q []) as (s' & E & R); [now rewrite app_nil_r|]. eauto.
Qed.

(** prefix test against a physical buffer: running out of the buffer is undefined *)
Fixpoint pm (y r : list Z) : out bool :=
  match y, r with
  | [], _ => Val true
  | _ :: _, [] => UB
  | c :: y, d :: r => if d =? c then pm y r else Val false
  end.
Lemma match_at_pm y : forall P R Q j a b k, a + b = zlen P -> b = zlen Q -> k = length y -> match_at (P ++ R) a (Q ++ y ++ j) b k = pm y R.
Proof.
  induction y as [|c y IH]; intros P R Q j a b k Ha Hb Hk; subst k; cbn [length match_at pm]; [destruct R; reflexivity|].
  destruct R as [|d R].
  - rewrite rd_out by (rewrite app_nil_r; lia). reflexivity.
  - rewrite Ha, rd_mid. cbn [bind]. change (Q ++ (c :: y) ++ j) with (Q ++ c :: (y ++ j)). rewrite rd_mid' by exact Hb. cbn [bind].
    destruct (d =? c); [|reflexivity].
    replace (P ++ d :: R) with ((P ++ [d]) ++ R) by (rewrite <- app_assoc; reflexivity). replace (Q ++ c :: y ++ j) with ((Q ++ [c]) ++ y ++ j) by (rewrite <- app_assoc; reflexivity).
    apply IH; auto; rewrite zlen_app; cbn; lia.
Qed.
Lemma match_at_ok s2 y P R a : repr s2 y -> a = zlen P -> match_at (P ++ R) a (buf s2) 0 (Z.to_nat (len s2)) = pm y R.
Proof.
  intros (j & E & L) Ha. rewrite E, L. change (y ++ j) with ([] ++ y ++ j). apply match_at_pm; [cbn; lia|reflexivity|]. now rewrite length_zlen.
Qed.
Lemma pm_true y : forall R, pm y R = Val true <-> exists r, R = y ++ r.
Proof.
  induction y as [|c y IH]; intros R; cbn [pm].
  - split; [intros _; exists R; reflexivity|destruct R; reflexivity].
  - destruct R as [|d R]; [split; [discriminate|intros (r & H); discriminate]|]. destruct (Z.eqb_spec d c) as [->|Hn].
    + rewrite IH. split; intros (r & H); exists r; [cbn; now rewrite H|now injection H].
    + split; [discriminate|]. intros (r & H). injection H as -> _. contradiction.
Qed.
Lemma pm_long y : forall R, zlen y <= zlen R -> exists b, pm y R = Val b.
Proof.
  induction y as [|c y IH]; intros R H; cbn [pm]; [destruct R; eauto|]. destruct R as [|d R]; [rewrite zlen_cons in H; change (zlen (@nil Z)) with 0 in H; pose proof (zlen_nonneg y); lia|].
  destruct (d =? c); [|eauto]. apply IH. rewrite !zlen_cons in H. lia.
Qed.
Lemma pm_long_iff y R : zlen y <= zlen R -> exists b, pm y R = Val b /\ (b = true <-> exists r, R = y ++ r).
Proof.
  intros H. destruct (pm_long y R H) as [b E]. exists b. split; [exact E|]. rewrite <- pm_true, E. split; congruence.
Qed.
