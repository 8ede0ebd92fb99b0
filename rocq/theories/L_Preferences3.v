From Verif Require Import Base M_Utf8 M_String M_Hashtable M_Tokenizer M_StringList M_Preferences S_String S_Utf8 S_Sort S_Tokenizer S_StringList S_Integer S_Hashtable S_Preferences.
From Verif Require Import L_String L_String2 L_String3 L_String4 L_Integer L_Sort L_Hashtable L_Preferences L_Preferences2.
Ltac Zify.zify_post_hook ::= Z.to_euclidean_division_equations.

(** * the invariant *)
Definition row (vals : vheap) (e : list Z * Z) (r : list Z * list Z) : Prop := fst e = fst r /\ snd e <> 0 /\ exists s, vderef vals (snd e) = Val s /\ repr s (snd r).
Definition rowok (r : list Z * list Z) : Prop := Forall unit16 (fst r) /\ zlen (fst r) < 2 ^ 31 /\ Forall unit16 (snd r) /\ zlen (snd r) < 2 ^ 32.
Definition pstate (p : prefs) (b : list (list ent)) (mz : fmap (Z * list Z)) (m : settings) (K : Z) : Prop :=
  inv [] (pnodes p) (ptab p) b /\ models b mz /\ pure mz /\ fit K (ptab p) /\ Forall2 (row (pvals p)) (map drop_hash mz) m /\ NoDup (map snd mz) /\
  (forall q, ~ In q (map snd mz) -> vderef (pvals p) q = UB) /\ Forall rowok m.
Definition pinv (p : prefs) (m : settings) (K : Z) : Prop := exists b mz, pstate p b mz m K.
Lemma pinv_new : pinv prefs_new [] 0.
Proof.
  exists (repeat [] 7), []. split; [apply inv_empty; [lia|reflexivity]|]. split; [unfold models; rewrite concat_nils; constructor|]. split; [constructor|]. split; [unfold fit; cbn; lia|]. split; [constructor|]. split; [constructor|]. split; [|constructor].
  intros q _. unfold vderef. cbn [prefs_new pvals]. destruct (lget [] (q - 1)) eqn:E; [|reflexivity]. apply lget_In in E. destruct E.
Qed.
Lemma pinv_up p m K K' : pinv p m K -> K <= K' -> pinv p m K'.
Proof. intros (b & mz & A & B & C & F & R) H. exists b, mz. split; [exact A|]. split; [exact B|]. split; [exact C|]. split; [|exact R]. unfold fit in *. lia. Qed.
Lemma count_K h t b K : inv [] h t b -> fit K t -> zlen (concat b) <= K /\ zlen b <= 3 * K + 7.
Proof. intros I F. pose proof (inv_len _ _ _ _ I) as L. destruct I as (_ & _ & _ & _ & _ & _ & C & _). unfold fit in F. lia. Qed.
Lemma rows_get vals k : forall mt m, Forall2 (row vals) mt m ->
  match mget text_dec mt k with Some q => q <> 0 /\ exists t s, lookup m k = Some t /\ vderef vals q = Val s /\ repr s t | None => lookup m k = None end.
Proof.
  induction 1 as [|[k1 q] [k2 t] mt m (E & N & s & D & R) F IH]; [reflexivity|]. cbn [fst snd mget lookup] in *. subst k2. unfold same. destruct (text_dec k1 k); [|exact IH]. split; [exact N|]. exists t, s. auto.
Qed.
Lemma find_ok p b mz m K key fuel : pstate p b mz m K -> good_key key -> (Z.to_nat K < fuel)%nat ->
  exists q, ht_get (pnodes p) (ptab p) key fuel = Val q /\ ((q = 0 /\ lookup m (text key) = None) \/ (q <> 0 /\ In q (map snd mz) /\ exists t s, lookup m (text key) = Some t /\ vderef (pvals p) q = Val s /\ repr s t)).
Proof.
  intros (I & M & P & F & R & _ & _ & _) (G1 & G2) Hf. pose proof (count_K _ _ _ _ I F) as [C _]. exists (mval pair_dec mz (key_of key)). split; [apply (get_ok [] _ _ b); auto; unfold zlen in C; lia|].
  unfold mval. pose proof (rows_get _ (text key) _ _ R) as G. rewrite <- pure_get in G by assumption. destruct (mget pair_dec mz (key_of key)) as [q|] eqn:Eq; [|left; auto]. right. destruct G as (N & t & s & X). split; [exact N|]. split; [|eauto].
  clear - Eq. induction mz as [|[k v] mz IH]; [discriminate|]. cbn [mget map snd] in *. destruct (same pair_dec k (key_of key)); [injection Eq as ->; now left|right; auto].
Qed.
Lemma vderef_app h x q : vderef (h ++ [Some x]) q = if q =? zlen h + 1 then Val x else vderef h q.
Proof.
  unfold vderef. destruct (Z.eqb_spec q (zlen h + 1)) as [->|N]; [replace (zlen h + 1 - 1) with (zlen h) by lia; now rewrite lget_mid|].
  destruct (Z.ltb_spec (q - 1) (zlen h)) as [L|L]; [|rewrite !lget_out; [reflexivity|right; lia|right; rewrite zlen_app; cbn; lia]].
  destruct (Z.ltb_spec (q - 1) 0) as [L0|L0]; [rewrite !lget_out by lia; reflexivity|]. now rewrite lget_app_l by lia.
Qed.
Lemma vderef_range h q s : vderef h q = Val s -> 0 < q <= zlen h.
Proof. unfold vderef. destruct (lget h (q - 1)) as [[x|]|] eqn:E; try discriminate. intros _. apply lget_some_range in E. lia. Qed.
Lemma vfree_ok h q s : vderef h q = Val s -> exists h', vfree h q = Val h' /\ zlen h' = zlen h /\ forall r, vderef h' r = if r =? q then UB else vderef h r.
Proof.
  intros D. pose proof (vderef_range _ _ _ D) as Rg. unfold vfree. rewrite D. cbn [bind]. destruct (split_at h (q - 1)) as (a & x & c & -> & La); [lia|]. rewrite <- La, wr_mid by reflexivity. eexists. split; [reflexivity|]. split; [rewrite !zlen_app, !zlen_cons; reflexivity|].
  intros r. unfold vderef. destruct (Z.eqb_spec r q) as [->|N]; [rewrite <- La, lget_mid; reflexivity|]. destruct (Z.ltb_spec (r - 1) (zlen a)) as [L|L].
  - destruct (Z.ltb_spec (r - 1) 0); [rewrite !lget_out by lia; reflexivity|]. now rewrite !lget_app_l by lia.
  - rewrite !lget_app_r by lia. now rewrite !lget_cons_S by lia.
Qed.
(** * setValue *)
Lemma mremove_In {K} (dec : forall a b : K, {a = b} + {a <> b}) m k e : In e (mremove dec m k) -> In e m.
Proof. unfold mremove. intros H. now apply filter_In in H. Qed.
Lemma rows_remove vals k : forall mt m, Forall2 (row vals) mt m -> Forall2 (row vals) (mremove text_dec mt k) (filter (fun e => if text_dec (fst e) k then false else true) m).
Proof.
  induction 1 as [|e r mt m H F IH]; [constructor|]. unfold mremove in *. cbn [filter]. pose proof H as (E & _). rewrite <- E. unfold same. destruct (text_dec (fst e) k); cbn [negb]; [exact IH|constructor; auto].
Qed.
Lemma one_line_len t : zlen t <= zlen (one_line t) <= 2 * zlen t.
Proof.
  induction t as [|c|c d r I1 I2] using pair_ind; [cbn; lia| |].
  - cbn [one_line]. destruct (c =? 13); [cbn; lia|]. destruct (c =? 10); cbn; lia.
  - change (one_line (c :: d :: r)) with (if c =? 13 then 92 :: 110 :: (if d =? 10 then one_line r else one_line (d :: r)) else if c =? 10 then 92 :: 110 :: one_line (d :: r) else c :: one_line (d :: r)).
    rewrite !zlen_cons in *. destruct (c =? 13); [destruct (d =? 10)|destruct (c =? 10)]; rewrite !zlen_cons; lia.
Qed.
Lemma set_value_ok p m K key v fuel : pinv p m K -> good_key key -> good_value v -> (Z.to_nat K < fuel)%nat -> 0 <= K < 2 ^ 59 ->
  exists p', set_value p key v fuel = Val p' /\ pinv p' (store m (text key) (text v)) (K + 1).
Proof.
  intros (b & mz & St) Gk (Pv & Gv) Hf HK. pose proof St as (I & M & P & F & R & ND & Dead & Ok). destruct (set_chain_ok v ltac:(apply Pv) Gv) as (actual & Ec & Ra).
  assert (Es : set_value p key v fuel = (let vals := pvals p ++ [Some actual] in let* (old, h, t) := ht_put (pnodes p) (ptab p) key (zlen vals) fuel in
    let* vals := (if negb (old =? 0) then vfree vals old else Val vals) in Val (PF h t vals))).
  { unfold set_value. destruct (copy_ctor v) as [t0| | |]; try discriminate. cbn [bind] in *. destruct (replace_all t0 l_crlf l_bsn) as [r0| | |]; try discriminate. cbn [bind] in *. destruct (assign t0 r0) as [t1| | |]; try discriminate. cbn [bind] in *.
    destruct (replace_all t1 l_cr l_bsn) as [r1| | |]; try discriminate. cbn [bind] in *. destruct (assign t1 r1) as [t2| | |]; try discriminate. cbn [bind] in *. destruct (replace_all t2 l_lf l_bsn) as [r2| | |]; try discriminate. cbn [bind] in *. destruct (assign t2 r2) as [t3| | |]; try discriminate. cbn [bind] in *. rewrite Ec. reflexivity. }
  rewrite Es. clear Es Ec. cbv zeta. pose proof (count_K _ _ _ _ I F) as [C _]. pose proof (proj1 Gk) as Pk. pose proof (proj2 Gk) as Ck.
  destruct (put_ok [] _ _ b mz key (zlen (pvals p ++ [Some actual])) fuel K I M Pk ltac:(unfold zlen in C; lia) F ltac:(lia)) as (h' & t' & b' & -> & I' & M' & _ & F'). cbn [bind].
  replace (zlen (pvals p ++ [Some actual])) with (zlen (pvals p) + 1) in * by (rewrite zlen_app; reflexivity). set (a := zlen (pvals p) + 1) in *.
  assert (Live : forall q, In q (map snd mz) -> exists s, vderef (pvals p) q = Val s). { intros q Iq. clear - R Iq. remember (map drop_hash mz) as mt eqn:Em. assert (Eq : map snd mz = map snd mt) by (subst mt; rewrite map_map; reflexivity). rewrite Eq in Iq. clear - R Iq. induction R as [|e r mt m (_ & _ & s & D & _) R IH]; [destruct Iq|]. cbn [map] in Iq. destruct Iq as [<-|Iq]; eauto. }
  assert (Fresh : forall q, In q (map snd mz) -> q <> a) by (intros q Iq ->; destruct (Live a Iq) as (s & D); apply vderef_range in D; unfold a in D; lia).
  destruct (pure_remove mz key P Ck) as [Er Pr].
  assert (Sub : forall q, In q (map snd (mremove pair_dec mz (key_of key))) -> In q (map snd mz)) by (intros q Iq; apply in_map_iff in Iq as (e & <- & Ie); apply in_map; eapply mremove_In; eauto).
  assert (NDr : NoDup (map snd (mremove pair_dec mz (key_of key)))). { clear - ND. unfold mremove. induction mz as [|e mz IH]; cbn [filter map] in *; [constructor|]. inversion ND as [|? ? N1 N2]; subst. destruct (negb _); cbn [map]; [|auto]. constructor; [|auto]. intros J. apply N1. apply in_map_iff in J as (x & Ex & Ix). apply filter_In in Ix as [Ix _]. rewrite <- Ex. now apply in_map. }
  assert (Fin : forall vals, (forall q, In q (map snd (mremove pair_dec mz (key_of key))) -> vderef vals q = vderef (pvals p) q) -> vderef vals a = Val actual -> (forall q, q <> a -> ~ In q (map snd (mremove pair_dec mz (key_of key))) -> vderef vals q = UB) ->
    pinv (PF h' t' vals) (store m (text key) (text v)) (K + 1)).
  { intros vals H1 H2 H3. exists b', (mput pair_dec mz (key_of key) a). cbn [pnodes ptab pvals]. split; [exact I'|]. split; [exact M'|]. split; [unfold mput; constructor; [exact Ck|exact Pr]|]. split; [exact F'|]. split; [|split; [|split]].
    - unfold mput, store, update. cbn [map drop_hash fst snd]. constructor; [split; [reflexivity|]; split; [cbn; unfold a; pose proof (zlen_nonneg (pvals p)); lia|]; exists actual; split; [exact H2|exact Ra]|]. rewrite Er.
      pose proof (rows_remove (pvals p) (text key) _ _ R) as R'. rewrite <- Er in R' |- *. assert (Em : map snd (mremove pair_dec mz (key_of key)) = map snd (map drop_hash (mremove pair_dec mz (key_of key)))) by (rewrite map_map; reflexivity). rewrite Em in H1. clear - R' H1. induction R' as [|e r mt m' (A & B & s & D & Rs) R' IH]; [constructor|]. constructor; [|apply IH; intros q Iq; apply H1; now right].
      split; [exact A|]. split; [exact B|]. exists s. split; [|exact Rs]. rewrite H1; [exact D|now left].
    - unfold mput. cbn [map snd]. constructor; [|exact NDr]. intros J. apply Sub in J. exact (Fresh _ J eq_refl).
    - intros q Nq. unfold mput in Nq. cbn [map snd In] in Nq. apply H3; [intros ->; tauto|tauto].
    - unfold store, update. constructor; [|apply Forall_forall; intros r Ir; apply filter_In in Ir as [Ir _]; rewrite Forall_forall in Ok; auto]. destruct Pk as (_ & U & L). destruct Pv as (_ & Uv & Lv). unfold rowok. cbn [fst snd]. split; [exact U|]. split; [exact L|]. split; [now apply one_line_unit|]. pose proof (one_line_len (text v)). lia. }
  pose proof (rows_get _ (text key) _ _ R) as G. rewrite <- (pure_get mz key P Ck) in G. unfold mval. destruct (mget pair_dec mz (key_of key)) as [old|] eqn:Eo.
  - destruct G as (N0 & t & s & _ & D & _). destruct (Z.eqb_spec old 0); [contradiction|]. cbn [negb].
    assert (Io : In old (map snd mz)). { clear - Eo. induction mz as [|[k x] mz IH]; [discriminate|]. cbn [mget map snd] in *. destruct (same pair_dec k (key_of key)); [injection Eo as ->; now left|right; auto]. }
    pose proof (Fresh _ Io) as No. destruct (vfree_ok (pvals p ++ [Some actual]) old s) as (vals & -> & _ & V); [rewrite vderef_app; fold a; destruct (Z.eqb_spec old a); [contradiction|exact D]|]. cbn [bind]. eexists. split; [reflexivity|].
    assert (Gone : ~ In old (map snd (mremove pair_dec mz (key_of key))) /\ forall q, In q (map snd mz) -> q <> old -> In q (map snd (mremove pair_dec mz (key_of key)))).
    { assert (NDk : NoDup (map fst mz)) by (eapply models_nodup; [|exact M]; destruct I as (_ & _ & _ & _ & _ & X & _); exact X). clear - Eo ND NDk. induction mz as [|[k x] mz IH]; [discriminate|]. unfold mremove in *. cbn [mget map snd fst filter] in *. inversion ND as [|? ? N1 N2]; subst. inversion NDk as [|? ? N3 N4]; subst. destruct (same pair_dec k (key_of key)) eqn:Sk; cbn [negb map snd].
      - injection Eo as ->. assert (Id : filter (fun e => negb (same pair_dec (fst e) (key_of key))) mz = mz). { apply same_true in Sk. subst k. clear - N3. induction mz as [|e mz IH]; [reflexivity|]. cbn [filter map In] in *. unfold same at 1. destruct (pair_dec (fst e) (key_of key)); [tauto|]. cbn [negb]. rewrite IH by tauto. reflexivity. }
        rewrite Id. split; [exact N1|]. intros q [E|Iq] Nq; [congruence|exact Iq].
      - destruct (IH N2 Eo N4) as [A B]. split; [|intros q [E|Iq] Nq; [now left|right; auto]]. intros [E|J]; [|contradiction]. subst x. apply N1. clear - Eo. induction mz as [|[k x] mz IH]; [discriminate|]. cbn [mget map snd] in *. destruct (same pair_dec k (key_of key)); [injection Eo as ->; now left|right; auto]. }
    destruct Gone as [Gone Keep]. apply Fin.
    + intros q Iq. rewrite V, vderef_app. fold a. destruct (Z.eqb_spec q old) as [->|]; [contradiction|]. destruct (Z.eqb_spec q a) as [->|]; [|reflexivity]. exfalso. exact (Fresh _ (Sub _ Iq) eq_refl).
    + rewrite V, vderef_app. fold a. rewrite Z.eqb_refl. destruct (Z.eqb_spec a old); [congruence|reflexivity].
    + intros q Nq Nr. rewrite V, vderef_app. fold a. destruct (Z.eqb_spec q old) as [->|No2]; [reflexivity|]. destruct (Z.eqb_spec q a); [contradiction|]. apply Dead. intros J. apply Nr. now apply Keep.
  - cbn [Z.eqb negb bind]. eexists. split; [reflexivity|].
    assert (Id : mremove pair_dec mz (key_of key) = mz). { clear - Eo. unfold mremove. induction mz as [|[k x] mz IH]; [reflexivity|]. cbn [mget filter fst] in *. destruct (same pair_dec k (key_of key)); [discriminate|]. cbn [negb]. now rewrite IH. }
    rewrite Id in *. apply Fin.
    + intros q Iq. rewrite vderef_app. fold a. destruct (Z.eqb_spec q a) as [->|]; [|reflexivity]. exfalso. exact (Fresh _ Iq eq_refl).
    + rewrite vderef_app. fold a. now rewrite Z.eqb_refl.
    + intros q Nq Nr. rewrite vderef_app. fold a. destruct (Z.eqb_spec q a); [contradiction|]. now apply Dead.
Qed.
