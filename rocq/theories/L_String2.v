From Verif Require Import Base M_String S_String L_String.
Ltac Zify.zify_post_hook ::= Z.to_euclidean_division_equations.

Lemma occurs_range p t i : occurs p t i -> 0 <= i /\ i + zlen p <= zlen t.
Proof. intros (a & r & -> & <-). rewrite !zlen_app. pose proof (zlen_nonneg a). pose proof (zlen_nonneg r). lia. Qed.
Lemma occurs_app p a t : occurs p (a ++ t) (zlen a) <-> exists r, t = p ++ r.
Proof.
  split.
  - intros (b & r & E & L). assert (a = b) as <-.
    { apply (f_equal (ztake (zlen a))) in E. rewrite ztake_app in E by reflexivity. rewrite ztake_app in E by lia. exact E. }
    apply app_inv_head in E. eauto.
  - intros (r & ->). exists a, r. auto.
Qed.

(** * single characters *)
Lemma index_loop_ok c t2 : forall t1 j k, k = length t2 ->
  exists r, index_loop (t1 ++ t2 ++ j) c (zlen t1) k = Val r /\ first_at (fun i => lget (t1 ++ t2) i = Some c) (zlen t1) (zlen (t1 ++ t2)) r.
Proof.
  induction t2 as [|x t2 IH]; intros t1 j k Hk; subst k; cbn [length index_loop].
  - exists (-1). split; [reflexivity|]. right. split; [reflexivity|]. rewrite zlen_app. change (zlen (@nil Z)) with 0. lia.
  - cbn [app]. rewrite rd_mid. cbn [bind]. pose proof (zlen_nonneg t2). destruct (Z.eqb_spec x c) as [->|Hn].
    + exists (zlen t1). split; [reflexivity|]. left. split; [rewrite zlen_app, zlen_cons; lia|]. split; [apply lget_mid|]. lia.
    + replace (t1 ++ x :: t2 ++ j) with ((t1 ++ [x]) ++ t2 ++ j) by (rewrite <- app_assoc; reflexivity).
      destruct (IH (t1 ++ [x]) j (length t2) eq_refl) as (r & E & F).
      replace (zlen (t1 ++ [x])) with (zlen t1 + 1) in * by zl.
      rewrite E. exists r. split; [reflexivity|].
      rewrite <- app_assoc in F. cbn [app] in F. pose proof (lget_mid t1 x t2) as G.
      destruct F as [(R & V & N)|(R & N)]; [left|right].
      * split; [lia|]. split; [exact V|]. intros i Hi. destruct (Z.eq_dec i (zlen t1)) as [->|]; [rewrite G; congruence|apply N; lia].
      * split; [exact R|]. intros i Hi. destruct (Z.eq_dec i (zlen t1)) as [->|]; [rewrite G; congruence|apply N; lia].
Qed.
Lemma index_of_char_ok s t c from : repr s t -> exists r, index_of_char s c from = Val r /\ first_at (fun i => lget t i = Some c) (Z.max 0 from) (zlen t) r.
Proof.
  intros (j & E & L). unfold index_of_char. rewrite E, L.
  replace (if from <? 0 then 0 else from) with (Z.max 0 from) by (destruct (Z.ltb_spec from 0); lia). cbv zeta.
  destruct (Z.leb_spec (Z.max 0 from) (zlen t)) as [H|H].
  - destruct (split_len t (Z.max 0 from) ltac:(lia)) as (t1 & t2 & -> & <-). rewrite <- app_assoc. apply index_loop_ok. rewrite length_zlen, zlen_app. f_equal. lia.
  - replace (Z.to_nat (zlen t - Z.max 0 from)) with O by lia. exists (-1). split; [reflexivity|]. right. split; [reflexivity|intros; lia].
Qed.
Lemma last_loop_ok c t1 : forall j k, k = length t1 ->
  exists r, last_loop (t1 ++ j) c (zlen t1 - 1) k = Val r /\ last_at (fun i => lget t1 i = Some c) 0 (zlen t1) r.
Proof.
  induction t1 as [|x t1 IH] using rev_ind; intros j k Hk; subst k.
  - exists (-1). split; [reflexivity|]. right. change (zlen (@nil Z)) with 0. split; [reflexivity|intros; lia].
  - rewrite app_length. cbn [length]. replace (length t1 + 1)%nat with (S (length t1)) by lia. cbn [last_loop].
    replace (zlen (t1 ++ [x])) with (zlen t1 + 1) by zl. replace (zlen t1 + 1 - 1) with (zlen t1) by lia.
    rewrite <- app_assoc. cbn [app]. rewrite rd_mid. cbn [bind]. pose proof (zlen_nonneg t1). destruct (Z.eqb_spec x c) as [->|Hn].
    + exists (zlen t1). split; [reflexivity|]. left. split; [lia|]. split; [apply lget_mid|lia].
    + destruct (IH (x :: j) (length t1) eq_refl) as (r & -> & F). exists r. split; [reflexivity|].
      assert (G : forall i, i < zlen t1 -> lget (t1 ++ [x]) i = lget t1 i) by (intros; now apply lget_app_l).
      pose proof (lget_mid t1 x []) as G2.
      destruct F as [(R & V & N)|(R & N)]; [left|right].
      * split; [lia|]. split; [rewrite G by lia; exact V|]. intros i Hi. destruct (Z.eq_dec i (zlen t1)) as [->|]; [rewrite G2; congruence|rewrite G by lia; apply N; lia].
      * split; [exact R|]. intros i Hi. destruct (Z.eq_dec i (zlen t1)) as [->|]; [rewrite G2; congruence|rewrite G by lia; apply N; lia].
Qed.
Lemma last_at_ext (P Q : Z -> Prop) lo hi r : (forall i, lo <= i < hi -> (P i <-> Q i)) -> last_at P lo hi r -> last_at Q lo hi r.
Proof.
  intros H [(R & V & N)|(R & N)]; [left|right]; (split; [assumption|]).
  - split; [apply H; assumption|]. intros j Hj. rewrite <- H by lia. apply N. lia.
  - intros j Hj. rewrite <- H by lia. apply N. lia.
Qed.
Lemma first_at_ext (P Q : Z -> Prop) lo hi r : (forall i, lo <= i < hi -> (P i <-> Q i)) -> first_at P lo hi r -> first_at Q lo hi r.
Proof.
  intros H [(R & V & N)|(R & N)]; [left|right]; (split; [assumption|]).
  - split; [apply H; assumption|]. intros j Hj. rewrite <- H by lia. apply N. lia.
  - intros j Hj. rewrite <- H by lia. apply N. lia.
Qed.
Lemma last_index_char_ok s t c from : repr s t ->
  if from >=? zlen t then last_index_of_char_from s c from = Exn else
  exists r, last_index_of_char_from s c from = Val r /\ last_at (fun i => lget t i = Some c) 0 (Z.min (zlen t) (Z.max 0 from + 1)) r.
Proof.
  intros (j & E & L). unfold last_index_of_char_from. rewrite E, L. destruct (Z.geb_spec from (zlen t)) as [H|H]; [reflexivity|].
  set (f := if (if from <? 0 then 0 else from) >? zlen t - 1 then zlen t - 1 else if from <? 0 then 0 else from).
  assert (Hf : f + 1 = Z.min (zlen t) (Z.max 0 from + 1)).
  { unfold f. destruct (Z.ltb_spec from 0); match goal with |- context [?a >? ?b] => destruct (Z.gtb_spec a b) end; lia. }
  cbv zeta. fold f. rewrite <- Hf. pose proof (zlen_nonneg t).
  destruct (split_len t (f + 1) ltac:(lia)) as (t1 & t2 & -> & Ht1). rewrite <- app_assoc, <- Ht1.
  destruct (last_loop_ok c t1 (t2 ++ j) (length t1) eq_refl) as (r & E2 & F).
  replace f with (zlen t1 - 1) by lia. rewrite length_zlen in E2. rewrite E2. exists r. split; [reflexivity|].
  eapply last_at_ext; [|exact F]. intros i Hi. cbn. rewrite lget_app_l by lia. reflexivity.
Qed.
Lemma count_loop_ok c t2 : forall t1 j n k, k = length t2 -> count_loop (t1 ++ t2 ++ j) c (zlen t1) n k = Val (n + Z.of_nat (count_occ Z.eq_dec t2 c)).
Proof.
  induction t2 as [|x t2 IH]; intros t1 j n k Hk; subst k; cbn [length count_loop count_occ]; [f_equal; lia|].
  cbn [app]. rewrite rd_mid. cbn [bind]. replace (t1 ++ x :: t2 ++ j) with ((t1 ++ [x]) ++ t2 ++ j) by (rewrite <- app_assoc; reflexivity).
  replace (zlen t1 + 1) with (zlen (t1 ++ [x])) by zl. rewrite IH by reflexivity. destruct (Z.eqb_spec x c), (Z.eq_dec x c); try congruence; f_equal; lia.
Qed.
Lemma count_ok s t c : repr s t -> count s c = Val (Z.of_nat (count_occ Z.eq_dec t c)).
Proof.
  intros (j & E & L). unfold count. rewrite E, L. apply (count_loop_ok c t [] j 0). now rewrite length_zlen.
Qed.

(** * prefix and suffix tests *)
Lemma starts_with_ok s t s2 t2 : repr s t -> repr s2 t2 -> exists b, starts_with s s2 = Val b /\ (b = true <-> exists r, t = t2 ++ r).
Proof.
  intros (j & E & L) H2. unfold starts_with. pose proof H2 as (j2 & E2 & L2). destruct (Z.gtb_spec (len s2) (len s)) as [H|H].
  - exists false. split; [reflexivity|]. split; [discriminate|]. intros (r & ->). rewrite L, L2, zlen_app in H. pose proof (zlen_nonneg r). lia.
  - rewrite E. change (t ++ j) with ([] ++ (t ++ j)). rewrite (match_at_ok s2 t2) by auto.
    destruct (pm_long_iff t2 (t ++ j)) as (b & -> & B). { rewrite zlen_app. pose proof (zlen_nonneg j). lia. }
    exists b. split; [reflexivity|]. rewrite B. split.
    + intros (r & Er). destruct (split_len t (zlen t2)) as (u & v & -> & Hu). { pose proof (zlen_nonneg t2). lia. }
      exists v. f_equal. rewrite <- app_assoc in Er. apply (f_equal (ztake (zlen t2))) in Er. rewrite ztake_app in Er by lia. rewrite ztake_app in Er by lia. exact Er.
    + intros (r & ->). exists (r ++ j). now rewrite app_assoc.
Qed.
Lemma at_is_ok s t s2 t2 pos : repr s t -> repr s2 t2 -> 0 <= pos < 2 ^ 62 -> zlen t2 <= 2 ^ 62 ->
  exists b, at_is s pos s2 = Val b /\ (b = true <-> occurs t2 t pos).
Proof.
  intros (j & E & L) H2 Hp Hl. unfold at_is. pose proof H2 as (j2 & E2 & L2). pose proof (zlen_nonneg t2). change (2 ^ 62) with 4611686018427387904 in *.
  unfold chk64, in_s64. rewrite L2. replace ((-9223372036854775808 <=? pos + zlen t2) && (pos + zlen t2 <=? 9223372036854775807)) with true by lia. cbn [bind].
  destruct (Z.gtb_spec (pos + zlen t2) (len s)) as [H1|H1].
  - exists false. split; [reflexivity|]. split; [discriminate|]. intros O. apply occurs_range in O. lia.
  - rewrite E. destruct (split_len t pos) as (p & q & -> & Hpp); [lia|]. rewrite <- app_assoc, <- L2. rewrite (match_at_ok s2 t2 p) by (auto; lia).
    rewrite zlen_app in L. destruct (pm_long_iff t2 (q ++ j)) as (b & -> & B). { rewrite zlen_app. pose proof (zlen_nonneg j). lia. }
    exists b. split; [reflexivity|]. rewrite B, <- Hpp, occurs_app. split.
    + intros (r & Er). destruct (split_len q (zlen t2)) as (u & v & -> & Hu); [lia|].
      exists v. f_equal. rewrite <- app_assoc in Er. apply (f_equal (ztake (zlen t2))) in Er. rewrite ztake_app in Er by lia. rewrite ztake_app in Er by lia. exact Er.
    + intros (r & ->). exists (r ++ j). now rewrite app_assoc.
Qed.
(** what match_back compares *)
Lemma match_back_ok v : forall u x n y m a k p j1 j2 w1 w2,
  x = p ++ u ++ w1 ++ j1 -> y = v ++ w2 ++ j2 -> zlen u = zlen v -> n = zlen p + zlen u + zlen w1 -> m = zlen v + zlen w2 ->
  zlen w1 = a - 1 -> zlen w2 = a - 1 -> k = length v ->
  exists b, match_back x n y m a k = Val b /\ (b = true <-> u = v).
Proof.
  induction v as [|c v IH] using rev_ind; intros u x n y m a k p j1 j2 w1 w2 Ex Ey Huv Hn Hm H1 H2 Hk; subst k.
  - cbn [length match_back]. exists true. split; [reflexivity|]. apply zlen_zero in Huv. subst u. tauto.
  - rewrite app_length. cbn [length]. replace (length v + 1)%nat with (S (length v)) by lia. cbn [match_back].
    destruct u as [|d u] using rev_ind; [rewrite zlen_app in Huv; change (zlen (@nil Z)) with 0 in Huv; change (zlen [c]) with 1 in Huv; pose proof (zlen_nonneg v); lia|]. clear IHu.
    rewrite !zlen_app in *. change (zlen [c]) with 1 in *. change (zlen [d]) with 1 in *.
    assert (Rx : rd x (n - a) = Val d). { subst x. replace (p ++ (u ++ [d]) ++ w1 ++ j1) with ((p ++ u) ++ d :: w1 ++ j1) by (rewrite <- !app_assoc; reflexivity). apply rd_mid'. rewrite zlen_app. lia. }
    assert (Ry : rd y (m - a) = Val c). { subst y. rewrite <- app_assoc. cbn [app]. apply rd_mid'. lia. }
    rewrite Rx, Ry. cbn [bind]. destruct (Z.eqb_spec d c) as [->|Hne].
    + destruct (IH u x n y m (a + 1) (length v) p j1 j2 (c :: w1) (c :: w2)) as (b & -> & B); try (rewrite ?zlen_cons; lia); auto.
      { subst x. rewrite <- !app_assoc. reflexivity. } { subst y. rewrite <- !app_assoc. reflexivity. }
      exists b. split; [reflexivity|]. rewrite B. split; [now intros ->|]. intros E. now apply app_inj_tail in E.
    + exists false. split; [reflexivity|]. split; [discriminate|]. intros E. apply app_inj_tail in E. tauto.
Qed.
Lemma app_eq_tail {A} (a b c d : list A) : a ++ b = c ++ d -> zlen b = zlen d -> a = c /\ b = d.
Proof.
  intros E H. assert (L : zlen a = zlen c). { apply (f_equal (@zlen A)) in E. rewrite !zlen_app in E. lia. }
  assert (a = c). { apply (f_equal (ztake (zlen a))) in E. rewrite ztake_app in E by reflexivity. rewrite ztake_app in E by exact L. exact E. }
  subst. split; [reflexivity|]. now apply app_inv_head in E.
Qed.
Lemma ends_with_ok s t s2 t2 : repr s t -> repr s2 t2 -> exists b, ends_with s s2 = Val b /\ (b = true <-> exists r, t = r ++ t2).
Proof.
  intros (j & E & L) (j2 & E2 & L2). unfold ends_with. destruct (Z.gtb_spec (len s2) (len s)) as [H|H].
  - exists false. split; [reflexivity|]. split; [discriminate|]. intros (r & ->). rewrite L, L2, zlen_app in H. pose proof (zlen_nonneg r). lia.
  - rewrite L, L2 in *. pose proof (zlen_nonneg t2). destruct (split_len t (zlen t - zlen t2) ltac:(lia)) as (p & u & -> & Hp). rewrite zlen_app in *.
    destruct (match_back_ok t2 u (buf s) (zlen p + zlen u) (buf s2) (zlen t2) 1 (Z.to_nat (zlen t2)) p j j2 [] []) as (b & -> & B); try (change (zlen (@nil Z)) with 0; lia).
    { rewrite E, <- app_assoc. reflexivity. } { exact E2. } { now rewrite length_zlen. }
    exists b. split; [reflexivity|]. rewrite B. split; [intros ->; eauto|]. intros (r & Er). apply app_eq_tail in Er; [tauto|lia].
Qed.

(** * searching a string *)
Lemma index_str_gen s2 y (P : Z -> Prop) bu : repr s2 y -> forall k a, 0 <= a -> a + Z.of_nat k <= zlen bu ->
  (forall i, a <= i < a + Z.of_nat k -> exists b, pm y (zdrop i bu) = Val b /\ (b = true <-> P i)) ->
  exists r, index_str_loop bu s2 a k = Val r /\ first_at P a (a + Z.of_nat k) r.
Proof.
  intros H2. induction k as [|k IH]; intros a Ha Hb HP; cbn [index_str_loop].
  - exists (-1). split; [reflexivity|]. right. split; [reflexivity|intros; lia].
  - assert (M : match_at bu a (buf s2) 0 (Z.to_nat (len s2)) = pm y (zdrop a bu)).
    { rewrite <- (take_drop a bu) at 1. apply match_at_ok; auto. rewrite zlen_ztake; lia. }
    rewrite M. destruct (HP a ltac:(lia)) as (b & -> & B). cbn [bind]. destruct b.
    + exists a. split; [reflexivity|]. left. split; [lia|]. split; [now apply B|lia].
    + destruct (IH (a + 1)) as (r & -> & F); [lia|lia| |].
      * intros i Hi. apply HP. lia.
      * exists r. split; [reflexivity|]. assert (NB : ~ P a) by (intros Q; apply B in Q; discriminate).
        destruct F as [(R & V & N)|(R & N)]; [left|right].
        -- split; [lia|]. split; [exact V|]. intros i Hi. destruct (Z.eq_dec i a) as [->|]; [exact NB|apply N; lia].
        -- split; [exact R|]. intros i Hi. destruct (Z.eq_dec i a) as [->|]; [exact NB|apply N; lia].
Qed.
(** the two ways in which a comparison stays inside the text *)
Definition guarded (t j y : list Z) : Prop := no_overrun y t \/ exists z j', j = z :: j' /\ ~ In z y.
Lemma pm_false_stop y : forall q j, (forall u v, y = u ++ v -> q = u -> v = []) -> exists b, pm y (q ++ j) = Val b /\ (b = true <-> exists r, q = y ++ r).
Proof.
  induction y as [|c y IH]; intros q j H; cbn [pm].
  - exists true. split; [destruct (q ++ j); reflexivity|]. split; [intros _; exists q; reflexivity|reflexivity].
  - destruct q as [|d q].
    + specialize (H [] (c :: y) eq_refl eq_refl). discriminate.
    + cbn [app]. destruct (Z.eqb_spec d c) as [->|Hn].
      * destruct (IH q j) as (b & -> & B). { intros u v -> ->. apply (H (c :: u) v); reflexivity. }
        exists b. split; [reflexivity|]. rewrite B. split; intros (r & Er); exists r; [cbn; now rewrite Er|now injection Er].
      * exists false. split; [reflexivity|]. split; [discriminate|]. intros (r & Er). injection Er as -> _. contradiction.
Qed.
Lemma pm_guard y z j : ~ In z y -> forall q, exists b, pm y (q ++ z :: j) = Val b /\ (b = true <-> exists r, q = y ++ r).
Proof.
  induction y as [|c y IH]; intros H q; cbn [pm].
  - exists true. split; [destruct (q ++ z :: j); reflexivity|]. split; [intros _; exists q; reflexivity|reflexivity].
  - destruct q as [|d q]; cbn [app].
    + destruct (Z.eqb_spec z c) as [->|Hn]; [exfalso; apply H; left; reflexivity|]. exists false. split; [reflexivity|]. split; [discriminate|]. intros (r & Er). discriminate.
    + destruct (Z.eqb_spec d c) as [->|Hn].
      * destruct (IH (fun K => H (or_intror K)) q) as (b & -> & B).
        exists b. split; [reflexivity|]. rewrite B. split; intros (r & Er); exists r; [cbn; now rewrite Er|now injection Er].
      * exists false. split; [reflexivity|]. split; [discriminate|]. intros (r & Er). injection Er as -> _. contradiction.
Qed.
Lemma index_of_str_ok s t j s2 y from : buf s = t ++ j -> len s = zlen t -> repr s2 y -> guarded t j y ->
  exists r, index_of_str s s2 from = Val r /\ first_at (occurs y t) (Z.max 0 from) (zlen t) r.
Proof.
  intros E L H2 G. unfold index_of_str. rewrite L.
  replace (if from <? 0 then 0 else from) with (Z.max 0 from) by (destruct (Z.ltb_spec from 0); lia). cbv zeta.
  destruct (Z.leb_spec (zlen t) (Z.max 0 from)) as [H|H].
  - replace (Z.to_nat (zlen t - Z.max 0 from)) with O by lia. exists (-1). split; [reflexivity|]. right. split; [reflexivity|intros; lia].
  - set (a := Z.max 0 from) in *. assert (Hk : a + Z.of_nat (Z.to_nat (zlen t - a)) = zlen t) by lia. cut (exists r, index_str_loop (buf s) s2 a (Z.to_nat (zlen t - a)) = Val r /\ first_at (occurs y t) a (a + Z.of_nat (Z.to_nat (zlen t - a))) r); [now rewrite Hk|].
    apply index_str_gen with (y := y); [exact H2|lia| |].
    + rewrite E, zlen_app. pose proof (zlen_nonneg j). lia.
    + intros i Hi. destruct (split_len t i ltac:(lia)) as (p & q & -> & Hp). subst i. rewrite E, <- app_assoc, zdrop_app by reflexivity.
      assert (Q : q <> []). { intros ->. rewrite app_nil_r in Hi. lia. }
      destruct G as [G|(z & j' & -> & G)].
      * destruct (pm_false_stop y q j) as (b & -> & B). { intros u v Ey Eq. subst u. apply (G q v p Ey eq_refl Q). }
        exists b. split; [reflexivity|]. rewrite B, occurs_app. reflexivity.
      * destruct (pm_guard y z j' G q) as (b & -> & B). exists b. split; [reflexivity|]. rewrite B, occurs_app. reflexivity.
Qed.
Lemma last_str_gen s2 y bu (P : Z -> Prop) : repr s2 y -> forall k a, a + 1 = Z.of_nat k -> a < zlen bu ->
  (forall i, 0 <= i <= a -> exists b, pm y (zdrop i bu) = Val b /\ (b = true <-> P i)) ->
  exists r, last_str_loop bu s2 a k = Val r /\ last_at P 0 (a + 1) r.
Proof.
  intros H2. induction k as [|k IH]; intros a Ha Hb HP; cbn [last_str_loop].
  - exists (-1). split; [reflexivity|]. right. split; [reflexivity|intros; lia].
  - assert (M : match_at bu a (buf s2) 0 (Z.to_nat (len s2)) = pm y (zdrop a bu)).
    { rewrite <- (take_drop a bu) at 1. apply match_at_ok; auto. rewrite zlen_ztake; lia. }
    rewrite M. destruct (HP a ltac:(lia)) as (b & -> & B). cbn [bind]. destruct b.
    + exists a. split; [reflexivity|]. left. split; [lia|]. split; [now apply B|lia].
    + destruct (IH (a - 1)) as (r & -> & F); [lia|lia| |].
      * intros i Hi. apply HP. lia.
      * exists r. split; [reflexivity|]. assert (NB : ~ P a) by (intros Q; apply B in Q; discriminate).
        destruct F as [(R & V & N)|(R & N)]; [left|right].
        -- split; [lia|]. split; [exact V|]. intros i Hi. destruct (Z.eq_dec i a) as [->|]; [exact NB|apply N; lia].
        -- split; [exact R|]. intros i Hi. destruct (Z.eq_dec i a) as [->|]; [exact NB|apply N; lia].
Qed.
Lemma last_index_of_str_ok s t s2 y from : repr s t -> repr s2 y ->
  exists r, last_index_of_str_from s s2 from = Val r /\ last_at (occurs y t) 0 (from + 1) r.
Proof.
  intros (j & E & L) H2. pose proof H2 as (j2 & E2 & L2). unfold last_index_of_str_from. rewrite L, L2. cbv zeta.
  set (f := if from >? zlen t - zlen y then zlen t - zlen y else from).
  assert (Hf : f = Z.min from (zlen t - zlen y)) by (unfold f; destruct (Z.gtb_spec from (zlen t - zlen y)); lia). pose proof (zlen_nonneg y).
  assert (K : exists r, last_str_loop (buf s) s2 f (Z.to_nat (f + 1)) = Val r /\ last_at (occurs y t) 0 (f + 1) r).
  { destruct (Z.ltb_spec f 0) as [N|N].
    - replace (Z.to_nat (f + 1)) with O by lia. exists (-1). split; [reflexivity|]. right. split; [reflexivity|intros; lia].
    - destruct (Z.eq_dec f (zlen (buf s))) as [Ef|Ef].
      + (* empty pattern in a full buffer: the comparison reads nothing *)
        rewrite E, zlen_app in Ef. pose proof (zlen_nonneg j). assert (y = []) by (apply zlen_zero; lia). subst y. change (zlen (@nil Z)) with 0 in *.
        exists f. split; [|left; split; [lia|split; [|lia]]].
        * replace (Z.to_nat (f + 1)) with (S (Z.to_nat f)) by lia. cbn [last_str_loop]. rewrite L2. reflexivity.
        * exists t, []. rewrite app_nil_r. split; [reflexivity|lia].
      + apply last_str_gen with (y := y); auto; [lia| |].
        * rewrite E, zlen_app in *. pose proof (zlen_nonneg j). lia.
        * intros i Hi. destruct (split_len t i ltac:(lia)) as (p & q & -> & Hp). subst i. rewrite zlen_app in *.
          rewrite E, <- app_assoc, zdrop_app by reflexivity. destruct (pm_long_iff y (q ++ j)) as (b & -> & B). { rewrite zlen_app. pose proof (zlen_nonneg j). lia. }
          exists b. split; [reflexivity|]. rewrite B, occurs_app. split.
          -- intros (r & Er). destruct (split_len q (zlen y)) as (u & v & -> & Hu); [lia|].
             exists v. f_equal. rewrite <- app_assoc in Er. apply (f_equal (ztake (zlen y))) in Er. rewrite ztake_app in Er by lia. rewrite ztake_app in Er by lia. exact Er.
          -- intros (r & ->). exists (r ++ j). now rewrite app_assoc. }
  destruct K as (r & -> & F). exists r. split; [reflexivity|].
  destruct F as [(R & V & N)|(R & N)]; [left|right].
  - split; [lia|]. split; [exact V|]. intros i Hi O. apply (N i); [|exact O]. apply occurs_range in O. lia.
  - split; [exact R|]. intros i Hi O. apply (N i); [|exact O]. apply occurs_range in O. lia.
Qed.
