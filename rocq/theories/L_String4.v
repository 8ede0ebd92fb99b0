From Verif Require Import Base M_String S_String L_String L_String2.
Ltac Zify.zify_post_hook ::= Z.to_euclidean_division_equations.

(** * replace *)
Lemma occurs_shift p a t i : 0 <= i -> occurs p (a ++ t) (zlen a + i) <-> occurs p t i.
Proof.
  intros Hi. split.
  - intros O. pose proof (occurs_range _ _ _ O) as R. rewrite zlen_app in R. pose proof (zlen_nonneg p).
    destruct (split_len t i ltac:(lia)) as (b & c & -> & Hb). rewrite app_assoc in O. replace (zlen a + i) with (zlen (a ++ b)) in O by zl.
    apply occurs_app in O as (r & ->). exists b, r. auto.
  - intros (b & r & -> & Hb). exists (a ++ b), r. rewrite <- !app_assoc. split; [reflexivity|]. zl.
Qed.
Lemma replace_loop_ok s t j s2 y s3 n : buf s = t ++ j -> len s = zlen t -> repr s2 y -> repr s3 n -> y <> [] -> guarded t j y ->
  forall fuel t1 a r out_ acc, t = t1 ++ a ++ y ++ r -> repr out_ acc -> (forall i, i < zlen a -> ~ occurs y (a ++ y ++ r) i) -> (length (a ++ y ++ r) < fuel)%nat ->
  exists s' r', replace_loop s s2 s3 out_ (zlen t1) (zlen t1 + zlen a) fuel = Val s' /\ repr s' (acc ++ r') /\ replaced y n (a ++ y ++ r) r'.
Proof.
  intros E L H2 H3 Hy G. assert (Hs : repr s t) by (exists j; auto). assert (Ly : 0 < zlen y) by (destruct y; [congruence|rewrite zlen_cons; pose proof (zlen_nonneg y); lia]).
  induction fuel as [|fuel IH]; intros t1 a r out_ acc Et Ho N Hf; [lia|]. cbn [replace_loop].
  destruct (substring_mid s t1 a (y ++ r)) as (p & -> & Hp). { now rewrite <- Et. } cbn [bind].
  destruct (append_ok out_ acc p a Ho Hp) as (o1 & -> & Ho1). cbn [bind]. destruct (append_ok o1 _ s3 n Ho1 H3) as (o2 & -> & Ho2). cbn [bind]. cbv zeta.
  assert (Ls2 : len s2 = zlen y) by (destruct H2 as (? & ? & ?); assumption). rewrite Ls2.
  set (t1' := t1 ++ a ++ y). assert (Et1 : zlen t1 + zlen a + zlen y = zlen t1') by (unfold t1'; zl). rewrite Et1.
  assert (Et' : t = t1' ++ r) by (unfold t1'; rewrite Et, <- !app_assoc; reflexivity).
  destruct (index_of_str_ok s t j s2 y (zlen t1') E L H2 G) as (q & -> & F). cbn [bind].
  pose proof (zlen_nonneg t1'). replace (Z.max 0 (zlen t1')) with (zlen t1') in F by lia. rewrite Et' in F. rewrite zlen_app in F.
  destruct F as [(R & O & NO)|(-> & NO)].
  - replace (q >=? zlen t1') with true by lia. replace q with (zlen t1' + (q - zlen t1')) in O by lia. apply (occurs_shift y t1' r (q - zlen t1') ltac:(lia)) in O. destruct O as (a' & r2 & Er & Ha').
    subst r. replace q with (zlen t1' + zlen a') by lia.
    destruct (IH t1' a' r2 o2 (((acc ++ a) ++ n)) Et' Ho2) as (s' & r' & -> & Rs & Rp).
    + intros i Hi O. pose proof (occurs_range _ _ _ O). apply (NO (zlen t1' + i)); [lia|]. apply occurs_shift; [lia|exact O].
    + rewrite (app_assoc a y), app_length in Hf. assert (0 < length (a ++ y))%nat by (rewrite app_length; unfold zlen in Ly; lia). lia.
    + exists s', (a ++ n ++ r'). split; [reflexivity|]. split; [rewrite <- !app_assoc in *; exact Rs|]. apply rp_step; assumption.
  - replace (-1 >=? zlen t1') with false by lia. destruct (substring_from_mid s t1' r) as (z & -> & Hz). { now rewrite <- Et'. } cbn [bind].
    destruct (append_ok o2 _ z r Ho2 Hz) as (s' & -> & Hs'). exists s', (a ++ n ++ r). split; [reflexivity|]. split; [rewrite <- !app_assoc in *; exact Hs'|].
    apply rp_step; [exact N|]. apply rp_none. intros i O. pose proof (occurs_range _ _ _ O). apply (NO (zlen t1' + i)); [lia|]. apply occurs_shift; [lia|exact O].
Qed.
Lemma replace_ok s t j s2 y s3 n fuel : buf s = t ++ j -> len s = zlen t -> repr s2 y -> repr s3 n -> y <> [] -> guarded t j y -> zlen t < Z.of_nat fuel ->
  exists s' r, replace_str s s2 s3 fuel = Val s' /\ repr s' r /\ replaced y n t r.
Proof.
  intros E L H2 H3 Hy G Hf. unfold replace_str. destruct (index_of_str_ok s t j s2 y 0 E L H2 G) as (q & -> & F). cbn [bind]. change (Z.max 0 0) with 0 in F.
  assert (Ly : 0 < zlen y) by (destruct y; [congruence|rewrite zlen_cons; pose proof (zlen_nonneg y); lia]).
  destruct F as [(R & (a & r & Et & Ha) & N)|(-> & N)].
  - replace (q <? 0) with false by lia. subst q.
    destruct (replace_loop_ok s t j s2 y s3 n E L H2 H3 Hy G fuel [] a r str_new [] Et str_new_repr) as (s' & r' & E' & Rs & Rp).
    + intros i Hi O. pose proof (occurs_range _ _ _ O). apply (N i); [lia|]. now rewrite Et.
    + rewrite <- Et. unfold zlen in Hf. lia.
    + change (zlen (@nil Z)) with 0 in E'. rewrite Z.add_0_l in E'. rewrite E'. exists s', r'. rewrite Et. auto.
  - replace (-1 <? 0) with true by lia. destruct (copy_ctor_ok s t) as (s' & -> & Rs & _); [exists j; auto|]. exists s', t. split; [reflexivity|]. split; [exact Rs|].
    apply rp_none. intros i O. pose proof (occurs_range _ _ _ O). apply (N i); [lia|exact O].
Qed.
(** the empty pattern *)
Lemma index_empty s t s2 : repr s t -> repr s2 [] -> t <> [] -> index_of_str s s2 0 = Val 0.
Proof.
  intros (j & E & L) (j2 & E2 & L2) Ht. unfold index_of_str. change (0 <? 0) with false. cbv iota zeta. rewrite L. destruct t as [|x t]; [congruence|]. rewrite zlen_cons.
  pose proof (zlen_nonneg t). replace (Z.to_nat (1 + zlen t - 0)) with (S (Z.to_nat (zlen t))) by lia. cbn [index_str_loop]. rewrite L2. reflexivity.
Qed.
Lemma replace_empty s t s2 s3 n : repr s t -> repr s2 [] -> repr s3 n -> t <> [] -> forall fuel, replace_str s s2 s3 fuel = Fuel.
Proof.
  intros Hs H2 H3 Ht fuel. unfold replace_str. rewrite (index_empty s t s2 Hs H2 Ht). cbn [bind]. change (0 <? 0) with false. cbv iota.
  assert (K : forall fuel o acc, repr o acc -> replace_loop s s2 s3 o 0 0 fuel = Fuel); [|exact (K fuel _ _ str_new_repr)].
  clear fuel. induction fuel as [|fuel IH]; intros o acc Ho; [reflexivity|]. cbn [replace_loop].
  destruct (substring_mid s [] [] t Hs) as (p & E & Hp). change (substring s 0 0 = Val p) in E. rewrite E. cbn [bind].
  destruct (append_ok o acc p [] Ho Hp) as (o1 & -> & Ho1). cbn [bind]. destruct (append_ok o1 _ s3 n Ho1 H3) as (o2 & -> & Ho2). cbn [bind]. cbv zeta.
  destruct H2 as (j2 & E2 & L2). rewrite L2. change (0 + zlen (@nil Z)) with 0. rewrite (index_empty s t s2 Hs) by (auto; exists j2; auto). cbn [bind]. change (0 >=? 0) with true. cbv iota. eauto.
Qed.
(** termination for every non-empty pattern, guarded or not: the result is a string or undefined behaviour, never a loop *)
Lemma index_loop_nf bu s2 k : forall a, (exists r, index_str_loop bu s2 a k = Val r /\ (r = -1 \/ a <= r < a + Z.of_nat k)) \/ index_str_loop bu s2 a k = UB.
Proof.
  assert (M : forall x a y b k, (exists r, match_at x a y b k = Val r) \/ match_at x a y b k = UB).
  { clear. intros x a y b k. revert b. induction k as [|k IH]; intros b; cbn [match_at]; [eauto|]. unfold rd. destruct (lget x (a + b)); cbn [bind]; [|auto]. destruct (lget y b); cbn [bind]; [|auto]. destruct (z =? z0); eauto. }
  induction k as [|k IH]; intros a; cbn [index_str_loop]; [left; exists (-1); auto|].
  destruct (M bu a (buf s2) 0 (Z.to_nat (len s2))) as [(b & ->)| ->]; cbn [bind]; [|auto]. destruct b.
  - left. exists a. split; [reflexivity|lia].
  - destruct (IH (a + 1)) as [(r & -> & R)| ->]; [|auto]. left. exists r. split; [reflexivity|lia].
Qed.
Lemma index_of_str_nf s s2 from : (exists r, index_of_str s s2 from = Val r /\ (r = -1 \/ Z.max 0 from <= r < len s)) \/ index_of_str s s2 from = UB.
Proof.
  unfold index_of_str. replace (if from <? 0 then 0 else from) with (Z.max 0 from) by (destruct (Z.ltb_spec from 0); lia). cbv zeta.
  destruct (index_loop_nf (buf s) s2 (Z.to_nat (len s - Z.max 0 from)) (Z.max 0 from)) as [(r & -> & R)| ->]; [|auto]. left. exists r. split; [reflexivity|lia].
Qed.
Lemma replace_terminates s t s2 y s3 n fuel : repr s t -> repr s2 y -> repr s3 n -> y <> [] -> zlen t < Z.of_nat fuel ->
  (exists s', replace_str s s2 s3 fuel = Val s') \/ replace_str s s2 s3 fuel = UB.
Proof.
  intros Hs H2 H3 Hy Hf. assert (Ls : len s = zlen t) by (destruct Hs as (? & ? & ?); assumption). assert (Ls2 : len s2 = zlen y) by (destruct H2 as (? & ? & ?); assumption).
  assert (Ly : 0 < zlen y) by (destruct y; [congruence|rewrite zlen_cons; pose proof (zlen_nonneg y); lia]).
  assert (K : forall fuel p1 p2 o acc, repr o acc -> 0 <= p1 <= p2 -> zlen t < p1 + Z.of_nat fuel -> p2 < zlen t ->
     (exists s', replace_loop s s2 s3 o p1 p2 fuel = Val s') \/ replace_loop s s2 s3 o p1 p2 fuel = UB).
  { clear fuel Hf. induction fuel as [|fuel IH]; intros p1 p2 o acc Ho Hp Hf Hp2; [lia|]. cbn [replace_loop].
    destruct (substring_ok s t p1 p2 Hs) as (p & -> & Hpp & _). cbn [bind].
    destruct (append_ok o acc p _ Ho Hpp) as (o1 & -> & Ho1). cbn [bind]. destruct (append_ok o1 _ s3 n Ho1 H3) as (o2 & -> & Ho2). cbn [bind]. cbv zeta. rewrite Ls2.
    destruct (index_of_str_nf s s2 (p2 + zlen y)) as [(q & -> & R)| ->]; [|auto]. cbn [bind]. destruct (Z.geb_spec q (p2 + zlen y)) as [Hq|Hq].
    - apply (IH _ _ _ _ Ho2); lia.
    - left. unfold substring_from. destruct (substring_ok s t (p2 + zlen y) (len s) Hs) as (z & -> & Hz & _). cbn [bind]. destruct (append_ok o2 _ z _ Ho2 Hz) as (s' & -> & _). eauto. }
  unfold replace_str. destruct (index_of_str_nf s s2 0) as [(q & -> & R)| ->]; [|auto]. cbn [bind]. destruct (Z.ltb_spec q 0).
  - left. destruct (copy_ctor_ok s t Hs) as (s' & -> & _). eauto.
  - apply (K fuel 0 q str_new []); [apply str_new_repr|lia|lia|lia].
Qed.

(** * natural order *)
Lemma fancy_digits_ok m : forall p d j num n fuel, n = zlen p + 1 + zlen m -> (length m < fuel)%nat ->
  exists ds r v, m = ds ++ r /\ fancy_digits (p ++ d :: m ++ j) n (zlen p) num fuel = Val (zlen p + zlen ds, v) /\ nat_key (Some num) m = v :: nat_key None r.
Proof.
  induction m as [|x m IH]; intros p d j num n fuel Hn Hf; (destruct fuel as [|fuel]; [lia|]); cbn [fancy_digits].
  - change (zlen (@nil Z)) with 0 in Hn. replace (zlen p + 1 <? n) with false by lia. exists [], [], num. change (zlen (@nil Z)) with 0. rewrite Z.add_0_r. auto.
  - rewrite zlen_cons in Hn. pose proof (zlen_nonneg m). replace (zlen p + 1 <? n) with true by lia. cbn [length] in Hf.
    replace (p ++ d :: (x :: m) ++ j) with ((p ++ [d]) ++ x :: m ++ j) by (rewrite <- app_assoc; reflexivity). rewrite rd_mid' by zl. cbn [bind].
    change (nat_key (Some num) (x :: m)) with (if is_digit x then nat_key (Some ((10 * num + (x - 48)) mod 2 ^ 32)) m else [num] ++ x :: nat_key None m).
    destruct (is_digit x) eqn:D.
    + replace (zlen p + 1) with (zlen (p ++ [d])) by zl. unfold digit_value. rewrite D.
      destruct (IH (p ++ [d]) x j (u32 (u32 (num * 10) + (x - 48))) n fuel) as (ds & r & v & -> & -> & K); [zl|lia|].
      exists (x :: ds), r, v. split; [reflexivity|]. split; [do 2 f_equal; zl|]. rewrite <- K. f_equal. f_equal. unfold u32. rewrite Zplus_mod_idemp_l. change (2 ^ 32) with 4294967296. f_equal. lia.
    + exists [], (x :: m), num. change (zlen (@nil Z)) with 0. rewrite Z.add_0_r. split; [reflexivity|]. split; [reflexivity|].
      change (nat_key None (x :: m)) with (if is_digit x then nat_key (Some (x - 48)) m else x :: nat_key None m). rewrite D. reflexivity.
Qed.
Lemma fancy_key_ok fuel : forall m p j n, n = zlen p + zlen m -> (length m < fuel)%nat -> fancy_key (p ++ m ++ j) n (zlen p) fuel = Val (nat_key None m).
Proof.
  induction fuel as [|fuel IH]; intros m p j n Hn Hf; [lia|]. cbn [fancy_key]. destruct m as [|x m].
  - change (zlen (@nil Z)) with 0 in Hn. replace (zlen p <? n) with false by lia. reflexivity.
  - rewrite zlen_cons in Hn. pose proof (zlen_nonneg m). replace (zlen p <? n) with true by lia. cbn [app]. rewrite rd_mid. cbn [bind]. cbn [length] in Hf.
    change (nat_key None (x :: m)) with (if is_digit x then nat_key (Some (x - 48)) m else x :: nat_key None m). destruct (is_digit x) eqn:D.
    + unfold digit_value. rewrite D. destruct (fancy_digits_ok m p x j (x - 48) n (S fuel)) as (ds & r & v & -> & -> & ->); [lia|lia|]. cbn [bind].
      replace (p ++ x :: (ds ++ r) ++ j) with ((p ++ x :: ds) ++ r ++ j) by (rewrite <- !app_assoc; reflexivity). replace (zlen p + zlen ds + 1) with (zlen (p ++ x :: ds)) by zl.
      rewrite IH; [reflexivity| |rewrite app_length in Hf; lia]. rewrite zlen_app in Hn. zl.
    + cbn [bind]. replace (p ++ x :: m ++ j) with ((p ++ [x]) ++ m ++ j) by (rewrite <- app_assoc; reflexivity). replace (zlen p + 1) with (zlen (p ++ [x])) by zl.
      rewrite IH; [reflexivity|zl|lia].
Qed.
Lemma cmp_keys_lex a : forall b, cmp_keys a b = sign (lex a b).
Proof.
  induction a as [|x a IH]; intros [|y b]; cbn [cmp_keys lex sign]; try reflexivity. destruct (Z.compare_spec x y) as [->|H|H].
  - rewrite Z.ltb_irrefl. replace (y >? y) with false by lia. apply IH.
  - replace (x <? y) with true by lia. reflexivity.
  - replace (x <? y) with false by lia. replace (x >? y) with true by lia. reflexivity.
Qed.
Lemma compare_fancy_ok s t s2 t2 : repr s t -> repr s2 t2 ->
  compare_fancy s s2 = Val (sign (lex (nat_key None (ztake 256 t)) (nat_key None (ztake 256 t2)))).
Proof.
  assert (K : forall s t, repr s t -> fancy_key (buf s) (Z.min (len s) 256) 0 (S (Z.to_nat (Z.min (len s) 256))) = Val (nat_key None (ztake 256 t))).
  { clear. intros s t (j & E & L). rewrite E, L. pose proof (zlen_nonneg t). rewrite <- (take_drop 256 t) at 1. rewrite <- app_assoc.
    assert (Hm : zlen (ztake 256 t) = Z.min (zlen t) 256). { destruct (Z.leb_spec 256 (zlen t)); [rewrite zlen_ztake; lia|]. rewrite ztake_all by lia. lia. }
    apply (fancy_key_ok _ (ztake 256 t) []); [change (zlen (@nil Z)) with 0; lia|]. unfold zlen in *. lia. }
  intros H H2. unfold compare_fancy. rewrite (K s t H), (K s2 t2 H2). cbn [bind]. f_equal. apply cmp_keys_lex.
Qed.
