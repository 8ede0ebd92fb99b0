From Verif Require Import Base M_String S_String L_String L_String2.
Ltac Zify.zify_post_hook ::= Z.to_euclidean_division_equations.

(** * comparison *)
Lemma cmp_loop_ok u : forall v p q j1 j2 k, zlen p = zlen q -> length u = length v -> k = length u ->
  cmp_loop (p ++ u ++ j1) (q ++ v ++ j2) (zlen p) k = Val (sign (lex u v)).
Proof.
  induction u as [|x u IH]; intros [|y v] p q j1 j2 k Hpq Hl Hk; subst k; try discriminate; cbn [length cmp_loop]; [reflexivity|].
  cbn [app]. rewrite rd_mid. cbn [bind]. rewrite rd_mid' by exact Hpq. cbn [bind lex].
  destruct (Z.compare_spec x y) as [->|H|H].
  - rewrite Z.ltb_irrefl. replace (y >? y) with false by lia.
    replace (p ++ y :: u ++ j1) with ((p ++ [y]) ++ u ++ j1) by (rewrite <- app_assoc; reflexivity). replace (q ++ y :: v ++ j2) with ((q ++ [y]) ++ v ++ j2) by (rewrite <- app_assoc; reflexivity).
    replace (zlen p + 1) with (zlen (p ++ [y])) by zl. apply IH; [zl| |reflexivity]. now injection Hl.
  - replace (x <? y) with true by lia. reflexivity.
  - replace (x <? y) with false by lia. replace (x >? y) with true by lia. reflexivity.
Qed.
Lemma lex_app u : forall v a b, length u = length v -> lex (u ++ a) (v ++ b) = match lex u v with Eq => lex a b | c => c end.
Proof.
  induction u as [|x u IH]; intros [|y v] a b H; try discriminate; cbn [app lex]; [reflexivity|]. destruct (x ?= y); auto.
Qed.
Lemma lex_nil_r a : lex a [] = match a with [] => Eq | _ => Gt end. Proof. destruct a; reflexivity. Qed.
Lemma compare_ok s t s2 t2 : repr s t -> repr s2 t2 -> compare_to s s2 = Val (sign (lex t t2)).
Proof.
  intros (j & E & L) (j2 & E2 & L2). unfold compare_to. rewrite E, E2, L, L2. remember (Z.min (zlen t) (zlen t2)) as n eqn:Hn.
  pose proof (zlen_nonneg t). pose proof (zlen_nonneg t2).
  destruct (split_len t n ltac:(lia)) as (u & a & -> & Hu). destruct (split_len t2 n ltac:(lia)) as (v & b & -> & Hv).
  rewrite <- !app_assoc. assert (Luv : length u = length v) by (unfold zlen in *; lia).
  pose proof (cmp_loop_ok u v [] [] (a ++ j) (b ++ j2) (length u) eq_refl Luv eq_refl) as C. cbn [app] in C. change (zlen (@nil Z)) with 0 in C.
  replace (Z.to_nat n) with (length u) by (unfold zlen in *; lia). rewrite C. cbn [bind]. rewrite lex_app by exact Luv. rewrite !zlen_app in *.
  destruct (lex u v) eqn:Ec; cbn [sign]; try reflexivity. cbn [Z.eqb negb].
  destruct a as [|x a], b as [|y b]; rewrite ?zlen_cons in *; change (zlen (@nil Z)) with 0 in *; cbn [lex].
  - replace (zlen u + 0 <? zlen v + 0) with false by lia. replace (zlen u + 0 >? zlen v + 0) with false by lia. reflexivity.
  - pose proof (zlen_nonneg b). replace (zlen u + 0 <? zlen v + (1 + zlen b)) with true by lia. reflexivity.
  - pose proof (zlen_nonneg a). replace (zlen u + (1 + zlen a) <? zlen v + 0) with false by lia. replace (zlen u + (1 + zlen a) >? zlen v + 0) with true by lia. reflexivity.
  - pose proof (zlen_nonneg a). pose proof (zlen_nonneg b). lia.
Qed.
Lemma lex_eq a : forall b, lex a b = Eq <-> a = b.
Proof.
  induction a as [|x a IH]; intros [|y b]; cbn [lex]; try (split; [discriminate|discriminate]); [tauto|].
  destruct (Z.compare_spec x y) as [->|H|H].
  - rewrite IH. split; [now intros ->|now injection 1].
  - split; [discriminate|]. injection 1. lia.
  - split; [discriminate|]. injection 1. lia.
Qed.
Lemma lex_sym a : forall b, lex b a = CompOpp (lex a b).
Proof.
  induction a as [|x a IH]; intros [|y b]; cbn [lex CompOpp]; try reflexivity. rewrite (Z.compare_antisym x y). destruct (x ?= y); cbn [CompOpp]; auto.
Qed.
Lemma lex_trans a : forall b c, lex a b = Lt -> lex b c = Lt -> lex a c = Lt.
Proof.
  induction a as [|x a IH]; intros [|y b] [|z c]; cbn [lex]; try discriminate; auto.
  intros A B. destruct (Z.compare_spec x y) as [E1|E1|E1]; destruct (Z.compare_spec y z) as [E2|E2|E2]; try discriminate;
    destruct (Z.compare_spec x z) as [E3|E3|E3]; try reflexivity; try (exfalso; lia). eauto.
Qed.
Lemma eq_loop_ok f u : forall v p q j1 j2 n fuel, zlen p = zlen q -> zlen u = zlen v -> n = zlen p + zlen u -> n < 4294967296 -> (length u < fuel)%nat ->
  exists b, eq_loop f (p ++ u ++ j1) (q ++ v ++ j2) n (zlen p) fuel = Val b /\ (b = true <-> map f u = map f v).
Proof.
  induction u as [|x u IH]; intros v p q j1 j2 n fuel Hpq Huv Hn Hb Hf; (destruct fuel as [|fuel]; [lia|]); cbn [eq_loop].
  - change (zlen (@nil Z)) with 0 in *. symmetry in Huv. apply zlen_zero in Huv. subst v. replace (zlen p <? n) with false by lia. exists true. split; [reflexivity|]. tauto.
  - destruct v as [|y v]; [rewrite zlen_cons in Huv; change (zlen (@nil Z)) with 0 in Huv; pose proof (zlen_nonneg u); lia|]. rewrite !zlen_cons in *.
    pose proof (zlen_nonneg u). pose proof (zlen_nonneg p). replace (zlen p <? n) with true by lia. cbn [app]. rewrite rd_mid. cbn [bind]. rewrite rd_mid' by exact Hpq. cbn [bind map].
    destruct (Z.eqb_spec (f x) (f y)) as [Ef|Ef].
    + rewrite u32_id by lia. replace (p ++ x :: u ++ j1) with ((p ++ [x]) ++ u ++ j1) by (rewrite <- app_assoc; reflexivity). replace (q ++ y :: v ++ j2) with ((q ++ [y]) ++ v ++ j2) by (rewrite <- app_assoc; reflexivity).
      replace (zlen p + 1) with (zlen (p ++ [x])) by zl. cbn [length] in Hf.
      destruct (IH v (p ++ [x]) (q ++ [y]) j1 j2 n fuel) as (b & -> & B); [zl|lia|zl|lia|lia|].
      exists b. split; [reflexivity|]. rewrite B. split; [now rewrite Ef; intros ->|now injection 1].
    + exists false. split; [reflexivity|]. split; [discriminate|]. now injection 1.
Qed.
Lemma eq_gen f s t s2 t2 : repr s t -> repr s2 t2 -> zlen t < 4294967296 ->
  exists b, (if negb (len s =? len s2) then Val false else eq_loop f (buf s) (buf s2) (len s) 0 (S (Z.to_nat (len s)))) = Val b /\ (b = true <-> map f t = map f t2).
Proof.
  intros (j & E & L) (j2 & E2 & L2) Hb. rewrite E, E2, L, L2. destruct (Z.eqb_spec (zlen t) (zlen t2)) as [H|H]; cbn [negb].
  - destruct (eq_loop_ok f t t2 [] [] j j2 (zlen t) (S (Z.to_nat (zlen t)))) as (b & E3 & B); auto. { rewrite <- length_zlen. lia. }
    cbn [app] in E3. change (zlen (@nil Z)) with 0 in E3. rewrite E3. eauto.
  - exists false. split; [reflexivity|]. split; [discriminate|]. intros M. apply (f_equal (@zlen Z)) in M. rewrite !zlen_map in M. contradiction.
Qed.

(** * hash *)
Lemma mod_lin n x P Q : ((x mod n) * P + Q) mod n = (x * P + Q) mod n.
Proof. rewrite <- Zplus_mod_idemp_l, Zmult_mod_idemp_l, Zplus_mod_idemp_l. reflexivity. Qed.
Lemma hash_loop_ok t2 : forall t1 j h k, zlen t1 + zlen t2 <= 2147483647 -> Forall unit16 t2 -> 0 <= h < 2 ^ 32 -> k = length t2 ->
  hash_loop (t1 ++ t2 ++ j) h (zlen t1) k = Val ((h * 31 ^ zlen t2 + poly t2) mod 2 ^ 32).
Proof.
  induction t2 as [|x t2 IH]; intros t1 j h k Hb Hu Hh Hk; subst k; cbn [length hash_loop poly].
  - change (zlen (@nil Z)) with 0. rewrite Z.pow_0_r, Z.mul_1_r, Z.add_0_r, Z.mod_small by lia. reflexivity.
  - cbn [app]. rewrite rd_mid. cbn [bind]. rewrite zlen_cons in Hb. pose proof (zlen_nonneg t1). pose proof (zlen_nonneg t2).
    unfold chk32, in_s32. replace ((-2147483648 <=? zlen t1 + 1) && (zlen t1 + 1 <=? 2147483647)) with true by lia. cbn [bind].
    inversion Hu as [|? ? Hx Hu2]; subst. replace (t1 ++ x :: t2 ++ j) with ((t1 ++ [x]) ++ t2 ++ j) by (rewrite <- app_assoc; reflexivity).
    replace (zlen t1 + 1) with (zlen (t1 ++ [x])) by zl. rewrite IH; [|zl|exact Hu2|unfold u32; change (2 ^ 32) with 4294967296; lia|reflexivity].
    f_equal. rewrite zlen_cons, Z.pow_add_r, Z.pow_1_r by lia.
    set (P := 31 ^ zlen t2). set (Q := poly t2). change (2 ^ 32) with 4294967296. unfold u32. rewrite Z.shiftl_mul_pow2 by lia. change (2 ^ 5) with 32.
    rewrite (Zminus_mod_idemp_l (h * 32) h 4294967296). rewrite (Zplus_mod_idemp_l (h * 32 - h) x 4294967296).
    rewrite mod_lin. rewrite Zplus_mod_idemp_r. f_equal. lia.
Qed.

Lemma poly_range t : 0 <= poly t < 2 ^ 32.
Proof. destruct t; cbn [poly]; [lia|]. apply Z.mod_pos_bound. lia. Qed.
Lemma hash_ok s t : repr s t -> zlen t <= 2147483647 -> Forall unit16 t -> hash_loop (buf s) 0 0 (Z.to_nat (len s)) = Val (poly t).
Proof.
  intros (j & E & L) Hb Hu. rewrite E, L. rewrite <- length_zlen. pose proof (hash_loop_ok t [] j 0 (length t)) as H. cbn [app] in H. change (zlen (@nil Z)) with 0 in H.
  rewrite H; auto; [|lia]. f_equal. rewrite Z.mul_0_l, Z.add_0_l. apply Z.mod_small, poly_range.
Qed.

(** * maps over a copy *)
Lemma map_loop_ok f t2 : forall t1 j k, k = length t2 -> map_loop f (t1 ++ t2 ++ j) (zlen t1) k = Val (t1 ++ map f t2 ++ j).
Proof.
  induction t2 as [|x t2 IH]; intros t1 j k Hk; subst k; cbn [length map_loop map app]; [reflexivity|]. rewrite rd_mid. cbn [bind]. rewrite wr_mid by reflexivity. cbn [bind].
  replace (t1 ++ f x :: t2 ++ j) with ((t1 ++ [f x]) ++ t2 ++ j) by (rewrite <- app_assoc; reflexivity). replace (zlen t1 + 1) with (zlen (t1 ++ [f x])) by zl.
  rewrite IH by reflexivity. rewrite <- app_assoc. reflexivity.
Qed.
Lemma map_str_ok f s t : repr s t -> exists s', map_str f s = Val s' /\ repr s' (map f t) /\ hash s' = hash s.
Proof.
  intros H. pose proof H as (j & E & L). unfold map_str. destruct (copy_ctor_ok s t H) as (r & -> & (j' & E' & L') & Hh & _ & Hl). cbn [bind].
  rewrite E', L. pose proof (map_loop_ok f t [] j' (length t) eq_refl) as M. cbn [app] in M. change (zlen (@nil Z)) with 0 in M. rewrite <- length_zlen, M. cbn [bind].
  eexists. split; [reflexivity|]. split; [|exact Hh]. exists j'. cbn [buf len]. split; [reflexivity|]. rewrite zlen_map. lia.
Qed.
Lemma rev_loop_ok k : forall p m q j, k = Z.to_nat (Z.quot (zlen m) 2) -> zlen p = zlen q ->
  rev_loop (p ++ m ++ q ++ j) (zlen p) (zlen p + zlen m - 1) k = Val (p ++ rev m ++ q ++ j).
Proof.
  induction k as [|k IH]; intros p m q j Hk Hpq; cbn [rev_loop].
  - assert (zlen m <= 1) by (pose proof (zlen_nonneg m); lia). destruct m as [|x [|y m]]; [reflexivity|reflexivity|]. rewrite !zlen_cons in *. pose proof (zlen_nonneg m). lia.
  - destruct m as [|x m]; [change (zlen (@nil Z)) with 0 in Hk; discriminate|]. destruct m as [|y m] using rev_ind; [discriminate|]. clear IHm.
    assert (Lm : zlen (x :: m ++ [y]) = zlen m + 2) by zl. rewrite Lm in *. pose proof (zlen_nonneg m).
    replace (p ++ (x :: m ++ [y]) ++ q ++ j) with (p ++ x :: (m ++ y :: q ++ j)) by (cbn [app]; rewrite <- !app_assoc; reflexivity).
    rewrite rd_mid. cbn [bind]. replace (p ++ x :: m ++ y :: q ++ j) with ((p ++ x :: m) ++ y :: q ++ j) by (rewrite <- app_assoc; reflexivity).
    rewrite rd_mid' by zl. cbn [bind]. replace ((p ++ x :: m) ++ y :: q ++ j) with (p ++ x :: (m ++ y :: q ++ j)) by (rewrite <- app_assoc; reflexivity).
    rewrite wr_mid by reflexivity. cbn [bind]. replace (p ++ y :: m ++ y :: q ++ j) with ((p ++ y :: m) ++ y :: q ++ j) by (rewrite <- app_assoc; reflexivity).
    rewrite wr_mid by zl. cbn [bind]. replace ((p ++ y :: m) ++ x :: q ++ j) with ((p ++ [y]) ++ m ++ ([x] ++ q) ++ j) by (rewrite <- !app_assoc; reflexivity).
    replace (zlen p + 1) with (zlen (p ++ [y])) by zl. replace (zlen p + (zlen m + 2) - 1 - 1) with (zlen (p ++ [y]) + zlen m - 1) by zl.
    rewrite IH; [|lia|zl]. cbn [rev]. rewrite rev_app_distr. cbn [rev app]. rewrite <- !app_assoc. reflexivity.
Qed.
Lemma reverse_ok s t : repr s t -> exists s', reverse s = Val s' /\ repr s' (rev t) /\ hash s' = hash s.
Proof.
  intros H. pose proof H as (j & E & L). unfold reverse. destruct (copy_ctor_ok s t H) as (r & -> & (j' & E' & L') & Hh & _ & Hl). cbn [bind].
  rewrite E', L. pose proof (rev_loop_ok (Z.to_nat (Z.quot (zlen t) 2)) [] t [] j' eq_refl eq_refl) as M. cbn [app] in M. change (zlen (@nil Z)) with 0 in M. rewrite Z.add_0_l in M. rewrite M. cbn [bind].
  eexists. split; [reflexivity|]. split; [|exact Hh]. exists j'. cbn [buf len]. split; [reflexivity|]. rewrite zlen_rev. lia.
Qed.

(** * trim *)
Lemma skip_left_ok m : forall p j n fuel, n = zlen p + zlen m -> (length m < fuel)%nat ->
  exists a b, m = a ++ b /\ skip_left (p ++ m ++ j) (zlen p) n fuel = Val (zlen p + zlen a) /\ forallb is_ws a = true /\ (match b with [] => True | x :: _ => is_ws x = false end).
Proof.
  induction m as [|x m IH]; intros p j n fuel Hn Hf; (destruct fuel as [|fuel]; [lia|]); cbn [skip_left length] in *.
  - exists [], []. change (zlen (@nil Z)) with 0 in *. replace (zlen p <? n) with false by lia. rewrite Z.add_0_r. auto.
  - rewrite zlen_cons in Hn. pose proof (zlen_nonneg m). replace (zlen p <? n) with true by lia. cbn [app]. rewrite rd_mid. cbn [bind]. destruct (is_ws x) eqn:W.
    + replace (p ++ x :: m ++ j) with ((p ++ [x]) ++ m ++ j) by (rewrite <- app_assoc; reflexivity). replace (zlen p + 1) with (zlen (p ++ [x])) by zl.
      destruct (IH (p ++ [x]) j n fuel) as (a & b & -> & E & F & B); [zl|lia|]. exists (x :: a), b. rewrite E. repeat split; auto; [f_equal; zl|]. cbn [forallb]. now rewrite W.
    + exists [], (x :: m). change (zlen (@nil Z)) with 0. rewrite Z.add_0_r. auto.
Qed.
Lemma skip_right_ok m : forall j fuel, (length m < fuel)%nat ->
  exists a b, m = a ++ b /\ skip_right (m ++ j) (zlen m) fuel = Val (zlen a) /\ forallb is_ws b = true /\ (a = [] \/ exists a' x, a = a' ++ [x] /\ is_ws x = false).
Proof.
  induction m as [|x m IH] using rev_ind; intros j fuel Hf; (destruct fuel as [|fuel]; [lia|]); cbn [skip_right].
  - exists [], []. change (zlen (@nil Z)) with 0. replace (0 >? 0) with false by lia. auto.
  - rewrite app_length in Hf. cbn [length] in Hf. replace (zlen (m ++ [x])) with (zlen m + 1) by zl. pose proof (zlen_nonneg m). replace (zlen m + 1 >? 0) with true by lia.
    replace (zlen m + 1 - 1) with (zlen m) by lia. rewrite <- app_assoc. cbn [app]. rewrite rd_mid. cbn [bind]. destruct (is_ws x) eqn:W.
    + destruct (IH (x :: j) fuel) as (a & b & -> & E & F & B); [lia|]. exists a, (b ++ [x]). rewrite E. split; [now rewrite app_assoc|]. split; [reflexivity|]. split; [|exact B].
      rewrite forallb_app, F. cbn [forallb andb]. now rewrite W.
    + exists (m ++ [x]), []. split; [now rewrite app_nil_r|]. split; [f_equal; zl|]. split; [reflexivity|]. right. eauto.
Qed.
Lemma forallb_ws_no a x b : forallb is_ws (a ++ x :: b) = true -> is_ws x = true.
Proof. rewrite forallb_app. cbn [forallb]. rewrite !andb_true_iff. tauto. Qed.
Lemma trim_ok s t : repr s t -> exists s' a m b, trim s = Val s' /\ repr s' m /\ t = a ++ m ++ b /\ forallb is_ws a = true /\ forallb is_ws b = true /\
  (m = [] \/ (exists x m', m = x :: m' /\ is_ws x = false) /\ (exists m' x, m = m' ++ [x] /\ is_ws x = false)).
Proof.
  intros H. pose proof H as (j & E & L). unfold trim. destruct (Z.eqb_spec (len s) 0) as [Z0|Z0].
  - exists str_new, [], [], []. rewrite L in Z0. apply zlen_zero in Z0. subst t. split; [reflexivity|]. split; [apply str_new_repr|]. auto.
  - rewrite L, E. destruct (skip_left_ok t [] j (zlen t) (S (Z.to_nat (zlen t)))) as (a & b & Et & E1 & Fa & Fb); [reflexivity|rewrite <- length_zlen; lia|].
    cbn [app] in E1. change (zlen (@nil Z)) with 0 in E1. rewrite Z.add_0_l in E1. rewrite E1. cbn [bind].
    destruct (skip_right_ok t j (S (Z.to_nat (zlen t)))) as (c & d & Et2 & E2 & Fd & Fc); [rewrite <- length_zlen; lia|]. rewrite E2. cbn [bind].
    destruct (Z.leb_spec (zlen c) (zlen a)) as [Hle|Hlt].
    + exists str_new, t, [], []. split; [reflexivity|]. split; [apply str_new_repr|]. split; [now rewrite app_nil_r|]. split; [|auto].
      (* everything is white space *)
      destruct (split_len a (zlen c)) as (a1 & a2 & -> & Ha1). { pose proof (zlen_nonneg c). lia. }
      assert (a1 = c). { rewrite Et2 in Et. apply (f_equal (ztake (zlen c))) in Et. rewrite ztake_app in Et by reflexivity. rewrite <- app_assoc, ztake_app in Et by lia. auto. } subst a1.
      rewrite Et2, forallb_app, Fd. rewrite forallb_app in Fa. apply andb_true_iff in Fa as [-> _]. reflexivity.
    + destruct (split_len c (zlen a)) as (c1 & m & -> & Hc). { pose proof (zlen_nonneg a). lia. } 
      assert (c1 = a). { rewrite Et2 in Et. apply (f_equal (ztake (zlen a))) in Et. rewrite <- app_assoc, ztake_app in Et by lia. rewrite ztake_app in Et by reflexivity. auto. } subst c1.
      assert (b = m ++ d). { rewrite Et2, <- app_assoc in Et. now apply app_inv_head in Et. } subst b.
      assert (Ht : t = a ++ m ++ d) by exact Et. rewrite zlen_app. rewrite Ht in H. destruct (substring_mid s a m d H) as (s' & -> & R).
      exists s', a, m, d. split; [reflexivity|]. split; [exact R|]. split; [exact Ht|]. split; [exact Fa|]. split; [exact Fd|].
      destruct m as [|x m]; [left; reflexivity|]. right. split; [exists x, m; auto|].
      destruct Fc as [Fc|(a' & y & Fc & Wy)]; [apply app_eq_nil in Fc as [_ Fc]; discriminate|].
      destruct (exists_last (l := x :: m)) as (m' & z & Em); [discriminate|]. rewrite Em in *. rewrite app_assoc in Fc. apply app_inj_tail in Fc as [_ ->]. eauto.
Qed.
