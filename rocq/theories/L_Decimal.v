(** L_Decimal.v -- lemmas for P_Decimal. *)
From Coq Require Import Reals Lra ZArith QArith Qabs Qpower Qreals.
From Flocq Require Import Core BinarySingleNaN.
From Coq Require Import SpecFloat.
From Verif Require Import Base M_Float M_MathF M_String M_Decimal L_Float S_Double L_Double L_MathF S_String S_Integer S_Decimal L_String L_String2 L_String3 L_Integer.
Local Open Scope Z_scope.

Lemma eqb_r x y a b : is64 x a -> is64 y b -> SFeqb x y = Req_bool a b.
Proof. intros (bx & <- & Fx & <-) (by_ & <- & Fy & <-). pose proof (@Beqb_correct 53 1024 bx by_ Fx Fy) as H. rewrite <- H. reflexivity. Qed.
Lemma abs_r x a : is64 x a -> is64 (SFabs x) (Rabs a).
Proof. intros (b & <- & F & <-). exists (Babs b). split; [now destruct b|]. split; [now rewrite is_finite_Babs|]. apply B2R_Babs. Qed.
Lemma norm_r m e s : -1074 <= e <= 900 -> Z.abs m <= 2 ^ 53 -> is64 (SpecFloat.binary_normalize 53 1024 m e s) (IZR m * bpow radix2 e).
Proof.
  intros E M. rewrite (normalize_equiv 53 1024 p53 e1024). pose proof (binary_normalize_correct 53 1024 p53 e1024 mode_NE m e s) as C. change (F2R (Float radix2 m e)) with (IZR m * bpow radix2 e)%R in C. cbn [round_mode] in C. rewrite r64_fmt in C by (apply fmt_grid; lia).
  rewrite Rlt_bool_true in C.
  - destruct C as (C1 & C2 & _). eexists. split; [reflexivity|]. auto.
  - rewrite Rabs_mult, (Rabs_pos_eq (bpow _ _)) by apply bpow_ge_0. rewrite <- abs_IZR. apply Rle_lt_trans with (bpow radix2 53 * bpow radix2 900)%R; [|rewrite <- bpow_plus; apply bpow_lt; lia].
    apply Rmult_le_compat; [apply IZR_le; lia|apply bpow_ge_0|change (bpow radix2 53) with (IZR (2 ^ 53)); apply IZR_le; exact M|apply bpow_le; lia].
Qed.
(** fmod(x, 1) *)
Lemma fmod1_r x a : is64 x a -> is64 (fmod1 x) (a - IZR (Ztrunc a)).
Proof.
  intros H. pose proof (trunc_r 53 1024 x a H) as T. destruct H as (b & <- & F & <-). destruct b as [s|s| |s m e B]; try discriminate; cbn [B2SF fmod1 B2R] in *.
  - injection T as T. rewrite <- T. exists (B754_zero s). split; [reflexivity|]. split; [reflexivity|]. cbn. ring.
  - cbn [ftrunc] in T. injection T as T. rewrite <- T. clear T F.
    assert (Bm : Zpos m < 2 ^ 53 /\ -1074 <= e). { unfold SpecFloat.bounded, SpecFloat.canonical_mantissa in B. apply andb_true_iff in B as [B1 B2]. apply Zeq_bool_eq in B1. unfold SpecFloat.fexp, SpecFloat.emin in B1. pose proof (SpecFloat.digits2_pos m) as _. assert (D : Z.pos (SpecFloat.digits2_pos m) <= 53 /\ -1074 <= e) by lia. destruct D as [D E]. split; [|exact E].
      assert (Q : (Z.pos m < radix2 ^ Z.pos (SpecFloat.digits2_pos m))). { rewrite Digits.Zpos_digits2_pos. apply (Digits.Zpower_gt_Zdigits radix2 (Digits.Zdigits radix2 (Z.pos m)) (Z.pos m)). lia. }
      apply Z.lt_le_trans with (1 := Q). apply Z.pow_le_mono_r; [reflexivity|exact D]. }
    destruct Bm as [Bm Be]. unfold F2R. cbn [Fnum Fexp]. destruct (Z.leb_spec 0 e) as [L|L].
    + match goal with |- is64 _ ?r => assert (E : r = 0%R); [|rewrite E; exists (B754_zero s); split; [reflexivity|]; split; reflexivity] end.
      rewrite <- (IZR_Zpower radix2) by exact L. rewrite <- mult_IZR, <- minus_IZR. apply (f_equal IZR (y := 0)). change (radix_val radix2) with 2. destruct s; unfold SpecFloat.cond_Zopp; [rewrite Z.mul_opp_l|]; apply Z.sub_diag.
    + assert (P : 0 < 2 ^ (- e)) by (apply Z.pow_pos_nonneg; lia). pose proof (Z.mod_pos_bound (Zpos m) _ P) as Mb. pose proof (Z.mod_le (Z.pos m) _ ltac:(lia) P) as Ml.
      replace (IZR (SpecFloat.cond_Zopp s (Z.pos m)) * bpow radix2 e - IZR (if s then - (Z.pos m / 2 ^ (- e)) else Z.pos m / 2 ^ (- e)))%R with (IZR (SpecFloat.cond_Zopp s (Z.pos m mod 2 ^ (- e))) * bpow radix2 e)%R; [apply norm_r; [lia|destruct s; cbn [SpecFloat.cond_Zopp]; lia]|].
      assert (E1 : (IZR (2 ^ (- e)) * bpow radix2 e = 1)%R). { replace (IZR (2 ^ (- e))) with (bpow radix2 (- e)) by (rewrite <- (IZR_Zpower radix2) by lia; reflexivity). rewrite <- bpow_plus. replace (- e + e) with 0 by lia. reflexivity. }
      assert (E2 : IZR (Z.pos m) = (IZR (2 ^ (- e)) * IZR (Z.pos m / 2 ^ (- e)) + IZR (Z.pos m mod 2 ^ (- e)))%R). { rewrite <- mult_IZR, <- plus_IZR. apply f_equal. apply Z.div_mod. lia. }
      destruct s; cbn [SpecFloat.cond_Zopp]; rewrite ?opp_IZR, E2; set (q := IZR (Z.pos m / 2 ^ (- e))); set (w := IZR (Z.pos m mod 2 ^ (- e))); [replace (- (IZR (2 ^ (- e)) * q + w) * bpow radix2 e - - q)%R with (- w * bpow radix2 e - q * (IZR (2 ^ (- e)) * bpow radix2 e) + q)%R by ring|replace ((IZR (2 ^ (- e)) * q + w) * bpow radix2 e - q)%R with (w * bpow radix2 e + q * (IZR (2 ^ (- e)) * bpow radix2 e) - q)%R by ring]; rewrite E1; ring.
Qed.
Lemma frac_abs a : Rabs (a - IZR (Ztrunc a)) = (Rabs a - IZR (Zfloor (Rabs a)))%R.
Proof.
  destruct (Rle_or_lt 0 a) as [P|P].
  - rewrite Ztrunc_floor by exact P. rewrite (Rabs_pos_eq a) by exact P. apply Rabs_pos_eq. pose proof (Zfloor_lb a). lra.
  - rewrite Ztrunc_ceil by lra. unfold Zceil. rewrite opp_IZR. rewrite (Rabs_left a) by exact P. pose proof (Zfloor_lb (- a)). rewrite Rabs_left1; lra.
Qed.
Lemma trunc_abs a : Z.abs (Ztrunc a) = Zfloor (Rabs a).
Proof.
  destruct (Rle_or_lt 0 a) as [P|P].
  - rewrite Ztrunc_floor, (Rabs_pos_eq a) by exact P. apply Z.abs_eq. apply Zfloor_lub. exact P.
  - rewrite Ztrunc_ceil by lra. unfold Zceil. rewrite (Rabs_left a) by exact P. rewrite Z.abs_opp. apply Z.abs_eq, Zfloor_lub. lra.
Qed.
(** the digits behind the comma, one more than wanted *)
Definition frac (a : R) : R := (Rabs a - IZR (Zfloor (Rabs a)))%R.
Lemma frac_bound a : (0 <= frac a < 1)%R.
Proof. unfold frac. pose proof (Zfloor_lb (Rabs a)). pose proof (Zfloor_ub (Rabs a)). lra. Qed.
Lemma abs_r64 a : Rabs (r64 a) = r64 (Rabs a).
Proof. destruct (Rle_or_lt 0 a) as [P|P]; [rewrite (Rabs_pos_eq a) by exact P; apply Rabs_pos_eq; now apply r64_pos|]. rewrite (Rabs_left a) by exact P. rewrite r64_opp. apply Rabs_left1. rewrite <- r64_0. apply r64_le. lra. Qed.
Lemma pow_bounds p : 0 <= p <= 15 -> 1 <= 10 ^ p <= 10 ^ 15.
Proof. intros H. split; [apply (Z.pow_le_mono_r 10 0 p); lia|apply Z.pow_le_mono_r; lia]. Qed.
Lemma digits_val x a f p : is64 x a -> 0 <= p <= 15 -> is64 f (IZR (10 ^ p)) ->
  is64 (SFabs (mul64 (mul64 (fmod1 x) (int64f 10)) f)) (r64 (r64 (frac a * 10) * IZR (10 ^ p))) /\ (0 <= r64 (r64 (frac a * 10) * IZR (10 ^ p)) <= IZR (10 ^ (p + 1)))%R.
Proof.
  intros X P F. pose proof (pow_bounds p P) as B. pose proof (fmod1_r x a X) as M. pose proof (frac_bound a) as Fb. set (d := (a - IZR (Ztrunc a))%R) in *. assert (Ed : Rabs d = frac a) by apply frac_abs.
  assert (B1 : (Rabs (d * 10) <= bpow radix2 4)%R). { rewrite Rabs_mult, Ed, (Rabs_pos_eq 10) by lra. change (bpow radix2 4) with 16%R. lra. }
  pose proof (mul64_r _ _ _ _ 4 ltac:(lia) M (int64_r 10 ltac:(lia)) B1) as M1. apply (r64_abs _ 4 ltac:(lia)) in B1. assert (F1 : (1 <= IZR (10 ^ p) <= bpow radix2 50)%R). { split; [apply (IZR_le 1); lia|]. change (bpow radix2 50) with (IZR (2 ^ 50)). apply IZR_le. apply Z.le_trans with (1 := proj2 B). vm_compute. discriminate. }
  assert (B2 : (Rabs (r64 (d * 10) * IZR (10 ^ p)) <= bpow radix2 54)%R). { rewrite Rabs_mult, (Rabs_pos_eq (IZR (10 ^ p))) by lra. change 54 with (4 + 50). rewrite bpow_plus. apply Rmult_le_compat; [apply Rabs_pos|lra|exact B1|lra]. }
  pose proof (mul64_r _ _ _ _ 54 ltac:(lia) M1 F B2) as M2. apply abs_r in M2. rewrite abs_r64, Rabs_mult, abs_r64, Rabs_mult, Ed in M2. rewrite (Rabs_pos_eq 10), (Rabs_pos_eq (IZR (10 ^ p))) in M2 by lra. split; [exact M2|]. split.
  - apply r64_pos, Rmult_le_pos; [apply r64_pos; lra|lra].
  - assert (U1 : (r64 (frac a * 10) <= 10)%R). { apply rnd_le_r; [|lra]. apply (fmt64 _ _ (int64_r 10 ltac:(lia))). }
    apply rnd_le_r.
    + rewrite Z.pow_add_r by lia. change (10 ^ 1) with 10. rewrite <- (Rmult_1_r (IZR (10 ^ p * 10))). replace (10 ^ p * 10) with (5 ^ (p + 1) * 2 ^ (p + 1)) by (rewrite !Z.pow_add_r by lia; change 10 with (5 * 2) at 1; rewrite Z.pow_mul_l; ring). rewrite mult_IZR, Rmult_1_r. replace (IZR (2 ^ (p + 1))) with (bpow radix2 (p + 1)) by (rewrite <- (IZR_Zpower radix2) by lia; reflexivity). apply fmt_grid; [lia|]. rewrite Z.abs_eq by (apply Z.pow_nonneg; lia). apply Z.le_trans with (5 ^ 16); [apply Z.pow_le_mono_r; lia|vm_compute; discriminate].
    + rewrite Z.pow_add_r, mult_IZR by lia. change (IZR (10 ^ 1)) with 10%R. rewrite Rmult_comm. apply Rmult_le_compat_l; lra.
Qed.
Lemma digits_err a p : 0 <= p <= 15 -> (Rabs (r64 (r64 (frac a * 10) * IZR (10 ^ p)) - frac a * IZR (10 ^ (p + 1))) <= IZR (10 ^ (p + 1)) * bpow radix2 (-52))%R.
Proof.
  intros P. pose proof (pow_bounds p P) as B. pose proof (frac_bound a) as Fb. set (F := IZR (10 ^ p)). assert (F1 : (1 <= F)%R) by (apply (IZR_le 1); lia). rewrite Z.pow_add_r, mult_IZR by lia. change (IZR (10 ^ 1)) with 10%R. fold F.
  assert (B1 : (Rabs (frac a * 10) <= bpow radix2 4)%R) by (rewrite Rabs_pos_eq by lra; change (bpow radix2 4) with 16%R; lra). pose proof (r64_err _ 4 ltac:(lia) B1) as E1. change (4 - 54) with (-50) in E1.
  assert (U1 : (0 <= r64 (frac a * 10) <= 10)%R). { split; [apply r64_pos; lra|]. apply rnd_le_r; [|lra]. apply (fmt64 _ _ (int64_r 10 ltac:(lia))). }
  set (u := r64 (frac a * 10)) in *. destruct (rel_err (u * F)) as (d & t & D & T & E). rewrite E. set (e := bpow radix2 (-53)) in *. pose proof (bpow_gt_0 radix2 (-53)) as E0. fold e in E0.
  replace (bpow radix2 (-50)) with (8 * e)%R in E1 by (change (-50) with (3 + -53); rewrite bpow_plus; reflexivity). replace (bpow radix2 (-52)) with (2 * e)%R by (change (-52) with (1 + -53); rewrite bpow_plus; reflexivity).
  assert (T' : (Rabs t <= 2 * e)%R) by (apply Rle_trans with (1 := T); apply Rle_trans with e; [apply bpow_le; lia|lra]). replace (u * F * (1 + d) + t - frac a * (F * 10))%R with ((u - frac a * 10) * F + u * F * d + t)%R by ring.
  eapply Rle_trans; [apply Rabs_triang|]. eapply Rle_trans; [apply Rplus_le_compat_r, Rabs_triang|]. rewrite !Rabs_mult. rewrite (Rabs_pos_eq F), (Rabs_pos_eq u) by lra.
  assert (K1 : (Rabs (u - frac a * 10) * F <= 8 * e * F)%R) by (apply Rmult_le_compat_r; lra). assert (K2 : (u * F * Rabs d <= 10 * F * e)%R). { apply Rmult_le_compat; [apply Rmult_le_pos; lra|apply Rabs_pos|apply Rmult_le_compat_r; lra|exact D]. }
  assert (K3 : (2 * e <= 2 * e * F)%R) by (rewrite <- (Rmult_1_r (2 * e)) at 1; apply Rmult_le_compat_l; lra). lra.
Qed.
(** rounding by the last digit *)
Definition last_digit (n : Z) : Z := if 5 <=? n mod 10 then n / 10 + 1 else n / 10.
Lemma last_digit_floor u : (0 <= u)%R -> last_digit (Zfloor u) = Zfloor (u / 10 + / 2).
Proof.
  intros P. symmetry. apply Zfloor_imp. pose proof (Zfloor_lb u) as L. pose proof (Zfloor_ub u) as U. set (n := Zfloor u) in *. unfold last_digit.
  assert (E : IZR n = (10 * IZR (n / 10) + IZR (n mod 10))%R) by (rewrite <- mult_IZR, <- plus_IZR; apply f_equal; apply Z.div_mod; lia). pose proof (Z.mod_pos_bound n 10 ltac:(lia)) as M. rewrite plus_IZR. destruct (Z.leb_spec 5 (n mod 10)) as [H|H].
  - apply IZR_le in H. assert (IZR (n mod 10) <= 9)%R by (apply (IZR_le _ 9); lia). rewrite plus_IZR. lra.
  - assert (IZR (n mod 10) <= 4)%R by (apply (IZR_le _ 4); lia). assert (0 <= IZR (n mod 10))%R by (apply (IZR_le 0); lia). lra.
Qed.

(** * the text *)
Lemma pos_app ds es : pos_value 10 (ds ++ es) = pos_value 10 ds * 10 ^ zlen es + pos_value 10 es.
Proof.
  induction es as [|e es IH] using rev_ind; [rewrite app_nil_r; change (zlen (@nil Z)) with 0; change (pos_value 10 []) with 0; lia|].
  rewrite app_assoc, !pos_value_app, IH, zlen_app. change (zlen [e]) with 1. rewrite Z.pow_add_r by (try apply zlen_nonneg; lia). lia.
Qed.
Lemma pos_zeros k : pos_value 10 (repeat 0 k) = 0.
Proof. induction k as [|k IH]; [reflexivity|]. cbn [repeat]. rewrite repeat_cons, pos_value_app, IH. reflexivity. Qed.
Lemma pos_range ds : Forall (fun d => 0 <= d < 10) ds -> 0 <= pos_value 10 ds < 10 ^ zlen ds.
Proof.
  induction ds as [|d ds IH] using rev_ind; intros F; [cbn; lia|]. apply Forall_app in F as [F1 F2]. inversion F2 as [|? ? D _]; subst. specialize (IH F1).
  rewrite pos_value_app, zlen_app. change (zlen [d]) with 1. rewrite Z.pow_add_r by (try apply zlen_nonneg; lia). lia.
Qed.
Lemma canon_len n ds p : canonical 10 n ds -> 1 <= p -> n < 10 ^ p -> 1 <= zlen ds <= p.
Proof.
  intros (V & F & D) P H. destruct D as [->|(d & r & -> & D)]; [change (zlen [0]) with 1; lia|]. rewrite zlen_cons. pose proof (zlen_nonneg r) as L. split; [lia|]. destruct (Z.le_gt_cases (zlen r + 1) p) as [Q|Q]; [lia|]. exfalso.
  change (d :: r) with ([d] ++ r) in V, F. rewrite pos_app in V. change (pos_value 10 [d]) with (10 * 0 + d) in V. apply Forall_app in F as [_ F]. apply pos_range in F. assert (M : 10 ^ p <= 10 ^ zlen r) by (apply Z.pow_le_mono_r; lia).
  assert (10 ^ zlen r <= d * 10 ^ zlen r) by nia. lia.
Qed.
Lemma map_rep {A B} (f : A -> B) x k : map f (repeat x k) = repeat (f x) k.
Proof. induction k as [|k IH]; [reflexivity|]. cbn [repeat map]. now rewrite IH. Qed.
Lemma pad_ok k : forall a t, repr a t -> exists a', pad_loop a k = Val a' /\ repr a' (repeat 48 k ++ t).
Proof.
  induction k as [|k IH]; intros a t H; cbn [pad_loop]; [eauto|]. destruct (insert_char_ok a t 0 48 H ltac:(pose proof (zlen_nonneg t); lia)) as (a1 & -> & R1). cbn [bind]. destruct (IH a1 _ R1) as (a' & E & R). exists a'. split; [exact E|].
  change (ztake 0 t) with (@nil Z) in R. change (zdrop 0 t) with t in R. cbn [app] in R. cbn [repeat]. rewrite repeat_cons, <- app_assoc. exact R.
Qed.
Lemma cut_ok : forall es a fuel, repr a (map dec_char es) -> es <> [] -> (length es < fuel)%nat ->
  exists a' es' k, cut_loop a fuel = Val a' /\ repr a' (map dec_char es') /\ es = es' ++ repeat 0 k /\ es' <> [] /\ (zlen es' = 1 \/ last es' 0 <> 0).
Proof.
  intros es. induction es as [|e es IH] using rev_ind; intros a fuel H Ne Fu; [congruence|]. destruct fuel as [|fuel]; [lia|]. cbn [cut_loop].
  assert (Ln : len a = zlen es + 1). { destruct H as (j & _ & L). rewrite L, zlen_map, zlen_app. reflexivity. }
  rewrite Ln. destruct (Z.gtb_spec (zlen es + 1) 1) as [G|G].
  - replace (zlen es + 1 - 1) with (zlen es) by lia. rewrite (char_at_ok a _ _ H). assert (Lm : lget (map dec_char (es ++ [e])) (zlen es) = Some (dec_char e)) by (rewrite map_app; cbn [map]; rewrite <- (zlen_map dec_char es); apply lget_mid). rewrite Lm. cbn [bind]. unfold dec_char at 1. destruct (Z.eqb_spec (48 + e) 48) as [Z0|Z0].
    + assert (e = 0) by lia. subst e. destruct (delete_char_ok a _ (zlen es) H) as (a1 & -> & R1); [rewrite zlen_map, zlen_app; change (zlen [0]) with 1; pose proof (zlen_nonneg es); lia|]. cbn [bind].
      assert (R2 : repr a1 (map dec_char es)). { rewrite map_app in R1. cbn [map] in R1. replace (zlen es) with (zlen (map dec_char es)) in R1 by apply zlen_map. rewrite ztake_app in R1 by reflexivity. rewrite zdrop_all in R1 by (rewrite zlen_app; change (zlen [dec_char 0]) with 1; lia). now rewrite app_nil_r in R1. }
      rewrite app_length in Fu. cbn [length] in Fu. destruct (IH a1 fuel R2) as (a' & es' & k & E & R & S & N & La); [intros ->; change (zlen (@nil Z)) with 0 in G; lia|lia|]. exists a', es', (Datatypes.S k). split; [exact E|]. split; [exact R|]. split; [rewrite S, <- app_assoc; f_equal; symmetry; apply repeat_cons|auto].
    + exists a, (es ++ [e]), O. split; [reflexivity|]. split; [exact H|]. split; [now rewrite app_nil_r|]. split; [exact Ne|]. right. rewrite last_last. lia.
  - exists a, (es ++ [e]), O. split; [reflexivity|]. split; [exact H|]. split; [now rewrite app_nil_r|]. split; [exact Ne|]. left. rewrite zlen_app. change (zlen [e]) with 1. pose proof (zlen_nonneg es). lia.
Qed.
(** String.cpp 1075-1084 *)
Definition emit (neg : bool) (before after precision : Z) (trunc : bool) : out jstr :=
  let* b := value_of_int before in
  let* b := (if neg then insert_char b 0 45 else Val b) in
  let* a := value_of_int after in
  let* a := pad_loop a (Z.to_nat (precision - len a)) in
  let* a := (if trunc then cut_loop a (S (Z.to_nat (len a))) else Val a) in
  if negb (after =? 0) || negb trunc then
    let* r := copy_ctor b in
    let* r := append r (str_of [44]) in
    let* q := copy_ctor r in
    append q a
  else Val b.
Lemma emit_ok neg B A p (trunc : bool) : 0 <= B < 2 ^ 63 -> 1 <= p -> 0 <= A < 10 ^ p -> A < 2 ^ 63 ->
  exists s, emit neg B A p trunc = Val s /\ sound s /\ (if trunc then decimal_cut else decimal) neg p (B * 10 ^ p + A) (text s).
Proof.
  change (2 ^ 63) with 9223372036854775808. intros HB P HA HA2. unfold emit. assert (P10 : 0 < 10 ^ p) by lia.
  assert (Dv : (B * 10 ^ p + A) / 10 ^ p = B) by (rewrite Z.add_comm, Z.div_add by lia; rewrite Z.div_small by lia; reflexivity). assert (Md : (B * 10 ^ p + A) mod 10 ^ p = A) by (rewrite Z.add_comm, Z.mod_add by lia; apply Z.mod_small; lia).
  destruct (value_of_int_ok B ltac:(lia)) as (b & ds & -> & Rb & Cb). cbn [bind]. rewrite (Z.abs_eq B) in Cb by lia. replace (B <? 0) with false in Rb by lia. cbn [app] in Rb.
  assert (NB : exists b', (if neg then insert_char b 0 45 else Val b) = Val b' /\ repr b' ((if neg then [45] else []) ++ map dec_char ds)).
  { destruct neg; [|exists b; auto]. destruct (insert_char_ok b _ 0 45 Rb ltac:(pose proof (zlen_nonneg (map dec_char ds)); lia)) as (b' & E & R). exists b'. auto. }
  destruct NB as (b' & -> & Rb'). cbn [bind]. destruct (value_of_int_ok A ltac:(lia)) as (a & es & -> & Ra & Ca). cbn [bind]. rewrite (Z.abs_eq A) in Ca by lia. replace (A <? 0) with false in Ra by lia. cbn [app] in Ra.
  assert (La : len a = zlen es) by (destruct Ra as (j & _ & L); rewrite L; apply zlen_map). pose proof (canon_len A es p Ca P ltac:(lia)) as Lp. rewrite La. set (k := Z.to_nat (p - zlen es)). destruct (pad_ok k a _ Ra) as (a1 & -> & R1). cbn [bind].
  set (fs := repeat 0 k ++ es). assert (R1' : repr a1 (map dec_char fs)). { unfold fs. rewrite map_app, map_rep. exact R1. }
  assert (Lf : zlen fs = p) by (unfold fs; rewrite zlen_app, zlen_repeat; lia). destruct Ca as (Va & Fa & Da). assert (Ff : Forall (fun d => 0 <= d < 10) fs). { unfold fs. apply Forall_app. split; [|exact Fa]. apply Forall_forall. intros x Hx. apply repeat_spec in Hx. lia. }
  assert (Vf : pos_value 10 fs = A) by (unfold fs; rewrite pos_app, pos_zeros, Va; lia). assert (L1 : len a1 = p) by (destruct R1' as (j & _ & L); rewrite L, zlen_map; exact Lf).
  assert (JOIN : forall a2 gs, repr a2 (map dec_char gs) -> exists s, (let* r := copy_ctor b' in let* r := append r (str_of [44]) in let* q := copy_ctor r in append q a2) = Val s /\ sound s /\ text s = (if neg then [45] else []) ++ map dec_char ds ++ [44] ++ map dec_char gs).
  { intros a2 gs R2. destruct (copy_ctor_ok b' _ Rb') as (r & -> & Rr & _). cbn [bind]. destruct (append_ok r _ (str_of [44]) [44] Rr (str_of_repr _)) as (r2 & -> & Rr2). cbn [bind]. destruct (copy_ctor_ok r2 _ Rr2) as (q & -> & Rq & _). cbn [bind].
    destruct (append_ok q _ a2 _ Rq R2) as (s & -> & Rs). exists s. apply repr_text in Rs as [T S]. split; [reflexivity|]. split; [exact S|]. rewrite T, <- !app_assoc. reflexivity. }
  destruct trunc.
  - rewrite L1. assert (Nf : fs <> []) by (intros E; rewrite E in Lf; change (zlen (@nil Z)) with 0 in Lf; lia). assert (Lfu : (length fs < S (Z.to_nat p))%nat) by (unfold zlen in Lf; lia).
    destruct (cut_ok fs a1 _ R1' Nf Lfu) as (a2 & gs & n & -> & R2 & Eg & Ng & Lg). cbn [bind]. rewrite orb_false_r. destruct (Z.eqb_spec A 0) as [A0|A0]; cbn [negb].
    + exists b'. apply repr_text in Rb' as [T S]. split; [reflexivity|]. split; [exact S|]. exists ds. rewrite Dv, Md. split; [exact Cb|]. left. auto.
    + destruct (JOIN a2 gs R2) as (s & E & S & T). exists s. split; [exact E|]. split; [exact S|]. exists ds. rewrite Dv, Md. split; [exact Cb|]. right. exists gs, (Z.of_nat n). split; [exact T|]. split; [lia|]. rewrite <- Lf, <- Vf, Eg. rewrite zlen_app, zlen_repeat. split; [reflexivity|].
      rewrite Eg in Ff. apply Forall_app in Ff as [Fg _]. split; [exact Fg|]. rewrite pos_app, pos_zeros, zlen_repeat. split; [lia|]. destruct Lg as [Lg|Lg]; [|exact Lg].
      destruct gs as [|g [|h gs]]; [congruence| |rewrite !zlen_cons in Lg; pose proof (zlen_nonneg gs); lia]. cbn [last]. intros ->. apply A0. rewrite <- Vf, Eg, pos_app, pos_zeros. reflexivity.
  - cbn [bind]. cbn [negb]. rewrite orb_true_r. destruct (JOIN a1 fs R1') as (s & E & S & T). exists s. split; [exact E|]. split; [exact S|]. exists ds, fs. rewrite Dv, Md. auto.
Qed.
(** the number that is printed, in units of the last digit *)
Definition printed (a : R) (p : Z) : Z := Zfloor (Rabs a) * 10 ^ p + Zfloor (r64 (r64 (frac a * 10) * IZR (10 ^ p)) / 10 + / 2).
Lemma less_neg x a : is64 x a -> (Rabs a <= bpow radix2 62)%R -> isLess x (int64f 0) = true -> (a < 0)%R.
Proof.
  intros X B. unfold isLess. pose proof tol_20 as T. assert (B1 : (Rabs (a + tol) <= bpow radix2 63)%R). { apply Rle_trans with (1 := Rabs_triang _ _). rewrite (Rabs_pos_eq tol) by (pose proof (bpow_gt_0 radix2 (-21)); lra). pose proof (bpow_le radix2 (-19) 62 ltac:(lia)). change 63 with (1 + 62). rewrite bpow_plus. change (bpow radix2 1) with 2%R. lra. }
  pose proof (add64_r x RESABS a tol 63 ltac:(lia) X RESABS_r B1) as U. rewrite (leb_r _ _ _ _ U zero_r). intros H. apply Rleb_inv in H. destruct (Rle_or_lt 0 a) as [Q|Q]; [|exact Q]. exfalso.
  assert (tol <= r64 (a + tol))%R by (apply rnd_ge_r; [exact tol_fmt|lra]). pose proof (bpow_gt_0 radix2 (-21)). lra.
Qed.
Lemma not_less x a : is64 x a -> (Rabs a <= bpow radix2 62)%R -> isLess x (int64f 0) = false -> (- tol < a)%R.
Proof.
  intros X B. unfold isLess. pose proof tol_20 as T. assert (B1 : (Rabs (a + tol) <= bpow radix2 63)%R). { apply Rle_trans with (1 := Rabs_triang _ _). rewrite (Rabs_pos_eq tol) by (pose proof (bpow_gt_0 radix2 (-21)); lra). pose proof (bpow_le radix2 (-19) 62 ltac:(lia)). change 63 with (1 + 62). rewrite bpow_plus. change (bpow radix2 1) with 2%R. lra. }
  pose proof (add64_r x RESABS a tol 63 ltac:(lia) X RESABS_r B1) as U. rewrite (leb_r _ _ _ _ U zero_r). intros H. destruct (Rle_bool_spec (r64 (a + tol)) 0) as [Q|Q]; [discriminate|]. destruct (Rle_or_lt a (- tol)) as [K|K]; [|exact K]. exfalso.
  assert (r64 (a + tol) <= 0)%R by (rewrite <- r64_0; apply r64_le; lra). lra.
Qed.
(** what is printed before and behind the comma *)
Definition before (a : R) (p : Z) : Z := let A := Zfloor (r64 (r64 (frac a * 10) * IZR (10 ^ p)) / 10 + / 2) in if A =? 10 ^ p then Zfloor (Rabs a) + 1 else Zfloor (Rabs a).
Definition after (a : R) (p : Z) : Z := let A := Zfloor (r64 (r64 (frac a * 10) * IZR (10 ^ p)) / 10 + / 2) in if A =? 10 ^ p then 0 else A.
Lemma value_emit x a f p (trunc : bool) : is64 x a -> (Rabs a <= bpow radix2 62)%R -> 0 <= p <= 15 -> is64 f (IZR (10 ^ p)) ->
  value_of_double x f p trunc = emit (isLess x (int64f 0)) (before a p) (after a p) p trunc /\ 0 <= before a p < 2 ^ 63 /\ 0 <= after a p < 10 ^ p /\ after a p < 2 ^ 63 /\ printed a p = before a p * 10 ^ p + after a p.
Proof.
  intros X B P F. pose proof (pow_bounds p ltac:(lia)) as P10. destruct (digits_val x a f p X ltac:(lia) F) as (D1 & D2). unfold value_of_double. set (neg := isLess x (int64f 0)). set (u := r64 (r64 (frac a * 10) * IZR (10 ^ p))) in *.
  pose proof (Zfloor_lub 0 (Rabs a) (Rabs_pos a)) as I0. assert (I1 : Zfloor (Rabs a) <= 2 ^ 62). { apply le_IZR. apply Rle_trans with (1 := Zfloor_lb _). exact B. } set (I := Zfloor (Rabs a)) in *. change (2 ^ 62) with 4611686018427387904 in I1.
  assert (T1 : Z.abs (Ztrunc a) = I) by apply trunc_abs. assert (T2 : f2s64 x = Val (Ztrunc a)). { unfold f2s64, f2int. rewrite (trunc_r 53 1024 x a X). change (2 ^ 63) with 9223372036854775808. replace ((- (9223372036854775808) <=? Ztrunc a) && (Ztrunc a <=? 9223372036854775808 - 1)) with true by lia. reflexivity. }
  rewrite T2. cbn [bind]. assert (T3 : (if neg then chk64 (Ztrunc a * -1) else Val (Ztrunc a)) = Val I).
  { destruct neg eqn:N; unfold neg in N.
    - apply (less_neg x a X B) in N. rewrite Ztrunc_ceil in * by lra. unfold Zceil in *. assert (0 <= Zfloor (- a)) by (apply Zfloor_lub; lra). unfold chk64, in_s64. replace ((-9223372036854775808 <=? - Zfloor (- a) * -1) && (- Zfloor (- a) * -1 <=? 9223372036854775807)) with true by lia. f_equal. lia.
    - apply (not_less x a X B) in N. f_equal. destruct (Rle_or_lt 0 a) as [Q|Q]; [rewrite Ztrunc_floor in * by exact Q; assert (0 <= Zfloor a) by (apply Zfloor_lub; exact Q); lia|].
      rewrite Ztrunc_ceil in * by lra. unfold Zceil in *. assert (Zfloor (- a) = 0). { apply Zfloor_imp. cbn. pose proof tol_lo. pose proof (bpow_gt_0 radix2 (-72)). lra. } lia. }
  rewrite T3. cbn [bind]. assert (U1 : 0 <= Zfloor u) by (apply Zfloor_lub; apply D2). assert (U2 : Zfloor u <= 10 ^ p * 10). { replace (10 ^ p * 10) with (10 ^ (p + 1)) by (rewrite Z.pow_add_r by lia; reflexivity). apply le_IZR. apply Rle_trans with (1 := Zfloor_lb _). apply D2. }
  change (10 ^ 15) with 1000000000000000 in P10. set (Q := 10 ^ p) in *.
  assert (T4 : f2s64 (SFabs (mul64 (mul64 (fmod1 x) (int64f 10)) f)) = Val (Zfloor u)). { unfold f2s64, f2int. rewrite (trunc_r 53 1024 _ u D1). rewrite Ztrunc_floor by apply D2. change (2 ^ 63) with 9223372036854775808. replace ((- (9223372036854775808) <=? Zfloor u) && (Zfloor u <=? 9223372036854775808 - 1)) with true by lia. reflexivity. }
  rewrite T4. cbn [bind]. rewrite Z.rem_mod_nonneg, Z.quot_div_nonneg by lia. pose proof (last_digit_floor u (proj1 D2)) as LD. set (A := Zfloor (u / 10 + / 2)) in *. unfold last_digit in LD.
  assert (T5 : (if Zfloor u mod 10 >=? 5 then chk64 (Zfloor u / 10 + 1) else Val (Zfloor u / 10)) = Val A). { rewrite <- LD, Z.geb_leb. destruct (5 <=? Zfloor u mod 10); [|reflexivity]. unfold chk64, in_s64. replace ((-9223372036854775808 <=? Zfloor u / 10 + 1) && (Zfloor u / 10 + 1 <=? 9223372036854775807)) with true by lia. reflexivity. }
  rewrite T5. cbn [bind]. assert (A1 : 0 <= A <= Q). { rewrite <- LD. destruct (Z.leb_spec 5 (Zfloor u mod 10)); Z.to_euclidean_division_equations; lia. }
  assert (T6 : SFeqb (int64f A) f = (A =? Q)). { rewrite (eqb_r _ _ _ _ (int64_r A ltac:(lia)) F). destruct (Z.eqb_spec A Q) as [->|Ne]; [apply Req_bool_true; reflexivity|apply Req_bool_false; intros E; apply eq_IZR in E; congruence]. }
  rewrite T6. assert (PR : printed a p = I * Q + A) by reflexivity. assert (Eb : before a p = if A =? Q then I + 1 else I) by reflexivity. assert (Ea : after a p = if A =? Q then 0 else A) by reflexivity. rewrite PR, Eb, Ea. destruct (Z.eqb_spec A Q) as [E|Ne].
  - unfold chk64, in_s64. replace ((-9223372036854775808 <=? I + 1) && (I + 1 <=? 9223372036854775807)) with true by lia. cbn [bind]. split; [reflexivity|]. change (2 ^ 63) with 9223372036854775808. rewrite E. lia.
  - cbn [bind]. split; [reflexivity|]. change (2 ^ 63) with 9223372036854775808. lia.
Qed.
Lemma value_core x a f p (trunc : bool) : is64 x a -> (Rabs a <= bpow radix2 62)%R -> 1 <= p <= 15 -> is64 f (IZR (10 ^ p)) ->
  exists s, value_of_double x f p trunc = Val s /\ sound s /\ (if trunc then decimal_cut else decimal) (isLess x (int64f 0)) p (printed a p) (text s).
Proof. intros X B P F. destruct (value_emit x a f p trunc X B ltac:(lia) F) as (-> & H1 & H2 & H3 & ->). apply emit_ok; lia. Qed.
Lemma printed_err a p : 1 <= p <= 15 -> (Rabs (IZR (printed a p) - Rabs a * IZR (10 ^ p)) <= / 2 + IZR (10 ^ p) * bpow radix2 (-52))%R.
Proof.
  intros P. pose proof (digits_err a p ltac:(lia)) as E. unfold printed. set (u := r64 (r64 (frac a * 10) * IZR (10 ^ p))) in *. rewrite plus_IZR, mult_IZR. rewrite Z.pow_add_r, mult_IZR in E by lia. change (IZR (10 ^ 1)) with 10%R in E. pose proof (floor_half (u / 10)) as H. unfold frac in E.
  set (A := IZR (Zfloor (u / 10 + / 2))) in *. set (Q := IZR (10 ^ p)) in *. set (I := IZR (Zfloor (Rabs a))) in *. apply Rabs_le_inv in E. apply Rabs_le. split; lra.
Qed.
Lemma printed_exact z j p : 0 <= j -> 1 <= p <= 15 -> 2 ^ j * 5 ^ (p + 1) <= 2 ^ 53 -> printed (IZR z * bpow radix2 (- j)) p = (2 * Z.abs z * 10 ^ p + 2 ^ j) / 2 ^ (j + 1).
Proof.
  intros J P H. set (b := bpow radix2 (- j)). assert (Pj : 0 < 2 ^ j) by (apply Z.pow_pos_nonneg; lia). assert (b1 : (IZR (2 ^ j) * b = 1)%R). { unfold b. replace (IZR (2 ^ j)) with (bpow radix2 j) by (rewrite <- (IZR_Zpower radix2) by lia; reflexivity). rewrite <- bpow_plus. replace (j + - j) with 0 by lia. reflexivity. }
  pose proof (bpow_gt_0 radix2 (- j)) as b0. fold b in b0. assert (Ab : Rabs (IZR z * b) = (IZR (Z.abs z) * b)%R) by (rewrite Rabs_mult, (Rabs_pos_eq b) by lra; now rewrite abs_IZR).
  assert (Fl : Zfloor (IZR (Z.abs z) * b) = Z.abs z / 2 ^ j). { apply Zfloor_imp. pose proof (Z.div_mod (Z.abs z) (2 ^ j) ltac:(lia)) as E. pose proof (Z.mod_pos_bound (Z.abs z) (2 ^ j) Pj) as M. set (q := Z.abs z / 2 ^ j) in *. set (w := Z.abs z mod 2 ^ j) in *. rewrite E. rewrite !plus_IZR, mult_IZR. replace ((IZR (2 ^ j) * IZR q + IZR w) * b)%R with (IZR q * (IZR (2 ^ j) * b) + IZR w * b)%R by ring. rewrite b1.
    assert (0 <= IZR w * b)%R by (apply Rmult_le_pos; [apply (IZR_le 0); lia|lra]). assert (IZR w * b < 1)%R by (rewrite <- b1; apply Rmult_lt_compat_r; [lra|apply IZR_lt; lia]). lra. }
  unfold printed, frac. rewrite Ab, Fl. pose proof (Z.div_mod (Z.abs z) (2 ^ j) ltac:(lia)) as E. pose proof (Z.mod_pos_bound (Z.abs z) (2 ^ j) Pj) as M. set (q := Z.abs z / 2 ^ j) in *. set (w := Z.abs z mod 2 ^ j) in *.
  replace (IZR (Z.abs z) * b - IZR q)%R with (IZR w * b)%R. 2: { rewrite E. rewrite plus_IZR, mult_IZR. replace ((IZR (2 ^ j) * IZR q + IZR w) * b)%R with (IZR q * (IZR (2 ^ j) * b) + IZR w * b)%R by ring. rewrite b1. ring. }
  assert (P5 : 25 <= 5 ^ (p + 1)) by (apply (Z.pow_le_mono_r 5 2 (p + 1)); lia). assert (J53 : j <= 53). { destruct (Z.le_gt_cases j 53); [assumption|]. exfalso. assert (2 ^ 54 <= 2 ^ j) by (apply Z.pow_le_mono_r; lia). change (2 ^ 53) with 9007199254740992 in H. change (2 ^ 54) with 18014398509481984 in *. nia. }
  assert (E1 : r64 (IZR w * b * 10) = (IZR w * b * 10)%R). { apply r64_fmt. replace (IZR w * b * 10)%R with (IZR (w * 10) * b)%R by (rewrite mult_IZR; ring). apply fmt_grid; [lia|]. change (2 ^ 53) with 9007199254740992 in *. nia. }
  rewrite E1. assert (E10 : 10 ^ (p + 1) = 5 ^ (p + 1) * 2 ^ (p + 1)) by (change 10 with (5 * 2); apply Z.pow_mul_l). assert (Ep : 10 ^ (p + 1) = 10 ^ p * 10) by (rewrite Z.pow_add_r by lia; reflexivity).
  assert (E2 : r64 (IZR w * b * 10 * IZR (10 ^ p)) = (IZR w * IZR (10 ^ p) * 10 * b)%R). { replace (IZR w * b * 10 * IZR (10 ^ p))%R with (IZR (w * 5 ^ (p + 1)) * bpow radix2 (p + 1 - j))%R. - rewrite r64_fmt; [|apply fmt_grid; [lia|rewrite Z.abs_eq by nia; nia]]. unfold b. rewrite mult_IZR. unfold Zminus. rewrite bpow_plus. fold b. replace (IZR w * IZR (10 ^ p) * 10 * b)%R with (IZR w * IZR (10 ^ (p + 1)) * b)%R by (rewrite Ep, mult_IZR; ring). rewrite E10, mult_IZR. replace (bpow radix2 (p + 1)) with (IZR (2 ^ (p + 1))) by (rewrite <- (IZR_Zpower radix2) by lia; reflexivity). ring.
    - unfold Zminus. rewrite bpow_plus. fold b. replace (IZR w * b * 10 * IZR (10 ^ p))%R with (IZR w * IZR (10 ^ (p + 1)) * b)%R by (rewrite Ep, mult_IZR; ring). rewrite E10, !mult_IZR. replace (bpow radix2 (p + 1)) with (IZR (2 ^ (p + 1))) by (rewrite <- (IZR_Zpower radix2) by lia; reflexivity). ring. }
  rewrite E2. replace (IZR w * IZR (10 ^ p) * 10 * b / 10)%R with (IZR w * IZR (10 ^ p) * b)%R by field.
  assert (Fin : Zfloor (IZR w * IZR (10 ^ p) * b + / 2) = (2 * w * 10 ^ p + 2 ^ j) / 2 ^ (j + 1)).
  { assert (Pj1 : 2 ^ (j + 1) = 2 * 2 ^ j) by (rewrite Z.pow_add_r by lia; lia). apply Zfloor_imp. rewrite Pj1. set (n := 2 * w * 10 ^ p + 2 ^ j). pose proof (Z.div_mod n (2 * 2 ^ j) ltac:(lia)) as D. pose proof (Z.mod_pos_bound n (2 * 2 ^ j) ltac:(lia)) as Mn. set (k := n / (2 * 2 ^ j)) in *. set (r := n mod (2 * 2 ^ j)) in *.
    assert (Ek : (IZR w * IZR (10 ^ p) * b + / 2 = IZR k + IZR r * b / 2)%R). { assert (D2 : IZR n = (2 * IZR w * IZR (10 ^ p) + IZR (2 ^ j))%R) by (unfold n; rewrite plus_IZR, !mult_IZR; ring). rewrite D in D2. rewrite plus_IZR, !mult_IZR in D2. assert (D3 : ((2 * IZR (2 ^ j) * IZR k + IZR r) * b = (2 * IZR w * IZR (10 ^ p) + IZR (2 ^ j)) * b)%R) by (f_equal; exact D2).
      replace ((2 * IZR (2 ^ j) * IZR k + IZR r) * b)%R with (2 * IZR k * (IZR (2 ^ j) * b) + IZR r * b)%R in D3 by ring. replace ((2 * IZR w * IZR (10 ^ p) + IZR (2 ^ j)) * b)%R with (2 * (IZR w * IZR (10 ^ p) * b) + IZR (2 ^ j) * b)%R in D3 by ring. rewrite b1 in D3. lra. }
    rewrite Ek, plus_IZR. assert (0 <= IZR r * b)%R by (apply Rmult_le_pos; [apply (IZR_le 0); lia|lra]). assert (IZR r * b < 2)%R. { replace 2%R with (IZR (2 * 2 ^ j) * b)%R by (rewrite mult_IZR, Rmult_assoc, b1; ring). apply Rmult_lt_compat_r; [lra|apply IZR_lt; lia]. } lra. }
  rewrite Fin. rewrite E. replace (2 * (2 ^ j * q + w) * 10 ^ p + 2 ^ j) with (2 * w * 10 ^ p + 2 ^ j + (q * 10 ^ p) * 2 ^ (j + 1)) by (rewrite Z.pow_add_r by lia; ring). rewrite Z.div_add by lia. lia.
Qed.

Lemma emit_zero neg B (trunc : bool) : 0 <= B < 2 ^ 63 -> exists s ds, emit neg B 0 0 trunc = Val s /\ repr s ((if neg then [45] else []) ++ map dec_char ds ++ (if trunc then [] else [44; 48])) /\ canonical 10 B ds.
Proof.
  change (2 ^ 63) with 9223372036854775808. intros HB. unfold emit. destruct (value_of_int_ok B ltac:(lia)) as (b & ds & -> & Rb & Cb). cbn [bind]. rewrite (Z.abs_eq B) in Cb by lia. replace (B <? 0) with false in Rb by lia. cbn [app] in Rb.
  assert (NB : exists b', (if neg then insert_char b 0 45 else Val b) = Val b' /\ repr b' ((if neg then [45] else []) ++ map dec_char ds)).
  { destruct neg; [|exists b; auto]. destruct (insert_char_ok b _ 0 45 Rb ltac:(pose proof (zlen_nonneg (map dec_char ds)); lia)) as (b' & E & R). exists b'. auto. }
  destruct NB as (b' & -> & Rb'). cbn [bind]. destruct (value_of_int_ok 0 ltac:(lia)) as (a & es & -> & Ra & Ca). cbn [bind]. change (0 <? 0) with false in Ra. cbn [app] in Ra. assert (Ees : es = [0]). { destruct Ca as (V & F & [D|(d & r & -> & D)]); [exact D|]. exfalso. change (Z.abs 0) with 0 in V. change (d :: r) with ([d] ++ r) in V, F. rewrite pos_app in V. change (pos_value 10 [d]) with (10 * 0 + d) in V. apply Forall_app in F as [_ Fr]. apply pos_range in Fr. assert (0 < 10 ^ zlen r) by lia. nia. }
  rewrite Ees in Ra. assert (La : len a = 1) by (destruct Ra as (j & _ & L); rewrite L; reflexivity). rewrite La. change (Z.to_nat (0 - 1)) with O. cbn [pad_loop bind]. destruct trunc.
  - rewrite La. change (cut_loop a (S (Z.to_nat 1))) with (if len a >? 1 then let* c := char_at a (len a - 1) in if c =? 48 then let* a := delete_char_at a (len a - 1) in cut_loop a (Z.to_nat 1) else Val a else Val a). rewrite La. change (1 >? 1) with false. cbn [bind]. change (negb (0 =? 0) || negb true) with false. cbv iota. exists b', ds. rewrite app_nil_r. auto.
  - cbn [bind]. change (negb (0 =? 0) || negb false) with true. cbv iota. destruct (copy_ctor_ok b' _ Rb') as (r & -> & Rr & _). cbn [bind]. destruct (append_ok r _ (str_of [44]) [44] Rr (str_of_repr _)) as (r2 & -> & Rr2). cbn [bind]. destruct (copy_ctor_ok r2 _ Rr2) as (q & -> & Rq & _). cbn [bind].
    destruct (append_ok q _ a _ Rq Ra) as (s & -> & Rs). exists s, ds. split; [reflexivity|]. rewrite <- !app_assoc in Rs. split; [exact Rs|exact Cb].
Qed.
Lemma printed_err0 a : (Rabs (IZR (printed a 0) - Rabs a) <= / 2 + bpow radix2 (-52))%R.
Proof.
  pose proof (digits_err a 0 ltac:(lia)) as E. unfold printed. set (u := r64 (r64 (frac a * 10) * IZR (10 ^ 0))) in *. rewrite plus_IZR, mult_IZR. change (IZR (10 ^ (0 + 1))) with 10%R in E. pose proof (floor_half (u / 10)) as H. unfold frac in E. change (IZR (10 ^ 0)) with 1%R.
  set (A := IZR (Zfloor (u / 10 + / 2))) in *. set (I := IZR (Zfloor (Rabs a))) in *. apply Rabs_le_inv in E. apply Rabs_le. split; lra.
Qed.
Lemma pos_zero es : Forall (fun d => 0 <= d < 10) es -> pos_value 10 es = 0 -> es = repeat 0 (length es).
Proof.
  induction es as [|d es IH]; intros F V; [reflexivity|]. change (d :: es) with ([d] ++ es) in V. rewrite pos_app in V. change (pos_value 10 [d]) with (10 * 0 + d) in V. inversion F as [|? ? D F2]; subst. pose proof (pos_range es F2) as R. assert (0 < 10 ^ zlen es) by lia. assert (d = 0) by nia. subst d. cbn [length repeat]. f_equal. apply IH; [exact F2|lia].
Qed.
