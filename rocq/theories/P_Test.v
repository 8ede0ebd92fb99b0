(** P_Test.v -- C125: what a vector of unit tests reports. *)
From Coq Require Import Reals Lra Psatz QArith Qabs Qreals.
From Flocq Require Import Core.
From Verif Require Import Base M_Float M_MathF M_String M_Test S_String S_Integer S_Double S_Test L_String L_Integer L_Float L_Double L_MathF L_Decimal P_MathF P_String P_Integer.
Local Open Scope Z_scope.

(** * the checks *)
Lemma leb_near x y a b : is64 x a -> is64 y b -> SFleb (SFabs (sub64 x y)) RESABS = true -> (Rabs (a - b) < tol + bpow radix2 (-72))%R.
Proof.
  intros X Y H. destruct (sub_case _ _ _ _ X Y) as [S|[_ S]].
  - apply abs_r in S. rewrite (leb_r _ _ _ _ S RESABS_r), abs_r64 in H. apply rnd_lt_inv.
    + replace (tol + bpow radix2 (-72))%R with (IZR 4722366482869646 * bpow radix2 (-72))%R by (unfold tolq, Q2R; cbn; lra). apply fmt_grid; lia.
    + pose proof (bpow_gt_0 radix2 (-72)). destruct (Rle_bool_spec (r64 (Rabs (a - b))) tol); [lra|discriminate H].
  - rewrite S, RESABS_val in H. discriminate H.
Qed.
Lemma near_leb x y a b : is64 x a -> is64 y b -> (Rabs (a - b) <= tol)%R -> SFleb (SFabs (sub64 x y)) RESABS = true.
Proof.
  intros X Y H. assert (T : (0 < tol < 1)%R) by (unfold tolq, Q2R; cbn; lra).
  assert (S : is64 (sub64 x y) (r64 (a - b))). { apply (sub64_r _ _ _ _ 0); [lia|exact X|exact Y|]. cbn. lra. }
  apply abs_r in S. rewrite (leb_r _ _ _ _ S RESABS_r), abs_r64, Rle_bool_true; [reflexivity|]. apply rnd_le_r; [exact tol_fmt|exact H].
Qed.
Lemma finite_dbl x : double x -> (forall q, ~ dbl x q) -> x = S754_nan \/ exists s, x = S754_infinity s.
Proof.
  intros D N. destruct x as [s|s| |s m e]; eauto; exfalso.
  - apply (N 0%Q). split; [exact D|reflexivity].
  - apply (N (inject_Z (if s then Z.neg m else Z.pos m) * q2 e)%Q). split; [exact D|reflexivity].
Qed.
Lemma abs_inf_leb s : SFleb (SFabs (S754_infinity s)) RESABS = false. Proof. now rewrite RESABS_val. Qed.
Lemma sub_wild a e : (a = S754_nan \/ exists s, a = S754_infinity s) \/ (e = S754_nan \/ exists s, e = S754_infinity s) -> sub64 a e = S754_nan \/ exists s, sub64 a e = S754_infinity s.
Proof.
  intros [[->|[s ->]]|[->|[s ->]]]; [auto| | |]; [destruct e as [t|t| |t m e]|destruct a as [t|t| |t m a]|destruct a as [t|t| |t m a]]; cbn; try destruct s; try destruct t; cbn; eauto.
Qed.
Lemma passed_ok k : valid k -> exists b, passed k = Val b /\ verdict k b.
Proof.
  destruct k as [|a e|a e|a e|a e|a e|a e|a e|a e|a e|a e|a e|a e|a e|p|p|b|b]; intros V; cbn [passed verdict valid] in *; try (eexists; split; [reflexivity|]; try apply Z.eqb_eq; try reflexivity; fail).
  - eexists. split; [reflexivity|]. split.
    + intros x y X Y. apply dbl_r in X. apply dbl_r in Y. pose proof tol_lo as T. split; intros H.
      * apply (leb_near _ _ _ _ X Y) in H. apply Rlt_Qlt. q2r. rewrite Q2R_u. lra.
      * apply Qle_Rle in H. q2r. rewrite Q2R_u in H. apply (near_leb _ _ _ _ X Y). lra.
    + intros H. destruct V as [Va Ve]. destruct H as [H|H]; apply finite_dbl in H; auto.
      * destruct (sub_wild a e (or_introl H)) as [->|[s ->]]; [reflexivity|apply abs_inf_leb].
      * destruct (sub_wild a e (or_intror H)) as [->|[s ->]]; [reflexivity|apply abs_inf_leb].
  - eexists. split; [reflexivity|]. destruct V as [A B]. unfold int_in in *. rewrite Z.eqb_eq. change (2 ^ 64) with 18446744073709551616 in *. change (2 ^ 31) with 2147483648 in *. change (- (2147483648)) with (-2147483648) in *. destruct (Z.neg_nonneg_cases e) as [N|N].
    + replace (e mod 18446744073709551616) with (e + 18446744073709551616) by (apply (Z.mod_unique _ _ (-1)); lia). lia.
    + rewrite Z.mod_small by lia. lia.
  - destruct V as (A & B & L). destruct (C53_equalsIgnoreCase e a B A L) as (b & E & H). exists b. split; [exact E|]. rewrite H. split; congruence.
  - destruct V as (A & B & L). destruct (C13_equals e a B A L) as (b & E & H). exists b. split; [exact E|]. rewrite H. split; congruence.
  - eexists. split; [reflexivity|]. destruct (Z.eqb_spec p 0); cbn; split; congruence.
  - eexists. split; [reflexivity|]. destruct b; cbn; split; congruence.
Qed.
(** * the counters *)
Lemma failures_cons b bs : failures (b :: bs) = (if b then 0 else 1) + failures bs.
Proof. unfold failures. cbn [filter]. destruct b; cbn [negb]; [lia|rewrite zlen_cons; lia]. Qed.
Lemma do_checks_ok l : forall c, Forall valid l -> exists bs, Forall2 verdict l bs /\
  do_checks l c = Val (Counts (total_errors c + failures bs) (total_tests c + zlen bs) (errors c + failures bs) (tests c + zlen bs)).
Proof.
  induction l as [|k l IH]; intros c F; cbn [do_checks].
  - exists []. split; [constructor|]. unfold failures. cbn. change (zlen (@nil bool)) with 0. rewrite !Z.add_0_r. now destruct c.
  - inversion F as [|? ? Vk Fl]; subst. destruct (passed_ok k Vk) as (b & E & V). unfold do_check. rewrite E. cbn [bind].
    destruct (IH (if b then Counts (total_errors c) (total_tests c + 1) (errors c) (tests c + 1) else Counts (total_errors c + 1) (total_tests c + 1) (errors c + 1) (tests c + 1)) Fl) as (bs & F2 & E2).
    exists (b :: bs). split; [constructor; assumption|]. rewrite E2, failures_cons, zlen_cons. destruct b; cbn [total_errors total_tests errors tests]; f_equal; f_equal; lia.
Qed.
Lemma testrun_ok t c : runnable t -> errors c = 0 -> tests c = 0 -> exists n e, report_of t n e /\
  testrun (Some t) c = Val (Counts (total_errors c + e) (total_tests c + n) 0 0, [(n, e)], false).
Proof.
  intros [F N] E0 T0. destruct (do_checks_ok (checks t) c F) as (bs & V & E). unfold testrun. rewrite E, E0, T0. cbn [bind]. destruct (ends t) eqn:En; [| |congruence].
  - exists (zlen bs), (failures bs). split; [exists bs; rewrite En; split; [exact V|lia]|]. reflexivity.
  - exists (zlen bs + 1), (failures bs + 1). split; [exists bs; rewrite En; split; [exact V|lia]|]. cbn. rewrite !Z.add_assoc. reflexivity.
Qed.
Fixpoint sel (single a : Z) (l : list (option test)) : list (option test) :=
  match l with [] => [] | t :: l => (if (single <? 0) || (single =? a) then [t] else []) ++ sel single (a + 1) l end.
Lemma run_all_ok single l : forall a c, Forall runnable (real l) -> errors c = 0 -> tests c = 0 -> exists r,
  Forall2 (fun t '(n, e) => report_of t n e) (real (sel single a l)) r /\
  run_all single a l c = Val (Counts (total_errors c + sum (map snd r)) (total_tests c + sum (map fst r)) 0 0, r, false).
Proof.
  induction l as [|t l IH]; intros a c F E0 T0; cbn [run_all sel].
  - exists []. split; [constructor|]. cbn. rewrite !Z.add_0_r. destruct c; cbn in *. now subst.
  - assert (Fl : Forall runnable (real l)) by (destruct t; cbn in F; [now inversion F|exact F]). destruct ((single <? 0) || (single =? a)); cbn [app]; [|now apply IH].
    destruct t as [t|].
    + cbn [real] in *. assert (Rt : runnable t) by now inversion F. destruct (testrun_ok t c Rt E0 T0) as (n & e & R & E). rewrite E. cbn [bind].
      destruct (IH (a + 1) (Counts (total_errors c + e) (total_tests c + n) 0 0) Fl eq_refl eq_refl) as (r & R2 & E2). exists ((n, e) :: r). split; [constructor; assumption|]. rewrite E2. cbn. now rewrite !Z.add_assoc.
    + cbn [testrun bind real]. destruct (IH (a + 1) c Fl E0 T0) as (r & R2 & E2). exists r. split; [exact R2|]. rewrite E2. reflexivity.
Qed.
Lemma sel_all single l : single < 0 -> forall a, sel single a l = l.
Proof. intros H. induction l as [|t l IH]; intros a; cbn; [reflexivity|]. replace (single <? 0) with true by lia. cbn. now rewrite IH. Qed.
Lemma sel_one single l : 0 <= single -> forall a, sel single a l = match lget l (single - a) with Some x => [x] | None => [] end.
Proof.
  intros H. induction l as [|t l IH]; intros a; cbn [sel].
  - unfold lget. destruct (single - a <? 0); [reflexivity|]. now destruct (Z.to_nat (single - a)).
  - rewrite IH. replace (single <? 0) with false by lia. cbn [orb]. destruct (Z.eqb_spec single a) as [->|N].
    + replace (a - a) with 0 by lia. replace (a - (a + 1)) with (-1) by lia. reflexivity.
    + unfold lget. destruct (Z.ltb_spec (single - a) 0) as [L|L]; [now replace (single - (a + 1) <? 0) with true by lia|]. replace (single - (a + 1) <? 0) with false by lia. cbn [app]. replace (Z.to_nat (single - a)) with (S (Z.to_nat (single - (a + 1)))) by lia. reflexivity.
Qed.
(** * the argument *)
Lemma to_int_total s t : repr s t -> forall t2 t1 val neg k, t = t1 ++ t2 -> k = length t2 -> 0 <= val -> zlen t1 + zlen t2 <= 18 -> val < 10 ^ zlen t1 -> exists r, to_int_loop s val neg (zlen t1) k = r /\ (r = Exn \/ exists v n, r = Val (v, n) /\ 0 <= v < 10 ^ 18).
Proof.
  intros H. induction t2 as [|c t2 IH]; intros t1 val neg k Et Hk Hv Hl Hb; subst k; cbn [length to_int_loop].
  - eexists. split; [reflexivity|]. right. exists val, neg. split; [reflexivity|]. split; [exact Hv|]. apply Z.lt_le_trans with (1 := Hb). apply Z.pow_le_mono_r; [lia|]. rewrite zlen_nil in Hl. lia.
  - rewrite (char_at_ok s _ _ H), Et, lget_mid. cbn [bind]. rewrite zlen_cons in Hl. pose proof (zlen_nonneg t2) as P2. pose proof (zlen_nonneg t1) as P1.
    assert (Et2 : t = (t1 ++ [c]) ++ t2) by (now rewrite <- app_assoc). assert (L1 : zlen (t1 ++ [c]) = zlen t1 + 1) by (now rewrite zlen_app).
    destruct (is_digit c) eqn:D.
    + unfold is_digit in D. unfold digit_value, is_digit. rewrite D. assert (B17 : 10 ^ zlen t1 <= 10 ^ 17) by (apply Z.pow_le_mono_r; lia). change (10 ^ 17) with 100000000000000000 in B17.
      unfold chk64, in_s64. replace ((-9223372036854775808 <=? val * 10) && (val * 10 <=? 9223372036854775807)) with true by lia. cbn [bind].
      replace ((-9223372036854775808 <=? val * 10 + (c - 48)) && (val * 10 + (c - 48) <=? 9223372036854775807)) with true by lia. cbn [bind].
      rewrite <- L1. apply IH; auto; [lia|rewrite L1; lia|]. rewrite L1, Z.pow_add_r by lia. change (10 ^ 1) with 10. lia.
    + destruct (c =? 45); [|eauto]. rewrite <- L1. apply IH; auto; [rewrite L1; lia|]. rewrite L1, Z.pow_add_r by lia. change (10 ^ 1) with 10. lia.
Qed.
Lemma filter_le {A} (f : A -> bool) l : (length (filter f l) <= length l)%nat. Proof. induction l as [|x l IH]; cbn; [lia|destruct (f x); cbn; lia]. Qed.
Lemma arg_ok s : sound s -> zlen (text s) <= 18 ->
  (if len s >? 0 then match to_int s with Exn => Val (-1) | o => o end else Val (-1)) = Val (match argument (text s) with Some n => n | None => -1 end).
Proof.
  intros Ss L. apply sound_repr in Ss as H. assert (Ln : len s = zlen (text s)) by (destruct H as (j & _ & E); exact E). unfold argument. rewrite Ln. destruct (zlen (text s) >? 0) eqn:Z0; [|reflexivity]. cbn [andb].
  destruct (to_int_total s _ H (text s) [] 0 false (length (text s)) eq_refl eq_refl ltac:(lia) ltac:(rewrite zlen_nil; lia) ltac:(cbn; lia)) as (r & E & R). change (zlen (@nil Z)) with 0 in E.
  assert (Fa : forallb (fun c => ((48 <=? c) && (c <=? 57)) || (c =? 45)) (text s) = true <-> Forall (fun c => 48 <= c <= 57 \/ c = 45) (text s)).
  { rewrite forallb_forall, Forall_forall. split; intros F c Hc; specialize (F c Hc); lia. }
  assert (Et : to_int s = let* (v, neg) := r in if neg then chk64 (v * -1) else Val v) by (unfold to_int; rewrite Ln, <- length_zlen; now rewrite E).
  destruct (C16_toInt s Ss) as [C1 C2]. destruct (forallb _ (text s)) eqn:Fb.
  - pose proof (proj1 Fa eq_refl) as F. rewrite C1 by (try exact F; clear - L F;
      assert (K : forall ds v, Forall (fun d => 0 <= d <= 9) ds -> 0 <= v -> fold_left (fun a d => 10 * a + d) ds v < (v + 1) * 10 ^ zlen ds) by
        (induction ds as [|d ds IH]; intros v Fd Hv; [change (zlen (@nil Z)) with 0; cbn; lia|]; inversion Fd; subst; cbn [fold_left]; rewrite zlen_cons; pose proof (zlen_nonneg ds); specialize (IH (10 * v + d) H2 ltac:(lia)); replace (1 + zlen ds) with (zlen ds + 1) by lia; rewrite Z.pow_add_r by lia; change (10 ^ 1) with 10; assert (0 < 10 ^ zlen ds) by (apply Z.pow_pos_nonneg; lia); nia);
      set (ds := map (fun c => c - 48) (filter (fun c => (48 <=? c) && (c <=? 57)) (text s))); assert (Fd : Forall (fun d => 0 <= d <= 9) ds) by (apply Forall_forall; intros d Hd; apply in_map_iff in Hd; destruct Hd as (c & <- & Hc); apply filter_In in Hc; lia);
      assert (Ld : zlen ds <= 18) by (subst ds; rewrite zlen_map; unfold zlen in *; pose proof (filter_le (fun c => (48 <=? c) && (c <=? 57)) (text s)); lia);
      specialize (K ds 0 Fd ltac:(lia)); unfold pos_value; pose proof (Z.pow_le_mono_r 10 (zlen ds) 18 ltac:(lia) Ld) as P; change (10 ^ 18) with 1000000000000000000 in P; change (2 ^ 63) with 9223372036854775808; lia).
    reflexivity.
  - assert (NF : ~ Forall (fun c => 48 <= c <= 57 \/ c = 45) (text s)) by (intros F; apply Fa in F; discriminate). specialize (C2 NF). destruct R as [->|(v & n & -> & B)]; [rewrite Et; reflexivity|]. exfalso. cbn in Et. destruct n; [|exact (C2 _ Et)].
    unfold chk64, in_s64 in Et. change (10 ^ 18) with 1000000000000000000 in B. replace ((-9223372036854775808 <=? v * -1) && (v * -1 <=? 9223372036854775807)) with true in Et by lia. exact (C2 _ Et).
Qed.

(** * C125 *)
(** the chosen tests are run one after the other; each is reported with its own numbers, execute() answers the sum of the errors, and the counters are ready for the
    next execution *)
Theorem C125_execute : forall arg l c, sound arg -> zlen (text arg) <= 18 -> Forall runnable (real l) -> errors c = 0 -> tests c = 0 ->
  exists c' r, execute arg l c = Val (c', r, Some (sum (map snd r))) /\ Forall2 (fun t '(n, e) => report_of t n e) (real (chosen (text arg) l)) r /\
    total_errors c' = sum (map snd r) /\ total_tests c' = sum (map fst r) /\ errors c' = 0 /\ tests c' = 0.
Proof.
  intros arg l c Sa La F E0 T0. unfold execute. rewrite (arg_ok arg Sa La). cbn [bind]. set (single := match argument (text arg) with Some n => n | None => -1 end).
  destruct (run_all_ok single l 0 (Counts 0 0 (errors c) (tests c)) F E0 T0) as (r & R & E). rewrite E. cbn [bind total_errors total_tests]. rewrite !Z.add_0_l. eexists _, r. split; [reflexivity|]. split; [|cbn; auto].
  assert (Es : sel single 0 l = chosen (text arg) l); [|rewrite <- Es; exact R]. unfold chosen. subst single. destruct (argument (text arg)) as [n|]; [|now apply sel_all]. destruct (Z.ltb_spec n 0) as [N|N]; [now apply sel_all|]. rewrite sel_one by exact N. now rewrite Z.sub_0_r.
Qed.
(** no error, exactly if every chosen test returns and all its checks succeed *)
Theorem C125_success : forall arg l c, sound arg -> zlen (text arg) <= 18 -> Forall runnable (real l) -> errors c = 0 -> tests c = 0 ->
  exists c' r n, execute arg l c = Val (c', r, Some n) /\ 0 <= n /\
    (n = 0 -> Forall (fun t => ends t = Returns /\ Forall (fun k => verdict k true) (checks t)) (real (chosen (text arg) l))) /\
    (n <> 0 -> Exists (fun t => ends t = Throws \/ Exists (fun k => verdict k false) (checks t)) (real (chosen (text arg) l))).
Proof.
  intros arg l c Sa La F E0 T0. destruct (C125_execute arg l c Sa La F E0 T0) as (c' & r & E & R & _). exists c', r, (sum (map snd r)). split; [exact E|].
  assert (Fc : Forall runnable (real (chosen (text arg) l))).
  { unfold chosen. destruct (argument (text arg)) as [m|]; [|exact F]. destruct (m <? 0); [exact F|]. destruct (lget l m) as [[t|]|] eqn:G; cbn; constructor; [|constructor]. rewrite Forall_forall in F. apply F. unfold lget in G. destruct (m <? 0); [discriminate|]. apply nth_error_In in G. clear - G. induction l as [|[x|] l IH]; [destruct G| |]; cbn in *; destruct G as [G|G]; try discriminate; [injection G as ->; now left|right; auto|auto]. }
  clear E F E0 T0. assert (Fn : forall bs, 0 <= failures bs) by (intros bs; apply zlen_nonneg).
  induction R as [|t [n e] ts r H R IH]; [split; [cbn; lia|]; split; [constructor|cbn; lia]|]. inversion Fc as [|? ? [_ Nt] Fc']; subst. destruct (IH Fc') as (P & A & B). cbn [map snd sum fold_right]. change (fold_right Z.add 0 (map snd r)) with (sum (map snd r)). destruct H as (bs & V & X). cbv zeta in X. destruct X as [_ X]. pose proof (Fn bs) as Fb.
  assert (Z0 : failures bs = 0 -> Forall (fun k => verdict k true) (checks t)). { clear - V. induction V as [|k b ks bs V1 V IH]; intros Z0; [constructor|]. rewrite failures_cons in Z0. pose proof (zlen_nonneg (filter negb bs)). unfold failures in *. destruct b; [constructor; [exact V1|apply IH; lia]|lia]. }
  assert (N0 : failures bs <> 0 -> Exists (fun k => verdict k false) (checks t)). { clear - V. induction V as [|k b ks bs V1 V IH]; intros Z0; [now cbn in Z0|]. rewrite failures_cons in Z0. destruct b; [right; apply IH; lia|left; exact V1]. }
  destruct (ends t) eqn:En; [| |congruence]; (split; [lia|]); split; intros Hn.
  - constructor; [split; [exact En|apply Z0; lia]|apply A; lia].
  - destruct (Z.eq_dec (failures bs) 0) as [Q|Q]; [right; apply B; lia|left; right; auto].
  - lia.
  - left. left. exact En.
Qed.
(** the number of a test that does not exist: nothing is run, and that is a success *)
Theorem C125_no_such_test_refuted : forall arg l c n, sound arg -> zlen (text arg) <= 18 -> Forall runnable (real l) -> errors c = 0 -> tests c = 0 -> argument (text arg) = Some n -> zlen l <= n ->
  exists c', execute arg l c = Val (c', [], Some 0).
Proof.
  intros arg l c n Sa La F E0 T0 A N. destruct (C125_execute arg l c Sa La F E0 T0) as (c' & r & E & R & _). exists c'. unfold chosen in R. rewrite A in R. pose proof (zlen_nonneg l). replace (n <? 0) with false in R by lia.
  replace (lget l n) with (@None (option test)) in R by (symmetry; unfold lget; replace (n <? 0) with false by lia; apply nth_error_None; unfold zlen in N; lia). inversion R. subst r. exact E.
Qed.
(** unsigned 64 bit against a negative int: every negative number is "equal" to the large number it is converted to *)
Theorem C125_negative_refuted : forall e c, -2 ^ 31 <= e < 0 -> errors c = 0 -> tests c = 0 -> exists c', execute str_new [Some (Test [KU64I32 (e + 2 ^ 64) e] Returns)] c = Val (c', [(1, 0)], Some 0).
Proof.
  intros e c H E0 T0. unfold execute, run_all, testrun, do_checks, do_check. cbn -[Z.modulo Z.pow]. rewrite E0, T0. replace (e mod 2 ^ 64) with (e + 2 ^ 64) by (apply (Z.mod_unique _ _ (-1)); change (2 ^ 64) with 18446744073709551616; change (2 ^ 31) with 2147483648 in H; lia). rewrite Z.eqb_refl. cbn. eexists. reflexivity.
Qed.
(** an infinite value is not equal to itself *)
Theorem C125_infinite_refuted : forall s c, errors c = 0 -> tests c = 0 -> exists c', execute str_new [Some (Test [KDouble (S754_infinity s) (S754_infinity s)] Returns)] c = Val (c', [(1, 1)], Some 1).
Proof.
  intros s c E0 T0. assert (P : passed (KDouble (S754_infinity s) (S754_infinity s)) = Val false) by (unfold passed; replace (sub64 (S754_infinity s) (S754_infinity s)) with S754_nan by (destruct s; reflexivity); reflexivity).
  unfold execute, run_all, testrun, checks, do_checks, do_check. rewrite P. cbn. rewrite E0, T0. eexists. reflexivity.
Qed.
(** an exception of another class leaves execute(); what it has counted is added to the report of the next test that is run, so that a test with one successful check is
    reported with as many checks and errors more *)
Theorem C125_foreign_exception_refuted : forall ks c, Forall valid ks -> errors c = 0 -> tests c = 0 -> exists c1 bs, Forall2 verdict ks bs /\ execute str_new [Some (Test ks ThrowsOther)] c = Val (c1, [], None) /\
  exists c2, execute str_new [Some (Test [KTrue true] Returns)] c1 = Val (c2, [(zlen ks + 1, failures bs)], Some 0).
Proof.
  intros ks c F E0 T0. destruct (do_checks_ok ks (Counts 0 0 0 0) F) as (bs & V & E). eexists _, bs. split; [exact V|]. split.
  - unfold execute. cbn [len str_new]. cbn [Z.gtb Z.compare bind run_all Z.ltb Z.opp orb testrun checks ends]. rewrite E0, T0, E. cbn. reflexivity.
  - unfold execute. cbn. eexists. repeat f_equal. assert (L : zlen bs = zlen ks) by (unfold zlen; f_equal; clear - V; induction V; cbn; congruence). rewrite L. reflexivity.
Qed.
Example C125_ex : let l := [Some (Test [KTrue true; KU64 3 4; KDouble (lit 1 10) (lit 1000000001 10000000000)] Throws); None; Some (Test [KString (str_of [97]) (str_of [98])] Returns)] in
  (exists c, execute str_new l (Counts 9 9 0 0) = Val (c, [(4, 2); (1, 1)], Some 3)) /\ (exists c, execute (str_of [50]) l (Counts 9 9 0 0) = Val (c, [(1, 1)], Some 1)) /\ argument [50] = Some 2 /\ argument [97] = None.
Proof. split; [|split; [|split]]; [eexists; vm_compute; reflexivity|eexists; vm_compute; reflexivity|reflexivity|reflexivity]. Qed.
Print Assumptions C125_execute.
Print Assumptions C125_success.
Print Assumptions C125_no_such_test_refuted.
Print Assumptions C125_negative_refuted.
Print Assumptions C125_infinite_refuted.
Print Assumptions C125_foreign_exception_refuted.
