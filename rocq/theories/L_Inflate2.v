(** L_Inflate2.v -- Inflater: the codes of huffmanCodes are the canonical ones *)
From Verif Require Import Base M_Inflate S_Inflate L_Inflate.
Ltac Zify.zify_post_hook ::= Z.to_euclidean_division_equations.
(** number of symbols of length b; value of the first code of length b *)
Definition cnt (l : list Z) (b : Z) : Z := zlen (filter (Z.eqb b) l).
Definition nc1 (b x : Z) : Z := if (0 <? x) && (x <? b) then 2 ^ (b - x) else 0.
Definition nc (l : list Z) (b : Z) : Z := sum (map (nc1 b) l).
Lemma sum_app a b : sum (a ++ b) = sum a + sum b. Proof. unfold sum. induction a as [|x a IH]; cbn [app fold_right]; lia. Qed.
Lemma sum_cons x l : sum (x :: l) = x + sum l. Proof. reflexivity. Qed.
Lemma sum_nonneg l : Forall (fun x => 0 <= x) l -> 0 <= sum l. Proof. unfold sum. induction 1; cbn [fold_right]; lia. Qed.
Lemma nc_cons x l b : nc (x :: l) b = nc1 b x + nc l b. Proof. reflexivity. Qed.
Lemma nc_app a l b : nc (a ++ l) b = nc a b + nc l b. Proof. unfold nc. now rewrite map_app, sum_app. Qed.
Lemma cnt_cons x l b : cnt (x :: l) b = (if b =? x then 1 else 0) + cnt l b.
Proof. unfold cnt. cbn [filter]. destruct (b =? x); [rewrite zlen_cons|]; lia. Qed.
Lemma cnt_app a l b : cnt (a ++ l) b = cnt a b + cnt l b. Proof. unfold cnt. now rewrite filter_app, zlen_app. Qed.
Lemma cnt_nonneg l b : 0 <= cnt l b. Proof. apply zlen_nonneg. Qed.
Lemma nc1_nonneg b x : 0 <= nc1 b x. Proof. unfold nc1. destruct ((0 <? x) && (x <? b)) eqn:E; [|lia]. apply Z.pow_nonneg. lia. Qed.
Lemma nc_nonneg l b : 0 <= nc l b. Proof. unfold nc. apply sum_nonneg. apply Forall_forall. intros y Hy. apply in_map_iff in Hy as (x & <- & _). apply nc1_nonneg. Qed.
Lemma nc_step l b : 1 <= b -> nc l (b + 1) = 2 * (nc l b + cnt l b).
Proof.
  intros Hb. induction l as [|x l IH]; [reflexivity|]. rewrite !nc_cons, cnt_cons, IH. unfold nc1. destruct (Z.ltb_spec 0 x); cbn [andb]; [|destruct (Z.eqb_spec b x); lia].
  destruct (Z.ltb_spec x (b + 1)), (Z.ltb_spec x b), (Z.eqb_spec b x); try lia.
  - replace (b + 1 - x) with (Z.succ (b - x)) by lia. rewrite Z.pow_succ_r by lia. lia.
  - subst. replace (x + 1 - x) with 1 by lia. change (2 ^ 1) with 2. lia.
Qed.
Lemma nc_1 l : nc l 1 = 0.
Proof. induction l as [|x l IH]; [reflexivity|]. rewrite nc_cons, IH. unfold nc1. destruct (Z.ltb_spec 0 x), (Z.ltb_spec x 1); cbn [andb]; lia. Qed.
Definition kraft (l : list Z) : Z := sum (map (fun l => if 0 <? l then 2 ^ (15 - l) else 0) l).
Lemma kraft_bound l b : 1 <= b <= 15 -> Forall (fun l => 0 <= l <= 15) l -> (nc l b + cnt l b) * 2 ^ (15 - b) <= kraft l.
Proof.
  intros Hb F. induction F as [|x l Hx F IH]; [unfold nc, cnt, kraft; cbn; lia|]. unfold kraft in *. cbn [map]. rewrite sum_cons, nc_cons, cnt_cons. unfold nc1. destruct (Z.ltb_spec 0 x); cbn [andb]; [|destruct (Z.eqb_spec b x); lia].
  assert (0 < 2 ^ (15 - x)) by (apply Z.pow_pos_nonneg; lia). destruct (Z.ltb_spec x b), (Z.eqb_spec b x); try lia; [|subst; lia].
  assert (2 ^ (15 - x) = 2 ^ (b - x) * 2 ^ (15 - b)) by (rewrite <- Z.pow_add_r by lia; f_equal; lia). lia.
Qed.
Lemma kraft_max l m : 1 <= m <= 15 -> Forall (fun l => 0 <= l <= m) l -> (nc l m + cnt l m) * 2 ^ (15 - m) = kraft l.
Proof.
  intros Hm F. induction F as [|x l Hx F IH]; [reflexivity|]. unfold kraft in *. cbn [map]. rewrite sum_cons, nc_cons, cnt_cons, <- IH. unfold nc1. destruct (Z.ltb_spec 0 x); cbn [andb]; [|destruct (Z.eqb_spec m x); lia].
  destruct (Z.ltb_spec x m), (Z.eqb_spec m x); try lia; [|subst; lia].
  assert (2 ^ (15 - x) = 2 ^ (m - x) * 2 ^ (15 - m)) by (rewrite <- Z.pow_add_r by lia; f_equal; lia). lia.
Qed.
(** ** sums over symbols *)
Fixpoint isum (g : Z -> Z -> Z) (i : Z) (l : list Z) : Z := match l with [] => 0 | x :: l => g i x + isum g (i + 1) l end.
Lemma isum_app g a : forall i l, isum g i (a ++ l) = isum g i a + isum g (i + zlen a) l.
Proof. induction a as [|x a IH]; intros i l; cbn [app isum]; [rewrite Z.add_0_r; reflexivity|]. rewrite IH, zlen_cons. replace (i + 1 + zlen a) with (i + (1 + zlen a)) by lia. lia. Qed.
Lemma len_of_app_l a l m : m < zlen a -> len_of (a ++ l) m = len_of a m. Proof. intros H. unfold len_of. now rewrite lget_app_l. Qed.
Lemma len_of_mid a x l : len_of (a ++ x :: l) (zlen a) = x. Proof. unfold len_of. now rewrite lget_mid. Qed.
Lemma sum_symbols g l : sum (map (fun m => g m (len_of l m)) (zrange (length l))) = isum g 0 l.
Proof.
  induction l as [|x l IH] using rev_ind; [reflexivity|]. rewrite app_length. cbn [length]. replace (length l + 1)%nat with (S (length l)) by lia. unfold zrange in *. rewrite seq_S, map_app, map_app, sum_app, isum_app. cbn [plus map isum]. rewrite <- IH.
  assert (Z.of_nat (length l) = zlen l) as -> by reflexivity. rewrite len_of_mid. cbn. f_equal. f_equal. rewrite !map_map. apply map_ext_in. intros k Hk. apply in_seq in Hk. rewrite len_of_app_l by (unfold zlen; lia). reflexivity.
Qed.
Lemma isum_before s L l : forall i, i + zlen l <= s -> 0 < L -> isum (fun m x => if (0 <? x) && ((x <? L) || ((x =? L) && (m <? s))) then 2 ^ (L - x) else 0) i l = nc l L + cnt l L.
Proof.
  induction l as [|x l IH]; intros i H HL; [reflexivity|]. rewrite zlen_cons in H. pose proof (zlen_nonneg l). cbn [isum]. rewrite IH by lia. rewrite nc_cons, cnt_cons. unfold nc1. replace (i <? s) with true by lia. rewrite andb_true_r. rewrite (Z.eqb_sym L x).
  destruct (Z.ltb_spec 0 x), (Z.ltb_spec x L), (Z.eqb_spec x L); cbn [andb orb]; try lia. subst. rewrite Z.sub_diag. change (2 ^ 0) with 1. lia.
Qed.
Lemma isum_after s L l : forall i, s <= i -> isum (fun m x => if (0 <? x) && ((x <? L) || ((x =? L) && (m <? s))) then 2 ^ (L - x) else 0) i l = nc l L.
Proof.
  induction l as [|x l IH]; intros i H; [reflexivity|]. cbn [isum]. rewrite IH by lia. rewrite nc_cons. unfold nc1. replace (i <? s) with false by lia. rewrite andb_false_r, orb_false_r. reflexivity.
Qed.
Lemma code_split a L l : 0 < L -> code (a ++ L :: l) (zlen a) = nc (a ++ L :: l) L + cnt a L.
Proof.
  intros HL. unfold code, earlier. rewrite len_of_mid.
  rewrite (sum_symbols (fun m x => if (0 <? x) && ((x <? L) || ((x =? L) && (m <? zlen a))) then 2 ^ (L - x) else 0)). rewrite isum_app, isum_before by lia. cbn [isum]. rewrite isum_after by lia. rewrite nc_app, nc_cons. unfold nc1. rewrite Z.ltb_irrefl, Z.eqb_refl, Z.ltb_irrefl, !andb_false_r. cbn [andb orb]. rewrite ?andb_false_r. lia.
Qed.
(** ** the model *)
Lemma fold_max_ge l : forall a, a <= fold_left Z.max l a /\ forall x, In x l -> x <= fold_left Z.max l a.
Proof. induction l as [|y l IH]; intros a; cbn [fold_left]; [split; [lia|contradiction]|]. destruct (IH (Z.max a y)) as [H1 H2]. split; [lia|]. intros x [<-|I]; [lia|auto]. Qed.
Lemma fold_max_in l : forall a, fold_left Z.max l a = a \/ In (fold_left Z.max l a) l.
Proof. induction l as [|y l IH]; intros a; cbn [fold_left]; [now left|]. destruct (IH (Z.max a y)) as [H|H]; [|right; now right]. rewrite H. destruct (Z.max_spec a y) as [[_ ->]|[_ ->]]; [right; now left|now left]. Qed.
Definition fits (l : list Z) : Prop := Forall (fun x => 0 <= x <= 15) l /\ kraft l <= 2 ^ 15.
Lemma fits_bound l b : fits l -> 1 <= b <= 15 -> nc l b + cnt l b <= 2 ^ b.
Proof.
  intros [F K] Hb. pose proof (kraft_bound l b Hb F) as H. assert (0 < 2 ^ (15 - b)) by (apply Z.pow_pos_nonneg; lia). assert (2 ^ 15 = 2 ^ b * 2 ^ (15 - b)) by (rewrite <- Z.pow_add_r by lia; f_equal; lia). nia.
Qed.
Lemma pow15 b : 0 <= b <= 15 -> 1 <= 2 ^ b <= 32768.
Proof. intros H. split; [assert (0 < 2 ^ b) by (apply Z.pow_pos_nonneg; lia); lia|change 32768 with (2 ^ 15); apply Z.pow_le_mono_r; lia]. Qed.
Lemma bl_count_ok l b : fits l -> 1 <= b <= 15 -> bl_count l b = cnt l b.
Proof. intros F Hb. unfold bl_count. replace (b =? 0) with false by lia. pose proof (fits_bound l b F Hb). pose proof (nc_nonneg l b). pose proof (cnt_nonneg l b). pose proof (pow15 b ltac:(lia)). unfold cnt in *. apply u16_id. lia. Qed.
Lemma next_codes_ok l : fits l -> forall k b c, 1 <= b -> b + Z.of_nat k <= 16 -> (b = 1 /\ c = 0) \/ (1 < b /\ c = nc l (b - 1)) -> next_codes l c b k = map (fun i => nc l (b + Z.of_nat i)) (seq 0 k).
Proof.
  intros F. induction k as [|k IH]; intros b c Hb Hk C; [reflexivity|]. cbn [next_codes].
  assert (E : u16 (Z.shiftl (c + bl_count l (b - 1)) 1) = nc l b).
  { rewrite Z.shiftl_mul_pow2 by lia. change (2 ^ 1) with 2. destruct C as [[-> ->]|[H1 ->]]; [change (bl_count l (1 - 1)) with 0; rewrite nc_1; reflexivity|].
    rewrite bl_count_ok by (auto; lia). pose proof (fits_bound l (b - 1) F ltac:(lia)). assert (2 ^ (b - 1) <= 2 ^ 14) by (apply Z.pow_le_mono_r; lia). change (2 ^ 14) with 16384 in *. pose proof (nc_nonneg l (b - 1)). pose proof (cnt_nonneg l (b - 1)). rewrite u16_id by lia. pose proof (nc_step l (b - 1) ltac:(lia)) as S. replace (b - 1 + 1) with b in S by lia. lia. }
  rewrite E. cbn [seq map]. rewrite Z.add_0_r. f_equal. rewrite (IH (b + 1)) by (first [lia|right; split; [lia|now replace (b + 1 - 1) with b by lia]]). rewrite <- seq_shift, map_map. apply map_ext. intros i. f_equal. lia.
Qed.
(** the codes, symbol by symbol *)
Fixpoint codes_from (all pre l : list Z) : list Z := match l with [] => [] | x :: l => (if x =? 0 then 0 else nc all x + cnt pre x) :: codes_from all (pre ++ [x]) l end.
Lemma assign_ok all m : fits all -> forall l pre next, all = pre ++ l -> Forall (fun x => x <= m) l -> m <= 15 -> zlen next = m + 1 -> (forall b, 1 <= b <= m -> lget next b = Some (nc all b + cnt pre b)) ->
  assign_codes next l = Val (codes_from all pre l).
Proof.
  intros F. induction l as [|x l IH]; intros pre next E Fl Hm Zn G; [reflexivity|]. apply Forall_cons_iff in Fl as [Hx Fl]. cbn [assign_codes codes_from].
  assert (Rx : 0 <= x <= 15) by (destruct F as [F _]; rewrite Forall_forall in F; apply F; rewrite E; apply in_or_app; right; now left).
  assert (E' : all = (pre ++ [x]) ++ l) by (rewrite <- app_assoc; exact E).
  destruct (Z.eqb_spec x 0) as [->|N].
  - rewrite (IH (pre ++ [0]) next); auto. intros b Hb. rewrite (G b Hb), cnt_app, cnt_cons. change (cnt [] b) with 0. replace (b =? 0) with false by lia. f_equal. lia.
  - unfold rd. rewrite (G x) by lia. cbn [bind]. unfold wr. destruct (lset_range next x (u16 (nc all x + cnt pre x + 1))) as (n' & En); [lia|]. rewrite En. cbn [bind].
    assert (Bd : nc all x + cnt pre x + 1 <= 2 ^ x). { pose proof (fits_bound all x F ltac:(lia)) as B. rewrite E, cnt_app, cnt_cons, Z.eqb_refl in B. rewrite <- E in B. pose proof (cnt_nonneg l x). lia. }
    pose proof (pow15 x ltac:(lia)). pose proof (nc_nonneg all x). pose proof (cnt_nonneg pre x).
    rewrite (IH (pre ++ [x]) n'); auto.
    + rewrite (lset_zlen _ _ _ _ En). exact Zn.
    + intros b Hb. rewrite (lset_get _ _ _ _ b En). rewrite cnt_app, cnt_cons. change (cnt [] b) with 0. destruct (Z.eqb_spec b x) as [->|Nb].
      * rewrite u16_id by lia. f_equal. lia.
      * rewrite (G b Hb). f_equal. lia.
Qed.
Lemma huffman_codes_ok l : fits l -> huffman_codes l = Val (codes_from l [] l).
Proof.
  intros F. unfold huffman_codes. set (m := max_bits l). assert (Hm : 0 <= m <= 15 /\ Forall (fun x => x <= m) l).
  { unfold m, max_bits. destruct (fold_max_ge l 0) as [A B]. split; [|apply Forall_forall; exact B]. split; [exact A|]. destruct (fold_max_in l 0) as [->|I]; [lia|]. destruct F as [F _]. rewrite Forall_forall in F. apply F in I. lia. }
  destruct Hm as [Hm Fm]. rewrite (next_codes_ok l F) by (try lia; now left). apply (assign_ok l m); auto; try lia.
  - rewrite zlen_cons, zlen_map. unfold zlen. rewrite seq_length. lia.
  - intros b Hb. rewrite lget_cons_S by lia. rewrite lget_map. unfold lget. destruct (Z.ltb_spec (b - 1) 0); [lia|]. rewrite (nth_error_nth' _ 0%nat) by (rewrite seq_length; lia). rewrite seq_nth by lia. cbn [option_map]. unfold cnt. cbn [filter]. rewrite zlen_nil, Z.add_0_r. do 2 f_equal. lia.
Qed.
Lemma code_ok_fits l : code_ok l -> fits l.
Proof.
  intros [F C]. split; [exact F|]. destruct C as [C|(s & S1 & S0)]; [unfold complete in C; unfold kraft; lia|].
  assert (K : forall l a, Forall (fun x => 0 <= x <= 15) l -> (forall m, a + m <> s -> len_of l m = 0) -> (forall m, a + m = s -> len_of l m <= 1) -> kraft l <= if a <=? s then 2 ^ 14 else 0).
  { clear. induction l as [|x l IH]; intros a F H0 H1; [unfold kraft; cbn; destruct (a <=? s); lia|]. apply Forall_cons_iff in F as [Fx F]. unfold kraft. cbn [map]. rewrite sum_cons. fold (kraft l).
    assert (T : forall m, 0 <= m -> len_of l m = len_of (x :: l) (m + 1)) by (intros m Hm; unfold len_of; rewrite lget_cons_S by lia; now replace (m + 1 - 1) with m by lia). assert (Ng : forall m, m < 0 -> len_of l m = 0) by (intros m Hm; unfold len_of; now rewrite lget_out by lia).
    assert (IHk : kraft l <= if a + 1 <=? s then 2 ^ 14 else 0).
    { apply IH; auto.
      - intros m Hm. destruct (Z.ltb_spec m 0); [auto|]. rewrite T by lia. apply H0. lia.
      - intros m Hm. destruct (Z.ltb_spec m 0); [rewrite Ng by lia; lia|]. rewrite T by lia. apply H1. lia. }
    destruct (Z.eq_dec a s) as [->|Na].
    - replace (s + 1 <=? s) with false in IHk by lia. replace (s <=? s) with true by lia. specialize (H1 0 ltac:(lia)). change (len_of (x :: l) 0) with x in H1. assert (x = 0 \/ x = 1) as [-> | ->] by lia; cbn [Z.ltb Z.compare]; change (15 - 1) with 14; lia.
    - specialize (H0 0 ltac:(lia)). change (len_of (x :: l) 0) with x in H0. subst x. cbn [Z.ltb Z.compare]. destruct (Z.leb_spec a s), (Z.leb_spec (a + 1) s); lia. }
  specialize (K l 0 F). assert (kraft l <= if 0 <=? s then 2 ^ 14 else 0) as B by (apply K; intros m Hm; [apply S0; lia|replace m with s by lia; lia]). change (2 ^ 15) with 32768. change (2 ^ 14) with 16384 in B. destruct (0 <=? s); lia.
Qed.
