(** L_Inflate4.v -- Inflater: createTree builds the tree of a complete code *)
From Verif Require Import Base M_Inflate S_Inflate L_Inflate L_Inflate2 L_Inflate3.
Ltac Zify.zify_post_hook ::= Z.to_euclidean_division_equations.
Fixpoint zseq (a : Z) (n : nat) : list Z := match n with O => [] | S n => a :: zseq (a + 1) n end.
Lemma zseq_app n : forall a k, zseq a (n + k) = zseq a n ++ zseq (a + Z.of_nat n) k.
Proof. induction n as [|n IH]; intros a k; cbn [plus zseq app]; [now rewrite Z.add_0_r|]. rewrite IH. do 3 f_equal. lia. Qed.
Lemma zseq_len n : forall a, length (zseq a n) = n. Proof. induction n; intros a; cbn [zseq length]; auto. Qed.
(** ** the leaves *)
Definition leaf (s l c : Z) : htree := HT Nil Nil s l c.
Lemma leaves_in all l : forall pre a u x v, l = u ++ x :: v -> x <> 0 -> In (leaf (a + zlen u) x (nc all x + cnt (pre ++ u) x)) (leaves l (codes_from all pre l) a).
Proof.
  induction l as [|y l IH]; intros pre a u x v E N; [destruct u; discriminate|]. destruct u as [|z u]; cbn [app] in E; injection E as -> E; cbn [codes_from leaves].
  - replace (x =? 0) with false by lia. cbn [negb]. left. change (zlen []) with 0. rewrite Z.add_0_r, app_nil_r. reflexivity.
  - rewrite zlen_cons. replace (a + (1 + zlen u)) with (a + 1 + zlen u) by lia. replace (pre ++ z :: u) with ((pre ++ [z]) ++ u) by (rewrite <- app_assoc; reflexivity). destruct (negb (z =? 0)); [right|]; eapply IH; eauto.
Qed.
Lemma leaves_all all l : forall pre a, Forall (fun t => exists s x c, t = leaf s x c /\ In x l /\ x <> 0) (leaves l (codes_from all pre l) a).
Proof.
  induction l as [|y l IH]; intros pre a; cbn [codes_from leaves]; [constructor|].
  assert (T : Forall (fun t => exists s x c, t = leaf s x c /\ In x (y :: l) /\ x <> 0) (leaves l (codes_from all (pre ++ [y]) l) (a + 1))) by (eapply Forall_impl; [|apply IH]; intros t (s & x & c & E & I & N); exists s, x, c; split; [exact E|]; split; [now right|exact N]).
  destruct (Z.eqb_spec y 0); cbn [negb]; [exact T|]. constructor; [|exact T]. exists a, y, (nc all y + cnt pre y). split; [reflexivity|]. split; [now left|assumption].
Qed.
Lemma leaves_codes all b l : 1 <= b -> forall pre a, map hcode (filter (fun t => hlen t =? b) (leaves l (codes_from all pre l) a)) = zseq (nc all b + cnt pre b) (Z.to_nat (cnt l b)).
Proof.
  intros Hb. induction l as [|y l IH]; intros pre a; cbn [codes_from leaves]; [reflexivity|]. rewrite cnt_cons. pose proof (cnt_nonneg l b).
  specialize (IH (pre ++ [y]) (a + 1)). rewrite cnt_app, cnt_cons in IH. change (cnt [] b) with 0 in IH.
  destruct (Z.eqb_spec y 0) as [->|N]; cbn [negb]; [replace (b =? 0) with false in * by lia; rewrite IH; f_equal; lia|]. cbn [filter hlen]. rewrite (Z.eqb_sym y b). destruct (Z.eqb_spec b y) as [->|Ny].
  - rewrite ?Z.eqb_refl in IH. cbn [map hcode]. rewrite IH. replace (Z.to_nat (1 + cnt l y)) with (S (Z.to_nat (cnt l y))) by lia. cbn [zseq]. f_equal. f_equal. lia.
  - replace (b =? y) with false in IH by lia. rewrite IH. f_equal; lia.
Qed.
(** ** one level *)
Lemma sort_pass_id k : forall l a n, map hcode l = zseq a n -> sort_pass l k = l.
Proof.
  induction k as [|k IH]; intros l a n E; [destruct l; reflexivity|]. destruct l as [|x [|y r]]; try reflexivity. cbn [sort_pass]. destruct n as [|[|n]]; cbn [map zseq] in E; try discriminate. injection E as E1 E2 E3. replace (hcode x >? hcode y) with false by lia. f_equal. apply (IH _ (a + 1) (S n)). cbn [map zseq]. now rewrite E2, E3.
Qed.
Lemma sort_nodes_id k : forall l a n, map hcode l = zseq a n -> sort_nodes l k = l.
Proof. induction k as [|k IH]; intros l a n E; [reflexivity|]. cbn [sort_nodes]. destruct k; [reflexivity|]. rewrite (sort_pass_id _ _ _ _ E). eapply IH. exact E. Qed.
Lemma duplicates_no l : forall a n, map hcode l = zseq a n -> duplicates l = false.
Proof.
  induction l as [|x l IH]; intros a n E; [reflexivity|]. destruct n as [|n]; [discriminate|]. cbn [map zseq] in E. injection E as E1 E2. destruct l as [|y r]; [reflexivity|]. change (duplicates (x :: y :: r)) with ((hcode x =? hcode y) || duplicates (y :: r)). rewrite (IH _ _ E2). destruct n as [|n]; [discriminate|]. cbn [map zseq] in E2. injection E2 as E2 _. replace (hcode x =? hcode y) with false by lia. reflexivity.
Qed.
Definition at_len (b : Z) (t : htree) : Prop := t <> Nil /\ good t /\ hlen t = b.
Lemma pair_ok b k : 1 <= b <= 15 -> forall l a n, 0 <= a -> a mod 2 = 0 -> map hcode l = zseq a (2 * k) -> Forall (at_len b) l -> (k <= n)%nat ->
  map hcode (pair n l) = zseq (a / 2) k /\ Forall (at_len (b - 1)) (pair n l) /\ forall x, In x (flat_map flatten l) -> In x (flat_map flatten (pair n l)).
Proof.
  intros Hb. induction k as [|k IH]; intros l a n Ha Ev E F Hn.
  - destruct l; [|discriminate]. destruct n; cbn; auto.
  - replace (2 * S k)%nat with (S (S (2 * k))) in E by lia. destruct l as [|x [|y r]]; cbn [map zseq] in E; try discriminate. injection E as E1 E2 E3. destruct n as [|n]; [lia|]. apply Forall_cons_iff in F as [Fx F]. apply Forall_cons_iff in F as [Fy F]. cbn [pair].
    unfold tmp. rewrite !Z.shiftr_div_pow2 by lia. change (2 ^ 1) with 2. rewrite E1, E2. replace ((a + 1) / 2) with (a / 2) by lia. rewrite Z.eqb_refl.
    destruct (IH r (a + 1 + 1) n ltac:(lia) ltac:(lia) E3 F ltac:(lia)) as (M & G & I). destruct Fx as (Nx & Gx & Lx). destruct Fy as (Ny & Gy & Ly).
    split; [|split].
    + cbn [map hcode zseq]. rewrite M. f_equal. f_equal. lia.
    + constructor; [|exact G]. split; [discriminate|]. cbn [good hlen]. rewrite Lx, Ly, E1, E2, u16_id by lia. split; [|lia]. split; [exact Gx|]. split; [exact Gy|]. split; right; lia.
    + intros z Hz. cbn [flat_map] in *. apply in_or_app. assert (Fl : flatten (HT x y 0 (u16 (hlen x - 1)) (a / 2)) = flatten x ++ flatten y) by (apply flatten_node; destruct x, y; try contradiction; reflexivity). rewrite Fl.
      apply in_app_or in Hz as [Hz|Hz]; [left; apply in_or_app; now left|]. apply in_app_or in Hz as [Hz|Hz]; [left; apply in_or_app; now right|right; auto].
Qed.
Lemma filter_filter {A} (f g : A -> bool) l : filter f (filter g l) = filter (fun x => g x && f x) l.
Proof. induction l as [|x l IH]; [reflexivity|]. cbn [filter]. destruct (g x) eqn:G; cbn [filter andb]; rewrite IH; reflexivity. Qed.
Lemma filter_none {A} (f : A -> bool) l : (forall x, In x l -> f x = false) -> filter f l = [].
Proof. induction l as [|x l IH]; intros H; [reflexivity|]. cbn [filter]. rewrite H by now left. apply IH. intros y I. apply H. now right. Qed.
Lemma filter_all {A} (f : A -> bool) l : (forall x, In x l -> f x = true) -> filter f l = l.
Proof. induction l as [|x l IH]; intros H; [reflexivity|]. cbn [filter]. rewrite H by now left. f_equal. apply IH. intros y I. apply H. now right. Qed.
Section Levels.
Context (all : list Z) (F : fits all).
Let LV := leaves all (codes_from all [] all) 0.
Lemma LV_leaf t : In t LV -> exists s x c, t = leaf s x c /\ In x all /\ 1 <= x <= 15.
Proof. intros I. pose proof (leaves_all all all [] 0) as H. rewrite Forall_forall in H. destruct (H t I) as (s & x & c & E & Ix & N). exists s, x, c. split; [exact E|]. split; [exact Ix|]. destruct F as [F0 _]. rewrite Forall_forall in F0. apply F0 in Ix. lia. Qed.
(** the list of nodes before level b *)
Definition inv (b : Z) (nodes : list htree) : Prop :=
  exists ints, nodes = filter (fun t => hlen t <=? b) LV ++ ints /\ Forall (at_len b) ints /\ map hcode ints = zseq (nc all b + cnt all b) (Z.to_nat (2 ^ b - nc all b - cnt all b)) /\ nc all b < 2 ^ b.
Lemma level_ok b nodes : 1 <= b <= 15 -> inv b nodes -> exists ints, level nodes b = Val (filter (fun t => hlen t <=? b - 1) LV ++ ints) /\ Forall (at_len (b - 1)) ints /\ map hcode ints = zseq (nc all b / 2) (Z.to_nat ((2 ^ b - nc all b) / 2)) /\
  (forall x, In x (flat_map flatten nodes) -> In x (flat_map flatten (filter (fun t => hlen t <=? b - 1) LV ++ ints))).
Proof.
  intros Hb (ints & En & Fi & Ci & Lt). pose proof (fits_bound all b F Hb) as Bd. pose proof (nc_nonneg all b). pose proof (cnt_nonneg all b).
  assert (Hi : forall t, In t ints -> hlen t = b) by (intros t I; rewrite Forall_forall in Fi; apply Fi in I as (_ & _ & I); exact I).
  assert (E1 : filter (fun t => hlen t =? b) nodes = filter (fun t => hlen t =? b) LV ++ ints).
  { rewrite En, filter_app, filter_filter. f_equal; [apply filter_ext; intros t; destruct (Z.eqb_spec (hlen t) b); [replace (hlen t <=? b) with true by lia; reflexivity|apply andb_false_r]|]. apply filter_all. intros t I. apply Hi in I. lia. }
  assert (E2 : filter (fun t => negb (hlen t =? b)) nodes = filter (fun t => hlen t <=? b - 1) LV).
  { rewrite En, filter_app, filter_filter. rewrite (filter_none _ ints) by (intros t I; apply Hi in I; lia). rewrite app_nil_r. apply filter_ext. intros t. destruct (Z.leb_spec (hlen t) b), (Z.eqb_spec (hlen t) b), (Z.leb_spec (hlen t) (b - 1)); cbn; lia. }
  unfold level. replace (b <? 0) with false by lia. rewrite E1, E2. set (focus := filter (fun t => hlen t =? b) LV ++ ints).
  assert (Cf : map hcode focus = zseq (nc all b) (Z.to_nat (2 ^ b - nc all b))).
  { unfold focus. rewrite map_app, Ci. unfold LV. rewrite leaves_codes by lia. change (cnt [] b) with 0. rewrite Z.add_0_r. replace (Z.to_nat (2 ^ b - nc all b)) with (Z.to_nat (cnt all b) + Z.to_nat (2 ^ b - nc all b - cnt all b))%nat by lia. rewrite zseq_app. do 2 f_equal. lia. }
  rewrite (sort_nodes_id _ _ _ _ Cf), (duplicates_no _ _ _ Cf).
  assert (Ff : Forall (at_len b) focus).
  { unfold focus. apply Forall_app. split; [|exact Fi]. apply Forall_forall. intros t I. apply filter_In in I as [I L]. destruct (LV_leaf t I) as (s & x & c & -> & _ & _). split; [discriminate|]. split; [cbn; auto|]. cbn [hlen leaf] in *. lia. }
  assert (E0 : nc all b mod 2 = 0 /\ 2 ^ b mod 2 = 0).
  { split; [|replace b with (Z.succ (b - 1)) by lia; rewrite Z.pow_succ_r by lia; lia]. destruct (Z.eq_dec b 1) as [->|]; [rewrite nc_1; reflexivity|]. pose proof (nc_step all (b - 1) ltac:(lia)) as S. replace (b - 1 + 1) with b in S by lia. lia. }
  set (k := Z.to_nat ((2 ^ b - nc all b) / 2)). assert (Kk : Z.to_nat (2 ^ b - nc all b) = (2 * k)%nat) by (unfold k; lia). rewrite Kk in Cf.
  assert (Lf : length focus = (2 * k)%nat) by (rewrite <- (map_length hcode), Cf; apply zseq_len).
  destruct (pair_ok b k Hb focus (nc all b) (length focus) ltac:(lia) (proj1 E0) Cf Ff ltac:(lia)) as (P1 & P2 & P3).
  exists (pair (length focus) focus). split; [reflexivity|]. split; [exact P2|]. split; [exact P1|].
  intros x I. rewrite flat_map_app. apply in_or_app. apply in_flat_map in I as (t & It & Ix). destruct (Z.eqb_spec (hlen t) b) as [Eb|Nb].
  - right. apply P3. apply in_flat_map. exists t. split; [|exact Ix]. unfold focus. rewrite <- E1. apply filter_In. split; [exact It|lia].
  - left. apply in_flat_map. exists t. split; [|exact Ix]. rewrite <- E2. apply filter_In. split; [exact It|]. replace (hlen t =? b) with false by lia. reflexivity.
Qed.
Lemma no_short b : (forall t, In t LV -> b <= hlen t) -> nc all b = 0.
Proof.
  intros H. unfold nc. assert (G : forall x, In x all -> nc1 b x = 0).
  { intros x I. unfold nc1. destruct (Z.ltb_spec 0 x), (Z.ltb_spec x b); cbn [andb]; try lia. exfalso. apply in_split in I as (u & v & E). pose proof (leaves_in all all [] 0 u x v E ltac:(lia)) as L. apply H in L. cbn [hlen leaf] in L. lia. }
  clear - G. induction all as [|x l IH]; [reflexivity|]. cbn [map]. rewrite sum_cons, G by now left. apply IH. intros y I. apply G. now right.
Qed.
Lemma levels_ok : forall n b nodes fuel, b = Z.of_nat n -> 1 <= b <= 15 -> inv b nodes -> (n <= fuel)%nat -> exists t, levels nodes b fuel = Val [t] /\ t <> Nil /\ good t /\ hlen t = 0 /\ forall x, In x (flat_map flatten nodes) -> In x (flatten t).
Proof.
  induction n as [|n IH]; intros b nodes fuel En Hb Inv Hf; [lia|]. destruct fuel as [|fuel]; [lia|]. cbn [levels].
  destruct (level_ok b nodes Hb Inv) as (ints & -> & Fi & Ci & Pf). cbn [bind]. destruct Inv as (_ & _ & _ & _ & Lt). pose proof (nc_nonneg all b).
  destruct (Z.eq_dec b 1) as [->|Nb].
  - rewrite filter_none in * by (intros t I; destruct (LV_leaf t I) as (s & x & c & -> & _ & Hx); cbn [hlen leaf]; lia). cbn [app] in *. rewrite nc_1 in Ci. change (map hcode ints = [0]) in Ci. destruct ints as [|t [|]]; try discriminate. cbn [length Nat.ltb Nat.leb]. exists t. split; [reflexivity|].
    inversion Fi as [|? ? (N & G & L) _]; subst. split; [exact N|]. split; [exact G|]. split; [lia|]. intros x I. apply Pf in I. cbn [flat_map] in I. now rewrite app_nil_r in I.
  - assert (P2 : 2 ^ b = 2 * 2 ^ (b - 1)) by (replace b with (Z.succ (b - 1)) at 1 by lia; rewrite Z.pow_succ_r by lia; reflexivity).
    pose proof (nc_step all (b - 1) ltac:(lia)) as S. replace (b - 1 + 1) with b in S by lia.
    assert (Inv' : inv (b - 1) (filter (fun t => hlen t <=? b - 1) LV ++ ints)).
    { exists ints. split; [reflexivity|]. split; [exact Fi|]. pose proof (cnt_nonneg all (b - 1)). split; [rewrite Ci; f_equal; [lia|f_equal; lia]|lia]. }
    assert (Ln : Nat.lt 1 (length (filter (fun t => hlen t <=? b - 1) LV ++ ints))).
    { rewrite app_length. rewrite <- (map_length hcode ints), Ci, zseq_len. destruct (filter (fun t => hlen t <=? b - 1) LV) eqn:Ef; cbn [length]; [|lia].
      assert (N0 : nc all b = 0). { apply no_short. intros t I. destruct (Z.leb_spec b (hlen t)); [assumption|]. exfalso. assert (In t []) as It; [|contradiction It]. rewrite <- Ef. apply filter_In. split; [exact I|lia]. }
      assert (2 ^ 1 <= 2 ^ (b - 1)) by (apply Z.pow_le_mono_r; lia). change (2 ^ 1) with 2 in *. lia. }
    apply Nat.ltb_lt in Ln. rewrite Ln. destruct (IH (b - 1) _ fuel ltac:(lia) ltac:(lia) Inv' ltac:(lia)) as (t & -> & N & G & L & P). exists t. split; [reflexivity|]. split; [exact N|]. split; [exact G|]. split; [exact L|]. auto.
Qed.
Lemma max_len_ge (l : list htree) : forall a, a <= fold_left (fun m t => Z.max m (hlen t)) l a /\ forall t, In t l -> hlen t <= fold_left (fun m t => Z.max m (hlen t)) l a.
Proof. induction l as [|y l IH]; intros a; cbn [fold_left]; [split; [lia|contradiction]|]. destruct (IH (Z.max a (hlen y))) as [H1 H2]. split; [lia|]. intros x [<-|I]; [lia|auto]. Qed.
Lemma max_len_in (l : list htree) : forall a, fold_left (fun m t => Z.max m (hlen t)) l a = a \/ exists t, In t l /\ hlen t = fold_left (fun m t => Z.max m (hlen t)) l a.
Proof.
  induction l as [|y l IH]; intros a; cbn [fold_left]; [now left|]. destruct (IH (Z.max a (hlen y))) as [H|(t & I & H)]; [|right; exists t; split; [now right|exact H]]. rewrite H. destruct (Z.max_spec a (hlen y)) as [[_ E]|[_ E]]; rewrite E; [right; exists y; split; [now left|reflexivity]|now left].
Qed.
Lemma create_complete : complete all -> exists t, create_tree all (codes_from all [] all) = Val t /\ good t /\ hlen t = 0 /\ forall x, In x (flat_map flatten LV) -> In x (flatten t).
Proof.
  intros C. unfold create_tree. fold LV. set (m := max_len LV).
  assert (G1 : forall t, In t LV -> hlen t <= m) by (apply (max_len_ge LV 0)).
  assert (Hm : 1 <= m <= 15 /\ exists t, In t LV /\ hlen t = m).
  { destruct (max_len_in LV 0) as [E|(t & I & E)].
    - exfalso. fold (max_len LV) in E. fold m in E. unfold complete in C. assert (Z0 : forall x, In x all -> x = 0).
      { intros x I. destruct (Z.eq_dec x 0); [assumption|]. apply in_split in I as (u & v & Ea). pose proof (leaves_in all all [] 0 u x v Ea ltac:(lia)) as L. apply G1 in L as L2. destruct (LV_leaf _ L) as (? & ? & ? & Q & _ & R). injection Q as _ <- _. cbn [hlen leaf] in L2. lia. }
      assert (sum (map (fun l => if 0 <? l then 2 ^ (15 - l) else 0) all) = 0); [|lia]. clear - Z0. induction all as [|x l IH]; [reflexivity|]. cbn [map]. rewrite sum_cons, (Z0 x) by now left. cbn [Z.ltb Z.compare]. rewrite IH; [reflexivity|]. intros y I. apply Z0. now right.
    - fold (max_len LV) in E. fold m in E. destruct (LV_leaf t I) as (s & x & c & -> & _ & Hx). cbn [hlen leaf] in E. split; [lia|]. exists (leaf s x c). auto. }
  destruct Hm as [Hm (t0 & I0 & E0)].
  assert (Fm : Forall (fun l => 0 <= l <= m) all).
  { apply Forall_forall. intros x I. destruct F as [F0 _]. rewrite Forall_forall in F0. pose proof (F0 x I). split; [lia|]. destruct (Z.eq_dec x 0); [lia|]. apply in_split in I as (u & v & Ea). pose proof (leaves_in all all [] 0 u x v Ea ltac:(lia)) as L. apply G1 in L. cbn [hlen leaf] in L. lia. }
  pose proof (kraft_max all m Hm Fm) as K. unfold complete in C. unfold kraft in K. rewrite C in K.
  assert (Q : nc all m + cnt all m = 2 ^ m). { assert (0 < 2 ^ (15 - m)) by (apply Z.pow_pos_nonneg; lia). assert (2 ^ 15 = 2 ^ m * 2 ^ (15 - m)) by (rewrite <- Z.pow_add_r by lia; f_equal; lia). nia. }
  assert (Cm : 0 < cnt all m).
  { destruct (LV_leaf t0 I0) as (s & x & c & -> & Ix & _). cbn [hlen leaf] in E0. subst x. apply in_split in Ix as (u & v & Ea). clearbody m. rewrite Ea, cnt_app, cnt_cons, Z.eqb_refl. pose proof (cnt_nonneg u m). pose proof (cnt_nonneg v m). lia. }
  assert (Inv : inv m LV).
  { exists []. split; [rewrite app_nil_r; symmetry; apply filter_all; intros t I; apply G1 in I; lia|]. split; [constructor|]. split; [|lia]. replace (Z.to_nat (2 ^ m - nc all m - cnt all m)) with 0%nat by lia. reflexivity. }
  destruct (levels_ok (Z.to_nat m) m LV (S (S (Z.to_nat m))) ltac:(lia) Hm Inv ltac:(lia)) as (t & -> & N & G & L & P). cbn [bind]. exists t. auto.
Qed.
End Levels.
Lemma single_shape lens : single_code lens -> exists a b, lens = repeat 0 a ++ 1 :: repeat 0 b.
Proof.
  intros (s & S1 & S0). assert (U : used lens s) by (unfold used; lia). destruct (used_split lens s U) as (x & L & y & -> & <- & _ & EL). rewrite S1 in EL. subst L.
  assert (R : forall (l : list Z), (forall z, In z l -> z = 0) -> l = repeat 0 (length l)) by (induction l as [|z l IH]; intros H; [reflexivity|]; cbn [length repeat]; rewrite <- IH by (intros w I; apply H; now right); rewrite (H z) by (now left); reflexivity).
  exists (length x), (length y). rewrite <- (R x), <- (R y); [reflexivity| |].
  - intros z I. apply In_lget in I as (i & Hi & G). assert (i + 1 + zlen x <> zlen x) by lia. specialize (S0 (zlen x + 1 + i) ltac:(lia)). unfold len_of in S0. rewrite lget_app_r in S0 by lia. replace (zlen x + 1 + i - zlen x) with (i + 1) in S0 by lia. rewrite lget_cons_S in S0 by lia. replace (i + 1 - 1) with i in S0 by lia. rewrite G in S0. exact S0.
  - intros z I. apply In_lget in I as (i & Hi & G). specialize (S0 i ltac:(lia)). rewrite len_of_app_l in S0 by lia. unfold len_of in S0. rewrite G in S0. exact S0.
Qed.
Lemma leaves_zero k : forall all pre rest a, leaves (repeat 0 k ++ rest) (codes_from all pre (repeat 0 k ++ rest)) a = leaves rest (codes_from all (pre ++ repeat 0 k) rest) (a + Z.of_nat k).
Proof.
  induction k as [|k IH]; intros all pre rest a; [cbn [repeat app]; now rewrite app_nil_r, Z.add_0_r|]. cbn [repeat app codes_from leaves]. change (negb (0 =? 0)) with false. cbn match. rewrite IH. rewrite <- app_assoc. cbn [app]. f_equal. lia.
Qed.
Lemma create_ok lens : code_ok lens -> exists codes t, huffman_codes lens = Val codes /\ create_tree lens codes = Val t /\ tree_for lens t.
Proof.
  intros C. pose proof (code_ok_fits lens C) as F. exists (codes_from lens [] lens). rewrite huffman_codes_ok by exact F. destruct C as [_ [C|C]].
  - destruct (create_complete lens F C) as (t & E & G & L & P). exists t. split; [reflexivity|]. split; [exact E|]. split; [exact G|]. split; [exact L|]. intros s U. apply P. destruct (used_split lens s U) as (a & x & l & E0 & <- & Hx & EL). apply in_flat_map. exists (leaf (zlen a) x (code lens (zlen a))). split; [|rewrite EL; now left].
    pose proof (leaves_in lens lens [] 0 a x l E0 ltac:(lia)) as I. cbn [app] in I. rewrite Z.add_0_l in I. rewrite E0 at 1. rewrite code_split by exact Hx. rewrite <- E0. exact I.
  - destruct (single_shape lens C) as (a & b & E). assert (LV : leaves lens (codes_from lens [] lens) 0 = [leaf (Z.of_nat a) 1 0]).
    { rewrite E at 1 3. rewrite leaves_zero. cbn [codes_from leaves app]. change (1 =? 0) with false. cbn [negb]. assert (Z0 : forall k p q, leaves (repeat 0 k) (codes_from lens p (repeat 0 k)) q = []) by (intros k p q; pose proof (leaves_zero k lens p [] q) as H; rewrite app_nil_r in H; rewrite H; reflexivity). rewrite Z0. rewrite nc_1. assert (cnt (repeat 0 a) 1 = 0) as -> by (clear; induction a as [|a IH]; [reflexivity|]; cbn [repeat]; rewrite cnt_cons, IH; reflexivity). reflexivity. }
    unfold create_tree. rewrite LV. cbn. eexists. split; [reflexivity|]. split; [reflexivity|]. split; [cbn; intuition lia|]. split; [reflexivity|]. cbn [flatten leaf]. intros s U. destruct (used_split lens s U) as (u & x & v & E0 & <- & Hx & EL).
    pose proof (leaves_in lens lens [] 0 u x v E0 ltac:(lia)) as I. rewrite LV in I. destruct I as [I|[]]. injection I as I1 I2 I3. left. rewrite EL, I1. rewrite E0 at 1. rewrite code_split by exact Hx. rewrite <- E0, <- I2. cbn [app] in I3. rewrite <- I2 in I3. rewrite <- I3. reflexivity.
Qed.
