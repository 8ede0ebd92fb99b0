From Verif Require Import Base M_Sort S_Sort.
Ltac Zify.zify_post_hook ::= Z.to_euclidean_division_equations.

(** two writes exchange neighbours *)
Lemma swap_writes {A} (l : list A) i a1 a2 b1 b2 : lget l i = Some a1 -> lget l (i + 1) = Some a2 ->
  exists p s, l = p ++ a1 :: a2 :: s /\ zlen p = i /\ (let* m := wr l i b1 in wr m (i + 1) b2) = Val (p ++ b1 :: b2 :: s).
Proof.
  intros E1 E2. pose proof (lget_some_range _ _ _ E1) as R1. pose proof (lget_some_range _ _ _ E2) as R2. destruct (split_at l i R1) as (p & x & s & -> & Hp). subst i.
  rewrite lget_mid in E1. injection E1 as ->. rewrite lget_app_r in E2 by lia. rewrite lget_cons_S in E2 by lia. replace (zlen p + 1 - zlen p - 1) with 0 in E2 by lia. destruct s as [|y s]; [discriminate|]. injection E2 as ->.
  exists p, s. split; [reflexivity|]. split; [reflexivity|]. rewrite wr_mid by reflexivity. cbn [bind]. replace (p ++ b1 :: a2 :: s) with ((p ++ [b1]) ++ a2 :: s) by (rewrite <- app_assoc; reflexivity).
  rewrite wr_mid by (rewrite zlen_app; reflexivity). now rewrite <- app_assoc.
Qed.
Lemma get_swapped {V} (p : list V) a b s j : lget (p ++ a :: b :: s) j = if j =? zlen p then Some a else if j =? zlen p + 1 then Some b else lget (p ++ b :: a :: s) j.
Proof.
  destruct (Z.eqb_spec j (zlen p)) as [->|N1]; [apply lget_mid|]. destruct (Z.eqb_spec j (zlen p + 1)) as [->|N2].
  - rewrite lget_app_r by lia. rewrite lget_cons_S by lia. replace (zlen p + 1 - zlen p - 1) with 0 by lia. reflexivity.
  - destruct (Z.ltb_spec j (zlen p)); [rewrite !lget_app_l by lia; reflexivity|]. rewrite !lget_app_r by lia. rewrite !lget_cons_S by lia. reflexivity.
Qed.

Section Sort.
Context {A V : Type} (f : A -> V) (P : A -> Prop) (le : V -> V -> Prop) (gtb : V -> V -> bool).
Context (gt : A -> A -> out bool) (swp : A -> A -> out (A * A)).
Hypothesis Hgt : forall a b, P a -> P b -> gt a b = Val (gtb (f a) (f b)).
Hypothesis Hswp : forall a b, P a -> P b -> exists a' b', swp a b = Val (a', b') /\ P a' /\ P b' /\ f a' = f b /\ f b' = f a.
(** the elements before position h are usable *)
Definition okp (l : list A) (h : Z) : Prop := forall j a, j < h -> lget l j = Some a -> P a.
Definition view (l : list A) : list V := map f l.

Lemma get_two (p : list A) a b a' b' s j : lget (p ++ a' :: b' :: s) j = if j =? zlen p then Some a' else if j =? zlen p + 1 then Some b' else lget (p ++ a :: b :: s) j.
Proof.
  destruct (Z.eqb_spec j (zlen p)) as [->|N1]; [apply lget_mid|]. destruct (Z.eqb_spec j (zlen p + 1)) as [->|N2].
  - rewrite lget_app_r by lia. rewrite lget_cons_S by lia. replace (zlen p + 1 - zlen p - 1) with 0 by lia. reflexivity.
  - destruct (Z.ltb_spec j (zlen p)); [rewrite !lget_app_l by lia; reflexivity|]. rewrite !lget_app_r by lia. rewrite !lget_cons_S by lia. reflexivity.
Qed.
Lemma okp_swap p a b a' b' s h : okp (p ++ a :: b :: s) h -> P a' -> P b' -> okp (p ++ a' :: b' :: s) h.
Proof.
  intros H Ha Hb j c Hj G. rewrite (get_two p a b) in G. destruct (j =? zlen p); [injection G as <-; exact Ha|]. destruct (j =? zlen p + 1); [injection G as <-; exact Hb|]. exact (H j c Hj G).
Qed.
(** one pass: whatever the comparison does, the elements are permuted, the tail is untouched and the bound shrinks *)
Lemma pass_ok : forall k l i newn h, okp l h -> 0 <= i -> i + Z.of_nat k < h -> h <= zlen l -> 1 <= newn <= Z.max 1 i ->
  exists l' newn', bubble_pass gt swp l i newn k = Val (l', newn') /\ okp l' h /\ zlen l' = zlen l /\ Permutation (view l') (view l) /\ 1 <= newn' <= Z.max 1 (i + Z.of_nat k) /\
    (forall j, i + Z.of_nat k < j -> lget l' j = lget l j) /\ (forall j, j < i -> lget l' j = lget l j) /\
    (forall same : V -> V -> bool, (forall x a b, gtb a b = true -> same x a = true -> same x b = true -> False) -> keeps_order same (view l) (view l')).
Proof.
  induction k as [|k IH]; intros l i newn h HP Hi Hk Hh Hn; cbn [bubble_pass].
  - exists l, newn. split; [reflexivity|]. split; [exact HP|]. split; [reflexivity|]. split; [reflexivity|]. split; [lia|]. split; [reflexivity|]. split; [reflexivity|]. intros same _ x. reflexivity.
  - destruct (lget_range l i ltac:(lia)) as [a E1]. destruct (lget_range l (i + 1) ltac:(lia)) as [b E2]. unfold rd at 1. rewrite E1. cbn [bind]. unfold rd at 1. rewrite E2. cbn [bind].
    pose proof (HP i a ltac:(lia) E1) as Pa. pose proof (HP (i + 1) b ltac:(lia) E2) as Pb. rewrite (Hgt a b Pa Pb). cbn [bind].
    destruct (gtb (f a) (f b)) eqn:G.
    + destruct (Hswp a b Pa Pb) as (a' & b' & -> & Pa' & Pb' & Fa & Fb). cbn [bind]. destruct (swap_writes l i a b a' b' E1 E2) as (p & s & -> & Hp & W).
      assert (W' : forall (K : list A -> out (list A * Z)), (let* l0 := wr (p ++ a :: b :: s) i a' in let* l1 := wr l0 (i + 1) b' in K l1) = K (p ++ a' :: b' :: s)).
      { intros K. destruct (wr (p ++ a :: b :: s) i a') as [m| | |]; cbn [bind] in *; try discriminate. now rewrite W. }
      rewrite W'. clear W W'. assert (HP2 : okp (p ++ a' :: b' :: s) h). { apply (okp_swap p a b a' b' s _ HP Pa' Pb'). }
      assert (Lp : zlen (p ++ a' :: b' :: s) = zlen (p ++ a :: b :: s)) by (rewrite !zlen_app, !zlen_cons; reflexivity).
      assert (Vs : view (p ++ a' :: b' :: s) = view p ++ f b :: f a :: view s) by (unfold view; rewrite map_app; cbn [map]; now rewrite Fa, Fb).
      assert (Vo : view (p ++ a :: b :: s) = view p ++ f a :: f b :: view s) by (unfold view; rewrite map_app; reflexivity).
      assert (Lv : zlen (view p) = i) by (unfold view; now rewrite zlen_map).
      destruct (IH (p ++ a' :: b' :: s) (i + 1) (i + 1) h HP2 ltac:(lia) ltac:(lia) ltac:(lia) ltac:(lia)) as (l' & newn' & -> & Q1 & Q2 & Q3 & Q4 & Q5 & Q6 & Q7). exists l', newn'.
      split; [reflexivity|]. split; [exact Q1|]. split; [lia|]. split.
      { rewrite Q3, Vs, Vo. apply Permutation_app_head. apply perm_swap. }
      split; [lia|]. split.
      { intros j Hj. rewrite Q5 by lia. rewrite (get_two p a b), Hp. replace (j =? i) with false by lia. replace (j =? i + 1) with false by lia. reflexivity. }
      split.
      { intros j Hj. rewrite Q6 by lia. rewrite (get_two p a b), Hp. replace (j =? i) with false by lia. replace (j =? i + 1) with false by lia. reflexivity. }
      intros same Hs x. rewrite (Q7 same Hs x), Vs, Vo, !filter_app. cbn [filter]. destruct (same x (f a)) eqn:S1, (same x (f b)) eqn:S2; try reflexivity. destruct (Hs x _ _ G S1 S2).
    + destruct (IH l (i + 1) newn h HP ltac:(lia) ltac:(lia) ltac:(lia) ltac:(lia)) as (l' & newn' & -> & Q1 & Q2 & Q3 & Q4 & Q5 & Q6 & Q7). exists l', newn'.
      split; [reflexivity|]. split; [exact Q1|]. split; [lia|]. split; [exact Q3|]. split; [lia|]. split; [intros j Hj; apply Q5; lia|]. split; [intros j Hj; apply Q6; lia|exact Q7].
Qed.

(** with a total preorder *)
Hypothesis Hle : preorder le.
Hypothesis Hgtb : forall x y, gtb x y = false <-> le x y.
Lemma gtb_ge x y : gtb x y = true -> le y x.
Proof. intros H. destruct Hle as (_ & _ & T). destruct (T x y) as [L|L]; [apply Hgtb in L; congruence|assumption]. Qed.
(** order facts up to position hi for targets from lo on *)
Definition below (v : list V) (lo hi : Z) : Prop := forall p q x y, 0 <= p <= q -> lo <= q <= hi -> lget v p = Some x -> lget v q = Some y -> le x y.
Lemma pass_sorted : forall k l i newn n hi, okp l n -> 0 <= i -> i + Z.of_nat k = n - 1 -> n <= zlen l -> 1 <= newn ->
  below (view l) newn i -> below (view l) i i -> below (view l) n hi ->
  forall l' newn', bubble_pass gt swp l i newn k = Val (l', newn') -> below (view l') newn' hi.
Proof.
  induction k as [|k IH]; intros l i newn n hi HP Hi Hk Hn Hnn B1 B2 B3 l' newn' E; cbn [bubble_pass] in E.
  - injection E as <- <-. intros p q x y Hp Hq Gp Gq. destruct (Z.ltb_spec q n); [apply (B1 p q x y); auto; lia|apply (B3 p q x y); auto; lia].
  - destruct (lget_range l i ltac:(lia)) as [a E1]. destruct (lget_range l (i + 1) ltac:(lia)) as [b E2]. unfold rd at 1 in E. rewrite E1 in E. cbn [bind] in E. unfold rd at 1 in E. rewrite E2 in E. cbn [bind] in E.
    pose proof (HP i a ltac:(lia) E1) as Pa. pose proof (HP (i + 1) b ltac:(lia) E2) as Pb. rewrite (Hgt a b Pa Pb) in E. cbn [bind] in E.
    assert (Va : lget (view l) i = Some (f a)) by (unfold view; rewrite lget_map, E1; reflexivity). assert (Vb : lget (view l) (i + 1) = Some (f b)) by (unfold view; rewrite lget_map, E2; reflexivity).
    destruct Hle as (Rf & Tr & To). destruct (gtb (f a) (f b)) eqn:G.
    + destruct (Hswp a b Pa Pb) as (a' & b' & Es & Pa' & Pb' & Fa & Fb). rewrite Es in E. cbn [bind] in E. destruct (swap_writes l i a b a' b' E1 E2) as (p & s & -> & Hp & W).
      assert (W' : forall (K : list A -> out (list A * Z)), (let* l0 := wr (p ++ a :: b :: s) i a' in let* l1 := wr l0 (i + 1) b' in K l1) = K (p ++ a' :: b' :: s)).
      { intros K. destruct (wr (p ++ a :: b :: s) i a') as [m| | |]; cbn [bind] in *; try discriminate. now rewrite W. }
      rewrite W' in E. clear W W'. assert (HP2 : okp (p ++ a' :: b' :: s) n). { apply (okp_swap p a b a' b' s _ HP Pa' Pb'). }
      assert (Lp : zlen (p ++ a' :: b' :: s) = zlen (p ++ a :: b :: s)) by (rewrite !zlen_app, !zlen_cons; reflexivity).
      assert (Vs : view (p ++ a' :: b' :: s) = view p ++ f b :: f a :: view s) by (unfold view; rewrite map_app; cbn [map]; now rewrite Fa, Fb).
      assert (Vo : view (p ++ a :: b :: s) = view p ++ f a :: f b :: view s) by (unfold view; rewrite map_app; reflexivity).
      assert (Lv : zlen (view p) = i) by (unfold view; now rewrite zlen_map).
      assert (Gs : forall j, lget (view (p ++ a' :: b' :: s)) j = if j =? i then Some (f b) else if j =? i + 1 then Some (f a) else lget (view (p ++ a :: b :: s)) j) by (intros j; rewrite Vs, Vo, get_swapped, Lv; reflexivity).
      refine (IH _ _ _ n hi HP2 _ _ _ _ _ _ _ _ _ E); try lia.
      * intros p0 q x y Hp0 Hq Gp Gq. assert (q = i + 1) by lia. subst q. rewrite Gs in Gp, Gq. replace (i + 1 =? i) with false in Gq by lia. rewrite Z.eqb_refl in Gq. injection Gq as <-.
        destruct (Z.eqb_spec p0 i); [injection Gp as <-; now apply gtb_ge|]. destruct (Z.eqb_spec p0 (i + 1)); [injection Gp as <-; apply Rf|]. apply (B2 p0 i x (f a)); auto; lia.
      * intros p0 q x y Hp0 Hq Gp Gq. assert (q = i + 1) by lia. subst q. rewrite Gs in Gp, Gq. replace (i + 1 =? i) with false in Gq by lia. rewrite Z.eqb_refl in Gq. injection Gq as <-.
        destruct (Z.eqb_spec p0 i); [injection Gp as <-; now apply gtb_ge|]. destruct (Z.eqb_spec p0 (i + 1)); [injection Gp as <-; apply Rf|]. apply (B2 p0 i x (f a)); auto; lia.
      * intros p0 q x y Hp0 Hq Gp Gq. rewrite Gs in Gp, Gq. replace (q =? i) with false in Gq by lia. replace (q =? i + 1) with false in Gq by lia.
        destruct (Z.eqb_spec p0 i); [injection Gp as <-; apply (B3 (i + 1) q (f b) y); auto; lia|]. destruct (Z.eqb_spec p0 (i + 1)); [injection Gp as <-; apply (B3 i q (f a) y); auto; lia|]. apply (B3 p0 q x y); auto; lia.
    + assert (L : le (f a) (f b)). { now apply Hgtb. }
      refine (IH _ _ _ n hi HP _ _ _ _ _ _ _ _ _ E); try lia.
      * intros p0 q x y Hp0 Hq Gp Gq. destruct (Z.leb_spec q i); [apply (B1 p0 q x y); auto; lia|]. assert (q = i + 1) by lia. subst q. rewrite Vb in Gq. injection Gq as <-.
        destruct (Z.eq_dec p0 (i + 1)) as [->|]; [rewrite Vb in Gp; injection Gp as <-; apply Rf|]. apply (Tr _ (f a)); [|exact L]. apply (B2 p0 i x (f a)); auto; lia.
      * intros p0 q x y Hp0 Hq Gp Gq. assert (q = i + 1) by lia. subst q. rewrite Vb in Gq. injection Gq as <-.
        destruct (Z.eq_dec p0 (i + 1)) as [->|]; [rewrite Vb in Gp; injection Gp as <-; apply Rf|]. apply (Tr _ (f a)); [|exact L]. apply (B2 p0 i x (f a)); auto; lia.
      * exact B3.
Qed.
Lemma bubble_ok : forall fuel l n hi, okp l n -> 1 <= n <= zlen l -> (Z.to_nat n <= fuel)%nat ->
  exists l', bubble gt swp l n fuel = Val l' /\ okp l' n /\ zlen l' = zlen l /\ Permutation (view l') (view l) /\
    (forall j, n <= j -> lget l' j = lget l j) /\
    (forall same : V -> V -> bool, (forall x a b, gtb a b = true -> same x a = true -> same x b = true -> False) -> keeps_order same (view l) (view l')) /\
    (below (view l) n hi -> below (view l') 0 hi).
Proof.
  induction fuel as [|fuel IH]; intros l n hi HP Hn Hf; [lia|]. cbn [bubble].
  destruct (pass_ok (Z.to_nat (n - 1)) l 0 1 n HP ltac:(lia) ltac:(lia) ltac:(lia) ltac:(lia)) as (l1 & m & E & Q1 & Q2 & Q3 & Q4 & Q5 & Q6 & Q7). rewrite E. cbn [bind].
  assert (B : below (view l) n hi -> below (view l1) m hi).
  { intros B. refine (pass_sorted (Z.to_nat (n - 1)) l 0 1 n hi HP _ _ _ _ _ _ B _ _ E); try lia; intros p q x y Hp Hq Gp Gq; [lia|]. assert (p = q) by lia. subst p. rewrite Gp in Gq. injection Gq as <-. destruct Hle as (R & _). apply R. }
  destruct (Z.gtb_spec m 1).
  - destruct (IH l1 m hi) as (l' & E' & R1 & R2 & R3 & R4 & R5 & R6); [intros j a Hj; apply Q1; lia|lia|lia|]. rewrite E'. exists l'. split; [reflexivity|]. split; [intros j a Hj G; destruct (Z.ltb_spec j m); [exact (R1 j a ltac:(lia) G)|rewrite R4 in G by lia; exact (Q1 j a Hj G)]|]. split; [lia|]. split; [now rewrite R3|].
    split; [intros j Hj; rewrite R4 by lia; apply Q5; lia|]. split; [intros same Hs x; rewrite (R5 same Hs x); apply (Q7 same Hs x)|]. auto.
  - exists l1. split; [reflexivity|]. split; [exact Q1|]. split; [exact Q2|]. split; [exact Q3|]. split; [intros j Hj; apply Q5; lia|]. split; [exact Q7|]. intros B0 p q x y Hp Hq Gp Gq.
    destruct (Z.eq_dec q 0) as [->|]; [assert (p = 0) by lia; subst p; rewrite Gp in Gq; injection Gq as <-; destruct Hle as (R & _); apply R|]. apply (B B0 p q x y); auto; lia.
Qed.
(** the sort of the first [size] elements of a block *)
Lemma app_same_len {X} (a b c d : list X) : a ++ b = c ++ d -> zlen a = zlen c -> a = c /\ b = d.
Proof.
  revert c. induction a as [|x a IH]; intros [|y c] E L; cbn [app] in *; auto; try (rewrite zlen_cons in L; change (zlen (@nil X)) with 0 in L; pose proof (zlen_nonneg a); lia).
  - rewrite zlen_cons in L. change (zlen (@nil X)) with 0 in L. pose proof (zlen_nonneg c). lia.
  - rewrite !zlen_cons in L. injection E as -> E. destruct (IH c E ltac:(lia)) as [-> ->]. auto.
Qed.
Lemma sort_ok l junk : Forall P l ->
  exists l', sort gt swp (l ++ junk) (zlen l) = Val (l' ++ junk) /\ Forall P l' /\ zlen l' = zlen l /\ Permutation (view l') (view l) /\
    (forall same : V -> V -> bool, (forall x a b, gtb a b = true -> same x a = true -> same x b = true -> False) -> keeps_order same (view l) (view l')) /\
    sorted le (view l').
Proof.
  intros HP. unfold sort. pose proof (zlen_nonneg l) as L0. pose proof (zlen_nonneg junk) as J0. destruct (Z.ltb_spec (zlen l) 1) as [L|L].
  - assert (l = []) by (apply zlen_zero; lia). subst l. exists []. split; [reflexivity|]. split; [constructor|]. split; [reflexivity|]. split; [constructor|]. split; [intros same _ x; reflexivity|]. intros i j x y _ G. apply lget_some_range in G. cbn in G. lia.
  - destruct (bubble_ok (Z.to_nat (zlen l)) (l ++ junk) (zlen l) (zlen l - 1)) as (m & E & Q1 & Q2 & Q3 & Q4 & Q5 & Q6).
    { intros j a Hj G. rewrite lget_app_l in G by lia. rewrite Forall_forall in HP. eapply HP, lget_In, G. }
    { rewrite zlen_app. lia. } { lia. }
    rewrite zlen_app in Q2. destruct (split_len m (zlen l) ltac:(lia)) as (l' & j' & -> & Hl').
    assert (j' = junk).
    { apply lget_ext. intros i. destruct (Z.ltb_spec i 0); [rewrite !lget_out by lia; reflexivity|]. specialize (Q4 (zlen l + i) ltac:(lia)). rewrite !lget_app_r in Q4 by lia. rewrite Hl' in Q4. replace (zlen l + i - zlen l) with i in Q4 by lia. exact Q4. }
    subst j'. exists l'. split; [exact E|]. split; [|split; [exact Hl'|split; [|split]]].
    + apply Forall_forall. intros a Ia. apply In_lget in Ia as (i & Hi & G). apply (Q1 i a); [lia|]. rewrite lget_app_l by lia. exact G.
    + unfold view in *. rewrite !map_app in Q3. now apply Permutation_app_inv_r in Q3.
    + intros same Hs x. specialize (Q5 same Hs x). unfold view in *. rewrite !map_app, !filter_app in Q5. now apply app_inv_tail in Q5.
    + intros i j x y Hij G1 G2. pose proof (lget_some_range _ _ _ G1). pose proof (lget_some_range _ _ _ G2). unfold view in *. rewrite zlen_map in *.
      apply Q6 with (p := i) (q := j); try lia.
      * intros p q u v Hp Hq. lia.
      * rewrite map_app, lget_app_l by (rewrite zlen_map; lia). exact G1.
      * rewrite map_app, lget_app_l by (rewrite zlen_map; lia). exact G2.
Qed.
End Sort.
