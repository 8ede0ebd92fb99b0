(** P_Array.v -- C50: checked access and independent copies of Array<T>; C27: sorting of Array<T>, Array<T*>, FloatArray. *)
From Verif Require Import Base M_Sort S_Sort L_Sort M_Array S_Array L_Array.
From Coq Require Import Floats.SpecFloat.
Ltac Zify.zify_post_hook ::= Z.to_euclidean_division_equations.

(** Every program over array variables (creating, copying, assigning, reading, writing, sorting, destroying them in any order),
    started with no variables: every answer and every variable's contents is that of independent lists; an index outside
    0 .. size-1 throws and changes nothing; blocks are neither shared nor lost. *)
Theorem C50_history A (dflt : A) gt os : preorder (fun x y => gt x y = false) -> adefs dflt gt os [] ->
  exists r w vs, aexec_all dflt gt os (AW [] []) = Val (r, w) /\ asteps dflt gt os [] r vs /\
    (forall i l, var vs i l <-> exists o, lget (wobj w) i = Some (Some o) /\ block (wmem w) (aptr o) = Val l /\ asize o = zlen l) /\
    (forall p b, block (wmem w) p = Val b -> exists i o, lget (wobj w) i = Some (Some o) /\ aptr o = p).
Proof.
  intros Pre D. cut (forall os w vs, good w vs -> adefs dflt gt os vs -> exists r w' vs', aexec_all dflt gt os w = Val (r, w') /\ asteps dflt gt os vs r vs' /\ good w' vs').
  - intros K. destruct (K os (AW [] []) []) as (r & w & vs & E & S & G).
    + split; [reflexivity|]. cbn [wobj wmem]. assert (N : forall X i, @lget X [] i = None) by (intros X i; apply lget_out; cbn; lia).
      split; [intros i; rewrite !N; split; discriminate|]. split; [intros i o H; rewrite N in H; discriminate|]. split; [intros i j o o' H; rewrite N in H; discriminate|]. intros p b H. unfold block in H. rewrite N in H. discriminate.
    + exact D.
    + exists r, w, vs. split; [exact E|]. split; [exact S|]. split; [|apply G]. intros i l. split.
      * intros V. destruct (good_obj w vs i l G V) as (o & H1 & _ & H2 & H3). exists o. auto.
      * intros (o & H1 & H2 & _). destruct G as (_ & _ & O & _). destruct (O i o H1) as (l' & V & B & _). congruence.
  - clear os D. induction os as [|o os IH]; intros w vs G D; cbn [aexec_all].
    + exists [], w, vs. split; [reflexivity|]. split; [constructor|exact G].
    + destruct D as [D1 D2]. destruct (astep_ok dflt gt o w vs Pre G D1) as (a & w1 & v1 & -> & S & G1). cbn [bind]. destruct (IH w1 v1 G1 (D2 a v1 S)) as (r & w2 & v2 & -> & S2 & G2). exists (a :: r), w2, v2. split; [reflexivity|]. split; [econstructor; eauto|exact G2].
Qed.
Print Assumptions C50_history.
(** The check alone: whatever the memory, an index outside the array throws; there is no other way to fail for a live array. *)
Theorem C50_checked A (m : mem A) o l i x : block m (aptr o) = Val l -> asize o = zlen l ->
  (arr_get m o i = Exn <-> ~ 0 <= i < zlen l) /\ (arr_set m o i x = Exn <-> ~ 0 <= i < zlen l) /\
  (forall y, lget l i = Some y -> arr_get m o i = Val y) /\ (0 <= i < zlen l -> exists m', arr_set m o i x = Val m' /\ (forall j, arr_get m' o j = if j =? i then Val x else arr_get m o j) /\ forall p, p <> aptr o -> block m' p = block m p).
Proof.
  intros B S. unfold arr_get, arr_set. rewrite S, B. cbn [bind].
  assert (C : (i <? 0) || (i >=? zlen l) = true <-> ~ 0 <= i < zlen l) by (destruct (Z.ltb_spec i 0), (Z.geb_spec i (zlen l)); cbn; split; intros; try lia; try reflexivity; discriminate).
  assert (In : 0 <= i < zlen l -> exists m', (let* b := wr l i x in put_block m (aptr o) b) = Val m' /\ exists l', zlen l' = zlen l /\ (forall j, lget l' j = if j =? i then Some x else lget l j) /\ forall q, block m' q = if q =? aptr o then Val l' else block m q).
  { intros R. destruct (lset_range l i x R) as [l' El]. unfold wr at 1. rewrite El. cbn [bind]. unfold put_block. rewrite B. cbn [bind]. destruct (put_ok m (aptr o) l (Some l') B) as (m' & -> & _ & G). exists m'. split; [reflexivity|]. exists l'. split; [apply (lset_zlen _ _ _ _ El)|]. split; [intros j; apply (lset_get _ _ _ _ _ El)|exact G]. }
  split; [|split; [|split]].
  - destruct ((i <? 0) || (i >=? zlen l)) eqn:E; [tauto|]. assert (R : 0 <= i < zlen l) by lia. split; [|tauto]. unfold rd. destruct (lget_range l i R) as [y ->]. discriminate.
  - destruct ((i <? 0) || (i >=? zlen l)) eqn:E; [tauto|]. assert (R : 0 <= i < zlen l) by lia. split; [|tauto]. destruct (In R) as (m' & -> & _). discriminate.
  - intros y E. pose proof (lget_some_range _ _ _ E). replace ((i <? 0) || (i >=? zlen l)) with false by lia. unfold rd. now rewrite E.
  - intros R. replace ((i <? 0) || (i >=? zlen l)) with false by lia. destruct (In R) as (m' & -> & l' & Zl & Gl & Gm). exists m'. split; [reflexivity|]. split.
    + intros j. rewrite Gm, Z.eqb_refl. cbn [bind]. unfold rd. rewrite Gl. destruct (Z.eqb_spec j i) as [->|]; [now replace ((i <? 0) || (i >=? zlen l)) with false by lia|reflexivity].
    + intros p Hp. rewrite Gm. destruct (Z.eqb_spec p (aptr o)); [contradiction|reflexivity].
Qed.
Print Assumptions C50_checked.
(** Array<T*>: the index is a uint32, so a negative or larger index is first taken modulo 2^32 *)
Theorem C50_pointer_index A (b : list (option A)) i x : zlen b < 2 ^ 32 ->
  (ptr_get b i = Exn <-> zlen b <= i mod 2 ^ 32) /\ (i mod 2 ^ 32 < zlen b -> ptr_get b i = rd b (i mod 2 ^ 32) /\ exists b', ptr_set b i x = Val b' /\ replaced b (i mod 2 ^ 32) x b') /\ (zlen b <= i mod 2 ^ 32 -> ptr_set b i x = Exn).
Proof.
  intros L. unfold ptr_get, ptr_set, u32. change (2 ^ 32) with 4294967296 in *. set (k := i mod 4294967296). assert (0 <= k) by (unfold k; lia). split; [|split].
  - destruct (Z.geb_spec k (zlen b)); [split; [lia|reflexivity]|]. split; [|lia]. unfold rd. destruct (lget_range b k ltac:(lia)) as [c ->]. discriminate.
  - intros Hk. replace (k >=? zlen b) with false by lia. split; [reflexivity|]. destruct (lset_range b k x ltac:(lia)) as [b' E]. exists b'. unfold wr. rewrite E. split; [reflexivity|]. split; [apply (lset_zlen _ _ _ _ E)|]. intros j. apply (lset_get _ _ _ _ _ E).
  - intros Hk. now replace (k >=? zlen b) with true by lia.
Qed.
Print Assumptions C50_pointer_index.

(** ** C27 *)
(** Array<T>::sort with a total preorder compareTo: sorted, stable permutation, nothing else touched *)
Theorem C27_array_sort A (gt : A -> A -> bool) (m : mem A) o l : preorder (fun x y => gt x y = false) -> block m (aptr o) = Val l -> asize o = zlen l ->
  exists m' l', arr_sort true gt m o = Val m' /\ block m' (aptr o) = Val l' /\ sorted_by gt l l' /\ forall p, p <> aptr o -> block m' p = block m p.
Proof.
  intros Pre B S. unfold arr_sort. rewrite S. cbn [negb]. destruct (Z.ltb_spec (zlen l) 1).
  - exists m, l. split; [reflexivity|]. split; [exact B|]. split; [|reflexivity]. split; [reflexivity|]. split; [|intros z; reflexivity]. intros a b x y _ Ga. apply lget_some_range in Ga. lia.
  - rewrite B. cbn [bind]. destruct (sort_pre gt l Pre) as (l' & -> & Zl & So). cbn [bind]. unfold put_block. rewrite B. cbn [bind]. destruct (put_ok m (aptr o) l (Some l') B) as (m' & -> & _ & G). exists m', l'. split; [reflexivity|]. split; [rewrite G, Z.eqb_refl; reflexivity|]. split; [exact So|]. intros p Hp. rewrite G. destruct (Z.eqb_spec p (aptr o)); [contradiction|reflexivity].
Qed.
Print Assumptions C27_array_sort.
(** an array of a type without an order is left as it is *)
Theorem C27_array_sort_unordered A (gt : A -> A -> bool) (m : mem A) o : arr_sort false gt m o = Val m.
Proof. unfold arr_sort. destruct (asize o <? 1); reflexivity. Qed.
Print Assumptions C27_array_sort_unordered.
(** with any comparison whatsoever (inconsistent, not transitive, ...) it still ends, with a permutation *)
Theorem C27_array_sort_any_order A (gt : A -> A -> bool) (m : mem A) o l : block m (aptr o) = Val l -> asize o = zlen l ->
  exists m' l', arr_sort true gt m o = Val m' /\ block m' (aptr o) = Val l' /\ Permutation l' l.
Proof.
  intros B S. unfold arr_sort. rewrite S. cbn [negb]. destruct (Z.ltb_spec (zlen l) 1); [exists m, l; auto|]. rewrite B. cbn [bind]. destruct (sort_any gt l) as (l' & -> & Zl & So). cbn [bind]. unfold put_block. rewrite B. cbn [bind]. destruct (put_ok m (aptr o) l (Some l') B) as (m' & -> & _ & G). exists m', l'. split; [reflexivity|]. split; [rewrite G, Z.eqb_refl; reflexivity|exact So].
Qed.
Print Assumptions C27_array_sort_any_order.
(** Array<T*>::sort *)
Theorem C27_pointer_sort A (gt : A -> A -> bool) (l : list A) : preorder (fun x y => gt x y = false) -> exists l', ptr_sort gt (map Some l) = Val (map Some l') /\ sorted_by gt l l'.
Proof.
  intros Pre. unfold ptr_sort. rewrite zlen_map. destruct (Z.ltb_spec (zlen l) 1).
  - exists l. split; [reflexivity|]. split; [reflexivity|]. split; [|intros z; reflexivity]. intros a b x y _ Ga. apply lget_some_range in Ga. lia.
  - unfold rd. rewrite lget_map. destruct (lget_range l 0 ltac:(lia)) as [d E0]. rewrite E0. cbn [option_map bind].
    destruct (sort_ok (fun c : option A => match c with Some z => z | None => d end) (fun c => c <> None) (fun x y => gt x y = false) gt (fun x y => match x, y with Some x, Some y => Val (gt x y) | _, _ => UB end) (fun x y => Val (y, x))) with (l := map Some l) (junk := @nil (option A)) as (l' & E & P1 & Z1 & Pm & K & So).
    { intros [a|] [b|] Ha Hb; try contradiction; reflexivity. } { intros a b Ha Hb. exists b, a. auto. } { exact Pre. } { intros x y. reflexivity. } { apply Forall_forall. intros c Hc. apply in_map_iff in Hc as (z & <- & _). discriminate. }
    rewrite !app_nil_r, zlen_map in E. rewrite E.
    assert (M : exists t, l' = map Some t). { clear -P1. induction P1 as [|c l Hc P1 IH]; [exists []; reflexivity|]. destruct IH as [t ->]. destruct c as [z|]; [|contradiction]. exists (z :: t). reflexivity. }
    destruct M as [t ->]. exists t. split; [reflexivity|]. unfold view in *. rewrite !map_map, !map_id in *. split; [exact Pm|]. split; [exact So|]. apply K.
    intros x a b G Ha Hb. apply andb_prop in Ha as [H1 H2]. apply andb_prop in Hb as [H3 H4]. apply negb_true_iff in H1, H2, H3, H4. destruct Pre as (_ & Tr & _). pose proof (Tr a x b H2 H3). congruence.
Qed.
Print Assumptions C27_pointer_sort.
(** Refuted for arrays with null pointers: with a null pointer first nothing is sorted, with one later the result is undefined. *)
Theorem C27_pointer_null_refuted A (gt : A -> A -> bool) : (forall r, ptr_sort gt (None :: r) = Val (None :: r)) /\ (forall x p r, ptr_sort gt (map Some (x :: p) ++ None :: r) = UB).
Proof.
  split.
  - intros r. unfold ptr_sort. rewrite zlen_cons. pose proof (zlen_nonneg r). replace (1 + zlen r <? 1) with false by lia. reflexivity.
  - intros x p r. set (l := map Some (x :: p) ++ None :: r). assert (L : zlen l = 2 + zlen p + zlen r) by (unfold l; rewrite zlen_app, zlen_map, !zlen_cons; lia). pose proof (zlen_nonneg p). pose proof (zlen_nonneg r).
    unfold ptr_sort. replace (zlen l <? 1) with false by lia. change (rd l 0) with (Val (Some x)). cbn [bind]. unfold sort. replace (zlen l <? 1) with false by lia. destruct (Z.to_nat (zlen l)) as [|f] eqn:Ef; [lia|]. cbn [bubble]. rewrite (ptr_pass_null gt _ l 0 1 (1 + zlen p)); [reflexivity|lia|lia|lia| |].
    + unfold l. replace (1 + zlen p) with (zlen (map Some (x :: p))) by (rewrite zlen_map, zlen_cons; reflexivity). apply lget_mid.
    + intros j Hj. unfold l. rewrite lget_app_l by (rewrite zlen_map, zlen_cons; lia). rewrite lget_map. destruct (lget (x :: p) j); discriminate.
Qed.
Print Assumptions C27_pointer_null_refuted.
(** FloatArray::Sort: always ends with a permutation; sorted if there is no NaN *)
Theorem C27_float_sort (l : list spec_float) : exists l', float_sort l = Val l' /\ Permutation l' l /\ (~ In S754_nan l -> sorted (fun x y => SFleb x y = true) l').
Proof.
  unfold float_sort. assert (Dec : forall x y : spec_float, {x = y} + {x <> y}) by (repeat decide equality). destruct (in_dec Dec S754_nan l) as [i|n].
  - destruct (sort_any float_gt l) as (l' & E & _ & Pm). exists l'. split; [exact E|]. split; [exact Pm|]. contradiction.
  - destruct (sort_ok (fun x : spec_float => x) (fun x => x <> S754_nan) (fun x y => fgt x y = false) fgt (fun x y => Val (float_gt x y)) (fun x y => Val (y, x))) with (l := l) (junk := @nil spec_float) as (l' & E & P1 & Z1 & Pm & K & So).
    { intros a b Ha Hb. destruct a; try contradiction; destruct b; try contradiction; reflexivity. } { intros a b Ha Hb. exists b, a. auto. } { apply fgt_preorder. } { intros x y. reflexivity. } { apply Forall_forall. intros c Hc ->. contradiction. }
    rewrite !app_nil_r in E. unfold view in *. rewrite !map_id in *. exists l'. split; [exact E|]. split; [exact Pm|]. intros _ i j x y Hij Gi Gj. pose proof (So i j x y Hij Gi Gj) as F. rewrite Forall_forall in P1. pose proof (P1 x (lget_In _ _ _ Gi)) as Nx. pose proof (P1 y (lget_In _ _ _ Gj)) as Ny.
    assert (float_gt x y = false) by (destruct x; try contradiction; destruct y; try contradiction; exact F). clear -H Nx Ny.
    revert H. unfold float_gt, SFltb, SFleb, SFcompare. destruct x as [sx|[]| |[] mx ex], y as [sy|[]| |[] my ey]; try contradiction; try reflexivity; try discriminate;
      rewrite (Z.compare_antisym ey ex); destruct (Z.compare ey ex); cbn [CompOpp]; try reflexivity; try discriminate; change (Pos.compare_cont Eq) with Pos.compare; rewrite (Pos.compare_antisym my mx); destruct (Pos.compare my mx); cbn [CompOpp]; try reflexivity; discriminate.
Qed.
Print Assumptions C27_float_sort.
(** Refuted with NaN: 2, NaN, 1 stays as it is *)
Theorem C27_float_nan_refuted : let two := S754_finite false 8388608 (-22) in let one := S754_finite false 8388608 (-23) in SFltb one two = true /\ float_sort [two; S754_nan; one] = Val [two; S754_nan; one].
Proof. split; reflexivity. Qed.
Print Assumptions C27_float_nan_refuted.
(** FloatArray access is not checked *)
Theorem C50_float_unchecked (b : list spec_float) i x : zlen b <= u32 i -> float_get b i = UB /\ float_set b i x = UB.
Proof. intros H. split; [apply rd_out; lia|apply wr_out; lia]. Qed.
Print Assumptions C50_float_unchecked.

(** not vacuous *)
Example C50_ex : aexec_all 0 Z.gtb [ANew 3; ASet 0 0 7; ASet 0 1 5; ACopy 0; ASort 0; AGet 0 2; AGet 1 0; AGet 1 3; AAssign 1 0; ADestroy 0; AGet 1 1] (AW [] [])
  = Val ([AUnit; AUnit; AUnit; AUnit; AUnit; AVal 7; AVal 7; AThrow; AUnit; AUnit; AVal 5], AW [None; None; Some [0; 5; 7]] [None; Some (AO 3 3)]).
Proof. reflexivity. Qed.
Example C50_ex_def : adefs 0 Z.gtb [ANew 3; ASet 0 1 5; AGet 0 9] [].
Proof.
  cbn [adefs]. split; [exact I|]. intros a v S. inversion S; subst; [|lia]. split; [exists [0; 0; 0]; reflexivity|]. intros a2 v2 S2. inversion S2 as [| | | | | |? ? ? ? l l' ? V Hk R B|? ? ? ? l V Hk| | |]; subst; (split; [|auto]).
  - exists l'. destruct B as [_ B]. unfold var. rewrite B. reflexivity.
  - exists l. exact V.
Qed.
Example C27_ex : preorder (fun x y => Z.gtb x y = false). Proof. split; [intros; lia|]. split; intros; lia. Qed.
