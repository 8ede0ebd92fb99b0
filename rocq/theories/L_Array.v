From Verif Require Import Base M_Sort S_Sort L_Sort M_Array S_Array.
Ltac Zify.zify_post_hook ::= Z.to_euclidean_division_equations.

(** sorting with any comparison: it ends with a permutation *)
Section AnyOrder.
Context {A : Type} (gtb : A -> A -> bool).
Let gt x y : out bool := Val (gtb x y).
Let swp (x y : A) : out (A * A) := Val (y, x).
Lemma bubble_any : forall fuel (l : list A) n, 1 <= n <= zlen l -> (Z.to_nat n <= fuel)%nat -> exists l', bubble gt swp l n fuel = Val l' /\ zlen l' = zlen l /\ Permutation l' l.
Proof.
  induction fuel as [|fuel IH]; intros l n Hn Hf; [lia|]. cbn [bubble].
  destruct (pass_ok (fun a : A => a) (fun _ => True) gtb gt swp) with (k := Z.to_nat (n - 1)) (l := l) (i := 0) (newn := 1) (h := n) as (l1 & m & E & Q1 & Q2 & Q3 & Q4 & _); try lia; [reflexivity|intros a b _ _; exists b, a; repeat split|intros j a _ _; exact I|].
  rewrite E. cbn [bind]. unfold view in Q3. rewrite !map_id in Q3. destruct (Z.gtb_spec m 1).
  - destruct (IH l1 m ltac:(lia) ltac:(lia)) as (l' & -> & R2 & R3). exists l'. split; [reflexivity|]. split; [lia|]. now rewrite R3.
  - exists l1. auto.
Qed.
Lemma sort_any (l : list A) : exists l', sort gt swp l (zlen l) = Val l' /\ zlen l' = zlen l /\ Permutation l' l.
Proof.
  unfold sort. destruct (Z.ltb_spec (zlen l) 1); [exists l; auto|]. apply bubble_any; lia.
Qed.
End AnyOrder.
Lemma sort_pre {A} (gt : A -> A -> bool) (l : list A) : preorder (fun x y => gt x y = false) ->
  exists l', sort (fun x y => Val (gt x y)) (fun x y => Val (y, x)) l (zlen l) = Val l' /\ zlen l' = zlen l /\ sorted_by gt l l'.
Proof.
  intros Pre. destruct (sort_ok (fun a : A => a) (fun _ => True) (fun x y => gt x y = false) gt (fun x y => Val (gt x y)) (fun x y => Val (y, x))) with (l := l) (junk := @nil A) as (l' & E & _ & Z1 & Pm & K & So).
  { reflexivity. } { intros a b _ _. exists b, a. repeat split. } { exact Pre. } { intros x y. reflexivity. } { apply Forall_forall. auto. }
  rewrite !app_nil_r in E. unfold view in *. rewrite !map_id in *. exists l'. split; [exact E|]. split; [exact Z1|]. split; [exact Pm|]. split; [exact So|]. apply K.
  intros x a b G Ha Hb. apply andb_prop in Ha as [H1 H2]. apply andb_prop in Hb as [H3 H4]. apply negb_true_iff in H1, H2, H3, H4. destruct Pre as (_ & Tr & _). pose proof (Tr a x b H2 H3). congruence.
Qed.

Lemma block_lget {A} (m : mem A) p b : block m p = Val b <-> lget m (p - 1) = Some (Some b).
Proof. unfold block. destruct (lget m (p - 1)) as [[c|]|]; split; intros E; try discriminate; congruence. Qed.
Lemma block_range {A} (m : mem A) p b : block m p = Val b -> 1 <= p <= zlen m.
Proof. rewrite block_lget. intros E. apply lget_some_range in E. lia. Qed.
Lemma put_ok {A} (m : mem A) p b0 c : block m p = Val b0 -> exists m', wr m (p - 1) c = Val m' /\ zlen m' = zlen m /\ forall q, block m' q = if q =? p then match c with Some b => Val b | None => UB end else block m q.
Proof.
  intros E. pose proof (block_range _ _ _ E). destruct (lset_range m (p - 1) c ltac:(lia)) as [m' Em]. exists m'. unfold wr. rewrite Em. split; [reflexivity|]. split; [apply (lset_zlen _ _ _ _ Em)|]. intros q. unfold block. rewrite (lset_get _ _ _ _ _ Em). destruct (Z.eqb_spec (q - 1) (p - 1)), (Z.eqb_spec q p); try lia; reflexivity.
Qed.
Lemma new_block_get {A} (m : mem A) b q : block (m ++ [Some b]) q = if q =? zlen m + 1 then Val b else block m q.
Proof.
  unfold block. destruct (Z.eqb_spec q (zlen m + 1)) as [->|N]; [replace (zlen m + 1 - 1) with (zlen m) by lia; now rewrite lget_mid|].
  destruct (Z.ltb_spec (q - 1) (zlen m)); [now rewrite lget_app_l by lia|]. rewrite !lget_out; [reflexivity|lia|rewrite zlen_app; change (zlen [Some b]) with 1; lia].
Qed.
Lemma copy_loop_ok {A} (src : list A) : forall k dst a, 0 <= a -> a + Z.of_nat k = zlen src -> zlen dst = zlen src -> (forall j, j < a -> lget dst j = lget src j) -> copy_loop dst src a k = Val src.
Proof.
  induction k as [|k IH]; intros dst a Ha Hk L H; cbn [copy_loop].
  - f_equal. apply lget_ext. intros j. destruct (Z.ltb_spec j a); [now apply H|]. now rewrite !lget_out by lia.
  - destruct (lget_range src a ltac:(lia)) as [x E]. unfold rd. rewrite E. cbn [bind]. destruct (lset_range dst a x ltac:(lia)) as [d Ed]. unfold wr. rewrite Ed. cbn [bind]. apply IH; [lia|lia|rewrite (lset_zlen _ _ _ _ Ed); lia|].
    intros j Hj. rewrite (lset_get _ _ _ _ _ Ed). destruct (Z.eqb_spec j a) as [->|]; [auto|]. apply H. lia.
Qed.
(** variables and memory agree: every variable owns one block, no block is shared, no block is lost *)
Definition good {A} (w : aworld A) (vs : vars A) : Prop :=
  zlen (wobj w) = zlen vs /\
  (forall i, lget (wobj w) i = Some None <-> lget vs i = Some None) /\
  (forall i o, lget (wobj w) i = Some (Some o) -> exists l, var vs i l /\ block (wmem w) (aptr o) = Val l /\ asize o = zlen l) /\
  (forall i j o o', lget (wobj w) i = Some (Some o) -> lget (wobj w) j = Some (Some o') -> i <> j -> aptr o <> aptr o') /\
  (forall p b, block (wmem w) p = Val b -> exists i o, lget (wobj w) i = Some (Some o) /\ aptr o = p).
Lemma good_obj {A} (w : aworld A) vs i l : good w vs -> var vs i l -> exists o, lget (wobj w) i = Some (Some o) /\ obj w i = Val o /\ block (wmem w) (aptr o) = Val l /\ asize o = zlen l.
Proof.
  intros (L & N & O & _) V. pose proof (lget_some_range _ _ _ V) as R. destruct (lget_range (wobj w) i ltac:(lia)) as [[o|] E].
  - exists o. split; [exact E|]. unfold obj. rewrite E. split; [reflexivity|]. destruct (O i o E) as (l' & V' & B & S). unfold var in *. rewrite V in V'. injection V' as <-. auto.
  - apply N in E. unfold var in V. congruence.
Qed.
Lemma good_new {A} (w : aworld A) vs m' l : good w vs -> (forall q, block m' q = if q =? zlen (wmem w) + 1 then Val l else block (wmem w) q) -> good (AW m' (wobj w ++ [Some (AO (zlen (wmem w) + 1) (zlen l))])) (vs ++ [Some l]).
Proof.
  intros (L & N & O & D & F) B. set (p := zlen (wmem w) + 1). set (o0 := AO p (zlen l)).
  assert (Go : forall i, lget (wobj w ++ [Some o0]) i = if i =? zlen vs then Some (Some o0) else lget (wobj w) i).
  { intros i. destruct (Z.eqb_spec i (zlen vs)) as [->|]; [rewrite <- L; apply lget_mid|]. destruct (Z.ltb_spec i (zlen vs)); [rewrite lget_app_l by lia; reflexivity|]. rewrite !lget_out; [reflexivity|lia|rewrite zlen_app; change (zlen [Some o0]) with 1; lia]. }
  assert (Gv : forall i, lget (vs ++ [Some l]) i = if i =? zlen vs then Some (Some l) else lget vs i).
  { intros i. destruct (Z.eqb_spec i (zlen vs)) as [->|]; [apply lget_mid|]. destruct (Z.ltb_spec i (zlen vs)); [rewrite lget_app_l by lia; reflexivity|]. rewrite !lget_out; [reflexivity|lia|rewrite zlen_app; change (zlen [Some l]) with 1; lia]. }
  assert (Np : forall i o, lget (wobj w) i = Some (Some o) -> aptr o <> p). { intros i o E Ep. destruct (O i o E) as (l' & _ & Bl & _). apply block_range in Bl. unfold p in *. lia. }
  unfold good. cbn [wobj wmem]. split; [rewrite !zlen_app; change (zlen [Some o0]) with 1; change (zlen [Some l]) with 1; lia|]. split; [|split; [|split]].
  - intros i. rewrite Go, Gv. destruct (i =? zlen vs); [split; discriminate|apply N].
  - intros i o E. rewrite Go in E. unfold var. rewrite Gv. destruct (Z.eqb_spec i (zlen vs)).
    + injection E as <-. exists l. split; [reflexivity|]. cbn [o0 aptr asize]. rewrite B. fold p. rewrite Z.eqb_refl. auto.
    + destruct (O i o E) as (l' & V' & B' & S'). exists l'. split; [exact V'|]. split; [|exact S']. rewrite B. fold p. destruct (Z.eqb_spec (aptr o) p) as [Ep|]; [destruct (Np i o E Ep)|exact B'].
  - intros i j oi oj Ei Ej Nij. rewrite Go in Ei, Ej. destruct (Z.eqb_spec i (zlen vs)), (Z.eqb_spec j (zlen vs)); try lia.
    + injection Ei as <-. cbn. intros Eq. apply (Np j oj Ej). congruence.
    + injection Ej as <-. cbn. apply (Np i oi Ei).
    + apply (D i j oi oj Ei Ej Nij).
  - intros q b Eq. rewrite B in Eq. fold p in Eq. destruct (Z.eqb_spec q p) as [->|Nq].
    + exists (zlen vs), o0. rewrite Go, Z.eqb_refl. auto.
    + destruct (F q b Eq) as (i & o & Ei & Ep). exists i, o. rewrite Go. destruct (Z.eqb_spec i (zlen vs)) as [->|]; [apply lget_some_range in Ei; lia|auto].
Qed.
(** a variable keeps its block and gets new contents of the same size *)
Lemma good_set {A} (w : aworld A) vs m' i o l l' : good w vs -> lget (wobj w) i = Some (Some o) -> var vs i l -> zlen l' = zlen l -> (forall q, block m' q = if q =? aptr o then Val l' else block (wmem w) q) ->
  exists vs', becomes vs i (Some l') vs' /\ good (AW m' (wobj w)) vs'.
Proof.
  intros (L & N & O & D & F) E V Hl B. destruct (lset_range vs i (Some l') (lget_some_range _ _ _ V)) as [vs' Ev]. exists vs'.
  assert (G : forall j, lget vs' j = if j =? i then Some (Some l') else lget vs j) by (intros j; apply (lset_get _ _ _ _ _ Ev)).
  split; [split; [apply (lset_zlen _ _ _ _ Ev)|exact G]|]. unfold good. cbn [wobj wmem]. rewrite (lset_zlen _ _ _ _ Ev). split; [exact L|]. split; [|split; [|split]].
  - intros j. rewrite G. destruct (Z.eqb_spec j i) as [->|]; [rewrite E; split; discriminate|apply N].
  - intros j oj Ej. unfold var. rewrite G, B. destruct (Z.eqb_spec j i) as [->|Nj].
    + rewrite E in Ej. injection Ej as <-. exists l'. rewrite Z.eqb_refl. split; [reflexivity|]. split; [reflexivity|]. destruct (O i o E) as (l0 & V0 & _ & S0). unfold var in *. rewrite V in V0. injection V0 as <-. lia.
    + destruct (O j oj Ej) as (l0 & V0 & B0 & S0). exists l0. split; [exact V0|]. split; [|exact S0]. destruct (Z.eqb_spec (aptr oj) (aptr o)) as [Ep|]; [|exact B0]. exfalso. apply (D j i oj o Ej E Nj Ep).
  - exact D.
  - intros q b Eq. rewrite B in Eq. destruct (Z.eqb_spec q (aptr o)) as [->|]; [exists i, o; auto|exact (F q b Eq)].
Qed.
(** a variable gives up its block *)
Lemma good_del {A} (w : aworld A) vs m' i o l os : good w vs -> lget (wobj w) i = Some (Some o) -> var vs i l -> lset (wobj w) i None = Some os -> (forall q, block m' q = if q =? aptr o then UB else block (wmem w) q) ->
  exists vs', becomes vs i None vs' /\ good (AW m' os) vs'.
Proof.
  intros (L & N & O & D & F) E V Eos B. destruct (lset_range vs i None (lget_some_range _ _ _ V)) as [vs' Ev]. exists vs'.
  assert (G : forall j, lget vs' j = if j =? i then Some None else lget vs j) by (intros j; apply (lset_get _ _ _ _ _ Ev)).
  assert (Go : forall j, lget os j = if j =? i then Some None else lget (wobj w) j) by (intros j; apply (lset_get _ _ _ _ _ Eos)).
  split; [split; [apply (lset_zlen _ _ _ _ Ev)|exact G]|]. unfold good. cbn [wobj wmem]. rewrite (lset_zlen _ _ _ _ Ev), (lset_zlen _ _ _ _ Eos). split; [exact L|]. split; [|split; [|split]].
  - intros j. rewrite G, Go. destruct (j =? i); [tauto|apply N].
  - intros j oj Ej. rewrite Go in Ej. unfold var. rewrite G, B. destruct (Z.eqb_spec j i) as [->|Nj]; [discriminate|].
    destruct (O j oj Ej) as (l0 & V0 & B0 & S0). exists l0. split; [exact V0|]. split; [|exact S0]. destruct (Z.eqb_spec (aptr oj) (aptr o)) as [Ep|]; [|exact B0]. exfalso. apply (D j i oj o Ej E Nj Ep).
  - intros j k oj ok Ej Ek. rewrite Go in Ej, Ek. destruct (j =? i); [discriminate|]. destruct (k =? i); [discriminate|]. apply (D j k oj ok Ej Ek).
  - intros q b Eq. rewrite B in Eq. destruct (Z.eqb_spec q (aptr o)) as [->|Nq]; [discriminate|]. destruct (F q b Eq) as (j & oj & Ej & Ep). exists j, oj. rewrite Go. destruct (Z.eqb_spec j i) as [->|]; [rewrite E in Ej; congruence|auto].
Qed.
(** a variable that has no block gets a fresh one *)
Lemma good_fill {A} (w : aworld A) vs m' i l os : good w vs -> lget (wobj w) i = Some None -> (forall q, block m' q = if q =? zlen (wmem w) + 1 then Val l else block (wmem w) q) ->
  lset (wobj w) i (Some (AO (zlen (wmem w) + 1) (zlen l))) = Some os -> exists vs', becomes vs i (Some l) vs' /\ good (AW m' os) vs'.
Proof.
  intros (L & N & O & D & F) E B Eos. set (p := zlen (wmem w) + 1) in *. set (o0 := AO p (zlen l)) in *. pose proof (lget_some_range _ _ _ E) as R. destruct (lset_range vs i (Some l) ltac:(lia)) as [vs' Ev]. exists vs'.
  assert (G : forall j, lget vs' j = if j =? i then Some (Some l) else lget vs j) by (intros j; apply (lset_get _ _ _ _ _ Ev)).
  assert (Go : forall j, lget os j = if j =? i then Some (Some o0) else lget (wobj w) j) by (intros j; apply (lset_get _ _ _ _ _ Eos)).
  assert (Np : forall i o, lget (wobj w) i = Some (Some o) -> aptr o <> p). { intros k o Ek Ep. destruct (O k o Ek) as (l' & _ & Bl & _). apply block_range in Bl. unfold p in *. lia. }
  split; [split; [apply (lset_zlen _ _ _ _ Ev)|exact G]|]. unfold good. cbn [wobj wmem]. rewrite (lset_zlen _ _ _ _ Ev), (lset_zlen _ _ _ _ Eos). split; [exact L|]. split; [|split; [|split]].
  - intros j. rewrite G, Go. destruct (j =? i); [split; discriminate|apply N].
  - intros j oj Ej. rewrite Go in Ej. unfold var. rewrite G, B. destruct (Z.eqb_spec j i) as [->|Nj].
    + injection Ej as <-. exists l. cbn [o0 aptr asize]. rewrite Z.eqb_refl. auto.
    + destruct (O j oj Ej) as (l0 & V0 & B0 & S0). exists l0. split; [exact V0|]. split; [|exact S0]. destruct (Z.eqb_spec (aptr oj) p) as [Ep|]; [|exact B0]. destruct (Np j oj Ej Ep).
  - intros j k oj ok Ej Ek Njk. rewrite Go in Ej, Ek. destruct (Z.eqb_spec j i), (Z.eqb_spec k i); try lia.
    + injection Ej as <-. cbn. intros Eq. apply (Np k ok Ek). congruence.
    + injection Ek as <-. cbn. apply (Np j oj Ej).
    + apply (D j k oj ok Ej Ek Njk).
  - intros q b Eq. rewrite B in Eq. destruct (Z.eqb_spec q p) as [->|Nq].
    + exists i, o0. rewrite Go, Z.eqb_refl. auto.
    + destruct (F q b Eq) as (j & oj & Ej & Ep). exists j, oj. rewrite Go. destruct (Z.eqb_spec j i) as [->|]; [congruence|auto].
Qed.
Lemma arr_copy_ok {A} (dflt : A) (m : mem A) o l : block m (aptr o) = Val l -> asize o = zlen l ->
  exists m', arr_copy dflt m o = Val (m', AO (zlen m + 1) (zlen l)) /\ forall q, block m' q = if q =? zlen m + 1 then Val l else block m q.
Proof.
  intros B S. pose proof (zlen_nonneg l) as L0. pose proof (block_range _ _ _ B) as R. unfold arr_copy, new_block. rewrite S. replace (zlen l <? 0) with false by lia. cbn [bind]. rewrite !new_block_get, Z.eqb_refl. cbn [bind]. replace (aptr o =? zlen m + 1) with false by lia. rewrite B. cbn [bind].
  rewrite copy_loop_ok; [|lia|lia|rewrite zlen_repeat; lia|intros j Hj; rewrite !lget_out; [reflexivity|lia|lia]]. cbn [bind]. unfold put_block. rewrite new_block_get, Z.eqb_refl. cbn [bind].
  destruct (put_ok (m ++ [Some (repeat dflt (Z.to_nat (zlen l)))]) (zlen m + 1) (repeat dflt (Z.to_nat (zlen l))) (Some l)) as (m' & -> & _ & G); [rewrite new_block_get, Z.eqb_refl; reflexivity|]. cbn [bind]. exists m'. split; [reflexivity|]. intros q. rewrite G, new_block_get. destruct (q =? zlen m + 1); reflexivity.
Qed.
Lemma astep_ok {A} (dflt : A) gt o w vs : preorder (fun x y => gt x y = false) -> good w vs -> adef o vs -> exists a w' vs', aexec dflt gt o w = Val (a, w') /\ astep dflt gt o vs a vs' /\ good w' vs'.
Proof.
  intros Pre G H. destruct o as [n|j|i j|i k|i k x|i|i|i]; cbn [aexec adef] in *.
  - unfold arr_new, new_block. destruct (Z.ltb_spec n 0); cbn [bind athrown]; [exists AThrow, w, vs; split; [reflexivity|]; split; [now constructor|exact G]|].
    eexists AUnit, _, _. split; [reflexivity|]. split; [now constructor|]. pose proof (good_new w vs (wmem w ++ [Some (repeat dflt (Z.to_nat n))]) (repeat dflt (Z.to_nat n)) G) as K. rewrite zlen_repeat in K. replace (Z.of_nat (Z.to_nat n)) with n in K by lia. apply K. intros q. apply new_block_get.
  - destruct H as [l V]. destruct (good_obj w vs j l G V) as (o & E & -> & B & S). cbn [bind]. destruct (arr_copy_ok dflt (wmem w) o l B S) as (m' & -> & Bm). cbn [athrown]. eexists AUnit, _, _. split; [reflexivity|]. split; [econstructor; exact V|]. now apply good_new.
  - destruct H as [[l0 V0] [l V]]. destruct (good_obj w vs i l0 G V0) as (oi & Ei & -> & Bi & Si). destruct (good_obj w vs j l G V) as (oj & Ej & -> & Bj & Sj). cbn [bind]. destruct (Z.eqb_spec i j) as [->|N].
    + exists AUnit, w, vs. split; [reflexivity|]. split; [|exact G]. apply a_assign with l l0; auto. split; [reflexivity|]. intros k. destruct (Z.eqb_spec k j) as [->|]; [exact V|reflexivity].
    + unfold arr_assign, del_block. rewrite Bi. cbn [bind]. destruct (put_ok (wmem w) (aptr oi) l0 None Bi) as (m1 & -> & Zm & G1). cbn [bind].
      assert (Dij : aptr oj <> aptr oi) by (destruct G as (_ & _ & _ & D & _); apply (D j i oj oi Ej Ei); auto).
      assert (Bj1 : block m1 (aptr oj) = Val l) by (rewrite G1; destruct (Z.eqb_spec (aptr oj) (aptr oi)); [contradiction|exact Bj]).
      destruct (arr_copy_ok dflt m1 oj l Bj1 Sj) as (m2 & -> & G2). cbn [athrown]. pose proof (lget_some_range _ _ _ Ei) as Ri. destruct (lset_range (wobj w) i (Some (AO (zlen m1 + 1) (zlen l))) Ri) as [os Eos]. unfold wr. rewrite Eos. cbn [bind].
      destruct (lset_range (wobj w) i None Ri) as [os1 Eos1]. destruct (good_del w vs m1 i oi l0 os1 G Ei V0 Eos1 G1) as (vs1 & [Zv1 Gv1] & Good1).
      assert (Gi1 : lget os1 i = Some None) by (rewrite (lset_get _ _ _ _ _ Eos1), Z.eqb_refl; reflexivity).
      assert (Eos2 : lset os1 i (Some (AO (zlen m1 + 1) (zlen l))) = Some os).
      { destruct (lset_range os1 i (Some (AO (zlen m1 + 1) (zlen l)))) as [os2 E2]; [rewrite (lset_zlen _ _ _ _ Eos1); lia|]. rewrite E2. f_equal. apply lget_ext. intros k. rewrite (lset_get _ _ _ _ _ E2), (lset_get _ _ _ _ _ Eos), (lset_get _ _ _ _ _ Eos1). now destruct (k =? i). }
      destruct (good_fill (AW m1 os1) vs1 m2 i l os Good1 Gi1 G2 Eos2) as (vs2 & [Zv2 Gv2] & Good2).
      eexists AUnit, _, vs2. split; [reflexivity|]. split; [|exact Good2]. apply a_assign with l l0; auto. split; [lia|]. intros k. rewrite Gv2, Gv1. now destruct (k =? i).
  - destruct H as [l V]. destruct (good_obj w vs i l G V) as (o & E & -> & B & S). cbn [bind]. unfold arr_get. rewrite S. destruct ((k <? 0) || (k >=? zlen l)) eqn:C.
    + cbn [athrown]. exists AThrow, w, vs. split; [reflexivity|]. split; [apply a_get_bad with l; [exact V|lia]|exact G].
    + rewrite B. cbn [bind]. unfold rd. destruct (lget_range l k ltac:(lia)) as [x Ex]. rewrite Ex. cbn [athrown]. exists (AVal x), w, vs. split; [reflexivity|]. split; [now apply a_get with l|exact G].
  - destruct H as [l V]. destruct (good_obj w vs i l G V) as (o & E & -> & B & S). cbn [bind]. unfold arr_set. rewrite S. destruct ((k <? 0) || (k >=? zlen l)) eqn:C.
    + cbn [athrown]. exists AThrow, w, vs. split; [reflexivity|]. split; [apply a_set_bad with l; [exact V|lia]|exact G].
    + rewrite B. cbn [bind]. destruct (lset_range l k x ltac:(lia)) as [l' El]. unfold wr at 1. rewrite El. cbn [bind]. unfold put_block. rewrite B. cbn [bind]. destruct (put_ok (wmem w) (aptr o) l (Some l') B) as (m' & -> & _ & Gm). cbn [athrown].
      destruct (good_set w vs m' i o l l' G E V (lset_zlen _ _ _ _ El) Gm) as (vs' & Bc & Good'). eexists AUnit, _, vs'. split; [reflexivity|]. split; [|exact Good']. apply a_set with l l'; [exact V|lia| |exact Bc]. split; [apply (lset_zlen _ _ _ _ El)|]. intros j. apply (lset_get _ _ _ _ _ El).
  - destruct H as [l V]. destruct (good_obj w vs i l G V) as (o & E & -> & B & S). cbn [bind]. unfold arr_sort. rewrite S. cbn [negb]. destruct (Z.ltb_spec (zlen l) 1).
    + cbn [bind]. exists AUnit, (AW (wmem w) (wobj w)), vs. split; [reflexivity|]. split; [|destruct w; exact G]. apply a_sort with l l; [exact V| |split; [reflexivity|intros j; destruct (Z.eqb_spec j i) as [->|]; [exact V|reflexivity]]]. split; [reflexivity|]. split; [|intros z; reflexivity]. intros a b x y _ Ga. apply lget_some_range in Ga. lia.
    + rewrite B. cbn [bind]. destruct (sort_pre gt l Pre) as (l' & -> & Zl & So). cbn [bind]. unfold put_block. rewrite B. cbn [bind]. destruct (put_ok (wmem w) (aptr o) l (Some l') B) as (m' & -> & _ & Gm). cbn [bind].
      destruct (good_set w vs m' i o l l' G E V Zl Gm) as (vs' & Bc & Good'). eexists AUnit, _, vs'. split; [reflexivity|]. split; [|exact Good']. now apply a_sort with l l'.
  - destruct H as [l V]. destruct (good_obj w vs i l G V) as (o & E & -> & B & S). cbn [bind]. rewrite S. exists (ANum (zlen l)), w, vs. split; [reflexivity|]. split; [now constructor|exact G].
  - destruct H as [l V]. destruct (good_obj w vs i l G V) as (o & E & -> & B & S). cbn [bind]. unfold arr_destroy, del_block. rewrite B. cbn [bind]. destruct (put_ok (wmem w) (aptr o) l None B) as (m' & -> & _ & Gm). cbn [bind]. destruct (lset_range (wobj w) i None (lget_some_range _ _ _ E)) as [os Eos]. unfold wr. rewrite Eos. cbn [bind].
    destruct (good_del w vs m' i o l os G E V Eos Gm) as (vs' & Bc & Good'). eexists AUnit, _, vs'. split; [reflexivity|]. split; [|exact Good']. now apply a_destroy with l.
Qed.

(** pointers: the comparison reaches the first nullptr *)
Lemma ptr_pass_null {A} (gt : A -> A -> bool) k : forall (l : list (option A)) i newn n, 0 <= i < n -> n - i <= Z.of_nat k -> n < zlen l -> lget l n = Some None -> (forall j, j < n -> lget l j <> Some None) ->
  bubble_pass (fun x y => match x, y with Some x, Some y => Val (gt x y) | _, _ => UB end) (fun x y => Val (y, x)) l i newn k = UB.
Proof.
  induction k as [|k IH]; intros l i newn n Hi Hk Hn E N; [lia|]. cbn [bubble_pass]. destruct (lget_range l i ltac:(lia)) as [a Ea]. destruct (lget_range l (i + 1) ltac:(lia)) as [b Eb]. unfold rd at 1. rewrite Ea. cbn [bind]. unfold rd at 1. rewrite Eb. cbn [bind].
  destruct a as [a|]; [|destruct (N i ltac:(lia) Ea)]. destruct b as [b|]; [|reflexivity].
  assert (i + 1 < n). { destruct (Z.eq_dec (i + 1) n) as [En|]; [rewrite En in Eb; congruence|lia]. }
  cbn [bind]. destruct (gt a b); [|apply (IH l (i + 1) newn n); auto; lia].
  destruct (lset_range l i (Some b) ltac:(lia)) as [l1 E1]. destruct (lset_range l1 (i + 1) (Some a)) as [l2 E2]; [rewrite (lset_zlen _ _ _ _ E1); lia|]. unfold wr at 1. rewrite E1. cbn [bind]. unfold wr at 1. rewrite E2. cbn [bind].
  assert (G : forall j, lget l2 j = if j =? i + 1 then Some (Some a) else if j =? i then Some (Some b) else lget l j) by (intros j; rewrite (lset_get _ _ _ _ _ E2), (lset_get _ _ _ _ _ E1); reflexivity).
  apply (IH l2 (i + 1) (i + 1) n); [lia|lia|rewrite (lset_zlen _ _ _ _ E2), (lset_zlen _ _ _ _ E1); lia| |].
  - rewrite G. replace (n =? i + 1) with false by lia. replace (n =? i) with false by lia. exact E.
  - intros j Hj. rewrite G. destruct (j =? i + 1); [discriminate|]. destruct (j =? i); [discriminate|]. now apply N.
Qed.

(** floats without NaN are ordered *)
From Coq Require Import Floats.SpecFloat.
Definition fkey (x : spec_float) : Z * Z * Z :=
  match x with
  | S754_zero _ => (0, 0, 0)
  | S754_infinity true => (-2, 0, 0) | S754_infinity false => (2, 0, 0)
  | S754_nan => (3, 0, 0)
  | S754_finite true m e => (-1, - e, - Zpos m)
  | S754_finite false m e => (1, e, Zpos m)
  end.
Definition lex (a b : Z * Z * Z) : Prop := let '(a1, a2, a3) := a in let '(b1, b2, b3) := b in a1 < b1 \/ a1 = b1 /\ (a2 < b2 \/ a2 = b2 /\ a3 <= b3).
Definition fgt (x y : spec_float) : bool := match x, y with S754_nan, S754_nan => false | S754_nan, _ => true | _, S754_nan => false | _, _ => float_gt x y end.
Lemma fgt_key x y : fgt x y = false <-> lex (fkey x) (fkey y).
Proof.
  unfold fgt, float_gt, SFltb, SFcompare, lex, fkey.
  destruct x as [sx|[]| |[] mx ex], y as [sy|[]| |[] my ey]; try (split; [intros _; lia|reflexivity]); try (split; [discriminate|lia]);
    change Pos.compare_cont with Pos.compare_cont; rewrite ?Pos.compare_cont_spec; destruct (Z.compare_spec ey ex) as [He|He|He]; destruct (Pos.compare_spec my mx) as [Hm|Hm|Hm]; cbn [CompOpp]; (split; [try discriminate; intros _; subst; lia|intros L; try reflexivity; exfalso; subst; lia]).
Qed.
Lemma fgt_preorder : preorder (fun x y => fgt x y = false).
Proof.
  split; [intros x; apply fgt_key; destruct (fkey x) as [[a b] c]; cbn; lia|]. split.
  - intros x y z. rewrite !fgt_key. destruct (fkey x) as [[a b] c], (fkey y) as [[a' b'] c'], (fkey z) as [[a'' b''] c'']. cbn. lia.
  - intros x y. rewrite !fgt_key. destruct (fkey x) as [[a b] c], (fkey y) as [[a' b'] c']. cbn. lia.
Qed.
