From Verif Require Import Base M_Sort S_Sort L_Sort M_ByteArray S_ByteArray.
Ltac Zify.zify_post_hook ::= Z.to_euclidean_division_equations.

Definition bexec (o : bop) (b : barr) : out (bans * barr) :=
  match o with
  | BSet i v => let* b := ba_set b i v in Val (BUnit, b)
  | BGet i => let* v := ba_get b i in Val (BNum v, b)
  | BFill v => let* b := ba_fill b v in Val (BUnit, b)
  | BReplace x y => let* b := ba_replace b x y in Val (BUnit, b)
  | BSort => let* b := ba_sort b in Val (BUnit, b)
  | BResize n => let* b := ba_resize b n in Val (BUnit, b)
  | BSize => Val (BNum (bn b), b)
  end.
Fixpoint bexec_all (os : list bop) (b : barr) : out (list bans * barr) :=
  match os with [] => Val ([], b) | o :: os => let* (a, b) := bexec o b in let* (r, b) := bexec_all os b in Val (a :: r, b) end.
(** the block that stands for a client view *)
Definition rep (v : vec) : barr := BA (Some (map Some (vstore v) ++ [vlast v])) (vn v).

Lemma write_loop_ok f g : forall k l i, 0 <= i -> i + Z.of_nat k <= zlen l -> (forall j, i <= j < i + Z.of_nat k -> f j = Val (g j)) ->
  exists l', write_loop l f i k = Val l' /\ zlen l' = zlen l /\ forall j, lget l' j = if (i <=? j) && (j <? i + Z.of_nat k) then Some (g j) else lget l j.
Proof.
  induction k as [|k IH]; intros l i Hi Hk Hf; cbn [write_loop].
  - exists l. split; [reflexivity|]. split; [reflexivity|]. intros j. destruct (Z.leb_spec i j), (Z.ltb_spec j (i + Z.of_nat 0)); cbn [andb]; try reflexivity; lia.
  - rewrite Hf by lia. cbn [bind]. destruct (lset_range l i (g i) ltac:(lia)) as [l1 E]. unfold wr. rewrite E. cbn [bind]. pose proof (lset_zlen _ _ _ _ E) as Z1.
    destruct (IH l1 (i + 1) ltac:(lia) ltac:(lia)) as (l' & -> & Z2 & G); [intros j Hj; apply Hf; lia|]. exists l'. split; [reflexivity|]. split; [lia|].
    intros j. rewrite G, (lset_get _ _ _ _ _ E). destruct (Z.leb_spec (i + 1) j), (Z.ltb_spec j (i + 1 + Z.of_nat k)), (Z.leb_spec i j), (Z.ltb_spec j (i + Z.of_nat (S k))), (Z.eqb_spec j i); cbn [andb]; try lia; try reflexivity. now subst.
Qed.
Lemma lget_firstn {A} (l : list A) n i : lget (firstn (Z.to_nat n) l) i = if i <? n then lget l i else None.
Proof.
  destruct (Z.ltb_spec i 0); [rewrite !lget_out by lia; now destruct (i <? n)|]. unfold lget. replace (i <? 0) with false by lia.
  destruct (Z.ltb_spec i n).
  - revert i n H H0. induction l as [|a l IH]; intros i n H H0; [rewrite firstn_nil; reflexivity|]. destruct (Z.to_nat n) as [|m] eqn:E; [lia|]. cbn [firstn]. destruct (Z.to_nat i) as [|j] eqn:E2; [reflexivity|]. cbn [nth_error].
    replace m with (Z.to_nat (n - 1)) by lia. replace j with (Z.to_nat (i - 1)) by lia. apply IH; lia.
  - apply nth_error_None. rewrite firstn_length. lia.
Qed.
Lemma lget_skipn {A} (l : list A) n i : 0 <= n -> lget (skipn (Z.to_nat n) l) i = if i <? 0 then None else lget l (i + n).
Proof.
  intros Hn. destruct (Z.ltb_spec i 0); [now rewrite lget_out by lia|]. unfold lget. replace (i <? 0) with false by lia. replace (i + n <? 0) with false by lia.
  replace (Z.to_nat (i + n)) with (Z.to_nat n + Z.to_nat i)%nat by lia. generalize (Z.to_nat n) as m. intros m. revert l. induction m as [|m IH]; intros l; [reflexivity|]. destruct l; [now destruct (Z.to_nat i)|]. cbn. apply IH.
Qed.
Lemma zlen_firstn {A} (l : list A) n : 0 <= n <= zlen l -> zlen (firstn (Z.to_nat n) l) = n.
Proof. unfold zlen. intros H. rewrite firstn_length. lia. Qed.
Lemma zlen_skipn {A} (l : list A) n : 0 <= n <= zlen l -> zlen (skipn (Z.to_nat n) l) = zlen l - n.
Proof. unfold zlen. intros H. rewrite skipn_length. lia. Qed.
Lemma upd_get l i v j : 0 <= i < zlen l -> lget (upd l i v) j = if j =? i then Some v else lget l j.
Proof.
  intros H. unfold upd. destruct (Z.ltb_spec j i).
  - rewrite lget_app_l by (rewrite zlen_firstn; lia). rewrite lget_firstn. replace (j <? i) with true by lia. now replace (j =? i) with false by lia.
  - rewrite lget_app_r by (rewrite zlen_firstn; lia). rewrite zlen_firstn by lia. destruct (Z.eqb_spec j i) as [->|N]; [rewrite Z.sub_diag; reflexivity|]. rewrite lget_cons_S by lia. rewrite lget_skipn by lia. replace (j - i - 1 <? 0) with false by lia. f_equal. lia.
Qed.
Lemma upd_zlen l i v : 0 <= i < zlen l -> zlen (upd l i v) = zlen l.
Proof. intros H. unfold upd. rewrite zlen_app, zlen_cons, zlen_firstn, zlen_skipn by lia. lia. Qed.
Lemma contents_zlen v : vok v -> zlen (contents v) = vn v. Proof. intros H. apply zlen_firstn. exact H. Qed.
Lemma contents_hidden v : contents v ++ hidden v = vstore v. Proof. apply firstn_skipn. Qed.
Lemma hidden_zlen v : vok v -> zlen (hidden v) = zlen (vstore v) - vn v. Proof. intros H. apply zlen_skipn. exact H. Qed.
Lemma raw_rep v : raw (rep v) = zlen (vstore v) + 1.
Proof. unfold raw, rep. cbn [bd]. rewrite zlen_app, zlen_map. reflexivity. Qed.
Lemma rep_get s (x : option Z) j : lget (map Some s ++ [x]) j = if j =? zlen s then Some x else option_map Some (lget s j).
Proof.
  destruct (Z.eqb_spec j (zlen s)) as [->|N]; [replace (zlen s) with (zlen (map Some s)) by apply zlen_map; apply lget_mid|].
  destruct (Z.ltb_spec j (zlen s)); [rewrite lget_app_l by (rewrite zlen_map; lia); apply lget_map|]. rewrite lget_out by (rewrite zlen_app, zlen_map; change (zlen [x]) with 1; lia). now rewrite lget_out by lia.
Qed.
Lemma wr_rep s (x : option Z) i v : 0 <= i < zlen s -> wr (map Some s ++ [x]) i (Some v) = Val (map Some (upd s i v) ++ [x]).
Proof.
  intros H. destruct (lset_range (map Some s ++ [x]) i (Some v)) as [l E]; [rewrite zlen_app, zlen_map; change (zlen [x]) with 1; lia|]. unfold wr. rewrite E. f_equal. apply lget_ext. intros j.
  rewrite (lset_get _ _ _ _ _ E), !rep_get, upd_zlen, upd_get by lia. destruct (Z.eqb_spec j i), (Z.eqb_spec j (zlen s)); try lia; reflexivity.
Qed.
Lemma wr_last s (x : option Z) v : wr (map Some s ++ [x]) (zlen s) v = Val (map Some s ++ [v]).
Proof. apply wr_mid. now rewrite zlen_map. Qed.
Lemma blk_rep v : blk (rep v) = Val (map Some (vstore v) ++ [vlast v]). Proof. reflexivity. Qed.
Lemma zlen_rep s (x : option Z) : zlen (map Some s ++ [x]) = zlen s + 1. Proof. rewrite zlen_app, zlen_map. reflexivity. Qed.

Lemma get_ok v i : bdef (BGet i) v -> exists x, ba_get (rep v) i = Val x /\ bstep (BGet i) v (BNum x) v.
Proof.
  intros H. unfold ba_get. rewrite blk_rep. cbn [bind]. unfold rd. rewrite rep_get. destruct (Z.eqb_spec i (zlen (vstore v))) as [->|N].
  - destruct H as [H|[_ H]]; [lia|]. destruct (vlast v) as [x|] eqn:E; [|contradiction]. exists x. split; [reflexivity|]. now constructor.
  - destruct H as [H|H]; [|lia]. destruct (lget_range _ _ H) as [x E]. rewrite E. exists x. split; [reflexivity|]. now constructor.
Qed.
Lemma get_bad v i : ~ bdef (BGet i) v -> ba_get (rep v) i = UB.
Proof.
  intros H. unfold ba_get. rewrite blk_rep. cbn [bind]. unfold rd. rewrite rep_get. cbn [bdef] in H. destruct (Z.eqb_spec i (zlen (vstore v))) as [->|N].
  - destruct (vlast v) as [x|]; [|reflexivity]. exfalso. apply H. right. split; [reflexivity|discriminate].
  - destruct (lget (vstore v) i) as [x|] eqn:E; [|reflexivity]. exfalso. apply H. left. now apply lget_some_range in E.
Qed.
Lemma replace_loop_ok oldv newv : forall k s x i, 0 <= i -> i + Z.of_nat k <= zlen s ->
  exists s', replace_loop (map Some s ++ [x]) oldv newv i k = Val (map Some s' ++ [x]) /\ zlen s' = zlen s /\
    forall j, lget s' j = if (i <=? j) && (j <? i + Z.of_nat k) then option_map (fun c => if c =? oldv then newv else c) (lget s j) else lget s j.
Proof.
  induction k as [|k IH]; intros s x i Hi Hk; cbn [replace_loop].
  - exists s. split; [reflexivity|]. split; [reflexivity|]. intros j. destruct (Z.leb_spec i j), (Z.ltb_spec j (i + Z.of_nat 0)); cbn [andb]; try reflexivity; lia.
  - destruct (lget_range s i ltac:(lia)) as [c Ec]. unfold rd at 1. rewrite rep_get. replace (i =? zlen s) with false by lia. rewrite Ec. cbn [option_map bind det]. destruct (Z.eqb_spec c oldv) as [->|Nc].
    + rewrite wr_rep by lia. cbn [bind]. destruct (IH (upd s i newv) x (i + 1)) as (s' & -> & Z1 & G); [lia|rewrite upd_zlen; lia|]. exists s'. split; [reflexivity|]. rewrite upd_zlen in Z1 by lia. split; [exact Z1|]. intros j. rewrite G, upd_get by lia.
      destruct (Z.leb_spec (i + 1) j), (Z.ltb_spec j (i + 1 + Z.of_nat k)), (Z.leb_spec i j), (Z.ltb_spec j (i + Z.of_nat (S k))), (Z.eqb_spec j i); cbn [andb]; try lia; try reflexivity. subst. rewrite Ec. cbn. now rewrite Z.eqb_refl.
    + destruct (IH s x (i + 1)) as (s' & -> & Z1 & G); [lia|lia|]. exists s'. split; [reflexivity|]. split; [exact Z1|]. intros j. rewrite G.
      destruct (Z.leb_spec (i + 1) j), (Z.ltb_spec j (i + 1 + Z.of_nat k)), (Z.leb_spec i j), (Z.ltb_spec j (i + Z.of_nat (S k))), (Z.eqb_spec j i); cbn [andb]; try lia; try reflexivity. subst. rewrite Ec. cbn. destruct (Z.eqb_spec c oldv); [contradiction|reflexivity].
Qed.
Lemma lget_contents_app v (f : Z -> Z) j : vok v -> lget (map f (contents v) ++ hidden v) j = if (0 <=? j) && (j <? vn v) then option_map f (lget (vstore v) j) else lget (vstore v) j.
Proof.
  intros H. pose proof (contents_zlen v H) as L. destruct (Z.ltb_spec j (vn v)).
  - rewrite lget_app_l by (rewrite zlen_map; lia). rewrite lget_map. unfold contents. rewrite lget_firstn. replace (j <? vn v) with true by lia. destruct (Z.leb_spec 0 j); [reflexivity|]. cbn. now rewrite lget_out by lia.
  - rewrite lget_app_r by (rewrite zlen_map; lia). rewrite zlen_map, L, andb_false_r. unfold hidden, vok in *. rewrite lget_skipn by lia. replace (j - vn v <? 0) with false by lia. f_equal. lia.
Qed.
Lemma le_preorder : preorder Z.le. Proof. split; [intros x; lia|]. split; intros; lia. Qed.
Lemma step_ok o v : vok v -> bdef o v -> exists a v', bexec o (rep v) = Val (a, rep v') /\ bstep o v a v' /\ vok v'.
Proof.
  intros V H. pose proof (zlen_nonneg (vstore v)) as L0. destruct o as [i x|i|x|x y| |n|].
  - cbn [bdef] in H. destruct (Z.eq_dec i (zlen (vstore v))) as [->|N].
    + exists BUnit, (VEC (vstore v) (vn v) (Some x)). split; [|split; [constructor|exact V]]. cbn [bexec]. unfold ba_set. rewrite blk_rep. cbn [bind]. rewrite wr_last. reflexivity.
    + exists BUnit, (VEC (upd (vstore v) i x) (vn v) (vlast v)). split; [|split; [constructor; lia|unfold vok in *; cbn; rewrite upd_zlen; lia]]. cbn [bexec]. unfold ba_set. rewrite blk_rep. cbn [bind]. rewrite wr_rep by lia. reflexivity.
  - destruct (get_ok v i H) as (x & E & S). exists (BNum x), v. cbn [bexec]. rewrite E. auto.
  - exists BUnit, (VEC (map (fun _ => x) (contents v) ++ hidden v) (vn v) (vlast v)). split; [|split; [constructor|unfold vok in *; cbn; rewrite zlen_app, zlen_map, contents_zlen, hidden_zlen by exact V; lia]].
    assert (K : forall l', zlen l' = zlen (vstore v) + 1 -> (forall j, lget l' j = if (0 <=? j) && (j <? vn v) then Some (Some x) else lget (map Some (vstore v) ++ [vlast v]) j) -> l' = map Some (map (fun _ => x) (contents v) ++ hidden v) ++ [vlast v]).
    { intros l' Z1 G. apply lget_ext. intros j. rewrite G, !rep_get, lget_contents_app, zlen_app, zlen_map, contents_zlen, hidden_zlen by exact V. unfold vok in V. replace (vn v + (zlen (vstore v) - vn v)) with (zlen (vstore v)) by lia.
      destruct ((0 <=? j) && (j <? vn v)) eqn:B; [|reflexivity]. replace (j =? zlen (vstore v)) with false by lia. destruct (lget_range (vstore v) j ltac:(lia)) as [c ->]. reflexivity. }
    cbn [bexec]. unfold ba_fill. change (bn (rep v)) with (vn v). destruct (Z.leb_spec (vn v) 0).
    + cbn [bind]. unfold rep. cbn [vstore vn vlast]. do 4 f_equal. apply K; [apply zlen_rep|]. intros j. destruct ((0 <=? j) && (j <? vn v)) eqn:B; [lia|reflexivity].
    + rewrite blk_rep. cbn [bind]. destruct (write_loop_ok (fun _ => Val (Some x)) (fun _ => Some x) (Z.to_nat (vn v)) (map Some (vstore v) ++ [vlast v]) 0) as (l' & -> & Z1 & G); [lia|rewrite zlen_rep; unfold vok in V; lia|reflexivity|]. cbn [bind]. rewrite (K l'); [reflexivity|exact (eq_trans Z1 (zlen_rep _ _))|]. intros j. rewrite G. now replace (0 + Z.of_nat (Z.to_nat (vn v))) with (vn v) by lia.
  - exists BUnit, (VEC (map (fun c => if c =? x then y else c) (contents v) ++ hidden v) (vn v) (vlast v)). split; [|split; [constructor|unfold vok in *; cbn; rewrite zlen_app, zlen_map, contents_zlen, hidden_zlen by exact V; lia]].
    cbn [bexec]. unfold ba_replace. change (bn (rep v)) with (vn v). unfold vok in V. destruct (Z.leb_spec (vn v) 0).
    + cbn [bind]. unfold rep. cbn [vstore vn vlast]. do 6 f_equal. apply lget_ext. intros j. rewrite lget_contents_app by exact V. destruct ((0 <=? j) && (j <? vn v)) eqn:B; [lia|reflexivity].
    + rewrite blk_rep. cbn [bind]. destruct (replace_loop_ok x y (Z.to_nat (vn v)) (vstore v) (vlast v) 0) as (s' & -> & Z1 & G); [lia|lia|]. cbn [bind]. unfold rep. cbn [vstore vn vlast]. do 6 f_equal. apply lget_ext. intros j. rewrite lget_contents_app by exact V. rewrite G. now replace (0 + Z.of_nat (Z.to_nat (vn v))) with (vn v) by lia.
  - cbn [bexec]. unfold ba_sort. change (bn (rep v)) with (vn v). pose proof (contents_zlen v V) as Lc. pose proof (hidden_zlen v V) as Lh. unfold vok in V. destruct (Z.ltb_spec (vn v) 1).
    + cbn [bind]. exists BUnit, v. split; [reflexivity|]. split; [|exact V]. replace v with (VEC (contents v ++ hidden v) (vn v) (vlast v)) at 2 by (rewrite contents_hidden; now destruct v). constructor; [reflexivity|]. intros i j a b _ G. apply lget_some_range in G. lia.
    + rewrite blk_rep. cbn [bind].
      destruct (sort_ok (fun c : cell => match c with Some z => z | None => 0 end) (fun c => c <> None) Z.le Z.gtb (fun c1 c2 => let* v1 := det c1 in let* v2 := det c2 in Val (v1 >? v2)) (fun c1 c2 => Val (c2, c1))) with (l := map Some (contents v)) (junk := map Some (hidden v) ++ [vlast v]) as (l' & E & P1 & Z1 & Pm & _ & So).
      { intros [a|] [b|] Ha Hb; try contradiction; reflexivity. } { intros a b Ha Hb. exists b, a. auto. } { apply le_preorder. } { intros a b. lia. } { apply Forall_forall. intros c Hc. apply in_map_iff in Hc as (z & <- & _). discriminate. }
      rewrite zlen_map, Lc, app_assoc, <- map_app, contents_hidden in E. rewrite E. cbn [bind].
      assert (M : exists t, l' = map Some t). { clear -P1. induction P1 as [|c l Hc P1 IH]; [exists []; reflexivity|]. destruct IH as [t ->]. destruct c as [z|]; [|contradiction]. exists (z :: t). reflexivity. }
      destruct M as [t ->]. assert (Vt : forall u, view (fun c : cell => match c with Some z => z | None => 0 end) (map Some u) = u) by (intros u; unfold view; rewrite map_map; apply map_id). rewrite !Vt in *.
      exists BUnit, (VEC (t ++ hidden v) (vn v) (vlast v)). split; [unfold rep; cbn [vstore vn vlast]; rewrite map_app, <- app_assoc; reflexivity|]. split; [now constructor|]. unfold vok. cbn [vn vstore]. rewrite !zlen_map in Z1. rewrite zlen_app. lia.
  - cbn [bdef] in H. cbn [bexec]. unfold ba_resize. rewrite raw_rep. change (bn (rep v)) with (vn v). unfold vok in V. destruct (Z.leb_spec n (zlen (vstore v) + 1 - 1)).
    + rewrite blk_rep. cbn [bind]. destruct (Z.eq_dec n (zlen (vstore v))) as [->|N].
      * rewrite wr_last. exists BUnit, (VEC (vstore v) (zlen (vstore v)) (Some 0)). split; [reflexivity|]. split; [constructor|unfold vok; cbn; lia].
      * rewrite wr_rep by lia. exists BUnit, (VEC (upd (vstore v) n 0) n (vlast v)). split; [reflexivity|]. split; [constructor; lia|]. unfold vok; cbn. rewrite upd_zlen; lia.
    + unfold chk64, in_s64. replace ((-9223372036854775808 <=? n + 1) && (n + 1 <=? 9223372036854775807)) with true by lia. cbn [bind]. unfold fresh. replace (n + 1 <? 0) with false by lia. cbn [bind].
      set (t0 := repeat (@None Z) (Z.to_nat (n + 1))). assert (Zt : zlen t0 = n + 1) by (unfold t0; rewrite zlen_repeat; lia).
      assert (T0 : forall j, lget t0 j = if (0 <=? j) && (j <? n + 1) then Some None else None).
      { intros j. destruct ((0 <=? j) && (j <? n + 1)) eqn:B; [|now rewrite lget_out by lia]. destruct (lget_range t0 j ltac:(lia)) as [c G]. rewrite G. f_equal. apply lget_In in G. unfold t0 in G. now apply repeat_spec in G. }
      assert (T1 : exists t1, (if vn v <=? 0 then Val t0 else let* l := blk (rep v) in write_loop t0 (fun i => rd l i) 0 (Z.to_nat (vn v))) = Val t1 /\ zlen t1 = n + 1 /\ forall j, lget t1 j = if (0 <=? j) && (j <? vn v) then option_map Some (lget (vstore v) j) else lget t0 j).
      { destruct (Z.leb_spec (vn v) 0).
        - exists t0. split; [reflexivity|]. split; [exact Zt|]. intros j. destruct ((0 <=? j) && (j <? vn v)) eqn:B; [lia|reflexivity].
        - rewrite blk_rep. cbn [bind]. destruct (write_loop_ok (fun i => rd (map Some (vstore v) ++ [vlast v]) i) (fun i => match lget (vstore v) i with Some z => Some z | None => None end) (Z.to_nat (vn v)) t0 0) as (l' & E1 & Z1 & G); [lia|lia| |].
          + intros j Hj. unfold rd. rewrite rep_get. replace (j =? zlen (vstore v)) with false by lia. destruct (lget_range (vstore v) j ltac:(lia)) as [c ->]. reflexivity.
          + exists l'. split; [exact E1|]. split; [exact (eq_trans Z1 Zt)|]. intros j. rewrite G. replace (0 + Z.of_nat (Z.to_nat (vn v))) with (vn v) by lia. destruct ((0 <=? j) && (j <? vn v)) eqn:B; [|reflexivity]. destruct (lget_range (vstore v) j ltac:(lia)) as [c ->]. reflexivity. }
      destruct T1 as (t1 & -> & Z1 & G1). cbn [bind].
      destruct (write_loop_ok (fun _ => Val (Some 0)) (fun _ => Some 0) (Z.to_nat (n - vn v)) t1 (vn v)) as (l' & -> & Z2 & G2); [lia|lia|reflexivity|]. cbn [bind].
      exists BUnit, (VEC (contents v ++ repeat 0 (Z.to_nat (n - vn v))) n None). pose proof (contents_zlen v V) as Lc.
      assert (Ls : zlen (contents v ++ repeat 0 (Z.to_nat (n - vn v))) = n) by (rewrite zlen_app, zlen_repeat; lia).
      split; [|split; [constructor; lia|unfold vok; cbn [vn vstore]; lia]]. unfold rep. cbn [vstore vn vlast]. do 4 f_equal. apply lget_ext. intros j. rewrite G2, G1, T0, rep_get, Ls.
      destruct (Z.eqb_spec j n) as [->|N].
      * replace ((vn v <=? n) && (n <? vn v + Z.of_nat (Z.to_nat (n - vn v)))) with false by lia. replace ((0 <=? n) && (n <? vn v)) with false by lia. replace ((0 <=? n) && (n <? n + 1)) with true by lia. reflexivity.
      * destruct (Z.ltb_spec j (vn v)).
        -- replace ((vn v <=? j) && (j <? vn v + Z.of_nat (Z.to_nat (n - vn v)))) with false by lia. rewrite lget_app_l by lia. unfold contents. rewrite lget_firstn. replace (j <? vn v) with true by lia. rewrite andb_true_r. destruct (Z.leb_spec 0 j); [reflexivity|]. rewrite (lget_out (vstore v)) by lia. now replace (j <? n + 1) with true by lia.
        -- rewrite lget_app_r by lia. destruct (Z.ltb_spec j n).
           ++ replace ((vn v <=? j) && (j <? vn v + Z.of_nat (Z.to_nat (n - vn v)))) with true by lia. destruct (lget_range (repeat 0 (Z.to_nat (n - vn v))) (j - zlen (contents v))) as [c G]; [rewrite zlen_repeat; lia|]. rewrite G. apply lget_In, repeat_spec in G. now subst.
           ++ replace ((vn v <=? j) && (j <? vn v + Z.of_nat (Z.to_nat (n - vn v)))) with false by lia. replace ((0 <=? j) && (j <? vn v)) with false by lia. replace ((0 <=? j) && (j <? n + 1)) with false by lia. rewrite (lget_out (repeat 0 _)); [|rewrite zlen_repeat; lia]. replace (0 <=? j) with true by lia. reflexivity.
  - exists (BNum (vn v)), v. split; [reflexivity|]. split; [constructor|exact V].
Qed.
