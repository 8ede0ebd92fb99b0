(** P_SAXAttributes.v -- attributes of an element (C122). *)
From Coq Require Import String.
From Verif Require Import Base M_String S_String L_String M_Tokenizer M_Xml L_Xml M_SAXAttributes S_Integer L_Integer P_Xml P_String P_Integer.
Local Open Scope Z_scope.
(** a history of addAttribute calls *)
Definition adds (h : list (list Z * list Z * list Z * list Z)) : attrs := fold_left (fun l '(u, n, q, v) => sa_add l u n q v) h sa_new.
Definition pairs (h : list (list Z * list Z * list Z * list Z)) : list (list Z * list Z) := map (fun '(u, n, q, v) => (n, v)) h.
Lemma adds_pairs h : adds h = pairs h.
Proof.
  unfold adds, pairs, sa_new. assert (K : forall l, fold_left (fun l '(u, n, q, v) => sa_add l u n q v) h l = l ++ map (fun '(u, n, q, v) => (n, v)) h); [|apply (K [])].
  induction h as [|[[[u n] q] v] h IH]; intros l; cbn [fold_left map]; [now rewrite app_nil_r|]. rewrite IH. unfold sa_add. now rewrite <- app_assoc.
Qed.
(** count, names and values by index are the added ones in order; outside the calls throw *)
Theorem C122_index h : zlen h < 2 ^ 31 -> sa_count (adds h) = zlen h /\
  (forall i u n q v, lget h i = Some (u, n, q, v) -> sa_localName (adds h) i = Val n /\ sa_qualifiedName (adds h) i = Val n /\ sa_value (adds h) i = Val v) /\
  (forall i, 0 <= i -> zlen h <= i -> sa_localName (adds h) i = Exn /\ sa_qualifiedName (adds h) i = Exn /\ sa_value (adds h) i = Exn).
Proof.
  intros H. rewrite adds_pairs. assert (L : zlen (pairs h) = zlen h) by (unfold pairs, zlen; now rewrite map_length).
  split; [unfold sa_count, u32; rewrite L; apply Z.mod_small; pose proof (zlen_nonneg h); lia|].
  assert (G : forall i, lget (pairs h) i = option_map (fun '(u, n, q, v) => (n, v)) (lget h i)).
  { intros i. unfold lget, pairs. destruct (i <? 0); [reflexivity|]. apply nth_error_map. }
  split.
  - intros i u n q v E. unfold sa_localName, sa_qualifiedName, sa_value, at_. rewrite G, E. now repeat split.
  - intros i I J. unfold sa_localName, sa_qualifiedName, sa_value, at_. assert (E : lget (pairs h) i = None).
    { unfold lget. rewrite (proj2 (Z.ltb_ge _ _)) by lia. apply nth_error_None. unfold zlen in *. lia. }
    rewrite E. now repeat split.
Qed.
(** by name: the first attribute with that local name; the empty string if there is none *)
Theorem C122_name h q : attr_value (adds h) q = Val (match find (fun '(u, n, q', v) => same n q) h with Some (u, n, q', v) => v | None => [] end) /\ (attr_has (adds h) q = true <-> exists u n q' v, In (u, n, q', v) h /\ n = q).
Proof.
  rewrite adds_pairs. destruct (C46_lookup (pairs h) q) as [A B]. split.
  - rewrite A. f_equal. unfold pairs. clear. induction h as [|[[[u n] q'] v] h IH]; [reflexivity|]. cbn [map find fst]. destruct (same n q); [reflexivity|exact IH].
  - rewrite B. unfold pairs. rewrite map_map, in_map_iff. split.
    + intros ([[[u n] q'] v] & E & I). cbn in E. exists u, n, q', v. auto.
    + intros (u & n & q' & v & I & E). exists (u, n, q', v). auto.
Qed.
(** an assigned object has the same attributes *)
Theorem C122_assign l other : sa_assign l other = Val other.
Proof.
  unfold sa_assign. assert (K : forall r p, other = p ++ r -> sa_fill other (zlen p) (length r) p = Val other).
  { induction r as [|x r IH]; intros p E; [rewrite app_nil_r in E; now subst|]. cbn [length sa_fill]. unfold at_. replace (lget other (zlen p)) with (Some x).
    - cbn [bind]. replace (zlen p + 1) with (zlen (p ++ [x])) by (unfold zlen; rewrite app_length; cbn; lia). apply IH. rewrite E, <- app_assoc. reflexivity.
    - rewrite E. unfold lget. rewrite (proj2 (Z.ltb_ge _ _)) by apply zlen_nonneg. unfold zlen. rewrite Nat2Z.id, nth_error_app2, Nat.sub_diag by lia. reflexivity. }
  apply (K other []). reflexivity.
Qed.
(** a number written with String::valueOf is read back; a missing attribute is 0 *)
Lemma int_text n s : - 2 ^ 63 < n < 2 ^ 63 -> value_of_int n = Val s -> to_int (str_of (text s)) = Val n.
Proof.
  intros Hn V0. change (2 ^ 63) with 9223372036854775808 in Hn. destruct (value_of_int_ok n ltac:(lia)) as (s' & ds & E & R & (V & F & D)). rewrite E in V0. injection V0 as ->. destruct (repr_text _ _ R) as [T _]. rewrite T. pose proof (str_of_repr ((if n <? 0 then [45] else []) ++ map dec_char ds)) as R'.
  destruct (digs_dec ds F) as (E1 & E2 & E3). destruct (Z.ltb_spec n 0) as [N|N].
  - assert (Ed : digs ([45] ++ map dec_char ds) = ds) by (unfold digs in *; cbn [app filter is_digit]; exact E1).
    rewrite (to_int_ok _ _ R'); [|cbn [app]; constructor; [auto|exact E2]|rewrite Ed, V; lia]. rewrite Ed, V. cbn [app existsb Z.eqb Pos.eqb orb]. f_equal. lia.
  - cbn [app] in R' |- *. rewrite (to_int_ok _ _ R' E2); [|rewrite E1, V; lia]. rewrite E1, E3, V. f_equal. lia.
Qed.
Theorem C122_int h q n s : - 2 ^ 63 < n < 2 ^ 63 -> value_of_int n = Val s -> attr_value (adds h) q = Val (text s) -> sa_valueAsInt (adds h) q = Val n.
Proof. intros N V A. unfold sa_valueAsInt. rewrite A. cbn [bind]. now apply int_text. Qed.
Theorem C122_missing h q : (forall u n q' v, In (u, n, q', v) h -> n <> q) -> attr_value (adds h) q = Val [] /\ sa_valueAsInt (adds h) q = Val 0 /\ sa_valueAsBool (adds h) q = Val false.
Proof.
  intros N. assert (A : attr_value (adds h) q = Val []).
  { destruct (C122_name h q) as [A _]. rewrite A. destruct (find _ h) as [[[[u n] q'] v]|] eqn:E; [|reflexivity]. apply find_some in E as [I E]. apply same_iff in E. destruct (N _ _ _ _ I E). }
  split; [exact A|]. unfold sa_valueAsInt, sa_valueAsBool. rewrite A. split; reflexivity.
Qed.
(** valueAsBool: "true" in any case *)
Theorem C122_bool h q v : attr_value (adds h) q = Val v -> zlen v < 2 ^ 32 -> exists b, sa_valueAsBool (adds h) q = Val b /\ (b = true <-> map lower v = str "true").
Proof.
  intros A L. unfold sa_valueAsBool. rewrite A. cbn [bind]. destruct (repr_text _ _ (str_of_repr v)) as [T1 S1]. destruct (repr_text _ _ (str_of_repr (str "true"))) as [T2 S2].
  destruct (C53_equalsIgnoreCase _ _ S1 S2) as (b & E & B); [now rewrite T1|]. exists b. split; [exact E|]. rewrite B, T1, T2. reflexivity.
Qed.
(** a new object cannot be copied *)
Theorem C122_copy_refuted l : sa_copy l = UB.
Proof. reflexivity. Qed.

(** ** cases that meet the hypotheses *)
Definition sample : list (list Z * list Z * list Z * list Z) := [([], str "width", str "x:width", str "-120"); ([], str "visible", str "visible", str "TrUe"); ([], str "width", str "width", str "7")].
Example ex_sample : sa_count (adds sample) = 3 /\ sa_value (adds sample) 2 = Val (str "7") /\ attr_value (adds sample) (str "width") = Val (str "-120") /\ sa_valueAsInt (adds sample) (str "width") = Val (-120) /\
  sa_valueAsBool (adds sample) (str "visible") = Val true /\ sa_valueAsBool (adds sample) (str "width") = Val false /\ sa_localName (adds sample) 3 = Exn /\ sa_valueAsInt (adds sample) (str "x:width") = Val 0.
Proof. repeat split. Qed.
Example ex_int : exists s, value_of_int (-120) = Val s /\ attr_value (adds sample) (str "width") = Val (text s). Proof. eexists. split; reflexivity. Qed.
Print Assumptions C122_index.
Print Assumptions C122_name.
Print Assumptions C122_assign.
Print Assumptions C122_int.
Print Assumptions C122_missing.
Print Assumptions C122_bool.
Print Assumptions C122_copy_refuted.
