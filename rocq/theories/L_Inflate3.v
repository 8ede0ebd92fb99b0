(** L_Inflate3.v -- Inflater: the Huffman tree decodes the canonical codes *)
From Verif Require Import Base M_Inflate S_Inflate L_Inflate L_Inflate2.
Ltac Zify.zify_post_hook ::= Z.to_euclidean_division_equations.
(** ** trees *)
Fixpoint good (t : htree) : Prop :=
  match t with
  | Nil => True
  | HT n0 n1 _ l c => good n0 /\ good n1 /\ (n0 = Nil \/ hlen n0 = l + 1 /\ hcode n0 = 2 * c) /\ (n1 = Nil \/ hlen n1 = l + 1 /\ hcode n1 = 2 * c + 1)
  end.
Fixpoint flatten (t : htree) : list (Z * Z * Z) :=
  match t with
  | Nil => []
  | HT n0 n1 s l c => match n0, n1 with Nil, Nil => [(s, l, c)] | _, _ => flatten n0 ++ flatten n1 end
  end.
Definition is_leaf (t : htree) : bool := match t with HT Nil Nil _ _ _ => true | _ => false end.
Lemma flatten_node n0 n1 s l c : is_leaf (HT n0 n1 s l c) = false -> flatten (HT n0 n1 s l c) = flatten n0 ++ flatten n1.
Proof. destruct n0, n1; cbn [is_leaf]; intros H; try discriminate; reflexivity. Qed.
Lemma pow_split a b : 0 <= a -> 0 <= b -> 2 ^ (a + b) = 2 ^ a * 2 ^ b. Proof. intros. now apply Z.pow_add_r. Qed.
Lemma under t : good t -> forall s L C, In (s, L, C) (flatten t) -> hlen t <= L /\ C / 2 ^ (L - hlen t) = hcode t.
Proof.
  induction t as [|n0 IH0 n1 IH1 sy l c]; intros G s L C I; [contradiction|]. destruct (is_leaf (HT n0 n1 sy l c)) eqn:Lf.
  - destruct n0, n1; try discriminate. cbn [flatten] in I. destruct I as [[= <- <- <-]|[]]. cbn [hlen hcode]. rewrite Z.sub_diag. change (2 ^ 0) with 1. split; [lia|apply Z.div_1_r].
  - rewrite flatten_node in I by exact Lf. cbn [good] in G. destruct G as (G0 & G1 & R0 & R1). cbn [hlen hcode]. apply in_app_or in I as [I|I].
    + destruct R0 as [->|[E1 E2]]; [contradiction|]. destruct (IH0 G0 s L C I) as [H1 H2]. rewrite E1 in *. split; [lia|]. replace (L - l) with (L - (l + 1) + 1) by lia. rewrite pow_split by lia. rewrite <- Z.div_div by (try lia; apply Z.pow_pos_nonneg; lia). rewrite H2, E2. change (2 ^ 1) with 2. lia.
    + destruct R1 as [->|[E1 E2]]; [contradiction|]. destruct (IH1 G1 s L C I) as [H1 H2]. rewrite E1 in *. split; [lia|]. replace (L - l) with (L - (l + 1) + 1) by lia. rewrite pow_split by lia. rewrite <- Z.div_div by (try lia; apply Z.pow_pos_nonneg; lia). rewrite H2, E2. change (2 ^ 1) with 2. lia.
Qed.
Lemma land_bit k c : 0 <= k <= 15 -> (Z.land (u16 (Z.shiftl 1 k)) c =? 0) = ((c / 2 ^ k) mod 2 =? 0).
Proof.
  intros H. assert (P := pow15 k H). rewrite Z.shiftl_1_l, u16_id by lia. rewrite <- (bit_value c k) by lia. rewrite Z.shiftl_1_l.
  destruct (Z.eqb_spec (Z.land (2 ^ k) c) 0) as [->|N]; [rewrite Z.shiftr_0_l; reflexivity|]. symmetry. apply Z.eqb_neq. intros E. apply N. apply Z.bits_inj'. intros i Hi. rewrite Z.bits_0, Z.land_spec, Z.pow2_bits_eqb by lia. destruct (Z.eqb_spec k i) as [<-|]; [|reflexivity]. cbn [andb].
  apply (f_equal (fun z => Z.testbit z 0)) in E. rewrite Z.shiftr_spec, Z.bits_0, Z.land_spec, Z.add_0_l, Z.pow2_bits_eqb, Z.eqb_refl in E by lia. exact E.
Qed.
Lemma find_ok t : good t -> forall s L C b, In (s, L, C) (flatten t) -> 0 <= hlen t <= b -> b <= L -> L <= 15 -> find t (C / 2 ^ (L - b)) b = if b =? L then Some s else None.
Proof.
  induction t as [|n0 IH0 n1 IH1 sy l c]; intros G s L C b I Hb HL H15; [contradiction|]. cbn [hlen] in Hb. destruct (is_leaf (HT n0 n1 sy l c)) eqn:Lf.
  - destruct n0, n1; try discriminate. cbn [flatten] in I. destruct I as [[= <- <- <-]|[]]. assert (b = l) as -> by lia. cbn [find]. rewrite Z.sub_diag. change (2 ^ 0) with 1. rewrite Z.div_1_r, !Z.eqb_refl. reflexivity.
  - assert (E : find (HT n0 n1 sy l c) (C / 2 ^ (L - b)) b = if b >? l then if Z.land (u16 (Z.shiftl 1 (b - l - 1))) (C / 2 ^ (L - b)) =? 0 then find n0 (C / 2 ^ (L - b)) b else find n1 (C / 2 ^ (L - b)) b else None).
    { cbn [find]. replace (match n0, n1 with Nil, Nil => true | _, _ => false end) with false by (destruct n0, n1; try reflexivity; discriminate). now rewrite andb_false_r. }
    rewrite E. clear E. assert (U := under _ G s L C I). rewrite flatten_node in I by exact Lf. cbn [good] in G. destruct G as (G0 & G1 & R0 & R1).
    assert (Hl : l < L). { apply in_app_or in I as [I|I]; [destruct R0 as [->|[E1 _]]; [contradiction|]; destruct (under _ G0 s L C I); lia|destruct R1 as [->|[E1 _]]; [contradiction|]; destruct (under _ G1 s L C I); lia]. }
    rewrite Z.gtb_ltb. destruct (Z.ltb_spec l b); [|replace (b =? L) with false by lia; reflexivity].
    rewrite land_bit by lia. rewrite Z.div_div by (apply Z.pow_pos_nonneg || apply Z.pow_nonzero; lia). rewrite <- pow_split by lia. replace (L - b + (b - l - 1)) with (L - (l + 1)) by lia.
    apply in_app_or in I as [I|I].
    + destruct R0 as [->|[E1 E2]]; [contradiction|]. destruct (under _ G0 s L C I) as [_ H2]. rewrite E1 in H2. rewrite H2, E2. replace ((2 * c) mod 2) with 0 by lia. cbn [Z.eqb]. apply IH0; auto; lia.
    + destruct R1 as [->|[E1 E2]]; [contradiction|]. destruct (under _ G1 s L C I) as [_ H2]. rewrite E1 in H2. rewrite H2, E2. replace ((2 * c + 1) mod 2) with 1 by lia. cbn [Z.eqb]. apply IH1; auto; lia.
Qed.
(** ** decoding a symbol *)
Lemma step_value C n : 0 <= C < 32768 -> u16 (Z.lor (u16 (Z.shiftl (C / 2 ^ Z.of_nat (S n)) 1)) ((C / 2 ^ Z.of_nat n) mod 2)) = C / 2 ^ Z.of_nat n.
Proof.
  intros HC. assert (P : 0 < 2 ^ Z.of_nat n) by (apply Z.pow_pos_nonneg; lia). rewrite Nat2Z.inj_succ, Z.pow_succ_r, (Z.mul_comm 2), <- Z.div_div by lia. set (V := C / 2 ^ Z.of_nat n).
  assert (HV : 0 <= V <= C) by (unfold V; split; [apply Z.div_pos; lia|apply Z.div_le_upper_bound; nia]). clearbody V. rewrite Z.shiftl_mul_pow2 by lia. change (2 ^ 1) with 2. rewrite (u16_id (V / 2 * 2)) by lia.
  assert (Lo : Z.lor (V / 2 * 2) (V mod 2) = V); [|rewrite Lo; apply u16_id; lia].
  replace (V / 2 * 2) with (Z.shiftl (V / 2) 1) by (rewrite Z.shiftl_mul_pow2; lia). assert (V mod 2 = 0 \/ V mod 2 = 1) as [M|M] by lia; rewrite M; [rewrite Z.lor_0_r, Z.shiftl_mul_pow2 by lia; lia|].
  destruct (V / 2) eqn:Ev; [cbn; lia|cbn; lia|lia].
Qed.
Lemma decode_ok D l o t s0 L C : good t -> hlen t = 0 -> In (s0, L, C) (flatten t) -> 1 <= L <= 15 -> 0 <= C < 2 ^ L ->
  forall n s p r k, St D s p (msb (S n) C ++ r) o l -> Z.of_nat (S n) <= L -> (n < k)%nat ->
  exists s', decode_loop s t (C / 2 ^ Z.of_nat (S n)) (L - Z.of_nat (S n)) k = Val (s0, s') /\ St D s' (p + Z.of_nat (S n)) r o l.
Proof.
  intros G H0 I HL HC. induction n as [|n IH]; intros s p r k Hs Hn Hk; (destruct k as [|k]; [lia|]); rewrite msb_cons in Hs; cbn [app] in Hs; cbn [decode_loop]; destruct (next_bit_ok _ _ _ _ _ _ _ Hs) as (s1 & -> & S1); cbn [bind].
  all: rewrite step_value by (assert (2 ^ L <= 32768) by (apply pow15; lia); lia).
  - replace (L - Z.of_nat 1 + 1) with L by lia. pose proof (find_ok t G s0 L C L I ltac:(lia) ltac:(lia) ltac:(lia)) as Fi. rewrite Z.sub_diag, Z.eqb_refl in Fi. change (Z.of_nat 0) with 0. rewrite Fi. exists s1. auto.
  - replace (L - Z.of_nat (S (S n)) + 1) with (L - Z.of_nat (S n)) by lia. pose proof (find_ok t G s0 L C (L - Z.of_nat (S n)) I ltac:(lia) ltac:(lia) ltac:(lia)) as Fi. replace (L - (L - Z.of_nat (S n))) with (Z.of_nat (S n)) in Fi by lia. replace (L - Z.of_nat (S n) =? L) with false in Fi by lia. rewrite Fi.
    destruct (IH s1 (p + 1) r k S1 ltac:(lia) ltac:(lia)) as (s2 & -> & S2). exists s2. split; [reflexivity|]. replace (p + Z.of_nat (S (S n))) with (p + 1 + Z.of_nat (S n)) by lia. exact S2.
Qed.
(** a tree for the code [lens] *)
Definition tree_for (lens : list Z) (t : htree) : Prop := good t /\ hlen t = 0 /\ forall s, used lens s -> In (s, len_of lens s, code lens s) (flatten t).
Lemma len_range lens s : Forall (fun l => 0 <= l <= 15) lens -> used lens s -> 1 <= len_of lens s <= 15.
Proof. intros F U. unfold used, len_of in *. destruct (lget lens s) eqn:E; [|lia]. apply lget_In in E. rewrite Forall_forall in F. apply F in E. lia. Qed.
Lemma used_split lens s : used lens s -> exists a L l, lens = a ++ L :: l /\ zlen a = s /\ 0 < L /\ len_of lens s = L.
Proof.
  unfold used. intros U. destruct (lget lens s) as [x|] eqn:E; [|unfold len_of in U; rewrite E in U; lia]. destruct (split_at lens s (lget_some_range _ _ _ E)) as (a & L & l & -> & Z0). exists a, L, l. subst s. rewrite len_of_mid in *. auto.
Qed.
Lemma code_range lens s : fits lens -> used lens s -> 0 <= code lens s < 2 ^ len_of lens s.
Proof.
  intros F U. destruct (used_split lens s U) as (a & L & l & -> & <- & HL & EL). rewrite EL. rewrite code_split by exact HL. pose proof (len_range _ _ (proj1 F) U). rewrite EL in *. pose proof (fits_bound _ L F ltac:(lia)) as B. rewrite cnt_app, cnt_cons, Z.eqb_refl in B. pose proof (cnt_nonneg l L). pose proof (cnt_nonneg a L). pose proof (nc_nonneg (a ++ L :: l) L). lia.
Qed.
Lemma decode_symbol_ok D l o lens t s0 s p r m : tree_for lens t -> fits lens -> used lens s0 -> len_of lens s0 <= m + 1 -> 0 <= m -> St D s p (word lens s0 ++ r) o l ->
  exists s', decode_symbol s t m = Val (s0, s') /\ St D s' (p + zlen (word lens s0)) r o l.
Proof.
  intros (G & H0 & T) F U Hm M0 Hs. pose proof (len_range _ _ (proj1 F) U) as HL. pose proof (code_range _ _ F U) as HC. unfold word in *. destruct (Z.to_nat (len_of lens s0)) as [|n] eqn:En; [lia|].
  destruct (decode_ok D l o t s0 (len_of lens s0) (code lens s0) G H0 (T s0 U) HL HC n s p r (S (Z.to_nat m)) Hs ltac:(lia) ltac:(lia)) as (s' & E & S').
  exists s'. unfold decode_symbol. rewrite zlen_msb. replace (code lens s0 / 2 ^ Z.of_nat (S n)) with 0 in E by (symmetry; apply Z.div_small; replace (Z.of_nat (S n)) with (len_of lens s0) by lia; exact HC). replace (len_of lens s0 - Z.of_nat (S n)) with 0 in E by lia. auto.
Qed.
