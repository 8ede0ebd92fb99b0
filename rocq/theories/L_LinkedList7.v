From Verif Require Import Base M_Undo S_Undo L_Undo L_Undo2 L_Undo3 M_LinkedList S_LinkedList L_LinkedList L_LinkedList2 L_LinkedList3 L_LinkedList4 L_LinkedList5 L_LinkedList6.
Ltac Zify.zify_post_hook ::= Z.to_euclidean_division_equations.
(** all cells but the count hold references *)
Definition rcs (N : nat) : list Z := 0 :: 1 :: map Z.of_nat (seq 3 (3 * N)).
Lemma in_rcs N l : In l (rcs N) <-> 0 <= l < 3 * Z.of_nat N + 3 /\ l <> 2.
Proof.
  unfold rcs. cbn [In]. rewrite in_map_iff. split.
  - intros [<-|[<-|(x & <- & Hx)]]; try lia. apply in_seq in Hx. lia.
  - intros [H1 H2]. destruct (Z.eq_dec l 0); [left; lia|]. destruct (Z.eq_dec l 1); [right; left; lia|]. right. right. exists (Z.to_nat l). split; [lia|]. apply in_seq. lia.
Qed.
Definition cli (N : nat) (K : Z -> Z) (v : Z) : Prop := v = 0 \/ ~ (1 <= v < Z.of_nat N + 2) /\ 1 <= K v.
Record okS (N : nat) (f : Z) (K : Z -> Z) (s : snap) (es : list (Z * Z)) : Prop := OkS {
  o_rep : lrep N f (vals s) es;
  o_lz : lz N (vals s) es;
  o_data : forall e, 2 <= e < Z.of_nat N + 2 -> exists v, lget (vals s) (cdata e) = Some v /\ cli N K v;
  o_in : forall e, 2 <= e < Z.of_nat N + 2 -> In e (ids es) \/ f <= e -> refs s e = 1;
  o_else : forall o, ~ (2 <= o < Z.of_nat N + 2) -> refs s o = K o
}.
Lemma okS_mono N f f' K s es : okS N f K s es -> f <= f' <= Z.of_nat N + 2 -> okS N f' K s es.
Proof.
  intros [R Lz Da Oi Oe] H. constructor; auto.
  - destruct R as [L Gs Ge Gn D ND In_ Hf Fr]. constructor; auto; [|lia|intros e He; apply Fr; lia]. eapply Forall_impl; [|exact In_]. cbn beta. intros; lia.
  - intros e He [Hi|Hi]; apply Oi; auto. right. lia.
Qed.
Lemma cli_refs N f K s es v : okS N f K s es -> cli N K v -> v = 0 \/ 1 <= refs s v.
Proof. intros O [->|[H1 H2]]; [now left|right]. rewrite (o_else _ _ _ _ _ O); [exact H2|lia]. Qed.
Lemma sim_rc rs n d m w o : sim rs n d m w -> refs (cur d) o <= rc w o.
Proof. intros S. destruct (s_w _ _ _ _ _ S) as [_ H]. rewrite H. pose proof (s_plain _ _ _ _ _ S o). pose proof (held_um_nn m o). lia. Qed.
Lemma len_f N f c es : lrep N f c es -> zlen es <= f - 2.
Proof.
  intros R. pose proof (lr_f _ _ _ _ R). assert (H0 : (length (ids es) <= length (map (fun k => (Z.of_nat k + 2)%Z) (seq 0 (Z.to_nat (f - 2)))))%nat).
  { apply NoDup_incl_length; [apply R|]. intros e He. pose proof (rep_ids _ _ _ _ _ R He). apply in_map_iff. exists (Z.to_nat (e - 2)). split; [lia|]. apply in_seq. lia. }
  rewrite !map_length, seq_length in H0. unfold zlen. lia.
Qed.
Lemma member_refs N f K s es e : okS N f K s es -> In e (ids es) -> 2 <= e < f /\ f <= Z.of_nat N + 2 /\ refs s e = 1.
Proof. intros O He. pose proof (rep_ids _ _ _ _ _ (o_rep _ _ _ _ _ O) He). pose proof (lr_f _ _ _ _ (o_rep _ _ _ _ _ O)). split; [lia|]. split; [lia|]. apply (o_in _ _ _ _ _ O); [lia|now left]. Qed.
(** cells that could hold an element *)
Lemma dls_cells c es : forall p q e, dls c p es q -> In e (ids es) -> exists x y, lget c (cprev e) = Some x /\ lget c (cnext e) = Some y /\ (x = p \/ In x (ids es)) /\ (y = q \/ In y (ids es)).
Proof.
  induction es as [|[z d] es IH]; intros p q e D He; [destruct He|]. destruct D as (D1 & D2 & D3 & D4). cbn [map fst In] in *. destruct He as [<-|He].
  - exists p, (hd_id es q). split; [exact D1|]. split; [exact D2|]. split; [now left|]. destruct es as [|[z' d'] es]; [now left|right; right; now left].
  - destruct (IH z q e D4 He) as (x & y & K1 & K2 & K3 & K4). exists x, y. split; [exact K1|]. split; [exact K2|]. destruct K3 as [->|K3], K4 as [->|K4]; auto.
Qed.
Lemma no_ref N f K c es e l : lrep N f c es -> lz N c es -> (forall e, 2 <= e < Z.of_nat N + 2 -> exists v, lget c (cdata e) = Some v /\ cli N K v) -> 2 <= e < Z.of_nat N + 2 -> ~ In e (ids es) -> In l (rcs N) -> lget c l <> Some e.
Proof.
  intros R Lz Da He Ne Hl E. apply in_rcs in Hl as [Hl Hl2].
  destruct (Z.eq_dec l 0) as [->|N0].
  { change 0 with cstart in E. rewrite (lr_start _ _ _ _ R) in E. injection E as E. destruct es as [|[z d] es]; cbn [hd_id] in E; [lia|]. subst z. apply Ne. now left. }
  destruct (Z.eq_dec l 1) as [->|N1].
  { change 1 with cend in E. rewrite (lr_end _ _ _ _ R) in E. injection E as E. destruct es as [|z es]; [cbn [last_id] in E; lia|]. apply Ne. rewrite <- E. apply last_in. discriminate. }
  set (x := l / 3 + 1). assert (Hx : 2 <= x < Z.of_nat N + 2) by (unfold x; lia).
  assert (Cs : l = cnext x \/ l = cprev x \/ l = cdata x) by (unfold x; ucell; lia). clearbody x.
  destruct Cs as [-> | [-> | ->]].
  - destruct (in_dec Z.eq_dec x (ids es)) as [I|I]; [|destruct (Lz x Hx I) as [L1 L2]; rewrite L1 in E; injection E as E; lia]. destruct (dls_cells _ _ _ _ _ (lr_dls _ _ _ _ R) I) as (u & v & K1 & K2 & K3 & K4). rewrite K2 in E. injection E as ->. destruct K4 as [K4|K4]; [lia|contradiction].
  - destruct (in_dec Z.eq_dec x (ids es)) as [I|I]; [|destruct (Lz x Hx I) as [L1 L2]; rewrite L2 in E; injection E as E; lia]. destruct (dls_cells _ _ _ _ _ (lr_dls _ _ _ _ R) I) as (u & v & K1 & K2 & K3 & K4). rewrite K1 in E. injection E as ->. destruct K3 as [K3|K3]; [lia|contradiction].
  - destruct (Da x Hx) as (v & K1 & K2). rewrite K1 in E. injection E as ->. destruct K2 as [K2|[K2 _]]; lia.
Qed.
