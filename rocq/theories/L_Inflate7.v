(** L_Inflate7.v -- Inflater: every input is read to an end *)
From Verif Require Import Base M_Inflate S_Inflate L_Inflate.
Ltac Zify.zify_post_hook ::= Z.to_euclidean_division_equations.
(** the position in bits; it stays within the data *)
Definition pos (s : inf) : Z := 8 * ci s + bit s.
Definition In_ok (D : list Z) (s : inf) : Prop := cb s = D /\ 0 <= bit s < 8 /\ 0 <= ci s /\ pos s <= 8 * zlen D.
(** an outcome that is not Fuel and whose state is at least [k] bits further *)
Definition fwd (D : list Z) (k : Z) (s : inf) (r : out inf) : Prop := match r with Val s' => In_ok D s' /\ pos s + k <= pos s' | Fuel => False | _ => True end.
Definition fwdp {A} (D : list Z) (k : Z) (s : inf) (r : out (A * inf)) : Prop := match r with Val (_, s') => In_ok D s' /\ pos s + k <= pos s' | Fuel => False | _ => True end.
Lemma next_bit_fwd D s : In_ok D s -> fwdp D 1 s (next_bit s).
Proof.
  intros (C & B & I & P). unfold next_bit, rd. rewrite C. destruct (lget D (ci s)) eqn:E; [|exact Logic.I]. cbn [bind]. apply lget_some_range in E. unfold fwdp, In_ok, pos, set_in in *. destruct (Z.eqb_spec ((bit s + 1) mod 8) 0); cbn [cb bit ci]; repeat split; try assumption; lia.
Qed.
Lemma next_u8_fwd D s : In_ok D s -> fwdp D 8 s (next_u8 s).
Proof.
  intros (C & B & I & P). unfold next_u8. destruct (Z.eqb_spec (bit s) 0); cbn [negb]; [|exact Logic.I]. unfold rd. rewrite C. destruct (lget D (ci s)) eqn:E; [|exact Logic.I]. cbn [bind]. apply lget_some_range in E. unfold fwdp, In_ok, pos, set_in in *. cbn [cb bit ci]. repeat split; try assumption; lia.
Qed.
Lemma fwdp_bind {A B} D k k' s (r : out (A * inf)) (f : A * inf -> out (B * inf)) : fwdp D k s r -> (forall a s', In_ok D s' -> pos s + k <= pos s' -> fwdp D k' s' (f (a, s'))) -> fwdp D (k + k') s (bind r f).
Proof. destruct r as [[a s']| | |]; cbn [bind fwdp]; auto. intros (H1 & H2) H. specialize (H a s' H1 H2). destruct (f (a, s')) as [[b s'']| | |]; cbn [fwdp] in *; auto. destruct H. split; [assumption|lia]. Qed.
Lemma fwdp_bind' {A} D k k' s (r : out (A * inf)) (f : A * inf -> out inf) : fwdp D k s r -> (forall a s', In_ok D s' -> pos s + k <= pos s' -> fwd D k' s' (f (a, s'))) -> fwd D (k + k') s (bind r f).
Proof. destruct r as [[a s']| | |]; cbn [bind fwdp fwd]; auto. intros (H1 & H2) H. specialize (H a s' H1 H2). destruct (f (a, s')) as [s''| | |]; cbn [fwd] in *; auto. destruct H. split; [assumption|lia]. Qed.
Lemma fwd_bind D k k' s (r : out inf) (f : inf -> out inf) : fwd D k s r -> (forall s', In_ok D s' -> pos s + k <= pos s' -> fwd D k' s' (f s')) -> fwd D (k + k') s (bind r f).
Proof. destruct r as [s'| | |]; cbn [bind fwd]; auto. intros (H1 & H2) H. specialize (H s' H1 H2). destruct (f s') as [s''| | |]; cbn [fwd] in *; auto. destruct H. split; [assumption|lia]. Qed.
Lemma fwd_weak D k k' s r : fwd D k s r -> k' <= k -> fwd D k' s r.
Proof. destruct r; cbn [fwd]; auto. intros (H & H1) L. split; [assumption|lia]. Qed.
Lemma fwdp_weak {A} D k k' s (r : out (A * inf)) : fwdp D k s r -> k' <= k -> fwdp D k' s r.
Proof. destruct r as [[a s']| | |]; cbn [fwdp]; auto. intros (H & H1) L. split; [assumption|lia]. Qed.
Lemma nofuel_bind {A B} (P : B -> Prop) (r : out A) (f : A -> out B) : r <> Fuel -> (forall a, r = Val a -> f a <> Fuel) -> bind r f <> Fuel.
Proof. destruct r; cbn [bind]; intros H G; try discriminate; [apply G; reflexivity|contradiction]. Qed.
Lemma val_fwd {A} D (a : A) s s' : In_ok D s' -> pos s <= pos s' -> fwdp D 0 s (Val (a, s')).
Proof. cbn. intros. split; [assumption|lia]. Qed.
Lemma rd_fwd {A} D k s (l : list A) i (f : A -> out inf) : (forall a, fwd D k s (f a)) -> fwd D k s (bind (rd l i) f).
Proof. intros H. unfold rd. destruct (lget l i); cbn [bind]; [apply H|exact I]. Qed.
Lemma next_u16_fwd D s : In_ok D s -> fwdp D 16 s (next_u16 s).
Proof.
  intros H. unfold next_u16. change 16 with (8 + 8). eapply fwdp_bind; [apply next_u8_fwd; exact H|]. intros a s1 H1 L1. change 8 with (8 + 0). eapply fwdp_bind; [apply next_u8_fwd; exact H1|]. intros b s2 H2 L2. apply val_fwd; [exact H2|lia].
Qed.
Lemma uintx_fwd D n : forall s ret, In_ok D s -> fwdp D (Z.of_nat n) s (uintx s ret n).
Proof.
  induction n as [|n IH]; intros s ret H; cbn [uintx]; [apply val_fwd; [exact H|lia]|]. replace (Z.of_nat (S n)) with (1 + Z.of_nat n) by lia. eapply fwdp_bind; [apply next_bit_fwd; exact H|]. intros b s1 H1 L1. apply IH; exact H1.
Qed.
Lemma uintxr_fwd D n : forall s ret a, In_ok D s -> fwdp D (Z.of_nat n) s (uintxr s ret a n).
Proof.
  induction n as [|n IH]; intros s ret a H; cbn [uintxr]; [apply val_fwd; [exact H|lia]|]. replace (Z.of_nat (S n)) with (1 + Z.of_nat n) by lia. eapply fwdp_bind; [apply next_bit_fwd; exact H|]. intros b s1 H1 L1. apply IH; exact H1.
Qed.
Lemma next_uintx_fwd D s k : In_ok D s -> fwdp D 0 s (next_uintx s k).
Proof. intros H. eapply fwdp_weak; [apply uintx_fwd; exact H|lia]. Qed.
Lemma next_uintxr_fwd D s k : In_ok D s -> fwdp D 0 s (next_uintxr s k).
Proof. intros H. eapply fwdp_weak; [apply uintxr_fwd; exact H|lia]. Qed.
Section All.
Context (lr : bool) (more : Z -> Z -> Z -> Z).
Lemma write_fwd D s c : In_ok D s -> fwd D 0 s (write_byte more s c).
Proof.
  intros (C & B & I & P). unfold write_byte. destruct (ub s) as [u|]; [|exact Logic.I]. unfold check_capacity. destruct (ui s <? zlen u); [|destruct (ci s =? 0); [exact Logic.I|]]; cbn [bind]; unfold wr; match goal with |- context [lset ?a ?b ?c] => destruct (lset a b c) end; cbn [bind]; try exact Logic.I; unfold fwd, In_ok, pos, set_out in *; cbn [cb bit ci]; repeat split; try assumption; lia.
Qed.
Lemma stored_loop_fwd D n : forall s, In_ok D s -> fwd D 0 s (stored_loop more s n).
Proof.
  induction n as [|n IH]; intros s H; cbn [stored_loop]; [split; [exact H|lia]|]. eapply fwd_weak; [eapply fwdp_bind'; [apply next_u8_fwd; exact H|]|].
  - intros b s1 H1 L1. eapply fwd_bind; [apply write_fwd; exact H1|]. intros s2 H2 L2. apply IH; exact H2.
  - lia.
Qed.
Lemma skip_fwd D s : In_ok D s -> In_ok D (skip_byte_bits s) /\ pos s <= pos (skip_byte_bits s).
Proof. intros (C & B & I & P). unfold skip_byte_bits. destruct (Z.eqb_spec (bit s) 0); unfold In_ok, pos, set_in in *; cbn [cb bit ci]; repeat split; try assumption; lia. Qed.
Lemma stored_block_fwd D s : In_ok D s -> fwd D 0 s (stored_block more s).
Proof.
  intros H. unfold stored_block. destruct (skip_fwd D s H) as [H0 L0]. assert (G : fwd D 0 (skip_byte_bits s) (let* (len, s) := next_u16 (skip_byte_bits s) in let* (nlen, s) := next_u16 s in if negb (Z.land nlen len =? 0) then Exn else stored_loop more s (Z.to_nat len))).
  { eapply fwd_weak; [eapply fwdp_bind'; [apply next_u16_fwd; exact H0|]|]; [intros a s1 H1 L1; eapply fwdp_bind'; [apply next_u16_fwd; exact H1|]|].
    - intros b s2 H2 L2. instantiate (1 := 0). destruct (negb _); [exact I|]. apply stored_loop_fwd; exact H2.
    - lia. }
  revert G. match goal with |- fwd _ _ _ ?X -> fwd _ _ _ ?X => destruct X end; cbn [fwd]; auto. intros (G1 & G2). split; [exact G1|lia].
Qed.
Lemma copy_fwd D src n : forall s a, In_ok D s -> fwd D 0 s (copy_loop more s src a n).
Proof.
  induction n as [|n IH]; intros s a H; cbn [copy_loop]; [split; [exact H|lia]|]. unfold out_at. destruct (ub s) as [u|]; [|exact I]. apply rd_fwd. intros c. eapply (fwd_weak D (0 + 0)); [|lia]. eapply fwd_bind; [apply write_fwd; exact H|]. intros s1 H1 L1. apply IH; exact H1.
Qed.
Lemma next_fixed_fwd D s : In_ok D s -> fwdp D 7 s (next_fixed s).
Proof.
  intros H. unfold next_fixed. change 7 with (7 + 0) at 1. eapply fwdp_bind; [exact (uintx_fwd D 7 s 0 H)|]. intros a s1 H1 L1. destruct (_ <=? _); [apply val_fwd; [exact H1|lia]|]. eapply (fwdp_weak D (1 + 0)); [|lia]. eapply fwdp_bind; [apply next_bit_fwd; exact H1|].
  intros b s2 H2 L2. destruct (_ && _); [apply val_fwd; [exact H2|lia]|]. destruct (_ && _); [apply val_fwd; [exact H2|lia]|]. eapply (fwdp_weak D (1 + 0)); [|lia]. eapply fwdp_bind; [apply next_bit_fwd; exact H2|]. intros c s3 H3 L3. destruct (_ && _); apply val_fwd; try exact H3; lia.
Qed.
Lemma fixed_loop_fwd D fuel : forall s, In_ok D s -> 8 * zlen D < pos s + Z.of_nat fuel -> fwd D 0 s (fixed_loop more s fuel).
Proof.
  induction fuel as [|fuel IH]; intros s H L; [destruct H as (_ & _ & _ & H); lia|]. cbn [fixed_loop]. eapply (fwd_weak D (7 + 0)); [|lia]. eapply fwdp_bind'; [apply next_fixed_fwd; exact H|]. intros v s1 H1 L1.
  destruct (v <? 256); [eapply (fwd_weak D (0 + 0)); [|lia]; eapply fwd_bind; [apply write_fwd; exact H1|]; intros s2 H2 L2; apply IH; [exact H2|lia]|].
  destruct (v =? 256); [split; [exact H1|lia]|]. destruct (v <=? 285); [|exact I]. apply rd_fwd. intros e. eapply (fwd_weak D (0 + 0)); [|lia]. eapply fwdp_bind'; [apply next_uintxr_fwd; exact H1|]. intros ll s2 H2 L2. apply rd_fwd. intros of1. eapply (fwd_weak D (0 + 0)); [|lia]. eapply fwdp_bind'; [apply next_uintx_fwd; exact H2|]. intros co s3 H3 L3.
  apply rd_fwd. intros e2. eapply (fwd_weak D (0 + 0)); [|lia]. eapply fwdp_bind'; [apply next_uintxr_fwd; exact H3|]. intros dd s4 H4 L4. apply rd_fwd. intros of2. cbv zeta. match goal with |- context [?a <? 0] => destruct (a <? 0); [exact I|] end. eapply (fwd_weak D (0 + 0)); [|lia]. eapply fwd_bind; [apply copy_fwd; exact H4|]. intros s5 H5 L5. apply IH; [exact H5|lia].
Qed.
Lemma decode_fwd D t n : forall s ret bits, In_ok D s -> fwdp D 1 s (decode_loop s t ret bits n).
Proof.
  induction n as [|n IH]; intros s ret bits H; cbn [decode_loop]; [exact I|]. eapply (fwdp_weak D (1 + 0)); [|lia]. eapply fwdp_bind; [apply next_bit_fwd; exact H|]. intros b s1 H1 L1. destruct (find _ _ _); [apply val_fwd; [exact H1|lia]|]. eapply fwdp_weak; [apply IH; exact H1|lia].
Qed.
Lemma decode_symbol_fwd D s t m : In_ok D s -> fwdp D 1 s (decode_symbol s t m). Proof. apply decode_fwd. Qed.
Lemma dynamic_loop_fwd D lt dt fuel : forall s, In_ok D s -> 8 * zlen D < pos s + Z.of_nat fuel -> fwd D 0 s (dynamic_loop more s lt dt fuel).
Proof.
  induction fuel as [|fuel IH]; intros s H L; [destruct H as (_ & _ & _ & H); lia|]. cbn [dynamic_loop]. eapply (fwd_weak D (1 + 0)); [|lia]. eapply fwdp_bind'; [apply decode_symbol_fwd; exact H|]. intros v s1 H1 L1.
  destruct (v <? 256); [eapply (fwd_weak D (0 + 0)); [|lia]; eapply fwd_bind; [apply write_fwd; exact H1|]; intros s2 H2 L2; apply IH; [exact H2|lia]|].
  destruct (v =? 256); [split; [exact H1|lia]|]. destruct (v <=? 285); [|apply IH; [exact H1|lia]]. apply rd_fwd. intros e. eapply (fwd_weak D (0 + 0)); [|lia]. eapply fwdp_bind'; [apply next_uintxr_fwd; exact H1|]. intros ll s2 H2 L2. apply rd_fwd. intros of1. eapply (fwd_weak D (1 + 0)); [|lia]. eapply fwdp_bind'; [apply decode_symbol_fwd; exact H2|]. intros co s3 H3 L3.
  apply rd_fwd. intros e2. eapply (fwd_weak D (0 + 0)); [|lia]. eapply fwdp_bind'; [apply next_uintxr_fwd; exact H3|]. intros dd s4 H4 L4. apply rd_fwd. intros of2. cbv zeta. match goal with |- context [?a <? 0] => destruct (a <? 0); [exact I|] end. eapply (fwd_weak D (0 + 0)); [|lia]. eapply fwd_bind; [apply copy_fwd; exact H4|]. intros s5 H5 L5. apply IH; [exact H5|lia].
Qed.
(** the tree *)
Lemma levels_nofuel fuel : forall nodes m, -1 <= m -> m + 1 < Z.of_nat fuel -> levels nodes m fuel <> Fuel.
Proof.
  induction fuel as [|fuel IH]; intros nodes m M H; [lia|]. cbn [levels]; unfold level.
  destruct (Z.ltb_spec m 0); cbn [bind]; [discriminate|]. destruct (duplicates _); cbn [bind]; [discriminate|]. destruct (1 <? length _)%nat; [|discriminate]. apply IH; lia.
Qed.
Lemma max_len_nonneg (l : list htree) : forall a, 0 <= a -> 0 <= fold_left (fun m t => Z.max m (hlen t)) l a.
Proof. induction l as [|x l IH]; intros a H; cbn [fold_left]; [exact H|]. apply IH. lia. Qed.
Lemma create_nofuel lens codes : create_tree lens codes <> Fuel.
Proof.
  unfold create_tree. pose proof (levels_nofuel (S (S (Z.to_nat (max_len (leaves lens codes 0))))) (leaves lens codes 0) (max_len (leaves lens codes 0))) as H. pose proof (max_len_nonneg (leaves lens codes 0) 0 ltac:(lia)) as P. fold (max_len (leaves lens codes 0)) in P. specialize (H ltac:(lia) ltac:(lia)).
  destruct (levels _ _ _) as [[|t l]| | |]; cbn [bind]; try discriminate. contradiction.
Qed.
Lemma assign_nofuel l : forall next, assign_codes next l <> Fuel.
Proof.
  induction l as [|n l IH]; intros next; cbn [assign_codes]; [discriminate|]. destruct (n =? 0).
  - specialize (IH next). destruct (assign_codes next l); cbn [bind]; try discriminate. contradiction.
  - unfold rd. destruct (lget next n); cbn [bind]; [|discriminate]. unfold wr. destruct (lset next n _) as [nx|]; cbn [bind]; [|discriminate]. specialize (IH nx). destruct (assign_codes nx l); cbn [bind]; try discriminate. contradiction.
Qed.
Lemma fill_len count x n : forall acc r, fill acc count x n = Val r -> zlen r = zlen acc + Z.of_nat n.
Proof. induction n as [|n IH]; intros acc r E; cbn [fill] in E; [injection E as <-; lia|]. destruct (_ <? _); [|discriminate]. apply IH in E. rewrite zlen_app in E. change (zlen [x]) with 1 in E. lia. Qed.
Lemma fill_le count x n : forall acc r, fill acc count x n = Val r -> zlen acc <= count -> zlen r <= count.
Proof. induction n as [|n IH]; intros acc r E H; cbn [fill] in E; [injection E as <-; exact H|]. destruct (Z.ltb_spec (zlen acc) count); [|discriminate]. apply IH in E; [exact E|]. rewrite zlen_app. change (zlen [x]) with 1. lia. Qed.
Lemma fill_nofuel count x n : forall acc, fill acc count x n <> Fuel.
Proof. induction n as [|n IH]; intros acc; cbn [fill]; [discriminate|]. destruct (_ <? _); [apply IH|discriminate]. Qed.
Lemma read_cl_fwd D : forall n alpha s cl, In_ok D s -> fwdp D 0 s (read_cl s cl alpha n).
Proof.
  induction n as [|n IH]; intros alpha s cl H; destruct alpha as [|a alpha]; cbn [read_cl]; try (apply val_fwd; [exact H|lia]); [exact I|]. eapply (fwdp_weak D (0 + 0)); [|lia]. eapply fwdp_bind; [apply next_uintxr_fwd; exact H|]. intros l s1 H1 L1. destruct (lset cl a l); cbn [bind]; [|exact I]. apply IH; exact H1.
Qed.
Lemma uintxr_nonneg n : forall s ret a r s', uintxr s ret a n = Val (r, s') -> 0 <= ret -> 0 <= r.
Proof. induction n as [|n IH]; intros s ret a r s' E H; cbn [uintxr] in E; [injection E as <- _; exact H|]. destruct (next_bit s) as [[b s1]| | |]; cbn [bind] in E; try discriminate. eapply IH; [exact E|]. unfold u16. apply Z.mod_pos_bound. lia. Qed.
Lemma read_lengths_fwd D t mb count fuel : forall s acc, In_ok D s -> zlen acc <= count < zlen acc + Z.of_nat fuel -> fwdp D 0 s (read_lengths s t mb count acc fuel).
Proof.
  induction fuel as [|fuel IH]; intros s acc H L; cbn [read_lengths].
  - lia.
  - destruct (Z.ltb_spec (zlen acc) count) as [Lt|Ge]; [|apply val_fwd; [exact H|lia]]. eapply (fwdp_weak D (1 + 0)); [|lia]. eapply fwdp_bind; [apply decode_symbol_fwd; exact H|]. intros v s1 H1 L1.
    assert (G : forall k x add, 0 < add -> fwdp D 0 s1 (let* (r, s2) := next_uintxr s1 k in let* acc' := fill acc count x (Z.to_nat (r + add)) in read_lengths s2 t mb count acc' fuel)).
    { intros k x add Ha. unfold next_uintxr. pose proof (next_uintxr_fwd D s1 k H1) as N. unfold next_uintxr in N. destruct (uintxr s1 0 0 (Z.to_nat k)) as [[r s2]| | |] eqn:E; cbn [bind fwdp] in *; auto. apply uintxr_nonneg in E; [|lia]. destruct N as [H2 L2].
      pose proof (fill_len count x (Z.to_nat (r + add)) acc) as FL. pose proof (fill_le count x (Z.to_nat (r + add)) acc) as FE. pose proof (fill_nofuel count x (Z.to_nat (r + add)) acc) as FN. destruct (fill acc count x (Z.to_nat (r + add))) as [acc'| | |]; cbn [bind]; try exact I; try contradiction. specialize (FL acc' eq_refl). specialize (FE acc' eq_refl).
      specialize (IH s2 acc' H2 ltac:(lia)). destruct (read_lengths _ _ _ _ _ _) as [[q s3]| | |]; cbn [fwdp] in *; auto. destruct IH. split; [assumption|lia]. }
    destruct (v =? 16). { destruct (rev acc) as [|x y]; [|apply G; lia]. eapply (fwdp_weak D (0 + 0)); [|lia]. eapply fwdp_bind; [apply next_uintxr_fwd; exact H1|]. intros; exact I. }
    destruct (v =? 17); [apply G; lia|]. destruct (v =? 18); [apply G; lia|].
    pose proof (fill_len count v 1 acc) as FL. pose proof (fill_le count v 1 acc) as FE. pose proof (fill_nofuel count v 1 acc) as FN. destruct (fill acc count v 1) as [acc'| | |]; cbn [bind]; try exact I; try contradiction. specialize (FL acc' eq_refl). specialize (FE acc' eq_refl). apply IH; [exact H1|lia].
Qed.
Lemma fwd_plain {A} D k s (r : out A) (f : A -> out inf) : r <> Fuel -> (forall a, r = Val a -> fwd D k s (f a)) -> fwd D k s (bind r f).
Proof. destruct r; cbn [bind]; intros H G; try exact I; [apply G; reflexivity|contradiction]. Qed.
Lemma dynamic_block_fwd D fuel s : In_ok D s -> 8 * zlen D < pos s + Z.of_nat fuel -> fwd D 0 s (dynamic_block more s fuel).
Proof.
  intros H L. unfold dynamic_block. eapply (fwd_weak D (0 + 0)); [|lia]. eapply fwdp_bind'; [apply next_uintxr_fwd; exact H|]. intros a s1 H1 L1. eapply (fwd_weak D (0 + 0)); [|lia]. eapply fwdp_bind'; [apply next_uintxr_fwd; exact H1|]. intros b s2 H2 L2.
  eapply (fwd_weak D (0 + 0)); [|lia]. eapply fwdp_bind'; [apply next_uintxr_fwd; exact H2|]. intros c s3 H3 L3. cbv zeta. eapply (fwd_weak D (0 + 0)); [|lia]. eapply fwdp_bind'; [apply read_cl_fwd; exact H3|]. intros cl s4 H4 L4.
  apply fwd_plain; [apply assign_nofuel|]. intros codes _. apply fwd_plain; [apply create_nofuel|]. intros t _. assert (U : forall x, 0 <= u16 x) by (intros x; unfold u16; apply Z.mod_pos_bound; lia).
  eapply (fwd_weak D (0 + 0)); [|lia]. eapply fwdp_bind'; [apply read_lengths_fwd; [exact H4|change (zlen []) with 0; specialize (U (a + 257)); lia]|]. intros ll s5 H5 L5.
  eapply (fwd_weak D (0 + 0)); [|lia]. eapply fwdp_bind'; [apply read_lengths_fwd; [exact H5|change (zlen []) with 0; specialize (U (b + 1)); lia]|]. intros dl s6 H6 L6.
  apply fwd_plain; [apply assign_nofuel|]. intros lc _. apply fwd_plain; [apply assign_nofuel|]. intros dc _. apply fwd_plain; [apply create_nofuel|]. intros lt _. apply fwd_plain; [apply create_nofuel|]. intros dt _. apply dynamic_loop_fwd; [exact H6|lia].
Qed.
Lemma block_loop_fwd D fuel : 8 * zlen D < Z.of_nat fuel -> forall n s, In_ok D s -> 8 * zlen D < pos s + Z.of_nat n -> fwd D 0 s (block_loop lr more s n fuel).
Proof.
  intros Hf. induction n as [|n IH]; intros s H L; [destruct H as (_ & _ & _ & H); lia|]. cbn [block_loop]. eapply (fwd_weak D (1 + 0)); [|lia]. eapply fwdp_bind'; [apply next_bit_fwd; exact H|]. intros bf s1 H1 L1.
  eapply (fwd_weak D (1 + 0)); [|lia]. eapply fwdp_bind'; [apply next_bit_fwd; exact H1|]. intros b1 s2 H2 L2. eapply (fwd_weak D (1 + 0)); [|lia]. eapply fwdp_bind'; [apply next_bit_fwd; exact H2|]. intros b2 s3 H3 L3. cbv zeta.
  set (s4 := if bf =? 1 then _ else s3). assert (H4 : In_ok D s4 /\ pos s4 = pos s3) by (unfold s4; destruct (bf =? 1); [|now split]; unfold In_ok, pos in *; cbn [cb bit ci]; tauto). clearbody s4. destruct H4 as [H4 E4].
  assert (P0 : 0 <= pos s) by (destruct H as (_ & B & C & _); unfold pos; lia).
  assert (G : forall s5, In_ok D s5 -> pos s4 <= pos s5 -> fwd D 0 s5 (if negb (lastb s5) then block_loop lr more s5 n fuel else Val (INF (cb s5) (ci s5) (bit s5) (ub s5) (ui s5) (tin s5) (tout s5) (lastb s5) true (wrap s5)))).
  { intros s5 H5 L5. destruct (negb (lastb s5)); [apply IH; [exact H5|lia]|]. unfold fwd, In_ok, pos in *. cbn [cb bit ci]. split; [exact H5|lia]. }
  assert (B : fwd D 0 s4 (if (if lr then b1 + b2 * 2 else b2 + b1 * 2) =? 0 then stored_block more s4 else if (if lr then b1 + b2 * 2 else b2 + b1 * 2) =? 1 then fixed_loop more s4 fuel else if (if lr then b1 + b2 * 2 else b2 + b1 * 2) =? 2 then dynamic_block more s4 fuel else Val s4)).
  { destruct (_ =? 0); [apply stored_block_fwd; exact H4|]. destruct (_ =? 1); [apply fixed_loop_fwd; [exact H4|lia]|]. destruct (_ =? 2); [apply dynamic_block_fwd; [exact H4|lia]|]. split; [exact H4|lia]. }
  match goal with |- fwd _ _ _ (bind ?X _) => assert (C : fwd D 0 s4 (bind X (fun s5 => if negb (lastb s5) then block_loop lr more s5 n fuel else Val (INF (cb s5) (ci s5) (bit s5) (ub s5) (ui s5) (tin s5) (tout s5) (lastb s5) true (wrap s5))))) end.
  { eapply (fwd_weak D (0 + 0)); [|lia]. eapply fwd_bind; [exact B|]. intros s5 H5 L5. apply G; [exact H5|lia]. }
  revert C. match goal with |- fwd _ _ _ ?X -> fwd _ _ _ ?X => destruct X end; cbn [fwd]; auto. intros (C1 & C2). split; [exact C1|lia].
Qed.
Lemma inflate_ends w data : inflate_bytes lr more w data <> Fuel.
Proof.
  unfold inflate_bytes, inflate. cbn [tin wrap set_input inf_new Z.eqb andb]. unfold fuel_of.
  assert (G : forall s, In_ok data s -> bind (block_loop lr more s (S (8 * length (cb s))) (S (8 * length (cb s)))) (fun s => match ub s with Some u => Val (firstn (Z.to_nat (ui s)) u, s) | None => Val ([], s) end) <> Fuel).
  { intros s H. assert (F : fwd data 0 s (block_loop lr more s (S (8 * length (cb s))) (S (8 * length (cb s))))). { apply block_loop_fwd; destruct H as (C & B & P & L); rewrite ?C; unfold pos, zlen in *; try lia. repeat split; try assumption; unfold pos, zlen; lia. }
    destruct (block_loop _ _ _ _ _) as [s'| | |]; cbn [bind fwd] in *; try discriminate; [destruct (ub s'); discriminate|contradiction]. }
  destruct w; cbn [negb bind].
  - apply G. unfold In_ok, pos. cbn [cb bit ci set_input inf_new]. pose proof (zlen_nonneg data). repeat split; try lia; reflexivity.
  - cbn [set_input inf_new cb ci bit ub ui tin tout lastb eof wrap]. destruct (Z.ltb_spec (zlen data) 2) as [|L2]; cbn [bind]; [discriminate|]. unfold rd. destruct (lget data 0); cbn [bind]; [|discriminate]. destruct (lget data 1); cbn [bind]; [|discriminate].
    destruct (negb _); cbn [bind]; [discriminate|]. destruct (_ >? _); cbn [bind]; [discriminate|]. destruct (negb _); cbn [bind]; [discriminate|]. destruct (negb _); cbn [bind]; [discriminate|]. apply G. unfold In_ok, pos, set_in. cbn [cb bit ci set_input inf_new]. repeat split; try lia; reflexivity.
Qed.
End All.
