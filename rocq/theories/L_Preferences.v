From Verif Require Import Base M_String M_Preferences S_String S_Preferences L_String L_String2 L_String3 L_String4.
Ltac Zify.zify_post_hook ::= Z.to_euclidean_division_equations.

(** * replacing a pair of characters *)
Fixpoint prep (x y : Z) (n t : list Z) : list Z :=
  match t with
  | c :: r => match r with d :: r' => if (c =? x) && (d =? y) then n ++ prep x y n r' else c :: prep x y n r | [] => [c] end
  | [] => []
  end.
Lemma pair_ind (P : list Z -> Prop) : P [] -> (forall c, P [c]) -> (forall c d r, P r -> P (d :: r) -> P (c :: d :: r)) -> forall t, P t.
Proof.
  intros H0 H1 H2. assert (K : forall t, P t /\ forall c, P (c :: t)). { induction t as [|d r [A B]]; [auto|]. split; [apply B|]. intros c. apply H2; [exact A|apply B]. }
  intros t. apply K.
Qed.
Lemma breaks_prep t : breaks t = prep 92 110 [10] t.
Proof. induction t as [|c|c d r I1 I2] using pair_ind; [reflexivity|reflexivity|]. change (breaks (c :: d :: r)) with (if (c =? 92) && (d =? 110) then 10 :: breaks r else c :: breaks (d :: r)). rewrite I1, I2. reflexivity. Qed.
Lemma grow_prep t : grow t = prep 92 110 [92; 92; 110] t.
Proof. induction t as [|c|c d r I1 I2] using pair_ind; [reflexivity|reflexivity|]. change (grow (c :: d :: r)) with (if (c =? 92) && (d =? 110) then 92 :: 92 :: 110 :: grow r else c :: grow (d :: r)). rewrite I1, I2. reflexivity. Qed.
Lemma prep2 x y n c d r : prep x y n (c :: d :: r) = if (c =? x) && (d =? y) then n ++ prep x y n r else c :: prep x y n (d :: r). Proof. reflexivity. Qed.
Definition never (p t : list Z) : Prop := forall i, ~ occurs p t i.
Lemma never_tail p c t : never p (c :: t) -> never p t.
Proof. intros H i (a & r & -> & L). apply (H (1 + i)). exists (c :: a), r. split; [reflexivity|]. rewrite zlen_cons. lia. Qed.
Lemma never_head p t r : never p t -> t <> p ++ r.
Proof. intros H ->. apply (H 0). exists [], r. auto. Qed.
Lemma prep_never x y n t : never [x; y] t -> prep x y n t = t.
Proof.
  induction t as [|c|c d r I1 I2] using pair_ind; intros H; [reflexivity|reflexivity|]. rewrite prep2. destruct (Z.eqb_spec c x) as [->|], (Z.eqb_spec d y) as [->|]; cbn [andb]; try (rewrite I2 by (eapply never_tail; eauto); reflexivity).
  exfalso. apply (never_head _ _ r H). reflexivity.
Qed.
Lemma prep_at x y n r : x <> y -> forall a, (forall i, i < zlen a -> ~ occurs [x; y] (a ++ [x; y] ++ r) i) -> prep x y n (a ++ [x; y] ++ r) = a ++ n ++ prep x y n r.
Proof.
  intros N. induction a as [|c a IH]; intros H.
  - cbn [app]. rewrite prep2, !Z.eqb_refl. reflexivity.
  - assert (H' : forall i, i < zlen a -> ~ occurs [x; y] (a ++ [x; y] ++ r) i).
    { intros i Hi O. apply (H (1 + i)); [rewrite zlen_cons; lia|]. destruct O as (b & q & E & L). exists (c :: b), q. split; [cbn [app] in E |- *; now rewrite E|]. rewrite zlen_cons. lia. }
    specialize (IH H'). cbn [app] in *. assert (E : exists d q, a ++ x :: y :: r = d :: q) by (destruct a; cbn; eauto). destruct E as (d & q & E). rewrite E in *. rewrite prep2.
    replace ((c =? x) && (d =? y)) with false; [now rewrite IH|]. symmetry. apply andb_false_iff. destruct (Z.eqb_spec c x) as [->|]; [|auto]. right. destruct (Z.eqb_spec d y) as [->|]; [|auto]. exfalso. apply (H 0); [rewrite zlen_cons; pose proof (zlen_nonneg a); lia|]. exists [], q. auto.
Qed.
Lemma replaced_pair x y n t r : x <> y -> replaced [x; y] n t r -> r = prep x y n t.
Proof.
  intros N. induction 1 as [t H|a r r' H R IH]; [now rewrite prep_never|]. rewrite prep_at by auto. now rewrite IH.
Qed.
Definition rep1 (x : Z) (n : list Z) : list Z -> list Z := flat_map (fun c => if c =? x then n else [c]).
Lemma never1 x t : never [x] t -> ~ In x t.
Proof. intros H I. apply in_split in I as (a & b & ->). apply (H (zlen a)). exists a, b. auto. Qed.
Lemma rep1_out x n t : ~ In x t -> rep1 x n t = t.
Proof. unfold rep1. induction t as [|c t IH]; intros H; [reflexivity|]. cbn [flat_map In] in *. destruct (Z.eqb_spec c x); [tauto|]. rewrite IH by tauto. reflexivity. Qed.
Lemma replaced_one x n t r : replaced [x] n t r -> r = rep1 x n t.
Proof.
  induction 1 as [t H|a r r' H R IH]; [symmetry; apply rep1_out, never1; exact H|]. unfold rep1 in *. rewrite flat_map_app. cbn [flat_map app]. rewrite Z.eqb_refl. rewrite <- IH. f_equal. symmetry. apply rep1_out. intros I. apply in_split in I as (b & q & ->). apply (H (zlen b)); [rewrite zlen_app, zlen_cons; pose proof (zlen_nonneg q); lia|].
  exists b, (q ++ [x] ++ r). rewrite <- app_assoc. auto.
Qed.
Definition bsn : list Z := [92; 110].
Lemma one_line_rep t : one_line t = rep1 10 bsn (rep1 13 bsn (prep 13 10 bsn t)).
Proof.
  unfold rep1. induction t as [|c|c d r I1 I2] using pair_ind; [reflexivity| |].
  - cbn [one_line prep flat_map app]. destruct (Z.eqb_spec c 13) as [->|]; cbn [flat_map app bsn]; [reflexivity|]. rewrite app_nil_r. destruct (Z.eqb_spec c 10); reflexivity.
  - rewrite prep2. change (one_line (c :: d :: r)) with (if c =? 13 then 92 :: 110 :: (if d =? 10 then one_line r else one_line (d :: r)) else if c =? 10 then 92 :: 110 :: one_line (d :: r) else c :: one_line (d :: r)). rewrite I2.
    destruct (Z.eqb_spec c 13) as [->|]; cbn [andb].
    + destruct (Z.eqb_spec d 10) as [->|]; [rewrite I1; reflexivity|]. reflexivity.
    + cbn [flat_map]. destruct (Z.eqb_spec c 13); [contradiction|]. cbn [app flat_map]. destruct (Z.eqb_spec c 10); reflexivity.
Qed.
Lemma one_line_id t : ~ In 13 t -> ~ In 10 t -> one_line t = t.
Proof.
  induction t as [|c t IH]; intros A B; [reflexivity|]. cbn [one_line In] in *. destruct (Z.eqb_spec c 13); [tauto|]. destruct (Z.eqb_spec c 10); [tauto|]. rewrite IH by tauto. reflexivity.
Qed.
Lemma one_line_clean t : ~ In 13 (one_line t) /\ ~ In 10 (one_line t).
Proof.
  induction t as [|c|c d r I1 I2] using pair_ind; [cbn; auto| |].
  - cbn [one_line]. destruct (Z.eqb_spec c 13); [cbn; lia|]. destruct (Z.eqb_spec c 10); cbn; lia.
  - change (one_line (c :: d :: r)) with (if c =? 13 then 92 :: 110 :: (if d =? 10 then one_line r else one_line (d :: r)) else if c =? 10 then 92 :: 110 :: one_line (d :: r) else c :: one_line (d :: r)).
    destruct (Z.eqb_spec c 13); [destruct (d =? 10); cbn [In]; split; intros [?|[?|?]]; try lia; tauto|]. destruct (Z.eqb_spec c 10); [cbn [In]; split; intros [?|[?|?]]; try lia; tauto|]. cbn [In]. split; intros [?|?]; try lia; tauto.
Qed.
Lemma one_line_unit t : Forall unit16 t -> Forall unit16 (one_line t).
Proof.
  assert (U1 : unit16 92) by (unfold unit16; lia). assert (U2 : unit16 110) by (unfold unit16; lia).
  induction t as [|c|c d r I1 I2] using pair_ind; intros H; [constructor| |].
  - cbn [one_line]. destruct (c =? 13); [auto|]. destruct (c =? 10); auto.
  - change (one_line (c :: d :: r)) with (if c =? 13 then 92 :: 110 :: (if d =? 10 then one_line r else one_line (d :: r)) else if c =? 10 then 92 :: 110 :: one_line (d :: r) else c :: one_line (d :: r)).
    apply Forall_cons_iff in H as [Hc H]. pose proof H as H'. apply Forall_cons_iff in H' as [_ H']. destruct (c =? 13); [destruct (d =? 10); auto|]. destruct (c =? 10); auto.
Qed.
(** * the calls of replace in setValue *)
Lemma guarded_one x t j : guarded t j [x].
Proof. left. intros u v w E _ N. destruct u as [|a u]; [contradiction|]. injection E as _ E. symmetry in E. apply app_eq_nil in E as [_ ->]. reflexivity. Qed.
Lemma no_overrun_pair x y t : last t 0 <> x -> no_overrun [x; y] t.
Proof.
  intros H u v w E1 E2 N. destruct u as [|a [|b u]]; [contradiction| |].
  - injection E1 as <- <-. exfalso. apply H. rewrite E2. apply last_last.
  - injection E1 as _ _ E. symmetry in E. apply app_eq_nil in E as [_ ->]. reflexivity.
Qed.
Lemma replace_all_ok s t j s2 y s3 n : buf s = t ++ j -> len s = zlen t -> repr s2 y -> repr s3 n -> y <> [] -> guarded t j y -> exists s' r, replace_all s s2 s3 = Val s' /\ repr s' r /\ replaced y n t r.
Proof. intros E L H2 H3 Ny G. unfold replace_all. apply (replace_ok s t j s2 y s3 n); auto. rewrite L. pose proof (zlen_nonneg t). lia. Qed.
Lemma set_chain_ok v : 0 <= len v <= zlen (buf v) -> last (text v) 0 <> 13 \/ len v < zlen (buf v) ->
  exists actual, (let* tmp := copy_ctor v in let* r := replace_all tmp l_crlf l_bsn in let* tmp := assign tmp r in let* r := replace_all tmp l_cr l_bsn in let* tmp := assign tmp r in
    let* r := replace_all tmp l_lf l_bsn in let* tmp := assign tmp r in copy_ctor tmp) = Val actual /\ repr actual (one_line (text v)).
Proof.
  intros S0 G. assert (Sd : sound v) by exact S0. apply sound_repr in Sd. destruct (copy_ctor_ok v _ Sd) as (t0 & E0 & R0 & _ & C0 & L0).
  assert (B0 : exists j, buf t0 = text v ++ j /\ len t0 = zlen (text v) /\ guarded (text v) j [13; 10]).
  { unfold copy_ctor in E0. destruct Sd as (j0 & Eb & El). rewrite Eb, El, memcpy_zeros in E0 by (rewrite zlen_app; pose proof (zlen_nonneg j0); lia). cbn [bind] in E0. injection E0 as <-. cbn [buf len]. eexists. split; [reflexivity|]. split; [reflexivity|].
    destruct G as [G|G]; [left; now apply no_overrun_pair|]. right. rewrite Eb, El, zlen_app in G. rewrite zlen_app. replace (zlen (text v) + zlen j0 - zlen (text v)) with (zlen j0) by lia. unfold zeros. destruct j0 as [|x j0]; [change (zlen (@nil Z)) with 0 in G; lia|].
    replace (Z.to_nat (zlen (x :: j0))) with (S (length j0)) by (rewrite zlen_cons; unfold zlen; lia). cbn [repeat]. eexists _, _. split; [reflexivity|]. cbn [In]. lia. }
  destruct B0 as (j & Eb & El & Gd). rewrite E0. cbn [bind].
  destruct (replace_all_ok t0 _ j l_crlf [13; 10] l_bsn [92; 110] Eb El (str_of_repr _) (str_of_repr _) ltac:(discriminate) Gd) as (r1 & x1 & -> & R1 & P1). cbn [bind]. destruct (assign_ok t0 r1 x1 R1) as (t1 & -> & (j1 & Eb1 & El1) & _). cbn [bind].
  destruct (replace_all_ok t1 _ j1 l_cr [13] l_bsn [92; 110] Eb1 El1 (str_of_repr _) (str_of_repr _) ltac:(discriminate) (guarded_one _ _ _)) as (r2 & x2 & -> & R2 & P2). cbn [bind]. destruct (assign_ok t1 r2 x2 R2) as (t2 & -> & (j2 & Eb2 & El2) & _). cbn [bind].
  destruct (replace_all_ok t2 _ j2 l_lf [10] l_bsn [92; 110] Eb2 El2 (str_of_repr _) (str_of_repr _) ltac:(discriminate) (guarded_one _ _ _)) as (r3 & x3 & -> & R3 & P3). cbn [bind]. destruct (assign_ok t2 r3 x3 R3) as (t3 & -> & R3' & _). cbn [bind].
  destruct (copy_ctor_ok t3 _ R3') as (a & -> & Ra & _). exists a. split; [reflexivity|]. apply replaced_pair in P1; [|lia]. apply replaced_one in P2. apply replaced_one in P3. rewrite one_line_rep. unfold bsn. rewrite <- P1, <- P2, <- P3. exact Ra.
Qed.
