(** P_Inflater.v -- C135: what an Inflater tells about its progress, and how it can be used again. *)
From Verif Require Import Base M_Inflate M_Inflater.
Ltac bnd H := match type of H with
  | bind ?e _ = Val _ => let E := fresh "E" in destruct e as [?| | |] eqn:E; cbn [bind] in H; try discriminate
  | (match ?p with Datatypes.pair _ _ => _ end) = Val _ => destruct p; cbn [fst snd] in H
  | (let (_, _) := ?p in _) = Val _ => destruct p
  end.
(** ** every step keeps the counters in step with the positions *)
Record ok (s : inf) : Prop := Ok { k_ci : 0 <= ci s <= zlen (cb s); k_bit : 0 <= bit s < 8; k_in : bit s <> 0 -> ci s < zlen (cb s); k_ui : 0 <= ui s; k_ub : match ub s with Some u => ui s <= zlen u | None => True end }.
Record prog (s s' : inf) : Prop := Prog {
  p_cb : cb s' = cb s; p_wrap : wrap s' = wrap s; p_tin : tin s' - ci s' = tin s - ci s; p_tout : tout s' - ui s' = tout s - ui s; p_ub : ub s = None <-> ub s' = None; p_ok : ok s -> ok s' }.
Lemma prog_refl s : prog s s. Proof. constructor; auto; tauto. Qed.
Lemma prog_trans a b c : prog a b -> prog b c -> prog a c.
Proof. intros [A1 A2 A3 A4 A5 A6] [B1 B2 B3 B4 B5 B6]. constructor; [congruence|congruence|lia|lia|tauto|auto]. Qed.
Lemma rd_val {A} (l : list A) i c : rd l i = Val c -> 0 <= i < zlen l.
Proof. unfold rd. destruct (lget l i) eqn:E; [|discriminate]. intros _. now apply lget_some_range in E. Qed.
Lemma next_bit_prog s b s' : next_bit s = Val (b, s') -> prog s s'.
Proof.
  unfold next_bit. intros H. bnd H. apply rd_val in E. destruct (Z.eqb_spec ((bit s + 1) mod 8) 0) as [M|M]; injection H as <- <-; unfold set_in; (constructor; cbn [cb wrap tin ci tout ui ub bit]; [reflexivity|reflexivity|lia|reflexivity|tauto|]); intros [K1 K2 K3 K4 K5]; constructor; cbn [cb ci bit ui ub]; auto; try lia.
Qed.
Lemma skip_prog s : prog s (skip_byte_bits s).
Proof.
  unfold skip_byte_bits. destruct (Z.eqb_spec (bit s) 0) as [|N]; [apply prog_refl|]. unfold set_in. constructor; cbn [cb wrap tin ci tout ui ub bit]; [reflexivity|reflexivity|lia|reflexivity|tauto|]. intros [K1 K2 K3 K4 K5]. specialize (K3 N). constructor; cbn [cb ci bit ui ub]; auto; lia.
Qed.
Lemma next_u8_prog s b s' : next_u8 s = Val (b, s') -> prog s s'.
Proof.
  unfold next_u8. intros H. destruct (Z.eqb_spec (bit s) 0) as [Z0|]; cbn [negb] in H; [|discriminate]. bnd H. apply rd_val in E. injection H as <- <-. unfold set_in. constructor; cbn [cb wrap tin ci tout ui ub bit]; [reflexivity|reflexivity|lia|reflexivity|tauto|].
  intros [K1 K2 K3 K4 K5]. constructor; cbn [cb ci bit ui ub]; auto; try lia.
Qed.
Lemma next_u16_prog s b s' : next_u16 s = Val (b, s') -> prog s s'.
Proof. unfold next_u16. intros H. bnd H. bnd H. bnd H. bnd H. injection H as <- <-. eapply prog_trans; eapply next_u8_prog; eauto. Qed.
Lemma uintx_prog : forall k s r b s', uintx s r k = Val (b, s') -> prog s s'.
Proof. induction k as [|k IH]; intros s r b s' H; cbn [uintx] in H; [injection H as <- <-; apply prog_refl|]. bnd H. bnd H. eapply prog_trans; [eapply next_bit_prog; eauto|eauto]. Qed.
Lemma uintxr_prog : forall k s r a b s', uintxr s r a k = Val (b, s') -> prog s s'.
Proof. induction k as [|k IH]; intros s r a b s' H; cbn [uintxr] in H; [injection H as <- <-; apply prog_refl|]. bnd H. bnd H. eapply prog_trans; [eapply next_bit_prog; eauto|eauto]. Qed.
Lemma nuintx_prog s k b s' : next_uintx s k = Val (b, s') -> prog s s'. Proof. apply uintx_prog. Qed.
Lemma nuintxr_prog s k b s' : next_uintxr s k = Val (b, s') -> prog s s'. Proof. apply uintxr_prog. Qed.
Lemma wr_val {A} (l : list A) i x l' : wr l i x = Val l' -> 0 <= i < zlen l /\ zlen l' = zlen l.
Proof. unfold wr. destruct (lset l i x) eqn:E; [|discriminate]. intros H. injection H as <-. pose proof (lset_zlen _ _ _ _ E). pose proof (lset_get _ _ _ _ i E) as G. rewrite Z.eqb_refl in G. apply lget_some_range in G. lia. Qed.
Section Any.
Context (lr : bool) (more : Z -> Z -> Z -> Z).
Lemma write_prog s c s' : write_byte more s c = Val s' -> prog s s'.
Proof.
  unfold write_byte. destruct (ub s) as [u|] eqn:Eu; [|discriminate]. intros H. bnd H. bnd H. apply wr_val in E0 as [W Z0]. injection H as <-. unfold set_out. constructor; cbn [cb wrap tin ci tout ui ub bit]; [reflexivity|reflexivity|reflexivity|lia|rewrite Eu; split; discriminate|].
  intros [K1 K2 K3 K4 K5]. constructor; cbn [cb ci bit ui ub]; auto; lia.
Qed.
Lemma stored_loop_prog : forall k s s', stored_loop more s k = Val s' -> prog s s'.
Proof. induction k as [|k IH]; intros s s' H; cbn [stored_loop] in H; [injection H as <-; apply prog_refl|]. bnd H. bnd H. bnd H. eapply prog_trans; [eapply next_u8_prog; eauto|]. eapply prog_trans; [eapply write_prog; eauto|eauto]. Qed.
Lemma stored_prog s s' : stored_block more s = Val s' -> prog s s'.
Proof.
  intros H. unfold stored_block in H. bnd H. bnd H. bnd H. bnd H. destruct (negb _); [discriminate|]. eapply prog_trans; [apply skip_prog|]. eapply prog_trans; [eapply next_u16_prog; eauto|]. eapply prog_trans; [eapply next_u16_prog; eauto|]. eapply stored_loop_prog; eauto.
Qed.
Lemma copy_prog : forall k s src a s', copy_loop more s src a k = Val s' -> prog s s'.
Proof. induction k as [|k IH]; intros s src a s' H; cbn [copy_loop] in H; [injection H as <-; apply prog_refl|]. bnd H. bnd H. eapply prog_trans; [eapply write_prog; eauto|eauto]. Qed.
Lemma next_fixed_prog s v s' : next_fixed s = Val (v, s') -> prog s s'.
Proof.
  unfold next_fixed. intros H. bnd H. bnd H. apply nuintx_prog in E. eapply prog_trans; [exact E|]. destruct (_ <=? 23); [injection H as <- <-; apply prog_refl|]. bnd H. bnd H. apply next_bit_prog in E0. cbv zeta in H.
  eapply prog_trans; [exact E0|]. destruct (_ && _); [injection H as <- <-; apply prog_refl|]. destruct (_ && _); [injection H as <- <-; apply prog_refl|]. bnd H. bnd H. apply next_bit_prog in E1. eapply prog_trans; [exact E1|]. destruct (_ && _); injection H as <- <-; apply prog_refl.
Qed.
Ltac step1 := match goal with
  | E : next_bit ?s = Val _ |- prog ?s _ => eapply prog_trans; [eapply next_bit_prog; exact E|]; clear E
  | E : next_fixed ?s = Val _ |- prog ?s _ => eapply prog_trans; [eapply next_fixed_prog; exact E|]; clear E
  | E : next_uintx ?s _ = Val _ |- prog ?s _ => eapply prog_trans; [eapply nuintx_prog; exact E|]; clear E
  | E : next_uintxr ?s _ = Val _ |- prog ?s _ => eapply prog_trans; [eapply nuintxr_prog; exact E|]; clear E
  | E : write_byte _ ?s _ = Val _ |- prog ?s _ => eapply prog_trans; [eapply write_prog; exact E|]; clear E
  | E : copy_loop _ ?s _ _ _ = Val _ |- prog ?s _ => eapply prog_trans; [eapply copy_prog; exact E|]; clear E
  end.
Lemma fixed_prog : forall fuel s s', fixed_loop more s fuel = Val s' -> prog s s'.
Proof.
  induction fuel as [|fuel IH]; intros s s' H; cbn [fixed_loop] in H; [discriminate|]. bnd H. bnd H. destruct (_ <? 256); [bnd H; repeat step1; eauto|]. destruct (_ =? 256); [injection H as <-; repeat step1; apply prog_refl|]. destruct (_ <=? 285); [|discriminate].
  do 10 (try bnd H). cbv zeta in H. destruct (_ <? 0); [discriminate|]. bnd H. repeat step1. eauto.
Qed.
Lemma decode_prog : forall k s t r b v s', decode_loop s t r b k = Val (v, s') -> prog s s'.
Proof. induction k as [|k IH]; intros s t r b v s' H; cbn [decode_loop] in H; [discriminate|]. bnd H. bnd H. cbv zeta in H. step1. destruct (find _ _ _); [injection H as <- <-; apply prog_refl|eauto]. Qed.
Lemma symbol_prog s t m v s' : decode_symbol s t m = Val (v, s') -> prog s s'. Proof. apply decode_prog. Qed.
Ltac step2 := first [step1|match goal with E : decode_symbol ?s _ _ = Val _ |- prog ?s _ => eapply prog_trans; [eapply symbol_prog; exact E|]; clear E end].
Lemma lengths_prog : forall fuel s t m c acc l s', read_lengths s t m c acc fuel = Val (l, s') -> prog s s'.
Proof.
  induction fuel as [|fuel IH]; intros s t m c acc l s' H; cbn [read_lengths] in H; [discriminate|]. destruct (_ <? c); [|injection H as <- <-; apply prog_refl]. bnd H. bnd H.
  destruct (_ =? 16); [bnd H; bnd H; destruct (rev acc); [discriminate|]; bnd H; repeat step2; eauto|]. destruct (_ =? 17); [bnd H; bnd H; bnd H; repeat step2; eauto|]. destruct (_ =? 18); [bnd H; bnd H; bnd H; repeat step2; eauto|]. bnd H. repeat step2; eauto.
Qed.
Lemma cl_prog : forall k s cl al l s', read_cl s cl al k = Val (l, s') -> prog s s'.
Proof. induction k as [|k IH]; intros s cl al l s' H; destruct al as [|a al]; cbn [read_cl] in H; try discriminate; try (injection H as <- <-; apply prog_refl). bnd H. bnd H. bnd H. step2. eauto. Qed.
Lemma dyn_loop_prog : forall fuel s lt dt s', dynamic_loop more s lt dt fuel = Val s' -> prog s s'.
Proof.
  induction fuel as [|fuel IH]; intros s lt dt s' H; cbn [dynamic_loop] in H; [discriminate|]. bnd H. bnd H. destruct (_ <? 256); [bnd H; repeat step2; eauto|]. destruct (_ =? 256); [injection H as <-; repeat step2; apply prog_refl|]. destruct (_ <=? 285); [|repeat step2; eauto].
  do 10 (try bnd H). cbv zeta in H. destruct (_ <? 0); [discriminate|]. bnd H. repeat step2. eauto.
Qed.
Lemma dyn_prog s fuel s' : dynamic_block more s fuel = Val s' -> prog s s'.
Proof.
  unfold dynamic_block. intros H. bnd H. bnd H. bnd H. bnd H. bnd H. bnd H. cbv zeta in H. bnd H. bnd H. bnd H. bnd H. bnd H. bnd H. bnd H. bnd H. bnd H. bnd H. bnd H. bnd H. repeat step2.
  eapply prog_trans; [eapply cl_prog; eauto|]. eapply prog_trans; [eapply lengths_prog; eauto|]. eapply prog_trans; [eapply lengths_prog; eauto|]. eapply dyn_loop_prog; eauto.
Qed.
Lemma same_prog s a b : prog s (INF (cb s) (ci s) (bit s) (ub s) (ui s) (tin s) (tout s) a b (wrap s)).
Proof. constructor; cbn [cb wrap tin ci tout ui ub bit]; auto; try tauto. intros [K1 K2 K3 K4 K5]. now constructor. Qed.
Lemma block_prog : forall n s fuel s', block_loop lr more s n fuel = Val s' -> prog s s' /\ eof s' = true.
Proof.
  induction n as [|n IH]; intros s fuel s' H; cbn [block_loop] in H; [discriminate|]. bnd H. bnd H. bnd H. bnd H. bnd H. bnd H. cbv zeta in H. pose proof (next_bit_prog _ _ _ E) as P1. pose proof (next_bit_prog _ _ _ E0) as P2. pose proof (next_bit_prog _ _ _ E1) as P3.
  pose proof (prog_trans _ _ _ P1 (prog_trans _ _ _ P2 P3)) as P. clear E E0 E1 P1 P2 P3. set (s3 := if _ =? 1 then _ else _) in H. assert (P3 : prog s s3) by (unfold s3; destruct (_ =? 1); [eapply prog_trans; [exact P|apply same_prog]|exact P]). clearbody s3.
  bnd H. assert (P4 : prog s3 a).
  { destruct (_ =? 0); [exact (stored_prog _ _ E)|]. destruct (_ =? 1); [eapply fixed_prog; eauto|]. destruct (_ =? 2); [eapply dyn_prog; eauto|]. injection E as <-. apply prog_refl. }
  pose proof (prog_trans _ _ _ P3 P4) as P5. destruct (negb (lastb a)).
  - destruct (IH _ _ _ H) as [P6 F]. split; [eapply prog_trans; eauto|exact F].
  - injection H as <-. split; [eapply prog_trans; [exact P5|apply same_prog]|reflexivity].
Qed.
End Any.
Lemma start_ok w data : ok (set_input (inf_new w) data).
Proof. pose proof (zlen_nonneg data). constructor; cbn; try lia. Qed.
(** The counters.  Whatever comes back from Inflate, from whatever data (of a stream with or without header): the Inflater is then finished, what it has read and what remains are together the data, nothing
    behind the data was read, and the number of bytes written is the length of the result. *)
Theorem C135_progress : forall lr more w data o s, inflate_bytes lr more w data = Val (o, s) ->
  finished s = true /\ needs_input s = false /\ get_total_in s + get_remaining s = zlen data /\ 0 <= get_total_in s <= zlen data /\ get_total_out s = zlen o.
Proof.
  intros lr more w data o s H. unfold inflate_bytes, inflate in H. cbv zeta in H.
  set (s0 := INF (cb (set_input (inf_new w) data)) _ _ _ 0 _ _ _ _ _) in H.
  assert (K0 : ok s0 /\ tin s0 = ci s0 /\ tout s0 = ui s0 /\ cb s0 = data /\ ub s0 <> None).
  { split; [|repeat split; discriminate]. pose proof (zlen_nonneg data). constructor; cbn; try lia. }
  clearbody s0. assert (K1 : exists s1, (if (tin s0 =? 0) && negb (wrap s0) then
      if zlen (cb s0) <? 2 then Exn else let* cmf := rd (cb s0) 0 in let* flg := rd (cb s0) 1 in
      if negb (Z.land cmf 15 =? 8) then Exn else if Z.land (Z.shiftr cmf 4) 15 >? 7 then Exn else if negb (Z.land (Z.shiftr flg 5) 1 =? 0) then Exn else
      if negb (u16 (cmf * 256 + flg) mod 31 =? 0) then Exn else Val (set_in s0 2 0 2) else Val s0) = Val s1 /\ ok s1 /\ tin s1 = ci s1 /\ tout s1 = ui s1 /\ cb s1 = data /\ ub s1 <> None).
  { bnd H. exists a. split; [reflexivity|]. clear H. destruct K0 as (A & B & C & D & F). destruct ((tin s0 =? 0) && negb (wrap s0)); [|injection E as <-; auto]. destruct (Z.ltb_spec (zlen (cb s0)) 2) as [|L]; [discriminate|].
    bnd E. bnd E. repeat (match type of E with (if ?b then _ else _) = _ => destruct b; [discriminate|] end). injection E as <-. destruct A as [A1 A2 A3 A4 A5]. split; [|auto]. constructor; cbn; auto; lia. }
  destruct K1 as (s1 & E & K & T1 & T2 & D & U). rewrite E in H. cbn [bind] in H. bnd H. rename E0 into B.
  destruct (block_prog lr more _ _ _ _ B) as [P F]. pose proof (p_ok _ _ P K) as [Q1 Q2 Q3 Q4 Q5]. pose proof (p_tin _ _ P). pose proof (p_tout _ _ P). pose proof (p_cb _ _ P) as C. rewrite D in C.
  destruct (ub a) as [u|] eqn:Eu; [|exfalso; apply U, (p_ub _ _ P), Eu]. injection H as <- <-. unfold finished, needs_input, get_total_in, get_total_out, get_remaining. rewrite F, C in *. split; [reflexivity|]. split; [reflexivity|]. split; [lia|]. split; [lia|].
  unfold zlen in *. rewrite firstn_length. lia.
Qed.
Print Assumptions C135_progress.
(** The totals go on over several inputs until Reset: what came back so far, and what was read of the inputs so far. *)
Fixpoint without_reset (lr : bool) (more : Z -> Z -> Z -> Z) (s : inf) (inputs : list (list Z)) : out (list (list (option Z)) * Z * inf) :=
  match inputs with
  | [] => Val ([], 0, s)
  | d :: r => let* (o, s1) := inflate lr more (set_input s d) in let* (p, s2) := without_reset lr more s1 r in Val (o :: fst p, zlen d - get_remaining s1 + snd p, s2)
  end.
Lemma inflate_step lr more s data o s' : 0 <= bit s < 8 -> (match ub s with Some _ => True | None => False end) -> inflate lr more (set_input s data) = Val (o, s') ->
  0 <= bit s' < 8 /\ (match ub s' with Some _ => True | None => False end) /\ tin s' = tin s + (zlen data - get_remaining s') /\ tout s' = tout s + zlen o.
Proof.
  intros B UB_ H. unfold inflate in H. cbv zeta in H.
  destruct data as [|c data].
  { exfalso. cbn [cb set_input] in H. destruct ((tin (INF [] _ _ _ _ _ _ _ _ _) =? 0) && _); [discriminate|]. cbn [bind] in H. try (bnd H; discriminate). }
  pose proof (zlen_nonneg data) as NN. assert (LC : zlen (c :: data) = 1 + zlen data) by apply zlen_cons. set (dd := c :: data) in *. clearbody dd.
  bnd H. bnd H. assert (K : ok a /\ tin a - ci a = tin s /\ tout a - ui a = tout s /\ cb a = dd /\ match ub a with Some _ => True | None => False end).
  { cbn [cb tin wrap set_input] in E. destruct (Z.eqb_spec (tin s) 0) as [Z0|Z0].
    - destruct (negb (wrap s)); cbn [andb] in E.
      + destruct (Z.ltb_spec (zlen dd) 2) as [|L2]; [discriminate|]. bnd E. bnd E. repeat (match type of E with (if ?b then _ else _) = _ => destruct b; [discriminate|] end). injection E as <-. cbn [set_in tin ci tout ui cb ub set_input].
        split; [|split; [lia|split; [lia|split; [reflexivity|exact UB_]]]]. constructor; cbn; try lia. destruct (ub s) as [u|]; [apply zlen_nonneg|exact I].
      + injection E as <-. cbn. split; [|split; [lia|split; [lia|split; [reflexivity|exact UB_]]]]. constructor; cbn; try lia. destruct (ub s) as [u|]; [apply zlen_nonneg|exact I].
    - injection E as <-. cbn. split; [|split; [lia|split; [lia|split; [reflexivity|exact UB_]]]]. constructor; cbn; try lia. destruct (ub s) as [u|]; [apply zlen_nonneg|exact I]. }
  destruct K as (K & T1 & T2 & C & U). destruct (block_prog lr more _ _ _ _ E0) as [P _]. pose proof (p_ok _ _ P K) as [Q1 Q2 Q3 Q4 Q5]. pose proof (p_tin _ _ P). pose proof (p_tout _ _ P). pose proof (p_cb _ _ P) as C2. rewrite C in C2.
  destruct (ub a0) as [u|] eqn:Eu; [|apply (p_ub _ _ P) in Eu; rewrite Eu in U; contradiction]. injection H as <- <-. rewrite Eu. unfold get_remaining. rewrite C2. split; [exact Q2|]. split; [exact I|]. split; [lia|].
  unfold zlen in *. rewrite firstn_length. lia.
Qed.
Fixpoint total (os : list (list (option Z))) : Z := match os with [] => 0 | o :: r => zlen o + total r end.
Theorem C135_totals : forall lr more w inputs os n s, without_reset lr more (inf_new w) inputs = Val (os, n, s) -> get_total_out s = total os /\ get_total_in s = n.
Proof.
  intros lr more w inputs. enough (A : forall inputs s0 os n s, 0 <= bit s0 < 8 -> (match ub s0 with Some _ => True | None => False end) -> without_reset lr more s0 inputs = Val (os, n, s) -> tout s = tout s0 + total os /\ tin s = tin s0 + n).
  { intros os n s H. destruct (A inputs (inf_new w) os n s ltac:(cbn; lia) I H) as [A1 A2]. unfold get_total_out, get_total_in. rewrite A1, A2. split; reflexivity. }
  clear inputs. induction inputs as [|d r IH]; intros s0 os n s B U H; cbn [without_reset] in H.
  - injection H as <- <- <-. cbn [total]. lia.
  - bnd H. bnd H. bnd H. bnd H. destruct p as [os' n']. cbn [fst snd] in H. injection H as <- <- <-. destruct (inflate_step lr more _ _ _ _ B U E) as (B1 & U1 & T1 & T2). destruct (IH _ _ _ _ B1 U1 E0) as [A1 A2]. cbn [total]. split; lia.
Qed.
Print Assumptions C135_totals.
Example C135_totals_ex : exists s, without_reset true (fun _ _ _ => 0) (inf_new true) [[1; 2; 0; 253; 255; 65; 66]; [1; 1; 0; 254; 255; 67]] = Val ([[Some 65; Some 66]; [Some 67]], 13, s) /\ get_total_out s = 3.
Proof. eexists. split; [vm_compute; reflexivity|]. vm_compute. reflexivity. Qed.
(** Reset: whatever the Inflater has been through, with the next input it does what a new one does. *)
Theorem C135_reset : forall lr more s data, inflate lr more (set_input (reset s) data) = inflate_bytes lr more (wrap s) data.
Proof. reflexivity. Qed.
Print Assumptions C135_reset.
(** the state from which the first Inflate of a session started makes no difference, so a chain of inputs with a Reset between any two is decoded as by new Inflaters *)
Fixpoint chain (lr : bool) (more : Z -> Z -> Z -> Z) (s : inf) (inputs : list (list Z)) : out (list (list (option Z))) :=
  match inputs with [] => Val [] | d :: r => let* (o, s) := inflate lr more (set_input (reset s) d) in let* os := chain lr more s r in Val (o :: os) end.
Fixpoint each (lr : bool) (more : Z -> Z -> Z -> Z) (w : bool) (inputs : list (list Z)) : out (list (list (option Z))) :=
  match inputs with [] => Val [] | d :: r => let* (o, _) := inflate_bytes lr more w d in let* os := each lr more w r in Val (o :: os) end.
Lemma inflate_prog lr more s o s' : inflate lr more s = Val (o, s') -> wrap s' = wrap s /\ (ub s = None -> o = []).
Proof.
  intros H. unfold inflate in H. cbv zeta in H. bnd H. bnd H.
  assert (K : wrap a = wrap s /\ ub a = ub s).
  { cbn [cb tin wrap] in E. destruct ((_ =? 0) && _); [|injection E as <-; auto]. destruct (_ <? 2); [discriminate|]. bnd E. bnd E. repeat (match type of E with (if ?b then _ else _) = _ => destruct b; [discriminate|] end). injection E as <-. auto. }
  destruct K as [W U]. destruct (block_prog lr more _ _ _ _ E0) as [P _]. pose proof (p_wrap _ _ P) as Q. pose proof (p_ub _ _ P) as R. destruct (ub a0) as [u|] eqn:Eu; injection H as <- <-; (split; [congruence|]); auto. intros N. rewrite U in R. apply R in N. discriminate.
Qed.
Theorem C135_chain : forall lr more inputs s, chain lr more s inputs = each lr more (wrap s) inputs.
Proof.
  intros lr more. induction inputs as [|d r IH]; intros s; [reflexivity|]. cbn [chain each]. rewrite C135_reset. destruct (inflate_bytes lr more (wrap s) d) as [[o s']| | |] eqn:E; cbn [bind]; auto.
  rewrite IH. rewrite <- C135_reset in E. now rewrite (proj1 (inflate_prog _ _ _ _ _ E)).
Qed.
Print Assumptions C135_chain.
(** ** what does not hold *)
(** the two stored bytes "AB" in a last block, and "CD" likewise *)
Definition AB : list Z := [1; 2; 0; 253; 255; 65; 66].
Definition CD : list Z := [1; 2; 0; 253; 255; 67; 68].
Definition two : list Z := [0; 1; 0; 254; 255; 67; 1; 1; 0; 254; 255; 68].
(** SetInput alone does not start anew: the block that ended the first input makes every block of the next input the last one, so that an Inflater that goes on reports the half of it, without an exception *)
Theorem C135_reuse_refuted : exists s, inflate_bytes true (fun _ _ _ => 0) true AB = Val ([Some 65; Some 66], s) /\
  (exists s', inflate_bytes true (fun _ _ _ => 0) true two = Val ([Some 67; Some 68], s')) /\
  (exists s', inflate true (fun _ _ _ => 0) (set_input s two) = Val ([Some 67], s') /\ finished s' = true /\ get_remaining s' = 6).
Proof. eexists. split; [vm_compute; reflexivity|]. split; [eexists; vm_compute; reflexivity|]. eexists. vm_compute. repeat split. Qed.
Print Assumptions C135_reuse_refuted.
(** and after a stream that ends within a byte the next input is read from that bit on: one byte of output, but the wrong one *)
Theorem C135_reuse_bit_refuted : exists s, inflate_bytes true (fun _ _ _ => 0) true [3; 0] = Val ([], s) /\
  (exists s', inflate_bytes true (fun _ _ _ => 0) true [75; 4; 0] = Val ([Some 97], s')) /\ (exists s', inflate true (fun _ _ _ => 0) (set_input s [75; 4; 0]) = Val ([Some 20], s')).
Proof. eexists. split; [vm_compute; reflexivity|]. split; [eexists; vm_compute; reflexivity|]. eexists. vm_compute. reflexivity. Qed.
Print Assumptions C135_reuse_bit_refuted.
(** The header says that the caller must delete the array he gets, but the Inflater goes on with it.  Once he has done so, an Inflate without a Reset before it touches freed memory whenever it has a byte to
    write: it can only come back with nothing.  After a Reset it has a buffer of its own again. *)
Theorem C135_freed_buffer : forall lr more s data o s', inflate lr more (set_input (free_buffer s) data) = Val (o, s') -> o = [].
Proof. intros lr more s data o s' H. exact (proj2 (inflate_prog _ _ _ _ _ H) eq_refl). Qed.
Print Assumptions C135_freed_buffer.
Theorem C135_freed_buffer_reset : forall lr more s data, inflate lr more (set_input (reset (free_buffer s)) data) = inflate_bytes lr more (wrap s) data.
Proof. reflexivity. Qed.
Print Assumptions C135_freed_buffer_reset.
Theorem C135_freed_buffer_refuted : exists s, inflate_bytes true (fun _ _ _ => 0) true AB = Val ([Some 65; Some 66], s) /\
  inflate true (fun _ _ _ => 0) (set_input (free_buffer s) AB) = UB.
Proof. eexists. split; [vm_compute; reflexivity|]. vm_compute. reflexivity. Qed.
Print Assumptions C135_freed_buffer_refuted.
(** the byte whose first bits end the stream counts as not read, although it is: who looks for what follows the compressed data must skip it *)
Theorem C135_last_byte_refuted : exists s, inflate_bytes true (fun _ _ _ => 0) true [3; 0; 77] = Val ([], s) /\ finished s = true /\ get_total_in s = 1 /\ get_remaining s = 2.
Proof. eexists. vm_compute. repeat split. Qed.
Print Assumptions C135_last_byte_refuted.
(** A match in a fixed block that reaches back 32768 bytes at the second byte of the output copies the byte to be written itself: the result contains cells of the array that were never written, the old contents
    of the memory. *)
Theorem C135_uninitialised_refuted : exists s, inflate_bytes true (fun _ _ _ => 0) true [115; 6; 222; 255; 15; 0] = Val ([Some 67; None; None; None], s) /\ finished s = true.
Proof. eexists. vm_compute. repeat split. Qed.
Print Assumptions C135_uninitialised_refuted.
