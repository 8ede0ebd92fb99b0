(** P_PoolLife.v -- C134: objects and the life of the autorelease pool. *)
From Verif Require Import Base M_PoolLife S_PoolLife.
(** what is at an object's place when there are r references of it *)
Definition cell (r : Z) : option obj := if r =? 0 then None else Some (Obj r true).
Lemma hput_nth l : forall i v j, nth_error (hput l i v) j = if Nat.eqb j i then match nth_error l j with Some _ => Some v | None => None end else nth_error l j.
Proof. induction l as [|x l IH]; intros [|i] v [|j]; cbn; auto; try (destruct (Nat.eqb j i); reflexivity). Qed.
Lemma hput_length l : forall i v, length (hput l i v) = length l. Proof. induction l; intros [|i] v; cbn; auto. Qed.
Definition cells (n : nat) (f : nat -> Z) (h : list (option obj)) : Prop := length h = n /\ forall i, (i < n)%nat -> nth_error h i = Some (cell (f i)).
Lemma release_ok n f h i : cells n f h -> (i < n)%nat -> 0 < f i < 2 ^ 31 -> exists h', release i true h = Val h' /\ cells n (inc f i (-1)) h'.
Proof.
  intros [L C] Hi Hf. unfold release, deref. rewrite (C i Hi). unfold cell. destruct (Z.eqb_spec (f i) 0); [lia|]. cbn [bind pooled negb cnt]. change (- 2 ^ 31) with (-2147483648). change (2 ^ 31) with 2147483648 in *. destruct (Z.eqb_spec (f i) (-2147483648)); [lia|].
  destruct (Z.eqb_spec (f i - 1) 0) as [E|E]; (eexists; split; [reflexivity|]; split; [now rewrite hput_length|]; intros j Hj; rewrite hput_nth, (C j Hj); unfold inc; destruct (Nat.eqb_spec j i) as [->|]; [|reflexivity]; unfold cell).
  - now replace (f i + -1 =? 0) with true by lia.
  - replace (f i + -1 =? 0) with false by lia. reflexivity.
Qed.
Lemma cells_ext n f g h : (forall i, (i < n)%nat -> f i = g i) -> cells n f h -> cells n g h.
Proof. intros E [L C]. split; [exact L|]. intros i Hi. now rewrite (C i Hi), (E i Hi). Qed.
Lemma drain_ok n f : (forall i, 0 <= f i) -> forall l h, cells n (fun i => f i + Z.of_nat (count_occ Nat.eq_dec l i)) h -> Forall (fun i => (i < n)%nat) l -> (forall i, f i + Z.of_nat (count_occ Nat.eq_dec l i) < 2 ^ 31) ->
  exists h', drain l h = Val h' /\ cells n f h'.
Proof.
  intros Hf. induction l as [|i l IH]; intros h C F B.
  - exists h. split; [reflexivity|]. eapply cells_ext; [|exact C]. intros j _. cbn [count_occ]. lia.
  - inversion F as [|? ? F1 F2]; subst. cbn [drain].
    destruct (release_ok n _ h i C F1) as (h1 & -> & C1); [split; [|apply B]; cbn [count_occ]; destruct (Nat.eq_dec i i); [|contradiction]; specialize (Hf i); lia|]. cbn [bind].
    apply IH; [|exact F2|].
    + eapply cells_ext; [|exact C1]. intros j _. unfold inc. cbn [count_occ]. destruct (Nat.eqb_spec j i) as [->|N]; [destruct (Nat.eq_dec i i); [lia|contradiction]|]. destruct (Nat.eq_dec i j); [congruence|lia].
    + intros j. specialize (B j). cbn [count_occ] in B. destruct (Nat.eq_dec i j); lia.
Qed.
Record inv (n : Z) (g : ledger) (s : st) : Prop := Inv {
  i_cells : cells (made g) (references g) (heap s);
  i_held : forall i, 0 <= held g i;
  i_out : forall i, (made g <= i)%nat -> held g i = 0;
  i_later : Forall (fun i => (i < made g)%nat) (later g);
  i_bound : forall i, references g i <= n;
  i_main : main s = match phase g with 0%nat => NotYet | 1%nat => Live (later g) | _ => Gone end;
  i_phase : (phase g <= 2)%nat;
  i_idle : phase g <> 1%nat -> later g = [] /\ forall i, held g i = 0 }.
Lemma step_ok n g s x : inv n g s -> 0 <= n < 2 ^ 31 - 1 -> polite x g -> exists s', exec x s = Val s' /\ inv (n + 1) (lstep x g) s'.
Proof.
  intros I Hn P. pose proof I as [Ic Ih Io Il Ib Im Ip Ii]. change (2 ^ 31) with 2147483648 in Hn. assert (Bd : forall i, references g i < 2 ^ 31) by (intros i; specialize (Ib i); change (2 ^ 31) with 2147483648; lia).
  assert (Cn : forall i, (made g <= i)%nat -> count_occ Nat.eq_dec (later g) i = 0%nat) by (intros i Hi; apply count_occ_not_In; intros X; rewrite Forall_forall in Il; specialize (Il _ X); lia).
  destruct x as [| | |i|i|i| |i]; cbn [exec lstep polite] in *.
  - assert (S1 : exists s', (match main s with NotYet => Val (St (heap s) (Live [])) | Live l => Val s | Gone => UB end) = Val s' /\ heap s' = heap s /\ main s' = Live (later g)).
    { rewrite Im. destruct (phase g) as [|[|[|p]]] eqn:E; [| |contradiction|lia].
      - destruct (Ii ltac:(lia)) as [-> _]. eexists. split; [reflexivity|]. split; reflexivity.
      - exists s. rewrite Im. auto. }
    destruct S1 as (s' & -> & Eh & Em). exists s'. split; [reflexivity|]. constructor; cbn [made held later phase]; auto; [now rewrite Eh|intros i; specialize (Ib i); unfold references in *; cbn [held later]; lia].
  - assert (S1 : exists s', (match main s with Live l => let* h := drain l (heap s) in Val (St h Gone) | _ => Val (St (heap s) Gone) end) = Val s' /\ cells (made g) (held g) (heap s') /\ main s' = Gone).
    { rewrite Im. destruct (phase g) as [|[|[|p]]] eqn:E; [| | |lia].
      - destruct (Ii ltac:(lia)) as [Z _]. eexists. split; [reflexivity|]. split; [|reflexivity]. eapply cells_ext; [|exact Ic]. intros i _. unfold references. rewrite Z. cbn. lia.
      - destruct (drain_ok (made g) (held g) Ih (later g) (heap s) Ic Il Bd) as (h' & -> & C'). cbn [bind]. eexists. split; [reflexivity|]. split; [exact C'|reflexivity].
      - destruct (Ii ltac:(lia)) as [Z _]. eexists. split; [reflexivity|]. split; [|reflexivity]. eapply cells_ext; [|exact Ic]. intros i _. unfold references. rewrite Z. cbn. lia. }
    destruct S1 as (s' & -> & Ch & Em). exists s'. split; [reflexivity|]. constructor; cbn [made held later phase]; auto; try contradiction.
    + eapply cells_ext; [|exact Ch]. intros i _. unfold references. cbn. lia.
    + intros i. unfold references. cbn [held later count_occ]. rewrite P. lia.
  - rewrite P in Im. exists (St (heap s ++ [Some (Obj 1 (is_live (main s)))]) (main s)). split; [reflexivity|]. rewrite Im. cbn [is_live]. destruct Ic as [Lh Ch].
    constructor; cbn [made held later phase heap main]; auto; try contradiction.
    + split; [rewrite app_length; cbn; lia|]. intros i Hi. unfold references. cbn [held later]. unfold inc. destruct (Nat.eqb_spec i (made g)) as [->|N].
      * rewrite nth_error_app2 by lia. rewrite Lh, Nat.sub_diag, (Io (made g)), (Cn (made g)) by lia. reflexivity.
      * rewrite nth_error_app1 by lia. apply Ch. lia.
    + intros i. unfold inc. specialize (Ih i). destruct (Nat.eqb i (made g)); lia.
    + intros i Hi. unfold inc. destruct (Nat.eqb_spec i (made g)); [lia|]. apply Io. lia.
    + eapply Forall_impl; [|exact Il]. cbv beta. intros; lia.
    + intros i. specialize (Ib i). unfold references in *. cbn [held later]. unfold inc. destruct (Nat.eqb i (made g)); lia.
    + now rewrite P.
  - destruct P as [P Hh]. rewrite P in Im. assert (Hi : (i < made g)%nat) by (destruct (Nat.lt_ge_cases i (made g)) as [?|G]; [assumption|]; specialize (Io i G); specialize (Cn i G); unfold references in Hh; lia). destruct Ic as [Lh Ch].
    assert (R : 0 < references g i) by lia. unfold retain, deref. rewrite (Ch i Hi). unfold cell. destruct (Z.eqb_spec (references g i) 0); [lia|]. rewrite Im. cbn [bind pooled negb is_live cnt]. change (2 ^ 31 - 1) with 2147483647. specialize (Ib i) as Bi. destruct (Z.eqb_spec (references g i) 2147483647); [lia|]. cbn [bind].
    eexists. split; [reflexivity|]. constructor; cbn [made held later phase heap main]; auto; try contradiction.
    + split; [now rewrite hput_length|]. intros j Hj. rewrite hput_nth, (Ch j Hj). unfold references, inc in *. cbn [held later]. destruct (Nat.eqb_spec j i) as [->|]; [|reflexivity]. unfold cell. replace (held g i + 1 + _ =? 0) with false by lia. do 3 f_equal. lia.
    + intros j. unfold inc. specialize (Ih j). destruct (Nat.eqb j i); lia.
    + intros j Hj. unfold inc. destruct (Nat.eqb_spec j i); [lia|]. now apply Io.
    + intros j. specialize (Ib j). unfold references in *. cbn [held later]. unfold inc. destruct (Nat.eqb j i); lia.
    + now rewrite P.
  - destruct P as [P Hh]. rewrite P in Im. assert (Hi : (i < made g)%nat) by (destruct (Nat.lt_ge_cases i (made g)) as [?|G]; [assumption|]; specialize (Io i G); lia).
    destruct (release_ok _ _ _ i Ic Hi) as (h' & E & C'); [split; [unfold references; lia|apply Bd]|]. rewrite Im. cbn [is_live]. rewrite E. cbn [bind]. eexists. split; [reflexivity|]. constructor; cbn [made held later phase heap main]; auto; try contradiction.
    + eapply cells_ext; [|exact C']. intros j _. unfold references, inc. cbn [held later]. destruct (Nat.eqb j i); lia.
    + intros j. unfold inc. specialize (Ih j). destruct (Nat.eqb_spec j i) as [->|]; lia.
    + intros j Hj. unfold inc. destruct (Nat.eqb_spec j i); [lia|]. now apply Io.
    + intros j. specialize (Ib j). unfold references in *. cbn [held later]. unfold inc. destruct (Nat.eqb j i); lia.
    + now rewrite P.
  - destruct P as [P Hh]. rewrite P in Im. assert (Hi : (i < made g)%nat) by (destruct (Nat.lt_ge_cases i (made g)) as [?|G]; [assumption|]; specialize (Io i G); lia). pose proof Ic as [Lh Ch].
    unfold deref. rewrite (Ch i Hi). unfold cell at 1. destruct (Z.eqb_spec (references g i) 0); [unfold references in *; lia|]. cbn [bind pooled negb]. rewrite Im. eexists. split; [reflexivity|].
    assert (Same : forall j, references (Ledger (inc (held g) i (-1)) (made g) (later g ++ [i]) (phase g)) j = references g j).
    { intros j. unfold references, inc. cbn [held later]. rewrite count_occ_app. cbn [count_occ]. destruct (Nat.eqb_spec j i) as [->|N]; [destruct (Nat.eq_dec i i); [lia|contradiction]|]. destruct (Nat.eq_dec i j); [congruence|lia]. }
    constructor; cbn [made held later phase heap main]; auto; try contradiction.
    + eapply cells_ext; [|exact Ic]. intros j _. now rewrite Same.
    + intros j. unfold inc. specialize (Ih j). destruct (Nat.eqb_spec j i) as [->|]; lia.
    + intros j Hj. unfold inc. destruct (Nat.eqb_spec j i); [lia|]. now apply Io.
    + apply Forall_app. split; [exact Il|repeat constructor; exact Hi].
    + intros j. rewrite Same. specialize (Ib j). lia.
    + now rewrite P.
  - rewrite P in Im. rewrite Im. destruct (drain_ok (made g) (held g) Ih (later g) (heap s) Ic Il Bd) as (h' & -> & C'). cbn [bind]. eexists. split; [reflexivity|]. constructor; cbn [made held later phase heap main]; auto; try contradiction.
    + eapply cells_ext; [|exact C']. intros j _. unfold references. cbn. lia.
    + intros j. specialize (Ib j). unfold references in *. cbn [held later count_occ]. lia.
    + now rewrite P.
  - contradiction.
Qed.
Lemma run_ok : forall l n g s, inv n g s -> 0 <= n -> n + zlen l < 2 ^ 31 - 1 -> all_polite l g -> exists s', exec_all l s = Val s' /\ inv (n + zlen l) (lsteps l g) s'.
Proof.
  induction l as [|x l IH]; intros n g s I Hn Hl P; [exists s; split; [reflexivity|]; cbn [lsteps]; change (zlen []) with 0; now rewrite Z.add_0_r|]. rewrite zlen_cons in *. pose proof (zlen_nonneg l). destruct P as [P1 P2].
  destruct (step_ok n g s x I ltac:(lia) P1) as (s1 & E & I1). cbn [exec_all lsteps]. rewrite E. cbn [bind]. destruct (IH (n + 1) _ s1 I1 ltac:(lia) ltac:(lia) P2) as (s' & E' & I'). exists s'. split; [exact E'|]. now replace (n + (1 + zlen l)) with (n + 1 + zlen l) by lia.
Qed.
Lemma inv_new : inv 0 ledger_new st_new.
Proof. constructor; cbn; auto; try lia. split; [reflexivity|intros i Hi; lia]. Qed.
(** C134: nothing undefined happens; an object exists exactly while there are references of it, held or with the pool, and its counter says how many *)
Theorem C134_alive_while_referenced : forall l, zlen l < 2 ^ 31 - 1 -> all_polite l ledger_new ->
  exists s, exec_all l st_new = Val s /\ let g := lsteps l ledger_new in length (heap s) = made g /\
    forall i, (i < made g)%nat -> 0 <= references g i /\ nth_error (heap s) i = Some (if references g i =? 0 then None else Some (Obj (references g i) true)).
Proof.
  intros l Hl P. destruct (run_ok l 0 _ _ inv_new ltac:(lia) ltac:(lia) P) as (s & E & [[Lh Ch] Ih _ _ _ _ _ _]). exists s. split; [exact E|]. cbv zeta. split; [exact Lh|]. intros i Hi. split; [unfold references; specialize (Ih i); lia|]. exact (Ch i Hi).
Qed.
Print Assumptions C134_alive_while_referenced.
(** C134: quit frees everything, also what was given to autorelease and never drained *)
Lemma all_polite_app a : forall b g, all_polite (a ++ b) g <-> all_polite a g /\ all_polite b (lsteps a g).
Proof. induction a as [|x a IH]; intros b g; cbn [app all_polite lsteps]; [tauto|]. rewrite IH. tauto. Qed.
Lemma lsteps_app a : forall b g, lsteps (a ++ b) g = lsteps b (lsteps a g). Proof. induction a as [|x a IH]; intros b g; cbn [app lsteps]; auto. Qed.
Theorem C134_quit_frees_everything : forall l, zlen l + 1 < 2 ^ 31 - 1 -> all_polite (l ++ [Quit]) ledger_new ->
  exists s, exec_all (l ++ [Quit]) st_new = Val s /\ forall i o, nth_error (heap s) i = Some o -> o = None.
Proof.
  intros l Hl P. destruct (C134_alive_while_referenced (l ++ [Quit])) as (s & E & Lh & Ch); [rewrite zlen_app; change (zlen [Quit]) with 1; lia|exact P|]. exists s. split; [exact E|]. intros i o Ho. cbv zeta in *.
  assert (Hi : (i < made (lsteps (l ++ [Quit]) ledger_new))%nat) by (rewrite <- Lh; apply nth_error_Some; congruence). destruct (Ch i Hi) as [_ C]. rewrite Ho in C. injection C as ->.
  apply all_polite_app in P as [_ [P _]]. cbn [polite] in P. rewrite lsteps_app. cbn [lsteps lstep]. unfold references. cbn [held later count_occ]. now rewrite P.
Qed.
Print Assumptions C134_quit_frees_everything.
(** an object created before init (or after quit) is never freed, however often it is released, and cannot be retained or given to autorelease *)
Lemma drain_early : forall l h h', nth_error h 0 = Some (Some (Obj 1 false)) -> drain l h = Val h' -> nth_error h' 0 = Some (Some (Obj 1 false)).
Proof.
  induction l as [|i l IH]; intros h h' H E; cbn [drain] in E; [injection E as <-; exact H|]. destruct (release i true h) as [h1| | |] eqn:R; cbn [bind] in E; try discriminate. apply (IH h1 h'); [|exact E].
  unfold release, deref in R. destruct (nth_error h i) as [[o|]|] eqn:Ei; cbn [bind] in R; try discriminate. destruct (pooled o) eqn:Po; cbn [negb] in R; [|injection R as <-; exact H].
  destruct i as [|i]; [rewrite H in Ei; injection Ei as <-; discriminate|]. destruct (_ =? _); [discriminate|]. destruct (_ =? _); injection R as <-; rewrite hput_nth; exact H.
Qed.
Theorem C134_early_object_refuted : forall l s, exec_all (New :: l) st_new = Val s -> ~ In (Destroy 0) l ->
  nth_error (heap s) 0 = Some (Some (Obj 1 false)) /\ exec (Retain 0) s = UB /\ exec (Autorelease 0) s = UB /\ exec (Release 0) s = Val s.
Proof.
  assert (K : forall l s s', nth_error (heap s) 0 = Some (Some (Obj 1 false)) -> exec_all l s = Val s' -> ~ In (Destroy 0) l -> nth_error (heap s') 0 = Some (Some (Obj 1 false))).
  { induction l as [|x l IH]; intros s s' H E N; cbn [exec_all] in E; [injection E as <-; exact H|]. destruct (exec x s) as [s1| | |] eqn:X; cbn [bind] in E; try discriminate. apply (IH s1 s'); [|exact E|intros C; apply N; now right].
    destruct x as [| | |i|i|i| |i]; cbn [exec] in X.
    - destruct (main s); try discriminate; injection X as <-; exact H.
    - destruct (main s); try (injection X as <-; exact H). destruct (drain entries (heap s)) as [h| | |] eqn:D; cbn [bind] in X; try discriminate. injection X as <-. eapply drain_early; eauto.
    - injection X as <-. cbn [heap]. destruct (heap s); [discriminate|exact H].
    - unfold retain, deref in X. destruct (nth_error (heap s) i) as [[o|]|] eqn:Ei; cbn [bind] in X; try discriminate. destruct (pooled o) eqn:Po; cbn [negb bind] in X; [|discriminate]. destruct (is_live (main s)); cbn [negb bind] in X; [|discriminate].
      destruct (_ =? _); cbn [bind] in X; [discriminate|]. injection X as <-. destruct i as [|i]; [rewrite H in Ei; injection Ei as <-; discriminate|]. cbn [heap]. rewrite hput_nth. exact H.
    - destruct (release i (is_live (main s)) (heap s)) as [h| | |] eqn:R; cbn [bind] in X; try discriminate. injection X as <-. cbn [heap]. unfold release, deref in R. destruct (nth_error (heap s) i) as [[o|]|] eqn:Ei; cbn [bind] in R; try discriminate. destruct (pooled o) eqn:Po; cbn [negb] in R; [|injection R as <-; exact H].
      destruct (is_live (main s)); cbn [negb] in R; [|discriminate]. destruct i as [|i]; [rewrite H in Ei; injection Ei as <-; discriminate|]. destruct (_ =? _); [discriminate|]. destruct (_ =? _); injection R as <-; rewrite hput_nth; exact H.
    - destruct (deref (heap s) i) as [o| | |]; cbn [bind] in X; try discriminate. destruct (pooled o); cbn [negb] in X; [|discriminate]. destruct (main s); try discriminate. injection X as <-. exact H.
    - destruct (main s); try discriminate. destruct (drain entries (heap s)) as [h| | |] eqn:D; cbn [bind] in X; try discriminate. injection X as <-. eapply drain_early; eauto.
    - destruct i as [|i]; [exfalso; apply N; now left|]. destruct (deref (heap s) (S i)); cbn [bind] in X; try discriminate. injection X as <-. cbn [heap]. rewrite hput_nth. exact H. }
  intros l s E N. cbn [exec_all exec bind st_new heap main is_live app] in E. apply K in E; [|reflexivity|exact N]. split; [exact E|]. cbn [exec]. unfold retain, release, deref. rewrite E. cbn [bind pooled negb]. split; [reflexivity|]. split; [reflexivity|]. destruct s. reflexivity.
Qed.
Print Assumptions C134_early_object_refuted.
(** an object that outlives quit cannot be released any more *)
Theorem C134_late_release_refuted : forall s s' i o, exec Quit s = Val s' -> nth_error (heap s') i = Some (Some o) -> pooled o = true ->
  exec (Release i) s' = UB /\ exec (Retain i) s' = UB /\ exec (Autorelease i) s' = UB.
Proof.
  intros s s' i o E Ho Po. assert (M : main s' = Gone) by (cbn [exec] in E; destruct (main s); [injection E as <-; reflexivity| |injection E as <-; reflexivity]; destruct (drain entries (heap s)); cbn [bind] in E; try discriminate; now injection E as <-).
  cbn [exec]. unfold release, retain, deref. rewrite Ho, M. cbn [bind]. rewrite Po. repeat split.
Qed.
Print Assumptions C134_late_release_refuted.
(** an object that is deleted otherwise (delete, or the end of its scope) while the pool has it: the next drain, or quit, is undefined *)
Lemma drain_dead : forall l h i, In i l -> nth_error h i = Some None -> drain l h = UB \/ drain l h = Exn \/ drain l h = Fuel.
Proof.
  induction l as [|j l IH]; intros h i Hi D; [contradiction|]. cbn [drain]. destruct (release j true h) as [h1| | |] eqn:R; cbn [bind]; auto. destruct (Nat.eq_dec j i) as [->|N]; [unfold release, deref in R; rewrite D in R; discriminate|]. destruct Hi as [->|Hi]; [contradiction|].
  apply (IH h1 i Hi). unfold release, deref in R. destruct (nth_error h j) as [[o|]|]; cbn [bind] in R; try discriminate. destruct (pooled o); cbn [negb] in R; [|now injection R as <-].
  destruct (_ =? _); [discriminate|]. destruct (_ =? _); injection R as <-; rewrite hput_nth; destruct (Nat.eqb_spec i j); try congruence.
Qed.
Lemma release_ub i h : release i true h = UB \/ exists h', release i true h = Val h'.
Proof. unfold release, deref. destruct (nth_error h i) as [[o|]|]; cbn [bind]; auto. destruct (pooled o); cbn [negb]; [|right; eauto]. destruct (_ =? _); auto. destruct (_ =? _); right; eauto. Qed.
Lemma drain_ub : forall l h, drain l h = UB \/ exists h', drain l h = Val h'.
Proof. induction l as [|i l IH]; intros h; cbn [drain]; [right; eauto|]. destruct (release_ub i h) as [->|[h1 ->]]; cbn [bind]; auto. Qed.
Theorem C134_deleted_entry_refuted : forall s l i o, main s = Live l -> In i l -> nth_error (heap s) i = Some (Some o) -> exec_all [Destroy i; Drain] s = UB /\ exec_all [Destroy i; Quit] s = UB.
Proof.
  intros s l i o M Hi Ho. cbn [exec_all exec]. unfold deref. rewrite Ho. cbn [bind main heap]. rewrite M.
  assert (D : drain l (hput (heap s) i None) = UB) by (destruct (drain_ub l (hput (heap s) i None)) as [E|[h' E]]; [exact E|]; exfalso; destruct (drain_dead l (hput (heap s) i None) i Hi) as [X|[X|X]]; [rewrite hput_nth, Nat.eqb_refl, Ho; reflexivity|congruence..]).
  rewrite D. split; reflexivity.
Qed.
Print Assumptions C134_deleted_entry_refuted.
(** examples *)
Definition ex_life : list op := [Init; New; Retain 0; New; Autorelease 1; Retain 1; Release 1; Release 0; Drain; New; Autorelease 2; Autorelease 0; Quit].
Example ex_life_polite : all_polite ex_life ledger_new.
Proof. cbn. repeat split; try lia. intros [|[|[|i]]]; cbn; lia. Qed.
Example ex_life_runs : exec_all ex_life st_new = Val (St [None; None; None] Gone).
Proof. reflexivity. Qed.
Example ex_early : exec_all [New; Init; Release 0; Release 0; Quit] st_new = Val (St [Some (Obj 1 false)] Gone).
Proof. reflexivity. Qed.
Example ex_late : exec_all [Init; New; Quit; Release 0] st_new = UB.
Proof. reflexivity. Qed.
