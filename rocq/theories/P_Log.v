(** P_Log.v -- C124: the log of System, used by many threads. The programs of the threads and the schedule are arbitrary in every theorem. *)
From Verif Require Import Base M_Log S_Log.

Lemma upd_eq f t s : upd f t s t = s. Proof. unfold upd. now rewrite Nat.eqb_refl. Qed.
Lemma upd_ne f t s x : x <> t -> upd f t s x = f x. Proof. intros N. unfold upd. destruct (Nat.eqb_spec x t); congruence. Qed.
Definition seen (c : config) : world := W (date c) (label c) (error c) (console c).
(** running the rest of a body alone *)
Fixpoint fin (tr : list Z -> list Z) (now : list Z) (l : list prim) (w : world) (msg : list Z) : world :=
  match l with
  | [] => w
  | p :: l =>
    match p with
    | PDate => fin tr now l w (msg ++ if wdate w then [91] ++ now ++ [93; 32] else [])
    | PText x => fin tr now l w (msg ++ x)
    | PLabel v => fin tr now l w (msg ++ if rank (wlabel w) <=? rank v then tr (key v) else [])
    | PStoreError m => fin tr now l (W (wdate w) (wlabel w) m (wconsole w)) msg
    | PPrint => fin tr now l (W (wdate w) (wlabel w) (werror w) (wconsole w ++ msg)) msg
    | PEndl => fin tr now l (W (wdate w) (wlabel w) (werror w) (wconsole w ++ [10])) msg
    | PStoreDate b => fin tr now l (W b (wlabel w) (werror w) (wconsole w)) msg
    | PStoreLabel v => fin tr now l (W (wdate w) v (werror w) (wconsole w)) msg
    | _ => fin tr now l w msg
    end
  end.
Lemma fin_body tr now k w : fin tr now (body k) w [] = effect tr w now k.
Proof.
  destruct k as [m l|b|l|]; [|reflexivity..|destruct w; reflexivity]. destruct w as [d lb e cs]. destruct l; cbn; unfold line, message; cbn; rewrite ?app_nil_r, <- ?app_assoc; try reflexivity; cbn [app]; rewrite <- ?app_assoc; reflexivity.
Qed.
Lemma fin_grows tr now l : forall w msg, exists x, wconsole (fin tr now l w msg) = wconsole w ++ x.
Proof.
  induction l as [|p l IH]; intros w msg; [exists []; cbn; now rewrite app_nil_r|].
  destruct p; cbn; try (apply IH); match goal with |- context [fin tr now l ?w' ?m'] => destruct (IH w' m') as [x E]; rewrite E; cbn end; rewrite <- ?app_assoc; eauto.
Qed.
(** the middle of a call: [w0] is the world before it *)
Record mid (tr : list Z -> list Z) (w0 : world) (k : call) (todo : list prim) (w : world) (msg : list Z) : Prop := Mid {
  mid_lock : In PUnlock todo;
  mid_sfx : exists pre, body k = PLock :: pre ++ todo;
  mid_eff : exists now, fin tr now todo w msg = effect tr w0 now k;
  mid_date : In PDate todo -> w = w0 /\ msg = [] /\ body k = PLock :: todo;
  mid_out : exists x, wconsole w = wconsole w0 ++ x }.
Definition thread_ok (tr : list Z -> list Z) (w0 : world) (c : config) (t : nat) : Prop :=
  match thr c t with
  | Idle _ => owner c <> Some t
  | Run k todo msg rest => (todo = body k /\ msg = [] /\ owner c <> Some t) \/ (todo = [] /\ owner c <> Some t) \/ (owner c = Some t /\ mid tr w0 k todo (seen c) msg)
  end.
Record inv (tr : list Z -> list Z) (w : world) (prog : nat -> list call) (h : history) (c : config) : Prop := Inv {
  i_bundle : bundle c = Some tr;
  i_thr : forall t, thread_ok tr (effects tr w h) c t;
  i_free : owner c = None -> seen c = effects tr w h;
  i_proj : forall t, prog t = calls t h ++ pending (thr c t) }.

Lemma calls_snoc t h x now k : calls t (h ++ [(x, now, k)]) = calls t h ++ if Nat.eqb x t then [k] else [].
Proof. unfold calls. rewrite filter_app, map_app. cbn. now destruct (Nat.eqb x t). Qed.
Lemma effects_snoc tr w h x now k : effects tr w (h ++ [(x, now, k)]) = effect tr (effects tr w h) now k.
Proof. unfold effects. now rewrite fold_left_app. Qed.
Lemma pending_body k msg rest : pending (Run k (body k) msg rest) = k :: rest.
Proof. destruct k as [m l|b|l|]; reflexivity. Qed.
Lemma unlock_last k pre todo : body k = PLock :: pre ++ PUnlock :: todo -> todo = [].
Proof.
  assert (L : forall l pre, removelast l ++ [PUnlock] = l -> ~ In PUnlock (removelast l) -> l = pre ++ PUnlock :: todo -> todo = []).
  { intros l q E N H. destruct (exists_last (l := PUnlock :: todo)) as (x & y & X); [discriminate|]. rewrite X, app_assoc in H. rewrite H, removelast_last in N. destruct x as [|p x]; [injection X; auto|]. injection X as <- X. exfalso. apply N. apply in_or_app. right. now left. }
  intros H. destruct k as [m l|b|l|]; [destruct l| | |]; cbn in H; try discriminate; injection H as H; refine (L _ _ _ _ H); try reflexivity; cbn; intuition discriminate.
Qed.
Lemma lock_first k todo : body k = PLock :: todo -> ~ In PLock todo /\ In PUnlock todo.
Proof. intros H. destruct k as [m l|b|l|]; [destruct l| | |]; cbn in H; try discriminate; injection H as <-; cbn; split; try (intuition discriminate); auto 12. Qed.
Lemma date_once k pre todo : body k = PLock :: pre ++ PDate :: todo -> ~ In PDate todo /\ pre = [].
Proof.
  intros H. assert (P : pre = []). { destruct pre as [|p pre]; [reflexivity|]. exfalso. destruct k as [m l|b|l|]; [destruct l| | |]; cbn in H; try discriminate; injection H as <- H; repeat (destruct pre as [|? pre]; cbn in H; try discriminate; injection H as ? H; try discriminate). }
  subst pre. split; [|reflexivity]. destruct k as [m l|b|l|]; [destruct l| | |]; cbn in H; try discriminate; injection H as <-; cbn; intuition discriminate.
Qed.
Lemma load_only k pre todo : body k = PLock :: pre ++ PLoadError :: todo -> False.
Proof. intros H. destruct k as [m l|b|l|]; [destruct l| | |]; cbn in H; try discriminate; injection H as H; repeat (destruct pre as [|? pre]; cbn in H; try discriminate; injection H as ? H; try discriminate). Qed.
(** only a thread that owns the mutex or is about to lock does anything, but for LastError *)
Lemma begin_body k p todo : p :: todo = body k -> (p = PLock /\ body k = PLock :: todo) \/ (p = PLoadError /\ k = LastError /\ todo = []).
Proof. intros H. destruct k as [m l|b|l|]; cbn in H; injection H as -> ->; auto. Qed.
Lemma other_ok tr w0 c c' t x : x <> t -> thread_ok tr w0 c x -> thr c' x = thr c x -> (owner c' = owner c \/ owner c' = Some t) ->
  (owner c = Some x -> owner c' = owner c -> seen c' = seen c) -> (owner c = Some x -> owner c' = owner c) -> thread_ok tr w0 c' x.
Proof.
  intros N H E O S S2. unfold thread_ok in *. rewrite E.
  assert (O' : owner c <> Some x -> owner c' <> Some x) by (intros A B; destruct O as [O|O]; congruence).
  destruct (thr c x) as [r|k todo msg r]; [auto|]. destruct H as [(A & B & C)|[(A & C)|(C & M)]]; auto 6. right. right. rewrite (S2 C). split; [exact C|]. rewrite S; auto.
Qed.
(** * the invariant *)
Lemma inv_step tr w prog h c t now c' : inv tr w prog h c -> step c t now = Next c' -> exists h', inv tr w prog h' c'.
Proof.
  intros [IB IT IF IP] H. pose proof (IT t) as T. unfold step in H. unfold thread_ok in T. destruct (thr c t) as [rest|k todo msg rest] eqn:Et.
  { destruct rest as [|k rest]; [discriminate|]. injection H as <-. exists h. split; cbn; auto.
    - intros x. destruct (Nat.eq_dec x t) as [->|N].
      + unfold thread_ok. cbn. rewrite upd_eq. auto.
      + eapply (other_ok tr _ c); eauto; cbn. now apply upd_ne.
    - intros x. destruct (Nat.eq_dec x t) as [->|N]; [|now rewrite upd_ne]. rewrite upd_eq, pending_body, (IP t), Et. reflexivity. }
  destruct todo as [|p todo].
  { injection H as <-. exists h. split; cbn; auto.
    - intros x. destruct (Nat.eq_dec x t) as [->|N].
      + unfold thread_ok. cbn. rewrite upd_eq. destruct T as [(A & _)|[(_ & A)|(_ & M)]]; [destruct k; discriminate A|exact A|]. destruct (mid_lock _ _ _ _ _ _ M).
      + eapply (other_ok tr _ c); eauto; cbn. now apply upd_ne.
    - intros x. destruct (Nat.eq_dec x t) as [->|N]; [|now rewrite upd_ne]. rewrite upd_eq, (IP t), Et. reflexivity. }
  destruct T as [(A & M0 & NO)|[(A & _)|(O & M)]]; [|discriminate A|].
  - (* the beginning *)
    subst msg. apply begin_body in A. destruct A as [(-> & B)|(-> & -> & ->)].
    + unfold do_prim in H. destruct (owner c) as [|] eqn:Eo; [discriminate|]. cbn in H. injection H as <-. exists h. specialize (IF eq_refl). split; cbn; auto; try discriminate.
      * intros x. destruct (Nat.eq_dec x t) as [->|N].
        -- unfold thread_ok. cbn. rewrite upd_eq. right. right. split; [reflexivity|]. unfold seen in *. cbn in *. rewrite IF. apply lock_first in B as B2. split.
           ++ apply B2. ++ exists []. exact B. ++ exists []. change (fin tr [] todo (effects tr w h) []) with (fin tr [] (PLock :: todo) (effects tr w h) []). rewrite <- B. apply fin_body. ++ intros _. auto. ++ exists []. now rewrite app_nil_r.
        -- eapply (other_ok tr _ c); eauto; cbn; rewrite ?Eo; auto; try discriminate. now apply upd_ne.
      * intros x. destruct (Nat.eq_dec x t) as [->|N]; [|now rewrite upd_ne]. rewrite upd_eq, (IP t), Et. f_equal. cbn. destruct todo; [|reflexivity]. destruct (lock_first _ _ B) as [_ []].
    + cbn in H. injection H as <-. exists (h ++ [(t, [], LastError)]). assert (EE : effects tr w (h ++ [(t, [], LastError)]) = effects tr w h) by (rewrite effects_snoc; reflexivity). split; cbn; auto; rewrite ?EE; auto.
      * intros x. destruct (Nat.eq_dec x t) as [->|N].
        -- unfold thread_ok. cbn. rewrite upd_eq. auto.
        -- eapply (other_ok tr _ c); eauto; cbn. now apply upd_ne.
      * intros x. rewrite calls_snoc. destruct (Nat.eq_dec x t) as [->|N].
        -- rewrite upd_eq, Nat.eqb_refl, (IP t), Et, <- app_assoc. reflexivity.
        -- rewrite upd_ne by exact N. replace (Nat.eqb t x) with false by (symmetry; apply Nat.eqb_neq; congruence). now rewrite app_nil_r.
  - (* inside *)
    destruct M as [MU [pre MS] [n ME] MD [y MO]].
    assert (Keep : forall c1 msg1, thr c1 = upd (thr c) t (Run k todo msg1 rest) -> bundle c1 = bundle c -> owner c1 = owner c -> In PUnlock todo ->
      (exists now1, fin tr now1 todo (seen c1) msg1 = effect tr (effects tr w h) now1 k) -> ~ In PDate todo -> (exists z, wconsole (seen c1) = wconsole (seen c) ++ z) -> exists h', inv tr w prog h' c1).
    { intros c1 msg1 E1 E2 E3 U F D [z Z]. exists h. split; try congruence.
      - intros x. destruct (Nat.eq_dec x t) as [->|N].
        + unfold thread_ok. rewrite E1, upd_eq. right. right. split; [congruence|]. split; auto.
          * exists (pre ++ [p]). rewrite <- app_assoc. exact MS. * intros X. contradiction. * exists (y ++ z). now rewrite Z, MO, app_assoc.
        + eapply (other_ok tr _ c _ t); eauto; [rewrite E1; now apply upd_ne|congruence].
      - intros x. rewrite E1. destruct (Nat.eq_dec x t) as [->|N]; [|now rewrite upd_ne]. rewrite upd_eq, (IP t), Et. f_equal. cbn. destruct todo; [destruct U|reflexivity]. }
    assert (ND : p <> PDate -> ~ In PDate todo). { intros Np X. destruct (MD (or_intror X)) as (_ & _ & B). destruct pre as [|p0 pre]; [|rewrite MS in B; injection B as _ B; apply (f_equal (@length _)) in B; rewrite app_length in B; cbn in B; lia].
      destruct k as [m l|b|l|]; [destruct l| | |]; cbn in B; try discriminate; injection B as <- <-; try congruence; cbn in X; intuition discriminate. }
    assert (NU : p <> PUnlock -> In PUnlock todo) by (intros Np; destruct MU as [U|U]; [congruence|exact U]).
    assert (Z0 : exists z, wconsole (seen c) = wconsole (seen c) ++ z) by (exists []; now rewrite app_nil_r).
    destruct p; cbn in H.
    + rewrite O in H. discriminate.
    + (* unlock *) unfold owns in H. rewrite O, Nat.eqb_refl in H. cbn in H. injection H as <-. apply unlock_last in MS as ->. cbn in ME. exists (h ++ [(t, n, k)]).
      assert (EE : effects tr w (h ++ [(t, n, k)]) = seen c) by (rewrite effects_snoc; congruence). split; cbn; auto; rewrite ?EE; auto.
      * intros x. destruct (Nat.eq_dec x t) as [->|N].
        -- unfold thread_ok. cbn. rewrite upd_eq. right. left. split; [reflexivity|discriminate].
        -- pose proof (IT x) as Tx. unfold thread_ok in *. cbn. rewrite upd_ne by exact N. destruct (thr c x) as [r|k' todo' msg' r]; [discriminate|]. destruct Tx as [(A & B & _)|[(A & _)|(A & _)]]; [left|right; left|congruence]; repeat split; auto; discriminate.
      * intros x. rewrite calls_snoc. destruct (Nat.eq_dec x t) as [->|N].
        -- rewrite upd_eq, Nat.eqb_refl, (IP t), Et, <- app_assoc. reflexivity.
        -- rewrite upd_ne by exact N. replace (Nat.eqb t x) with false by (symmetry; apply Nat.eqb_neq; congruence). now rewrite app_nil_r.
    + (* date *) injection H as <-. destruct (date_once _ _ _ MS) as [D0 ->]. destruct (MD (or_introl eq_refl)) as (Ew & Em & B). subst msg.
      eapply Keep; [reflexivity|cbn; congruence|reflexivity|apply NU; discriminate| |exact D0|exact Z0]. exists now. change (seen _) with (seen c). rewrite Ew. rewrite <- fin_body, B. cbn. rewrite <- Ew. reflexivity.
    + injection H as <-. (eapply Keep; [reflexivity|cbn; congruence|reflexivity|apply NU; discriminate| |apply ND; discriminate|exact Z0]). exists n. exact ME.
    + rewrite IB in H. cbn in ME. destruct (rank (label c) <=? rank l); injection H as <-; (eapply Keep; [reflexivity|cbn; congruence|reflexivity|apply NU; discriminate| |apply ND; discriminate|exact Z0]); exists n; [exact ME|]. now rewrite app_nil_r in ME.
    + injection H as <-. (eapply Keep; [reflexivity|cbn; congruence|reflexivity|apply NU; discriminate| |apply ND; discriminate|exact Z0]). exists n. exact ME.
    + injection H as <-. eapply Keep; [reflexivity|cbn; congruence|reflexivity|apply NU; discriminate|exists n; exact ME|apply ND; discriminate|eexists; reflexivity].
    + injection H as <-. eapply Keep; [reflexivity|cbn; congruence|reflexivity|apply NU; discriminate|exists n; exact ME|apply ND; discriminate|eexists; reflexivity].
    + injection H as <-. (eapply Keep; [reflexivity|cbn; congruence|reflexivity|apply NU; discriminate| |apply ND; discriminate|exact Z0]). exists n. exact ME.
    + injection H as <-. (eapply Keep; [reflexivity|cbn; congruence|reflexivity|apply NU; discriminate| |apply ND; discriminate|exact Z0]). exists n. exact ME.
    + exfalso. eapply load_only. exact MS.
Qed.
Lemma reach_inv tr w prog c : reach (start (Some tr) w prog) c -> exists h, inv tr w prog h c.
Proof.
  induction 1 as [|c t now c' R [h I] S]; [|eauto using inv_step]. exists []. split; cbn; auto.
  - intros t. unfold thread_ok. cbn. discriminate.
  - intros _. now destruct w.
Qed.

(** * C124 *)
(** at every moment the log is what a sequence of whole calls has made, one after the other, each thread's in its order, and possibly the beginning of the output of
    one more call (of the thread in the critical section) *)
Theorem C124_whole_calls : forall tr w prog c, reach (start (Some tr) w prog) c ->
  exists h, (forall t, prog t = calls t h ++ pending (thr c t)) /\ let w' := effects tr w h in
  match owner c with
  | None => date c = wdate w' /\ label c = wlabel w' /\ error c = werror w' /\ console c = wconsole w'
  | Some t => exists k todo msg rest now x y, thr c t = Run k todo msg rest /\ console c = wconsole w' ++ x /\ x ++ y = line tr w' now k
  end.
Proof.
  intros tr w prog c R. apply reach_inv in R as [h [IB IT IF IP]]. exists h. split; [exact IP|]. cbv zeta. destruct (owner c) as [t|] eqn:O.
  - specialize (IT t). unfold thread_ok in IT. destruct (thr c t) as [r|k todo msg r]; [congruence|]. destruct IT as [(_ & _ & X)|[(_ & X)|(_ & M)]]; try congruence. destruct M as [_ _ [n E] _ [x X]].
    destruct (fin_grows tr n todo (seen c) msg) as [y Y]. exists k, todo, msg, r, n, x, y. split; [reflexivity|]. split; [exact X|]. rewrite E, X in Y. assert (Q : wconsole (effect tr (effects tr w h) n k) = wconsole (effects tr w h) ++ line tr (effects tr w h) n k) by (destruct k as [m l|b|l|]; cbn; rewrite ?app_nil_r; reflexivity). rewrite Q, <- app_assoc in Y. apply app_inv_head in Y. now rewrite Y.
  - specialize (IF eq_refl). rewrite <- IF. auto.
Qed.

(** nothing undefined, once System::init was called *)
Theorem C124_defined : forall tr w prog c t now, reach (start (Some tr) w prog) c -> step c t now <> Undefined.
Proof.
  intros tr w prog c t now R. apply reach_inv in R as [h [IB IT _ _]]. specialize (IT t). unfold step, thread_ok in *. destruct (thr c t) as [[|k rest]|k [|p todo] msg rest]; try discriminate.
  destruct IT as [(A & _ & _)|[(A & _)|(O & M)]]; [apply begin_body in A; destruct A as [(-> & _)|(-> & _)]; cbn; try discriminate; destruct (owner c); discriminate|discriminate A|].
  destruct p; cbn; unfold owns; rewrite ?O, ?Nat.eqb_refl, ?IB; try discriminate. now destruct (_ <=? _).
Qed.
(** no deadlock: as long as a thread has something to do, some thread can go on *)
Theorem C124_progress : forall tr w prog c t, reach (start (Some tr) w prog) c -> thr c t <> Idle [] -> exists u now c', step c u now = Next c'.
Proof.
  intros tr w prog c t R N. pose proof (C124_defined _ _ _ _ t [] R) as D. apply reach_inv in R as R'. destruct R' as [h [IB IT _ _]]. destruct (owner c) as [o|] eqn:O.
  - exists o, []. pose proof (C124_defined _ _ _ _ o [] R) as Do. specialize (IT o). destruct (step c o []) as [c'| |] eqn:S; [eauto|congruence|exfalso].
    unfold step, thread_ok in *. destruct (thr c o) as [r|k todo msg r]; [congruence|]. destruct IT as [(_ & _ & X)|[(_ & X)|(_ & M)]]; try congruence. destruct M as [U [pre B] _ _ _]. destruct todo as [|p todo]; [destruct U|].
    destruct p; cbn in S; unfold owns in S; rewrite ?O, ?Nat.eqb_refl, ?IB in S; try discriminate; try (destruct (_ <=? _) in S; discriminate).
    destruct (lock_first _ _ B) as [NL _]. apply NL. apply in_or_app. right. now left.
  - exists t, []. destruct (step c t []) as [c'| |] eqn:S; [eauto|congruence|exfalso]. specialize (IT t). unfold step, thread_ok in *. destruct (thr c t) as [[|k rest]|k [|p todo] msg rest]; try congruence; try discriminate.
    destruct p; cbn in S; unfold owns in S; rewrite ?O, ?IB in S; try discriminate; destruct (_ <=? _) in S; discriminate.
Qed.
(** no data race, as long as nobody asks for the last error message *)
Theorem C124_race_free : forall tr w prog c, (forall t, ~ In LastError (prog t)) -> reach (start (Some tr) w prog) c -> ~ data_race c.
Proof.
  intros tr w prog c NL R (t & u & v & b & Ntu & A1 & A2). apply reach_inv in R as [h [IB IT _ IP]].
  assert (K : forall t x, next_access c t = Some x -> owner c = Some t).
  { clear - IT IP NL. intros t x A. specialize (IT t). specialize (IP t). unfold next_access, thread_ok in *. destruct (thr c t) as [r|k [|p todo] msg r]; try discriminate. destruct IT as [(E & _ & _)|[(E & _)|(O & _)]]; [|discriminate E|exact O].
    apply begin_body in E. destruct E as [(-> & _)|(-> & -> & ->)]; [discriminate A|]. exfalso. apply (NL t). rewrite IP. apply in_or_app. right. now left. }
  apply K in A1, A2. congruence.
Qed.
(** running a schedule *)
Fixpoint runs (c : config) (l : list nat) : option config := match l with [] => Some c | t :: l => match step c t [] with Next c' => runs c' l | _ => None end end.
Lemma runs_reach c0 l : forall c c', reach c0 c -> runs c l = Some c' -> reach c0 c'.
Proof. induction l as [|t l IH]; intros c c' R E; cbn in E; [injection E as <-; exact R|]. destruct (step c t []) as [c1| |] eqn:S; try discriminate. eapply IH; [eapply reach_S; eauto|exact E]. Qed.
Lemma runs_start c0 l (P : config -> Prop) : (match runs c0 l with Some c => P c | None => False end) -> exists c, reach c0 c /\ P c.
Proof. intros H. destruct (runs c0 l) as [c|] eqn:E; [|destruct H]. exists c. split; [eapply runs_reach; [apply reach_0|exact E]|exact H]. Qed.
(** lastErrorMessage() answers the variable itself, without the mutex: a thread that asks while another one logs an error races with it *)
Theorem C124_last_error_race_refuted : forall tr w, exists prog c, (forall t, (length (prog t) <= 1)%nat) /\ reach (start (Some tr) w prog) c /\ data_race c.
Proof.
  intros tr w. exists (fun t => match t with 0%nat => [Log [120] Error] | 1%nat => [LastError] | _ => [] end).
  set (c0 := start _ _ _). destruct (runs_start c0 [0; 0; 0; 0; 0; 0; 1]%nat (fun c => next_access c 0%nat = Some (VError, true) /\ next_access c 1%nat = Some (VError, false))) as (c & R & A & B).
  { subst c0. destruct w as [d lb e cs]. destruct lb; vm_compute; auto. }
  exists c. split; [intros [|[|t]]; cbn; lia|]. split; [exact R|]. exists 0%nat, 1%nat, VError, false. split; [discriminate|]. split; assumption.
Qed.
(** before System::init and after System::quit there is no bundle of translations: every error message, so every construction of an Exception, is undefined, whatever
    the settings are; so is every message whose level gets a label *)
Theorem C124_before_init_refuted : forall w m l, rank (wlabel w) <= rank l -> exists c, reach (start None w (fun t => match t with 0%nat => [Log m l] | _ => [] end)) c /\ step c 0%nat [] = Undefined.
Proof.
  intros w m l L. apply (runs_start _ (match l with Error | Warning => [0; 0; 0; 0; 0] | _ => [0; 0; 0] end)%nat (fun c => step c 0%nat [] = Undefined)).
  destruct w as [d lb e cs]. destruct lb, l; cbn in L; try lia; vm_compute; reflexivity.
Qed.
Theorem C124_exception_before_init_refuted : forall w m, exists c, reach (start None w (fun t => match t with 0%nat => [new_exception m] | _ => [] end)) c /\ step c 0%nat [] = Undefined.
Proof. intros w m. apply C124_before_init_refuted. destruct (wlabel w); cbn; lia. Qed.

(** two threads, two lines: the second one is a warning and shown whole after the first *)
Example C124_ex : exists c, reach (start (Some (fun k => k)) (W false Error [] []) (fun t => match t with 0%nat => [Log [97] Error] | 1%nat => [Log [98] Warning] | _ => [] end)) c /\
  thr c 0%nat = Idle [] /\ thr c 1%nat = Idle [] /\ error c = [97] /\
  console c = [27; 91; 49; 109; 27; 91; 51; 49; 109; 69; 82; 82; 79; 82; 58; 32; 97; 27; 91; 48; 109; 10; 27; 91; 49; 109; 27; 91; 51; 51; 109; 98; 27; 91; 48; 109; 10].
Proof. apply (runs_start _ (1 :: repeat 0 13 ++ repeat 1 11)%nat (fun c => thr c 0%nat = _ /\ thr c 1%nat = _ /\ error c = _ /\ console c = _)). vm_compute. auto 6. Qed.
Print Assumptions C124_whole_calls.
Print Assumptions C124_defined.
Print Assumptions C124_progress.
Print Assumptions C124_race_free.
Print Assumptions C124_last_error_race_refuted.
Print Assumptions C124_before_init_refuted.
Print Assumptions C124_exception_before_init_refuted.
