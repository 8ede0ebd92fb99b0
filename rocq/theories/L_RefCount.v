(** L_RefCount.v -- invariant of the reference counting machine. *)
From Coq Require Import ZArith List Bool Lia.
From Verif Require Import Base M_RefCount.
Import ListNotations.
Open Scope nat_scope.
Lemma upd_same {A} (l : list A) i x y : nth_error l i = Some y -> nth_error (upd l i x) i = Some x.
Proof. revert i. induction l as [|a l IH]; intros [|i] H; try discriminate; cbn in *; auto. Qed.
Lemma upd_other {A} (l : list A) i j x : i <> j -> nth_error (upd l i x) j = nth_error l j.
Proof. revert i j. induction l as [|a l IH]; intros [|i] [|j] H; cbn; auto; congruence. Qed.
Lemma upd_length {A} (l : list A) i x : length (upd l i x) = length l.
Proof. revert i. induction l as [|a l IH]; intros [|i]; cbn; auto. Qed.
Lemma upd_some {A} (l : list A) i j x y : nth_error (upd l i x) j = Some y -> (i = j /\ x = y) \/ (i <> j /\ nth_error l j = Some y).
Proof.
  destruct (Nat.eq_dec i j) as [<-|N]; [|rewrite upd_other by exact N; auto]. intros H. left. split; [reflexivity|].
  assert (i < length l) by (rewrite <- (upd_length l i x); apply nth_error_Some; congruence). destruct (nth_error l i) eqn:E; [|apply nth_error_None in E; lia]. rewrite (upd_same _ _ _ _ E) in H. congruence.
Qed.
(** ** counting frames *)
Definition sumf (f : pc -> nat) (k : list pc) : nat := list_sum (map f k).
Definition tot (f : pc -> nat) (l : list (list pc)) : nat := list_sum (map (sumf f) l).
Lemma sumf_cons f p k : sumf f (p :: k) = f p + sumf f k. Proof. reflexivity. Qed.
Lemma tot_cons f k l : tot f (k :: l) = sumf f k + tot f l. Proof. reflexivity. Qed.
Lemma tot_upd f l t k k' : nth_error l t = Some k -> tot f (upd l t k') + sumf f k = tot f l + sumf f k'.
Proof. revert t. induction l as [|a l IH]; intros [|t] H; try discriminate; cbn [nth_error upd] in *; rewrite !tot_cons; [injection H as ->; lia|]. specialize (IH t H). lia. Qed.
Lemma tot_le f l t k : nth_error l t = Some k -> sumf f k <= tot f l.
Proof. revert t. induction l as [|a l IH]; intros [|t] H; try discriminate; cbn [nth_error] in *; rewrite !tot_cons; [injection H as ->; lia|]. specialize (IH t H). lia. Qed.
Lemma sumf_le f g k : (forall p, f p <= g p) -> sumf f k <= sumf g k.
Proof. intros H. induction k as [|p k IH]; [reflexivity|]. rewrite !sumf_cons. specialize (H p). lia. Qed.
Lemma tot_mono f g l : (forall p, f p <= g p) -> tot f l <= tot g l.
Proof. intros H. induction l as [|k l IH]; [reflexivity|]. rewrite !tot_cons. pose proof (sumf_le f g k H). lia. Qed.
Lemma sumf_in f k p : In p k -> f p <= sumf f k.
Proof. induction k as [|q k IH]; intros H; [contradiction|]. rewrite sumf_cons. destruct H as [<-|H]; [lia|]. specialize (IH H). lia. Qed.
Lemma sumf_uniq f k p q : sumf f k <= 1 -> In p k -> In q k -> f p = 1 -> f q = 1 -> p = q.
Proof.
  induction k as [|a k IH]; intros H Hp Hq Fp Fq; [contradiction|]. rewrite sumf_cons in H. destruct Hp as [->|Hp], Hq as [->|Hq].
  - reflexivity. - pose proof (sumf_in f k q Hq). lia. - pose proof (sumf_in f k p Hp). lia.
  - apply IH; auto. lia.
Qed.
Definition critW (p : pc) : nat := match p with RetInc _ | RetUnlock _ | RelDec _ | RelCount _ | RelUnlock _ _ => 1 | _ => 0 end.
Definition poolW (p : pc) : nat := match p with AutNew _ | AutLink _ _ | AutTop _ _ | AutUnlock | DraHead | DraLoop _ | DraNext _ | DraTop | DraReset | DraUnlock => 1 | _ => 0 end.
Definition dtorW (o : nat) (p : pc) : nat := match p with RelDtor o' => if o' =? o then 1 else 0 | _ => 0 end.
Definition zeroW (o : nat) (p : pc) : nat := match p with RelUnlock o' c | RelDelete o' c => if (o' =? o) && (c =? 0)%Z then 1 else 0 | _ => 0 end.
Definition countW (o : nat) (p : pc) : nat := match p with RelCount o' => if o' =? o then 1 else 0 | _ => 0 end.
Lemma count_crit o p : countW o p <= critW p. Proof. destruct p; cbn; try lia. destruct (_ =? _); lia. Qed.
(** ** references *)
Lemma ref_eqb_eq a b : ref_eqb a b = true <-> a = b.
Proof.
  destruct a as [a x], b as [b y]. unfold ref_eqb. cbn [fst snd]. rewrite andb_true_iff, Nat.eqb_eq. split.
  - intros [H ->]. f_equal. destruct a, b; cbn in H; try discriminate; auto; apply Nat.eqb_eq in H; congruence.
  - intros H. injection H as -> ->. split; [|reflexivity]. destruct b; cbn; auto using Nat.eqb_refl.
Qed.
Definition cnt (o : nat) (l : list (owner * nat)) : nat := count_occ Nat.eq_dec (map snd l) o.
Definition pcnt (o : nat) (l : list (owner * nat)) : nat := length (filter (ref_eqb (OPool, o)) l).
Lemma cnt_cons o r l : cnt o (r :: l) = (if snd r =? o then 1 else 0) + cnt o l.
Proof. unfold cnt. cbn [map count_occ]. destruct (Nat.eq_dec (snd r) o) as [->|N]; [now rewrite Nat.eqb_refl|]. destruct (Nat.eqb_spec (snd r) o); [congruence|reflexivity]. Qed.
Lemma pcnt_cons o r l : pcnt o (r :: l) = (if ref_eqb (OPool, o) r then 1 else 0) + pcnt o l.
Proof. unfold pcnt. cbn [filter]. destruct (ref_eqb (OPool, o) r); reflexivity. Qed.
Lemma cnt_drop1 o r l : In r l -> cnt o (drop1 r l) + (if snd r =? o then 1 else 0) = cnt o l.
Proof.
  induction l as [|x l IH]; intros H; [contradiction|]. cbn [drop1]. destruct (ref_eqb r x) eqn:E.
  - apply ref_eqb_eq in E. subst. rewrite cnt_cons. lia.
  - destruct H as [->|H]; [rewrite (proj2 (ref_eqb_eq r r) eq_refl) in E; discriminate|]. rewrite !cnt_cons. specialize (IH H). lia.
Qed.
Lemma pcnt_drop1 o r l : In r l -> pcnt o (drop1 r l) + (if ref_eqb (OPool, o) r then 1 else 0) = pcnt o l.
Proof.
  induction l as [|x l IH]; intros H; [contradiction|]. cbn [drop1]. destruct (ref_eqb r x) eqn:E.
  - apply ref_eqb_eq in E. subst. rewrite pcnt_cons. lia.
  - destruct H as [->|H]; [rewrite (proj2 (ref_eqb_eq r r) eq_refl) in E; discriminate|]. rewrite !pcnt_cons. specialize (IH H). lia.
Qed.
Lemma in_drop1 r x l : In x l -> x <> r -> In x (drop1 r l).
Proof. induction l as [|y l IH]; intros H N; [contradiction|]. cbn [drop1]. destruct (ref_eqb r y) eqn:E; [apply ref_eqb_eq in E; subst; destruct H; congruence|]. destruct H; [now left|right; auto]. Qed.
Lemma cnt_in o w l : In (w, o) l -> 0 < cnt o l.
Proof. induction l as [|x l IH]; intros H; [contradiction|]. rewrite cnt_cons. destruct H as [->|H]; [cbn [snd]; rewrite Nat.eqb_refl; lia|]. specialize (IH H). lia. Qed.
Lemma pcnt_in o l : 0 < pcnt o l -> In (OPool, o) l.
Proof. unfold pcnt. intros H. destruct (filter _ l) as [|x f] eqn:E; [cbn in H; lia|]. assert (I : In x (filter (ref_eqb (OPool, o)) l)) by (rewrite E; now left). apply filter_In in I as [I E2]. apply ref_eqb_eq in E2. now subst. Qed.
Lemma cnt_inherit o p t l : cnt o (inherit p t l) = cnt o l.
Proof. induction l as [|x l IH]; [reflexivity|]. cbn [inherit map]. fold (inherit p t l). rewrite !cnt_cons, IH. destruct (owner_eqb _ _); reflexivity. Qed.
Lemma pcnt_inherit o p t l : pcnt o (inherit p t l) = pcnt o l.
Proof. induction l as [|[w x] l IH]; [reflexivity|]. cbn [inherit map]. fold (inherit p t l). rewrite !pcnt_cons, IH. destruct w as [a|a|]; cbn [fst snd owner_eqb]; try reflexivity. destruct (a =? p); reflexivity. Qed.
Lemma in_inherit t o p u l : In (OThread t, o) l -> In (OThread t, o) (inherit p u l).
Proof. intros H. unfold inherit. apply in_map_iff. exists (OThread t, o). split; [reflexivity|exact H]. Qed.
(** ** parts of the invariant *)
Definition low (p : pc) : Prop := match p with RelDtor _ | DraNext _ => True | _ => False end.
Definition needs (p : pc) : option nat := match p with RetGet o | RetLock o | RetInc o | RelGet o | RelLock o | RelDec o | AutGet o | AutLock o | AutNew o | AutLink o _ => Some o | _ => None end.
Definition plain (p : pc) : Prop := match p with HbRead _ _ | HbWrite _ _ _ => False | _ => True end.
Definition stack_ok (t : nat) (r : list (owner * nat)) (k : list pc) : Prop := match k with [] => True | p :: k => Forall low k /\ plain p /\ forall o, needs p = Some o -> In (OThread t, o) r end.
Definition invA (th : list (list pc)) (r : list (owner * nat)) : Prop := forall t k, nth_error th t = Some k -> stack_ok t r k.
Definition holds (l : option nat) (t : nat) : nat := match l with Some x => if x =? t then 1 else 0 | None => 0 end.
Definition taken (l : option nat) : nat := match l with Some _ => 1 | None => 0 end.
Definition invB (f : pc -> nat) (th : list (list pc)) (l : option nat) : Prop := (forall t k, nth_error th t = Some k -> sumf f k = holds l t) /\ tot f th = taken l.
Definition objinv (th : list (list pc)) (h : list obj) (r : list (owner * nat)) (o : nat) : Prop :=
  match nth_error h o with
  | Some (Alive raw) => (-2147483648 <= raw < 2147483648)%Z /\ (raw mod 2147483648)%Z = Z.of_nat (cnt o r) /\ tot (dtorW o) th = 0 /\
                        (cnt o r = 0 -> tot (zeroW o) th + tot (countW o) th = 1) /\ (0 < cnt o r -> tot (zeroW o) th = 0)
  | Some Dying => cnt o r = 0 /\ tot (dtorW o) th = 1 /\ tot (zeroW o) th = 0 /\ tot (countW o) th = 0
  | _ => cnt o r = 0 /\ tot (dtorW o) th = 0 /\ tot (zeroW o) th = 0 /\ tot (countW o) th = 0
  end.
Definition invE (h : list obj) (d : list nat) : Prop := NoDup d /\ forall o, In o d <-> nth_error h o = Some Dying \/ nth_error h o = Some Freed.
Definition entry_list := list (option (nat * option nat)).
Fixpoint chain (E : entry_list) (p : option nat) (es : list nat) (os : list nat) : Prop :=
  match es, os with
  | [], [] => p = None
  | e :: es, o :: os => p = Some e /\ exists n, nth_error E e = Some (Some (o, n)) /\ chain E n es os
  | _, _ => False
  end.
Definition last_opt (es : list nat) : option nat := match rev es with [] => None | e :: _ => Some e end.
Definition regular (E : entry_list) (h tp : option nat) (es pend : list nat) : Prop := chain E h es pend /\ tp = last_opt es.
(** the shape of the pool, given the frame that holds the pool mutex *)
Definition shape (m : option pc) (E : entry_list) (h tp : option nat) (es pend : list nat) : Prop :=
  match m with
  | None | Some DraHead | Some (AutNew _) | Some AutUnlock => regular E h tp es pend
  | Some DraUnlock => h = None /\ tp = None /\ es = [] /\ pend = []
  | Some (AutLink o e) => regular E h tp es pend /\ nth_error E e = Some (Some (o, None)) /\ ~ In e es
  | Some (AutTop o e) => chain E h es pend /\ last_opt es = Some e
  | Some (DraLoop p) => chain E p es pend
  | Some (DraNext e) => exists o n, nth_error E e = Some (Some (o, n)) /\ chain E n es pend /\ ~ In e es
  | Some DraTop | Some DraReset => es = [] /\ pend = [] /\ (m = Some DraReset -> tp = None)
  | _ => False
  end.
Definition holder (m : option pc) (th : list (list pc)) (l : option nat) : Prop :=
  match m with None => l = None | Some p => poolW p = 1 /\ exists t k, l = Some t /\ nth_error th t = Some k /\ In p k end.
Definition invF (th : list (list pc)) (l : option nat) (E : entry_list) (h tp : option nat) (ad dr : list nat) (r : list (owner * nat)) : Prop :=
  exists m es pend, holder m th l /\ shape m E h tp es pend /\ NoDup es /\ ad = dr ++ pend /\ (forall o, pcnt o r = count_occ Nat.eq_dec pend o).
Record inv (s : st) : Prop := mkInv {
  i_err : err s = false;
  i_A : invA (threads s) (refs s);
  i_B : invB critW (threads s) (lockC s);
  i_C : invB poolW (threads s) (lockP s);
  i_D : forall o, objinv (threads s) (heap s) (refs s) o;
  i_E : invE (heap s) (deleted s);
  i_F : invF (threads s) (lockP s) (entries s) (head s) (top s) (added s) (drained s) (refs s)
}.
(** ** preservation lemmas *)
Lemma A_upd th r r' t k k' : invA th r -> nth_error th t = Some k -> stack_ok t r' k' -> (forall t' o, t' <> t -> In (OThread t', o) r -> In (OThread t', o) r') -> invA (upd th t k') r'.
Proof.
  intros HA Hk Hs Hr u q Hu. apply upd_some in Hu as [[<- <-]|[N Hu]]; [exact Hs|]. specialize (HA u q Hu). destruct q as [|p q]; [exact I|]. destruct HA as (H1 & H2 & H3). repeat split; auto.
Qed.
Lemma A_refs th r r' : invA th r -> (forall t o, In (OThread t, o) r -> In (OThread t, o) r') -> invA th r'.
Proof. intros HA Hr u q Hu. specialize (HA u q Hu). destruct q as [|p q]; [exact I|]. destruct HA as (H1 & H2 & H3). repeat split; auto. Qed.
Lemma B_upd f th l l' t k k' : invB f th l -> nth_error th t = Some k -> sumf f k' = holds l' t -> (forall t', t' <> t -> holds l' t' = holds l t') -> taken l' + sumf f k = taken l + sumf f k' -> invB f (upd th t k') l'.
Proof.
  intros [H1 H2] Hk Hs Ho Ht. split.
  - intros u q Hu. apply upd_some in Hu as [[<- <-]|[N Hu]]; [exact Hs|]. rewrite Ho by congruence. now apply H1.
  - pose proof (tot_upd f th t k k' Hk). lia.
Qed.
Lemma B_same f th l t k k' : invB f th l -> nth_error th t = Some k -> sumf f k' = sumf f k -> invB f (upd th t k') l.
Proof. intros H Hk Hs. apply (B_upd f th l l t k k' H Hk); [rewrite Hs; now apply H|auto|lia]. Qed.
Lemma B_lock f th t k k' : invB f th None -> nth_error th t = Some k -> sumf f k' = S (sumf f k) -> invB f (upd th t k') (Some t).
Proof. intros H Hk Hs. pose proof (proj1 H t k Hk) as H0. cbn [holds] in H0. apply (B_upd f th None (Some t) t k k' H Hk); [cbn [holds]; rewrite Nat.eqb_refl; lia|intros t' N; cbn [holds]; destruct (Nat.eqb_spec t t'); congruence|cbn [taken]; lia]. Qed.
Lemma B_unlock f th l t k k' : invB f th l -> nth_error th t = Some k -> sumf f k = S (sumf f k') -> invB f (upd th t k') None.
Proof.
  intros H Hk Hs. pose proof (proj1 H t k Hk) as H0. destruct l as [x|]; cbn [holds] in H0; [|lia]. destruct (Nat.eqb_spec x t) as [->|]; [|lia].
  apply (B_upd f th (Some t) None t k k' H Hk); [cbn [holds]; lia|intros t' N; cbn [holds]; destruct (Nat.eqb_spec t t'); congruence|cbn [taken]; lia].
Qed.
Lemma D_same th h r r' t k k' : (forall o, objinv th h r o) -> nth_error th t = Some k -> (forall o, sumf (dtorW o) k' = sumf (dtorW o) k /\ sumf (zeroW o) k' = sumf (zeroW o) k /\ sumf (countW o) k' = sumf (countW o) k) ->
  (forall o, cnt o r' = cnt o r) -> forall o, objinv (upd th t k') h r' o.
Proof.
  intros H Hk Hw Hc o. specialize (H o). destruct (Hw o) as (W1 & W2 & W3). pose proof (tot_upd (dtorW o) th t k k' Hk). pose proof (tot_upd (zeroW o) th t k k' Hk). pose proof (tot_upd (countW o) th t k k' Hk).
  unfold objinv in *. rewrite Hc. destruct (nth_error h o) as [[raw| |]|]; intuition lia.
Qed.
Lemma D_refs th h r r' : (forall o, objinv th h r o) -> (forall o, cnt o r' = cnt o r) -> forall o, objinv th h r' o.
Proof. intros H Hc o. specialize (H o). unfold objinv in *. now rewrite Hc. Qed.
Lemma F_keep th l E h tp ad dr r r' t k k' : invF th l E h tp ad dr r -> nth_error th t = Some k -> (forall p, poolW p = 1 -> In p k -> In p k') -> (forall o, pcnt o r' = pcnt o r) -> invF (upd th t k') l E h tp ad dr r'.
Proof.
  intros (m & es & pend & Hm & Hs & Hn & Ha & Hp) Hk Hi Hc. exists m, es, pend. repeat split; auto; [|intros o; now rewrite Hc].
  destruct m as [p|]; [|exact Hm]. destruct Hm as (W & u & q & El & Hu & I). split; [exact W|]. destruct (Nat.eq_dec t u) as [<-|N].
  - exists t, k'. split; [exact El|]. split; [eapply upd_same; exact Hk|]. apply Hi; [exact W|]. replace k with q by congruence. exact I.
  - exists u, q. rewrite upd_other by exact N. auto.
Qed.
Lemma F_refs th l E h tp ad dr r r' : invF th l E h tp ad dr r -> (forall o, pcnt o r' = pcnt o r) -> invF th l E h tp ad dr r'.
Proof. intros (m & es & pend & Hm & Hs & Hn & Ha & Hp) Hc. exists m, es, pend. repeat split; auto. intros o. now rewrite Hc. Qed.
Lemma F_get th l E h tp ad dr r t k p : invF th l E h tp ad dr r -> invB poolW th l -> nth_error th t = Some (p :: k) -> poolW p = 1 ->
  exists es pend, shape (Some p) E h tp es pend /\ NoDup es /\ ad = dr ++ pend /\ (forall o, pcnt o r = count_occ Nat.eq_dec pend o).
Proof.
  intros (m & es & pend & Hm & Hs & Hn & Ha & Hp) HB Hk W. exists es, pend. split; [|auto]. pose proof (proj1 HB t _ Hk) as H0. rewrite sumf_cons, W in H0.
  destruct m as [q|]; [|cbn in Hm; subst l; cbn [holds] in H0; lia]. destruct Hm as (Wq & u & ku & El & Hu & I). rewrite El in H0. cbn [holds] in H0. destruct (Nat.eqb_spec u t) as [->|]; [|lia].
  assert (ku = p :: k) by congruence. subst ku. replace p with q; [exact Hs|]. apply (sumf_uniq poolW (p :: k)); [rewrite sumf_cons; lia|exact I|now left|exact Wq|exact W].
Qed.
Lemma F_set th l E h tp ad dr r t k k' p : nth_error th t = Some k -> l = Some t -> In p k' -> poolW p = 1 -> (exists es pend, shape (Some p) E h tp es pend /\ NoDup es /\ ad = dr ++ pend /\ (forall o, pcnt o r = count_occ Nat.eq_dec pend o)) ->
  invF (upd th t k') l E h tp ad dr r.
Proof. intros Hk El I W (es & pend & H). exists (Some p), es, pend. split; [|exact H]. split; [exact W|]. exists t, k'. split; [exact El|]. split; [eapply upd_same; exact Hk|exact I]. Qed.
Lemma F_none th E h tp ad dr r : (exists es pend, shape None E h tp es pend /\ NoDup es /\ ad = dr ++ pend /\ (forall o, pcnt o r = count_occ Nat.eq_dec pend o)) -> invF th None E h tp ad dr r.
Proof. intros (es & pend & H). exists None, es, pend. split; [reflexivity|exact H]. Qed.
(** ** chains *)
Lemma chain_ext E E' : forall es p os, chain E p es os -> (forall e, In e es -> nth_error E' e = nth_error E e) -> chain E' p es os.
Proof. induction es as [|e es IH]; intros p [|o os] H HE; cbn [chain] in *; auto. destruct H as (-> & n & Hn & Hc). split; [reflexivity|]. exists n. rewrite HE by now left. split; [exact Hn|]. apply IH; [exact Hc|]. intros x Hx. apply HE. now right. Qed.
Lemma chain_valid E : forall es p os, chain E p es os -> forall e, In e es -> exists o n, nth_error E e = Some (Some (o, n)).
Proof. induction es as [|e es IH]; intros p [|o os] H x Hx; cbn [chain] in *; try contradiction. destruct H as (-> & n & Hn & Hc). destruct Hx as [<-|Hx]; [eauto|]. eapply IH; eauto. Qed.
Lemma chain_app E e o n : nth_error E e = Some (Some (o, n)) -> n = None -> forall es p os q, chain E p es os -> es <> [] -> last_opt es = Some q -> NoDup es -> ~ In e es ->
  forall o' n', nth_error E q = Some (Some (o', n')) -> chain (upd E q (Some (o', Some e))) p (es ++ [e]) (os ++ [o]).
Proof.
  intros He -> es. induction es as [|x es IH]; intros p os q H Hne Hq Hnd Hni o' n' Ho'; [congruence|]. destruct os as [|y os]; cbn [chain] in H; [contradiction|]. destruct H as (-> & n & Hn & Hc). apply NoDup_cons_iff in Hnd as [Hx Hnd].
  assert (Nq : q <> e) by (intros ->; apply Hni; unfold last_opt in Hq; rewrite <- (rev_involutive (x :: es)); destruct (rev (x :: es)) eqn:R; [discriminate|]; injection Hq as ->; cbn [rev]; apply in_or_app; right; now left).
  cbn [app chain]. split; [reflexivity|]. destruct es as [|z es].
  - unfold last_opt in Hq. cbn in Hq. injection Hq as <-. exists (Some e). rewrite (upd_same _ _ _ _ Ho'). assert (o' = y) by congruence. subst o'. split; [reflexivity|]. destruct os; cbn [chain] in Hc; [|contradiction]. cbn [app chain]. split; [reflexivity|]. exists None. rewrite upd_other by exact Nq. split; [exact He|reflexivity].
  - exists n. assert (Hq' : last_opt (z :: es) = Some q). { unfold last_opt in *. change (rev (x :: z :: es)) with (rev (z :: es) ++ [x]) in Hq. destruct (rev (z :: es)) eqn:R; [apply (f_equal (@rev nat)) in R; rewrite rev_involutive in R; discriminate|]. cbn in Hq. exact Hq. }
    assert (Iq : In q (z :: es)) by (unfold last_opt in Hq'; rewrite <- (rev_involutive (z :: es)); destruct (rev (z :: es)) eqn:R; [discriminate|]; injection Hq' as ->; cbn [rev]; apply in_or_app; right; now left).
    rewrite upd_other by (intros ->; contradiction). split; [exact Hn|]. refine (IH n os q Hc _ Hq' Hnd _ o' n' Ho'); [discriminate|intros Hi; apply Hni; now right].
Qed.
Lemma last_opt_app es e : last_opt (es ++ [e]) = Some e. Proof. unfold last_opt. now rewrite rev_app_distr. Qed.
Lemma last_opt_none es : last_opt es = None -> es = [].
Proof. unfold last_opt. destruct (rev es) eqn:R; [|discriminate]. intros _. rewrite <- (rev_involutive es), R. reflexivity. Qed.
Lemma last_opt_in es q : last_opt es = Some q -> In q es.
Proof. unfold last_opt. intros H. rewrite <- (rev_involutive es). destruct (rev es); [discriminate|]. injection H as ->. cbn [rev]. apply in_or_app. right. now left. Qed.
