(** P_Hashtable.v -- C24, C25, C26: Hashtable (src/core/Hashtable.cpp). *)
From Verif Require Import Base M_String S_String L_String P_String M_Hashtable S_Hashtable L_Hashtable.

(** C24. Every history of calls with proper keys on a new table, in any heap: all answers are those of a finite map whose keys are the
    texts, if every key object reports the hash code of its text (fresh keys do). Nothing is undefined, whatever collides and however
    often the table grows. Cells that were allocated before are untouched. *)
Theorem C24_history h0 os fuel : Forall proper_op os -> Forall clean_op os -> zlen os < 2 ^ 59 -> (length os < fuel)%nat ->
  exists h t, hexec_all os fuel h0 ht_new = Val (fst (hspecs text_dec text os []), h, t) /\ forall q, hlive h0 q -> hderef h q = hderef h0 q.
Proof.
  intros P C B Hf. destruct (new_ok h0) as (I & M & F). destruct (steps_ok h0 os h0 ht_new _ [] fuel 0 I M P ltac:(rewrite concat_nils; cbn [length]; lia) F ltac:(lia) ltac:(lia)) as (h & t & b & E & I' & _).
  exists h, t. change (@nil (list Z * Z)) with (map drop_hash []). rewrite pure_steps by (auto; constructor). split; [exact E|]. intros q [n Hq]. destruct I' as (_ & _ & Dead & Fr & _). apply Fr. intros J. apply in_map_iff in J as (e & <- & Ie). destruct (Dead e Ie). congruence.
Qed.
(** For all proper keys, with whatever hash code cached: a finite map keyed by the reported hash code and the text. *)
Theorem C24_any_keys h0 os fuel : Forall proper_op os -> zlen os < 2 ^ 59 -> (length os < fuel)%nat ->
  exists h t, hexec_all os fuel h0 ht_new = Val (fst (hspecs pair_dec key_of os []), h, t).
Proof.
  intros P B Hf. destruct (new_ok h0) as (I & M & F). destruct (steps_ok h0 os h0 ht_new _ [] fuel 0 I M P ltac:(rewrite concat_nils; cbn [length]; lia) F ltac:(lia) ltac:(lia)) as (h & t & b & E & _). eauto.
Qed.
(** After any history, clear (the destructor) gives back every cell the table allocated, each once, and leaves the others. *)
Theorem C24_clear_frees h0 os fuel r h t : Forall proper_op os -> zlen os < 2 ^ 59 -> (length os < fuel)%nat -> hexec_all os fuel h0 ht_new = Val (r, h, t) ->
  exists h' t', ht_clear h t fuel = Val (h', t') /\ hcount t' = 0 /\ forall q, hderef h' q = hderef h0 q.
Proof.
  intros P B Hf E. destruct (new_ok h0) as (I & M & F). destruct (steps_ok h0 os h0 ht_new _ [] fuel 0 I M P ltac:(rewrite concat_nils; cbn [length]; lia) F ltac:(lia) ltac:(lia)) as (h1 & t1 & b & E1 & I' & _ & L & Fit). rewrite E in E1. injection E1 as -> -> ->.
  rewrite concat_nils in L. cbn [length] in L. pose proof (zlen_nonneg os). destruct (clear_ok h0 h1 t1 b fuel _ I' ltac:(lia) Fit ltac:(lia)) as (h' & t' & b' & Ec & I2 & Ee & _ & Back). exists h', t'. split; [exact Ec|]. split; [|exact Back]. destruct I2 as (_ & _ & _ & _ & _ & _ & -> & _). now rewrite Ee.
Qed.
(** The load stays below three entries per four buckets, and the array stays linear in the number of calls. *)
Theorem C24_load h0 os fuel r h t : Forall proper_op os -> zlen os < 2 ^ 59 -> (length os < fuel)%nat -> hexec_all os fuel h0 ht_new = Val (r, h, t) ->
  4 * hcount t <= 3 * zlen (hdata t) + 3 /\ 7 <= zlen (hdata t) <= 3 * zlen os + 7.
Proof.
  intros P B Hf E. destruct (new_ok h0) as (I & M & F). destruct (steps_ok h0 os h0 ht_new _ [] fuel 0 I M P ltac:(rewrite concat_nils; cbn [length]; lia) F ltac:(lia) ltac:(lia)) as (h1 & t1 & b & E1 & I' & _ & L & Fit). rewrite E in E1. injection E1 as -> -> ->.
  assert (G : 7 <= zlen (hdata t1)) by (eapply hexec_all_grows; [exact E|cbn; lia]). unfold fit in Fit. lia.
Qed.

(** C25. An iterator over any table that a history produced: any sequence of hasNext and next calls answers as if it walked down a
    list that holds every entry (key text and value) of the map exactly once, then stays at the end. *)
Theorem C25_iteration h0 os fuel r h t : Forall proper_op os -> Forall clean_op os -> zlen os < 2 ^ 59 -> (length os < fuel)%nat -> hexec_all os fuel h0 ht_new = Val (r, h, t) ->
  exists es, Permutation es (snd (hspecs text_dec text os [])) /\ NoDup (map fst es) /\ zlen es = hcount t /\
    forall cs fuel, zlen (hdata t) < Z.of_nat fuel -> itexec cs h t it_new fuel = Val (itspec cs es).
Proof.
  intros P C B Hf E. destruct (new_ok h0) as (I & M & F). destruct (steps_ok h0 os h0 ht_new _ [] fuel 0 I M P ltac:(rewrite concat_nils; cbn [length]; lia) F ltac:(lia) ltac:(lia)) as (h1 & t1 & b & E1 & I' & M' & L & Fit). rewrite E in E1. injection E1 as -> -> ->.
  assert (Pu : pure (snd (hspecs pair_dec key_of os []))) by (apply pure_all; [constructor|exact C]).
  assert (Pm : Permutation (map shown (concat b)) (map drop_hash (snd (hspecs pair_dec key_of os [])))).
  { eapply Permutation_trans; [|apply Permutation_map, Permutation_sym, M']. rewrite map_map. apply Permutation_refl. }
  exists (map shown (concat b)). change (@nil (list Z * Z)) with (map drop_hash []). rewrite pure_steps by (auto; constructor). cbn [snd]. split; [exact Pm|]. pose proof I' as (Fb & _ & _ & _ & _ & NK & Cn & _). split; [|split].
  - eapply Permutation_NoDup; [apply Permutation_map, Permutation_sym, Pm|]. rewrite map_map. cbn [drop_hash fst]. apply pure_nodup; [exact Pu|]. eapply models_nodup; eauto.
  - rewrite Cn. unfold zlen. now rewrite map_length.
  - intros cs fuel' Hf'. apply (itexec_ok h1 t1 b fuel' Fb); [rewrite (inv_len _ _ _ _ I') in Hf'; unfold zlen in Hf'; lia|]. exists [], [], b. split; [reflexivity|]. split; [reflexivity|]. split; reflexivity.
Qed.
(** in particular next returns each entry once and then nullptr for ever *)
Theorem C25_walk es n : itspec (repeat false (length es + n)) es = map (fun e => INext (Some e)) es ++ repeat (INext None) n.
Proof. induction es as [|e es IH]; cbn [length map app]; [|cbn [Nat.add repeat itspec]; now rewrite IH]. induction n as [|n IH]; cbn [Nat.add repeat itspec]; [reflexivity|]. cbn [Nat.add] in IH. now rewrite IH. Qed.

(** C26. For every key whose hash code has the top bit set: a key object that was hashed before (hashCode caches the code in an int32)
    is stored where an equal fresh key is not found. *)
Theorem C26_hashed_key_lost s v fuel : proper s -> hash s = 0 -> 2 ^ 31 <= poly (text s) -> (5 < fuel)%nat ->
  exists s', hash_code s = Val (poly (text s), s') /\ text s' = text s /\ equals s' s = Val true /\
  exists h t, hexec_all [HPut s' v; HGet s; HContains s; HPut s v; HSize] fuel [] ht_new = Val ([HPtr 0; HPtr 0; HBool false; HPtr 0; HNum 2], h, t).
Proof.
  intros P H0 Top Hf. pose proof (poly_range (text s)) as Rg. destruct (hash_code_ok s P) as (s' & E & T & P'). unfold reported in E. rewrite H0 in E. cbn [Z.eqb] in E. exists s'. split; [exact E|]. split; [exact T|].
  assert (Eq : equals s' s = Val true). { rewrite equals_dec; [|apply P'|apply P|apply P']. destruct (text_dec (text s') (text s)); [reflexivity|contradiction]. } split; [exact Eq|].
  assert (Hs : hash s' = poly (text s) - 2 ^ 32). { unfold hash_code in E. rewrite H0 in E. cbn [Z.eqb negb] in E. destruct (hash_loop _ _ _ _) as [x| | |]; try discriminate. cbn [bind] in E. injection E as -> <-. cbn [hash]. unfold s32. change (2 ^ 31) with 2147483648 in *. change (2 ^ 32) with 4294967296 in *. lia. }
  assert (Rep' : reported s' <> reported s). { unfold reported. rewrite H0, Hs. cbn [Z.eqb]. destruct (Z.eqb_spec (poly (text s) - 2 ^ 32) 0); lia. }
  assert (Nk : same pair_dec (key_of s') (key_of s) = false) by (apply same_false; unfold key_of; congruence).
  set (os := [HPut s' v; HGet s; HContains s; HPut s v; HSize]). destruct (C24_any_keys [] os fuel) as (h & t & Eo); [repeat (apply Forall_cons; [first [exact P|exact P'|exact Logic.I]|]); apply Forall_nil|cbn; lia|cbn; lia|]. exists h, t. rewrite Eo. do 3 f_equal. unfold os. cbn [hspecs hspec fst snd]. unfold mval, mput, mremove. cbn [mget filter fst]. rewrite Nk. reflexivity.
Qed.
(** A stored nullptr is an entry (size counts it) that containsKey denies. *)
Theorem C26_null_value s fuel : proper s -> (3 < fuel)%nat -> exists h t, hexec_all [HPut s 0; HContains s; HSize] fuel [] ht_new = Val ([HPtr 0; HBool false; HNum 1], h, t).
Proof.
  intros P Hf. set (os := [HPut s 0; HContains s; HSize]). destruct (C24_any_keys [] os fuel) as (h & t & Eo); [repeat (apply Forall_cons; [first [exact P|exact Logic.I]|]); apply Forall_nil|cbn; lia|cbn; lia|]. exists h, t. rewrite Eo. do 3 f_equal. unfold os. cbn [hspecs hspec fst snd]. unfold mval, mput, mremove. cbn [mget filter fst]. replace (same pair_dec (key_of s) (key_of s)) with true by (symmetry; now apply same_true). reflexivity.
Qed.

(** examples: "Aa" and "BB" collide; eight keys make the table grow *)
Example C24_ex_collide : exists h t, hexec_all [HPut (str_of [65; 97]) 1; HPut (str_of [66; 66]) 2; HGet (str_of [65; 97]); HPut (str_of [66; 66]) 3; HRemove (str_of [65; 97]); HGet (str_of [66; 66]); HSize] 20 [] ht_new
  = Val ([HPtr 0; HPtr 0; HPtr 1; HPtr 2; HPtr 1; HPtr 3; HNum 1], h, t).
Proof. eexists _, _. vm_compute. reflexivity. Qed.
Definition keys8 : list jstr := map (fun c => str_of [c]) [65; 66; 67; 68; 69; 70; 71; 72].
Example C24_ex_grow : exists h t, hexec_all (map (fun k => HPut k 5) keys8 ++ map HGet keys8 ++ [HSize]) 20 [] ht_new = Val (repeat (HPtr 0) 8 ++ repeat (HPtr 5) 8 ++ [HNum 8], h, t) /\ zlen (hdata t) = 15.
Proof. eexists _, _. vm_compute. split; reflexivity. Qed.
Example C24_ex_proper : Forall proper_op (map (fun k => HPut k 5) keys8) /\ Forall clean_op (map (fun k => HPut k 5) keys8).
Proof. split; unfold keys8; cbn [map]; repeat constructor; unfold proper_op, clean_op, proper, sound, clean, reported; cbn; repeat constructor; try lia; unfold unit16; lia. Qed.
Example C26_ex_key : let s := str_of [83; 99; 104; 108; 252; 115; 115; 101; 108] in proper s /\ hash s = 0 /\ 2 ^ 31 <= poly (text s).
Proof. cbn zeta. split; [|split; [reflexivity|vm_compute; discriminate]]. unfold proper, sound. cbn. repeat constructor; try lia; unfold unit16; lia. Qed.

Print Assumptions C24_history. Print Assumptions C24_any_keys. Print Assumptions C24_clear_frees. Print Assumptions C24_load.
Print Assumptions C25_iteration. Print Assumptions C25_walk. Print Assumptions C26_hashed_key_lost. Print Assumptions C26_null_value.
