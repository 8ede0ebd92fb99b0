(** P_Preferences.v -- settings in memory and in their file (C70-C72). *)
From Verif Require Import L_Utf8.
From Verif Require Import Base M_String M_Hashtable M_Preferences S_String S_Utf8 S_Tokenizer S_Integer S_Hashtable S_Preferences.
From Verif Require Import L_String L_String2 L_String3 L_String4 L_Integer L_Integer2 L_Hashtable L_Preferences L_Preferences2 L_Preferences3 L_Preferences4 L_Preferences5 L_Preferences6.
From Verif Require L_Tokenizer.
Ltac Zify.zify_post_hook ::= Z.to_euclidean_division_equations.

(** * C70 -- a history of calls *)
(** Every sequence of setValue, hasValue, value, save and load calls answers as a finite map from texts to texts does. *)
Theorem C70_history os fuel : all_pfit os [] -> weights os < 2 ^ 59 -> 3 * weights os + 8 < Z.of_nat fuel -> exists p, pexec_all os fuel prefs_new = Val (fst (pspecs os []), p).
Proof. intros F B Hf. pose proof (weights_nonneg os). destruct (history_ok fuel os prefs_new [] 0 pinv_new F ltac:(lia) ltac:(lia) ltac:(lia)) as (p & E & _). eauto. Qed.
(** Destroying the object afterwards deletes every value and every table entry, none twice. *)
Theorem C70_destroy os fuel a p : all_pfit os [] -> weights os < 2 ^ 59 -> 3 * weights os + 8 < Z.of_nat fuel -> pexec_all os fuel prefs_new = Val (a, p) ->
  exists p', destroy p fuel = Val p' /\ (forall q, hderef (pnodes p') q = UB) /\ (forall q, vderef (pvals p') q = UB).
Proof.
  intros F B Hf E. pose proof (weights_nonneg os). pose proof (reach os fuel a p F B ltac:(lia) E) as I. destruct (destroy_ok p _ _ fuel I ltac:(lia) ltac:(lia)) as (p' & Ed & A & C & _). exists p'. auto.
Qed.
(** A value replaced by setValue is deleted at once: as many values are allocated as there are keys. *)
Theorem C70_values_alive os fuel a p : all_pfit os [] -> weights os < 2 ^ 59 -> 3 * weights os + 8 < Z.of_nat fuel -> pexec_all os fuel prefs_new = Val (a, p) ->
  exists qs, NoDup qs /\ zlen qs = zlen (snd (pspecs os [])) /\ forall q, In q qs <-> exists s, vderef (pvals p) q = Val s.
Proof.
  intros F B Hf E. pose proof (weights_nonneg os). pose proof (reach os fuel a p F B ltac:(lia) E) as (b & mz & I & M & P & Ft & R & ND & Dead & Ok). exists (map snd mz). split; [exact ND|].
  assert (L : length (map drop_hash mz) = length (snd (pspecs os []))) by (eapply Forall2_length; exact R). rewrite map_length in L. split; [unfold zlen; rewrite map_length, L; reflexivity|]. intros q. split.
  - intros J. assert (Eq : map snd mz = map snd (map drop_hash mz)) by (rewrite map_map; reflexivity). rewrite Eq in J. clear - R J. induction R as [|e r mt m (_ & _ & s & D & _) R IH]; [destruct J|]. cbn [map] in J. destruct J as [<-|J]; eauto.
  - intros (s & D). destruct (in_dec Z.eq_dec q (map snd mz)) as [J|J]; [exact J|]. rewrite (Dead q J) in D. discriminate.
Qed.
(** Without room behind the text, a value that ends in CR makes setValue read past the buffer. *)
Theorem C70_set_overrun_refuted p key v fuel : sound v -> len v = zlen (buf v) -> last (text v) 0 = 13 -> (forall i, ~ occurs [13; 10] (text v) i) -> set_value p key v fuel = UB.
Proof.
  intros Sd Fu La N. pose proof Sd as Sd'. apply sound_repr in Sd'. unfold set_value. destruct (copy_ctor_ok v _ Sd') as (tmp & -> & (j & Eb & El) & _ & Lb & Ll). cbn [bind].
  assert (j = []) as ->. { apply zlen_zero. apply (f_equal zlen) in Eb. rewrite zlen_app in Eb. pose proof (zlen_nonneg j). lia. }
  rewrite app_nil_r in Eb. unfold replace_all, replace_str. rewrite (index_of_overrun tmp l_crlf 13 10 (text v)); [reflexivity|lia|apply str_of_repr|exact Eb|exact El| |exact N]. destruct (text v) as [|c r]; [discriminate|]. destruct (@exists_last _ (c :: r) ltac:(discriminate)) as (q & y & E). rewrite E in *. rewrite last_last in *. exact La.
Qed.

(** * C71 -- save, then load into a new object *)
(** Every key is there again, no other; every value comes back with a backslash more before each backslash n in it. *)
Theorem C71_round_trip os fuel a p : all_pfit os [] -> weights os < 2 ^ 59 -> 3 * weights os + 8 < Z.of_nat fuel -> pexec_all os fuel prefs_new = Val (a, p) ->
  let m := snd (pspecs os []) in
  Forall plain_row m -> Forall (fun r => safe_value (esc (snd r))) m -> zlen (file_of m) < 2 ^ 31 -> zlen (file_of m) < Z.of_nat fuel ->
  exists bytes q, save p fuel = Val bytes /\ load prefs_new bytes fuel = Val q /\
  forall key, good_key key -> has_value q key fuel = has_value p key fuel /\ exists u w, value p key fuel = Val u /\ value q key fuel = Val w /\ text w = grow (text u).
Proof.
  intros F B Hf E m Pl Sf Sz Hf2. pose proof (weights_nonneg os). pose proof (reach os fuel a p F B ltac:(lia) E) as I. fold m in I. pose proof (zlen_nonneg (file_of m)). destruct (round_trip p m _ fuel I ltac:(lia) ltac:(lia) Pl Sf Sz ltac:(lia)) as (q & mq & Es & El & Iq & Lq).
  exists (file_of m), q. split; [exact Es|]. split; [exact El|]. intros key G. rewrite (has_ok q mq _ key fuel Iq G) by lia. rewrite (has_ok p m _ key fuel I G) by lia. rewrite Lq. split; [now destruct (lookup m (text key))|].
  destruct (value_ok p m _ key fuel I G ltac:(lia)) as (u & Eu & Ru). destruct (value_ok q mq _ key fuel Iq G ltac:(lia)) as (w & Ew & Rw). exists u, w. split; [exact Eu|]. split; [exact Ew|]. apply repr_text in Ru as [-> _]. apply repr_text in Rw as [-> _]. rewrite Lq. now destruct (lookup m (text key)).
Qed.
(** If no value contains a backslash followed by n, all values are unchanged. *)
Theorem C71_identity os fuel a p : all_pfit os [] -> weights os < 2 ^ 59 -> 3 * weights os + 8 < Z.of_nat fuel -> pexec_all os fuel prefs_new = Val (a, p) ->
  let m := snd (pspecs os []) in
  Forall plain_row m -> Forall (fun r => forall i, ~ occurs [92; 110] (snd r) i) m -> Forall (fun r => safe_value (esc (snd r))) m -> zlen (file_of m) < 2 ^ 31 -> zlen (file_of m) < Z.of_nat fuel ->
  exists bytes q, save p fuel = Val bytes /\ load prefs_new bytes fuel = Val q /\
  forall key, good_key key -> has_value q key fuel = has_value p key fuel /\ exists u w, value p key fuel = Val u /\ value q key fuel = Val w /\ text w = text u.
Proof.
  intros F B Hf E m Pl Nv Sf Sz Hf2. destruct (C71_round_trip os fuel a p F B Hf E Pl Sf Sz Hf2) as (bytes & q & Es & El & H). exists bytes, q. split; [exact Es|]. split; [exact El|]. intros key G. destruct (H key G) as (Hh & u & w & Eu & Ew & Et). split; [exact Hh|]. exists u, w. split; [exact Eu|]. split; [exact Ew|]. rewrite Et. apply grow_never.
  pose proof (weights_nonneg os). pose proof (reach os fuel a p F B ltac:(lia) E) as I. destruct (value_ok p m _ key fuel I G ltac:(lia)) as (u' & Eu' & Ru). rewrite Eu in Eu'. injection Eu' as <-. apply repr_text in Ru as [-> _].
  assert (K : forall mm, Forall (fun r : list Z * list Z => forall i, ~ occurs [92; 110] (snd r) i) mm -> never [92; 110] (text_or (lookup mm (text key)))). { induction 1 as [|[k v] mm Hv Hm IH]; cbn [lookup text_or]; [intros i (x & r & Ex & _); destruct x; discriminate|]. destruct (text_dec k (text key)); [exact Hv|exact IH]. }
  apply K. exact Nv.
Qed.
(** A value with a backslash before an n in it (for example one that was set with a line break) is not the same after save and load: it is longer by one for each. *)
Theorem C71_grows_refuted os fuel a p : all_pfit os [] -> weights os < 2 ^ 59 -> 3 * weights os + 8 < Z.of_nat fuel -> pexec_all os fuel prefs_new = Val (a, p) ->
  let m := snd (pspecs os []) in
  Forall plain_row m -> Forall (fun r => safe_value (esc (snd r))) m -> zlen (file_of m) < 2 ^ 31 -> zlen (file_of m) < Z.of_nat fuel ->
  exists bytes q, save p fuel = Val bytes /\ load prefs_new bytes fuel = Val q /\
  forall key, good_key key -> exists u w, value p key fuel = Val u /\ value q key fuel = Val w /\ zlen (text w) = zlen (text u) + breaks_in (text u) /\ ((exists i, occurs [92; 110] (text u) i) -> text w <> text u).
Proof.
  intros F B Hf E m Pl Sf Sz Hf2. destruct (C71_round_trip os fuel a p F B Hf E Pl Sf Sz Hf2) as (bytes & q & Es & El & H). exists bytes, q. split; [exact Es|]. split; [exact El|]. intros key G. destruct (H key G) as (_ & u & w & Eu & Ew & Et). exists u, w. split; [exact Eu|]. split; [exact Ew|]. rewrite Et. split; [apply breaks_in_grow|]. intros (i & O) Eq. rewrite grow_never in Eq. exact (Eq i O).
Qed.
(** A line whose value text ends in a backslash, has no backslash n and fills its buffer makes load read past the buffer; the lines before it are harmless. *)
Theorem C71_load_overrun_refuted bytes ls1 l ls2 k v fuel : Forall (fun x => 0 < x < 256) bytes -> zlen bytes < 2 ^ 31 -> utf8_meaning bytes = Units (file_text bytes) ->
  lines_of (file_text bytes) = ls1 ++ l :: ls2 -> Forall safe_line ls1 -> setting_of l = Some (k, v) -> last v 0 = 92 -> (forall i, ~ occurs [92; 110] v i) -> zlen v mod 16 = 0 -> zlen bytes < Z.of_nat fuel ->
  load prefs_new bytes fuel = UB.
Proof.
  intros Fb Lb Me El Sf Se La Nv Md Hf. pose proof (file_text_ok bytes Me) as [U Lt]. set (t := file_text bytes) in *. unfold load.
  assert (D : exists data, (if zlen bytes >? 0 then let* xs := M_Utf8.utf8_decode (bytes ++ [0]) in Val (str_of xs) else Val str_new) = Val data /\ repr data t).
  { destruct (Z.gtb_spec (zlen bytes) 0) as [P|P].
    - rewrite decode_total by exact Fb. rewrite Me. cbn [outcome_of bind]. exists (str_of t). split; [reflexivity|apply str_of_repr].
    - pose proof (zlen_nonneg bytes). pose proof (zlen_nonneg t). exists str_new. split; [reflexivity|]. assert (t = []) as -> by (apply zlen_zero; lia). apply str_new_repr. }
  destruct D as (data & -> & R). cbn [bind]. unfold M_Tokenizer.tok_new. destruct (copy_ctor_ok data t R) as (s1 & -> & R1 & _). cbn [bind]. destruct (copy_ctor_ok l_crlf [13; 10] (str_of_repr _)) as (d1 & -> & Rd & _). cbn [bind].
  assert (Ld : len data = zlen t) by (destruct R as (? & _ & L); exact L). pose proof (tokens_count (is_in [13; 10]) t []) as Tc. fold (lines_of t) in Tc. cbv iota in Tc. rewrite Z.add_0_r in Tc. rewrite El, zlen_app, zlen_cons in Tc. pose proof (zlen_nonneg ls2). pose proof (zlen_nonneg ls1).
  apply (load_lines_unsafe t [13; 10] fuel l k v ls2 Se La Nv Md ls1 prefs_new [] 0); [|apply pinv_new| |lia|lia|lia|].
  - split; [split; [exact R1|]; split; [exact Rd|reflexivity]|]. exists [], t. split; [reflexivity|]. split; [exact El|]. left. auto.
  - apply Forall_forall. intros tk Ht. rewrite Forall_forall in Sf. pose proof (Sf tk Ht). assert (Ht' : In tk (lines_of t)) by (rewrite El; apply in_or_app; now left). destruct (tokens_In false (is_in [13; 10]) eq_refl t [] tk Ht') as [L C]. change (zlen (@nil Z)) with 0 in L. split; [apply Forall_forall; intros c Hc; destruct (C c Hc) as [[]|[Ic _]]; rewrite Forall_forall in U; auto|]. split; [|split; [lia|assumption]]. intros Hc. destruct (C 13 Hc) as [[]|[_ X]]. discriminate.
  - rewrite Ld, length_zlen. lia.
Qed.

(** * C72 -- what comes back *)
(** After setValue, value answers the text itself exactly if it has no line break; each line break has become backslash n. *)
Theorem C72_set_then_value os fuel a p key v : all_pfit (os ++ [PSet key v]) [] -> weights os < 2 ^ 59 - 1 -> 3 * weights os + 11 < Z.of_nat fuel -> pexec_all os fuel prefs_new = Val (a, p) ->
  exists p' u, set_value p key v fuel = Val p' /\ value p' key fuel = Val u /\ text u = one_line (text v) /\ (text u = text v <-> ~ In 13 (text v) /\ ~ In 10 (text v)).
Proof.
  intros F B Hf E. pose proof (weights_nonneg os). assert (F' : all_pfit os [] /\ good_key key /\ good_value v). { clear - F. revert F. generalize (@nil (list Z * list Z)). induction os as [|o os IH]; intros m F; cbn [app all_pfit] in *; [cbn [pfits] in F; tauto|]. destruct F as [A F]. destruct (IH _ F) as (X & Y & Z0). auto. }
  destruct F' as (F0 & Gk & Gv). pose proof (reach os fuel a p F0 ltac:(lia) ltac:(lia) E) as I. destruct (set_value_ok p _ _ key v fuel I Gk Gv ltac:(lia) ltac:(lia)) as (p' & Es & I'). destruct (value_ok p' _ _ key fuel I' Gk ltac:(lia)) as (u & Eu & Ru). exists p', u. split; [exact Es|]. split; [exact Eu|]. apply repr_text in Ru as [-> _].
  unfold store. rewrite lookup_update. destruct (text_dec (text key) (text key)); [|contradiction]. cbn [text_or]. split; [reflexivity|]. apply one_line_same.
Qed.
(** Every number and every truth value set comes back, whatever default is given. *)
Theorem C72_int os fuel a p key n d : all_pfit os [] -> good_key key -> - 2 ^ 63 < n < 2 ^ 63 -> weights os < 2 ^ 59 - 1 -> 3 * weights os + 11 < Z.of_nat fuel -> pexec_all os fuel prefs_new = Val (a, p) ->
  exists p', set_int p key n fuel = Val p' /\ value_int p' key d fuel = Val n.
Proof.
  intros F Gk Hn B Hf E. pose proof (weights_nonneg os). pose proof (reach os fuel a p F ltac:(lia) ltac:(lia) E) as I. destruct (step_ok p _ _ (PSetInt key n) fuel I (conj Gk Hn) ltac:(lia) ltac:(cbn [weight]; lia) ltac:(cbn [weight]; lia)) as (p' & Es & I'). cbn [pexec pspec fst snd weight] in *. destruct (set_int p key n fuel) as [p1| | |]; try discriminate. cbn [bind] in Es. injection Es as ->. exists p'. split; [reflexivity|].
  assert (Dc : one_line (decimal n) = decimal n) by (apply one_line_same; split; intros J; apply decimal_chars in J; lia).
  assert (V : decimal n <> [] /\ numeral (decimal n) = true /\ (if existsb (Z.eqb 45) (decimal n) then - magnitude (decimal n) else magnitude (decimal n)) = n /\ magnitude (decimal n) < 2 ^ 63).
  { change (2 ^ 63) with 9223372036854775808 in *. unfold decimal. rewrite !magnitude_digs. destruct (Z.ltb_spec n 0) as [N|N].
    - destruct (decimal_digits_ok 20 (- n) ltac:(lia) ltac:(lia)) as (ds & -> & (V & Fd & D)). destruct (digs_dec ds Fd) as (E1 & E2 & E3). assert (Ed : digs (45 :: map dec_char ds) = ds) by (unfold digs in *; cbn [filter is_digit]; exact E1). rewrite Ed, V. split; [discriminate|]. split; [apply numeral_iff; constructor; auto|]. cbn [existsb Z.eqb Pos.eqb orb]. lia.
    - destruct (decimal_digits_ok 20 n ltac:(lia) ltac:(lia)) as (ds & -> & (V & Fd & D)). destruct (digs_dec ds Fd) as (E1 & E2 & E3). rewrite E1, E3, V. split; [destruct D as [->|(x & r & -> & _)]; discriminate|]. split; [now apply numeral_iff|]. lia. }
  destruct V as (N0 & Nu & Vn & Mg). rewrite (value_int_ok p' _ _ key d fuel I' Gk); [| |lia]; unfold store; rewrite lookup_update; (destruct (text_dec (text key) (text key)); [|contradiction]); cbn [text_or]; rewrite Dc; [|exact Mg]. f_equal. unfold int_or. destruct (decimal n) as [|c r]; [contradiction|]. rewrite Nu. exact Vn.
Qed.
Theorem C72_bool os fuel a p key b d : all_pfit os [] -> good_key key -> weights os < 2 ^ 59 - 1 -> 3 * weights os + 11 < Z.of_nat fuel -> pexec_all os fuel prefs_new = Val (a, p) ->
  exists p', set_bool p key b fuel = Val p' /\ value_bool p' key d fuel = Val b.
Proof.
  intros F Gk B Hf E. pose proof (weights_nonneg os). pose proof (reach os fuel a p F ltac:(lia) ltac:(lia) E) as I. destruct (step_ok p _ _ (PSetBool key b) fuel I Gk ltac:(lia) ltac:(cbn [weight]; lia) ltac:(cbn [weight]; lia)) as (p' & Es & I'). cbn [pexec pspec fst snd weight] in *. destruct (set_bool p key b fuel) as [p1| | |]; try discriminate. cbn [bind] in Es. injection Es as ->. exists p'. split; [reflexivity|].
  rewrite (value_bool_ok p' _ _ key d fuel I' Gk) by lia. unfold store. rewrite lookup_update. destruct (text_dec (text key) (text key)); [|contradiction]. destruct b; reflexivity.
Qed.
(** examples *)
Definition k_dir : jstr := str_of [100; 105; 114].
Definition v_new : jstr := str_of [67; 58; 92; 110; 101; 119].
Definition v_two : jstr := str_of [97; 13; 10; 98; 9; 92].
Definition hist : list pop := [PSet k_dir v_two; PSetInt (str_of [110]) (-42); PSetBool (str_of [98]) true; PValue k_dir; PInt (str_of [110]) 7; PBool (str_of [98]) false; PInt k_dir 7; PSet k_dir v_new; PSave; PLoad [120; 61; 92; 116; 121; 10]; PHas (str_of [120])].
Lemma key_good t : Forall unit16 t -> zlen t < 2 ^ 31 -> good_key (str_of t).
Proof. intros U L. pose proof (repr_text _ _ (str_of_repr t)) as [T S0]. split; [unfold proper; rewrite T; auto|now apply clean_zero]. Qed.
Ltac u16 := repeat (apply Forall_cons; [unfold unit16; lia|]); apply Forall_nil.
Example C70_ex : exists p, pexec_all hist 100 prefs_new = Val ([PDone; PDone; PDone; PText [97; 92; 110; 98; 9; 92]; PNum (-42); PFlag true; PNum 7; PDone;
  PBytes ([98; 61; 116; 114; 117; 101; 10] ++ [100; 105; 114; 61; 67; 58; 92; 92; 110; 101; 119; 10] ++ [110; 61; 45; 52; 50; 10]); PDone; PFlag true], p).
Proof. eexists. vm_compute. reflexivity. Qed.
Example C70_ex_fits : all_pfit hist [] /\ weights hist < 2 ^ 59 /\ 3 * weights hist + 8 < Z.of_nat 100.
Proof.
  split; [|split; [vm_compute; reflexivity|vm_compute; reflexivity]]. unfold hist, k_dir.
  assert (K1 : good_key (str_of [100; 105; 114])) by (apply key_good; [u16|reflexivity]). assert (K2 : good_key (str_of [110])) by (apply key_good; [u16|reflexivity]). assert (K3 : good_key (str_of [98])) by (apply key_good; [u16|reflexivity]). assert (K4 : good_key (str_of [120])) by (apply key_good; [u16|reflexivity]).
  assert (V1 : good_value v_two) by (split; [split; [vm_compute; split; discriminate|split; [change (text v_two) with [97; 13; 10; 98; 9; 92]; u16|reflexivity]]|left; vm_compute; discriminate]). assert (V2 : good_value v_new) by (split; [split; [vm_compute; split; discriminate|split; [change (text v_new) with [67; 58; 92; 110; 101; 119]; u16|reflexivity]]|left; vm_compute; discriminate]).
  Ltac nx := split; [|match goal with |- all_pfit ?l (snd (pspec ?o ?m)) => let m' := eval vm_compute in (snd (pspec o m)) in change (all_pfit l m') end].
  nx; [split; assumption|]. nx; [split; [assumption|lia]|]. nx; [assumption|]. nx; [assumption|]. nx; [split; [assumption|vm_compute; reflexivity]|]. nx; [assumption|]. nx; [split; [assumption|vm_compute; reflexivity]|]. nx; [split; assumption|].
  nx; [apply Forall_map; repeat (apply Forall_cons; [vm_compute; reflexivity|]); apply Forall_nil|].
  nx; [|split; [assumption|exact Logic.I]]. split; [repeat (apply Forall_cons; [lia|]); apply Forall_nil|]. split; [reflexivity|]. split; [vm_compute; reflexivity|].
  match goal with |- Forall _ ?x => let y := eval vm_compute in x in change x with y end. apply Forall_cons; [|apply Forall_nil]. unfold safe_line. match goal with |- match ?x with _ => _ end => let y := eval vm_compute in x in change x with y end. left. discriminate.
Qed.
(** the value C:\new comes back as C:\\new *)
Example C71_ex : exists p q u, set_value prefs_new k_dir v_new 20 = Val p /\ save p 20 = Val [100; 105; 114; 61; 67; 58; 92; 92; 110; 101; 119; 10] /\ load prefs_new [100; 105; 114; 61; 67; 58; 92; 92; 110; 101; 119; 10] 20 = Val q /\
  value q k_dir 20 = Val u /\ text u = [67; 58; 92; 92; 110; 101; 119].
Proof. eexists _, _, _. split; [vm_compute; reflexivity|]. split; [vm_compute; reflexivity|]. split; [vm_compute; reflexivity|]. split; [vm_compute; reflexivity|reflexivity]. Qed.
Example C71_ex_rows : Forall plain_row (snd (pspecs (firstn 8 hist) [])) /\ Forall (fun r => safe_value (esc (snd r))) (snd (pspecs (firstn 8 hist) [])).
Proof.
  split.
  - vm_compute (snd _). repeat apply Forall_cons; try apply Forall_nil; unfold plain_row, unpadded, framed, blank; cbn [fst snd app hd In];
    repeat match goal with |- _ /\ _ => split end; try discriminate; try lia; try (repeat (apply Forall_cons; [lia|]); apply Forall_nil); intros c (r & [Er|Er]); try (injection Er as <- _; lia);
    destruct r as [|? [|? [|? [|? [|? [|? r]]]]]]; try discriminate Er; injection Er; intros; subst; try lia; destruct r; discriminate.
  - vm_compute (snd _). repeat (apply Forall_cons; [left; vm_compute; discriminate|]). apply Forall_nil.
Qed.
(** fourteen letters and a backslash: the file written by save cannot be loaded *)
Example C71_ex_overrun : exists p bytes, set_value prefs_new k_dir (str_of (repeat 120 14 ++ [92])) 20 = Val p /\ save p 20 = Val bytes /\ load prefs_new bytes 40 = UB.
Proof. eexists _, _. split; [vm_compute; reflexivity|]. split; [vm_compute; reflexivity|]. vm_compute. reflexivity. Qed.
Example C70_ex_overrun : let v := str_of (repeat 120 15 ++ [13]) in sound v /\ len v = zlen (buf v) /\ last (text v) 0 = 13 /\ set_value prefs_new k_dir v 20 = UB.
Proof. cbn zeta. split; [vm_compute; split; discriminate|]. split; [reflexivity|]. split; [reflexivity|vm_compute; reflexivity]. Qed.
Example C72_ex : good_key k_dir /\ good_value v_two /\ text v_two = [97; 13; 10; 98; 9; 92] /\ one_line (text v_two) = [97; 92; 110; 98; 9; 92] /\ grow [67; 58; 92; 110] = [67; 58; 92; 92; 110].
Proof. split; [apply key_good; [u16|reflexivity]|]. split; [split; [split; [vm_compute; split; discriminate|split; [change (text v_two) with [97; 13; 10; 98; 9; 92]; u16|reflexivity]]|left; vm_compute; discriminate]|]. split; [reflexivity|]. split; reflexivity. Qed.

Print Assumptions C70_history. Print Assumptions C70_destroy. Print Assumptions C70_values_alive. Print Assumptions C70_set_overrun_refuted.
Print Assumptions C71_round_trip. Print Assumptions C71_identity. Print Assumptions C71_load_overrun_refuted.
Print Assumptions C72_set_then_value. Print Assumptions C72_int. Print Assumptions C72_bool. Print Assumptions C71_grows_refuted.
