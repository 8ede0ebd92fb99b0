(** P_I18n.v -- message catalogues (C73, C74). *)
From Verif Require Import L_Utf8.
From Verif Require Import Base M_Utf8 M_String M_Serializer M_Hashtable M_Preferences M_I18n S_String S_Utf8 S_Serializer S_Hashtable S_Preferences S_I18n.
From Verif Require Import L_String L_Serializer L_Hashtable L_Preferences L_Preferences3 L_Preferences4 L_Preferences6 L_I18n.
Ltac Zify.zify_post_hook ::= Z.to_euclidean_division_equations.

(** a new bundle that gets several files *)
Fixpoint append_files (p : prefs) (files : list (list Z)) (fuel : nat) : out prefs := match files with [] => Val p | f :: files => let* p := append_mo p f fuel in append_files p files fuel end.
Lemma append_files_ok fuel : forall files mss p m K, Forall2 catalogue files mss -> Forall (fun f => Forall byte f /\ zlen f < 2 ^ 31) files -> Forall message_fits (concat mss) -> pinv p m K -> 0 <= K -> K + zlen (concat mss) < 2 ^ 59 -> K + zlen (concat mss) < Z.of_nat fuel ->
  exists p', append_files p files fuel = Val p' /\ pinv p' (read_mo m (concat mss)) (K + zlen (concat mss)).
Proof.
  induction files as [|f files IH]; intros mss p m K F2 Ff Fm I HK HB Hf; inversion F2; subst; cbn [append_files concat] in *.
  - exists p. rewrite zlen_nil, Z.add_0_r. split; [reflexivity|exact I].
  - apply Forall_cons_iff in Ff as [[Fb Lb] Ff]. apply Forall_app in Fm as [F1 Fm]. rewrite zlen_app in *. pose proof (zlen_nonneg y). pose proof (zlen_nonneg (concat l')). destruct (append_ok f y p m K fuel Fb Lb H1 F1 I HK ltac:(lia) ltac:(lia)) as (p1 & -> & I1). cbn [bind].
    destruct (IH l' p1 _ (K + zlen y) H3 Ff Fm I1 ltac:(lia) ltac:(lia) ltac:(lia)) as (p' & -> & I'). exists p'. split; [reflexivity|]. unfold read_mo in *. rewrite fold_left_app. replace (K + (zlen y + zlen (concat l'))) with (K + zlen y + zlen (concat l')) by lia. exact I'.
Qed.
Lemma translation_read ms k : match text_or (lookup (read_mo [] ms) k) with [] => k | v => v end = translation ms k.
Proof. rewrite lookup_read. unfold translation. destruct (find_last ms k); reflexivity. Qed.

(** * C73 -- translations *)
(** All lookups after any number of catalogue files, whatever their layout. *)
Theorem C73_translate files mss fuel : Forall2 catalogue files mss -> Forall (fun f => Forall byte f /\ zlen f < 2 ^ 31) files -> Forall message_fits (concat mss) -> zlen (concat mss) < 2 ^ 59 -> zlen (concat mss) < Z.of_nat fuel ->
  exists p, append_files prefs_new files fuel = Val p /\
  forall key, good_key key -> exists u, translate p key fuel = Val u /\ text u = translation (concat mss) (text key).
Proof.
  intros F2 Ff Fm HB Hf. destruct (append_files_ok fuel files mss prefs_new [] 0 F2 Ff Fm pinv_new ltac:(lia) ltac:(lia) ltac:(lia)) as (p & E & I). exists p. split; [exact E|]. intros key G.
  pose proof (zlen_nonneg (concat mss)). assert (Hf2 : (Z.to_nat (0 + zlen (concat mss)) < fuel)%nat) by lia. destruct (value_or_ok p _ _ key key fuel I G (proj1 (proj1 G)) Hf2) as (u & Eu & Ru). exists u. split; [exact Eu|]. apply repr_text in Ru as [-> _]. apply translation_read.
Qed.
(** With distinct originals, every translation without line breaks that is not empty is found, unchanged; any other text is its own translation. *)
Theorem C73_messages file ms fuel : catalogue file ms -> Forall byte file -> zlen file < 2 ^ 31 -> Forall message_fits ms -> NoDup (map (fun m => msg (fst m)) ms) -> zlen ms < 2 ^ 59 -> zlen ms < Z.of_nat fuel ->
  exists p, append_mo prefs_new file fuel = Val p /\
  forall key, good_key key -> exists u, translate p key fuel = Val u /\
    (forall a b, In (a, b) ms -> msg a = text key -> ~ In 13 (msg b) -> ~ In 10 (msg b) -> msg b <> [] -> text u = msg b) /\
    ((forall a b, In (a, b) ms -> msg a <> text key) -> text u = text key).
Proof.
  intros C Fb Lb Fm ND HB Hf. destruct (C73_translate [file] [ms] fuel) as (p & E & H); try (cbn [concat]; rewrite app_nil_r); auto. cbn [append_files] in E. destruct (append_mo prefs_new file fuel) as [p0| | |]; cbn [bind] in E; try discriminate. injection E as ->. exists p. split; [reflexivity|].
  intros key G. destruct (H key G) as (u & Eu & Tu). exists u. split; [exact Eu|]. cbn [concat] in Tu. rewrite app_nil_r in Tu. rewrite Tu. clear - ND. unfold translation. split.
  - intros a b I Ea N1 N2 N3. assert (F : find_last ms (text key) = Some b).
    { induction ms as [|[a' b'] ms IH]; [destruct I|]. cbn [map fst] in ND. apply NoDup_cons_iff in ND as [Nin ND]. cbn [find_last]. destruct I as [I|I].
      - injection I as -> ->. assert (Nf : find_last ms (text key) = None). { rewrite <- Ea. clear - Nin. induction ms as [|[c d] ms IH]; [reflexivity|]. cbn [map fst In find_last] in *. rewrite IH by tauto. destruct (text_dec (msg c) (msg a)); [tauto|reflexivity]. } rewrite Nf. now destruct (text_dec (msg a) (text key)).
      - now rewrite (IH ND I). }
    rewrite F. rewrite one_line_id by assumption. destruct (msg b); [contradiction|reflexivity].
  - intros N. assert (F : find_last ms (text key) = None). { clear ND. induction ms as [|[a b] ms IH]; [reflexivity|]. cbn [find_last]. rewrite IH by (intros; apply (N a0 b0); now right). destruct (text_dec (msg a) (text key)) as [e|]; [|reflexivity]. exfalso. exact (N a b (or_introl eq_refl) e). } now rewrite F.
Qed.
(** A translation with a line break is never answered as it is. *)
Theorem C73_line_break_refuted file ms fuel a b : catalogue file ms -> Forall byte file -> zlen file < 2 ^ 31 -> Forall message_fits ms -> zlen ms < 2 ^ 59 -> zlen ms < Z.of_nat fuel ->
  find_last ms (msg a) = Some b -> In 13 (msg b) \/ In 10 (msg b) ->
  exists p, append_mo prefs_new file fuel = Val p /\ forall key, good_key key -> text key = msg a -> exists u, translate p key fuel = Val u /\ text u <> msg b /\ text u = one_line (msg b).
Proof.
  intros C Fb Lb Fm HB Hf F Br. destruct (C73_translate [file] [ms] fuel) as (p & E & H); try (cbn [concat]; rewrite app_nil_r); auto. cbn [append_files] in E. destruct (append_mo prefs_new file fuel) as [p0| | |]; cbn [bind] in E; try discriminate. injection E as ->. exists p. split; [reflexivity|].
  intros key G Ek. destruct (H key G) as (u & Eu & Tu). exists u. split; [exact Eu|]. cbn [concat] in Tu. rewrite app_nil_r, Ek in Tu. unfold translation in Tu. rewrite F in Tu.
  assert (D : one_line (msg b) <> msg b) by (rewrite one_line_same; tauto). assert (N : one_line (msg b) <> []). { destruct (msg b) as [|c r]; [destruct Br as [[]|[]]|]. cbn [one_line]. destruct (c =? 13); [discriminate|]. destruct (c =? 10); discriminate. }
  destruct (one_line (msg b)) as [|x r] eqn:E1; [contradiction|]. rewrite Tu. split; [exact D|reflexivity].
Qed.

(** * C74 -- which files *)
(** Every catalogue in the layout of msgfmt is read back. *)
Theorem C74_written ms fuel : Forall (fun m => Forall byte (fst m) /\ Forall byte (snd m)) ms -> Forall message_fits ms -> zlen (mo_image ms) < 2 ^ 31 -> zlen (mo_image ms) < Z.of_nat fuel ->
  exists p, append_mo prefs_new (mo_image ms) fuel = Val p /\ forall key, good_key key -> exists u, translate p key fuel = Val u /\ text u = translation ms (text key).
Proof.
  intros Fb Fm L Hf. assert (Ln : 16 * zlen ms <= zlen (mo_image ms)). { unfold mo_image. cbv zeta. rewrite !zlen_app, !table_len, !zlen_map, words_len. pose proof (zlen_nonneg (pool (map fst ms))). pose proof (zlen_nonneg (pool (map snd ms))). rewrite !zlen_cons, zlen_nil. lia. } pose proof (zlen_nonneg ms).
  destruct (C73_translate [mo_image ms] [ms] fuel) as (p & E & H0); try (cbn [concat]; rewrite app_nil_r); auto.
  - constructor; [|constructor]. apply image_catalogue. lia.
  - constructor; [|constructor]. split; [now apply image_bytes|exact L].
  - lia.
  - lia.
  - cbn [append_files] in E. destruct (append_mo prefs_new (mo_image ms) fuel) as [p0| | |]; cbn [bind] in E; try discriminate. injection E as ->. exists p. split; [reflexivity|]. cbn [concat] in H0. rewrite app_nil_r in H0. exact H0.
Qed.
(** A file that is empty, or has another magic number or revision, changes nothing. *)
Theorem C74_rejected p file fuel : Forall byte file -> zlen file < 2 ^ 31 -> file = [] \/ 20 <= zlen file /\ (~ word_at file 0 magic_number \/ ~ word_at file 4 0) -> append_mo p file fuel = Val p.
Proof.
  intros F L [->|[L20 N]]; [reflexivity|]. unfold append_mo. destruct (Z.leb_spec (zlen file) 0); [lia|]. assert (L2 : zlen file < 2 ^ 32) by lia.
  destruct (word_any file 0 F L2) as (v0 & W0); [lia|lia|]. destruct (word_any file 4 F L2) as (v1 & W1); [lia|lia|]. destruct (word_any file 8 F L2) as (v2 & W2); [lia|lia|]. destruct (word_any file 12 F L2) as (v3 & W3); [lia|lia|]. destruct (word_any file 16 F L2) as (v4 & W4); [lia|lia|].
  rewrite (proj1 (word_read _ _ _ L2 W0)), (proj1 (word_read _ _ _ L2 W1)), (proj1 (word_read _ _ _ L2 W2)), (proj1 (word_read _ _ _ L2 W3)), (proj1 (word_read _ _ _ L2 W4)). cbn [bind].
  destruct (Z.eqb_spec v0 2500072158) as [->|N0]; cbn [negb]; [|reflexivity]. destruct (Z.eqb_spec v1 0) as [->|N1]; cbn [negb]; [|reflexivity]. exfalso. destruct N as [N|N]; [exact (N W0)|exact (N W1)].
Qed.
(** A file too short for its header, or whose first message lies behind its end, is read past its end. *)
Theorem C74_short_refuted p file fuel : 0 < zlen file < 20 -> Forall byte file -> append_mo p file fuel = UB.
Proof.
  intros L F. unfold append_mo. destruct (Z.leb_spec (zlen file) 0); [lia|]. assert (L2 : zlen file < 2 ^ 32) by lia.
  assert (S : forall o, 0 <= o < 20 -> (exists v, deserializeLEUInt32 file o = Val v /\ o + 4 <= zlen file) \/ deserializeLEUInt32 file o = UB). { intros o Ho. destruct (Z_le_dec (o + 4) (zlen file)); [left; destruct (word_any file o F L2) as (v & W); [lia|lia|]; exists v; split; [apply (word_read _ _ _ L2 W)|assumption]|right; apply word_short; lia]. }
  destruct (S 0 ltac:(lia)) as [(v0 & -> & _)| ->]; [|reflexivity]. cbn [bind]. destruct (S 4 ltac:(lia)) as [(v1 & -> & _)| ->]; [|reflexivity]. cbn [bind]. destruct (S 8 ltac:(lia)) as [(v2 & -> & _)| ->]; [|reflexivity]. cbn [bind]. destruct (S 12 ltac:(lia)) as [(v3 & -> & _)| ->]; [|reflexivity]. cbn [bind]. rewrite word_short by lia. reflexivity.
Qed.
Theorem C74_offsets_refuted p file fuel n O T l o l' o' : Forall byte file -> zlen file < 2 ^ 31 -> word_at file 0 magic_number -> word_at file 4 0 -> word_at file 8 n -> word_at file 12 O -> word_at file 16 T ->
  n = 1 -> word_at file O l -> word_at file (O + 4) o -> word_at file T l' -> word_at file (T + 4) o' -> zlen file < o + l -> append_mo p file fuel = UB.
Proof.
  intros F L W0 W1 W2 W3 W4 -> V1 V2 V3 V4 X. assert (L2 : zlen file < 2 ^ 32) by lia. unfold append_mo. destruct (word_read _ _ _ L2 W0) as (-> & _ & Q0). destruct (Z.leb_spec (zlen file) 0); [lia|].
  destruct (word_read _ _ _ L2 W1) as (-> & _). destruct (word_read _ _ _ L2 W2) as (-> & _). destruct (word_read _ _ _ L2 W3) as (-> & _). destruct (word_read _ _ _ L2 W4) as (-> & _). cbn [bind]. change (magic_number =? 2500072158) with true. cbn [negb Z.eqb Z.to_nat Pos.to_nat]. change (Pos.to_nat 1) with 1%nat. cbn [mo_records].
  destruct (word_read _ _ _ L2 V1) as (R1 & ? & ?). destruct (word_read _ _ _ L2 V2) as (R2 & ? & ?). destruct (word_read _ _ _ L2 V3) as (R3 & ? & ?). destruct (word_read _ _ _ L2 V4) as (R4 & ? & ?). change (2 ^ 32) with 4294967296 in L2. rewrite !Z.add_0_r. rewrite !u32_id by lia. rewrite R1, R2, R3, R4. cbn [bind app mo_store oo ol]. rewrite str_short; [reflexivity|destruct V1; lia|lia].
Qed.

(** examples: a header entry, two messages, one of them with plural forms and one with a line break *)
Definition cat : list (list Z * list Z) := [([], [120; 10]); ([72; 105], [84; 97; 103]); ([102; 0; 102; 115], [68; 195; 164; 0; 68]); ([98], [49; 10; 50])].
Definition key (t : list Z) : jstr := str_of t.
Example C73_ex : exists p, append_mo prefs_new (mo_image cat) 50 = Val p /\ translate p (key [72; 105]) 50 = Val (key [84; 97; 103]) /\ (exists u, translate p (key [102]) 50 = Val u /\ text u = [68; 228]) /\
  (exists u, translate p (key [98]) 50 = Val u /\ text u = [49; 92; 110; 50]) /\ (exists u, translate p (key [122]) 50 = Val u /\ text u = [122]).
Proof. eexists. split; [vm_compute; reflexivity|]. split; [vm_compute; reflexivity|]. split; [eexists; split; [vm_compute; reflexivity|reflexivity]|]. split; eexists; (split; [vm_compute; reflexivity|reflexivity]). Qed.
Example C74_ex_fits : Forall (fun m => Forall byte (fst m) /\ Forall byte (snd m)) cat /\ Forall message_fits cat /\ zlen (mo_image cat) < 2 ^ 31 /\ NoDup (map (fun m => msg (fst m)) cat) /\ Forall byte (mo_image cat).
Proof.
  assert (A : Forall (fun m => Forall byte (fst m) /\ Forall byte (snd m)) cat) by (unfold cat; repeat (apply Forall_cons; [cbn [fst snd]; split; repeat (apply Forall_cons; [unfold byte; lia|]); apply Forall_nil|]); apply Forall_nil).
  split; [exact A|]. split; [unfold cat; repeat (apply Forall_cons; [split; [vm_compute; reflexivity|split; [vm_compute; reflexivity|left; vm_compute; discriminate]]|]); apply Forall_nil|]. split; [vm_compute; reflexivity|]. split; [|now apply image_bytes].
  match goal with |- NoDup ?x => let y := eval vm_compute in x in change x with y end. repeat (apply NoDup_cons; [cbn [In]; intros C; repeat destruct C as [C|C]; try discriminate C; contradiction|]). apply NoDup_nil.
Qed.
Example C74_ex_rejected : append_mo prefs_new (repeat 7 20) 9 = Val prefs_new /\ append_mo prefs_new [222; 18; 4; 149] 9 = UB /\ append_mo prefs_new (words [magic_number; 0; 1; 20; 28; 1; 36; 1; 35]) 9 = UB.
Proof. split; [vm_compute; reflexivity|]. split; vm_compute; reflexivity. Qed.

Print Assumptions C73_translate. Print Assumptions C73_messages. Print Assumptions C73_line_break_refuted.
Print Assumptions C74_written. Print Assumptions C74_rejected. Print Assumptions C74_short_refuted. Print Assumptions C74_offsets_refuted.
