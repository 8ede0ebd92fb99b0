(** P_Arg.v -- place markers (C22) and URL coding (C23). *)
From Verif Require Import Base M_Utf8 M_String S_Utf8 L_Utf8 P_Utf8 S_String S_Integer S_Arg L_String L_String2 L_String3 L_Integer L_Integer2 L_Arg P_Integer.
Ltac Zify.zify_post_hook ::= Z.to_euclidean_division_equations.

(** * C22 -- arg() *)
Theorem C22_no_marker : forall s v width c, sound s -> ~ In 37 (text s) ->
  exists s', arg_str s v width c = Val s' /\ sound s' /\ text s' = text s.
Proof.
  intros s v width c H N. apply sound_repr in H. destruct (arg_indices_ok s _ H) as (A & _ & _). unfold arg_str. rewrite (A N). cbn [bind].
  destruct (copy_ctor_ok s _ H) as (s' & E & R & _). exists s'. apply repr_text in R as [T S]. auto.
Qed.
(** the lowest numbered marker, leftmost among equals, is replaced by the padded value; everything else stays *)
Theorem C22_replaces_best_marker : forall s v width c i n w, sound s -> sound v -> - 2 ^ 63 < width < 2 ^ 63 -> best_marker (text s) i n w ->
  exists s', arg_str s v width c = Val s' /\ sound s' /\ text s' = ztake i (text s) ++ padded (text v) width c ++ zdrop (i + w) (text s).
Proof.
  intros s v width c i n w H Hv Hw B. change (2 ^ 63) with 9223372036854775808 in Hw. apply sound_repr in H. apply sound_repr in Hv. destruct (arg_indices_ok s _ H) as (_ & A & _). unfold arg_str. rewrite (A i n w B). cbn [bind].
  assert (Lv : len v = zlen (text v)) by (destruct Hv as (? & _ & L); exact L). destruct B as (M & _). pose proof (marker_range _ _ _ _ M) as (R1 & _ & _). pose proof (marker_width _ _ _ _ M) as R2.
  destruct (arg_gen s (text s) (text v) i (i + w) width c (fun x => append x v) (len v) H ltac:(lia) Lv) as (s' & E & R); [|lia|lia|].
  { intros x u Hx. destruct (append_ok x u v (text v) Hx Hv) as (x' & Ex & Rx). eauto. }
  exists s'. apply repr_text in R as [T S]. split; [exact E|]. auto.
Qed.
Theorem C22_char_replaces_best_marker : forall s x width c i n w, sound s -> - 2 ^ 63 < width < 2 ^ 63 -> best_marker (text s) i n w ->
  exists s', arg_char s x width c = Val s' /\ sound s' /\ text s' = ztake i (text s) ++ padded [x] width c ++ zdrop (i + w) (text s).
Proof.
  intros s x width c i n w H Hw B. change (2 ^ 63) with 9223372036854775808 in Hw. apply sound_repr in H. destruct (arg_indices_ok s _ H) as (_ & A & _). unfold arg_char. rewrite (A i n w B). cbn [bind].
  destruct B as (M & _). pose proof (marker_range _ _ _ _ M) as (R1 & _ & _). pose proof (marker_width _ _ _ _ M) as R2.
  destruct (arg_gen s (text s) [x] i (i + w) width c (fun y => append_char y x) 1 H ltac:(lia) eq_refl) as (s' & E & R); [|lia|lia|].
  { intros y u Hy. destruct (append_char_ok y u x Hy) as (y' & Ey & Ry & _). eauto. }
  exists s'. apply repr_text in R as [T S]. split; [exact E|]. auto.
Qed.
(** every text either has no marker or one best marker *)
Theorem C22_best_marker_exists : forall t, (forall i, marker_at t i = None) \/ exists i n w, best_marker t i n w.
Proof. exact best_exists. Qed.
(** a '%' that starts no marker: the value is put in front of the text, though nothing was to be replaced *)
Theorem C22_percent_without_marker_refuted : forall s v width c, sound s -> sound v -> - 2 ^ 63 < width < 2 ^ 63 -> In 37 (text s) -> (forall i, marker_at (text s) i = None) ->
  exists s', arg_str s v width c = Val s' /\ text s' = padded (text v) width c ++ text s.
Proof.
  intros s v width c H Hv Hw I N. change (2 ^ 63) with 9223372036854775808 in Hw. apply sound_repr in H. apply sound_repr in Hv. destruct (arg_indices_ok s _ H) as (_ & _ & A). unfold arg_str. rewrite (A I N). cbn [bind].
  assert (Lv : len v = zlen (text v)) by (destruct Hv as (? & _ & L); exact L).
  destruct (arg_gen_none s (text s) (text v) width c (fun x => append x v) (len v) H ltac:(lia) Lv) as (s' & E & R).
  { intros x u Hx. destruct (append_ok x u v (text v) Hx Hv) as (x' & Ex & Rx). eauto. }
  exists s'. apply repr_text in R as [T S]. split; [exact E|]. auto.
Qed.
(** "b%2a%1" with "X" padded to 3 by '.': "b%2a..X"; "%05" loses only "%0"; "5%" becomes "X5%" *)
Example C22_ex : best_marker [98; 37; 50; 97; 37; 49] 4 1 2 /\
  (exists s, arg_str (str_of [98; 37; 50; 97; 37; 49]) (str_of [88]) 3 46 = Val s /\ text s = [98; 37; 50; 97; 46; 46; 88]) /\
  (exists s, arg_str (str_of [37; 48; 53]) (str_of [88]) 0 46 = Val s /\ text s = [88; 53]) /\
  (exists s, arg_str (str_of [53; 37]) (str_of [88]) 0 46 = Val s /\ text s = [88; 53; 37]).
Proof.
  split; [|repeat split; eexists; split; vm_compute; reflexivity]. split; [reflexivity|]. intros j n' w' M. pose proof (marker_range _ _ _ _ M) as (R & _ & _). cbn in R.
  assert (C : j = 0 \/ j = 1 \/ j = 2 \/ j = 3 \/ j = 4) by lia. destruct C as [C|[C|[C|[C|C]]]]; subst j; cbn in M; try discriminate; injection M as <- <-; lia.
Qed.

(** * C23 -- URL coding *)
Theorem C23_encode : forall s, sound s -> exists r, url_encode s = Val r /\ sound r /\ text r = flat_map url_char (text s).
Proof.
  intros s H. apply sound_repr in H. assert (Ls : len s = zlen (text s)) by (destruct H as (? & _ & L); exact L). unfold url_encode. rewrite Ls. unfold zlen at 1. rewrite Nat2Z.id.
  destruct (url_encode_loop_ok (text s) [] s str_new [] (length (text s)) H str_new_repr eq_refl) as (r & E & R). apply repr_text in R as [T S]. exists r. auto.
Qed.
Theorem C23_roundtrip : forall s, sound s -> Forall (fun c => 0 < c < 128) (text s) -> zlen (text s) < 2 ^ 30 ->
  exists r d, url_encode s = Val r /\ url_decode r = Val d /\ sound d /\ text d = text s.
Proof.
  intros s H F Hl. destruct (C23_encode s H) as (r & E & S & T). exists r. apply sound_repr in S. rewrite T in S. pose proof (flat_map_url_len (text s)) as (L1 & L2).
  change (2 ^ 30) with 1073741824 in Hl. assert (Lr : len r = zlen (flat_map url_char (text s))) by (destruct S as (? & _ & L); exact L). unfold url_decode. rewrite Lr.
  destruct (url_decode_loop_ok (text s) [] r [] (zeros (zlen (flat_map url_char (text s)) + 1)) (Datatypes.S (Z.to_nat (zlen (flat_map url_char (text s))))) S) as (z' & D & Lz).
  - eapply Forall_impl; [|exact F]. cbv beta. intros. lia.
  - cbn [app]. lia.
  - unfold zlen in *. lia.
  - change (zlen (@nil Z)) with 0. lia.
  - change (zlen (@nil Z)) with 0. unfold zeros. rewrite zlen_repeat. pose proof (zlen_nonneg (flat_map url_char (text s))). lia.
  - cbn [app] in D. change (zlen (@nil Z)) with 0 in D. rewrite D. cbn [bind]. unfold zeros in Lz. rewrite zlen_repeat in Lz. pose proof (zlen_nonneg (flat_map url_char (text s))).
    destruct z' as [|z0 z']; [change (zlen (@nil Z)) with 0 in Lz; lia|]. rewrite wr_mid by reflexivity. cbn [bind]. destruct (Z.gtb_spec (zlen (text s)) 0).
    + rewrite decode_ascii by exact F. cbn [bind]. exists (str_of (text s)). split; [exact E|]. split; [reflexivity|]. assert (R : repr (str_of (text s)) (text s)) by apply str_of_repr. apply repr_text in R as [T' S']. auto.
    + exists str_new. split; [exact E|]. split; [reflexivity|]. pose proof str_new_repr as R. apply repr_text in R as [T' S']. split; [exact S'|]. rewrite T'. symmetry. apply zlen_zero. pose proof (zlen_nonneg (text s)). lia.
Qed.
(** "a b+%" <-> "a+b%2B%25" *)
Example C23_ex : exists r d, url_encode (str_of [97; 32; 98; 43; 37]) = Val r /\ text r = [97; 43; 98; 37; 50; 66; 37; 50; 53] /\ url_decode r = Val d /\ text d = [97; 32; 98; 43; 37].
Proof. eexists _, _. repeat split; vm_compute; reflexivity. Qed.
(** other characters: the encoder writes them as they are and the decoder keeps their lower byte only, which is then read as
    UTF-8: for U+00E9 this reads past the end of the buffer *)
Theorem C23_non_ascii_refuted : exists r, url_encode (str_of [233]) = Val r /\ text r = [233] /\ url_decode r = UB.
Proof. eexists. split; [vm_compute; reflexivity|]. split; vm_compute; reflexivity. Qed.

Print Assumptions C22_no_marker. Print Assumptions C22_replaces_best_marker. Print Assumptions C22_char_replaces_best_marker. Print Assumptions C22_best_marker_exists. Print Assumptions C22_percent_without_marker_refuted.
Print Assumptions C23_encode. Print Assumptions C23_roundtrip. Print Assumptions C23_non_ascii_refuted.
