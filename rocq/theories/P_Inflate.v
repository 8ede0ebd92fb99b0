(** P_Inflate.v -- C63: the Inflater restores what a deflate stream stands for; C64: it comes to an end; C65: what it does with malformed data. *)
From Verif Require Import Base M_Inflate S_Inflate L_Inflate L_Inflate5 L_Inflate6 L_Inflate7.
Ltac Zify.zify_post_hook ::= Z.to_euclidean_division_equations.

(** every stream of stored, fixed and dynamic blocks whose fixed blocks copy from the first 32768 bytes; [rest]: whatever follows the stream.  The last conjunct: how many bits were taken *)
Theorem C63_raw : forall more data bs rest, Forall byte data -> bs <> [] -> stream_ok (Some 32768) 0 [] bs -> bits_of data = stream_bits bs ++ rest ->
  exists s, inflate_bytes true more true data = Val (map Some (stream_out bs), s) /\ eof s = true /\ 8 * ci s + bit s = zlen (stream_bits bs).
Proof. intros more data bs rest D N Ok E. destruct (near_stream more bs 0 [] Ok) as [Q Ok']. destruct (inflate_raw more data bs rest D N Ok' E) as (s & H). exists s. unfold lib_out in H. rewrite Q in H. exact H. Qed.
Print Assumptions C63_raw.
(** the same behind a zlib header; the checksum at the end is not looked at *)
Theorem C63_zlib : forall more cmf flg body bs rest, byte cmf -> byte flg -> Forall byte body -> zlib_header cmf flg -> bs <> [] -> stream_ok (Some 32768) 0 [] bs -> bits_of body = stream_bits bs ++ rest ->
  exists s, inflate_bytes true more false (cmf :: flg :: body) = Val (map Some (stream_out bs), s) /\ eof s = true /\ 8 * ci s + bit s = 16 + zlen (stream_bits bs).
Proof.
  intros more cmf flg body bs rest C G D H N Ok E. destruct (near_stream more bs 0 [] Ok) as [Q Ok']. destruct (inflate_zlib more cmf flg body bs rest C G D H N Ok' E) as (s & H'). exists s. unfold lib_out in H'. rewrite Q in H'. exact H'.
Qed.
Print Assumptions C63_zlib.
(** without the limit: exactly what the library makes of every such stream *)
Theorem C63_any_distance : forall more data bs rest, Forall byte data -> bs <> [] -> stream_ok None 0 [] bs -> bits_of data = stream_bits bs ++ rest ->
  exists s, inflate_bytes true more true data = Val (map Some (lib_out bs), s) /\ eof s = true.
Proof. intros more data bs rest D N Ok E. destruct (inflate_raw more data bs rest D N Ok E) as (s & H1 & H2 & _). exists s. auto. Qed.
Print Assumptions C63_any_distance.

(** ** so the limit is needed: 32768 zeros, a one, and three copies of that one *)
Definition far : list block := [Stored (repeat 0 5) (repeat 0 (Z.to_nat 32768)); Fixed [Lit 1; Match 257 0 0 0]].
Definition far_data : list Z := [0; 0; 128; 255; 127] ++ repeat 0 (Z.to_nat 32768) ++ [99; 4; 2; 0].
Lemma far_ok : stream_ok None 0 [] far /\ bits_of far_data = stream_bits far ++ [0; 0].
Proof.
  unfold far, far_data. set (N := Z.to_nat 32768). assert (EN : Z.of_nat N = 32768) by (unfold N; lia). clearbody N. assert (ZN : zlen (repeat 0 N) = 32768) by (rewrite zlen_repeat; exact EN). split.
  - cbn [stream_ok body_ok tokens_ok out_block token_ok near out_token app]. rewrite ZN. repeat match goal with |- _ /\ _ => split end; try exact I; try (vm_compute; reflexivity); try (vm_compute; discriminate); try lia.
    + apply Forall_forall. intros x Hx. apply repeat_spec in Hx. subst x. unfold byte. lia.
    + rewrite zlen_app, ZN. change (zlen [1]) with 1. change (mdist 0 0) with 1. lia.
  - rewrite !bits_app. cbn [stream_bits]. unfold block_bits. cbn [body_bits block_type]. rewrite ZN. rewrite app_nil_r. rewrite <- !app_assoc. cbn [app]. rewrite <- !app_assoc.
    change (bits_of [0; 0; 128; 255; 127]) with (0 :: lsb 2 0 ++ repeat 0 5 ++ lsb 16 32768 ++ lsb 16 (65535 - 32768)). cbn [app]. rewrite <- !app_assoc. do 5 f_equal.
Qed.
Theorem C63_far_match_refuted : exists bs data rest, Forall byte data /\ stream_ok None 0 [] bs /\ bits_of data = stream_bits bs ++ rest /\ forall more, exists o s, inflate_bytes true more true data = Val (map Some o, s) /\ o <> stream_out bs.
Proof.
  exists far, far_data, [0; 0]. destruct far_ok as [Ok E]. assert (F : Forall byte far_data).
  { apply Forall_forall. intros x Hx. unfold far_data in Hx. rewrite !in_app_iff in Hx. destruct Hx as [H|[H|H]]; [|apply repeat_spec in H; subst; unfold byte; lia|]; cbn in H; unfold byte; lia. }
  split; [exact F|]. split; [exact Ok|]. split; [exact E|]. intros more. destruct (C63_any_distance more far_data far [0; 0] F ltac:(discriminate) Ok E) as (s & H & _). exists (lib_out far), s. split; [exact H|]. intros Q.
  assert (A : lget (lib_out far) 32769 = Some 0 /\ lget (stream_out far) 32769 = Some 1); [|rewrite Q in A; destruct A; congruence]. clear.
  unfold lib_out, stream_out, far. cbn [fold_left lib_block out_block out_tokens lib_token out_token app]. change (mlen 257 0) with 3. change (mdist 0 0) with 1. change (Z.to_nat 3) with 3%nat. cbn [copy_from copy].
  set (N := Z.to_nat 32768). assert (EN : Z.of_nat N = 32768) by (unfold N; lia). assert (L0 : lget (repeat 0 N ++ [1]) 0 = Some 0) by (unfold N; change (Z.to_nat 32768) with (S (Z.to_nat 32767)); reflexivity). clearbody N. assert (ZN : zlen (repeat 0 N) = 32768) by (rewrite zlen_repeat; exact EN).
  assert (Z1 : zlen (repeat 0 N ++ [1]) = 32769) by (rewrite zlen_app, ZN; reflexivity). rewrite Z1. change ((32769 - 1) mod 32768) with 0. change (32769 - 1) with 32768. rewrite L0.
  assert (L1 : lget (repeat 0 N ++ [1]) 32768 = Some 1) by (rewrite <- ZN; apply lget_mid). rewrite L1. rewrite <- Z1. assert (M : forall (B : list Z) x y z, lget (((B ++ [x]) ++ [y]) ++ [z]) (zlen B) = Some x) by (intros B x y z; rewrite <- !app_assoc; apply lget_mid). split; apply M.
Qed.
Print Assumptions C63_far_match_refuted.

(** non-trivial cases: fixed codes with an overlapping copy; a dynamic block with runs; a stored block followed by a fixed one *)
Definition ex_fixed : list block := [Fixed [Lit 97; Lit 98; Match 259 0 1 0]].
Example C63_ex_fixed : stream_ok (Some 32768) 0 [] ex_fixed /\ bits_of [75; 76; 2; 67; 0] = stream_bits ex_fixed ++ [0; 0] /\ stream_out ex_fixed = [97; 98; 97; 98; 97; 98; 97].
Proof. split; [|split; vm_compute; reflexivity]. cbn [stream_ok ex_fixed body_ok tokens_ok token_ok near]. repeat match goal with |- _ /\ _ => split end; try exact I; vm_compute; try reflexivity; discriminate. Qed.
Definition ex_dynamic : list block := [Dynamic [0;2;2;0;0;0;0;0;0;0;0;0;0;0;0;0;0;0;1] 18 [ManyZeros 97; Len 2; Len 2; ManyZeros 138; ManyZeros 19; Len 2; Len 2] [Len 1; Len 1] [Lit 97; Lit 98; Match 257 0 1 0]].
Example C63_ex_dynamic : stream_ok (Some 32768) 0 [] ex_dynamic /\ bits_of [13; 193; 129; 0; 0; 0; 0; 128; 32; 214; 247; 135; 248; 194; 7] = stream_bits ex_dynamic ++ [0; 0; 0; 0] /\ stream_out ex_dynamic = [97; 98; 97; 98; 97].
Proof.
  split; [|split; vm_compute; reflexivity]. cbn [stream_ok ex_dynamic body_ok tokens_ok token_ok near]. unfold header_ok, runs_ok, code_ok.
  repeat match goal with |- _ /\ _ => split end; try exact I; try discriminate; try (left; vm_compute; reflexivity); try (vm_compute; reflexivity); try (vm_compute; discriminate); try (repeat (constructor; [vm_compute; try split; try reflexivity; try discriminate|]); constructor); try lia.
  all: apply Forall_forall; intros x Hx; vm_compute in Hx; repeat (destruct Hx as [<-|Hx]; [cbn; repeat match goal with |- _ /\ _ => split end; vm_compute; (reflexivity || discriminate)|]); contradiction.
Qed.
Definition ex_two : list block := [Stored [0; 0; 0; 0; 0] [1; 2]; Fixed [Lit 1; Match 257 0 0 0]].
Example C63_ex_two : stream_ok (Some 32768) 0 [] ex_two /\ bits_of [0; 2; 0; 253; 255; 1; 2; 99; 4; 2; 0] = stream_bits ex_two ++ [0; 0] /\ stream_out ex_two = [1; 2; 1; 1; 1; 1].
Proof. split; [|split; vm_compute; reflexivity]. cbn [stream_ok ex_two body_ok tokens_ok token_ok near]. repeat match goal with |- _ /\ _ => split end; try exact I; try (repeat constructor; unfold byte; lia); vm_compute; try reflexivity; discriminate. Qed.
Example C63_ex_zlib : zlib_header 120 156. Proof. unfold zlib_header. lia. Qed.

(** ** C64: whatever the data, whatever the order of evaluation and the growth of the buffer *)
Theorem C64_ends : forall lr more w data, inflate_bytes lr more w data <> Fuel.
Proof. intros. apply inflate_ends. Qed.
Print Assumptions C64_ends.

(** ** C65: malformed data *)
(** a bad zlib header is always an error *)
Theorem C65_header : forall lr more, (forall data, zlen data < 2 -> inflate_bytes lr more false data = Exn) /\
  (forall cmf flg body, byte cmf -> byte flg -> ~ zlib_header cmf flg -> inflate_bytes lr more false (cmf :: flg :: body) = Exn).
Proof.
  intros lr more. split.
  - intros data H. unfold inflate_bytes, inflate. cbn [tin wrap set_input inf_new Z.eqb andb negb cb]. replace (zlen data <? 2) with true by lia. reflexivity.
  - intros cmf flg body Hc Hf H. unfold byte in *. unfold inflate_bytes, inflate. cbn [tin wrap set_input inf_new Z.eqb andb negb cb].
    assert (Ln : zlen (cmf :: flg :: body) <? 2 = false) by (rewrite !zlen_cons; pose proof (zlen_nonneg body); lia). rewrite Ln. change (rd (cmf :: flg :: body) 0) with (Val cmf). change (rd (cmf :: flg :: body) 1) with (Val flg). cbn [bind].
    change 15 with (Z.ones 4). rewrite !Z.land_ones by lia. change (2 ^ 4) with 16. rewrite (Z.shiftr_div_pow2 cmf), (Z.shiftr_div_pow2 flg) by lia. change (2 ^ 4) with 16. change (2 ^ 5) with 32. change 1 with (Z.ones 1) at 1. rewrite Z.land_ones by lia. change (2 ^ 1) with 2. rewrite u16_id by lia.
    destruct (Z.eqb_spec (cmf mod 16) 8); cbn [negb bind]; [|reflexivity]. destruct (Z.gtb_spec ((cmf / 16) mod 16) 7); cbn [bind]; [reflexivity|]. destruct (Z.eqb_spec ((flg / 32) mod 2) 0); cbn [negb bind]; [|reflexivity]. destruct (Z.eqb_spec ((cmf * 256 + flg) mod 31) 0); cbn [negb bind]; [|reflexivity].
    exfalso. apply H. unfold zlib_header. rewrite (Z.mul_comm 256). lia.
Qed.
Print Assumptions C65_header.
(** a dynamic block (first block of the stream) with a match that reaches before the start of the output, behind any valid header and data, is always an error *)
Theorem C65_dynamic_distance : forall more data fin cl n la da ts ls le ds de rest, Forall byte data -> header_ok cl n la da -> tokens_ok None (expand [] la) (expand [] da) [] ts ->
  257 <= ls <= 285 -> 0 <= le < 2 ^ length_extra ls -> 0 <= ds <= 29 -> 0 <= de < 2 ^ dist_extra ds -> used (expand [] la) ls -> used (expand [] da) ds -> zlen (out_tokens [] ts) < mdist ds de ->
  bits_of data = fin :: lsb 2 2 ++ dynamic_header cl n la da ++ flat_map (token_bits (expand [] la) (expand [] da)) ts ++ token_bits (expand [] la) (expand [] da) (Match ls le ds de) ++ rest ->
  inflate_bytes true more true data = Exn.
Proof. intros. eapply inflate_bad; eauto. Qed.
Print Assumptions C65_dynamic_distance.
Example C65_ex_header : ~ zlib_header 120 157. Proof. unfold zlib_header. lia. Qed.
(** reading behind the end of the data, instead of an error *)
Theorem C65_truncated_refuted : forall more, inflate_bytes true more true [75; 76] = UB /\ inflate_bytes true more true [] = UB /\ inflate_bytes true more false [120; 156] = UB.
Proof. intros more. vm_compute. auto. Qed.
(** a stored block whose second length is not the complement of the first one is accepted *)
Theorem C65_stored_length_refuted : forall more, exists s, inflate_bytes true more true [1; 1; 0; 0; 0; 42] = Val ([Some 42], s).
Proof. intros more. eexists. vm_compute. reflexivity. Qed.
(** block type 3 does not exist, but is accepted *)
Theorem C65_block_type_refuted : forall more, exists s, inflate_bytes true more true [7] = Val ([], s).
Proof. intros more. eexists. vm_compute. reflexivity. Qed.
(** a distance before the start of the output, in a block with fixed codes: undefined *)
Theorem C65_before_start_refuted : forall more, inflate_bytes true more true [3; 2; 0] = UB.
Proof. intros more. vm_compute. reflexivity. Qed.
(** distance code 30: the table is read out of bounds *)
Theorem C65_distance_code_refuted : forall more, inflate_bytes true more true [75; 4; 62; 0] = UB.
Proof. intros more. vm_compute. reflexivity. Qed.
(** two valid kinds of streams outside of [stream_ok]: no distance code at all (3.2.7: "one distance code of zero bits means that there are no distance codes used at all"; here: the text "a"), and a
    run of lengths that crosses from the literals to the distances ("the code lengths form a single sequence"; again "a") *)
Theorem C65_no_distance_code_refuted : forall more, inflate_bytes true more true [5; 192; 129; 8; 0; 0; 0; 0; 32; 214; 253; 37; 78] = UB.
Proof. intros more. vm_compute. reflexivity. Qed.
Theorem C65_crossing_run_refuted : forall more, inflate_bytes true more true [29; 194; 33; 1; 0; 0; 0; 0; 144; 173; 254; 159; 80; 16] = Exn.
Proof. intros more. vm_compute. reflexivity. Qed.
(** the default constructor makes an Inflater that cannot write *)
Theorem C65_default_constructor_refuted : forall more, inflate true more (set_input inf_default [120; 156; 75; 4; 0]) = UB.
Proof. intros more. vm_compute. reflexivity. Qed.
(** evaluated from right to left, the block type is read with its bits swapped: the empty fixed block is taken for a dynamic one *)
Theorem C65_evaluation_order_refuted : forall more, (exists s, inflate_bytes true more true [3; 0] = Val ([], s)) /\ inflate_bytes false more true [3; 0] = UB.
Proof. intros more. split; [eexists|]; vm_compute; reflexivity. Qed.
Print Assumptions C65_truncated_refuted.
Print Assumptions C65_stored_length_refuted.
Print Assumptions C65_block_type_refuted.
Print Assumptions C65_before_start_refuted.
Print Assumptions C65_distance_code_refuted.
Print Assumptions C65_no_distance_code_refuted.
Print Assumptions C65_crossing_run_refuted.
Print Assumptions C65_default_constructor_refuted.
Print Assumptions C65_evaluation_order_refuted.
