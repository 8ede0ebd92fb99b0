(** P_Serializer.v -- C62: integers and bit patterns survive serialisation, in the byte order the name says. *)
From Verif Require Import Base M_Serializer S_Serializer L_Serializer.

(** the bytes written, and nothing else is changed *)
Theorem C62_written :
  writes serializeLEInt16 2 (le_bytes 2) /\ writes serializeLEUInt16 2 (le_bytes 2) /\ writes serializeLEInt24 3 (le_bytes 3) /\ writes serializeLEInt32 4 (le_bytes 4) /\
  writes serializeLEInt64 8 (le_bytes 8) /\ writes serializeLEDouble 8 (le_bytes 8) /\ writes serializeLEFloat 4 (le_bytes 4) /\
  writes serializeBEInt16 2 (be_bytes 2) /\ writes serializeBEInt24 3 (be_bytes 3) /\ writes serializeBEInt32 4 (be_bytes 4) /\ writes serializeBEInt64 8 (be_bytes 8).
Proof. repeat match goal with |- _ /\ _ => split end; auto using serLE16, serLEU16, serLE24, serLE32, serLE64, serBE16, serBE24, serBE32, serBE64. Qed.
Print Assumptions C62_written.

(** the value read *)
Theorem C62_read :
  reads deserializeLEUInt16 2 le_value /\ reads deserializeLEInt16 2 (fun l => signed 2 (le_value l)) /\
  reads deserializeLEUInt32 4 le_value /\ reads deserializeLEInt32 4 (fun l => signed 4 (le_value l)) /\ reads deserializeLEInt64 8 (fun l => signed 8 (le_value l)) /\
  reads deserializeBEUInt16 2 be_value /\ reads deserializeBEInt16 2 (fun l => signed 2 (be_value l)) /\
  reads deserializeBEUInt32 4 be_value /\ reads deserializeBEInt32 4 (fun l => signed 4 (be_value l)) /\ reads deserializeBEInt64 8 (fun l => signed 8 (be_value l)) /\
  reads deserializeLEDouble 8 le_value /\ reads deserializeLEFloat 4 le_value.
Proof.
  repeat match goal with |- _ /\ _ => split end; auto using desLEU16, desLE16, desLEU32, desLE32, desLE64, desBEU16, desBE16, desBEU32, desBE32, desBE64.
  unfold reads, deserializeLEDouble. intros p l s HL HP HF. rewrite desLE64 by assumption. cbn [bind]. f_equal.
  pose proof (le_value_range l HF) as R. replace (zlen l) with 8 in R by (unfold zlen; lia). unfold signed. cbv zeta.
  unfold u64. change (256 ^ Z.of_nat 8) with 18446744073709551616. change (18446744073709551616 / 2) with 9223372036854775808. change (256 ^ 8) with 18446744073709551616 in R.
  rewrite Zminus_mod_idemp_l. replace (le_value l + 9223372036854775808 - 9223372036854775808) with (le_value l) by lia. apply Z.mod_small. assumption.
Qed.
Print Assumptions C62_read.

(** [f] writes what [g] reads: every value of the type comes back, wherever there is room in the buffer *)
Definition back_and_forth (f : list Z -> Z -> Z -> out (Z * list Z)) (g : list Z -> Z -> out Z) (n lo hi : Z) : Prop :=
  forall b o v, 0 <= o -> o + n <= zlen b -> o + n <= 2 ^ 32 -> lo <= v <= hi -> exists b', f b o v = Val (n, b') /\ zlen b' = zlen b /\ g b' o = Val v.
Theorem C62_round_trip :
  back_and_forth serializeLEInt16 deserializeLEInt16 2 (-32768) 32767 /\ back_and_forth serializeLEUInt16 deserializeLEUInt16 2 0 65535 /\
  back_and_forth serializeLEInt32 deserializeLEInt32 4 (-2147483648) 2147483647 /\
  back_and_forth serializeLEInt64 deserializeLEInt64 8 (-9223372036854775808) 9223372036854775807 /\
  back_and_forth serializeBEInt16 deserializeBEInt16 2 (-32768) 32767 /\ back_and_forth serializeBEInt32 deserializeBEInt32 4 (-2147483648) 2147483647 /\
  back_and_forth serializeBEInt64 deserializeBEInt64 8 (-9223372036854775808) 9223372036854775807 /\
  back_and_forth serializeLEDouble deserializeLEDouble 8 0 18446744073709551615 /\ back_and_forth serializeLEFloat deserializeLEFloat 4 0 4294967295.
Proof.
  assert (K : forall f g n bytes value lo hi, writes f n bytes -> reads g n value -> (forall v, length (bytes v) = n) -> (forall v, Forall isbyte (bytes v)) ->
            (forall v, lo <= v <= hi -> value (bytes v) = v) -> forall m, m = Z.of_nat n -> back_and_forth f g m lo hi).
  { intros f g n bytes value lo hi W R L B V m -> b o v H1 H2 H3 H4.
    destruct (split_len b o) as (p & r & -> & Hp); [lia|].
    assert (E : exists old s, r = old ++ s /\ length old = n).
    { exists (firstn n r), (skipn n r). rewrite firstn_skipn, firstn_length. rewrite zlen_app in H2. unfold zlen in *. split; [reflexivity|lia]. }
    destruct E as (old & s & -> & Ho). subst o. exists (p ++ bytes v ++ s). split; [apply W; assumption|]. split.
    - rewrite !zlen_app. unfold zlen. rewrite (L v), Ho. reflexivity.
    - rewrite R by auto. f_equal. auto. }
  destruct C62_read as (R1 & R2 & R3 & R4 & R5 & R6 & R7 & R8 & R9 & R10 & R11 & R12).
  destruct C62_written as (W1 & W2 & W3 & W4 & W5 & W6 & W7 & W8 & W9 & W10 & W11).
  repeat match goal with |- _ /\ _ => split end.
  - eapply (K _ _ 2%nat); [exact W1|exact R2|intro; apply le_bytes_length|intro; apply le_bytes_bytes| |reflexivity]. intros v Hv. cbv beta. rewrite le_value_bytes, signed_mod. apply signed_id. replace (256 ^ Z.of_nat 2 / 2) with 32768 by reflexivity. lia.
  - eapply (K _ _ 2%nat); [exact W2|exact R1|intro; apply le_bytes_length|intro; apply le_bytes_bytes| |reflexivity]. intros v Hv. rewrite le_value_bytes. apply Z.mod_small. replace (256 ^ Z.of_nat 2) with 65536 by reflexivity. lia.
  - eapply (K _ _ 4%nat); [exact W4|exact R4|intro; apply le_bytes_length|intro; apply le_bytes_bytes| |reflexivity]. intros v Hv. cbv beta. rewrite le_value_bytes, signed_mod. apply signed_id. replace (256 ^ Z.of_nat 4 / 2) with 2147483648 by reflexivity. lia.
  - eapply (K _ _ 8%nat); [exact W5|exact R5|intro; apply le_bytes_length|intro; apply le_bytes_bytes| |reflexivity]. intros v Hv. cbv beta. rewrite le_value_bytes, signed_mod. apply signed_id. replace (256 ^ Z.of_nat 8 / 2) with 9223372036854775808 by reflexivity. lia.
  - eapply (K _ _ 2%nat); [exact W8|exact R7|intro; apply be_bytes_length|intro; apply be_bytes_bytes| |reflexivity]. intros v Hv. cbv beta. rewrite be_value_bytes, signed_mod. apply signed_id. replace (256 ^ Z.of_nat 2 / 2) with 32768 by reflexivity. lia.
  - eapply (K _ _ 4%nat); [exact W10|exact R9|intro; apply be_bytes_length|intro; apply be_bytes_bytes| |reflexivity]. intros v Hv. cbv beta. rewrite be_value_bytes, signed_mod. apply signed_id. replace (256 ^ Z.of_nat 4 / 2) with 2147483648 by reflexivity. lia.
  - eapply (K _ _ 8%nat); [exact W11|exact R10|intro; apply be_bytes_length|intro; apply be_bytes_bytes| |reflexivity]. intros v Hv. cbv beta. rewrite be_value_bytes, signed_mod. apply signed_id. replace (256 ^ Z.of_nat 8 / 2) with 9223372036854775808 by reflexivity. lia.
  - eapply (K _ _ 8%nat); [exact W6|exact R11|intro; apply le_bytes_length|intro; apply le_bytes_bytes| |reflexivity]. intros v Hv. rewrite le_value_bytes. apply Z.mod_small. replace (256 ^ Z.of_nat 8) with 18446744073709551616 by reflexivity. lia.
  - eapply (K _ _ 4%nat); [exact W7|exact R12|intro; apply le_bytes_length|intro; apply le_bytes_bytes| |reflexivity]. intros v Hv. rewrite le_value_bytes. apply Z.mod_small. replace (256 ^ Z.of_nat 4) with 4294967296 by reflexivity. lia.
Qed.
Print Assumptions C62_round_trip.

(** without room for all bytes the write is undefined *)
Theorem C62_no_room f n : In (f, n) [(serializeLEInt16, 2); (serializeLEUInt16, 2); (serializeLEInt24, 3); (serializeLEInt32, 4); (serializeLEInt64, 8);
    (serializeBEInt16, 2); (serializeBEInt24, 3); (serializeBEInt32, 4); (serializeBEInt64, 8)] ->
  forall b o v, 0 <= o -> zlen b < o + n -> o + n <= 2 ^ 32 -> f b o v = UB.
Proof.
  intros HI b o v H1 H2 H3. cbn [In] in HI.
  destruct HI as [HI|[HI|[HI|[HI|[HI|[HI|[HI|[HI|[HI|[]]]]]]]]]]; injection HI as <- <-.
  - apply (out_of _ 2 [0;1]); [reflexivity|assumption|]. exists 1. cbn [In]. lia.
  - apply (out_of _ 2 [0;1]); [reflexivity|assumption|]. exists 1. cbn [In]. lia.
  - apply (out_of _ 3 [0;1;2]); [reflexivity|assumption|]. exists 2. cbn [In]. lia.
  - apply (out_of _ 4 [0;1;2;3]); [reflexivity|assumption|]. exists 3. cbn [In]. lia.
  - apply (out_of _ 8 [0;1;2;3;4;5;6;7]); [reflexivity|assumption|]. exists 7. cbn [In]. lia.
  - apply (out_of _ 2 [1;0]); [reflexivity|assumption|]. exists 1. cbn [In]. lia.
  - apply (out_of _ 3 [2;1;0]); [reflexivity|assumption|]. exists 2. cbn [In]. lia.
  - apply (out_of _ 4 [3;2;1;0]); [reflexivity|assumption|]. exists 3. cbn [In]. lia.
  - apply (out_of _ 8 [7;6;5;4;3;2;1;0]); [reflexivity|assumption|]. exists 7. cbn [In]. lia.
Qed.
Print Assumptions C62_no_room.

Example C62_ex : serializeBEInt32 [9;9;9;9;9;9] 1 (-2) = Val (4, [9;255;255;255;254;9]) /\ deserializeBEInt32 [9;255;255;255;254;9] 1 = Val (-2) /\
  serializeLEInt32 [9;9;9;9;9;9] 1 305419896 = Val (4, [9;120;86;52;18;9]).
Proof. repeat split; reflexivity. Qed.
