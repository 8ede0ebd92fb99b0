From Verif Require Import Base M_Base64 S_Base64.

Lemma push_ok cap acc b : zlen acc < cap -> push cap acc b = Val (acc ++ [b]).
Proof. intros; unfold push. destruct (zlen acc <? cap) eqn:E; [reflexivity|lia]. Qed.

Lemma cvt_digit v : 0 <= v < 64 -> rd b64cvt v = Val (rfc_digit v).
Proof.
  intros H. assert (S : forall z, 0 <= z < Z.of_nat 64 ->
    match rd b64cvt z with Val x => x =? rfc_digit z | _ => false end = true)
    by (apply sweep; vm_compute; reflexivity).
  specialize (S v ltac:(lia)). destruct (rd b64cvt v); try discriminate. f_equal; lia.
Qed.

Definition all2 (f : Z -> Z -> bool) : bool :=
  forallb (fun a => forallb (f a) (zrange 256)) (zrange 256).
Lemma all2_spec f : all2 f = true -> forall a b, byte a -> byte b -> f a b = true.
Proof.
  intros H a b Ha Hb. unfold all2 in H. rewrite forallb_forall in H.
  specialize (H a (proj2 (in_zrange 256 a) Ha)). rewrite forallb_forall in H.
  apply H. now apply in_zrange.
Qed.

(** digit values of the code, as arithmetic *)
Lemma dv1 a : byte a -> u8 (Z.land (Z.shiftr a 2) 63) = a / 4.
Proof.
  intros H. enough (E : (u8 (Z.land (Z.shiftr a 2) 63) =? a / 4) = true) by lia.
  revert a H. apply (sweep 256). vm_compute; reflexivity.
Qed.
Lemma dv2s a : byte a -> u8 (Z.land (Z.shiftl a 4) 63) = a * 16 mod 64.
Proof.
  intros H. enough (E : (u8 (Z.land (Z.shiftl a 4) 63) =? a * 16 mod 64) = true) by lia.
  revert a H. apply (sweep 256). vm_compute; reflexivity.
Qed.
Lemma dv2 a b : byte a -> byte b ->
  u8 (Z.lor (u8 (Z.land (Z.shiftl a 4) 63)) (Z.land (Z.shiftr b 4) 15)) = a * 16 mod 64 + b / 16.
Proof.
  intros Ha Hb. enough (E : (u8 (Z.lor (u8 (Z.land (Z.shiftl a 4) 63)) (Z.land (Z.shiftr b 4) 15))
     =? a * 16 mod 64 + b / 16) = true) by lia.
  revert a b Ha Hb. apply all2_spec. vm_compute; reflexivity.
Qed.
Lemma dv3s b : byte b -> u8 (Z.land (Z.shiftl b 2) 63) = b * 4 mod 64.
Proof.
  intros H. enough (E : (u8 (Z.land (Z.shiftl b 2) 63) =? b * 4 mod 64) = true) by lia.
  revert b H. apply (sweep 256). vm_compute; reflexivity.
Qed.
Lemma dv3 b c : byte b -> byte c ->
  u8 (Z.lor (u8 (Z.land (Z.shiftl b 2) 63)) (Z.land (Z.shiftr c 6) 3)) = b * 4 mod 64 + c / 64.
Proof.
  intros Ha Hb. enough (E : (u8 (Z.lor (u8 (Z.land (Z.shiftl b 2) 63)) (Z.land (Z.shiftr c 6) 3))
     =? b * 4 mod 64 + c / 64) = true) by lia.
  revert b c Ha Hb. apply all2_spec. vm_compute; reflexivity.
Qed.
Lemma dv4 c : byte c -> u8 (Z.land c 63) = c mod 64.
Proof.
  intros H. enough (E : (u8 (Z.land c 63) =? c mod 64) = true) by lia.
  revert c H. apply (sweep 256). vm_compute; reflexivity.
Qed.

Ltac Zify.zify_post_hook ::= Z.to_euclidean_division_equations.

Ltac zl := repeat rewrite ?zlen_app, ?zlen_cons, ?zlen_nil; lia.
Ltac eqs := repeat (match goal with |- ?a = ?a => reflexivity | |- Val _ = Val _ => f_equal | |- _ ++ _ = _ ++ _ => f_equal
  | |- _ :: _ = _ :: _ => f_equal | |- rfc_digit _ = rfc_digit _ => f_equal; lia | |- @eq Z _ _ => lia end).
Definition groups (n : Z) : Z := (n + 2) / 3.

Lemma enc_loop_spec fuel : forall p rest cap c3 c4 acc,
  Forall byte rest -> (length rest < fuel)%nat ->
  zlen acc + 4 * groups (zlen rest) <= cap ->
  b64_enc_loop fuel (p ++ rest) (zlen (p ++ rest)) cap (zlen p) c3 c4 acc
  = Val (acc ++ rfc_encode rest).
Proof.
  induction fuel as [|fuel IH]; intros p rest cap c3 c4 acc HB HF Hcap; [lia|].
  unfold groups in Hcap.
  cbn [b64_enc_loop]. rewrite zlen_app.
  destruct rest as [|a [|b [|c r]]].
  - rewrite zlen_nil, Z.add_0_r, Z.ltb_irrefl. cbn [rfc_encode]. now rewrite app_nil_r.
  - rewrite !zlen_cons, !zlen_nil in *. inversion_clear HB as [|? ? Ha HB'].
    destruct (zlen p <? zlen p + (1 + 0)) eqn:E0; [|lia].
    destruct (zlen p + 1 <? zlen p + (1 + 0)) eqn:E1; [lia|].
    destruct (zlen p + 2 <? zlen p + (1 + 0)) eqn:E2; [lia|].
    rewrite rd_mid. cbn [bind].
    rewrite dv1, dv2s by assumption. unfold byte in *.
    rewrite !cvt_digit by lia. cbn [bind].
    do 4 (rewrite push_ok by zl; cbn [bind]).
    destruct fuel; [cbn [length] in HF; lia|]. cbn [b64_enc_loop].
    destruct (zlen p + 3 <? zlen p + (1 + 0)) eqn:E4; [lia|].
    cbn [rfc_encode]. rewrite <- !app_assoc. cbn [app].
    replace (a * 16 / 64) with (a / 4) by lia. reflexivity.
  - rewrite !zlen_cons, !zlen_nil in *. inversion_clear HB as [|? ? Ha HB'].
    inversion_clear HB' as [|? ? Hb HB''].
    destruct (zlen p <? zlen p + (1 + (1 + 0))) eqn:E0; [|lia].
    destruct (zlen p + 1 <? zlen p + (1 + (1 + 0))) eqn:E1; [|lia].
    destruct (zlen p + 2 <? zlen p + (1 + (1 + 0))) eqn:E2; [lia|].
    rewrite rd_mid. cbn [bind].
    replace (p ++ [a; b]) with ((p ++ [a]) ++ [b]) by (rewrite <- app_assoc; reflexivity).
    rewrite (rd_mid' (p ++ [a]) b []) by (rewrite zlen_app, zlen_cons, zlen_nil; lia). cbn [bind].
    rewrite dv1, dv2, dv3s by assumption. unfold byte in *.
    rewrite !cvt_digit by lia. cbn [bind].
    do 4 (rewrite push_ok by zl; cbn [bind]).
    destruct fuel; [cbn [length] in HF; lia|]. cbn [b64_enc_loop].
    destruct (zlen p + 3 <? zlen p + (1 + (1 + 0))) eqn:E4; [lia|].
    cbn [rfc_encode]. rewrite <- !app_assoc. cbn [app].
    eqs.
  - rewrite !zlen_cons in *. inversion_clear HB as [|? ? Ha HB'].
    inversion_clear HB' as [|? ? Hb HB'']. inversion_clear HB'' as [|? ? Hc HB3].
    pose proof (zlen_nonneg r) as Hr.
    destruct (zlen p <? zlen p + (1 + (1 + (1 + zlen r)))) eqn:E0; [|lia].
    destruct (zlen p + 1 <? zlen p + (1 + (1 + (1 + zlen r)))) eqn:E1; [|lia].
    destruct (zlen p + 2 <? zlen p + (1 + (1 + (1 + zlen r)))) eqn:E2; [|lia].
    rewrite rd_mid. cbn [bind].
    replace (p ++ a :: b :: c :: r) with ((p ++ [a]) ++ b :: c :: r) by (rewrite <- app_assoc; reflexivity).
    rewrite (rd_mid' (p ++ [a]) b) by (rewrite zlen_app, zlen_cons, zlen_nil; lia). cbn [bind].
    replace ((p ++ [a]) ++ b :: c :: r) with ((p ++ [a; b]) ++ c :: r) by (rewrite <- !app_assoc; reflexivity).
    rewrite (rd_mid' (p ++ [a; b]) c) by (rewrite zlen_app, !zlen_cons, zlen_nil; lia). cbn [bind].
    rewrite dv1, dv2, dv3, dv4 by assumption. unfold byte in *.
    rewrite !cvt_digit by lia. cbn [bind].
    do 4 (rewrite push_ok by zl; cbn [bind]).
    replace ((p ++ [a; b]) ++ c :: r) with ((p ++ [a; b; c]) ++ r) by (rewrite <- !app_assoc; reflexivity).
    replace (zlen p + (1 + (1 + (1 + zlen r)))) with (zlen ((p ++ [a; b; c]) ++ r))
      by (rewrite !zlen_app, !zlen_cons, zlen_nil; lia).
    replace (zlen p + 3) with (zlen (p ++ [a; b; c])) by (rewrite !zlen_app, !zlen_cons, zlen_nil; lia).
    rewrite IH; [ | exact HB3 | cbn [length] in HF; lia
                | repeat rewrite ?zlen_app, ?zlen_cons, ?zlen_nil; unfold groups; lia].
    rewrite <- !app_assoc. cbn [app rfc_encode].
    eqs.
Qed.

Lemma list3_ind {A} (P : list A -> Prop) :
  P [] -> (forall a, P [a]) -> (forall a b, P [a; b]) ->
  (forall a b c r, P r -> P (a :: b :: c :: r)) -> forall l, P l.
Proof.
  intros H0 H1 H2 H3. fix F 1. intros [|a [|b [|c r]]]; [exact H0|apply H1|apply H2|].
  apply H3, F.
Qed.

Lemma rfc_len l : zlen (rfc_encode l) = 4 * groups (zlen l).
Proof.
  unfold groups. induction l as [|a|a b|a b c r IH] using list3_ind; cbn [rfc_encode];
    repeat rewrite ?zlen_cons, ?zlen_nil; rewrite ?IH; lia.
Qed.

Lemma encode_rfc data : Forall byte data -> b64_encode data = Val (rfc_encode data).
Proof.
  intros H. unfold b64_encode.
  pose proof (zlen_nonneg data) as Hn.
  pose proof (enc_loop_spec (S (length data)) [] data ((Z.quot (zlen data) 3 + 1) * 4) 0 0 []) as L.
  cbn [app] in L. rewrite !zlen_nil in L. rewrite L; [|exact H|lia|unfold groups; lia].
  cbn [bind]. destruct (zlen (rfc_encode data) >? (Z.quot (zlen data) 3 + 1) * 4) eqn:E; [|reflexivity].
  rewrite rfc_len in E. unfold groups in E. lia.
Qed.

(** decoding *)
Definition is_alpha (c : Z) : bool :=
  (65 <=? c) && (c <=? 90) || (97 <=? c) && (c <=? 122) || (48 <=? c) && (c <=? 57) || (c =? 43) || (c =? 47).

Lemma rcvt_digit v : 0 <= v < 64 -> rd b64rcvt (rfc_digit v) = Val v.
Proof.
  intros H. assert (S : forall z, 0 <= z < Z.of_nat 64 ->
    match rd b64rcvt (rfc_digit z) with Val x => x =? z | _ => false end = true)
    by (apply sweep; vm_compute; reflexivity).
  specialize (S v ltac:(lia)). destruct (rd b64rcvt (rfc_digit v)); try discriminate. f_equal; lia.
Qed.
Lemma rcvt_fill : rd b64rcvt 61 = Val 65. Proof. reflexivity. Qed.

Definition all64 (f : Z -> Z -> bool) : bool :=
  forallb (fun a => forallb (f a) (zrange 64)) (zrange 64).
Lemma all64_spec f : all64 f = true -> forall a b, 0 <= a < 64 -> 0 <= b < 64 -> f a b = true.
Proof.
  intros H a b Ha Hb. unfold all64 in H. rewrite forallb_forall in H.
  specialize (H a (proj2 (in_zrange 64 a) Ha)). rewrite forallb_forall in H.
  apply H. now apply in_zrange.
Qed.
Lemma db1 a b : 0 <= a < 64 -> 0 <= b < 64 ->
  u8 (Z.lor (Z.shiftl a 2) (Z.land (Z.shiftr b 4) 3)) = a * 4 + b / 16.
Proof.
  intros Ha Hb. enough (E : (u8 (Z.lor (Z.shiftl a 2) (Z.land (Z.shiftr b 4) 3)) =? a * 4 + b / 16) = true) by lia.
  revert a b Ha Hb. apply all64_spec. vm_compute; reflexivity.
Qed.
Lemma db2 a b : 0 <= a < 64 -> 0 <= b < 64 ->
  u8 (Z.lor (Z.land (Z.shiftl a 4) 240) (Z.land (Z.shiftr b 2) 15)) = a mod 16 * 16 + b / 4.
Proof.
  intros Ha Hb. enough (E : (u8 (Z.lor (Z.land (Z.shiftl a 4) 240) (Z.land (Z.shiftr b 2) 15)) =? a mod 16 * 16 + b / 4) = true) by lia.
  revert a b Ha Hb. apply all64_spec. vm_compute; reflexivity.
Qed.
Lemma db3 a b : 0 <= a < 64 -> 0 <= b < 64 ->
  u8 (Z.lor (Z.land (Z.shiftl a 6) 192) b) = a mod 4 * 64 + b.
Proof.
  intros Ha Hb. enough (E : (u8 (Z.lor (Z.land (Z.shiftl a 6) 192) b) =? a mod 4 * 64 + b) = true) by lia.
  revert a b Ha Hb. apply all64_spec. vm_compute; reflexivity.
Qed.

(** what decode makes of the standard encoding *)
Definition extra (l : list Z) : list Z := if zlen l mod 3 =? 0 then [] else [0].

Lemma extra_step a b c r : extra (a :: b :: c :: r) = extra r.
Proof. unfold extra. rewrite !zlen_cons. replace ((1 + (1 + (1 + zlen r))) mod 3) with (zlen r mod 3) by lia. reflexivity. Qed.

Lemma rd4 {A} (q : list A) w x y z r i : i = zlen q ->
  rd (q ++ w :: x :: y :: z :: r) i = Val w /\
  rd (q ++ w :: x :: y :: z :: r) (i + 1) = Val x /\
  rd (q ++ w :: x :: y :: z :: r) (i + 2) = Val y /\
  rd (q ++ w :: x :: y :: z :: r) (i + 3) = Val z.
Proof.
  intros ->. repeat split.
  - apply rd_mid.
  - replace (q ++ w :: x :: y :: z :: r) with ((q ++ [w]) ++ x :: y :: z :: r) by (now rewrite <- app_assoc).
    apply rd_mid'. rewrite zlen_app, !zlen_cons, zlen_nil. lia.
  - replace (q ++ w :: x :: y :: z :: r) with ((q ++ [w; x]) ++ y :: z :: r) by (now rewrite <- app_assoc).
    apply rd_mid'. rewrite zlen_app, !zlen_cons, zlen_nil. lia.
  - replace (q ++ w :: x :: y :: z :: r) with ((q ++ [w; x; y]) ++ z :: r) by (now rewrite <- app_assoc).
    apply rd_mid'. rewrite zlen_app, !zlen_cons, zlen_nil. lia.
Qed.

Lemma dec_loop_spec rest : Forall byte rest -> forall fuel q cap acc,
  (length rest < fuel)%nat ->
  zlen acc + 3 * groups (zlen rest) <= cap ->
  b64_dec_loop fuel (q ++ rfc_encode rest) (zlen (q ++ rfc_encode rest)) cap (zlen q) acc
  = Val (acc ++ rest ++ extra rest).
Proof.
  unfold groups.
  induction rest as [|a|a b|a b c r IH] using list3_ind; intros HB fuel q cap acc HF Hcap.
  - destruct fuel; [cbn [length] in HF; lia|]. cbn [b64_dec_loop rfc_encode]. rewrite app_nil_r, Z.ltb_irrefl.
    cbn. now rewrite app_nil_r.
  - destruct fuel; [cbn [length] in HF; lia|]. inversion_clear HB as [|? ? Ha HB'].
    cbn [b64_dec_loop rfc_encode]. unfold byte in *.
    rewrite !zlen_app, !zlen_cons, !zlen_nil in *.
    match goal with |- context[if ?b then _ else _] => destruct b eqn:E0; [|lia] end.
    edestruct (@rd4 Z q) as (-> & -> & -> & ->); [reflexivity|]. cbn [bind].
    rewrite !rcvt_digit by lia. rewrite rcvt_fill. cbn [bind].
    destruct (a * 16 mod 64 >=? 65) eqn:E1; [lia|].
    rewrite push_ok by lia. cbn [bind]. change (65 >=? 65) with true. cbv iota.
    rewrite push_ok by (rewrite zlen_app, zlen_cons, zlen_nil; lia). cbn [bind].
    rewrite db1, db2 by lia. change (extra [a]) with [0].
    rewrite <- app_assoc. cbn [app].  eqs.
  - destruct fuel; [cbn [length] in HF; lia|]. inversion_clear HB as [|? ? Ha HB'].
    inversion_clear HB' as [|? ? Hb HB''].
    cbn [b64_dec_loop rfc_encode]. unfold byte in *.
    rewrite !zlen_app, !zlen_cons, !zlen_nil in *.
    match goal with |- context[if ?b then _ else _] => destruct b eqn:E0; [|lia] end.
    edestruct (@rd4 Z q) as (-> & -> & -> & ->); [reflexivity|]. cbn [bind].
    rewrite !rcvt_digit by lia. rewrite rcvt_fill. cbn [bind].
    set (d2 := (a * 256 + b) * 4 / 64 mod 64) in *. set (d3 := (a * 256 + b) * 4 mod 64) in *.
    assert (0 <= d2 < 64) by (subst d2; lia). assert (0 <= d3 < 64) by (subst d3; lia).
    destruct (d2 >=? 65) eqn:E1; [lia|].
    rewrite push_ok by lia. cbn [bind].
    destruct (d3 >=? 65) eqn:E2; [lia|].
    rewrite push_ok by (rewrite zlen_app, zlen_cons, zlen_nil; lia). cbn [bind].
    change (65 >=? 65) with true. cbv iota.
    rewrite push_ok by (rewrite !zlen_app, !zlen_cons, zlen_nil; lia). cbn [bind].
    rewrite db1, db2, db3 by (try lia; subst d2 d3; lia). change (extra [a; b]) with [0].
    rewrite <- !app_assoc. cbn [app].  subst d2 d3. eqs.
  - destruct fuel; [cbn [length] in HF; lia|]. inversion_clear HB as [|? ? Ha HB'].
    inversion_clear HB' as [|? ? Hb HB'']. inversion_clear HB'' as [|? ? Hc HB3].
    cbn [b64_dec_loop rfc_encode]. unfold byte in *. pose proof (zlen_nonneg r).
    set (d1 := ((a * 256 + b) * 256 + c) / 262144) in *.
    set (d2 := ((a * 256 + b) * 256 + c) / 4096 mod 64) in *.
    set (d3 := ((a * 256 + b) * 256 + c) / 64 mod 64) in *.
    set (d4 := ((a * 256 + b) * 256 + c) mod 64) in *.
    assert (0 <= d1 < 64) by (subst d1; lia). assert (0 <= d2 < 64) by (subst d2; lia).
    assert (0 <= d3 < 64) by (subst d3; lia). assert (0 <= d4 < 64) by (subst d4; lia).
    rewrite !zlen_cons in Hcap.
    match goal with |- context[if ?b then _ else _] =>
      destruct b eqn:E0; [|rewrite zlen_app, !zlen_cons in E0; pose proof (zlen_nonneg (rfc_encode r)); lia] end.
    edestruct (@rd4 Z q) as (-> & -> & -> & ->); [reflexivity|]. cbn [bind].
    rewrite !rcvt_digit by lia. cbn [bind].
    destruct (d2 >=? 65) eqn:E1; [lia|]. rewrite push_ok by lia. cbn [bind].
    destruct (d3 >=? 65) eqn:E2; [lia|]. rewrite push_ok by (rewrite zlen_app, zlen_cons, zlen_nil; lia). cbn [bind].
    destruct (d4 >=? 65) eqn:E3; [lia|]. rewrite push_ok by (rewrite !zlen_app, !zlen_cons, zlen_nil; lia). cbn [bind].
    replace (q ++ rfc_digit d1 :: rfc_digit d2 :: rfc_digit d3 :: rfc_digit d4 :: rfc_encode r)
      with ((q ++ [rfc_digit d1; rfc_digit d2; rfc_digit d3; rfc_digit d4]) ++ rfc_encode r)
      by (rewrite <- app_assoc; reflexivity).
    replace (zlen q + 4) with (zlen (q ++ [rfc_digit d1; rfc_digit d2; rfc_digit d3; rfc_digit d4]))
      by (rewrite zlen_app, !zlen_cons, zlen_nil; lia).
    rewrite IH; [ | exact HB3 | cbn [length] in HF; lia
                | repeat rewrite ?zlen_app, ?zlen_cons, ?zlen_nil; lia ].
    rewrite db1, db2, db3 by lia. rewrite extra_step. rewrite <- !app_assoc. cbn [app]. do 2 f_equal.
    subst d1 d2 d3 d4. f_equal; [lia|]. f_equal; [lia|]. f_equal. lia.
Qed.

Lemma decode_rfc data : Forall byte data -> 4 * groups (zlen data) * 3 < 2147483648 ->
  b64_decode (rfc_encode data) = Val (data ++ extra data).
Proof.
  intros HB HL. unfold b64_decode. pose proof (zlen_nonneg data) as Hn.
  pose proof (rfc_len data) as HR. assert (HG : 0 <= groups (zlen data)) by (unfold groups; lia).
  rewrite u32_id, s32_id by lia. unfold chk32.
  destruct (in_s32 (zlen (rfc_encode data) * 3)) eqn:E; [|unfold in_s32 in E; lia].
  cbn [bind]. rewrite u32_id by lia.
  pose proof (dec_loop_spec data HB (S (length (rfc_encode data))) [] (Z.quot (zlen (rfc_encode data) * 3) 4) []) as L.
  cbn [app] in L. rewrite !zlen_nil in L. apply L.
  - unfold zlen, groups in HR. lia.
  - unfold groups in *. lia.
Qed.

(** decode on arbitrary data *)
Lemma rcvt_byte x : byte x -> exists v, rd b64rcvt x = Val v /\ 0 <= v < 67.
Proof.
  intros H. assert (S : match rd b64rcvt x with Val v => (0 <=? v) && (v <? 67) | _ => false end = true)
    by (revert x H; apply (sweep 256); vm_compute; reflexivity).
  destruct (rd b64rcvt x); try discriminate. exists a. split; [reflexivity|lia].
Qed.

Lemma list4_ind {A} (P : list A -> Prop) :
  P [] -> (forall a, P [a]) -> (forall a b, P [a; b]) -> (forall a b c, P [a; b; c]) ->
  (forall a b c d r, P r -> P (a :: b :: c :: d :: r)) -> forall l, P l.
Proof.
  intros H0 H1 H2 H3 H4. fix F 1. intros [|a [|b [|c [|d r]]]]; [exact H0|apply H1|apply H2|apply H3|].
  apply H4, F.
Qed.

Lemma dec_loop_safe rest : Forall byte rest -> zlen rest mod 4 = 0 -> forall fuel q cap acc,
  (length rest < fuel)%nat -> zlen acc + 3 * (zlen rest / 4) <= cap ->
  exists r, b64_dec_loop fuel (q ++ rest) (zlen (q ++ rest)) cap (zlen q) acc = Val r
    /\ zlen acc <= zlen r <= cap.
Proof.
  induction rest as [|a|a b|a b c|a b c d r IH] using list4_ind;
    repeat rewrite zlen_cons; rewrite ?zlen_nil; intros HB HM fuel q cap acc HF Hcap;
    [| discriminate HM | discriminate HM | discriminate HM |].
  - destruct fuel; [cbn [length] in HF; lia|]. cbn [b64_dec_loop]. rewrite app_nil_r, Z.ltb_irrefl.
    change (3 * (zlen (@nil Z) / 4)) with 0 in Hcap. exists acc. split; [reflexivity|lia].
  - destruct fuel; [cbn [length] in HF; lia|]. cbn [b64_dec_loop]. pose proof (zlen_nonneg r).
    inversion_clear HB as [|? ? Ha H0]. inversion_clear H0 as [|? ? Hb H1].
    inversion_clear H1 as [|? ? Hc H2]. inversion_clear H2 as [|? ? Hd H3].
    match goal with |- context[if ?b then _ else _] => destruct b eqn:E0;
       [|rewrite zlen_app, !zlen_cons in E0; lia] end.
    edestruct (@rd4 Z q) as (-> & -> & -> & ->); [reflexivity|]. cbn [bind].
    destruct (rcvt_byte a Ha) as (v1 & -> & ?). destruct (rcvt_byte b Hb) as (v2 & -> & ?).
    destruct (rcvt_byte c Hc) as (v3 & -> & ?). destruct (rcvt_byte d Hd) as (v4 & -> & ?). cbn [bind].
    rewrite push_ok by lia. cbn [bind].
    destruct (v2 >=? 65); [eexists; split; [reflexivity|zl]|].
    rewrite push_ok by zl. cbn [bind].
    destruct (v3 >=? 65); [eexists; split; [reflexivity|zl]|].
    rewrite push_ok by zl. cbn [bind].
    destruct (v4 >=? 65); [eexists; split; [reflexivity|zl]|].
    replace (q ++ a :: b :: c :: d :: r) with ((q ++ [a; b; c; d]) ++ r) by (rewrite <- app_assoc; reflexivity).
    replace (zlen q + 4) with (zlen (q ++ [a; b; c; d])) by zl.
    match goal with |- context[b64_dec_loop _ _ _ _ _ ?acc'] =>
      edestruct (IH H3 ltac:(lia) fuel (q ++ [a; b; c; d]) cap acc') as (x & -> & Hx) end;
      [cbn [length] in HF; lia|zl|].
    exists x. split; [reflexivity|]. revert Hx. zl.
Qed.

Lemma decode_safe data : Forall byte data -> zlen data mod 4 = 0 -> zlen data * 3 < 2147483648 ->
  exists r, b64_decode data = Val r /\ zlen r <= zlen data * 3 / 4.
Proof.
  intros HB HM HL. unfold b64_decode. pose proof (zlen_nonneg data).
  rewrite u32_id, s32_id by lia. unfold chk32.
  destruct (in_s32 (zlen data * 3)) eqn:E; [|unfold in_s32 in E; lia].
  cbn [bind]. rewrite u32_id by lia.
  edestruct (dec_loop_safe data HB HM (S (length data)) [] (Z.quot (zlen data * 3) 4) []) as (r & Hr & Hl);
    [lia|rewrite zlen_nil; lia|].
  cbn [app] in Hr. rewrite zlen_nil in Hr. exists r. split; [exact Hr|lia].
Qed.

(** alphabet-only data of a length that is no multiple of four: the last group is read over the end *)
Lemma rcvt_alpha x : is_alpha x = true -> exists v, rd b64rcvt x = Val v /\ 0 <= v < 64.
Proof.
  intros H. assert (Hx : byte x) by (unfold is_alpha in H; unfold byte; lia).
  assert (S : (negb (is_alpha x) || match rd b64rcvt x with Val v => (0 <=? v) && (v <? 64) | _ => false end) = true)
    by (clear H; revert x Hx; apply (sweep 256); vm_compute; reflexivity).
  rewrite H in S. cbn [negb orb] in S.
  destruct (rd b64rcvt x); try discriminate. exists a. split; [reflexivity|lia].
Qed.
Lemma dec_loop_overread rest : Forall (fun x => is_alpha x = true) rest -> zlen rest mod 4 <> 0 -> forall fuel q cap acc,
  (length rest < fuel)%nat -> zlen acc + 3 * (zlen rest / 4) <= cap ->
  b64_dec_loop fuel (q ++ rest) (zlen (q ++ rest)) cap (zlen q) acc = UB.
Proof.
  induction rest as [|a|a b|a b c|a b c d r IH] using list4_ind;
    repeat rewrite zlen_cons; rewrite ?zlen_nil; intros HB HM fuel q cap acc HF Hcap.
  - cbn in HM; lia.
  - destruct fuel; [cbn [length] in HF; lia|]. cbn [b64_dec_loop].
    inversion_clear HB as [|? ? Ha H0].
    match goal with |- context[if ?b then _ else _] => destruct b eqn:E0;
       [|repeat rewrite ?zlen_app, ?zlen_cons, ?zlen_nil in E0; lia] end.
    rewrite rd_mid. cbn [bind]. destruct (rcvt_alpha a Ha) as (v1 & -> & ?). cbn [bind].
    rewrite rd_out by (right; zl). reflexivity.
  - destruct fuel; [cbn [length] in HF; lia|]. cbn [b64_dec_loop].
    inversion_clear HB as [|? ? Ha H0]. inversion_clear H0 as [|? ? Hb H1].
    match goal with |- context[if ?b then _ else _] => destruct b eqn:E0;
       [|repeat rewrite ?zlen_app, ?zlen_cons, ?zlen_nil in E0; lia] end.
    rewrite rd_mid. cbn [bind]. destruct (rcvt_alpha a Ha) as (v1 & -> & ?). cbn [bind].
    replace (q ++ [a; b]) with ((q ++ [a]) ++ [b]) by (rewrite <- app_assoc; reflexivity).
    rewrite (rd_mid' (q ++ [a])) by zl. cbn [bind]. destruct (rcvt_alpha b Hb) as (v2 & -> & ?). cbn [bind].
    rewrite rd_out by (right; zl). reflexivity.
  - destruct fuel; [cbn [length] in HF; lia|]. cbn [b64_dec_loop].
    inversion_clear HB as [|? ? Ha H0]. inversion_clear H0 as [|? ? Hb H1]. inversion_clear H1 as [|? ? Hc H2].
    match goal with |- context[if ?b then _ else _] => destruct b eqn:E0;
       [|repeat rewrite ?zlen_app, ?zlen_cons, ?zlen_nil in E0; lia] end.
    rewrite rd_mid. cbn [bind]. destruct (rcvt_alpha a Ha) as (v1 & -> & ?). cbn [bind].
    replace (q ++ [a; b; c]) with ((q ++ [a]) ++ [b; c]) by (rewrite <- app_assoc; reflexivity).
    rewrite (rd_mid' (q ++ [a])) by zl. cbn [bind]. destruct (rcvt_alpha b Hb) as (v2 & -> & ?). cbn [bind].
    replace ((q ++ [a]) ++ [b; c]) with ((q ++ [a; b]) ++ [c]) by (rewrite <- !app_assoc; reflexivity).
    rewrite (rd_mid' (q ++ [a; b])) by zl. cbn [bind]. destruct (rcvt_alpha c Hc) as (v3 & -> & ?). cbn [bind].
    rewrite rd_out by (right; zl). reflexivity.
  - destruct fuel; [cbn [length] in HF; lia|]. cbn [b64_dec_loop]. pose proof (zlen_nonneg r).
    inversion_clear HB as [|? ? Ha H0]. inversion_clear H0 as [|? ? Hb H1].
    inversion_clear H1 as [|? ? Hc H2]. inversion_clear H2 as [|? ? Hd H3].
    match goal with |- context[if ?b then _ else _] => destruct b eqn:E0;
       [|repeat rewrite ?zlen_app, ?zlen_cons, ?zlen_nil in E0; lia] end.
    edestruct (@rd4 Z q) as (-> & -> & -> & ->); [reflexivity|]. cbn [bind].
    destruct (rcvt_alpha a Ha) as (v1 & -> & ?). destruct (rcvt_alpha b Hb) as (v2 & -> & ?).
    destruct (rcvt_alpha c Hc) as (v3 & -> & ?). destruct (rcvt_alpha d Hd) as (v4 & -> & ?). cbn [bind].
    rewrite push_ok by lia. cbn [bind].
    destruct (v2 >=? 65) eqn:?; [lia|].
    rewrite push_ok by zl. cbn [bind].
    destruct (v3 >=? 65) eqn:?; [lia|].
    rewrite push_ok by zl. cbn [bind].
    destruct (v4 >=? 65) eqn:?; [lia|].
    replace (q ++ a :: b :: c :: d :: r) with ((q ++ [a; b; c; d]) ++ r) by (rewrite <- app_assoc; reflexivity).
    replace (zlen q + 4) with (zlen (q ++ [a; b; c; d])) by zl.
    apply IH; [exact H3|lia|cbn [length] in HF; lia|zl].
Qed.
Lemma decode_overread data : Forall (fun x => is_alpha x = true) data -> zlen data mod 4 <> 0 ->
  zlen data * 3 < 2147483648 -> b64_decode data = UB.
Proof.
  intros HB HM HL. unfold b64_decode. pose proof (zlen_nonneg data).
  rewrite u32_id, s32_id by lia. unfold chk32.
  destruct (in_s32 (zlen data * 3)) eqn:E; [|unfold in_s32 in E; lia].
  cbn [bind]. rewrite u32_id by lia.
  pose proof (dec_loop_overread data HB HM (S (length data)) [] (Z.quot (zlen data * 3) 4) []) as L.
  cbn [app] in L. rewrite zlen_nil in L. apply L; lia.
Qed.
