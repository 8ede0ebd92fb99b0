From Verif Require Import Base M_Utf8 M_String S_Utf8 L_Utf8 P_Utf8 S_String S_Integer S_Arg L_String L_String2 L_String3 L_Integer.
Ltac Zify.zify_post_hook ::= Z.to_euclidean_division_equations.

Lemma marker_range t i n w : marker_at t i = Some (n, w) -> 0 <= i < zlen t - 1 /\ 0 <= n < 100 /\ lget t i = Some 37.
Proof.
  unfold marker_at. destruct (lget t i) as [p|] eqn:E1; [|discriminate]. destruct (lget t (i + 1)) as [d|] eqn:E2; [|discriminate]. pose proof (lget_some_range _ _ _ E1). pose proof (lget_some_range _ _ _ E2).
  destruct ((p =? 37) && digit_char d) eqn:D; [|discriminate]. apply andb_true_iff in D as [D0 D]. apply Z.eqb_eq in D0. subst p. unfold digit_char in *. destruct (lget t (i + 2)) as [e|].
  - destruct ((48 <=? e) && (e <=? 57)) eqn:D2; intros E; (split; [lia|]); (split; [|reflexivity]); pose proof (f_equal (fun o : option (Z * Z) => match o with Some (a, _) => a | None => 0 end) E) as E'; cbv beta iota in E'; lia.
  - intros E; injection E as <- _. split; [lia|]. split; [lia|]. reflexivity.
Qed.
Lemma arg_loop_ok t s : repr s t -> forall k i f se lo, 0 <= i -> i + Z.of_nat k = Z.max i (zlen t - 1) ->
  exists f' se', arg_loop s i f se lo k = Val (f', se') /\
   ((f' = f /\ se' = se /\ forall j n w, i <= j -> marker_at t j = Some (n, w) -> lo <= n) \/
    (exists n w, i <= f' /\ marker_at t f' = Some (n, w) /\ se' = f' + w /\ n < lo /\ forall j n' w', i <= j -> marker_at t j = Some (n', w') -> n < n' \/ (n = n' /\ f' <= j))).
Proof.
  intros H. induction k as [|k IH]; intros i f se lo Hi Hk; cbn [arg_loop].
  - exists f, se. split; [reflexivity|]. left. split; [reflexivity|]. split; [reflexivity|]. intros j n w Hj M. apply marker_range in M. lia.
  - assert (Hi2 : i + 1 < zlen t) by lia. assert (Hk' : i + 1 + Z.of_nat k = Z.max (i + 1) (zlen t - 1)) by lia.
    destruct (lget_range t i ltac:(lia)) as [c Ec]. destruct (lget_range t (i + 1) ltac:(lia)) as [d Ed].
    rewrite (char_at_ok s t i H), Ec. cbn [bind]. rewrite (char_at_ok s t (i + 1) H), Ed.
    assert (Ls : len s = zlen t) by (destruct H as (? & _ & L); exact L).
    assert (Hit : (if c =? 37 then let* d0 := Val d in Val (is_digit d0) else Val false) = Val ((c =? 37) && digit_char d)) by (destruct (c =? 37); reflexivity).
    rewrite Hit. cbn [bind]. destruct ((c =? 37) && digit_char d) eqn:D.
    + assert (Dv : digit_value d = d - 48). { unfold digit_value. replace (is_digit d) with (digit_char d) by reflexivity. apply andb_true_iff in D as [_ ->]. reflexivity. }
      set (n := match lget t (i + 2) with Some e => if digit_char e then 10 * (d - 48) + (e - 48) else d - 48 | None => d - 48 end).
      assert (M : marker_at t i = Some (n, if n <? 10 then 2 else 3)). { unfold marker_at. rewrite Ec, Ed, D. reflexivity. }
      assert (En : (if i + 2 <? len s then let* e := char_at s (i + 2) in Val (if is_digit e then digit_value d * 10 + digit_value e else digit_value d) else Val (digit_value d)) = Val n).
      { rewrite Ls, Dv. unfold n. destruct (Z.ltb_spec (i + 2) (zlen t)) as [L|L].
        - rewrite (char_at_ok s t (i + 2) H). destruct (lget_range t (i + 2) ltac:(lia)) as [e ->]. cbn [bind]. unfold digit_value. change (is_digit e) with (digit_char e). destruct (digit_char e); f_equal; lia.
        - rewrite (lget_out t (i + 2)) by lia. reflexivity. }
      rewrite En. cbn [bind]. destruct (Z.ltb_spec n lo) as [Hlo|Hlo].
      * destruct (IH (i + 1) i (if n >? 9 then i + 3 else i + 2) n ltac:(lia) Hk') as (f' & se' & -> & D2). exists f', se'. split; [reflexivity|]. right. destruct D2 as [(-> & -> & N)|(n2 & w2 & G1 & G2 & G3 & G4 & G5)].
        -- exists n, (if n <? 10 then 2 else 3). split; [lia|]. split; [exact M|]. split; [destruct (Z.ltb_spec n 10), (Z.gtb_spec n 9); lia|]. split; [exact Hlo|].
           intros j n' w' Hj Mj. destruct (Z.eq_dec j i) as [->|]; [rewrite M in Mj; injection Mj as <- _; lia|]. specialize (N j n' w' ltac:(lia) Mj). lia.
        -- exists n2, w2. split; [lia|]. split; [exact G2|]. split; [exact G3|]. split; [lia|]. intros j n' w' Hj Mj. destruct (Z.eq_dec j i) as [->|]; [rewrite M in Mj; injection Mj as <- _; lia|]. apply (G5 j n' w'); [lia|exact Mj].
      * destruct (IH (i + 1) f se lo ltac:(lia) Hk') as (f' & se' & -> & D2). exists f', se'. split; [reflexivity|]. destruct D2 as [(-> & -> & N)|(n2 & w2 & G1 & G2 & G3 & G4 & G5)]; [left|right].
        -- split; [reflexivity|]. split; [reflexivity|]. intros j n' w' Hj Mj. destruct (Z.eq_dec j i) as [->|]; [rewrite M in Mj; injection Mj as <- _; lia|]. apply (N j n' w'); [lia|exact Mj].
        -- exists n2, w2. split; [lia|]. split; [exact G2|]. split; [exact G3|]. split; [exact G4|]. intros j n' w' Hj Mj. destruct (Z.eq_dec j i) as [->|]; [rewrite M in Mj; injection Mj as <- _; lia|]. apply (G5 j n' w'); [lia|exact Mj].
    + assert (M : marker_at t i = None) by (unfold marker_at; rewrite Ec, Ed, D; reflexivity).
      destruct (IH (i + 1) f se lo ltac:(lia) Hk') as (f' & se' & -> & D2). exists f', se'. split; [reflexivity|]. destruct D2 as [(-> & -> & N)|(n2 & w2 & G1 & G2 & G3 & G4 & G5)]; [left|right].
      * split; [reflexivity|]. split; [reflexivity|]. intros j n' w' Hj Mj. destruct (Z.eq_dec j i) as [->|]; [congruence|]. apply (N j n' w'); [lia|exact Mj].
      * exists n2, w2. split; [lia|]. split; [exact G2|]. split; [exact G3|]. split; [exact G4|]. intros j n' w' Hj Mj. destruct (Z.eq_dec j i) as [->|]; [congruence|]. apply (G5 j n' w'); [lia|exact Mj].
Qed.
Lemma arg_indices_ok s t : repr s t ->
  (~ In 37 t -> arg_indices s = Val None) /\
  (forall i n w, best_marker t i n w -> arg_indices s = Val (Some (i, i + w))) /\
  (In 37 t -> (forall i, marker_at t i = None) -> arg_indices s = Val (Some (-1, -1))).
Proof.
  intros H. assert (Ls : len s = zlen t) by (destruct H as (? & _ & L); exact L). unfold arg_indices. destruct (index_of_char_ok s t 37 0 H) as (r & -> & F). cbn [bind]. change (Z.max 0 0) with 0 in F.
  pose proof (zlen_nonneg t). rewrite Ls.
  destruct (arg_loop_ok t s H (Z.to_nat (zlen t - 1)) 0 (-1) (-1) 100 ltac:(lia) ltac:(lia)) as (f & se & E & D).
  assert (In37 : In 37 t -> r <? 0 = false). { intros I. apply In_lget in I as (i & Hi & Gi). destruct F as [(R & _ & _)|(_ & N)]; [lia|]. exfalso. apply (N i Hi Gi). }
  split; [|split].
  - intros N. destruct F as [(R & V & _)|(-> & _)]; [|reflexivity]. exfalso. apply N. eapply lget_In; eauto.
  - intros i n w (M & B). pose proof (marker_range _ _ _ _ M) as (R1 & R2 & R3). rewrite In37 by (eapply lget_In; eauto). rewrite E. cbn [bind]. destruct D as [(-> & -> & N)|(n2 & w2 & G1 & G2 & G3 & G4 & G5)].
    + specialize (N i n w ltac:(lia) M). lia.
    + assert (f = i). { specialize (B f n2 w2 G2). specialize (G5 i n w ltac:(lia) M). lia. } subst f. rewrite M in G2. injection G2 as <- <-. now rewrite G3.
  - intros I N. rewrite In37 by exact I. rewrite E. cbn [bind]. destruct D as [(-> & -> & _)|(n2 & w2 & _ & G2 & _)]; [reflexivity|]. rewrite N in G2. discriminate.
Qed.
Lemma fill_loop_ok c k : forall s t, repr s t -> exists s', fill_loop s c k = Val s' /\ repr s' (t ++ repeat c k).
Proof.
  induction k as [|k IH]; intros s t H; cbn [fill_loop repeat]; [exists s; rewrite app_nil_r; auto|]. destruct (append_char_ok s t c H) as (s1 & -> & H1 & _). cbn [bind].
  destruct (IH s1 _ H1) as (s' & E & R). exists s'. rewrite <- app_assoc in R. auto.
Qed.
Lemma substring_any s t b e : repr s t -> exists s', substring s b e = Val s' /\ repr s' (ztake (Z.min (zlen t) (Z.max (Z.max 0 b) e) - Z.max 0 b) (zdrop (Z.max 0 b) t)).
Proof. intros H. destruct (substring_ok s t b e H) as (s' & E & R & _). eauto. Qed.
(** the common body, for the value appended by [app] *)
Lemma arg_gen s t v f se width fillc (appv : jstr -> out jstr) n : repr s t -> -9223372036854775808 < width <= 9223372036854775807 -> n = zlen v ->
  (forall x u, repr x u -> exists x', appv x = Val x' /\ repr x' (u ++ v)) ->
  0 <= f <= se -> se <= zlen t \/ (f = 0 /\ se = 0) ->
  exists s', (let* res := substring s 0 f in
    let* res := (if width >? 0 then fill_loop res fillc (Z.to_nat (width - n)) else Val res) in
    let* res := appv res in
    let* res := (if width <? 0 then let* w := chk64 (- width) in fill_loop res fillc (Z.to_nat (w - n)) else Val res) in
    let* rest := substring_from s se in
    append res rest) = Val s' /\ repr s' (ztake f t ++ padded v width fillc ++ zdrop se t).
Proof.
  intros H Hw -> Ha Hf Hse. pose proof (zlen_nonneg t). assert (Hf2 : f <= zlen t) by lia. assert (Hse2 : se <= zlen t) by lia. clear Hse. destruct (substring_any s t 0 f H) as (p & -> & Hp). cbn [bind]. change (Z.max 0 0) with 0 in Hp.
  replace (Z.min (zlen t) (Z.max 0 f) - 0) with f in Hp by lia. rewrite zdrop_0 in Hp by lia. unfold padded.
  assert (K1 : exists p1, (if width >? 0 then fill_loop p fillc (Z.to_nat (width - zlen v)) else Val p) = Val p1 /\ repr p1 (ztake f t ++ repeat fillc (if width >? 0 then Z.to_nat (width - zlen v) else 0))).
  { destruct (width >? 0); [now apply fill_loop_ok|]. exists p. cbn [repeat]. rewrite app_nil_r. auto. }
  destruct K1 as (p1 & -> & H1). cbn [bind]. destruct (Ha p1 _ H1) as (p2 & -> & H2). cbn [bind].
  assert (K2 : exists p3, (if width <? 0 then let* w := chk64 (- width) in fill_loop p2 fillc (Z.to_nat (w - zlen v)) else Val p2) = Val p3 /\
    repr p3 (((ztake f t ++ repeat fillc (if width >? 0 then Z.to_nat (width - zlen v) else 0)) ++ v) ++ repeat fillc (if width <? 0 then Z.to_nat (- width - zlen v) else 0))).
  { destruct (Z.ltb_spec width 0); [|exists p2; cbn [repeat]; rewrite app_nil_r; auto]. unfold chk64, in_s64. replace ((-9223372036854775808 <=? - width) && (- width <=? 9223372036854775807)) with true by lia. cbn [bind]. now apply fill_loop_ok. }
  destruct K2 as (p3 & -> & H3). cbn [bind]. unfold substring_from. assert (Ls : len s = zlen t) by (destruct H as (? & _ & L); exact L). rewrite Ls.
  destruct (substring_any s t se (zlen t) H) as (q & -> & Hq). cbn [bind]. replace (Z.max 0 se) with se in Hq by lia. replace (Z.min (zlen t) (Z.max se (zlen t)) - se) with (zlen t - se) in Hq by lia.
  rewrite (ztake_all (zdrop se t)) in Hq by (rewrite zlen_zdrop; lia). destruct (append_ok p3 _ q _ H3 Hq) as (s' & E & R). exists s'. split; [exact E|]. rewrite <- !app_assoc in *. exact R.
Qed.
(** the same body when no marker was found: the value is put in front *)
Lemma arg_gen_none s t v width fillc (appv : jstr -> out jstr) n : repr s t -> -9223372036854775808 < width <= 9223372036854775807 -> n = zlen v ->
  (forall x u, repr x u -> exists x', appv x = Val x' /\ repr x' (u ++ v)) ->
  exists s', (let* res := substring s 0 (-1) in
    let* res := (if width >? 0 then fill_loop res fillc (Z.to_nat (width - n)) else Val res) in
    let* res := appv res in
    let* res := (if width <? 0 then let* w := chk64 (- width) in fill_loop res fillc (Z.to_nat (w - n)) else Val res) in
    let* rest := substring_from s (-1) in
    append res rest) = Val s' /\ repr s' (padded v width fillc ++ t).
Proof.
  intros H Hw Hn Ha. assert (E1 : substring s 0 (-1) = substring s 0 0) by reflexivity. assert (E2 : substring_from s (-1) = substring_from s 0) by reflexivity. rewrite E1, E2.
  pose proof (zlen_nonneg t). destruct (arg_gen s t v 0 0 width fillc appv n H Hw Hn Ha ltac:(lia) ltac:(auto)) as (s' & E & R). exists s'. split; [exact E|]. rewrite ztake_0, zdrop_0 in R by lia. exact R.
Qed.

(** * URL coding *)
Lemma url_encode_loop_ok t2 : forall t1 s r u k, repr s (t1 ++ t2) -> repr r u -> k = length t2 ->
  exists r', url_encode_loop s r (zlen t1) k = Val r' /\ repr r' (u ++ flat_map url_char t2).
Proof.
  induction t2 as [|c t2 IH]; intros t1 s r u k H Hr Hk; subst k; cbn [length url_encode_loop flat_map]; [exists r; rewrite app_nil_r; auto|].
  rewrite (char_at_ok s _ _ H), lget_mid. cbn [bind].
  assert (K : exists r1, (if c =? 32 then append_char r 43
               else if c =? 37 then let* r := append_char r 37 in let* r := append_char r 50 in append_char r 53
               else if c =? 43 then let* r := append_char r 37 in let* r := append_char r 50 in append_char r 66
               else append_char r c) = Val r1 /\ repr r1 (u ++ url_char c)).
  { unfold url_char. assert (A1 : forall d, exists r1, append_char r d = Val r1 /\ repr r1 (u ++ [d])) by (intros d; destruct (append_char_ok r u d Hr) as (r1 & E & R & _); eauto).
    assert (A3 : forall d e f, exists r1, (let* r := append_char r d in let* r := append_char r e in append_char r f) = Val r1 /\ repr r1 (u ++ [d; e; f])).
    { intros d e f. destruct (append_char_ok r u d Hr) as (r1 & -> & R1 & _). cbn [bind]. destruct (append_char_ok r1 _ e R1) as (r2 & -> & R2 & _). cbn [bind]. destruct (append_char_ok r2 _ f R2) as (r3 & -> & R3 & _). exists r3. rewrite <- !app_assoc in R3. auto. }
    destruct (c =? 32); [apply A1|]. destruct (c =? 37); [apply A3|]. destruct (c =? 43); [apply A3|apply A1]. }
  destruct K as (r1 & -> & H1). cbn [bind]. replace (t1 ++ c :: t2) with ((t1 ++ [c]) ++ t2) in H by (rewrite <- app_assoc; reflexivity). replace (zlen t1 + 1) with (zlen (t1 ++ [c])) by zl.
  destruct (IH (t1 ++ [c]) s r1 _ (length t2) H H1 eq_refl) as (r' & E & R). exists r'. rewrite <- app_assoc in R. auto.
Qed.
(** decoding what was encoded, character by character *)
Lemma url_decode_loop_ok t : forall t1 s done z fuel, repr s (t1 ++ flat_map url_char t) -> Forall (fun c => 0 <= c < 256) t -> zlen (t1 ++ flat_map url_char t) < 4294967290 ->
  (length t < fuel)%nat -> zlen done + zlen t <= zlen t1 + zlen (flat_map url_char t) -> zlen done + zlen t < zlen done + zlen z ->
  exists z', url_decode_loop s (done ++ z) (zlen done) (zlen t1) fuel = Val ((done ++ t) ++ z', zlen (done ++ t)) /\ zlen z' = zlen z - zlen t.
Proof.
  induction t as [|c t IH]; intros t1 s done z fuel H F Hl Hf Hd Hz; (destruct fuel as [|fuel]; [lia|]); cbn [url_decode_loop].
  - cbn [flat_map] in *. rewrite app_nil_r in *. assert (Ls : len s = zlen t1) by (destruct H as (? & _ & L); exact L). rewrite Ls. replace (zlen t1 <? zlen t1) with false by lia. exists z. change (zlen (@nil Z)) with 0. split; [reflexivity|lia].
  - inversion F as [|? ? F1 F2]; subst. cbn [flat_map length] in *. set (rest := flat_map url_char t) in *. assert (Ls : len s = zlen (t1 ++ url_char c ++ rest)) by (destruct H as (? & _ & L); exact L).
    pose proof (zlen_nonneg t1). pose proof (zlen_nonneg rest). pose proof (zlen_nonneg done). pose proof (zlen_nonneg t).
    destruct z as [|z0 z]; [rewrite zlen_cons in Hz; change (zlen (@nil Z)) with 0 in Hz; lia|]. rewrite !zlen_cons in *. rewrite !zlen_app in Hl. rewrite ?zlen_app in Hd.
    assert (Step : forall (w : Z), w = zlen (url_char c) -> 1 <= w <= 3 ->
      url_decode_loop s ((done ++ [c]) ++ z) (u32 (zlen done + 1)) (u32 (zlen t1 + w)) fuel =
      url_decode_loop s ((done ++ [c]) ++ z) (zlen (done ++ [c])) (zlen (t1 ++ url_char c)) fuel).
    { intros w Ew Rw. assert (zlen done < 4294967290) by lia. rewrite !u32_id by lia. f_equal; [zl|rewrite zlen_app; lia]. }
    assert (Rec : exists z', url_decode_loop s ((done ++ [c]) ++ z) (zlen (done ++ [c])) (zlen (t1 ++ url_char c)) fuel = Val ((done ++ c :: t) ++ z', zlen (done ++ c :: t)) /\ zlen z' = 1 + zlen z - (1 + zlen t)).
    { assert (H' : repr s ((t1 ++ url_char c) ++ rest)) by (rewrite <- app_assoc; exact H).
      assert (U1 : 1 <= zlen (url_char c)). { unfold url_char. destruct (c =? 32); [cbn; lia|]. destruct (c =? 37); [cbn; lia|]. destruct (c =? 43); cbn; lia. }
      destruct (IH (t1 ++ url_char c) s (done ++ [c]) z fuel H' F2) as (z' & E & L); [fold rest; rewrite !zlen_app; lia|lia| |zl|].
      - fold rest. rewrite !zlen_app. change (zlen [c]) with 1. lia.
      - exists z'. split; [|lia]. rewrite E. rewrite <- !app_assoc. reflexivity. }
    assert (Lt : (zlen t1 <? len s) = true). { rewrite Ls, !zlen_app. assert (1 <= zlen (url_char c)). { unfold url_char. destruct (c =? 32); [cbn; lia|]. destruct (c =? 37); [cbn; lia|]. destruct (c =? 43); cbn; lia. } lia. }
    rewrite Lt. rewrite (char_at_ok s _ _ H). unfold url_char in *. destruct (Z.eqb_spec c 32) as [->|N32]; [|destruct (Z.eqb_spec c 37) as [->|N37]; [|destruct (Z.eqb_spec c 43) as [->|N43]]].
    + cbn [app]. rewrite lget_mid. cbn [bind Z.eqb Pos.eqb]. rewrite wr_mid by reflexivity. cbn [bind].
      replace (done ++ 32 :: z) with ((done ++ [32]) ++ z) by (rewrite <- app_assoc; reflexivity). rewrite (Step 1) by (auto; lia). exact Rec.
    + cbn [app]. rewrite lget_mid. cbn [bind Z.eqb Pos.eqb].
      assert (zlen t1 + 3 < 4294967290) by (change (zlen [37; 50; 53]) with 3 in *; lia). rewrite !u32_id by lia.
      destruct (substring_mid s (t1 ++ [37]) [50; 53] rest) as (h & Eh & Rh). { rewrite <- app_assoc. exact H. }
      replace (zlen (t1 ++ [37])) with (zlen t1 + 1) in Eh by zl. change (zlen [50; 53]) with 2 in Eh. replace (zlen t1 + 1 + 2) with (zlen t1 + 3) in Eh by lia. rewrite Eh. cbn [bind].
      rewrite (from_hex_ok h _ Rh) by (cbn; lia). change (s64 (pos_value 16 (map hex_value [50; 53]) mod 18446744073709551616)) with 37. cbn [bind]. change (u8 37) with 37. rewrite wr_mid by reflexivity. cbn [bind].
      replace (done ++ 37 :: z) with ((done ++ [37]) ++ z) by (rewrite <- app_assoc; reflexivity). rewrite <- (Step 3) in Rec by (auto; lia). rewrite !u32_id in Rec by lia. exact Rec.
    + cbn [app]. rewrite lget_mid. cbn [bind Z.eqb Pos.eqb].
      assert (zlen t1 + 3 < 4294967290) by (change (zlen [37; 50; 66]) with 3 in *; lia). rewrite !u32_id by lia.
      destruct (substring_mid s (t1 ++ [37]) [50; 66] rest) as (h & Eh & Rh). { rewrite <- app_assoc. exact H. }
      replace (zlen (t1 ++ [37])) with (zlen t1 + 1) in Eh by zl. change (zlen [50; 66]) with 2 in Eh. replace (zlen t1 + 1 + 2) with (zlen t1 + 3) in Eh by lia. rewrite Eh. cbn [bind].
      rewrite (from_hex_ok h _ Rh) by (cbn; lia). change (s64 (pos_value 16 (map hex_value [50; 66]) mod 18446744073709551616)) with 43. cbn [bind]. change (u8 43) with 43. rewrite wr_mid by reflexivity. cbn [bind].
      replace (done ++ 43 :: z) with ((done ++ [43]) ++ z) by (rewrite <- app_assoc; reflexivity). rewrite <- (Step 3) in Rec by (auto; lia). rewrite !u32_id in Rec by lia. exact Rec.
    + cbn [app]. rewrite lget_mid. cbn [bind]. replace (c =? 37) with false by lia. replace (c =? 43) with false by lia. rewrite u8_id by lia. rewrite wr_mid by reflexivity. cbn [bind].
      replace (done ++ c :: z) with ((done ++ [c]) ++ z) by (rewrite <- app_assoc; reflexivity). rewrite (Step 1) by (auto; lia). exact Rec.
Qed.
Lemma marker_width t i n w : marker_at t i = Some (n, w) -> 2 <= w /\ i + w <= zlen t.
Proof.
  unfold marker_at. destruct (lget t i) as [p|] eqn:E1; [|discriminate]. destruct (lget t (i + 1)) as [d|] eqn:E2; [|discriminate]. pose proof (lget_some_range _ _ _ E2).
  destruct ((p =? 37) && digit_char d) eqn:D; [|discriminate]. apply andb_true_iff in D as [_ D]. unfold digit_char in *.
  assert (P : forall (X Y : Z), Some (X, Y) = Some (n, w) -> w = Y) by (intros; congruence).
  destruct (lget t (i + 2)) as [e|] eqn:E3; intros E; apply P in E; subst w.
  - pose proof (lget_some_range _ _ _ E3). match goal with |- context [if ?b then 2 else 3] => destruct b end; lia.
  - match goal with |- context [if ?b then 2 else 3] => destruct b eqn:B end; lia.
Qed.
Lemma best_exists t : (forall i, marker_at t i = None) \/ exists i n w, best_marker t i n w.
Proof.
  assert (K : forall k, (forall i, 0 <= i < Z.of_nat k -> marker_at t i = None) \/
    exists i n w, 0 <= i < Z.of_nat k /\ marker_at t i = Some (n, w) /\ forall j n' w', 0 <= j < Z.of_nat k -> marker_at t j = Some (n', w') -> n < n' \/ (n = n' /\ i <= j)).
  { induction k as [|k IH]; [left; intros; lia|]. destruct (marker_at t (Z.of_nat k)) as [[n0 w0]|] eqn:M.
    - right. destruct IH as [N|(i & n & w & R & Mi & B)].
      + exists (Z.of_nat k), n0, w0. split; [lia|]. split; [exact M|]. intros j n' w' Hj Mj. destruct (Z.eq_dec j (Z.of_nat k)) as [->|]; [rewrite M in Mj; injection Mj as <- _; lia|]. rewrite N in Mj by lia. discriminate.
      + destruct (Z.ltb_spec n0 n).
        * exists (Z.of_nat k), n0, w0. split; [lia|]. split; [exact M|]. intros j n' w' Hj Mj. destruct (Z.eq_dec j (Z.of_nat k)) as [->|]; [rewrite M in Mj; injection Mj as <- _; lia|]. specialize (B j n' w' ltac:(lia) Mj). lia.
        * exists i, n, w. split; [lia|]. split; [exact Mi|]. intros j n' w' Hj Mj. destruct (Z.eq_dec j (Z.of_nat k)) as [->|]; [rewrite M in Mj; injection Mj as <- _; lia|]. apply (B j n' w'); [lia|exact Mj].
    - destruct IH as [N|(i & n & w & R & Mi & B)].
      + left. intros i Hi. destruct (Z.eq_dec i (Z.of_nat k)) as [->|]; [exact M|apply N; lia].
      + right. exists i, n, w. split; [lia|]. split; [exact Mi|]. intros j n' w' Hj Mj. destruct (Z.eq_dec j (Z.of_nat k)) as [->|]; [congruence|]. apply (B j n' w'); [lia|exact Mj]. }
  destruct (K (length t)) as [N|(i & n & w & R & Mi & B)].
  - left. intros i. destruct (marker_at t i) as [[n w]|] eqn:M; [|reflexivity]. pose proof (marker_range _ _ _ _ M) as (Ri & _). rewrite N in M; [discriminate|unfold zlen in *; lia].
  - right. exists i, n, w. split; [exact Mi|]. intros j n' w' Mj. pose proof (marker_range _ _ _ _ Mj) as (Rj & _). apply (B j n' w'); [unfold zlen in *; lia|exact Mj].
Qed.
Lemma flat_map_url_len t : zlen t <= zlen (flat_map url_char t) /\ zlen (flat_map url_char t) <= 3 * zlen t.
Proof.
  induction t as [|c t IH]; [cbn; lia|]. cbn [flat_map]. rewrite zlen_app, zlen_cons. assert (1 <= zlen (url_char c) <= 3) by (unfold url_char; destruct (c =? 32); [cbn; lia|]; destruct (c =? 37); [cbn; lia|]; destruct (c =? 43); cbn; lia). lia.
Qed.
(** plain ASCII bytes up to the first zero *)
Lemma decode_ascii t z : Forall (fun c => 0 < c < 128) t -> utf8_decode (t ++ 0 :: z) = Val t.
Proof.
  intros F.
  assert (C : forall t2 t1 n fuel, Forall (fun c => 0 < c < 128) t2 -> (length t2 < fuel)%nat -> utf8_count fuel (t1 ++ t2 ++ 0 :: z) (zlen t1) n = Val (n + zlen t2)).
  { induction t2 as [|c t2 IH]; intros t1 n fuel Ft Hf; (destruct fuel as [|fuel]; [lia|]); cbn [utf8_count app].
    - rewrite rd_mid. cbn [bind]. change (0 =? 0) with true. cbn match. f_equal. change (zlen (@nil Z)) with 0. lia.
    - inversion Ft as [|? ? F1 F2]; subst. rewrite rd_mid. cbn [bind]. replace (c =? 0) with false by lia. destruct (kinds c ltac:(lia)) as (K1 & _). rewrite K1. replace (c <? 128) with true by lia.
      replace (t1 ++ c :: t2 ++ 0 :: z) with ((t1 ++ [c]) ++ t2 ++ 0 :: z) by (rewrite <- app_assoc; reflexivity). replace (zlen t1 + 1) with (zlen (t1 ++ [c])) by zl.
      cbn [length] in Hf. rewrite IH by (auto; lia). f_equal. zl. }
  assert (G : forall t2 t1 acc fuel, Forall (fun c => 0 < c < 128) t2 -> (length t2 < fuel)%nat -> utf8_fill fuel (t1 ++ t2 ++ 0 :: z) (zlen t1) (zlen acc + zlen t2) acc = Val (acc ++ t2)).
  { induction t2 as [|c t2 IH]; intros t1 acc fuel Ft Hf; (destruct fuel as [|fuel]; [lia|]); cbn [utf8_fill app].
    - change (zlen (@nil Z)) with 0. replace (zlen acc <? zlen acc + 0) with false by lia. now rewrite app_nil_r.
    - inversion Ft as [|? ? F1 F2]; subst. rewrite zlen_cons. pose proof (zlen_nonneg t2). replace (zlen acc <? zlen acc + (1 + zlen t2)) with true by lia. rewrite rd_mid. cbn [bind]. destruct (kinds c ltac:(lia)) as (K1 & _). rewrite K1. replace (c <? 128) with true by lia.
      replace (t1 ++ c :: t2 ++ 0 :: z) with ((t1 ++ [c]) ++ t2 ++ 0 :: z) by (rewrite <- app_assoc; reflexivity). replace (zlen t1 + 1) with (zlen (t1 ++ [c])) by zl.
      cbn [length] in Hf. replace (zlen acc + (1 + zlen t2)) with (zlen (acc ++ [c]) + zlen t2) by zl. rewrite IH by (auto; lia). f_equal. now rewrite <- app_assoc. }
  unfold utf8_decode.
  assert (B : forall v, 128 <= v -> char_is (t ++ 0 :: z) 0 v = Val false).
  { intros v Hv. destruct t as [|c t]; cbn [app]; rewrite char_is0; f_equal; [lia|]. inversion F; subst. lia. }
  rewrite !B by lia. cbn [andb_then bind].
  replace (utf8_count _ (t ++ 0 :: z) 0 0) with (Val (0 + zlen t)) by (symmetry; apply (C t []); [exact F|rewrite app_length; cbn [length]; lia]). cbn [bind].
  change 0 with (zlen (@nil Z)) at 2. apply (G t [] []); [exact F|rewrite app_length; cbn [length]; lia].
Qed.
