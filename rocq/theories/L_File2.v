From Verif Require Import L_Utf8.
From Verif Require Import Base M_Utf8 M_String M_Tokenizer M_StringList M_File S_String S_Utf8 S_Tokenizer S_StringList S_File.
From Verif Require Import L_String L_String2 L_StringList L_Tokenizer L_File L_Preferences4 L_Preferences5 P_StringList.
Ltac Zify.zify_post_hook ::= Z.to_euclidean_division_equations.

(** * name and parent *)
Lemma canonical_last t ps x : components t = ps ++ [x] ->
  comp x /\ canonical t = if match ps with [] => absolute t | _ => true end then directory (absolute t) ps ++ 47 :: x else x.
Proof.
  intros E. pose proof (comps_comp t) as F. rewrite E in F. apply Forall_app in F as [_ F]. apply Forall_cons_iff in F as [Fx _]. split; [exact Fx|]. unfold canonical, directory. rewrite E. destruct ps as [|p ps].
  - cbn [app joined]. destruct (absolute t); reflexivity.
  - rewrite joined_snoc by discriminate. now rewrite app_assoc.
Qed.
Lemma name_ok f t ps x : repr f (canonical t) -> components t = ps ++ [x] -> exists n, name f = Val n /\ repr n x.
Proof.
  intros R E. destruct (canonical_last t ps x E) as [[Nx Ni] C]. rewrite C in R. clear C. unfold name. change DIR_SEP with 47. destruct (match ps with [] => absolute t | _ => true end).
  - rewrite (last_index_ok f 47 _ _ R Ni). cbn [bind]. destruct (substring_from_mid f (directory (absolute t) ps ++ [47]) x ltac:(now rewrite <- app_assoc)) as (s & E' & R'). rewrite zlen_app in E'. exists s. split; assumption.
  - rewrite (last_index_none f 47 _ R Ni). cbn [bind]. apply (substring_from_mid f [] x). exact R.
Qed.
Lemma parent_ok f t ps x : repr f (canonical t) -> components t = ps ++ [x] -> exists n, parent f = Val n /\ repr n (directory (absolute t) ps).
Proof.
  intros R E. destruct (canonical_last t ps x E) as [[Nx Ni] C]. rewrite C in R. clear C. unfold parent. change DIR_SEP with 47. destruct (match ps with [] => absolute t | _ => true end) eqn:A.
  - rewrite (last_index_ok f 47 _ _ R Ni). cbn [bind]. pose proof (zlen_nonneg (directory (absolute t) ps)). destruct (Z.ltb_spec (zlen (directory (absolute t) ps)) 0); [lia|]. apply (substring_mid f [] _ (47 :: x)). exact R.
  - rewrite (last_index_none f 47 _ R Ni). cbn [bind]. change (-1 <? 0) with true. cbv iota. destruct ps; [|discriminate]. cbn [directory]. apply (substring_mid f [] [] x). exact R.
Qed.
Lemma root_name f t : repr f (canonical t) -> components t = [] -> exists n, name f = Val n /\ repr n [].
Proof.
  intros R E. unfold canonical in R. rewrite E in R. cbn [joined] in R. rewrite app_nil_r in R. unfold name. change DIR_SEP with 47. destruct (absolute t).
  - rewrite (last_index_ok f 47 [] [] R ltac:(intros [])). cbn [bind]. apply (substring_from_mid f [47] []). exact R.
  - rewrite (last_index_none f 47 _ R ltac:(intros [])). cbn [bind]. apply (substring_from_mid f [] []). exact R.
Qed.
Lemma extension_ok f p r : repr f (p ++ 46 :: r) -> ~ In 46 r -> exists s, extension f = Val s /\ repr s r.
Proof.
  intros R N. unfold extension. rewrite (last_index_ok f 46 _ _ R N). cbn [bind]. destruct (substring_from_mid f (p ++ [46]) r ltac:(now rewrite <- app_assoc)) as (s & E' & R'). rewrite zlen_app in E'. exists s. split; assumption.
Qed.
Lemma extension_none f t : repr f t -> ~ In 46 t -> exists s, extension f = Val s /\ repr s t.
Proof. intros R N. unfold extension. rewrite (last_index_none f 46 _ R N). cbn [bind]. apply (substring_from_mid f [] t). exact R. Qed.
Lemma hidden_ok f t ps x : repr f (canonical t) -> components t = ps ++ [x] -> is_hidden f = Val (hd 0 x =? 46).
Proof.
  intros R E. destruct (name_ok f t ps x R E) as (n & En & Rn). destruct (canonical_last t ps x E) as [[Nx _] _]. unfold is_hidden. rewrite En. cbn [bind]. rewrite (char_at_ok n x 0 Rn). destruct x as [|c x]; [contradiction|]. reflexivity.
Qed.
Lemma hidden_root f t : repr f (canonical t) -> components t = [] -> is_hidden f = Exn.
Proof. intros R E. destruct (root_name f t R E) as (n & En & Rn). unfold is_hidden. rewrite En. cbn [bind]. now rewrite (char_at_ok n [] 0 Rn). Qed.

(** * reading in pieces *)
Lemma drop_drop {A} (l : list A) a b : 0 <= a -> 0 <= b -> zdrop b (zdrop a l) = zdrop (a + b) l.
Proof. intros Ha Hb. unfold zdrop. replace (Z.to_nat (a + b)) with (Z.to_nat a + Z.to_nat b)%nat by lia. generalize (Z.to_nat a) (Z.to_nat b). clear. intros n. revert l. induction n as [|n IH]; intros l m; [reflexivity|]. destruct l as [|x l]; [cbn; now rewrite !skipn_nil|]. cbn [Nat.add skipn]. apply IH. Qed.
Lemma take_add {A} (l : list A) a b : 0 <= a -> 0 <= b -> ztake (a + b) l = ztake a l ++ ztake b (zdrop a l).
Proof.
  intros Ha Hb. unfold ztake, zdrop. replace (Z.to_nat (a + b)) with (Z.to_nat a + Z.to_nat b)%nat by lia. generalize (Z.to_nat a) (Z.to_nat b). clear. intros n. revert l. induction n as [|n IH]; intros l m; [reflexivity|]. destruct l as [|x l]; [cbn; now rewrite !firstn_nil|]. cbn [Nat.add firstn skipn app]. f_equal. apply IH.
Qed.
Lemma read_fully_ok content : forall reads pos done m rest, 0 <= pos -> zlen m = rest -> forall tail,
  exists n, 0 <= n <= Z.min rest (Z.max 0 (zlen content - pos)) /\
    read_fully content pos (done ++ m ++ tail) rest (zlen done) reads = Val (zlen done + n, pos + n, done ++ ztake n (zdrop pos content) ++ zdrop n m ++ tail) /\
    (delivers reads (Z.min rest (Z.max 0 (zlen content - pos))) -> n = Z.min rest (Z.max 0 (zlen content - pos))).
Proof.
  induction reads as [|r reads IH]; intros pos done m rest Hp Hm tail; pose proof (zlen_nonneg m); pose proof (zlen_nonneg content); cbn [read_fully delivers].
  - exists 0. split; [lia|]. split; [rewrite !Z.add_0_r; change (ztake 0 (zdrop pos content)) with (@nil Z); reflexivity|]. destruct (Z.leb_spec (Z.min rest (Z.max 0 (zlen content - pos))) 0); [intros _; lia|intros []].
  - assert (Stop : Z.min rest (Z.max 0 (zlen content - pos)) <= 0 \/ r <= 0 -> exists n, 0 <= n <= Z.min rest (Z.max 0 (zlen content - pos)) /\
      Val (zlen done, pos, done ++ m ++ tail) = Val (zlen done + n, pos + n, done ++ ztake n (zdrop pos content) ++ zdrop n m ++ tail) /\
      ((if Z.min rest (Z.max 0 (zlen content - pos)) <=? 0 then True else 0 < r /\ delivers reads (Z.min rest (Z.max 0 (zlen content - pos)) - r)) -> n = Z.min rest (Z.max 0 (zlen content - pos)))).
    { intros H1. exists 0. split; [lia|]. split; [rewrite !Z.add_0_r; reflexivity|]. destruct (Z.leb_spec (Z.min rest (Z.max 0 (zlen content - pos))) 0); [intros _; lia|intros [? _]; lia]. }
    destruct (Z.gtb_spec rest 0) as [G|G]; [|apply Stop; lia]. cbv zeta. set (w := Z.min rest (Z.max 0 (zlen content - pos))) in *. set (step := Z.min (Z.max 0 r) w) in *. destruct (Z.gtb_spec step 0) as [G2|G2]; [|apply Stop; lia]. clear Stop.
    assert (B : pos + step <= zlen content /\ step <= rest) by lia. destruct B as [B1 B2].
    assert (Em : m = ztake step m ++ zdrop step m) by (symmetry; apply take_drop). assert (Ec : content = ztake pos content ++ ztake step (zdrop pos content) ++ zdrop step (zdrop pos content)) by (rewrite take_drop; symmetry; apply take_drop).
    assert (L1 : zlen (ztake step m) = step) by (apply zlen_ztake; lia). assert (L2 : zlen (ztake pos content) = pos) by (apply zlen_ztake; lia). assert (L4 : zlen (zdrop pos content) = zlen content - pos) by (rewrite zlen_zdrop; lia). assert (L3 : zlen (ztake step (zdrop pos content)) = step) by (apply zlen_ztake; lia).
    assert (M : memcpy (done ++ m ++ tail) (zlen done) content pos step = Val (done ++ ztake step (zdrop pos content) ++ zdrop step m ++ tail)).
    { pose proof (memcpy_ok done (ztake step m) (zdrop step m ++ tail) (ztake pos content) (ztake step (zdrop pos content)) (zdrop step (zdrop pos content)) ltac:(congruence)) as M. rewrite L2, L3 in M. rewrite <- Ec in M. rewrite (app_assoc (ztake step m)), <- Em in M. exact M. }
    rewrite M. cbn [bind]. destruct (IH (pos + step) (done ++ ztake step (zdrop pos content)) (zdrop step m) (rest - step) ltac:(lia) ltac:(rewrite zlen_zdrop; lia) tail) as (n & Hn & E & D).
    rewrite zlen_app, L3 in E. rewrite <- app_assoc in E. exists (step + n). split; [lia|]. split.
    + rewrite E. f_equal. f_equal; [f_equal; lia|]. rewrite <- app_assoc. f_equal. rewrite app_assoc. f_equal.
      * rewrite take_add by lia. f_equal. now rewrite drop_drop by lia.
      * f_equal. now rewrite drop_drop by lia.
    + fold w. destruct (Z.leb_spec w 0); [lia|]. intros [Hr Hd]. destruct (Z.leb_spec r w) as [Q|Q].
      * replace (Z.min (rest - step) (Z.max 0 (zlen content - (pos + step)))) with (w - r) in * by lia. specialize (D Hd). lia.
      * lia.
Qed.

(** * splitting and tags *)
Lemma tokens_count isd t : forall cur, (length (tokens false isd cur t) <= length cur + length t)%nat.
Proof.
  assert (Fl : forall cur : list Z, (length (match cur with [] => [] | _ => [cur] end) <= length cur)%nat) by (intros [|x cur]; cbn [length]; lia).
  induction t as [|c t IH]; intros cur; cbn [tokens length]; [specialize (Fl cur); lia|]. destruct (isd c).
  - rewrite !app_length. cbn [length app]. specialize (IH []). cbn [length] in IH. specialize (Fl cur). lia.
  - specialize (IH (cur ++ [c])). rewrite app_length in IH. cbn [length] in IH. lia.
Qed.
Lemma split_loop_ok s d : forall ts st r done k, inv s d false st ts -> lrepr r done -> zlen done + zlen ts < 2 ^ 62 -> (length ts < k)%nat ->
  exists r', split_loop st r k = Val r' /\ lrepr r' (done ++ ts).
Proof.
  induction ts as [|x ts IH]; intros st r done k I R B Hk; (destruct k as [|k]; [lia|]); cbn [split_loop]; destruct (has_next_ok _ _ _ st _ I) as (st1 & -> & I1); cbn [bind].
  - exists r. rewrite app_nil_r. auto.
  - destruct (next_ok _ _ _ st1 _ I1) as (o & st2 & -> & (y & -> & Ry) & I2). cbn [bind]. rewrite zlen_cons in B. pose proof (zlen_nonneg ts). destruct (append_list_ok r done y x R ltac:(lia) Ry) as (r1 & -> & R1). cbn [bind length] in *.
    destruct (IH st2 r1 (done ++ [x]) k I2 R1 ltac:(rewrite zlen_app, zlen_cons, zlen_nil; lia) ltac:(lia)) as (r' & E & R'). rewrite <- app_assoc in R'. eauto.
Qed.
Lemma split_ok s t c : repr s t -> zlen t < 2 ^ 62 -> exists r, split s c = Val r /\ lrepr r (tokens false (is_in [c]) [] t).
Proof.
  intros R B. unfold split. destruct (append_char_ok str_new [] c str_new_repr) as (dl & -> & Rd & _). cbn [bind app] in *. unfold tok_new. destruct (copy_ctor_ok s _ R) as (s' & -> & Rs & _). cbn [bind]. destruct (copy_ctor_ok dl _ Rd) as (d' & -> & Rd' & _). cbn [bind].
  pose proof (tokens_count (is_in [c]) t []) as Ct. cbn [length] in Ct. apply (split_loop_ok t [c] (tokens false (is_in [c]) [] t) _ _ []); [|apply new_list|unfold zlen in *; cbn [length]; lia|rewrite (repr_len _ _ R); unfold zlen; lia].
  split; [split; [exact Rs|split; [exact Rd'|reflexivity]]|]. exists [], t. split; [reflexivity|]. split; [reflexivity|]. left. auto.
Qed.
Lemma tokens_sep d x : forall cur r, ~ In d x -> cur ++ x <> [] -> tokens false (is_in [d]) cur (x ++ d :: r) = (cur ++ x) :: tokens false (is_in [d]) [] r.
Proof.
  assert (D : forall c, is_in [d] c = (c =? d)) by (intros c; unfold is_in; cbn [existsb]; apply orb_false_r).
  induction x as [|c x IH]; intros cur r N NE; cbn [tokens app].
  - rewrite D, Z.eqb_refl. rewrite app_nil_r in *. destruct cur; [contradiction|reflexivity].
  - rewrite D. destruct (Z.eqb_spec c d) as [->|Nc]; [exfalso; apply N; now left|]. rewrite IH; [now rewrite <- app_assoc|intros I; apply N; now right|destruct cur; discriminate].
Qed.
Lemma tokens_end d x : forall cur, ~ In d x -> cur ++ x <> [] -> tokens false (is_in [d]) cur x = [cur ++ x].
Proof.
  induction x as [|c x IH]; intros cur N NE; cbn [tokens].
  - rewrite app_nil_r in *. now destruct cur.
  - unfold is_in at 1. cbn [existsb]. rewrite orb_false_r. destruct (Z.eqb_spec c d) as [->|Nc]; [exfalso; apply N; now left|]. rewrite IH; [now rewrite <- app_assoc|intros I; apply N; now right|destruct cur; discriminate].
Qed.
Lemma joined_tokens d ts : Forall (fun x => x <> [] /\ ~ In d x) ts -> tokens false (is_in [d]) [] (joined d ts) = ts.
Proof.
  induction ts as [|x ts IH]; intros F; [reflexivity|]. apply Forall_cons_iff in F as [[NE N] F]. destruct ts as [|y ts]; [cbn [joined]; apply (tokens_end d x []); assumption|].
  change (joined d (x :: y :: ts)) with (x ++ d :: joined d (y :: ts)). rewrite tokens_sep by assumption. now rewrite IH.
Qed.
Definition tags_are (x : xattr) (l : list (list Z)) : Prop := tags_fit l /\ match x with None => l = [] | Some v => v = concat (map utf8 (joined 44 l)) end.
Lemma good_joined l : Forall good_tag l -> Forall (fun c => 0 < c < 65536) (joined 44 l) /\ hd 0 (joined 44 l) <> 65279.
Proof.
  induction l as [|x l IH]; intros F; [split; [constructor|cbn; lia]|]. apply Forall_cons_iff in F as [(NE & _ & Fx & Hx) F]. destruct l as [|y l]; [auto|].
  change (joined 44 (x :: y :: l)) with (x ++ 44 :: joined 44 (y :: l)). destruct (IH F) as [IH1 _]. split.
  - apply Forall_app. split; [exact Fx|]. constructor; [lia|exact IH1].
  - destruct x; [contradiction|exact Hx].
Qed.
Lemma utf8_nonempty c : 0 <= c -> utf8 c <> [].
Proof. unfold utf8. intros H. repeat match goal with |- context[if ?b then _ else _] => destruct b end; discriminate. Qed.
Lemma utf8_empty u : Forall (fun c => 0 < c < 65536) u -> concat (map utf8 u) = [] -> u = [].
Proof. destruct u as [|c u]; [reflexivity|]. intros F E. apply Forall_cons_iff in F as [Fc _]. cbn [map concat] in E. apply app_eq_nil in E as [E _]. exfalso. revert E. apply utf8_nonempty. lia. Qed.
Lemma joined_len d (x : list Z) l : In x l -> zlen x <= zlen (joined d l).
Proof.
  induction l as [|y l IH]; intros I; [destruct I|]. destruct l as [|z l]; [destruct I as [->|[]]; cbn [joined]; lia|]. change (joined d (y :: z :: l)) with (y ++ d :: joined d (z :: l)). rewrite zlen_app, zlen_cons. pose proof (zlen_nonneg y). pose proof (zlen_nonneg (joined d (z :: l))). destruct I as [->|I]; [lia|specialize (IH I); lia].
Qed.
Lemma utf8_len u : Forall (fun c => 0 < c < 65536) u -> zlen u <= zlen (concat (map utf8 u)).
Proof.
  induction u as [|c u IH]; intros F; [cbn; lia|]. apply Forall_cons_iff in F as [Fc F]. cbn [map concat]. rewrite zlen_app, zlen_cons. specialize (IH F). pose proof (utf8_nonempty c ltac:(lia)) as NE. destruct (utf8 c) as [|b r]; [contradiction|]. rewrite zlen_cons. pose proof (zlen_nonneg r). lia.
Qed.
Lemma joined_count (l : list (list Z)) : zlen l <= zlen (joined 44 l) + 1.
Proof. induction l as [|x l IH]; [cbn; lia|]. destruct l as [|y l]; [cbn [joined]; rewrite zlen_cons, zlen_nil; pose proof (zlen_nonneg x); lia|]. change (joined 44 (x :: y :: l)) with (x ++ 44 :: joined 44 (y :: l)). rewrite (zlen_cons x), zlen_app, (zlen_cons 44). pose proof (zlen_nonneg x). lia. Qed.
Lemma fit_small l : tags_fit l -> Forall (fun x => zlen x < 2 ^ 32) l.
Proof.
  intros [F B]. apply good_joined in F as [F _]. apply utf8_len in F. rewrite Forall_forall. intros x I. apply (joined_len 44) in I. lia.
Qed.
Lemma get_tags_ok x l : tags_are x l -> exists r, get_tags x = Val r /\ lrepr r l.
Proof.
  intros [[F B] X]. unfold get_tags. destruct x as [v|]; [|exists sl_new; subst l; split; [reflexivity|apply new_list]]. destruct (good_joined l F) as [Fj Hj]. destruct (Z.ltb_spec 0 (zlen v)) as [P|P].
  - subst v. destruct (Z.leb_spec (zlen (concat (map utf8 (joined 44 l)))) 4096); [|lia]. cbn [andb]. rewrite decode_code_points; [|eapply Forall_impl; [|exact Fj]; cbv beta; intros; lia|exact Hj]. cbn [bind].
    replace (map (fun c => c mod 65536) (joined 44 l)) with (joined 44 l) by (symmetry; rewrite <- (map_id (joined 44 l)) at 2; apply map_ext_in; intros c I; rewrite Forall_forall in Fj; specialize (Fj c I); cbv beta in Fj; lia).
    pose proof (utf8_len _ Fj). destruct (split_ok (str_of (joined 44 l)) (joined 44 l) 44 (str_of_repr _) ltac:(lia)) as (r & -> & R). exists r. split; [reflexivity|]. rewrite joined_tokens in R; [exact R|]. eapply Forall_impl; [|exact F]. intros a (A1 & A2 & _). auto.
  - cbn [andb]. exists sl_new. split; [reflexivity|]. assert (E : v = []) by (apply zlen_zero; pose proof (zlen_nonneg v); lia). rewrite E in X. symmetry in X. apply utf8_empty in X; [|exact Fj]. assert (l = []) as ->; [|apply new_list]. destruct l as [|a l]; [reflexivity|]. exfalso. apply Forall_cons_iff in F as [(NE & _) _]. destruct a; [contradiction|]. destruct l; discriminate.
Qed.
Lemma set_tags_ok r l : lrepr r l -> tags_fit l -> exists x, set_tags r = Val x /\ tags_are x l.
Proof.
  intros R T. pose proof T as [F B]. destruct (good_joined l F) as [Fj _]. unfold set_tags. destruct (join_ok r l 44 R) as (s & -> & S). cbn [bind]. destruct (copy_ctor_ok s _ S) as (s1 & -> & S1 & _). cbn [bind]. rewrite (repr_len _ _ S1). pose proof S1 as (j & E & _). rewrite E, memcpy_zeros by lia. cbn [bind]. rewrite Z.sub_diag. change (zeros 0) with (@nil Z). rewrite app_nil_r.
  rewrite encode_spec; [|eapply Forall_impl; [|exact Fj]; cbv beta; unfold unitz; intros; lia|lia]. cbn [bind]. eexists. split; [reflexivity|]. split; [exact T|reflexivity].
Qed.
Lemma contains_ok r l s t : lrepr r l -> repr s t -> Forall (fun x => zlen x < 2 ^ 32) l -> sl_contains r s = Val (existsb (fun y => teq y t) l).
Proof.
  intros (junk & H & S) R F. unfold sl_contains. rewrite S. destruct (contains_loop_ok s t R l [] (sdata r) junk (Z.to_nat (zlen l)) H F ltac:(unfold zlen; lia)) as (b & E & I). change (zlen (@nil (list Z))) with 0 in E. rewrite E. f_equal. apply eq_true_iff_eq. rewrite I, existsb_exists. split.
  - intros J. exists t. split; [exact J|now apply teq_spec].
  - intros (y & J & E'). apply teq_spec in E' as ->. exact J.
Qed.
Lemma filter_none l t : existsb (fun y => teq y t) l = false -> filter (fun y => negb (teq y t)) l = l.
Proof. induction l as [|x l IH]; intros E; [reflexivity|]. cbn [existsb filter] in *. apply orb_false_iff in E as [E1 E2]. rewrite E1. cbn [negb]. now rewrite IH. Qed.
Lemma gexec_ok o x l : tags_are x l -> gfits o l -> exists x', gexec o x = Val (fst (gspec o l), x') /\ tags_are x' (snd (gspec o l)).
Proof.
  intros T [G Fit]. pose proof (fit_small l (proj1 T)) as Sm. pose proof (joined_count l) as Jc. destruct o as [ts|t|t|]; cbn [gexec gspec fst snd] in *.
  - apply lsound_lrepr in G as [R _]. destruct (set_tags_ok ts _ R Fit) as (x' & -> & T'). cbn [bind]; eauto.
  - destruct G as [Rt _]. apply sound_repr in Rt. unfold add_tag. destruct (get_tags_ok x l T) as (r & -> & R). cbn [bind]. rewrite (contains_ok r l t _ R Rt Sm). cbn [bind]. destruct (existsb (fun y => teq y (text t)) l); cbn [negb].
    + cbn [bind]; eauto.
    + destruct T as [[F B] _]. destruct (append_list_ok r l t _ R ltac:(destruct (good_joined l F) as [Fj _]; apply utf8_len in Fj; lia) Rt) as (r' & -> & R'). cbn [bind]. destruct (set_tags_ok r' _ R' Fit) as (x' & -> & T'). cbn [bind]; eauto.
  - destruct G as [Rt _]. apply sound_repr in Rt. unfold remove_tag. destruct (get_tags_ok x l T) as (r & -> & R). cbn [bind]. rewrite (contains_ok r l t _ R Rt Sm). cbn [bind]. destruct (existsb (fun y => teq y (text t)) l) eqn:E.
    + destruct (remove_ok r l t _ R Rt Sm) as (r' & -> & R'). cbn [bind]. destruct (set_tags_ok r' _ R' Fit) as (x' & -> & T'). cbn [bind]; eauto.
    + rewrite filter_none by exact E. cbn [bind]; eauto.
  - destruct (get_tags_ok x l T) as (r & -> & R). cbn [bind]. destruct (lrepr_lsound r l R Sm) as [_ ->]. cbn [bind]; eauto.
Qed.
Lemma gexec_all_ok os : forall x l, tags_are x l -> all_gfit os l -> exists x', gexec_all os x = Val (fst (gspecs os l), x') /\ tags_are x' (snd (gspecs os l)).
Proof.
  induction os as [|o os IH]; intros x l T A; cbn [gexec_all gspecs fst snd]; [eauto|]. destruct A as [G A]. destruct (gexec_ok o x l T G) as (x1 & -> & T1). cbn [bind]. destruct (gspec o l) as [a l1]. cbn [fst snd] in *. destruct (IH x1 l1 T1 A) as (x' & -> & T'). cbn [bind]. destruct (gspecs os l1) as [b l2]. cbn [fst snd] in *. eauto.
Qed.
