(** P_DiffInfo.v -- C132: the printed report of a difference. *)
From Coq Require Import Reals QArith Qabs String.
From Coq Require Import SpecFloat.
From Verif Require Import Base M_Float M_MathF S_Double M_String S_String M_Charset S_Integer M_Diff S_Diff M_DiffInfo S_DiffInfo P_String P_MathF P_Diff.
From Verif Require M_Rect M_Geometry.
Local Open Scope string_scope.
Local Open Scope list_scope.
Local Open Scope Z_scope.
(** * numbers *)
Lemma pos_value_snoc ds d : pos_value 10 (ds ++ [d]) = 10 * pos_value 10 ds + d.
Proof. unfold pos_value. now rewrite fold_left_app. Qed.
Lemma dec_ok f : forall n, 0 <= n < 10 ^ Z.of_nat (S f) -> exists ds, dec_digits (S f) n = map dec_char ds /\ canonical 10 n ds.
Proof.
  induction f as [|f IH]; intros n H.
  { change (10 ^ Z.of_nat 1) with 10 in H. cbn [dec_digits]. replace (n <? 10) with true by lia. exists [n]. split; [reflexivity|]. split; [unfold pos_value; cbn; lia|]. split; [constructor; [lia|constructor]|].
    destruct (Z.eq_dec n 0) as [->|]; [now left|right; exists n, []; split; [reflexivity|lia]]. }
  remember (S f) as f1. cbn [dec_digits]. destruct (Z.ltb_spec n 10).
  - exists [n]. split; [reflexivity|]. split; [unfold pos_value; cbn; lia|]. split; [constructor; [lia|constructor]|].
    destruct (Z.eq_dec n 0) as [->|]; [now left|right; exists n, []; split; [reflexivity|lia]].
  - rewrite Nat2Z.inj_succ, Z.pow_succ_r in H by lia.
    assert (Hq : 0 < n / 10 < 10 ^ Z.of_nat f1) by (split; [apply Z.div_str_pos; lia|apply Z.div_lt_upper_bound; lia]).
    destruct (IH (n / 10) ltac:(lia)) as (ds & E & V & F & L). exists (ds ++ [n mod 10]). rewrite E, map_app. split; [reflexivity|].
    pose proof (Z.div_mod n 10 ltac:(lia)). pose proof (Z.mod_pos_bound n 10 ltac:(lia)).
    split; [rewrite pos_value_snoc, V; lia|]. split; [apply Forall_app; split; [exact F|constructor; [lia|constructor]]|].
    destruct L as [->|(d & r & -> & Hd)]; [cbn in V; lia|]. right. exists d, (r ++ [n mod 10]). split; [reflexivity|exact Hd].
Qed.
Lemma show_ok n : Z.abs n < 10 ^ 20 -> shown n (show_int n).
Proof.
  intros H. unfold show_int, shown. destruct (Z.ltb_spec n 0).
  - destruct (dec_ok 19 (- n) ltac:(change (Z.of_nat 20) with 20; lia)) as (ds & -> & C). exists ds. split; [reflexivity|]. now replace (Z.abs n) with (- n) by lia.
  - destruct (dec_ok 19 n ltac:(change (Z.of_nat 20) with 20; lia)) as (ds & -> & C). exists ds. split; [reflexivity|]. now replace (Z.abs n) with n by lia.
Qed.
Lemma show_s64 n : -2 ^ 63 <= n < 2 ^ 63 -> shown n (show_int n).
Proof. intros H. apply show_ok. change (2 ^ 63) with 9223372036854775808 in H. change (10 ^ 20) with 100000000000000000000. lia. Qed.
Lemma show_u64 n : 0 <= n < 2 ^ 64 -> shown n (show_int n).
Proof. intros H. apply show_ok. change (2 ^ 64) with 18446744073709551616 in H. change (10 ^ 20) with 100000000000000000000. lia. Qed.
Lemma dec_chars ds : Forall (fun d => 0 <= d < 10) ds -> Forall (fun c => 48 <= c <= 57) (map dec_char ds).
Proof. induction 1; constructor; auto. unfold dec_char. lia. Qed.
Lemma shown_chars n t : shown n t -> Forall (fun c => c = 45 \/ 48 <= c <= 57) t.
Proof.
  intros (ds & -> & _ & F & _). apply Forall_app. split.
  - destruct (n <? 0); [constructor; [now left|constructor]|constructor].
  - eapply Forall_impl; [|apply (dec_chars ds F)]. cbn. lia.
Qed.
Lemma map_dec_inj a : forall b, map dec_char a = map dec_char b -> a = b.
Proof. induction a as [|x a IH]; intros [|y b] H; try discriminate; [reflexivity|]. cbn in H. injection H as H1 H2. unfold dec_char in H1. f_equal; [apply (Z.add_cancel_l _ _ 48); exact H1|auto]. Qed.
Lemma dec_head (r b : list Z) : Forall (fun d => 0 <= d < 10) b -> 45 :: r = map dec_char b -> False.
Proof. intros F E. destruct b as [|x b]; [discriminate|]. injection E as E _. inversion F; subst. unfold dec_char in E. lia. Qed.
Lemma shown_inj n m t : shown n t -> shown m t -> n = m.
Proof.
  intros (a & E & V & F & _) (b & E' & V' & F' & _). rewrite E in E'. destruct (Z.ltb_spec n 0), (Z.ltb_spec m 0); cbn [app] in E'.
  - injection E' as E'. apply map_dec_inj in E'. subst b. lia.
  - exfalso. eapply dec_head; [exact F'|exact E'].
  - exfalso. eapply dec_head; [exact F|symmetry; exact E'].
  - apply map_dec_inj in E'. subst b. lia.
Qed.
(** * texts *)
Lemma switch_plain c : 32 <= c < 127 -> switch w1252_cases (u8 c) c = c.
Proof.
  intros H. unfold w1252_cases. cbn [switch]. repeat match goal with |- context [c =? ?k] => replace (c =? k) with false by lia end. unfold u8. apply Z.mod_small. lia.
Qed.
Lemma c_text_id t : Forall (fun c => c <> 0) t -> c_text t = t.
Proof. induction 1 as [|c t H _ IH]; [reflexivity|]. cbn [c_text]. replace (c =? 0) with false by lia. now rewrite IH. Qed.
Lemma show_plain s : plain (text s) -> show_str s = text s.
Proof.
  intros H. unfold show_str. change (ztake (len s) (buf s)) with (text s). unfold w1252_encode.
  assert (E : map (fun c => switch w1252_cases (u8 c) c) (text s) = text s) by (rewrite <- (map_id (text s)) at 2; apply map_ext_in; intros c Hc; apply switch_plain; unfold plain in H; rewrite Forall_forall in H; auto).
  rewrite E. apply c_text_id. eapply Forall_impl; [|exact H]. cbn. lia.
Qed.
Lemma row_plain label rest : plain (text label) -> row label rest = field_line (text label) rest.
Proof. intros H. unfold row. now rewrite (show_plain _ H). Qed.
Lemma arrow_eq a b : a ++ lit_ " -> " ++ b = arrow a b. Proof. reflexivity. Qed.
Lemma arrow_d a b d : a ++ lit_ " -> " ++ b ++ lit_ " delta: " ++ d = arrow_delta a b d.
Proof. unfold arrow_delta, arrow. rewrite <- !app_assoc. reflexivity. Qed.
(** * C132: integer fields *)
Theorem C132_signed : forall op a b label, -2 ^ 63 <= a < 2 ^ 63 -> -2 ^ 63 <= b < 2 ^ 63 -> plain (text label) ->
  (op = DModified -> -2 ^ 63 <= b - a < 2 ^ 63) ->
  exists ta tb td, shown a ta /\ shown b tb /\ (op = DModified -> shown (b - a) td) /\
    print_i64 op a b label = Val (field_report op (a =? b) (text label) ta (arrow_delta ta tb td)).
Proof.
  intros op a b label A B P D. exists (show_int a), (show_int b), (show_int (b - a)). split; [now apply show_s64|]. split; [now apply show_s64|]. split; [intros E; apply show_s64; auto|].
  unfold print_i64, field_report. destruct op; rewrite ?(row_plain label _ P); try reflexivity.
  destruct (a =? b); cbn [negb]; [reflexivity|]. specialize (D eq_refl). change (2 ^ 63) with 9223372036854775808 in D. unfold chk64, in_s64. replace ((-9223372036854775808 <=? b - a) && (b - a <=? 9223372036854775807)) with true by lia. cbn [bind]. now rewrite (row_plain label _ P), arrow_d.
Qed.
(** int32: the difference always fits *)
Theorem C132_int32 : forall op a b label, -2 ^ 31 <= a < 2 ^ 31 -> -2 ^ 31 <= b < 2 ^ 31 -> plain (text label) ->
  exists ta tb td, shown a ta /\ shown b tb /\ shown (b - a) td /\
    print_i32 op a b label = Val (field_report op (a =? b) (text label) ta (arrow_delta ta tb td)).
Proof.
  intros op a b label A B P. change (2 ^ 31) with 2147483648 in *.
  destruct (C132_signed DModified a b label) as (ta & tb & td & Ha & Hb & Hd & _); try (change (2 ^ 63) with 9223372036854775808; lia); [exact P|].
  destruct (C132_signed op a b label) as (ta' & tb' & td' & Ha' & Hb' & Hd' & E); try (change (2 ^ 63) with 9223372036854775808; lia); [exact P|].
  exists ta', tb'. destruct op.
  all: try (exists td; split; [exact Ha'|]; split; [exact Hb'|]; split; [exact (Hd eq_refl)|]; exact E).
  exists td'. split; [exact Ha'|]. split; [exact Hb'|]. split; [exact (Hd' eq_refl)|]. exact E.
Qed.
Theorem C132_overflow_refuted : exists a b label, -2 ^ 63 <= a < 2 ^ 63 /\ -2 ^ 63 <= b < 2 ^ 63 /\ plain (text label) /\ print_i64 DModified a b label = UB.
Proof. exists (-1), (2 ^ 63 - 1), (str_of [120]). split; [lia|]. split; [lia|]. split; [vm_compute; repeat constructor; discriminate|]. vm_compute. reflexivity. Qed.
Theorem C132_unsigned : forall op a b label, 0 <= a < 2 ^ 64 -> 0 <= b < 2 ^ 64 -> plain (text label) ->
  exists ta tb td, shown a ta /\ shown b tb /\ shown (if a <=? b then b - a else b - a + 2 ^ 64) td /\
    print_u64 op a b label = field_report op (a =? b) (text label) ta (arrow_delta ta tb td).
Proof.
  intros op a b label A B P. change (2 ^ 64) with 18446744073709551616 in *.
  assert (E : u64 (b - a) = if a <=? b then b - a else b - a + 18446744073709551616).
  { unfold u64. destruct (Z.leb_spec a b); [apply Z.mod_small; lia|]. symmetry. apply (Z.mod_unique _ _ (-1)); lia. }
  exists (show_int a), (show_int b), (show_int (u64 (b - a))). split; [now apply show_u64|]. split; [now apply show_u64|]. split; [rewrite E; apply show_u64; change (2 ^ 64) with 18446744073709551616; destruct (Z.leb_spec a b); lia|].
  unfold print_u64, field_report. destruct op; rewrite ?(row_plain label _ P); try reflexivity. destruct (a =? b); cbn [negb]; [reflexivity|]. now rewrite arrow_d.
Qed.
(** a decreasing unsigned field is reported with a huge positive delta *)
Theorem C132_unsigned_delta_refuted : exists label, plain (text label) /\
  print_u32 DModified 5 3 label = field_line (text label) (arrow_delta [53] [51] [49;56;52;52;54;55;52;52;48;55;51;55;48;57;53;53;49;54;49;52]).
Proof. exists (str_of [120]). split; [vm_compute; repeat constructor; discriminate|]. vm_compute. reflexivity. Qed.
(** from a line the two values can be read back *)
Lemma split_at c x1 : forall y1 x2 y2 : list Z, ~ In c x1 -> ~ In c x2 -> x1 ++ c :: y1 = x2 ++ c :: y2 -> x1 = x2 /\ y1 = y2.
Proof.
  induction x1 as [|a x1 IH]; intros y1 [|b x2] y2 N1 N2 E; cbn [app] in E.
  - injection E as E. auto.
  - injection E as E1 E2. subst b. destruct N2. now left.
  - injection E as E1 E2. subst a. destruct N1. now left.
  - injection E as E1 E2. subst b. destruct (IH y1 x2 y2) as [-> ->]; auto; intros H; [apply N1|apply N2]; now right.
Qed.
Lemma shown_no32 n t : shown n t -> ~ In 32 t.
Proof. intros H I. apply shown_chars in H. rewrite Forall_forall in H. specialize (H _ I). lia. Qed.
Lemma delta_read l a b d a' b' d' ta tb td ta' tb' td' : shown a ta -> shown b tb -> shown a' ta' -> shown b' tb' -> shown d td -> shown d' td' ->
  field_line l (arrow_delta ta tb td) = field_line l (arrow_delta ta' tb' td') -> a = a' /\ b = b'.
Proof.
  intros A B A' B' D D' E. unfold field_line in E. apply app_inv_head in E. apply app_inv_head in E. apply app_inv_head in E. apply app_inv_tail in E. unfold arrow_delta, arrow in E. rewrite <- !app_assoc in E. cbn [app] in E.
  apply split_at in E as [-> E]; [|eapply shown_no32; eassumption|eapply shown_no32; eassumption]. injection E as E.
  apply split_at in E as [-> _]; [|eapply shown_no32; eassumption|eapply shown_no32; eassumption].
  split; eapply shown_inj; eassumption.
Qed.
Theorem C132_readable : forall label a b a' b' t, plain (text label) -> t <> [] ->
  (0 <= a < 2 ^ 64 -> 0 <= b < 2 ^ 64 -> 0 <= a' < 2 ^ 64 -> 0 <= b' < 2 ^ 64 -> print_u64 DModified a b label = t -> print_u64 DModified a' b' label = t -> a = a' /\ b = b') /\
  (-2 ^ 63 <= a < 2 ^ 63 -> -2 ^ 63 <= b < 2 ^ 63 -> -2 ^ 63 <= a' < 2 ^ 63 -> -2 ^ 63 <= b' < 2 ^ 63 -> print_i64 DModified a b label = Val t -> print_i64 DModified a' b' label = Val t -> a = a' /\ b = b').
Proof.
  intros label a b a' b' t P N. split; intros A B A' B' E E'.
  - destruct (C132_unsigned DModified a b label A B P) as (ta & tb & td & Ha & Hb & Hd & F). destruct (C132_unsigned DModified a' b' label A' B' P) as (ta' & tb' & td' & Ha' & Hb' & Hd' & F').
    rewrite E in F. rewrite E' in F'. unfold field_report in *. destruct (a =? b); [contradiction|]. destruct (a' =? b'); [contradiction|]. rewrite F in F'. exact (delta_read _ _ _ _ _ _ _ _ _ _ _ _ _ Ha Hb Ha' Hb' Hd Hd' F').
  - assert (K : forall x y, -2 ^ 63 <= x < 2 ^ 63 -> -2 ^ 63 <= y < 2 ^ 63 -> print_i64 DModified x y label = Val t -> -2 ^ 63 <= y - x < 2 ^ 63).
    { intros x y X Y H. change (2 ^ 63) with 9223372036854775808 in *. unfold print_i64 in H. destruct (Z.eqb_spec x y); [lia|]. cbn [negb] in H. unfold chk64, in_s64 in H. destruct ((-9223372036854775808 <=? y - x) && (y - x <=? 9223372036854775807)) eqn:Q; [lia|discriminate]. }
    destruct (C132_signed DModified a b label A B P (fun _ => K _ _ A B E)) as (ta & tb & td & Ha & Hb & Hd & F). destruct (C132_signed DModified a' b' label A' B' P (fun _ => K _ _ A' B' E')) as (ta' & tb' & td' & Ha' & Hb' & Hd' & F').
    rewrite E in F. rewrite E' in F'. injection F as F. injection F' as F'. unfold field_report in *. destruct (a =? b); [contradiction|]. destruct (a' =? b'); [contradiction|]. rewrite F in F'. exact (delta_read _ _ _ _ _ _ _ _ _ _ _ _ _ Ha Hb Ha' Hb' (Hd eq_refl) (Hd' eq_refl) F').
Qed.
(** * C132: texts *)
Lemma with_ok (same : jstr -> jstr -> out bool) (R : Prop) op a b label e : same a b = Val e -> (e = true <-> R) -> plain (text label) -> plain (text a) -> plain (text b) ->
  print_with same op a b label = Val (field_report op e (text label) (text a) (arrow (text a) (text b))).
Proof.
  intros E _ P A B. unfold print_with, field_report. rewrite (show_plain _ A), (show_plain _ B). destruct op; rewrite ?(row_plain label _ P); try reflexivity. rewrite E. cbn [bind]. destruct e; cbn [negb]; [reflexivity|]. reflexivity.
Qed.
Theorem C132_text : forall op a b label, sound a -> sound b -> zlen (text a) < 2 ^ 32 -> plain (text label) -> plain (text a) -> plain (text b) ->
  (exists same, (same = true <-> text a = text b) /\ print_str op a b label = Val (field_report op same (text label) (text a) (arrow (text a) (text b)))) /\
  (exists same, (same = true <-> map lower (text a) = map lower (text b)) /\ print_ignore_case op a b label = Val (field_report op same (text label) (text a) (arrow (text a) (text b)))).
Proof.
  intros op a b label A B L P PA PB. split.
  - destruct (C13_equals a b A B L) as (e & E & I). exists e. split; [exact I|]. exact (with_ok equals _ op a b label e E I P PA PB).
  - destruct (C53_equalsIgnoreCase a b A B L) as (e & E & I). exists e. split; [exact I|]. exact (with_ok equals_ignore_case _ op a b label e E I P PA PB).
Qed.
(** whatever the characters: a changed text is reported exactly if it differs *)
Theorem C132_text_silent : forall a b label, sound a -> sound b -> zlen (text a) < 2 ^ 32 ->
  (print_str DModified a b label = Val [] <-> text a = text b) /\ (print_ignore_case DModified a b label = Val [] <-> map lower (text a) = map lower (text b)).
Proof.
  intros a b label A B L. split.
  - destruct (C13_equals a b A B L) as (e & E & I). unfold print_str, print_with. rewrite E. cbn [bind]. rewrite <- I. destruct e; cbn [negb]; [tauto|]. unfold row. cbn. split; discriminate.
  - destruct (C53_equalsIgnoreCase a b A B L) as (e & E & I). unfold print_ignore_case, print_with. rewrite E. cbn [bind]. rewrite <- I. destruct e; cbn [negb]; [tauto|]. unfold row. cbn. split; discriminate.
Qed.
(** characters outside Windows-1252 are cut to their low byte: a change from L with stroke to A is reported as "A -> A", a character can end the text or the line *)
Theorem C132_text_refuted : exists a b c d label, text a <> text b /\
  print_str DModified a b label = Val (field_line (text label) (arrow [65] [65])) /\
  print_str DAdd c c label = Val (field_line (text label) [97]) /\ text c = [97; 256; 98] /\
  print_str DAdd d d label = Val (field_line (text label) [97; 10; 98]) /\ text d = [97; 266; 98].
Proof.
  exists (str_of [321]), (str_of [65]), (str_of [97; 256; 98]), (str_of [97; 266; 98]), (str_of [120]). split; [vm_compute; discriminate|]. split; [vm_compute; reflexivity|]. split; [vm_compute; reflexivity|]. split; [vm_compute; reflexivity|]. split; vm_compute; reflexivity.
Qed.
(** * C132: doubles and vertices *)
Theorem C132_double : forall fmt op x y label, plain (text label) ->
  print_double fmt op x y label = field_report op (isEqual x y) (text label) (fmt x) (arrow_delta (fmt x) (fmt y) (fmt (sub64 y x))).
Proof.
  intros fmt op x y label P. unfold print_double, field_report. destruct op; rewrite ?(row_plain label _ P); try reflexivity. rewrite (proj1 (C92_consistent x y)). destruct (isEqual x y); cbn [negb]; [reflexivity|]. now rewrite arrow_d.
Qed.
(** a change of a millionth or more is reported, a smaller one (by more than 2^-71) is not *)
Theorem C132_double_tolerance : forall fmt x y a b label, dbl x a -> dbl y b ->
  ((1 # 1000000 <= Qabs (a - b))%Q -> print_double fmt DModified x y label <> []) /\ ((Qabs (a - b) <= (1 # 1000000) - q2 (-71))%Q -> print_double fmt DModified x y label = []).
Proof.
  intros fmt x y a b label X Y. destruct (C92_equal x y a b X Y) as [H1 H2]. unfold print_double. rewrite (proj1 (C92_consistent x y)). split.
  - intros H. destruct (isEqual x y); [|cbn [negb]; unfold row; cbn; discriminate]. exfalso. specialize (H1 eq_refl). apply (Qlt_not_le _ _ H1 H).
  - intros H. now rewrite (H2 H).
Qed.
Theorem C132_vertices : forall fmt op label, plain (text label) ->
  (forall v w, print_v2 fmt op v w label = field_report op (isEqual (M_Geometry.px v) (M_Geometry.px w) && isEqual (M_Geometry.py v) (M_Geometry.py w)) (text label) (show2 fmt v) (arrow (show2 fmt v) (show2 fmt w))) /\
  (forall v w, print_v3 fmt op v w label = field_report op (isEqual (M_Rect.vx v) (M_Rect.vx w) && isEqual (M_Rect.vy v) (M_Rect.vy w) && isEqual (M_Rect.vz v) (M_Rect.vz w)) (text label) (show3 fmt v) (arrow (show3 fmt v) (show3 fmt w))).
Proof.
  intros fmt op label P. split; intros v w; [unfold print_v2, M_Geometry.ne2|unfold print_v3, M_Geometry.ne3]; unfold field_report; destruct op; rewrite ?(row_plain label _ P); try reflexivity; rewrite !(proj1 (C92_consistent _ _)).
  - rewrite <- negb_andb. now destruct (_ && _).
  - rewrite <- !negb_andb. now destruct (_ && _).
Qed.
(** * C132: the report of a comparison of two sequences *)
Definition shape (s : dstep) : Prop :=
  match d_op s with
  | DStart | DEqual => d_obj1 s = None /\ d_obj2 s = None
  | DModified => (exists a, d_obj1 s = Some a) /\ exists b, d_obj2 s = Some b
  | DAdd | DDelete => (exists a, d_obj1 s = Some a) /\ d_obj2 s = None
  end.
Lemma bt_shape eq u v fuel n : forall k i st l, backtrace eq u v fuel k i st n = Val l -> Forall shape l.
Proof.
  induction n as [|n IH]; intros k i st l E; [discriminate|]. cbn [backtrace] in E.
  destruct (bt_op eq u v fuel k i st) as [[op st']| | |]; cbn [bind] in E; try discriminate.
  assert (K : forall (m : out (list dstep)) s, shape s -> (forall r, m = Val r -> Forall shape r) -> (let* r := m in Val (r ++ [s])) = Val l -> Forall shape l).
  { intros m s S M H. destruct m as [r| | |]; try discriminate. cbn [bind] in H. injection H as <-. apply Forall_app. split; [now apply M|now repeat constructor]. }
  destruct op.
  - destruct (objectV u v k i) as [a| | |]; cbn [bind] in E; try discriminate. eapply K; [| |exact E]; [split; [now exists a|reflexivity]|]. intros r. destruct (k =? 0); [apply IH|]. destruct (k >=? 0); apply IH.
  - destruct (objectV u v k i) as [a| | |]; cbn [bind] in E; try discriminate. eapply K; [| |exact E]; [split; [now exists a|reflexivity]|]. intros r. destruct (k =? 0); [apply IH|]. destruct (k >=? 0); apply IH.
  - destruct (objectU u v k i) as [a| | |]; cbn [bind] in E; try discriminate. destruct (objectV u v k i) as [b| | |]; cbn [bind] in E; try discriminate. eapply K; [| |exact E]; [split; [now exists a|now exists b]|]. intros r. apply IH.
  - eapply K; [| |exact E]; [split; reflexivity|]. intros r. apply IH.
  - injection E as <-. repeat constructor.
Qed.
Lemma solve_shape eq u v fuel d l : solve eq u v fuel = Val (d, l) -> Forall shape l.
Proof.
  unfold solve. cbv zeta. destruct (entry eq u v fuel _ _ _) as [[d' st]| | |]; cbn [bind]; try discriminate. destruct (backtrace _ _ _ _ _ _ _ _) as [r| | |] eqn:E; cbn [bind]; try discriminate. intros H. injection H as _ <-. exact (bt_shape _ _ _ _ _ _ _ _ _ E).
Qed.
Definition change_entry (ty : Z -> Z) (name : Z -> jstr) (details : Z -> option Z -> list Z) (s : dstep) : list Z := print_obj ty name details (d_op s) (d_obj1 s) (d_obj2 s).
Lemma entry_change ty name details s : shape s -> (is_change (d_op s) = true -> entry_start (change_entry ty name details s)) /\ (is_change (d_op s) = false -> change_entry ty name details s = []).
Proof.
  destruct s as [o a b]. unfold shape, change_entry, entry_start. cbn [d_op d_obj1 d_obj2]. destruct o; cbn [is_change].
  - intros [(x & ->) ->]. split; [intros _|discriminate]. cbn. do 2 eexists. split; [reflexivity|]. auto.
  - intros [(x & ->) ->]. split; [intros _|discriminate]. cbn. do 2 eexists. split; [reflexivity|]. auto.
  - intros [(x & ->) (y & ->)]. split; [intros _|discriminate]. cbn [print_obj]. destruct (negb (ty x =? ty y) && true); cbn; do 2 eexists; (split; [reflexivity|]); auto.
  - intros [-> ->]. split; [discriminate|reflexivity].
  - intros [-> ->]. split; [discriminate|reflexivity].
Qed.
Lemma trace_entries ty name details l : Forall shape l -> exists es, print_trace ty name details l = concat es /\ Forall entry_start es /\ zlen es = changes (map d_op l) /\
  Forall (fun e => exists s, In s l /\ e = change_entry ty name details s) es.
Proof.
  induction 1 as [|s l S _ (es & E & F & L & G)]; [exists []; repeat split; constructor|].
  destruct (entry_change ty name details s S) as [C N].
  assert (X : changes (map d_op (s :: l)) = (if is_change (d_op s) then 1 else 0) + changes (map d_op l)) by (unfold changes; cbn [map filter]; destruct (is_change (d_op s)); rewrite ?zlen_cons; lia).
  rewrite X. cbn [print_trace]. fold (change_entry ty name details s). destruct (is_change (d_op s)).
  - exists (change_entry ty name details s :: es). split; [cbn; now rewrite E|]. split; [constructor; auto|]. split; [rewrite zlen_cons; lia|]. constructor; [exists s; split; [now left|reflexivity]|]. eapply Forall_impl; [|exact G]. cbn. intros e (t & I & H). exists t. split; [now right|exact H].
  - exists es. rewrite (N eq_refl). split; [exact E|]. split; [exact F|]. split; [exact L|]. eapply Forall_impl; [|exact G]. cbn. intros e (t & I & H). exists t. split; [now right|exact H].
Qed.
(** the report has one entry per change, and the number of changes is the least possible; it is empty exactly for sequences equal element by element *)
Theorem C132_report : forall eq, (forall x y, eq x y = eq y x) -> forall u v fuel, Z.min (zlen u) (zlen v) < 2 ^ 31 -> enough u v fuel ->
  exists d trace, solve eq u v fuel = Val (d, trace) /\ least_cost eq d u v /\
  forall ty name details, (exists entries, print_trace ty name details trace = concat entries /\ Forall entry_start entries /\ zlen entries = d) /\
    (print_trace ty name details trace = [] <-> Forall2 (fun x y => eq x y = true) u v).
Proof.
  intros eq sym u v fuel A B. destruct (C42_script eq sym u v fuel A B) as (d & steps & E & So & Ch & Mi). destruct (C41_distance eq sym u v fuel A B) as (d' & tr & E' & Lc). rewrite E in E'. injection E' as <- <-.
  exists d, (DStep DStart None None :: steps). split; [exact E|]. split; [exact Lc|]. intros ty name details.
  assert (X : changes (map d_op (DStep DStart None None :: steps)) = d) by exact Ch.
  destruct (trace_entries ty name details _ (solve_shape _ _ _ _ _ _ E)) as (es & P & F & L & _). rewrite X in L. split; [exists es; auto|].
  rewrite P. transitivity (d = 0).
  - split.
    + intros H. destruct es as [|e es]; [rewrite <- L; reflexivity|]. exfalso. inversion F as [|? ? (c & r & -> & _)]; subst. discriminate.
    + intros ->. destruct es as [|e es]; [reflexivity|]. rewrite zlen_cons in L. pose proof (zlen_nonneg es). lia.
  - rewrite <- (C41_zero eq sym u v fuel A B). split; [intros ->; eauto|]. intros (t & H). rewrite E in H. congruence.
Qed.
Lemma no_break_app a b : no_break a -> no_break b -> no_break (a ++ b).
Proof. unfold no_break. intros A B H. apply in_app_or in H. tauto. Qed.
Lemma no_break_plain t : plain t -> no_break t.
Proof. intros H I. unfold plain in H. rewrite Forall_forall in H. specialize (H _ I). lia. Qed.
(** objects that keep Object::printDiffInfo: one line per change *)
Theorem C132_lines : forall eq, (forall x y, eq x y = eq y x) -> forall u v fuel, Z.min (zlen u) (zlen v) < 2 ^ 31 -> enough u v fuel ->
  exists d trace, solve eq u v fuel = Val (d, trace) /\ least_cost eq d u v /\
  forall ty name, (forall x, plain (text (name x))) -> exists lines, print_trace ty name (fun _ _ => []) trace = concat (map (fun l => l ++ [10]) lines) /\ zlen lines = d /\
    Forall (fun l => entry_start l /\ no_break l) lines.
Proof.
  intros eq sym u v fuel A B. destruct (C42_script eq sym u v fuel A B) as (d & steps & E & So & Ch & Mi). destruct (C41_distance eq sym u v fuel A B) as (d' & tr & E' & Lc). rewrite E in E'. injection E' as <- <-.
  exists d, (DStep DStart None None :: steps). split; [exact E|]. split; [exact Lc|]. intros ty name PN. pose proof (solve_shape _ _ _ _ _ _ E) as SH.
  destruct (trace_entries ty name (fun _ _ => []) _ SH) as (es & P & F & L & G). assert (X : changes (map d_op (DStep DStart None None :: steps)) = d) by exact Ch. rewrite X in L.
  assert (K : forall e, In e es -> exists l, e = l ++ [10] /\ entry_start l /\ no_break l).
  { intros e I. rewrite Forall_forall in G, F, SH. destruct (G e I) as (s & Is & ->). specialize (F _ I). specialize (SH s Is). destruct s as [o a b]. unfold change_entry, shape in *. cbn [d_op d_obj1 d_obj2] in *.
    assert (NB : forall x, no_break (text (name x))) by (intros x; now apply no_break_plain).
    destruct o.
    - destruct SH as [(x & ->) ->]. cbn [print_obj]. rewrite (show_plain _ (PN x)). exists (lit_ "A " ++ text (name x)). split; [now rewrite <- app_assoc|]. split; [cbn; do 2 eexists; split; [reflexivity|]; cbn; tauto|]. apply no_break_app; [|apply NB]. intros H. cbn in H. lia.
    - destruct SH as [(x & ->) ->]. cbn [print_obj]. rewrite (show_plain _ (PN x)). exists (lit_ "D " ++ text (name x)). split; [now rewrite <- app_assoc|]. split; [cbn; do 2 eexists; split; [reflexivity|]; cbn; tauto|]. apply no_break_app; [|apply NB]. intros H. cbn in H. lia.
    - destruct SH as [(x & ->) (y & ->)]. cbn [print_obj]. rewrite (show_plain _ (PN x)), (show_plain _ (PN y)). destruct (negb (ty x =? ty y) && true).
      + exists (lit_ "R " ++ text (name x) ++ lit_ " -> " ++ text (name y) ++ lit_ ":"). split; [now rewrite <- !app_assoc|]. split; [cbn; do 2 eexists; split; [reflexivity|]; cbn; tauto|].
        repeat apply no_break_app; try apply NB; intros H; cbn in H; lia.
      + exists (lit_ "M " ++ text (name x)). rewrite app_nil_r. split; [now rewrite <- app_assoc|]. split; [cbn; do 2 eexists; split; [reflexivity|]; cbn; tauto|]. apply no_break_app; [|apply NB]. intros H. cbn in H. lia.
    - destruct SH as [-> ->]. destruct F as (c & r & H & _). discriminate.
    - destruct SH as [-> ->]. destruct F as (c & r & H & _). discriminate. }
  clear F G. rewrite P. revert L. clear P. generalize d. clear - K. induction es as [|e es IH]; intros d L.
  - exists []. split; [reflexivity|]. split; [exact L|constructor].
  - rewrite zlen_cons in L. destruct (IH (fun e' H => K e' (or_intror H)) (d - 1) ltac:(lia)) as (ls & E & Ll & F). destruct (K e (or_introl eq_refl)) as (l & -> & S). exists (l :: ls). cbn [concat map]. rewrite E. split; [reflexivity|]. split; [rewrite zlen_cons; lia|]. constructor; assumption.
Qed.
(** the entries themselves *)
Theorem C132_entry : forall ty name details a b, plain (text (name a)) ->
  print_obj ty name details DAdd (Some a) None = [65; 32] ++ text (name a) ++ [10] /\
  print_obj ty name details DDelete (Some a) None = [68; 32] ++ text (name a) ++ [10] /\
  (ty a = ty b -> print_obj ty name details DModified (Some a) (Some b) = [77; 32] ++ text (name a) ++ [10] ++ details a (Some b)) /\
  (ty a <> ty b -> plain (text (name b)) -> print_obj ty name details DModified (Some a) (Some b) = [82; 32] ++ arrow (text (name a)) (text (name b)) ++ [58; 10]).
Proof.
  intros ty name details a b P. cbn [print_obj]. rewrite (show_plain _ P). split; [reflexivity|]. split; [reflexivity|]. split.
  - intros E. rewrite (proj2 (Z.eqb_eq _ _) E). reflexivity.
  - intros E Pb. rewrite (proj2 (Z.eqb_neq _ _) E), (show_plain _ Pb). unfold arrow. cbn [negb andb]. rewrite <- !app_assoc. reflexivity.
Qed.
(** the report can leave out the object that was added and name another one: 6 is only in the second sequence, 4 is in both, "A 4" is reported *)
Theorem C132_added_refuted : exists u v trace name, solve Z.eqb u v 200 = Val (4, trace) /\ (forall y, text (name y) = [48 + y]) /\
  print_trace (fun _ => 0) name (fun _ _ => []) trace = [68;32;49;10] ++ [68;32;50;10] ++ [65;32;52;10] ++ [68;32;57;10] /\
  In 6 v /\ ~ In 6 u /\ In 4 u /\ In 4 v.
Proof.
  exists [1;2;3;4;5;9], [3;4;6;5]. eexists. exists (fun y => JS [48 + y] 1 0). split; [vm_compute; reflexivity|]. split; [reflexivity|]. split; [vm_compute; reflexivity|].
  split; [cbn; auto|]. split; [cbn; lia|]. split; cbn; auto.
Qed.
(** the hypotheses are met *)
Example diffinfo_ex : plain (text (str_of [102; 108; 97; 103])) /\ print_i32 DModified (-12) 30 (str_of [102; 108; 97; 103]) = Val (lit_ "  flag: -12 -> 30 delta: 42" ++ [10]) /\
  print_str DModified (str_of [97]) (str_of [98; 99]) (str_of [110]) = Val (lit_ "  n: a -> bc" ++ [10]) /\ print_ignore_case DModified (str_of [97]) (str_of [65]) (str_of [110]) = Val [].
Proof. split; [vm_compute; repeat constructor; discriminate|]. split; [vm_compute; reflexivity|]. split; vm_compute; reflexivity. Qed.
Print Assumptions C132_signed.
Print Assumptions C132_int32.
Print Assumptions C132_overflow_refuted.
Print Assumptions C132_unsigned.
Print Assumptions C132_unsigned_delta_refuted.
Print Assumptions C132_readable.
Print Assumptions C132_text.
Print Assumptions C132_text_silent.
Print Assumptions C132_text_refuted.
Print Assumptions C132_double.
Print Assumptions C132_double_tolerance.
Print Assumptions C132_vertices.
Print Assumptions C132_report.
Print Assumptions C132_lines.
Print Assumptions C132_entry.
Print Assumptions C132_added_refuted.
