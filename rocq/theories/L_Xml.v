From Coq Require Import Ascii String.
From Verif Require Import Base M_Base64 S_Base64 M_String M_Tokenizer S_String S_Tokenizer L_String L_Tokenizer M_Xml S_Xml P_Base64.
Ltac Zify.zify_post_hook ::= Z.to_euclidean_division_equations.
Open Scope list_scope.
Notation length := List.length.
Lemma same_iff a : forall b, same a b = true <-> a = b.
Proof.
  induction a as [|x a IH]; intros [|y b]; cbn [same]; split; intros H; try discriminate; try reflexivity.
  - apply andb_true_iff in H as [H1 H2]. apply Z.eqb_eq in H1. apply IH in H2. now subst.
  - injection H as -> ->. rewrite Z.eqb_refl. now apply IH.
Qed.
Lemma same_refl a : same a a = true. Proof. now apply same_iff. Qed.
Definition dels : list Z := str "&<>""'".
Lemma repr_chars s t : repr s t -> chars_of s = t.
Proof. intros H. apply repr_text in H as [H _]. exact H. Qed.
Lemma str_of_repr xs : repr (str_of xs) xs.
Proof. unfold repr, str_of. cbn [buf len]. eauto. Qed.
Lemma encode_loop_ok s : forall fuel st acc ts, inv s dels true st ts -> (length ts < fuel)%nat -> encode_loop st acc fuel = Val (acc ++ flat_map encode_token ts).
Proof.
  induction fuel as [|fuel IH]; intros st acc ts I H; [lia|]. cbn [encode_loop]. destruct (has_next_ok s dels true st ts I) as (st1 & -> & I1). cbn [bind]. destruct ts as [|x ts]; [cbn [flat_map]; now rewrite app_nil_r|].
  destruct (next_ok s dels true st1 (x :: ts) I1) as (o & st2 & -> & (r & -> & R) & I2). cbn [bind]. rewrite (IH st2 _ ts I2) by (cbn [length] in H; lia). rewrite (repr_chars _ _ R). cbn [flat_map]. now rewrite <- app_assoc.
Qed.
Lemma esc_plain c : is_in dels c = false -> escape c = [c].
Proof.
  unfold is_in, dels, escape. cbn. rewrite !orb_false_iff. intros (A & B & C & D & E & _). now rewrite A, B, C, D, E.
Qed.
Lemma esc_plain_run cur : forallb (fun c => negb (is_in dels c)) cur = true -> flat_map escape cur = cur.
Proof. induction cur as [|c cur IH]; [reflexivity|]. cbn [forallb flat_map]. intros H. apply andb_true_iff in H as [H1 H2]. rewrite esc_plain by now destruct (is_in dels c). cbn [app]. f_equal. auto. Qed.
Lemma encode_token_plain cur : forallb (fun c => negb (is_in dels c)) cur = true -> encode_token cur = cur.
Proof.
  intros H. unfold encode_token.
  assert (K : forall c, is_in dels c = true -> same cur [c] = false). { intros c D. destruct (same cur [c]) eqn:E; [|reflexivity]. apply same_iff in E. subst cur. cbn [forallb] in H. now rewrite D in H. }
  change (str "&") with [38]. change (str "<") with [60]. change (str ">") with [62]. change (str """") with [34]. change (str "'") with [39]. rewrite !K by reflexivity. reflexivity.
Qed.
Lemma encode_token_del c : is_in dels c = true -> encode_token [c] = escape c.
Proof.
  intros H. unfold is_in, dels in H. cbn in H. unfold encode_token, escape. cbn [same str]. change (str "&") with [38]. change (str "<") with [60]. change (str ">") with [62]. change (str """") with [34]. change (str "'") with [39]. cbn [same]. rewrite !andb_true_r.
  destruct (c =? 38), (c =? 60), (c =? 62), (c =? 34), (c =? 39); reflexivity.
Qed.
Lemma encode_tokens t : forall cur, forallb (fun c => negb (is_in dels c)) cur = true -> flat_map encode_token (tokens true (is_in dels) cur t) = cur ++ flat_map escape t.
Proof.
  induction t as [|c t IH]; intros cur H; cbn [tokens flat_map].
  - destruct cur as [|a cur]; [reflexivity|]. cbn [flat_map]. rewrite encode_token_plain by exact H. reflexivity.
  - destruct (is_in dels c) eqn:D.
    + rewrite !flat_map_app, IH by reflexivity. cbn [flat_map app]. rewrite encode_token_del by exact D. destruct cur as [|a cur]; cbn [flat_map app]; rewrite ?encode_token_plain by exact H; cbn [app]; rewrite ?app_nil_r, <- ?app_assoc; reflexivity.
    + rewrite IH by (rewrite forallb_app, H; cbn [forallb]; now rewrite D). rewrite esc_plain by exact D. now rewrite <- app_assoc.
Qed.
Lemma tokens_count isd t : forall cur, (length (tokens true isd cur t) <= length t + match cur with [] => 0 | _ => 1 end)%nat.
Proof.
  induction t as [|c t IH]; intros cur; cbn [tokens length].
  - destruct cur; cbn; lia.
  - destruct (isd c); [rewrite !app_length; specialize (IH []); destruct cur; cbn [length] in *; lia|]. specialize (IH (cur ++ [c])). destruct cur; cbn [app] in *; lia.
Qed.
Lemma encode_ok t : encode t = Val (flat_map escape t).
Proof.
  unfold encode, tok_new. destruct (copy_ctor_ok (str_of t) t (str_of_repr t)) as (s' & -> & Rs & _). cbn [bind]. destruct (copy_ctor_ok (str_of dels) dels (str_of_repr dels)) as (d' & E & Rd & _). unfold dels in E at 1. rewrite E. cbn [bind].
  rewrite (encode_loop_ok t (S (length t)) _ [] (tokens true (is_in dels) [] t)).
  - rewrite encode_tokens by reflexivity. reflexivity.
  - split; [split; [exact Rs|split; [exact Rd|reflexivity]]|]. exists [], t. split; [reflexivity|]. split; [reflexivity|]. left. auto.
  - pose proof (tokens_count (is_in dels) t []) as H. cbn match in H. lia.
Qed.
(** ** the writer *)
Lemma out_write w s : w_out (write w s) = w_out w ++ s. Proof. reflexivity. Qed.
(** an open element of the writer that has content *)
Definition mk (f : frame) (content : bool) : elem := EL (fst (fst f)) (snd (fst f)) content (snd f).
Definition opens (st : list frame) : list elem := map (fun f => mk f true) st.
Definition rest_items (h : list call) (f : frame) (st : list frame) (ind : Z) : list Z :=
  match group h with
  | GEnd :: g => str "/>" ++ flat_map show (items g st ind false false)
  | g => str ">" ++ flat_map show (items g (f :: st) ind false true)
  end.
(** no start tag is left open *)
Fixpoint shut (pend : bool) (h : list call) : bool :=
  match h with [] => negb pend | CAttr _ _ :: h => shut pend h | CStart _ :: h => shut true h | _ :: h => shut false h end.
Definition bytes_ok (c : call) : Prop := match c with CBase64 d => Forall byte d | _ => True end.
Lemma start_items n a g st ind last fresh : flat_map show (items (GStart n a :: g) st ind last fresh) =
  (if last then 10 :: repeat 32 (Z.to_nat ind) else []) ++ str "<" ++ n ++ flat_map show_attr a ++
  match g with GEnd :: g => str "/>" ++ flat_map show (items g st ind false false) | _ => str ">" ++ flat_map show (items g ((n, last, false) :: st) ind false true) end.
Proof.
  cbn [items]. rewrite flat_map_app. f_equal; [destruct last; cbn [flat_map show newline]; rewrite ?app_nil_r; reflexivity|].
  destruct g as [|[n' a'| | | | | |] g]; cbn [flat_map show]; rewrite <- ?app_assoc; reflexivity.
Qed.
Lemma rest_items_open h f st ind : (forall g, group h <> GEnd :: g) -> rest_items h f st ind = str ">" ++ flat_map show (items (group h) (f :: st) ind false true).
Proof. intros H. unfold rest_items. destruct (group h) as [|[]]; try reflexivity. exfalso. eapply H. reflexivity. Qed.
Lemma close_id o ind last st : close_start (W o ind last (opens st)) = W o ind last (opens st).
Proof. destruct st as [|[[n i] c] st]; reflexivity. Qed.
Lemma close_fresh o ind last n i c st : close_start (W o ind last (mk (n, i, c) false :: opens st)) = W (o ++ str ">") ind last (opens ((n, i, c) :: st)).
Proof. reflexivity. Qed.
Lemma mark_chars o ind last st : (match opens st with e :: l => set_open (W o ind last (opens st)) (EL (e_name e) (e_indent e) (e_content e) true :: l) | [] => W o ind last (opens st) end) = W o ind last (opens (has_chars st)).
Proof. destruct st as [|[[n i] c] st]; reflexivity. Qed.
Lemma start_open o ind (last : bool) st n : (let w := if last then write_indent (W o ind last (opens st)) else W o ind last (opens st) in let w := write (write w (str "<")) n in set_last (set_open w (EL n (w_last w) false false :: w_open w)) false)
  = W (o ++ (if last then 10 :: repeat 32 (Z.to_nat ind) else []) ++ str "<" ++ n) ind false (mk (n, last, false) false :: opens st).
Proof. destruct last; cbv zeta; unfold write_indent, write, set_last, set_open, mk; cbn [w_out w_indent w_last w_open fst snd app]; rewrite <- ?app_assoc; reflexivity. Qed.
Lemma run_calls : forall h, Forall bytes_ok h ->
  (forall o st ind last, shut false h = true -> exists w, exec_calls (W o ind last (opens st)) h = Val w /\ w_out w = o ++ flat_map show (items (group h) st ind last false)) /\
  (forall o n i st ind, shut true h = true -> exists w, exec_calls (W o ind false (mk (n, i, false) false :: opens st)) h = Val w /\
     w_out w = o ++ flat_map show_attr (attr_run h) ++ rest_items h (n, i, false) st ind).
Proof.
  induction h as [|c h IH]; intros Hb.
  { split; intros; [|discriminate]. eexists. split; [reflexivity|]. cbn. now rewrite app_nil_r. }
  apply Forall_cons_iff in Hb as [Hc Hb]. destruct (IH Hb) as [A B]. clear IH. cbn [exec_calls].
  split.
  - intros o st ind last Hs. destruct c as [| |n| |t enc|d|n v]; cbn [shut] in Hs; cbn [exec_call bind].
    + unfold start_indent. rewrite close_id. exact (A o st (ind + 3) true Hs).
    + unfold end_indent. rewrite close_id. exact (A o st (ind - 3) false Hs).
    + unfold start_element. rewrite close_id. cbn [w_last]. pose proof (start_open o ind last st n) as E. cbv zeta in E |- *. rewrite E. clear E.
      destruct (B (o ++ (if last then 10 :: repeat 32 (Z.to_nat ind) else []) ++ str "<" ++ n) n last st ind Hs) as (w & -> & O). exists w. split; [reflexivity|]. rewrite O. cbn [group]. rewrite start_items. rewrite <- !app_assoc. unfold rest_items. destruct (group h) as [|[]]; reflexivity.
    + unfold end_element. destruct st as [|[[n i] c] st]; cbn [opens map w_open]; [exact (A o [] ind false Hs)|]. cbn [mk e_content negb e_indent e_chars e_name fst snd group items].
      fold (opens st). destruct (i && negb c).
      * destruct (A (o ++ show (newline ind) ++ show (IClose n)) st ind false Hs) as (w & E & O). exists w. split; [|rewrite O; cbn [flat_map app]; now rewrite <- !app_assoc].
        rewrite <- E. f_equal. unfold write_indent, write, set_last, set_open. cbn [w_out w_indent w_last w_open]. f_equal. cbn [show newline]. rewrite <- !app_assoc. reflexivity.
      * destruct (A (o ++ show (IClose n)) st ind false Hs) as (w & E & O). exists w. split; [|rewrite O; cbn [flat_map app]; now rewrite <- !app_assoc].
        rewrite <- E. f_equal. unfold write_indent, write, set_last, set_open. cbn [w_out w_indent w_last w_open]. f_equal. cbn [show newline]. rewrite <- !app_assoc. reflexivity.
    + unfold write_cdata. rewrite close_id. cbn [w_open]. rewrite mark_chars. cbv zeta. destruct enc.
      * rewrite encode_ok. cbn [bind]. unfold write, set_last. cbn [w_out w_indent w_last w_open group items]. destruct (A (o ++ flat_map escape t) (has_chars st) ind false Hs) as (w & -> & O). exists w. split; [reflexivity|]. rewrite O. cbn [flat_map show]. now rewrite <- app_assoc.
      * cbn [bind]. unfold write, set_last. cbn [w_out w_indent w_last w_open group items]. destruct (A (o ++ t) (has_chars st) ind false Hs) as (w & -> & O). exists w. split; [reflexivity|]. rewrite O. cbn [flat_map show]. now rewrite <- app_assoc.
    + unfold write_base64. rewrite (C02_encode_is_rfc4648 d Hc). cbn [bind w_open]. destruct (A (o ++ rfc_encode d) st ind false Hs) as (w & E & O). exists w. split; [|rewrite O; cbn [group items flat_map show]; now rewrite <- app_assoc].
      rewrite <- E. destruct st as [|[[n i] c] st]; reflexivity.
    + unfold write_attribute. cbn [w_open]. destruct (A o st ind last Hs) as (w & E & O). exists w. split; [|exact O]. rewrite <- E. destruct st as [|[[m i] c] st]; reflexivity.
  - intros o n i st ind Hs. destruct c as [| |m| |t enc|d|m v]; cbn [shut] in Hs; cbn [exec_call bind].
    + unfold start_indent. rewrite close_fresh. destruct (A (o ++ str ">") ((n, i, false) :: st) (ind + 3) true Hs) as (w & E & O). exists w. split; [exact E|]. rewrite O. rewrite rest_items_open by (intros; cbn [group]; discriminate). cbn [attr_run flat_map app group items]. now rewrite <- app_assoc.
    + unfold end_indent. rewrite close_fresh. destruct (A (o ++ str ">") ((n, i, false) :: st) (ind - 3) false Hs) as (w & E & O). exists w. split; [exact E|]. rewrite O. rewrite rest_items_open by (intros; cbn [group]; discriminate). cbn [attr_run flat_map app group items]. now rewrite <- app_assoc.
    + unfold start_element. rewrite close_fresh. cbn [w_last]. pose proof (start_open (o ++ str ">") ind false ((n, i, false) :: st) m) as E. cbv zeta in E |- *. rewrite E. clear E.
      destruct (B ((o ++ str ">") ++ str "<" ++ m) m false ((n, i, false) :: st) ind Hs) as (w & E & O). exists w. split; [exact E|]. rewrite O. rewrite (rest_items_open (CStart m :: h)) by (intros; cbn [group]; discriminate). cbn [group]. rewrite start_items. cbn [attr_run flat_map app]. rewrite <- !app_assoc. unfold rest_items. destruct (group h) as [|[]]; reflexivity.
    + unfold end_element. cbn [w_open mk e_content negb e_indent e_chars e_name fst snd]. destruct (A (o ++ str "/>") st ind false Hs) as (w & E & O). exists w. split; [exact E|]. rewrite O. unfold rest_items. cbn [attr_run flat_map app group]. now rewrite <- !app_assoc.
    + unfold write_cdata. rewrite close_fresh. cbn [w_open]. rewrite mark_chars. cbv zeta. rewrite rest_items_open by (intros; destruct enc; cbn [group]; discriminate). cbn [attr_run flat_map app]. destruct enc.
      * rewrite encode_ok. cbn [bind]. unfold write, set_last. cbn [w_out w_indent w_last w_open group items]. destruct (A ((o ++ str ">") ++ flat_map escape t) (has_chars ((n, i, false) :: st)) ind false Hs) as (w & E & O). exists w. split; [exact E|]. rewrite O. cbn [flat_map show]. now rewrite <- !app_assoc.
      * cbn [bind]. unfold write, set_last. cbn [w_out w_indent w_last w_open group items]. destruct (A ((o ++ str ">") ++ t) (has_chars ((n, i, false) :: st)) ind false Hs) as (w & E & O). exists w. split; [exact E|]. rewrite O. cbn [flat_map show]. now rewrite <- !app_assoc.
    + unfold write_base64. rewrite (C02_encode_is_rfc4648 d Hc). cbn [bind w_open mk e_content]. destruct (A ((o ++ str ">") ++ rfc_encode d) (has_chars ((n, i, false) :: st)) ind false Hs) as (w & E & O). exists w. split; [exact E|]. rewrite O. rewrite rest_items_open by (intros; cbn [group]; discriminate). cbn [attr_run group items flat_map show app]. now rewrite <- !app_assoc.
    + unfold write_attribute. cbn [w_open mk e_content]. rewrite encode_ok. cbn [bind].
      destruct (B (o ++ show_attr (m, v)) n i st ind Hs) as (w & E & O). exists w. split; [|rewrite O; cbn [attr_run flat_map]; unfold rest_items; cbn [group]; now rewrite <- !app_assoc].
      rewrite <- E. f_equal. unfold write, set_last. cbn [w_out w_indent w_last w_open]. f_equal. unfold show_attr. cbn [fst snd]. rewrite <- !app_assoc. reflexivity.
Qed.
