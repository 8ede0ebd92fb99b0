(** L_DateFormat.v -- lemmas about date patterns. *)
From Coq Require Import Ascii String.
From Verif Require Import Base M_String M_Date M_Tokenizer M_Xml S_String S_Integer S_Date L_String L_Integer L_Date M_DateFormat S_DateFormat P_Date P_Integer.
Open Scope list_scope.
Lemma dec_ok n : - 2 ^ 63 < n < 2 ^ 63 -> exists t, dec n = Val t /\ decimal n t.
Proof. intros Hn. destruct (C16_valueOf_canonical n Hn) as (s & ds & E & Sd & T & C). unfold dec. rewrite E. cbn [bind]. eexists. split; [reflexivity|]. exists ds. split; [|exact C]. rewrite <- T. reflexivity. Qed.
Definition dec_table : list (list Z) := map (fun n => match dec (Z.of_nat n) with Val t => t | _ => [] end) (seq 0 1000).
Lemma dec_small n : 0 <= n < 1000 -> dec n = Val (nth (Z.to_nat n) dec_table []).
Proof.
  intros Hn. assert (X : forallb (fun k => match dec (Z.of_nat k) with Val t => same t (nth k dec_table []) | _ => false end) (seq 0 1000) = true) by (vm_compute; reflexivity).
  rewrite forallb_forall in X. specialize (X (Z.to_nat n)). rewrite Z2Nat.id in X by lia. assert (I : In (Z.to_nat n) (seq 0 1000)) by (apply in_seq; lia). specialize (X I). destruct (dec n) as [t| | |]; try discriminate. f_equal.
  revert X. generalize (nth (Z.to_nat n) dec_table []). clear. induction t as [|a t IH]; intros [|b u] H; cbn [same] in H; try discriminate; [reflexivity|]. apply andb_true_iff in H as [H1 H2]. apply Z.eqb_eq in H1. subst. f_equal. now apply IH.
Qed.
Lemma two_ok n : 0 <= n < 100 -> exists t, dec n = Val t /\ pad1 n t = two n.
Proof.
  intros Hn. exists (nth (Z.to_nat n) dec_table []). split; [apply dec_small; lia|].
  assert (X : forallb (fun k => same (pad1 (Z.of_nat k) (nth k dec_table [])) (two (Z.of_nat k))) (seq 0 100) = true) by (vm_compute; reflexivity).
  rewrite forallb_forall in X. specialize (X (Z.to_nat n)). rewrite Z2Nat.id in X by lia. assert (I : In (Z.to_nat n) (seq 0 100)) by (apply in_seq; lia). specialize (X I). clear I.
  revert X. generalize (pad1 n (nth (Z.to_nat n) dec_table [])), (two n). clear. intros t. induction t as [|a t IH]; intros [|b u] H; cbn [same] in H; try discriminate; [reflexivity|]. apply andb_true_iff in H as [H1 H2]. apply Z.eqb_eq in H1. subst. f_equal. now apply IH.
Qed.
Lemma three_ok n : 0 <= n < 1000 -> exists t, dec n = Val t /\ (if n <? 10 then [48] else []) ++ (if n <? 100 then [48] else []) ++ t = three n.
Proof.
  intros Hn. exists (nth (Z.to_nat n) dec_table []). split; [apply dec_small; lia|].
  assert (X : forallb (fun k => let n := Z.of_nat k in same ((if n <? 10 then [48] else []) ++ (if n <? 100 then [48] else []) ++ nth k dec_table []) (three n)) (seq 0 1000) = true) by (vm_compute; reflexivity).
  rewrite forallb_forall in X. specialize (X (Z.to_nat n)). cbv zeta in X. rewrite Z2Nat.id in X by lia. assert (I : In (Z.to_nat n) (seq 0 1000)) by (apply in_seq; lia). specialize (X I). clear I.
  revert X. generalize ((if n <? 10 then [48] else []) ++ (if n <? 100 then [48] else []) ++ nth (Z.to_nat n) dec_table []), (three n). clear. intros t. induction t as [|a t IH]; intros [|b u] H; cbn [same] in H; try discriminate; [reflexivity|]. apply andb_true_iff in H as [H1 H2]. apply Z.eqb_eq in H1. subst. f_equal. now apply IH.
Qed.
(** ** parsing *)
Definition seg_pat (s : seg) : pat := match s with Run c n => new_pat (repeat c n) | Quoted q => PText q end.
Lemma parse_quoted q : forall p token, ~ In 39 q -> parse_pattern (q ++ 39 :: p) token true true = PText (token ++ q) :: parse_pattern p [] false false.
Proof.
  induction q as [|c q IH]; intros p token H; cbn [app parse_pattern].
  - rewrite app_nil_r. reflexivity.
  - destruct (Z.eqb_spec c 39) as [->|N]; [exfalso; apply H; now left|]. rewrite IH by (intros X; apply H; now right). now rewrite <- app_assoc.
Qed.
Lemma parse_run c n : c <> 39 -> forall p k, parse_pattern (repeat c n ++ p) (repeat c k) false false = parse_pattern p (repeat c (k + n)) false false.
Proof.
  intros Nc p. induction n as [|n IH]; intros k; cbn [repeat app]; [now rewrite Nat.add_0_r|]. cbn [parse_pattern]. destruct (Z.eqb_spec c 39); [contradiction|].
  assert (E : (match repeat c k with [] => c | x :: _ => x end) = c) by (destruct k; reflexivity). rewrite E, Z.eqb_refl. cbn [negb].
  replace (repeat c k ++ [c]) with (repeat c (S k)) by (change [c] with (repeat c 1); rewrite <- repeat_app; f_equal; lia). rewrite IH. f_equal. f_equal. lia.
Qed.
Definition rest_ok (l : list seg) (c : Z) : Prop := match l with [] => True | Run c' _ :: _ => c <> c' | Quoted _ :: _ => False end.
Lemma parse_segs l : segs_ok l ->
  parse_pattern (source l) [] false false = map seg_pat l /\
  (forall c n, rest_ok l c -> (1 <= n)%nat -> parse_pattern (source l) (repeat c n) false false = new_pat (repeat c n) :: map seg_pat l).
Proof.
  induction l as [|s l IH]; intros H.
  - split; [reflexivity|]. intros c [|n] _ Hn; [lia|]. reflexivity.
  - destruct H as (Hs & Hf & Hl). specialize (IH Hl) as [I1 I2]. unfold source in *. cbn [flat_map]. destruct s as [c n|q]; cbn [seg_source seg_ok] in *.
    + destruct Hs as [Nc Hn]. assert (R : rest_ok l c) by (destruct l as [|[c' n'|q] l]; cbn in *; auto). split.
      * rewrite (parse_run c n Nc _ 0). cbn [plus]. rewrite I2 by (auto; lia). reflexivity.
      * intros c0 k Hr Hk. cbn in Hr. destruct n as [|n]; [lia|]. cbn [repeat app parse_pattern]. destruct (Z.eqb_spec c 39); [contradiction|]. destruct k as [|k]; [lia|]. cbn [repeat]. destruct (Z.eqb_spec c c0) as [->|_]; [contradiction|]. cbn [negb].
        change (c0 :: repeat c0 k) with (repeat c0 (S k)). f_equal. change [c] with (repeat c 1). rewrite parse_run by exact Nc. cbn [plus]. rewrite I2 by (auto; lia). reflexivity.
    + split; [|intros c0 k Hr; contradiction]. cbn [app]. rewrite <- app_assoc. cbn [app parse_pattern Z.eqb Pos.eqb negb]. rewrite parse_quoted by exact Hs. cbn [app map seg_pat]. now rewrite I1.
Qed.
Lemma formatter_segs l : segs_ok l -> new_formatter (source l) = map seg_pat l.
Proof.
  intros H. unfold new_formatter. destruct (Z.ltb_spec (zlen (source l)) 1) as [L|L]; [|now apply parse_segs].
  destruct l as [|s l]; [reflexivity|]. exfalso. unfold source in L. cbn [flat_map] in L. rewrite zlen_app in L. pose proof (zlen_nonneg (flat_map seg_source l)). destruct H as (Hs & _). destruct s as [c n|q]; cbn [seg_source seg_ok] in *.
  - destruct n; [lia|]. cbn [repeat] in L. rewrite zlen_cons in L. pose proof (zlen_nonneg (repeat c n)). lia.
  - change ([39] ++ q ++ [39]) with (39 :: q ++ [39]) in L. rewrite zlen_cons in L. pose proof (zlen_nonneg (q ++ [39])). lia.
Qed.
Lemma new_pat_run c n : (1 <= n <= 255)%nat -> new_pat (repeat c n) =
  (let z := Z.of_nat n in if c =? 121 then PYear z else if c =? 77 then PMonth z else if c =? 100 then PDay z else if c =? 72 then PHour z else if c =? 109 then PMinute z else if c =? 115 then PSecond z else if c =? 83 then PMilli z else if c =? 69 then PWeekDay z else PText (repeat c n)).
Proof.
  intros Hn. assert (L : u8 (zlen (repeat c n)) = Z.of_nat n) by (unfold zlen; rewrite repeat_length; unfold u8; apply Z.mod_small; lia). unfold new_pat. rewrite L. destruct n as [|n]; [lia|]. cbn [repeat]. cbv zeta.
  set (r := PText (c :: repeat c n)). clearbody r. generalize (Z.of_nat (S n)). intros z. clear.
  destruct (Z.eqb_spec c 121) as [->|]; [reflexivity|]. destruct (Z.eqb_spec c 77) as [->|]; [reflexivity|]. destruct (Z.eqb_spec c 100) as [->|]; [reflexivity|]. destruct (Z.eqb_spec c 72) as [->|]; [reflexivity|]. destruct (Z.eqb_spec c 109) as [->|]; [reflexivity|]. destruct (Z.eqb_spec c 115) as [->|]; [reflexivity|]. destruct (Z.eqb_spec c 83) as [->|]; [reflexivity|]. destruct (Z.eqb_spec c 69) as [->|]; [reflexivity|].
  destruct c as [|c|c]; try reflexivity. do 7 (try destruct c as [c|c|]; try reflexivity); congruence.
Qed.
