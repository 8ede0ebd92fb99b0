(** P_Tokenizer.v -- StringTokenizer (C20). *)
From Verif Require Import Base M_String M_Tokenizer S_String S_Tokenizer L_String L_Tokenizer.

(** every interleaving of hasNext() and next() sees an iterator over the tokens of the text *)
Theorem C20_iterates_tokens : forall s d ret cs, sound s -> sound d ->
  (let* t := tok_new s d ret in run_tok cs t) = Val (iterate cs (tokens ret (is_in (text d)) [] (text s))).
Proof.
  intros s d ret cs Hs Hd. apply sound_repr in Hs, Hd. unfold tok_new. destruct (copy_ctor_ok s _ Hs) as (s' & -> & Rs & _). cbn [bind]. destruct (copy_ctor_ok d _ Hd) as (d' & -> & Rd & _). cbn [bind].
  apply (run_ok (text s) (text d) ret). split; [split; [exact Rs|split; [exact Rd|reflexivity]]|]. exists [], (text s). split; [reflexivity|]. split; [reflexivity|]. left. auto.
Qed.
(** with the delimiters returned, the tokens put together are the text; otherwise the text without its delimiters *)
Theorem C20_tokens_partition : forall ret d t,
  concat (tokens ret (is_in d) [] t) = filter (fun c => ret || negb (is_in d c)) t /\
  Forall (fun x => x <> [] /\ (forallb (fun c => negb (is_in d c)) x = true \/ (ret = true /\ exists c, x = [c] /\ is_in d c = true))) (tokens ret (is_in d) [] t).
Proof.
  intros ret d t.
  assert (K : forall t cur, forallb (fun c => negb (is_in d c)) cur = true ->
    concat (tokens ret (is_in d) cur t) = cur ++ filter (fun c => ret || negb (is_in d c)) t /\
    Forall (fun x => x <> [] /\ (forallb (fun c => negb (is_in d c)) x = true \/ (ret = true /\ exists c, x = [c] /\ is_in d c = true))) (tokens ret (is_in d) cur t)).
  { clear t. induction t as [|c t IH]; intros cur H; cbn [tokens filter].
    - rewrite app_nil_r. destruct cur as [|a cur]; [split; [reflexivity|constructor]|]. cbn [concat]. rewrite app_nil_r. split; [reflexivity|]. constructor; [|constructor]. split; [discriminate|auto].
    - destruct (is_in d c) eqn:D.
      + destruct (IH [] eq_refl) as [I1 I2]. cbn [app] in I1. split.
        * rewrite !concat_app, I1. destruct ret; cbn [orb negb concat app].
          -- destruct cur; cbn [concat app]; [reflexivity|]. now rewrite app_nil_r.
          -- destruct cur; cbn [concat app]; [reflexivity|]. now rewrite app_nil_r.
        * apply Forall_app. split; [destruct cur as [|a cur]; constructor; [|constructor]; split; [discriminate|auto]|]. apply Forall_app. split; [|exact I2]. destruct ret; constructor; [|constructor]. split; [discriminate|]. right. split; [reflexivity|]. eauto.
      + destruct (IH (cur ++ [c])) as [I1 I2]; [rewrite forallb_app, H; cbn [forallb]; now rewrite D|]. split; [|exact I2]. rewrite I1. cbn [negb]. rewrite orb_true_r, <- app_assoc. reflexivity. }
  exact (K t [] eq_refl).
Qed.
(** "a,,b;" with ",;": a b, and with the delimiters a , , b ; -- next() past the end throws, hasNext() may be repeated *)
Example C20_ex : tokens false (is_in [44; 59]) [] [97; 44; 44; 98; 59] = [[97]; [98]] /\ tokens true (is_in [44; 59]) [] [97; 44; 44; 98; 59] = [[97]; [44]; [44]; [98]; [59]] /\
  (let* t := tok_new (str_of [97; 44; 44; 98; 59]) (str_of [44; 59]) false in run_tok [HasNext; HasNext; Next; Next; HasNext; Next; Next] t)
    = Val [Has true; Has true; Token (Some [97]); Token (Some [98]); Has false; Token None; Token None].
Proof. repeat split; vm_compute; reflexivity. Qed.
Print Assumptions C20_iterates_tokens. Print Assumptions C20_tokens_partition.
