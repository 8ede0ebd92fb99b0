(** P_Deflater.v -- Deflater (C120), for every compressor z. *)
From Verif Require Import Base M_Deflater.
Local Open Scope Z_scope.
Definition byte (b : Z) : Prop := 0 <= b < 256.
Definition small (x : list Z) : Prop := zlen x < 2 ^ 32.

Lemma take_all {A} (l : list A) n : zlen l <= n -> firstn (Z.to_nat n) l = l.
Proof. intros H. apply firstn_all2. unfold zlen in H. lia. Qed.
Lemma zlen_nn {A} (l : list A) : 0 <= zlen l. Proof. unfold zlen. lia. Qed.
Lemma u32_small n : 0 <= n < 2 ^ 32 -> u32 n = n. Proof. intros H. unfold u32. now apply Z.mod_small. Qed.
Lemma chk_ok n : - 2 ^ 63 <= n < 2 ^ 63 -> chk64 n = Val n.
Proof. intros H. unfold chk64, in_s64. change (2 ^ 63) with 9223372036854775808 in H. replace (_ && _) with true; [reflexivity|]. symmetry. apply andb_true_intro. split; [apply Z.leb_le|first [apply Z.leb_le|apply Z.ltb_lt]]; lia. Qed.

Section Z.
Variable z : list Z -> list Z.
(** compress x with a deflater in state s *)
Definition compress (s : deflater) (x : list Z) : out (list Z * Z * deflater) := let* s := d_set_input s x (zlen x) in d_deflate z s.
Definition counters (s : deflater) : Prop := 0 <= totalInSize s < 2 ^ 62 /\ 0 <= totalOutSize s < 2 ^ 62.
Lemma compress_eq s x : small x -> counters s -> compress s x = (let o := firstn (length x) (z x) in Val (o, zlen o, D (Some (x, zlen x)) (totalInSize s + zlen x) (totalOutSize s + zlen o))).
Proof.
  unfold small, counters, totalInSize, totalOutSize. intros S [C1 C2]. pose proof (zlen_nn x). unfold compress, d_set_input. change (2 ^ 62) with 4611686018427387904 in *. change (2 ^ 32) with 4294967296 in *. rewrite chk_ok by lia. cbn [bind]. unfold d_deflate. cbn [dinput total_in total_out].
  rewrite (proj2 (Z.ltb_ge _ _)) by lia. rewrite u32_small by lia. rewrite Z.gtb_ltb. rewrite (proj2 (Z.ltb_ge _ _)) by lia. rewrite (take_all x) by lia. replace (Z.to_nat (zlen x)) with (length x) by (unfold zlen; lia).
  set (o := firstn (length x) (z x)). assert (zlen o <= zlen x) by (unfold o, zlen; rewrite firstn_length; lia). pose proof (zlen_nn o). rewrite u32_small by lia. rewrite chk_ok by lia. reflexivity.
Qed.
(** when the compressed stream is not longer than the input, the result is that stream *)
Theorem C120_complete s x : small x -> counters s -> zlen (z x) <= zlen x -> exists s', compress s x = Val (z x, zlen (z x), s').
Proof. intros S C L. rewrite compress_eq by assumption. cbv zeta. rewrite firstn_all2 by (unfold zlen in L; lia). eexists. reflexivity. Qed.
(** otherwise it is cut off where the input ended, without an error *)
Theorem C120_truncated_refuted s x : small x -> counters s -> zlen x < zlen (z x) -> exists o s', compress s x = Val (o, zlen x, s') /\ zlen o = zlen x /\ exists rest, rest <> [] /\ z x = o ++ rest.
Proof.
  intros S C L. rewrite compress_eq by assumption. cbv zeta. set (o := firstn (length x) (z x)). assert (E : zlen o = zlen x) by (unfold o, zlen in *; rewrite firstn_length; lia). rewrite E. eexists _, _. split; [reflexivity|]. split; [exact E|].
  exists (skipn (length x) (z x)). split; [|symmetry; apply firstn_skipn]. intros F. apply (f_equal (@length Z)) in F. rewrite skipn_length in F. cbn in F. unfold zlen in L. lia.
Qed.
(** the counters add up over a history of inputs *)
Fixpoint history (s : deflater) (l : list (list Z)) : out (list Z * deflater) :=
  match l with [] => Val ([], s) | x :: l => let* (r, s) := compress s x in let* (ls, s) := history s l in Val (snd r :: ls, s) end.
Definition total (l : list Z) : Z := fold_right Z.add 0 l.
Theorem C120_totals l : forall s, Forall small l -> 0 <= totalInSize s -> 0 <= totalOutSize s -> totalInSize s + total (map (@zlen Z) l) < 2 ^ 62 -> totalOutSize s <= totalInSize s ->
  exists ls s', history s l = Val (ls, s') /\ totalInSize s' = totalInSize s + total (map (@zlen Z) l) /\ totalOutSize s' = totalOutSize s + total ls /\ length ls = length l.
Proof.
  induction l as [|x l IH]; intros s F P Q B O; cbn [history map total fold_right] in *.
  - exists [], s. cbn. repeat split; lia.
  - inversion F as [|? ? Fx Fl]; subst. fold (total (map (@zlen Z) l)) in *. pose proof (zlen_nn x). assert (N : 0 <= total (map (@zlen Z) l)) by (clear; induction l as [|y l IH]; cbn; [lia|]; fold (total (map (@zlen Z) l)); pose proof (zlen_nn y); lia).
    rewrite compress_eq by (try exact Fx; unfold counters; lia). cbv zeta. set (o := firstn (length x) (z x)). assert (zlen o <= zlen x) by (unfold o, zlen; rewrite firstn_length; lia). pose proof (zlen_nn o). cbn [bind].
    destruct (IH (D (Some (x, zlen x)) (totalInSize s + zlen x) (totalOutSize s + zlen o))) as (ls & s' & E & A & B' & L); try assumption; cbn [totalInSize totalOutSize total_in total_out] in *; try lia.
    rewrite E. cbn [bind snd]. exists (zlen o :: ls), s'. split; [reflexivity|]. cbn [total fold_right length]. fold (total ls). lia.
Qed.
(** only the last 32 bits of the length count *)
Theorem C120_long_refuted s x k : zlen x = 2 ^ 32 + k -> 0 <= k < 2 ^ 32 -> counters s -> exists s', compress s x = Val (firstn (Z.to_nat k) (z (firstn (Z.to_nat k) x)), zlen (firstn (Z.to_nat k) (z (firstn (Z.to_nat k) x))), s').
Proof.
  unfold counters, totalInSize, totalOutSize. intros L K [C1 C2]. unfold compress, d_set_input. change (2 ^ 62) with 4611686018427387904 in *. change (2 ^ 32) with 4294967296 in *. rewrite chk_ok by lia. cbn [bind]. unfold d_deflate. cbn [dinput total_in total_out]. rewrite (proj2 (Z.ltb_ge _ _)) by lia.
  replace (u32 (zlen x)) with k by (unfold u32; change (2 ^ 32) with 4294967296; rewrite L; rewrite Z.add_comm, <- (Z.mul_1_l 4294967296) at 1; rewrite Z.mod_add by lia; symmetry; apply Z.mod_small; lia).
  rewrite Z.gtb_ltb. rewrite (proj2 (Z.ltb_ge _ _)) by lia. set (o := firstn (Z.to_nat k) (z (firstn (Z.to_nat k) x))). assert (zlen o <= k) by (unfold o, zlen; rewrite firstn_length; lia). pose proof (zlen_nn o). rewrite u32_small by lia. rewrite chk_ok by lia. eexists. reflexivity.
Qed.
(** a deflater without input *)
Theorem C120_input_refuted : d_deflate z d_new = UB.
Proof. reflexivity. Qed.
Theorem C120_reset s : totalInSize (d_reset s) = 0 /\ totalOutSize (d_reset s) = 0 /\ exists s', d_deflate z (d_reset s) = Val ([], 0, s').
Proof. split; [reflexivity|]. split; [reflexivity|]. eexists. reflexivity. Qed.
End Z.

(** ** for every compressor and every length some input is lost *)
Definition alphabet : list Z := map Z.of_nat (seq 0 256).
Lemma alphabet_in b : byte b <-> In b alphabet.
Proof. unfold byte, alphabet. rewrite in_map_iff. split; [intros H; exists (Z.to_nat b); split; [lia|apply in_seq; lia]|intros (n & <- & H); apply in_seq in H; lia]. Qed.
Fixpoint strings (n : nat) : list (list Z) := match n with O => [[]] | S n => flat_map (fun b => map (cons b) (strings n)) alphabet end.
Lemma strings_in n : forall x, In x (strings n) <-> length x = n /\ Forall byte x.
Proof.
  induction n as [|n IH]; intros x; cbn [strings].
  - split; [intros [<-|[]]; auto|]. intros [H _]. destruct x; [now left|discriminate].
  - rewrite in_flat_map. split.
    + intros (b & B & H). apply in_map_iff in H as (y & <- & Y). apply IH in Y as [L F]. apply alphabet_in in B. split; [cbn; now rewrite L|now constructor].
    + intros [L F]. destruct x as [|b y]; [discriminate|]. inversion F; subst. exists b. split; [now apply alphabet_in|]. apply in_map. apply IH. split; [now injection L|assumption].
Qed.
Lemma flat_length {A B} (f : A -> list B) k l : (forall a, length (f a) = k) -> length (flat_map f l) = (length l * k)%nat.
Proof. intros H. induction l as [|a l IH]; cbn; [reflexivity|]. now rewrite app_length, H, IH. Qed.
Lemma alphabet_length : Z.of_nat (length alphabet) = 256. Proof. reflexivity. Qed.
Lemma strings_length n : Z.of_nat (length (strings n)) = 256 ^ Z.of_nat n.
Proof.
  induction n as [|n IH]; [reflexivity|]. cbn [strings]. rewrite (flat_length _ (length (strings n))) by (intros; apply map_length). rewrite Nat2Z.inj_mul, IH, alphabet_length, Nat2Z.inj_succ, Z.pow_succ_r by lia. reflexivity.
Qed.
Lemma NoDup_app' {A} (l m : list A) : NoDup l -> NoDup m -> (forall a, In a l -> ~ In a m) -> NoDup (l ++ m).
Proof. intros L M D. induction L as [|a l N L IH]; [exact M|]. cbn. constructor; [rewrite in_app_iff; intros [H|H]; [auto|exact (D a (or_introl eq_refl) H)]|]. apply IH. intros b B. apply D. now right. Qed.
Lemma NoDup_map_inj {A B} (f : A -> B) l : (forall x y, f x = f y -> x = y) -> NoDup l -> NoDup (map f l).
Proof. intros I N. induction N as [|a l H N IH]; cbn; constructor; [|exact IH]. intros C. apply in_map_iff in C as (b & E & Q). apply I in E. now subst. Qed.
Lemma strings_nodup n : NoDup (strings n).
Proof.
  induction n as [|n IH]; cbn [strings]; [repeat constructor; auto|].
  assert (D : NoDup alphabet) by (apply NoDup_map_inj; [intros; lia|apply seq_NoDup]). induction D as [|b l N D IHl]; cbn [flat_map]; [constructor|]. apply NoDup_app'; [apply NoDup_map_inj; [intros ? ? H; now injection H|exact IH]|exact IHl|].
  intros x X C. apply in_map_iff in X as (y & <- & _). apply in_flat_map in C as (c & C & Q). apply in_map_iff in Q as (y' & E & _). injection E as -> _. contradiction.
Qed.
(** all strings of at most n bytes behind a header *)
Fixpoint upto (n : nat) : list (list Z) := match n with O => strings 0 | S m => upto m ++ strings n end.
Lemma upto_in n x : (length x <= n)%nat -> Forall byte x -> In x (upto n).
Proof. induction n as [|n IH]; intros L F; cbn [upto]; [apply strings_in; split; [lia|exact F]|]. apply in_app_iff. destruct (Nat.eq_dec (length x) (S n)); [right; now apply strings_in|left; apply IH; [lia|exact F]]. Qed.
Lemma upto_length n : Z.of_nat (length (upto n)) < 256 ^ (Z.of_nat n + 1).
Proof.
  induction n as [|n IH]; [reflexivity|]. cbn [upto]. rewrite app_length, Nat2Z.inj_add, strings_length. rewrite Nat2Z.inj_succ. unfold Z.succ. rewrite (Z.pow_add_r 256 (Z.of_nat n + 1) 1) by lia. change (256 ^ 1) with 256. assert (0 < 256 ^ (Z.of_nat n + 1)) by (apply Z.pow_pos_nonneg; lia). lia.
Qed.
Lemma collide {A B} (dec : forall x y : B, {x = y} + {x <> y}) (f : A -> B) (l : list A) : NoDup l -> ~ NoDup (map f l) -> exists x y, In x l /\ In y l /\ x <> y /\ f x = f y.
Proof.
  intros N. induction N as [|a l H N IH]; cbn [map]; intros C; [destruct C; constructor|].
  destruct (in_dec dec (f a) (map f l)) as [I|I].
  - apply in_map_iff in I as (y & E & Y). exists a, y. split; [now left|]. split; [now right|]. split; [intros ->; contradiction|now symmetry].
  - destruct IH as (x & y & X & Y & D & E); [intros M; apply C; now constructor|]. exists x, y. split; [now right|]. split; [now right|]. now split.
Qed.
(** zlib streams begin with two fixed bytes (78 DA for the best compression). Whatever the compressor does behind them, and whatever the receiver does with the result: for every length there
    are two inputs with the same result, so one of them is not restored *)
Theorem C120_lossy_refuted (z : list Z -> list Z) (h1 h2 : Z) (decode : list Z -> list Z) (n : Z) : 1 <= n < 2 ^ 32 ->
  (forall x, Forall byte x -> Forall byte (z x) /\ exists t, z x = h1 :: h2 :: t) ->
  exists x o l s', zlen x = n /\ Forall byte x /\ compress z d_new x = Val (o, l, s') /\ decode o <> x.
Proof.
  intros N HZ. set (k := Z.to_nat n). set (f x := firstn k (z x)).
  assert (L : exists x y, In x (strings k) /\ In y (strings k) /\ x <> y /\ f x = f y).
  { apply collide; [apply list_eq_dec, Z.eq_dec|apply strings_nodup|]. intros D.
    assert (I : incl (map f (strings k)) (map (fun t => if (k =? 1)%nat then [h1] else h1 :: h2 :: t) (upto (k - 2)))).
    { intros o O. apply in_map_iff in O as (x & <- & X). apply strings_in in X as [LX FX]. destruct (HZ x FX) as [FZ [t T]]. apply in_map_iff. unfold f. rewrite T in *. destruct k as [|[|m]] eqn:K; [lia| |].
      - exists []. split; [reflexivity|]. apply upto_in; [cbn; lia|constructor].
      - exists (firstn m t). split; [reflexivity|]. apply upto_in; [rewrite firstn_length; lia|]. inversion FZ as [|? ? _ FZ']; subst. inversion FZ' as [|? ? _ Ft]; subst. clear - Ft. revert m. induction Ft; intros [|m]; cbn; constructor; auto. }
    apply NoDup_incl_length in I; [|exact D]. rewrite !map_length in I. pose proof (strings_length k) as S1. pose proof (upto_length (k - 2)) as S2. assert (Z.of_nat (k - 2) + 1 <= Z.of_nat k) by lia.
    assert (256 ^ (Z.of_nat (k - 2) + 1) <= 256 ^ Z.of_nat k) by (apply Z.pow_le_mono_r; lia). lia. }
  assert (R : forall x, In x (strings k) -> exists s', compress z d_new x = Val (f x, zlen (f x), s')).
  { intros x X. apply strings_in in X as [LX FX]. rewrite compress_eq; [|unfold small, zlen; lia|unfold counters; cbn; lia]. rewrite LX. eexists. reflexivity. }
  destruct L as (x & y & X & Y & NE & E). assert (forall w, In w (strings k) -> zlen w = n /\ Forall byte w) as W by (intros w Q; apply strings_in in Q as [LW FW]; split; [unfold zlen; lia|exact FW]).
  destruct (list_eq_dec Z.eq_dec (decode (f x)) x) as [EX|EX].
  - destruct (R y Y) as [s' RY]. exists y, (f y), (zlen (f y)), s'. split; [apply W; exact Y|]. split; [apply W; exact Y|]. split; [exact RY|]. rewrite <- E. congruence.
  - destruct (R x X) as [s' RX]. exists x, (f x), (zlen (f x)), s'. split; [apply W; exact X|]. split; [apply W; exact X|]. split; [exact RX|]. exact EX.
Qed.

(** ** cases that meet the hypotheses: run lengths behind the header *)
Fixpoint runs (x : list Z) : list Z := match x with a :: ((b :: x') as t) => if a =? b then match runs t with k :: r => (k + 1) :: r | [] => [] end else 0 :: a :: runs t | [a] => [0; a] | [] => [] end.
Definition toy (x : list Z) : list Z := 120 :: 218 :: runs x.
Example ex_complete : small (repeat 7 10) /\ counters d_new /\ zlen (toy (repeat 7 10)) <= zlen (repeat 7 10) /\ exists s', compress toy d_new (repeat 7 10) = Val ([120; 218; 9; 7], 4, s').
Proof. split; [reflexivity|]. split; [unfold counters; cbn; lia|]. split; [cbv; discriminate|]. eexists. reflexivity. Qed.
Example ex_truncated : exists s', compress toy d_new [1; 2; 3] = Val ([120; 218; 0], 3, s'). Proof. eexists. reflexivity. Qed.
Example ex_lossy x : Forall byte x -> Forall byte (120 :: 218 :: x) /\ exists t, 120 :: 218 :: x = 120 :: 218 :: t.
Proof. intros F. split; [repeat constructor; try (unfold byte; lia); exact F|now exists x]. Qed.
Print Assumptions C120_complete.
Print Assumptions C120_truncated_refuted.
Print Assumptions C120_totals.
Print Assumptions C120_long_refuted.
Print Assumptions C120_input_refuted.
Print Assumptions C120_reset.
Print Assumptions C120_lossy_refuted.
