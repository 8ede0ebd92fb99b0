(** S_Inflate.v -- the deflate format as RFC 1951 describes it: how a sequence of blocks is written as bits, and which bytes it stands for.  Independent of the model. *)
From Verif Require Import Base.
(** ** bits and numbers *)
(** [n] bits of [v], the least significant one first *)
Fixpoint lsb (n : nat) (v : Z) : list Z := match n with O => [] | S n => v mod 2 :: lsb n (v / 2) end.
(** Huffman codes are packed starting with the most significant bit (3.1.1) *)
Definition msb (n : nat) (v : Z) : list Z := rev (lsb n v).
Definition bits_of (data : list Z) : list Z := flat_map (lsb 8) data.
Definition sum (l : list Z) : Z := fold_right Z.add 0 l.
(** ** Huffman codes (3.2.2): given by the lengths of the symbols 0, 1, ..., where 0 means unused *)
Definition len_of (lens : list Z) (s : Z) : Z := match lget lens s with Some l => l | None => 0 end.
Definition used (lens : list Z) (s : Z) : Prop := 0 < len_of lens s.
(** codes of one length are consecutive in the order of the symbols, and shorter codes precede longer ones: all the words starting with the code of an earlier symbol are skipped *)
Definition earlier (lens : list Z) (m s : Z) : bool := (0 <? len_of lens m) && ((len_of lens m <? len_of lens s) || ((len_of lens m =? len_of lens s) && (m <? s))).
Definition code (lens : list Z) (s : Z) : Z := sum (map (fun m => if earlier lens m s then 2 ^ (len_of lens s - len_of lens m) else 0) (zrange (length lens))).
Definition word (lens : list Z) (s : Z) : list Z := msb (Z.to_nat (len_of lens s)) (code lens s).
(** every sequence of 15 bits starts with exactly one code *)
Definition complete (lens : list Z) : Prop := sum (map (fun l => if 0 <? l then 2 ^ (15 - l) else 0) lens) = 2 ^ 15.
(** one symbol only, "encoded using one bit" (3.2.7) *)
Definition single_code (lens : list Z) : Prop := exists s, len_of lens s = 1 /\ forall m, m <> s -> len_of lens m = 0.
Definition code_ok (lens : list Z) : Prop := Forall (fun l => 0 <= l <= 15) lens /\ (complete lens \/ single_code lens).
(** ** lengths and distances (3.2.5) *)
Definition length_extra (s : Z) : Z := if (s <? 265) || (s =? 285) then 0 else (s - 261) / 4.
Definition length_base (s : Z) : Z := if s =? 285 then 258 else 3 + sum (map (fun k => 2 ^ length_extra (257 + k)) (zrange (Z.to_nat (s - 257)))).
Definition dist_extra (s : Z) : Z := if s <? 2 then 0 else s / 2 - 1.
Definition dist_base (s : Z) : Z := 1 + sum (map (fun k => 2 ^ dist_extra k) (zrange (Z.to_nat s))).
Inductive token := Lit (b : Z) | Match (ls le ds de : Z).
Definition mlen (ls le : Z) : Z := length_base ls + le.
Definition mdist (ds de : Z) : Z := dist_base ds + de.
(** byte by byte, so that a copy may overlap itself *)
Fixpoint copy (k : nat) (d : Z) (o : list Z) : list Z := match k with O => o | S k => copy k d (o ++ [match lget o (zlen o - d) with Some b => b | None => 0 end]) end.
Definition out_token (o : list Z) (t : token) : list Z := match t with Lit b => o ++ [b] | Match ls le ds de => copy (Z.to_nat (mlen ls le)) (mdist ds de) o end.
Definition out_tokens (o : list Z) (ts : list token) : list Z := fold_left out_token ts o.
Definition token_bits (ll dl : list Z) (t : token) : list Z :=
  match t with
  | Lit b => word ll b
  | Match ls le ds de => word ll ls ++ lsb (Z.to_nat (length_extra ls)) le ++ word dl ds ++ lsb (Z.to_nat (dist_extra ds)) de
  end.
(** 256 ends the block *)
Definition tokens_bits (ll dl : list Z) (ts : list token) : list Z := flat_map (token_bits ll dl) ts ++ word ll 256.
Definition token_ok (ll dl : list Z) (o : list Z) (t : token) : Prop :=
  match t with
  | Lit b => 0 <= b < 256 /\ used ll b
  | Match ls le ds de => 257 <= ls <= 285 /\ 0 <= le < 2 ^ length_extra ls /\ 0 <= ds <= 29 /\ 0 <= de < 2 ^ dist_extra ds /\ used ll ls /\ used dl ds /\ mdist ds de <= zlen o
  end.
(** the matches of a block copy from position [lim] - 1 at the latest, if a limit is given *)
Definition near (lim : option Z) (o : list Z) (t : token) : Prop := match t, lim with Match ls le ds de, Some m => zlen o - mdist ds de < m | _, _ => True end.
Fixpoint tokens_ok (lim : option Z) (ll dl : list Z) (o : list Z) (ts : list token) : Prop :=
  match ts with [] => used ll 256 | t :: ts => token_ok ll dl o t /\ near lim o t /\ tokens_ok lim ll dl (out_token o t) ts end.
(** ** blocks *)
(** 3.2.6 *)
Definition fixed_ll : list Z := repeat 8 144 ++ repeat 9 112 ++ repeat 7 24 ++ repeat 8 8.
Definition fixed_dl : list Z := repeat 5 32.
(** 3.2.7: a list of code lengths is sent with repetitions *)
Inductive run := Len (l : Z) | Prev (n : Z) | Zeros (n : Z) | ManyZeros (n : Z).
Fixpoint expand (acc : list Z) (rs : list run) : list Z :=
  match rs with
  | [] => acc
  | Len l :: rs => expand (acc ++ [l]) rs
  | Prev n :: rs => expand (acc ++ repeat (last acc 0) (Z.to_nat n)) rs
  | Zeros n :: rs | ManyZeros n :: rs => expand (acc ++ repeat 0 (Z.to_nat n)) rs
  end.
Definition run_bits (cl : list Z) (r : run) : list Z :=
  match r with
  | Len l => word cl l
  | Prev n => word cl 16 ++ lsb 2 (n - 3)
  | Zeros n => word cl 17 ++ lsb 3 (n - 3)
  | ManyZeros n => word cl 18 ++ lsb 7 (n - 11)
  end.
Definition run_ok (cl : list Z) (r : run) : Prop :=
  match r with
  | Len l => 0 <= l <= 15 /\ used cl l
  | Prev n => 3 <= n <= 6 /\ used cl 16
  | Zeros n => 3 <= n <= 10 /\ used cl 17
  | ManyZeros n => 11 <= n <= 138 /\ used cl 18
  end.
(** nothing to repeat at the beginning *)
Definition runs_ok (cl : list Z) (rs : list run) : Prop := Forall (run_ok cl) rs /\ forall n rs', rs <> Prev n :: rs'.
(** the order in which the lengths of the code length code are sent *)
Definition order : list Z := [16; 17; 18; 0; 8; 7; 9; 6; 10; 5; 11; 4; 12; 3; 13; 2; 14; 1; 15].
(** Dynamic: the code length code, how many of its lengths are sent, the runs of the literal/length code and of the distance code (no run crosses from one to the other), the data *)
Inductive block := Stored (pad data : list Z) | Fixed (ts : list token) | Dynamic (cl : list Z) (n : nat) (la da : list run) (ts : list token).
Definition block_type (b : block) : Z := match b with Stored _ _ => 0 | Fixed _ => 1 | Dynamic _ _ _ _ _ => 2 end.
(** the code length code, the runs: what precedes the data of a dynamic block *)
Definition dynamic_header (cl : list Z) (n : nat) (la da : list run) : list Z :=
  lsb 5 (zlen (expand [] la) - 257) ++ lsb 5 (zlen (expand [] da) - 1) ++ lsb 4 (Z.of_nat n - 4) ++ flat_map (fun a => lsb 3 (len_of cl a)) (firstn n order) ++
  flat_map (run_bits cl) la ++ flat_map (run_bits cl) da.
Definition header_ok (cl : list Z) (n : nat) (la da : list run) : Prop :=
  zlen cl = 19 /\ Forall (fun l => 0 <= l <= 7) cl /\ code_ok cl /\ (4 <= n <= 19)%nat /\ Forall (fun a => len_of cl a = 0) (skipn n order) /\
  runs_ok cl la /\ runs_ok cl da /\ 257 <= zlen (expand [] la) <= 286 /\ 1 <= zlen (expand [] da) <= 30 /\ code_ok (expand [] la) /\ code_ok (expand [] da).
Definition body_bits (b : block) : list Z :=
  match b with
  | Stored pad data => pad ++ lsb 16 (zlen data) ++ lsb 16 (65535 - zlen data) ++ bits_of data
  | Fixed ts => tokens_bits fixed_ll fixed_dl ts
  | Dynamic cl n la da ts => dynamic_header cl n la da ++ tokens_bits (expand [] la) (expand [] da) ts
  end.
(** [p]: number of bits before the body.  A stored block starts at a byte boundary.  [lim] may limit the matches of blocks with fixed codes; RFC 1951 has no limit (None) *)
Definition body_ok (lim : option Z) (p : Z) (o : list Z) (b : block) : Prop :=
  match b with
  | Stored pad data => zlen pad = (- p) mod 8 /\ zlen data < 65536 /\ Forall byte data
  | Fixed ts => tokens_ok lim fixed_ll fixed_dl o ts
  | Dynamic cl n la da ts => header_ok cl n la da /\ tokens_ok None (expand [] la) (expand [] da) o ts
  end.
Definition out_block (o : list Z) (b : block) : list Z :=
  match b with Stored _ data => o ++ data | Fixed ts | Dynamic _ _ _ _ ts => out_tokens o ts end.
(** ** the stream: the last block is marked *)
Definition block_bits (final : bool) (b : block) : list Z := (if final then 1 else 0) :: lsb 2 (block_type b) ++ body_bits b.
Fixpoint stream_bits (bs : list block) : list Z := match bs with [] => [] | b :: r => block_bits (match r with [] => true | _ => false end) b ++ stream_bits r end.
Fixpoint stream_ok (lim : option Z) (p : Z) (o : list Z) (bs : list block) : Prop :=
  match bs with [] => True | b :: r => body_ok lim (p + 3) o b /\ stream_ok lim (p + 3 + zlen (body_bits b)) (out_block o b) r end.
Definition stream_out (bs : list block) : list Z := fold_left out_block bs [].
(** zlib header (RFC 1950): compression method 8 with a window of at most 32768 bytes, no preset dictionary, check bits *)
Definition zlib_header (cmf flg : Z) : Prop := cmf mod 16 = 8 /\ cmf / 16 <= 7 /\ (flg / 32) mod 2 = 0 /\ (256 * cmf + flg) mod 31 = 0.
(** ** the deviation of the library: in a block with fixed codes the position to copy from is taken modulo 32768 *)
Fixpoint copy_from (k : nat) (src : Z) (o : list Z) : list Z := match k with O => o | S k => copy_from k (src + 1) (o ++ [match lget o src with Some b => b | None => 0 end]) end.
Definition lib_token (o : list Z) (t : token) : list Z := match t with Lit b => o ++ [b] | Match ls le ds de => copy_from (Z.to_nat (mlen ls le)) ((zlen o - mdist ds de) mod 32768) o end.
Definition lib_block (o : list Z) (b : block) : list Z :=
  match b with Stored _ data => o ++ data | Fixed ts => fold_left lib_token ts o | Dynamic _ _ _ _ ts => out_tokens o ts end.
Definition lib_out (bs : list block) : list Z := fold_left lib_block bs [].
