(** S_Utf8.v -- UTF-8 (RFC 3629), written with arithmetic. *)
From Verif Require Import Base.

(** the bytes of a code point *)
Definition utf8 (c : Z) : list Z :=
  if c <? 128 then [c]
  else if c <? 2048 then [192 + c / 64; 128 + c mod 64]
  else if c <? 65536 then [224 + c / 4096; 128 + c / 64 mod 64; 128 + c mod 64]
  else [240 + c / 262144; 128 + c / 4096 mod 64; 128 + c / 64 mod 64; 128 + c mod 64].

(** number of bytes announced by a lead byte (stray bytes stand for themselves) *)
Definition seq_len (b : Z) : Z :=
  if b <? 128 then 1 else if b <? 192 then 1 else if b <? 224 then 2 else if b <? 240 then 3
  else if b <? 248 then 4 else 1.

(** cut a byte string into sequences; None if the last sequence is incomplete *)
Fixpoint seqs (text : list Z) : option (list (list Z)) :=
  match text with
  | [] => Some []
  | b :: r =>
    if seq_len b =? 1 then option_map (cons [b]) (seqs r)
    else if seq_len b =? 2 then
      match r with x :: r => option_map (cons [b; x]) (seqs r) | _ => None end
    else if seq_len b =? 3 then
      match r with x :: y :: r => option_map (cons [b; x; y]) (seqs r) | _ => None end
    else
      match r with x :: y :: z :: r => option_map (cons [b; x; y; z]) (seqs r) | _ => None end
  end.

(** the code point of a sequence *)
Definition code_point (s : list Z) : Z :=
  match s with
  | [b; x] => b mod 32 * 64 + x mod 64
  | [b; x; y] => (b mod 16 * 64 + x mod 64) * 64 + y mod 64
  | [b; x; y; z] => ((b mod 8 * 64 + x mod 64) * 64 + y mod 64) * 64 + z mod 64
  | [b] => b
  | _ => 0
  end.

(** the stray byte pair FF FE somewhere among the sequences *)
Definition is1 (s : list Z) (v : Z) : bool := match s with [b] => b =? v | _ => false end.
Fixpoint has_fffe (cs : list (list Z)) : bool :=
  match cs with
  | [] => false
  | s :: r => (is1 s 255 && match r with t :: _ => is1 t 254 | [] => false end) || has_fffe r
  end.

(** what decoding a NUL-terminated text gives *)
Inductive decoded := Units (l : list Z) | WrongCharset | OutOfBounds.
Definition skip_bom (text : list Z) : list Z :=
  match text with
  | a :: b :: c :: r => if (a =? 239) && (b =? 187) && (c =? 191) then r else text
  | _ => text
  end.
Definition utf16_bom (text : list Z) : bool :=
  match text with a :: b :: _ => (a =? 254) && (b =? 255) || (a =? 255) && (b =? 254) | _ => false end.
Definition utf8_meaning (text : list Z) : decoded :=
  if utf16_bom text then WrongCharset
  else match seqs (skip_bom text) with
       | None => OutOfBounds
       | Some cs => if has_fffe cs then OutOfBounds else Units (map (fun s => code_point s mod 65536) cs)
       end.
