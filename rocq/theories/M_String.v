(** M_String.v -- model of src/core/String.cpp (with Character.cpp and include/core/CharArray.h), at the level of the
    character buffer: mValue is a list whose length is the capacity mArrLength, mStrLength may differ from it.
    Simplifications: a String argument never aliases the receiver, except in [insert_self];
    lengths and positions inside a buffer never overflow int64 (buffers are smaller than 2^62 characters);
    positions handed in by the caller are unrestricted 64 bit numbers. *)
From Verif Require Import Base M_Utf8.

Definition ztake {A} (n : Z) (l : list A) : list A := firstn (Z.to_nat n) l.
Definition zdrop {A} (n : Z) (l : list A) : list A := skipn (Z.to_nat n) l.
Definition zeros (n : Z) : list Z := repeat 0 (Z.to_nat n).
(** memcpy of n characters from src[s..] to dst[d..]; outside a block it is undefined *)
Definition memcpy (dst : list Z) (d : Z) (src : list Z) (s n : Z) : out (list Z) :=
  if (0 <=? d) && (0 <=? s) && (0 <=? n) && (d + n <=? zlen dst) && (s + n <=? zlen src)
  then Val (ztake d dst ++ ztake n (zdrop s src) ++ zdrop (d + n) dst) else UB.

(** include/core/String.h: mValue/mArrLength, mStrLength, mHash (an int32) *)
Record jstr := JS { buf : list Z; len : Z; hash : Z }.

(** String.cpp 36-42; Char() is 0 (CharArray.h 47-50) *)
Definition str_new : jstr := JS (zeros 16) 0 0.
(** String.cpp 150-158 (constructors from a decoded CharArray) *)
Definition round16 (n : Z) : Z := if Z.rem n 16 =? 0 then n else n + (16 - Z.rem n 16).
Definition str_of (xs : list Z) : jstr :=
  JS (xs ++ zeros (round16 (zlen xs) - zlen xs)) (zlen xs) 0.
(** String.cpp 52-59 *)
Definition copy_ctor (s : jstr) : out jstr :=
  let* b := memcpy (zeros (zlen (buf s))) 0 (buf s) 0 (len s) in Val (JS b (len s) (hash s)).
(** String.cpp 1233-1245: mHash is neither copied nor reset *)
Definition assign (this another : jstr) : out jstr :=
  let* b := memcpy (zeros (zlen (buf another))) 0 (buf another) 0 (len another) in Val (JS b (len another) (hash this)).
(** String.cpp 160-173 *)
Definition check_capacity (more : Z) (s : jstr) : out jstr :=
  if len s + more <? zlen (buf s) then Val s else
  let n := round16 (len s + more) in
  if n <? 0 then Exn else
  let* b := memcpy (zeros n) 0 (buf s) 0 (len s) in Val (JS b (len s) (hash s)).
(** String.cpp 502-517 *)
Definition char_at (s : jstr) (i : Z) : out Z := if (i <? 0) || (i >=? len s) then Exn else rd (buf s) i.
Definition set_char_at (s : jstr) (i c : Z) : out jstr :=
  if (i <? 0) || (i >=? len s) then Exn else let* b := wr (buf s) i c in Val (JS b (len s) 0).
(** String.cpp 519-526 *)
Definition append (s t : jstr) : out jstr :=
  if len t =? 0 then Val s else
  let* s := check_capacity (len t) s in
  let* b := memcpy (buf s) (len s) (buf t) 0 (len t) in
  Val (JS b (len s + len t) 0).
(** String.cpp 528-534 *)
Definition append_char (s : jstr) (c : Z) : out jstr :=
  let* s := check_capacity 1 s in
  let* b := wr (buf s) (len s) c in
  Val (JS b (len s + 1) 0).
(** the loop "for(a = ...; a > index; a--) mValue[a + d - 1] = mValue[a - 1]", k iterations (541, 555) *)
Fixpoint shift_up (b : list Z) (a d : Z) (k : nat) : out (list Z) :=
  match k with
  | O => Val b
  | S k => let* x := rd b (a - 1) in let* b := wr b (a + d - 1) x in shift_up b (a - 1) d k
  end.
(** the loop "for(a = ...; a < ...; a++) mValue[a] = mValue[a + d]" (568-571, 581-584) *)
Fixpoint shift_down (b : list Z) (a d : Z) (k : nat) : out (list Z) :=
  match k with
  | O => Val b
  | S k => let* x := rd b (a + d) in let* b := wr b a x in shift_down b (a + 1) d k
  end.
(** String.cpp 536-545 *)
Definition insert_char (s : jstr) (i c : Z) : out jstr :=
  if (i <? 0) || (i >? len s) then Exn else
  let* s := check_capacity 1 s in
  let* b := shift_up (buf s) (len s) 1 (Z.to_nat (len s - i)) in
  let* b := wr b i c in
  Val (JS b (len s + 1) 0).
(** the loop 557; str.charAt(a) reads the argument's buffer *)
Fixpoint write_all (b : list Z) (i a : Z) (t : jstr) (k : nat) : out (list Z) :=
  match k with
  | O => Val b
  | S k => let* x := char_at t a in let* b := wr b (i + a) x in write_all b i (a + 1) t k
  end.
(** String.cpp 547-561 *)
Definition insert_str (s : jstr) (i : Z) (t : jstr) : out jstr :=
  if (i <? 0) || (i >? len s) then Exn else
  let n := len t in
  let* s := check_capacity n s in
  let* b := shift_up (buf s) (len s) n (Z.to_nat (len s - i)) in
  let* b := write_all b i 0 t (Z.to_nat n) in
  Val (JS b (len s + n) 0).
(** String.cpp 547-561 called as s.insert(i, s): the loop 557 reads the buffer it is writing *)
Fixpoint write_self (b : list Z) (i a n : Z) (k : nat) : out (list Z) :=
  match k with
  | O => Val b
  | S k => let* x := char_at (JS b n 0) a in let* b := wr b (i + a) x in write_self b i (a + 1) n k
  end.
Definition insert_self (s : jstr) (i : Z) : out jstr :=
  if (i <? 0) || (i >? len s) then Exn else
  let n := len s in
  let* s := check_capacity n s in
  let* b := shift_up (buf s) (len s) n (Z.to_nat (len s - i)) in
  let* b := write_self b i 0 n (Z.to_nat n) in
  Val (JS b (len s + n) 0).
(** String.cpp 563-574 *)
Definition delete_char_at (s : jstr) (i : Z) : out jstr :=
  if (i <? 0) || (i >=? len s) then Exn else
  let* b := shift_down (buf s) i 1 (Z.to_nat (len s - 1 - i)) in
  Val (JS b (len s - 1) 0).
(** String.cpp 576-587 *)
Definition delete_range (s : jstr) (i n : Z) : out jstr :=
  if (i <? 0) || (i >? len s) then Exn else
  let* _ := chk64 (len s - n) in
  let* b := shift_down (buf s) i n (Z.to_nat (len s - n - i)) in
  Val (JS b (len s - n) 0).
(** String.cpp 613-617, 602-611 *)
Definition zero (s : jstr) : jstr := JS (buf s) 0 0.
Definition clear (s : jstr) : jstr :=
  let s := zero s in if zlen (buf s) >? 16 then JS (zeros 16) (len s) (hash s) else s.

(** String.cpp 756-773 *)
Definition substring (s : jstr) (b e : Z) : out jstr :=
  let b := if b <? 0 then 0 else b in
  let e := if e <? b then b else e in
  let e := if e >? len s then len s else e in
  let n := e - b in
  if n >? 0 then
    let* r := check_capacity n str_new in
    let* x := memcpy (buf r) 0 (buf s) b n in
    Val (JS x n (hash r))
  else Val str_new.
(** String.cpp 775-778 *)
Definition substring_from (s : jstr) (b : Z) : out jstr := substring s b (len s).

(** comparison of k characters mValue[a + b..] and other.mValue[b..]: the loops 240-243, 265-268, 374-381, 419-426 *)
Fixpoint match_at (x : list Z) (a : Z) (y : list Z) (b : Z) (k : nat) : out bool :=
  match k with
  | O => Val true
  | S k => let* c := rd x (a + b) in let* d := rd y b in
           if c =? d then match_at x a y (b + 1) k else Val false
  end.
(** String.cpp 236-246 *)
Definition starts_with (s t : jstr) : out bool :=
  if len t >? len s then Val false else match_at (buf s) 0 (buf t) 0 (Z.to_nat (len t)).
(** String.cpp 249-259 *)
Fixpoint match_back (x : list Z) (n : Z) (y : list Z) (m a : Z) (k : nat) : out bool :=
  match k with
  | O => Val true
  | S k => let* c := rd x (n - a) in let* d := rd y (m - a) in
           if c =? d then match_back x n y m (a + 1) k else Val false
  end.
Definition ends_with (s t : jstr) : out bool :=
  if len t >? len s then Val false else match_back (buf s) (len s) (buf t) (len t) 1 (Z.to_nat (len t)).
(** String.cpp 261-271 *)
Definition at_is (s : jstr) (pos : Z) (t : jstr) : out bool :=
  let* p := chk64 (pos + len t) in
  if p >? len s then Val false else match_at (buf s) pos (buf t) 0 (Z.to_nat (len t)).
(** String.cpp 356-365 *)
Fixpoint index_loop (x : list Z) (c a : Z) (k : nat) : out Z :=
  match k with
  | O => Val (-1)
  | S k => let* d := rd x a in if d =? c then Val a else index_loop x c (a + 1) k
  end.
Definition index_of_char (s : jstr) (c from : Z) : out Z :=
  let from := if from <? 0 then 0 else from in
  index_loop (buf s) c from (Z.to_nat (len s - from)).
(** String.cpp 367-385 *)
Fixpoint index_str_loop (x : list Z) (t : jstr) (a : Z) (k : nat) : out Z :=
  match k with
  | O => Val (-1)
  | S k => let* found := match_at x a (buf t) 0 (Z.to_nat (len t)) in
           if found then Val a else index_str_loop x t (a + 1) k
  end.
Definition index_of_str (s t : jstr) (from : Z) : out Z :=
  let from := if from <? 0 then 0 else from in
  index_str_loop (buf s) t from (Z.to_nat (len s - from)).
(** String.cpp 397-409, 387-390 *)
Fixpoint last_loop (x : list Z) (c a : Z) (k : nat) : out Z :=
  match k with
  | O => Val (-1)
  | S k => let* d := rd x a in if d =? c then Val a else last_loop x c (a - 1) k
  end.
Definition last_index_of_char_from (s : jstr) (c from : Z) : out Z :=
  if from >=? len s then Exn else
  let from := if from <? 0 then 0 else from in
  let from := if from >? len s - 1 then len s - 1 else from in
  last_loop (buf s) c from (Z.to_nat (from + 1)).
Definition last_index_of_char (s : jstr) (c : Z) : out Z := last_index_of_char_from s c (len s - 1).
(** String.cpp 411-430, 392-395 *)
Fixpoint last_str_loop (x : list Z) (t : jstr) (a : Z) (k : nat) : out Z :=
  match k with
  | O => Val (-1)
  | S k => let* found := match_at x a (buf t) 0 (Z.to_nat (len t)) in
           if found then Val a else last_str_loop x t (a - 1) k
  end.
Definition last_index_of_str_from (s t : jstr) (from : Z) : out Z :=
  let b := len s - len t in
  let from := if from >? b then b else from in
  last_str_loop (buf s) t from (Z.to_nat (from + 1)).
Definition last_index_of_str (s t : jstr) : out Z := last_index_of_str_from s t (len s - 1).

(** String.cpp 589-599 *)
Fixpoint count_loop (x : list Z) (c a n : Z) (k : nat) : out Z :=
  match k with
  | O => Val n
  | S k => let* d := rd x a in count_loop x c (a + 1) (if d =? c then n + 1 else n) k
  end.
Definition count (s : jstr) (c : Z) : out Z := count_loop (buf s) c 0 0 (Z.to_nat (len s)).

(** applying f to the characters a..a+k-1 of a buffer: the loops 308-311, 320-323, 437-440 *)
Fixpoint map_loop (f : Z -> Z) (x : list Z) (a : Z) (k : nat) : out (list Z) :=
  match k with
  | O => Val x
  | S k => let* c := rd x a in let* x := wr x a (f c) in map_loop f x (a + 1) k
  end.
(** Character.cpp 90-161: A-Z and the three umlauts *)
Definition lower (c : Z) : Z :=
  if (65 <=? c) && (c <=? 90) then c + 32
  else if c =? 196 then 228 else if c =? 214 then 246 else if c =? 220 then 252 else c.
(** Character.cpp 163-234 *)
Definition upper (c : Z) : Z :=
  if (97 <=? c) && (c <=? 122) then c - 32
  else if c =? 228 then 196 else if c =? 246 then 214 else if c =? 252 then 220 else c.
(** String.cpp 304-326, 433-443: a copy (with its cached hash) whose characters are changed *)
Definition map_str (f : Z -> Z) (s : jstr) : out jstr :=
  let* r := copy_ctor s in
  let* b := map_loop f (buf r) 0 (Z.to_nat (len s)) in Val (JS b (len r) (hash r)).
Definition to_lower (s : jstr) : out jstr := map_str lower s.
Definition to_upper (s : jstr) : out jstr := map_str upper s.
Definition replace_char (s : jstr) (o n : Z) : out jstr := map_str (fun c => if c =? o then n else c) s.
(** String.cpp 474-488 *)
Fixpoint rev_loop (x : list Z) (a last : Z) (k : nat) : out (list Z) :=
  match k with
  | O => Val x
  | S k => let* t := rd x a in let* u := rd x last in
           let* x := wr x a u in let* x := wr x last t in rev_loop x (a + 1) (last - 1) k
  end.
Definition reverse (s : jstr) : out jstr :=
  let* r := copy_ctor s in
  let* b := rev_loop (buf r) 0 (len s - 1) (Z.to_nat (Z.quot (len s) 2)) in Val (JS b (len r) (hash r)).

(** Character.cpp 35-50: blank, CR, LF, TAB, BS, FF *)
Definition is_ws (c : Z) : bool := (c =? 32) || (c =? 13) || (c =? 10) || (c =? 9) || (c =? 8) || (c =? 12).
(** String.cpp 328-344 *)
Fixpoint skip_left (x : list Z) (b n : Z) (k : nat) : out Z :=
  match k with
  | O => Fuel
  | S k => if b <? n then let* c := rd x b in if is_ws c then skip_left x (b + 1) n k else Val b else Val b
  end.
Fixpoint skip_right (x : list Z) (e : Z) (k : nat) : out Z :=
  match k with
  | O => Fuel
  | S k => if e >? 0 then let* c := rd x (e - 1) in if is_ws c then skip_right x (e - 1) k else Val e else Val e
  end.
Definition trim (s : jstr) : out jstr :=
  if len s =? 0 then Val str_new else
  let* b := skip_left (buf s) 0 (len s) (S (Z.to_nat (len s))) in
  let* e := skip_right (buf s) (len s) (S (Z.to_nat (len s))) in
  if e <=? b then Val str_new else substring s b e.

(** String.cpp 628-640 and 642-656: the counter is a uint32; [f] is the identity or Char::toLowerCase.
    [fuel] bounds the model's loop, running out is the outcome Fuel *)
Fixpoint eq_loop (f : Z -> Z) (x y : list Z) (n cnt : Z) (fuel : nat) : out bool :=
  match fuel with
  | O => Fuel
  | S fuel =>
    if cnt <? n then
      let* c := rd x cnt in let* d := rd y cnt in
      if f c =? f d then eq_loop f x y n (u32 (cnt + 1)) fuel else Val false
    else Val true
  end.
Definition equals (s t : jstr) : out bool :=
  if negb (len s =? len t) then Val false else eq_loop (fun c => c) (buf s) (buf t) (len s) 0 (S (Z.to_nat (len s))).
Definition equals_ignore_case (s t : jstr) : out bool :=
  if negb (len s =? len t) then Val false else eq_loop lower (buf s) (buf t) (len s) 0 (S (Z.to_nat (len s))).
(** String.cpp 658-677 *)
Fixpoint cmp_loop (x y : list Z) (cnt : Z) (k : nat) : out Z :=
  match k with
  | O => Val 0
  | S k => let* c := rd x cnt in let* d := rd y cnt in
           if c <? d then Val (-1) else if c >? d then Val 1 else cmp_loop x y (cnt + 1) k
  end.
Definition compare_to (s t : jstr) : out Z :=
  let* r := cmp_loop (buf s) (buf t) 0 (Z.to_nat (Z.min (len s) (len t))) in
  if negb (r =? 0) then Val r
  else if len s <? len t then Val (-1) else if len s >? len t then Val 1 else Val 0.
(** Character.cpp 53-57, 83-87 *)
Definition is_digit (c : Z) : bool := (48 <=? c) && (c <=? 57).
Definition digit_value (c : Z) : Z := if is_digit c then c - 48 else -1.
(** String.cpp 679-753: conversion to numbers (693-711 and 716-734), comparison (737-752).
    The inner loop 698-703 gets its own fuel; the stack arrays of 256 elements are lists *)
Fixpoint fancy_digits (x : list Z) (n cnt num : Z) (fuel : nat) : out (Z * Z) :=
  match fuel with
  | O => Fuel
  | S fuel =>
    if cnt + 1 <? n then
      let* c := rd x (cnt + 1) in
      if is_digit c then fancy_digits x n (cnt + 1) (u32 (u32 (num * 10) + digit_value c)) fuel else Val (cnt, num)
    else Val (cnt, num)
  end.
Fixpoint fancy_key (x : list Z) (n cnt : Z) (fuel : nat) : out (list Z) :=
  match fuel with
  | O => Fuel
  | S fuel' =>
    if cnt <? n then
      let* c := rd x cnt in
      let* (cnt, v) := (if is_digit c then fancy_digits x n cnt (digit_value c) fuel else Val (cnt, c)) in
      let* r := fancy_key x n (cnt + 1) fuel' in Val (v :: r)
    else Val []
  end.
Fixpoint cmp_keys (a b : list Z) : Z :=
  match a, b with
  | [], [] => 0
  | [], _ :: _ => -1
  | _ :: _, [] => 1
  | x :: a, y :: b => if x <? y then -1 else if x >? y then 1 else cmp_keys a b
  end.
Definition compare_fancy (s t : jstr) : out Z :=
  let n1 := Z.min (len s) 256 in
  let n2 := Z.min (len t) 256 in
  let* k1 := fancy_key (buf s) n1 0 (S (Z.to_nat n1)) in
  let* k2 := fancy_key (buf t) n2 0 (S (Z.to_nat n2)) in
  Val (cmp_keys k1 k2).

(** String.cpp 287-302: the counter is an int32 *)
Fixpoint hash_loop (x : list Z) (h a : Z) (k : nat) : out Z :=
  match k with
  | O => Val h
  | S k => let* c := rd x a in let* a := chk32 (a + 1) in
           hash_loop x (u32 (u32 (u32 (Z.shiftl h 5) - h) + c)) a k
  end.
Definition const_hash_code (s : jstr) : out Z :=
  if negb (hash s =? 0) then Val (hash s) else hash_loop (buf s) 0 0 (Z.to_nat (len s)).
Definition hash_code (s : jstr) : out (Z * jstr) :=
  if negb (hash s =? 0) then Val (hash s, s) else
  let* h := hash_loop (buf s) 0 0 (Z.to_nat (len s)) in Val (h, JS (buf s) (len s) (s32 h)).

(** String.cpp 445-471: [fuel] bounds the do loop *)
Fixpoint replace_loop (s o n out_ : jstr) (pos1 pos2 : Z) (fuel : nat) : out jstr :=
  match fuel with
  | O => Fuel
  | S fuel =>
    let* p := substring s pos1 pos2 in
    let* out_ := append out_ p in
    let* out_ := append out_ n in
    let pos1 := pos2 + len o in
    let* pos2 := index_of_str s o pos1 in
    if pos2 >=? pos1 then replace_loop s o n out_ pos1 pos2 fuel
    else let* r := substring_from s pos1 in append out_ r
  end.
Definition replace_str (s o n : jstr) (fuel : nat) : out jstr :=
  let* pos2 := index_of_str s o 0 in
  if pos2 <? 0 then copy_ctor s else replace_loop s o n str_new 0 pos2 fuel.

(** String.cpp 780-809: argIndicies; None: no '%' in the text *)
Fixpoint arg_loop (s : jstr) (i first second lowest : Z) (k : nat) : out (Z * Z) :=
  match k with
  | O => Val (first, second)
  | S k =>
    let* c := char_at s i in
    let* hit := (if c =? 37 then let* d := char_at s (i + 1) in Val (is_digit d) else Val false) in
    if hit then
      let* d := char_at s (i + 1) in
      let* number := (if i + 2 <? len s then
                        let* e := char_at s (i + 2) in
                        Val (if is_digit e then digit_value d * 10 + digit_value e else digit_value d)
                      else Val (digit_value d)) in
      if number <? lowest then arg_loop s (i + 1) i (if number >? 9 then i + 3 else i + 2) number k
      else arg_loop s (i + 1) first second lowest k
    else arg_loop s (i + 1) first second lowest k
  end.
Definition arg_indices (s : jstr) : out (option (Z * Z)) :=
  let* p := index_of_char s 37 0 in
  if p <? 0 then Val None else
  let* r := arg_loop s 0 (-1) (-1) 100 (Z.to_nat (len s - 1)) in Val (Some r).
(** "for(...; a < w; a++) result << fillchar", k iterations *)
Fixpoint fill_loop (s : jstr) (c : Z) (k : nat) : out jstr :=
  match k with O => Val s | S k => let* s := append_char s c in fill_loop s c k end.
(** String.cpp 895-925 (and 842-872 with the decimal text of the number); abs of the most negative number is undefined *)
Definition arg_str (s v : jstr) (width fillc : Z) : out jstr :=
  let* r := arg_indices s in
  match r with
  | None => copy_ctor s
  | Some (first, second) =>
    let* res := substring s 0 first in
    let* res := (if width >? 0 then fill_loop res fillc (Z.to_nat (width - len v)) else Val res) in
    let* res := append res v in
    let* res := (if width <? 0 then let* w := chk64 (- width) in fill_loop res fillc (Z.to_nat (w - len v)) else Val res) in
    let* rest := substring_from s second in
    append res rest
  end.
(** String.cpp 811-839 *)
Definition arg_char (s : jstr) (c width fillc : Z) : out jstr :=
  let* r := arg_indices s in
  match r with
  | None => copy_ctor s
  | Some (first, second) =>
    let* res := substring s 0 first in
    let* res := (if width >? 0 then fill_loop res fillc (Z.to_nat (width - 1)) else Val res) in
    let* res := append_char res c in
    let* res := (if width <? 0 then let* w := chk64 (- width) in fill_loop res fillc (Z.to_nat (w - 1)) else Val res) in
    let* rest := substring_from s second in
    append res rest
  end.

(** String.cpp 983-988 and 1015-1020: the digits, last one first; a 64 bit number has at most 20 *)
Fixpoint digits_loop (s : jstr) (n : Z) (fuel : nat) : out jstr :=
  match fuel with
  | O => Fuel
  | S fuel => if n >? 0 then let* s := append_char s (Z.rem n 10 + 48) in digits_loop s (Z.quot n 10) fuel else Val s
  end.
(** 992-999, 1023-1030 *)
Fixpoint swap_loop (s : jstr) (a : Z) (k : nat) : out jstr :=
  match k with
  | O => Val s
  | S k => let* c1 := char_at s a in let* c2 := char_at s (len s - 1 - a) in
           let* s := set_char_at s a c2 in let* s := set_char_at s (len s - 1 - a) c1 in swap_loop s (a + 1) k
  end.
(** String.cpp 965-1001 *)
Definition value_of_int (n : Z) : out jstr :=
  let* (n, neg, s) := (if n <? 0 then let* m := chk64 (n * -1) in Val (m, true, str_new)
                       else if n =? 0 then let* s := append_char str_new 48 in Val (n, false, s)
                       else Val (n, false, str_new)) in
  let* s := digits_loop s n 21 in
  let* s := (if neg then append_char s 45 else Val s) in
  swap_loop s 0 (Z.to_nat (Z.quot (len s) 2)).
(** String.cpp 1003-1032 *)
Definition value_of_uint (n : Z) : out jstr :=
  if n =? 0 then append_char str_new 48 else
  let* s := digits_loop str_new n 21 in
  swap_loop s 0 (Z.to_nat (Z.quot (len s) 2)).
(** String.cpp 1108-1128 *)
Fixpoint to_int_loop (s : jstr) (val : Z) (neg : bool) (a : Z) (k : nat) : out (Z * bool) :=
  match k with
  | O => Val (val, neg)
  | S k =>
    let* c := char_at s a in
    if is_digit c then
      let* v := chk64 (val * 10) in let* v := chk64 (v + digit_value c) in to_int_loop s v neg (a + 1) k
    else if c =? 45 then to_int_loop s val true (a + 1) k
    else Exn
  end.
Definition to_int (s : jstr) : out Z :=
  let* (v, neg) := to_int_loop s 0 false 0 (Z.to_nat (len s)) in
  if neg then chk64 (v * -1) else Val v.

(** Integer.cpp 62-95 and 57-60: begin and size are uint32, r is a uint64 that is returned as int64 *)
Definition hex_digit (c : Z) : Z :=
  if is_digit c then digit_value c
  else if (97 <=? c) && (c <=? 102) then c - 97 + 10
  else if (65 <=? c) && (c <=? 70) then c - 65 + 10 else 0.
Fixpoint hex_loop (s : jstr) (r cnt : Z) (k : nat) : out Z :=
  match k with
  | O => Val r
  | S k => let* c := char_at s cnt in hex_loop s (Z.lor (u64 (Z.shiftl r 4)) (hex_digit c)) (u32 (cnt + 1)) k
  end.
Definition from_hex_range (s : jstr) (begin size : Z) : out Z :=
  let sz := u32 (begin + size) in
  let* r := hex_loop s 0 begin (Z.to_nat (sz - begin)) in Val (s64 r).
Definition from_hex (s : jstr) : out Z := from_hex_range s 0 (u32 (s32 (len s))).
(** Integer.cpp 98-121; gMask 36 *)
Definition hex_char (d : Z) : Z := if d <? 10 then 48 + d else 55 + d.
Fixpoint hex_digits (s : jstr) (n : Z) (fuel : nat) : out jstr :=
  match fuel with
  | O => Fuel
  | S fuel => if n >? 0 then let* s := append_char s (hex_char (Z.rem n 16)) in hex_digits s (Z.quot n 16) fuel else Val s
  end.
Definition to_hex (n : Z) : out jstr :=
  if n =? 0 then append_char str_new 48 else
  let* s := hex_digits str_new n 17 in reverse s.
(** Integer.cpp 37-38, 123-144 *)
Definition g_roman : list (Z * list Z) :=
  [(1000, [77]); (900, [67; 77]); (500, [68]); (400, [67; 68]); (100, [67]); (90, [88; 67]); (50, [76]); (40, [88; 76]);
   (10, [88]); (9, [73; 88]); (5, [86]); (4, [73; 86]); (1, [73])].
Fixpoint append_times (s t : jstr) (k : nat) : out jstr :=
  match k with O => Val s | S k => let* s := append s t in append_times s t k end.
Fixpoint roman_loop (s : jstr) (n : Z) (l : list (Z * list Z)) : out jstr :=
  match l with
  | [] => Val s
  | (v, t) :: l => let* s := append_times s (str_of t) (Z.to_nat (Z.quot n v)) in roman_loop s (Z.rem n v) l
  end.
Definition to_roman (n : Z) : out jstr := roman_loop str_new n g_roman.
(** Integer.cpp 146-162: the quotient is cut to an int32; 14 iterations are enough for the first quotient and 7 more
    for every 31 bit one *)
Fixpoint latin_loop (s : jstr) (n : Z) (fuel : nat) : out jstr :=
  match fuel with
  | O => Fuel
  | S fuel =>
    if n >? 0 then
      let* s := append_char s (u16 (65 + s16 (Z.rem n 26 - 1))) in
      latin_loop s (s32 (Z.quot n 26)) fuel
    else Val s
  end.
Definition to_latin (n : Z) : out jstr := let* s := latin_loop str_new n 16 in reverse s.
(** Integer.cpp 40-55: the result is a uint8 *)
Fixpoint digit_count (n i : Z) (fuel : nat) : out Z :=
  match fuel with
  | O => Fuel
  | S fuel => if n >? 9 then digit_count (Z.quot n 10) (u8 (i + 1)) fuel else Val i
  end.
Definition digits (n : Z) : out Z :=
  if n <? 0 then let* m := chk64 (n * -1) in digit_count m 2 20 else digit_count n 1 20.

(** String.cpp 1369-1403: the counter is a uint32 (strings below 2^32 characters) *)
Fixpoint url_encode_loop (s r : jstr) (a : Z) (k : nat) : out jstr :=
  match k with
  | O => Val r
  | S k =>
    let* c := char_at s a in
    let* r := (if c =? 32 then append_char r 43
               else if c =? 37 then let* r := append_char r 37 in let* r := append_char r 50 in append_char r 53
               else if c =? 43 then let* r := append_char r 37 in let* r := append_char r 50 in append_char r 66
               else append_char r c) in
    url_encode_loop s r (a + 1) k
  end.
Definition url_encode (s : jstr) : out jstr := url_encode_loop s str_new 0 (Z.to_nat (len s)).
(** String.cpp 1345-1363: the bytes written into the ByteArray (of the size of the text), as a list with the position;
    bytes are kept as 0..255 *)
Fixpoint url_decode_loop (s : jstr) (b : list Z) (pos a : Z) (fuel : nat) : out (list Z * Z) :=
  match fuel with
  | O => Fuel
  | S fuel =>
    if a <? len s then
      let* c := char_at s a in
      if c =? 37 then
        let* h := substring s (u32 (a + 1)) (u32 (a + 3)) in
        let* v := from_hex h in
        let* b := wr b pos (u8 v) in url_decode_loop s b (u32 (pos + 1)) (u32 (a + 3)) fuel
      else if c =? 43 then let* b := wr b pos 32 in url_decode_loop s b (u32 (pos + 1)) (u32 (a + 1)) fuel
      else let* b := wr b pos (u8 c) in url_decode_loop s b (u32 (pos + 1)) (u32 (a + 1)) fuel
    else Val (b, pos)
  end.
(** String.cpp 1334-1367: ByteArray(size, 0) has one more byte for the terminator (ByteArray.cpp 81-88), resize only
    moves the terminator (ByteArray.cpp 218-222), String(ByteArray) decodes up to the terminator (String.cpp 108-125) *)
Definition url_decode (s : jstr) : out jstr :=
  let* (b, pos) := url_decode_loop s (zeros (len s + 1)) 0 0 (S (Z.to_nat (len s))) in
  let* b := wr b pos 0 in
  if pos >? 0 then let* xs := utf8_decode b in Val (str_of xs) else Val str_new.
