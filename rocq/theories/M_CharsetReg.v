(** M_CharsetReg.v -- model of the registry of character sets: Charset.cpp 34-42, 84-164, 258-280, and of the String functions that use a character set
    (String.cpp 139-150, 220-225), with the decoders of M_Utf8 and M_Charset.
    Simplifications: the name of a set is the list of its characters (String::equals, C13); a ByteArray made by a decoder is its bytes with the zero behind them
    (ByteArray.cpp 81-88). *)
From Verif Require Import Base M_Utf8 M_Charset M_DiffInfo.
Import Coq.Strings.String.StringSyntax.
Local Open Scope string_scope.
Inductive decoder := DUtf8 | DW1252 | DMac | DUtf16 (be : bool) | DRaw.
(** mName, mDecoder; mAlternatives is nullptr and mAltCount 0 for every set that the library makes *)
Record charset := CS { cs_name : list Z; cs_dec : decoder }.
(** Charset.cpp 34-42 *)
Definition gCharsets : list charset :=
  [CS (lit_ "UTF-8") DUtf8; CS (lit_ "Windows-1252") DW1252; CS (lit_ "MacRoman") DMac; CS (lit_ "UTF-16LE") (DUtf16 false); CS (lit_ "UTF-16BE") (DUtf16 true); CS (lit_ "RAW") DRaw; CS (lit_ "ASCII") DRaw].
(** [alive]: not yet deleted by System::quit; gCharsetCount is 7 or 0 (Charset.cpp 276-280) *)
Definition count (alive : bool) : list charset := if alive then gCharsets else [].
(** Charset.cpp 136-146 *)
Definition has_name (c : charset) (n : list Z) : bool := if list_eq_dec Z.eq_dec (cs_name c) n then true else false.
(** Charset.cpp 157-164 *)
Fixpoint search (l : list charset) (n : list Z) : option charset := match l with [] => None | c :: l => if has_name c n then Some c else search l n end.
Definition for_name (alive : bool) (n : list Z) : option charset := search (count alive) n.
(** Charset.cpp 265-268; a deleted set cannot be used *)
Definition get_default (alive : bool) : out charset := if alive then match gCharsets with c :: _ => Val c | [] => UB end else UB.
(** Charset.cpp 147-155 *)
Definition decode (c : charset) (mem : list Z) : out (list Z) :=
  match cs_dec c with DUtf8 => utf8_decode mem | DW1252 => w1252_decode mem | DMac => mac_decode mem | DUtf16 be => utf16_decode be mem | DRaw => raw_decode mem end.
Definition encode (c : charset) (s : list Z) : out (list Z) :=
  match cs_dec c with DUtf8 => utf8_encode s | DW1252 => Val (w1252_encode s) | DMac => Val (mac_encode s) | DUtf16 _ => Val (utf16_encode s) | DRaw => Val (raw_encode s) end.
(** String.cpp 220-225: toCString(charset); None: nullptr *)
Definition to_cstring (s : list Z) (c : option charset) : out (list Z) := match c with None => UB | Some c => let* b := encode c s in Val (b ++ [0]) end.
(** String.cpp 132-145: String(cstring, charset), String(buffer, charset) *)
Definition string_of (mem : list Z) (c : option charset) : out (list Z) := match c with None => UB | Some c => decode c mem end.
(** the name that guess answers *)
Definition guess_name (g : charset_name) : list Z := match g with UTF8 => lit_ "UTF-8" | UTF16BE => lit_ "UTF-16BE" | UTF16LE => lit_ "UTF-16LE" | ASCII => lit_ "ASCII" end.
(** reading a text whose character set is not known: String(stream, Charset::forName(Charset::guess(stream, length))) *)
Definition read_text (mem : list Z) (length : Z) : out (list Z) := let* g := guess mem length in string_of mem (for_name true (guess_name g)).
