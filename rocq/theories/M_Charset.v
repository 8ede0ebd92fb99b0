(** M_Charset.v -- model of the single byte decoders (Windows1252Decoder.cpp, MacRomanDecoder.cpp, RawDecoder in
    CharsetDecoder.cpp), UTF16Decoder.cpp and Charset::guess (Charset.cpp).
    A C string is a readable block of bytes 0..255; reading outside it is UB. The uint32 counters are not
    wrapped (texts below 4 GiB). The tables were extracted from the sources by a script. *)
From Verif Require Import Base.

(** CharsetDecoder.cpp 54-55, Windows1252Decoder.cpp 70-71, MacRomanDecoder.cpp 616-617: length of a C string from [i] *)
Fixpoint c_strlen (fuel : nat) (mem : list Z) (i : Z) : out Z :=
  match fuel with
  | O => Fuel
  | S fuel => let* c := rd mem i in if c =? 0 then Val i else c_strlen fuel mem (i + 1)
  end.
(** the fill loop "for a < length: array.buffer[a] = f(cstring[a])" *)
Fixpoint map_bytes (f : Z -> Z) (mem : list Z) (i : Z) (n : nat) : out (list Z) :=
  match n with
  | O => Val []
  | S n => let* c := rd mem i in let* r := map_bytes f mem (i + 1) n in Val (f c :: r)
  end.
Definition decode_single (f : Z -> Z) (mem : list Z) : out (list Z) :=
  let* n := c_strlen (S (length mem)) mem 0 in map_bytes f mem 0 (Z.to_nat n).
(** "switch(unicode)" *)
Fixpoint switch (cases : list (Z * Z)) (dflt : Z) (c : Z) : Z :=
  match cases with [] => dflt | (k, v) :: r => if c =? k then v else switch r dflt c end.

(** Windows1252Decoder.cpp 38-57 *)
Definition w1252_table : list Z :=
  [0; 1; 2; 3; 4; 5; 6; 7; 8; 9; 10; 11; 12; 13; 14; 15;
   16; 17; 18; 19; 20; 21; 22; 23; 24; 25; 26; 27; 28; 29; 30; 31;
   32; 33; 34; 35; 36; 37; 38; 39; 40; 41; 42; 43; 44; 45; 46; 47;
   48; 49; 50; 51; 52; 53; 54; 55; 56; 57; 58; 59; 60; 61; 62; 63;
   64; 65; 66; 67; 68; 69; 70; 71; 72; 73; 74; 75; 76; 77; 78; 79;
   80; 81; 82; 83; 84; 85; 86; 87; 88; 89; 90; 91; 92; 93; 94; 95;
   96; 97; 98; 99; 100; 101; 102; 103; 104; 105; 106; 107; 108; 109; 110; 111;
   112; 113; 114; 115; 116; 117; 118; 119; 120; 121; 122; 123; 124; 125; 126; 127;
   8364; 0; 8218; 402; 8222; 8230; 8224; 8225; 8390; 8240; 352; 8249; 338; 0; 381; 0;
   0; 8216; 8217; 8220; 8221; 8226; 8211; 8212; 732; 8482; 353; 8250; 339; 0; 382; 376;
   160; 161; 162; 163; 164; 165; 166; 167; 168; 169; 170; 171; 172; 173; 174; 175;
   176; 177; 178; 179; 180; 181; 182; 183; 184; 185; 186; 187; 188; 189; 190; 191;
   192; 193; 194; 195; 196; 197; 198; 199; 200; 201; 202; 203; 204; 205; 206; 207;
   208; 209; 210; 211; 212; 213; 214; 215; 216; 217; 218; 219; 220; 221; 222; 223;
   224; 225; 226; 227; 228; 229; 230; 231; 232; 233; 234; 235; 236; 237; 238; 239;
   240; 241; 242; 243; 244; 245; 246; 247; 248; 249; 250; 251; 252; 253; 254; 255].
(** Windows1252Decoder.cpp 89-201 *)
Definition w1252_cases : list (Z * Z) :=
  [(8364,128); (8218,130); (402,131); (8222,132); (8230,133); (8224,134); (8225,135); (8390,136); (8240,137); (352,138);
   (8249,139); (338,140); (0,141); (381,142); (8216,145); (8217,146); (8220,147); (8221,148); (8226,149); (8211,150);
   (8212,151); (732,152); (8482,153); (353,154); (8250,155); (339,156); (382,158); (376,159)].
(** Windows1252Decoder.cpp 67-81 *)
Definition w1252_decode : list Z -> out (list Z) := decode_single (fun c => nth (Z.to_nat c) w1252_table 0).
(** Windows1252Decoder.cpp 83-209; 203: default low byte *)
Definition w1252_encode (s : list Z) : list Z := map (fun c => switch w1252_cases (u8 c) c) s.

(** MacRomanDecoder.cpp 38-57 *)
Definition mac_table : list Z :=
  [0; 1; 2; 3; 4; 5; 6; 7; 8; 9; 10; 11; 12; 13; 14; 15;
   16; 17; 18; 19; 20; 21; 22; 23; 24; 25; 26; 27; 28; 29; 30; 31;
   32; 33; 34; 35; 36; 37; 38; 39; 40; 41; 42; 43; 44; 45; 46; 47;
   48; 49; 50; 51; 52; 53; 54; 55; 56; 57; 58; 59; 60; 61; 62; 63;
   64; 65; 66; 67; 68; 69; 70; 71; 72; 73; 74; 75; 76; 77; 78; 79;
   80; 81; 82; 83; 84; 85; 86; 87; 88; 89; 90; 91; 92; 93; 94; 95;
   96; 97; 98; 99; 100; 101; 102; 103; 104; 105; 106; 107; 108; 109; 110; 111;
   112; 113; 114; 115; 116; 117; 118; 119; 120; 121; 122; 123; 124; 125; 126; 127;
   196; 197; 199; 201; 209; 214; 220; 225; 224; 226; 228; 227; 229; 231; 233; 232;
   234; 235; 236; 237; 238; 239; 241; 243; 242; 244; 246; 245; 250; 249; 251; 252;
   8224; 176; 162; 163; 167; 8226; 182; 223; 174; 169; 8482; 180; 168; 8800; 198; 216;
   8478; 177; 8804; 8805; 165; 181; 8706; 8721; 8719; 960; 8747; 170; 186; 937; 230; 248;
   191; 161; 172; 8730; 402; 8776; 8710; 171; 187; 8230; 160; 192; 195; 213; 338; 339;
   8211; 8212; 8220; 8221; 8216; 8217; 247; 9674; 255; 376; 8260; 8364; 8249; 8250; 64257; 64258;
   8225; 183; 8218; 8222; 8240; 194; 202; 193; 203; 200; 205; 206; 207; 204; 211; 212;
   63743; 210; 218; 219; 217; 305; 710; 732; 175; 728; 729; 730; 184; 733; 731; 711].
(** MacRomanDecoder.cpp 74-588 (the cases inside the comment are not there) *)
Definition mac_cases : list (Z * Z) :=
  [(0,0); (1,1); (2,2); (3,3); (4,4); (5,5); (6,6); (7,7); (8,8); (9,9);
   (10,10); (11,11); (12,12); (13,13); (14,14); (15,15); (16,16); (17,17); (18,18); (19,19);
   (20,20); (21,21); (22,22); (23,23); (24,24); (25,25); (26,26); (27,27); (28,28); (29,29);
   (30,30); (31,31); (32,32); (33,33); (34,34); (35,35); (36,36); (37,37); (38,38); (39,39);
   (40,40); (41,41); (42,42); (43,43); (44,44); (45,45); (46,46); (47,47); (48,48); (49,49);
   (50,50); (51,51); (52,52); (53,53); (54,54); (55,55); (56,56); (57,57); (58,58); (59,59);
   (60,60); (61,61); (62,62); (63,63); (64,64); (65,65); (66,66); (67,67); (68,68); (69,69);
   (70,70); (71,71); (72,72); (73,73); (74,74); (75,75); (76,76); (77,77); (78,78); (79,79);
   (80,80); (81,81); (82,82); (83,83); (84,84); (85,85); (86,86); (87,87); (88,88); (89,89);
   (90,90); (91,91); (92,92); (93,93); (94,94); (95,95); (96,96); (97,97); (98,98); (99,99);
   (100,100); (101,101); (102,102); (103,103); (104,104); (105,105); (106,106); (107,107); (108,108); (109,109);
   (110,110); (111,111); (112,112); (113,113); (114,114); (115,115); (116,116); (117,117); (118,118); (119,119);
   (120,120); (121,121); (122,122); (123,123); (124,124); (125,125); (126,126); (196,128); (197,129); (199,130);
   (201,131); (209,132); (214,133); (220,134); (225,135); (224,136); (226,137); (228,138); (227,139); (229,140);
   (231,141); (233,142); (232,143); (234,144); (235,145); (237,146); (236,147); (238,148); (239,149); (241,150);
   (243,151); (242,152); (244,153); (246,154); (245,155); (250,156); (249,157); (251,158); (252,159); (8224,160);
   (176,161); (162,162); (163,163); (167,164); (8226,165); (182,166); (223,167); (174,168); (169,169); (8482,170);
   (180,171); (168,172); (8800,173); (198,174); (216,175); (8734,176); (177,177); (8804,178); (8805,179); (165,180);
   (181,181); (8706,182); (8721,183); (8719,184); (960,185); (8747,186); (170,187); (186,188); (937,189); (230,190);
   (248,191); (191,192); (161,193); (172,194); (8730,195); (402,196); (8776,197); (8710,198); (171,199); (187,200);
   (8230,201); (160,202); (192,203); (195,204); (213,205); (338,206); (339,207); (8211,208); (8212,209); (8220,210);
   (8221,211); (8216,212); (8217,213); (247,214); (9674,215); (255,216); (376,217); (8260,218); (164,219); (8364,219);
   (8249,220); (8250,221); (64257,222); (64258,223); (8225,224); (183,225); (8218,226); (8222,227); (8240,228); (194,229);
   (202,230); (193,231); (203,232); (200,233); (205,234); (206,235); (207,236); (204,237); (211,238); (212,239);
   (63743,240); (210,241); (218,242); (219,243); (217,244); (305,245); (710,246); (732,247); (175,248); (728,249);
   (729,250); (730,251); (184,252); (733,253); (731,254); (711,255)].
(** MacRomanDecoder.cpp 67-70, 613-627 *)
Definition mac_decode : list Z -> out (list Z) := decode_single (fun c => nth (Z.to_nat c) mac_table 0).
(** MacRomanDecoder.cpp 72-609, 629-640: unknown characters become 0 *)
Definition mac_encode (s : list Z) : list Z := map (switch mac_cases 0) s.

(** CharsetDecoder.cpp 51-65: Char(cstring[a]) with a signed char: sign extended to 16 bits *)
Definition raw_decode : list Z -> out (list Z) := decode_single (fun c => u16 (s8 c)).
(** CharsetDecoder.cpp 67-77 *)
Definition raw_encode (s : list Z) : list Z := map u8 s.

(** UTF16Decoder.cpp 70-75: strLength *)
Fixpoint utf16_count (fuel : nat) (mem : list Z) (cntC strLength : Z) : out Z :=
  match fuel with
  | O => Fuel
  | S fuel => let* c := rd mem cntC in if c =? 0 then Val strLength else utf16_count fuel mem (cntC + 2) (strLength + 1)
  end.
(** UTF16Decoder.cpp 78-86 *)
Fixpoint utf16_fill (be : bool) (mem : list Z) (cntC : Z) (n : nat) : out (list Z) :=
  match n with
  | O => Val []
  | S n =>
    let* c1 := rd mem cntC in
    let* c2 := rd mem (cntC + 1) in
    let* r := utf16_fill be mem (cntC + 2) n in
    Val (u16 (if be then Z.lor (Z.shiftl c1 8) c2 else Z.lor c1 (Z.shiftl c2 8)) :: r)
  end.
(** UTF16Decoder.cpp 41-88: decode. && evaluates lazily. *)
Definition utf16_decode (be : bool) (mem : list Z) : out (list Z) :=
  let* c0 := rd mem 0 in
  let* bom1 := (if c0 =? 254 then let* c1 := rd mem 1 in Val (c1 =? 255) else Val false) in        (* 50 *)
  let* bom2 := (if bom1 then Val false else if c0 =? 255 then let* c1 := rd mem 1 in Val (c1 =? 254) else Val false) in (* 56 *)
  let* bad := (if bom1 || bom2 then Val false
               else if c0 =? 239 then
                 let* c1 := rd mem 1 in
                 if c1 =? 187 then let* c2 := rd mem 2 in Val (c2 =? 191) else Val false
               else Val false) in                                                               (* 62 *)
  if bad then Exn else
  let start := if bom1 || bom2 then 2 else 0 in
  let cntC := if bom1 || bom2 then 2 else if be then 1 else 0 in
  let* n := utf16_count (S (length mem)) mem cntC 0 in
  utf16_fill be mem start (Z.to_nat n).
(** UTF16Decoder.cpp 90-106: encode, big endian whatever [be] is *)
Definition utf16_encode (s : list Z) : list Z := concat (map (fun c => [u8 (Z.shiftr c 8); u8 c]) s).

(** Charset.cpp 206-212: zero bytes at even and odd offsets of the first [frame] bytes *)
Fixpoint count_zeros (stream : list Z) (a : Z) (frame : nat) (c1 c2 : Z) : out (Z * Z) :=
  match frame with
  | O => Val (c1, c2)
  | S f =>
    let* c := rd stream a in
    if c =? 0 then if a mod 2 =? 0 then count_zeros stream (a + 1) f (c1 + 1) c2 else count_zeros stream (a + 1) f c1 (c2 + 1)
    else count_zeros stream (a + 1) f c1 c2
  end.
(** Charset.cpp 247-255: "stream[a] > 0x7F" with a signed char *)
Fixpoint all_ascii (stream : list Z) (a : Z) (n : nat) : out bool :=
  match n with
  | O => Val true
  | S n => let* c := rd stream a in if s8 c >? 127 then Val false else all_ascii stream (a + 1) n
  end.
Inductive charset_name := UTF8 | UTF16BE | UTF16LE | ASCII.
(** Charset.cpp 166-262 on Linux (encoding = "UTF-8", so the Windows-1252 part 224-244 is skipped).
    The float comparisons 214/218 "count / (0.5 frame) > 0.9" are written 20 count > 9 frame: with
    count <= 2048 and frame <= 4096 the rounding cannot change the result. *)
Definition guess (stream : list Z) (length : Z) : out charset_name :=
  let* c0 := rd stream 0 in
  let* be := (if c0 =? 254 then let* c1 := rd stream 1 in Val (c1 =? 255) else Val false) in
  if be then Val UTF16BE else
  let* le := (if c0 =? 255 then let* c1 := rd stream 1 in Val (c1 =? 254) else Val false) in
  if le then Val UTF16LE else
  let* u8bom := (if c0 =? 239 then
                 let* c1 := rd stream 1 in
                 if c1 =? 187 then let* c2 := rd stream 2 in Val (c2 =? 191) else Val false
               else Val false) in
  if u8bom then Val UTF8 else
  let frame := u16 (Z.min 4096 length) in
  let* (count1, count2) := count_zeros stream 0 (Z.to_nat frame) 0 0 in
  if 20 * count1 >? 9 * frame then Val UTF16BE
  else if 20 * count2 >? 9 * frame then Val UTF16LE
  else
    let* isASCII := all_ascii stream 0 (Z.to_nat length) in
    if isASCII then Val ASCII else Val UTF8.
