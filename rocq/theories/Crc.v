(* Model of zdecoder/crc.go: the table-driven CRC-16. *)
From Coq Require Import ZArith List Bool.
From Verif Require Import Bytes.
Import ListNotations.
Local Open Scope Z_scope.

(* zdecoder/crc.go 3-30: crc16_h (decimal transcription of all 256 entries). *)
Definition crc16_h : list Z := [
  0; 193; 129; 64; 1; 192; 128; 65; 1; 192; 128; 65; 0; 193; 129; 64;
  1; 192; 128; 65; 0; 193; 129; 64; 0; 193; 129; 64; 1; 192; 128; 65;
  1; 192; 128; 65; 0; 193; 129; 64; 0; 193; 129; 64; 1; 192; 128; 65;
  0; 193; 129; 64; 1; 192; 128; 65; 1; 192; 128; 65; 0; 193; 129; 64;
  1; 192; 128; 65; 0; 193; 129; 64; 0; 193; 129; 64; 1; 192; 128; 65;
  0; 193; 129; 64; 1; 192; 128; 65; 1; 192; 128; 65; 0; 193; 129; 64;
  0; 193; 129; 64; 1; 192; 128; 65; 1; 192; 128; 65; 0; 193; 129; 64;
  1; 192; 128; 65; 0; 193; 129; 64; 0; 193; 129; 64; 1; 192; 128; 65;
  1; 192; 128; 65; 0; 193; 129; 64; 0; 193; 129; 64; 1; 192; 128; 65;
  0; 193; 129; 64; 1; 192; 128; 65; 1; 192; 128; 65; 0; 193; 129; 64;
  0; 193; 129; 64; 1; 192; 128; 65; 1; 192; 128; 65; 0; 193; 129; 64;
  1; 192; 128; 65; 0; 193; 129; 64; 0; 193; 129; 64; 1; 192; 128; 65;
  0; 193; 129; 64; 1; 192; 128; 65; 1; 192; 128; 65; 0; 193; 129; 64;
  1; 192; 128; 65; 0; 193; 129; 64; 0; 193; 129; 64; 1; 192; 128; 65;
  1; 192; 128; 65; 0; 193; 129; 64; 0; 193; 129; 64; 1; 192; 128; 65;
  0; 193; 129; 64; 1; 192; 128; 65; 1; 192; 128; 65; 0; 193; 129; 64
].

(* zdecoder/crc.go 32-59: crc16_l. *)
Definition crc16_l : list Z := [
  0; 192; 193; 1; 195; 3; 2; 194; 198; 6; 7; 199; 5; 197; 196; 4;
  204; 12; 13; 205; 15; 207; 206; 14; 10; 202; 203; 11; 201; 9; 8; 200;
  216; 24; 25; 217; 27; 219; 218; 26; 30; 222; 223; 31; 221; 29; 28; 220;
  20; 212; 213; 21; 215; 23; 22; 214; 210; 18; 19; 211; 17; 209; 208; 16;
  240; 48; 49; 241; 51; 243; 242; 50; 54; 246; 247; 55; 245; 53; 52; 244;
  60; 252; 253; 61; 255; 63; 62; 254; 250; 58; 59; 251; 57; 249; 248; 56;
  40; 232; 233; 41; 235; 43; 42; 234; 238; 46; 47; 239; 45; 237; 236; 44;
  228; 36; 37; 229; 39; 231; 230; 38; 34; 226; 227; 35; 225; 33; 32; 224;
  160; 96; 97; 161; 99; 163; 162; 98; 102; 166; 167; 103; 165; 101; 100; 164;
  108; 172; 173; 109; 175; 111; 110; 174; 170; 106; 107; 171; 105; 169; 168; 104;
  120; 184; 185; 121; 187; 123; 122; 186; 190; 126; 127; 191; 125; 189; 188; 124;
  180; 116; 117; 181; 119; 183; 182; 118; 114; 178; 179; 115; 177; 113; 112; 176;
  80; 144; 145; 81; 147; 83; 82; 146; 150; 86; 87; 151; 85; 149; 148; 84;
  156; 92; 93; 157; 95; 159; 158; 94; 90; 154; 155; 91; 153; 89; 88; 152;
  136; 72; 73; 137; 75; 139; 138; 74; 78; 142; 143; 79; 141; 77; 76; 140;
  68; 132; 133; 69; 135; 71; 70; 134; 130; 66; 67; 131; 65; 129; 128; 64
].

(* zdecoder/crc.go 65-69: one iteration; the table index is masked with 0xff so
   it is always in range (the default of nth is never used). *)
Definition crc_step (st : Z * Z) (b : byte) : Z * Z :=
  let '(hi, low) := st in
  let pos := Z.land (Z.lxor low (b2z b)) 255 in
  (nth (Z.to_nat pos) crc16_l 0, Z.lxor hi (nth (Z.to_nat pos) crc16_h 0)).

(* zdecoder/crc.go 61-76: GetCrC, low byte first. *)
Definition get_crc (buff : list byte) : list byte :=
  let '(hi, low) := fold_left crc_step buff (255, 255) in
  let d_crc := Z.lor (Z.shiftl (Z.land hi 255) 8) (Z.land (Z.land low 255) 65535) in
  [z2b (Z.land d_crc 255); z2b (Z.land (Z.shiftr d_crc 8) 255)].

(* zdecoder/crc.go 78-87: IsComplete; both arguments are non-nil here. *)
Definition is_complete (src dst : list byte) : bool :=
  match src, dst with
  | [s0; s1], [d0; d1] => Byte.eqb s0 d0 && Byte.eqb s1 d1
  | _, _ => false
  end.

(* zdecoder/crc.go 89-91: CheckCRC. *)
Definition check_crc (src crc : list byte) : bool := is_complete (get_crc src) crc.
