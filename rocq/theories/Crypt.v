(** Maker note ciphers: rawler/src/decoders/nef/decrypt.rs (Nikon) and
    rawler/src/decoders/arw.rs:697-729 (Sony).
    Not modelled: fetching the serial number and the key from the maker note
    directory (nef/decrypt.rs:7-8 and 23); they are arguments here. *)
From Coq Require Import List ZArith Bool.
From Verif Require Import Base Tiff.
Import ListNotations.
Open Scope Z_scope.

(** WB_SERIALMAP, nef/decrypt.rs:41-52 *)
Definition WB_SERIALMAP : list Z := [
   193; 191; 109; 13; 89; 197; 19; 157; 131; 97; 107; 79; 199; 127; 61; 61;
   83; 89; 227; 199; 233; 47; 149; 167; 149; 31; 223; 127; 43; 41; 199; 13;
   223; 7; 239; 113; 137; 61; 19; 61; 59; 19; 251; 13; 137; 193; 101; 31;
   179; 13; 107; 41; 227; 251; 239; 163; 107; 71; 127; 149; 53; 167; 71; 79;
   199; 241; 89; 149; 53; 17; 41; 97; 241; 61; 179; 43; 13; 67; 137; 193;
   157; 157; 137; 101; 241; 233; 223; 191; 61; 127; 83; 151; 229; 233; 149; 23;
   29; 61; 139; 251; 199; 227; 103; 167; 7; 241; 113; 167; 83; 181; 41; 137;
   229; 43; 167; 23; 41; 233; 79; 197; 101; 109; 107; 239; 13; 137; 73; 47;
   179; 67; 83; 101; 29; 73; 163; 19; 137; 89; 239; 107; 239; 101; 29; 11;
   89; 19; 227; 79; 157; 179; 41; 67; 43; 7; 29; 149; 89; 89; 71; 251;
   229; 233; 97; 71; 47; 53; 127; 23; 127; 239; 127; 149; 149; 113; 211; 163;
   11; 113; 163; 173; 11; 59; 181; 251; 163; 191; 79; 131; 29; 173; 233; 47;
   113; 101; 163; 229; 7; 53; 61; 13; 181; 233; 229; 71; 59; 157; 239; 53;
   163; 191; 179; 223; 83; 211; 151; 83; 73; 113; 7; 53; 97; 113; 47; 67;
   47; 17; 223; 23; 151; 251; 149; 59; 127; 107; 211; 37; 191; 173; 199; 197;
   197; 181; 139; 239; 47; 211; 7; 107; 37; 73; 149; 37; 73; 109; 113; 199
  ].
(** WB_KEYMAP, nef/decrypt.rs:54-65 *)
Definition WB_KEYMAP : list Z := [
   167; 188; 201; 173; 145; 223; 133; 229; 212; 120; 213; 23; 70; 124; 41; 76;
   77; 3; 233; 37; 104; 17; 134; 179; 189; 247; 111; 97; 34; 162; 38; 52;
   42; 190; 30; 70; 20; 104; 157; 68; 24; 194; 64; 244; 126; 95; 27; 173;
   11; 148; 182; 103; 180; 11; 225; 234; 149; 156; 102; 220; 231; 93; 108; 5;
   218; 213; 223; 122; 239; 246; 219; 31; 130; 76; 192; 104; 71; 161; 189; 238;
   57; 80; 86; 74; 221; 223; 165; 248; 198; 218; 202; 144; 202; 1; 66; 157;
   139; 12; 115; 67; 117; 5; 148; 222; 36; 179; 128; 52; 229; 44; 220; 155;
   63; 202; 51; 69; 208; 219; 95; 245; 82; 195; 33; 218; 226; 34; 114; 107;
   62; 208; 91; 168; 135; 140; 6; 93; 15; 221; 9; 25; 147; 208; 185; 252;
   139; 15; 132; 96; 51; 28; 155; 69; 241; 240; 163; 148; 58; 18; 119; 51;
   77; 68; 120; 40; 60; 158; 253; 101; 87; 22; 148; 107; 251; 89; 208; 200;
   34; 54; 219; 210; 99; 152; 67; 161; 4; 135; 134; 247; 166; 38; 187; 214;
   89; 77; 191; 106; 46; 170; 43; 239; 230; 120; 182; 78; 224; 47; 220; 124;
   190; 87; 25; 50; 126; 42; 208; 184; 186; 41; 0; 60; 82; 125; 168; 73;
   59; 45; 235; 37; 73; 250; 163; 170; 57; 167; 197; 167; 80; 17; 54; 251;
   198; 103; 74; 245; 165; 18; 101; 126; 176; 223; 175; 78; 179; 97; 127; 47
  ].

(** serialno, nef/decrypt.rs:9-20: decimal digits up to the first NUL; usize overflow panics *)
Fixpoint nef_serial (data : list Z) (serialno : Z) : res Z :=
  match data with
  | [] => Ok serialno
  | d :: data =>
    if d =? 0 then Ok serialno else
    let digit := if (48 <=? d) && (d <=? 57) then d - 48 else d mod 10 in
    let s := serialno * 10 + digit in
    if s <? 2 ^ 64 then nef_serial data s else Panic
  end.

(** keyno, nef/decrypt.rs:23-24 *)
Definition nef_keyno (key : Z) : Z :=
  fold_left Z.lxor (le_bytes 4 key) 0.

(** the loop, nef/decrypt.rs:31-35; [cj] and [ck] are u32 with overflow checks *)
Fixpoint nef_loop (ci cj ck : Z) (src : list Z) : res (list Z) :=
  match src with
  | [] => Ok []
  | b :: src =>
    if 2 ^ 32 <=? ci * ck then Panic else
    let cj := cj + ci * ck in
    if 2 ^ 32 <=? cj then Panic else
    if 2 ^ 32 <=? ck + 1 then Panic else
    do out <- nef_loop ci cj (ck + 1) src;
    Ok (Z.lxor b (wrap_u8 cj) :: out)
  end.

(** nef_decrypt, nef/decrypt.rs:6-37 *)
Definition nef_decrypt (serial : list Z) (key : Z) (start : nat) (buf : list Z) : res (list Z) :=
  do serialno <- nef_serial serial 0;
  do src <- slice buf start (length buf);
  do ci <- get WB_SERIALMAP (Z.to_nat (Z.land serialno 255));
  do cj <- get WB_KEYMAP (Z.to_nat (Z.land (nef_keyno key) 255));
  do out <- nef_loop ci cj 96 src;
  Ok (firstn start buf ++ out).

(** ** Sony *)
Definition shl32 (v n : Z) : Z := wrap_u32 (v * 2 ^ n).
(** u32::from_be on a little endian host *)
Definition swap32 (v : Z) : Z := dec BE (le_bytes 4 v).

(** pad[p] for p in 0..4, arw.rs:702-707 *)
Definition sony_init4 (key : Z) : res (Z * list Z) :=
  for_each (seq 0 4) (fun p '(mkey, pad) =>
    let mkey := wrap_u32 (wrap_u32 (mkey * 48828125) + 1) in
    do pad <- put pad p mkey; Ok (mkey, pad)) (key, repeat 0 128).
(** arw.rs:708-714 *)
Definition sony_pad (key : Z) : res (list Z) :=
  do (_, pad) <- sony_init4 key;
  do p3 <- get pad 3; do p0 <- get pad 0; do p2 <- get pad 2;
  do pad <- put pad 3 (Z.lor (shl32 p3 1) (Z.shiftr (Z.lxor p0 p2) 31));
  do pad <- for_each (seq 4 123) (fun p pad =>
    do a <- get pad (p - 4); do b <- get pad (p - 2); do c <- get pad (p - 3); do d <- get pad (p - 1);
    put pad p (Z.lor (shl32 (Z.lxor a b) 1) (Z.shiftr (Z.lxor c d) 31))) pad;
  for_each (seq 0 127) (fun p pad => do v <- get pad p; put pad p (swap32 v)) pad.

(** LEu32, bits.rs:154-156: panics when fewer than four bytes are left *)
Definition LEu32 (buf : list Z) (pos : nat) : res Z :=
  do b <- slice buf pos (pos + 4); Ok (dec LE b).

(** sony_decrypt, arw.rs:697-729 *)
Definition sony_step (buf : list Z) (offset i : nat) (st : list Z * list Z) : res (list Z * list Z) :=
  let '(pad, out) := st in
  let p := (i + 127)%nat in
  do a <- get pad (Nat.land (p + 1) 127);
  do b <- get pad (Nat.land (p + 1 + 64) 127);
  do pad <- put pad (Nat.land p 127) (Z.lxor a b);
  do w <- LEu32 buf (offset + i * 4);
  do k <- get pad (Nat.land p 127);
  Ok (pad, out ++ le_bytes 4 (Z.lxor w k)).
Definition sony_decrypt (buf : list Z) (offset len : nat) (key : Z) : res (list Z) :=
  if (length buf <? offset + 4 * (len / 4))%nat then Err else
  do pad <- sony_pad key;
  do (_, out) <- for_each (seq 0 (len / 4)) (sony_step buf offset) (pad, []);
  Ok out.
