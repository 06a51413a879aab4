(** Model of rawler/src/pumps.rs (bit pumps and byte stream). *)
From Coq Require Import List ZArith Bool.
From Verif Require Import Base.
Import ListNotations.
Open Scope Z_scope.

(** trait BitPump, pumps.rs:150-164 (the required methods; [get_bits] is the
    provided method, pumps.rs:154-164).  A method that takes [&mut self]
    returns the new pump. *)
Record pump_ops (P : Type) := {
  peek_bits : nat -> P -> res (Z * P);
  consume_bits : nat -> P -> res P
}.
Arguments peek_bits {P}.
Arguments consume_bits {P}.

(** pumps.rs:155-164 *)
Definition get_bits {P} (o : pump_ops P) (num : nat) (p : P) : res (Z * P) :=
  if (num =? 0)%nat then Ok (0, p) else
  do (v, p1) <- peek_bits o num p;
  do p2 <- consume_bits o num p1;
  Ok (v, p2).

(** u64 shifts: a shift amount of 64 or more panics (debug build). *)
Definition shl64 (a : Z) (n : nat) : res Z :=
  if (n <? 64)%nat then Ok (wrap_u64 (Z.shiftl a (Z.of_nat n))) else Panic.
Definition shr64 (a : Z) (n : nat) : res Z :=
  if (n <? 64)%nat then Ok (Z.shiftr a (Z.of_nat n)) else Panic.

(** u32::from_be_bytes / from_le_bytes, bits.rs BEu32/LEu32 *)
Definition be32 (a b c d : Z) : Z := ((a * 256 + b) * 256 + c) * 256 + d.
Definition le32 (a b c d : Z) : Z := be32 d c b a.

(** State of BitPumpLSB / BitPumpMSB / BitPumpMSB32 (pumps.rs:6-10, 46-50,
    83-88).  [Chunks] over 4 bytes is represented by the bytes not yet
    handed out.  MSB32's [pos] only feeds [get_pos] (pumps.rs:124-126). *)
Record wpump := mk_wpump { w_rest : list Z; w_bits : Z; w_nbits : nat; w_pos : nat }.

(** BitPumpLSB::new, BitPumpMSB::new, BitPumpMSB32::new (pumps.rs:13-19,53-59,91-98) *)
Definition wpump_new (src : list Z) : wpump := mk_wpump src 0 0 0.

(** slow refill folds: pumps.rs:74 (MSB, front to back) and 33-37/112-116
    (LSB and MSB32, back to front). *)
Definition slow_fold (l : list Z) : Z * nat :=
  fold_left (fun '(bits, cnt) x => (Z.lor (wrap_u32 (Z.shiftl bits 8)) x, (cnt + 8)%nat)) l (0, 0%nat).

(** BitPumpMSB::refill pumps.rs:66-79: returns (bits, bit_cnt, remaining). *)
Definition refill_be (rest : list Z) : res (Z * nat * list Z) :=
  match rest with
  | [] => Panic
  | a :: b :: c :: d :: t => Ok (be32 a b c d, 32%nat, t)
  | l => let '(v, n) := slow_fold l in Ok (v, n, [])
  end.

(** BitPumpLSB::refill pumps.rs:26-42 and BitPumpMSB32::refill 105-121. *)
Definition refill_le (rest : list Z) : res (Z * nat * list Z) :=
  match rest with
  | [] => Panic
  | a :: b :: c :: d :: t => Ok (le32 a b c d, 32%nat, t)
  | l => let '(v, n) := slow_fold (rev l) in Ok (v, n, [])
  end.

(** BitPumpLSB::peek_bits pumps.rs:207-215 *)
Definition lsb_peek (num : nat) (p : wpump) : res (Z * wpump) :=
  do p1 <-
    (if (w_nbits p <? num)%nat then
       do (inb, cnt, rest) <- refill_le (w_rest p);
       do s <- usub 32 (w_nbits p);
       do hi <- shl64 inb 32;
       do lo <- shl64 (w_bits p) s;
       do v <- shr64 (Z.lor hi lo) s;
       Ok (mk_wpump rest v (w_nbits p + cnt) (w_pos p))
     else Ok p);
  do m <- usub 32 num;
  Ok (wrap_u32 (Z.land (w_bits p1) (Z.shiftr 4294967295 (Z.of_nat m))), p1).

(** BitPumpLSB::consume_bits pumps.rs:217-221 *)
Definition lsb_consume (num : nat) (p : wpump) : res wpump :=
  do n <- usub (w_nbits p) num;
  do v <- shr64 (w_bits p) num;
  Ok (mk_wpump (w_rest p) v n (w_pos p)).

Definition lsb_ops : pump_ops wpump :=
  {| peek_bits := lsb_peek; consume_bits := lsb_consume |}.

(** BitPumpMSB::peek_bits pumps.rs:225-233 *)
Definition msb_peek (num : nat) (p : wpump) : res (Z * wpump) :=
  do p1 <-
    (if (w_nbits p <? num)%nat then
       do (inb, cnt, rest) <- refill_be (w_rest p);
       do hi <- shl64 (w_bits p) cnt;
       Ok (mk_wpump rest (Z.lor hi inb) (w_nbits p + cnt) (w_pos p))
     else Ok p);
  do s <- usub (w_nbits p1) num;
  do v <- shr64 (w_bits p1) s;
  Ok (wrap_u32 v, p1).

(** consume_bits of BitPumpMSB/MSB32 pumps.rs:235-239, 254-258 *)
Definition msb_consume (num : nat) (p : wpump) : res wpump :=
  do n <- usub (w_nbits p) num;
  do m <- shl64 1 n;
  Ok (mk_wpump (w_rest p) (Z.land (w_bits p) (m - 1)) n (w_pos p)).

Definition msb_ops : pump_ops wpump :=
  {| peek_bits := msb_peek; consume_bits := msb_consume |}.

(** BitPumpMSB32::peek_bits pumps.rs:243-252 (always shifts by 32, also when
    the slow refill delivered fewer bits). *)
Definition msb32_peek (num : nat) (p : wpump) : res (Z * wpump) :=
  do p1 <-
    (if (w_nbits p <? num)%nat then
       do (inb, cnt, rest) <- refill_le (w_rest p);
       do hi <- shl64 (w_bits p) 32;
       Ok (mk_wpump rest (Z.lor hi inb) (w_nbits p + cnt) (w_pos p + cnt / 8))
     else Ok p);
  do s <- usub (w_nbits p1) num;
  do v <- shr64 (w_bits p1) s;
  Ok (wrap_u32 v, p1).

Definition msb32_ops : pump_ops wpump :=
  {| peek_bits := msb32_peek; consume_bits := msb_consume |}.

(** BitPumpMSB32::get_pos pumps.rs:124-126 *)
Definition msb32_get_pos (p : wpump) : res nat := usub (w_pos p) (w_nbits p / 8).

(** BitPumpJPEG pumps.rs:130-148 *)
Record jpump := mk_jpump {
  j_buf : list Z; j_pos : nat; j_bits : Z; j_nbits : nat; j_fin : bool }.

Definition jpump_new (src : list Z) : jpump := mk_jpump src 0 0 0 false.

(** One iteration of the byte-wise refill loop, pumps.rs:280-300 *)
Definition jpeg_refill_byte (p : jpump) : res jpump :=
  do (byte, pos, fin) <-
    (if (length (j_buf p) <=? j_pos p)%nat then Ok (0, j_pos p, true) else
     do nextbyte <- get (j_buf p) (j_pos p);
     if negb (nextbyte =? 255) then Ok (nextbyte, j_pos p, false) else
     do follow <- get (j_buf p) (j_pos p + 1);
     if follow =? 0 then Ok (nextbyte, (j_pos p + 1)%nat, false)
     else Ok (0, j_pos p, true));
  do sh <- shl64 (j_bits p) 8;
  Ok (mk_jpump (j_buf p) (pos + 1) (Z.lor sh byte) (j_nbits p + 8) fin).

(** [while read_bytes < 4 && !self.finished] pumps.rs:278-301 *)
Fixpoint jpeg_refill_slow (n : nat) (p : jpump) : res jpump :=
  match n with
  | O => Ok p
  | S n' => if j_fin p then Ok p else
            do p1 <- jpeg_refill_byte p; jpeg_refill_slow n' p1
  end.

(** Condition of the fast path, pumps.rs:265-270 *)
Definition jpeg_fast (p : jpump) : res bool :=
  let buf := j_buf p in
  if negb ((4 <=? length buf)%nat && (j_pos p <? length buf - 4)%nat) then Ok false else
  do a <- get buf (j_pos p + 0);
  do b <- get buf (j_pos p + 1);
  do c <- get buf (j_pos p + 2);
  do d <- get buf (j_pos p + 3);
  Ok (negb (a =? 255) && negb (b =? 255) && negb (c =? 255) && negb (d =? 255)).

(** pumps.rs:264-303 *)
Definition jpeg_refill (num : nat) (p : jpump) : res jpump :=
  if (j_nbits p <? num)%nat && negb (j_fin p) then
    do f <- jpeg_fast p;
    if f then
      do a <- get (j_buf p) (j_pos p);
      do b <- get (j_buf p) (j_pos p + 1);
      do c <- get (j_buf p) (j_pos p + 2);
      do d <- get (j_buf p) (j_pos p + 3);
      do hi <- shl64 (j_bits p) 32;
      Ok (mk_jpump (j_buf p) (j_pos p + 4) (Z.lor hi (be32 a b c d)) (j_nbits p + 32) (j_fin p))
    else jpeg_refill_slow 4 p
  else Ok p.

(** BitPumpJPEG::peek_bits pumps.rs:262-311 *)
Definition jpeg_peek (num : nat) (p : jpump) : res (Z * jpump) :=
  do p1 <- jpeg_refill num p;
  do p2 <-
    (if (j_nbits p1 <? num)%nat && j_fin p1 then
       do hi <- shl64 (j_bits p1) 32;
       Ok (mk_jpump (j_buf p1) (j_pos p1) hi (j_nbits p1 + 32) (j_fin p1))
     else Ok p1);
  do s <- usub (j_nbits p2) num;
  do v <- shr64 (j_bits p2) s;
  Ok (wrap_u32 v, p2).

(** BitPumpJPEG::consume_bits pumps.rs:313-318 *)
Definition jpeg_consume (num : nat) (p : jpump) : res jpump :=
  do n <- usub (j_nbits p) num;
  do m <- shl64 1 n;
  Ok (mk_jpump (j_buf p) (j_pos p) (Z.land (j_bits p) (m - 1)) n (j_fin p)).

Definition jpeg_ops : pump_ops jpump :=
  {| peek_bits := jpeg_peek; consume_bits := jpeg_consume |}.

(** MockPump, decompressors/ljpeg/huffman.rs:54-83 *)
Record mpump := mk_mpump { m_bits : Z; m_nbits : nat }.

Definition mock_set (bits : Z) (nbits : nat) : res mpump :=
  do b <- shl64 bits 32; Ok (mk_mpump b (nbits + 32)).

Definition mock_peek (num : nat) (p : mpump) : res (Z * mpump) :=
  do s <- usub (m_nbits p) num;
  do v <- shr64 (m_bits p) s;
  Ok (wrap_u32 v, p).

Definition mock_consume (num : nat) (p : mpump) : res mpump :=
  do n <- usub (m_nbits p) num;
  do m <- shl64 1 n;
  Ok (mk_mpump (Z.land (m_bits p) (m - 1)) n).

Definition mock_ops : pump_ops mpump :=
  {| peek_bits := mock_peek; consume_bits := mock_consume |}.

(** huffman.rs:69-71 *)
Definition mock_validbits (p : mpump) : Z := Z.of_nat (m_nbits p) - 32.

(** ByteStream (pumps.rs:321-433): the buffer and a position.  Only the
    big-endian reads used by the LJPEG parser are transcribed. *)
Record bstream := mk_bstream { b_buf : list Z; b_pos : nat }.

(** pumps.rs:344-352 *)
Definition bs_get_u8 (s : bstream) : res (Z * bstream) :=
  do v <- get (b_buf s) (b_pos s);
  Ok (v, mk_bstream (b_buf s) (b_pos s + 1)).

(** pumps.rs:366-374 with Endian::Big *)
Definition bs_get_u16 (s : bstream) : res (Z * bstream) :=
  do a <- get (b_buf s) (b_pos s);
  do b <- get (b_buf s) (b_pos s + 1);
  Ok (a * 256 + b, mk_bstream (b_buf s) (b_pos s + 2)).

(** pumps.rs:420-432.  [fuel] bounds the loop; [length buf + 1] suffices
    because the position advances in every iteration. *)
Fixpoint skip_to_marker_loop (fuel : nat) (s : bstream) : res bstream :=
  match fuel with
  | O => Err
  | S fuel' =>
    do a <- get (b_buf s) (b_pos s);
    do isM <- (if a =? 255 then
                 do b <- get (b_buf s) (b_pos s + 1);
                 Ok (negb (b =? 0) && negb (b =? 255))
               else Ok false);
    if isM then Ok (mk_bstream (b_buf s) (b_pos s + 1))
    else
      let s' := mk_bstream (b_buf s) (b_pos s + 1) in
      if (length (b_buf s) <=? b_pos s')%nat then Err
      else skip_to_marker_loop fuel' s'
  end.

Definition skip_to_marker (s : bstream) : res bstream :=
  skip_to_marker_loop (S (length (b_buf s))) s.

(** Specification side: the byte string inside an entropy coded segment.
    A 0xFF followed by 0x00 stands for one 0xFF byte; a 0xFF followed by
    anything else ends the data. *)
Fixpoint unstuff (bs : list Z) : list Z :=
  match bs with
  | [] => []
  | b :: t =>
    if b =? 255 then
      match t with
      | 0 :: t' => 255 :: unstuff t'
      | _ => []
      end
    else b :: unstuff t
  end.

(** No 0xFF as very last byte (the pump would read past the buffer). *)
Fixpoint no_lone_ff (bs : list Z) : Prop :=
  match bs with
  | [] => True
  | b :: t =>
    if b =? 255 then
      match t with
      | [] => False
      | 0 :: t' => no_lone_ff t'
      | _ => True
      end
    else no_lone_ff t
  end.

(** ** Provided methods of the BitPump trait *)

(** BitPump::get_ibits_sextended, pumps.rs:176-181.  [num] is at most 32;
    [wrapping_shl]/[wrapping_shr] mask the distance to 5 bits (so a distance
    of 32 is a distance of 0); the right shift is arithmetic. *)
Definition wshl32 (v : Z) (n : nat) : Z := wrap_i32 (Z.shiftl v (Z.of_nat (n mod 32))).
Definition wshr32 (v : Z) (n : nat) : Z := Z.shiftr v (Z.of_nat (n mod 32)).

Definition get_ibits_sext {P} (o : pump_ops P) (num : nat) (p : P) : res (Z * P) :=
  do (v, p') <- get_bits o num p;
  do d <- usub 32 num;
  Ok (wshr32 (wshl32 (wrap_i32 v) d) d, p').

(** u32::leading_zeros *)
Fixpoint lead0 (l : list bool) : nat :=
  match l with
  | false :: t => S (lead0 t)
  | _ => O
  end.
Definition leading_zeros32 (v : Z) : nat := lead0 (bits_of 32 v).

(** BitPump::consume_zerobits, pumps.rs:183-203.  [fuel] bounds the loop. *)
Fixpoint consume_zerobits {P} (o : pump_ops P) (fuel : nat) (p : P) (count : nat) : res (nat * P) :=
  match fuel with
  | O => Err
  | S fuel' =>
    do (v, p1) <- peek_bits o 31 p;
    let n := leading_zeros32 (Z.lor (wrap_u32 (Z.shiftl v 1)) 1) in
    do p2 <- consume_bits o n p1;
    if (n =? 31)%nat then consume_zerobits o fuel' p2 (count + n) else Ok ((count + n)%nat, p2)
  end.
