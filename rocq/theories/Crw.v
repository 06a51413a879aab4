(** The decompressor of Canon CRW files (rawler/src/decoders/crw.rs:187-270).
    The Huffman tables and the bit pump are arguments: [leaf] reads a symbol
    with the first or the second table (huff_get_bits), [bits] reads a number of
    bits (get_bits).  Index errors and overflows of i32 panic (debug build). *)
From Coq Require Import List ZArith Bool.
From Verif Require Import Base RawSource.
Import ListNotations.
Open Scope Z_scope.

Definition i32 (z : Z) : res Z := if (- 2 ^ 31 <=? z) && (z <? 2 ^ 31) then Ok z else Panic.
Definition set_nth (l : list Z) (k : nat) (v : Z) : list Z := firstn k l ++ [v] ++ skipn (S k) l.

(** the loop of a block of 64 differences, crw.rs:199-226; [n] is at least 64 - i,
    so it is not used up before [i] reaches 64 *)
Fixpoint crw_diffs {S} (leaf : bool -> S -> res (Z * S)) (bits : Z -> S -> res (Z * S)) (n : nat) (i : nat) (buf : list Z) (s : S) : res (list Z * S) :=
  match n with
  | O => Ok (buf, s)
  | S n =>
    if (64 <=? i)%nat then Ok (buf, s) else
    do (lf, s) <- leaf (0 <? i)%nat s;
    if (lf =? 0) && negb (i =? 0)%nat then Ok (buf, s)
    else if lf =? 0xff then crw_diffs leaf bits n (i + 1) buf s
    else
      let i := (i + Z.to_nat (Z.shiftr lf 4))%nat in
      let len := Z.land lf 15 in
      if len =? 0 then crw_diffs leaf bits n (i + 1) buf s
      else
        do (d, s) <- bits len s;
        let diff := if Z.land d (2 ^ (len - 1)) =? 0 then d - (2 ^ len - 1) else d in
        crw_diffs leaf bits n (i + 1) (if (i <? 64)%nat then set_nth buf i diff else buf) s
  end.

(** the pixels of a block, crw.rs:230-240; [i] is the index in the block *)
Fixpoint crw_px (w pnum i : nat) (base : Z * Z) (d : list Z) : res (list Z * (Z * Z)) :=
  match d with
  | [] => Ok ([], base)
  | x :: d =>
    let '(b0, b1) := if (pnum mod w =? 0)%nat then (512, 512) else base in
    do b <- i32 ((if Nat.odd i then b1 else b0) + x);
    do (l, base) <- crw_px w (pnum + 1) (i + 1) (if Nat.odd i then (b0, b) else (b, b1)) d;
    Ok (b mod 2 ^ 16 :: l, base)
  end.

(** the blocks, crw.rs:198-241 *)
Fixpoint crw_blocks {S} (leaf : bool -> S -> res (Z * S)) (bits : Z -> S -> res (Z * S)) (nb w pnum : nat) (carry : Z) (base : Z * Z) (s : S) : res (list Z) :=
  match nb with
  | O => Ok []
  | S nb =>
    do (d, s) <- crw_diffs leaf bits 64 0 (repeat 0 64) s;
    match d with
    | d0 :: dr =>
      do c <- i32 (d0 + carry);
      do (l, base) <- crw_px w pnum 0 base (c :: dr);
      do rest <- crw_blocks leaf bits nb w (pnum + 64) c base s;
      Ok (l ++ rest)
    | [] => Panic
    end
  end.

(** the two low bits, crw.rs:243-268; a last group of less than four pixels is kept *)
Fixpoint crw_low (w : nat) (low out : list Z) {struct out} : res (list Z) :=
  match out with
  | o0 :: o1 :: o2 :: o3 :: out =>
    match low with
    | c :: low =>
      let f o k := let v := Z.lor ((o * 4) mod 2 ^ 16) (Z.land (Z.shiftr c k) 3) in if (w =? 2672)%nat && (v <? 512) then v + 2 else v in
      do rest <- crw_low w low out;
      Ok (f o0 0 :: f o1 2 :: f o2 4 :: f o3 6 :: rest)
    | [] => Panic
    end
  | _ => Ok out
  end.

(** do_decode, crw.rs:187-270, when the image is not a dummy; [pump] is BitPumpJPEG::new *)
Definition crw_decode {S} (leaf : bool -> S -> res (Z * S)) (bits : Z -> S -> res (Z * S)) (pump : list Z -> S) (file : list Z) (lowbits : bool) (w h : nat) : res (list Z) :=
  let offset := 540 + (if lowbits then Z.of_nat (h * w / 4) else 0) in
  do src <- subview_until_eof file offset;
  do out <- crw_blocks leaf bits (w * h / 64) w 0 0 (0, 0) (pump src);
  let out := out ++ repeat 0 ((w * h) mod 64) in
  if lowbits then crw_low w (skipn 26 file) out else Ok out.
