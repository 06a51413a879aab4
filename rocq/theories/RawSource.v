(** Sub views of a source file: rawler/src/rawsource.rs and rawler/src/buffer.rs.
    A source is its byte list (memory map and shared vector behave alike after
    [deref], rawsource.rs:128-137).  Offsets and sizes are [u64] values in [Z];
    the additions on them panic on overflow (debug profile). *)
From Coq Require Import List ZArith Bool.
From Verif Require Import Base.
Import ListNotations.
Open Scope Z_scope.

(** [a + b] on u64 *)
Definition add_u64 (a b : Z) : res Z := if a + b <? 2 ^ 64 then Ok (a + b) else Panic.

(** buffer.rs:4-7: the bytes behind [Deref] and the advertised size *)
Record padded := mk_padded { p_buf : list Z; p_size : Z }.

(** [buf.get(a..b)] (None when a > b or b > len) as a Result *)
Definition get_range (buf : list Z) (a b : Z) : res (list Z) :=
  if (a <=? b) && (b <=? Z.of_nat (length buf))
  then Ok (firstn (Z.to_nat (b - a)) (skipn (Z.to_nat a) buf)) else Err.

(** subview, rawsource.rs:73-78 *)
Definition subview (buf : list Z) (offset size : Z) : res (list Z) :=
  do e <- add_u64 offset size; get_range buf offset e.

(** subview_padded, rawsource.rs:80-97 *)
Definition subview_padded (buf : list Z) (offset size : Z) : res padded :=
  do e <- add_u64 offset size;
  if e <=? Z.of_nat (length buf) then
    do e16 <- add_u64 e 16;
    if e16 <=? Z.of_nat (length buf) then
      do s16 <- add_u64 size 16;
      do b <- subview buf offset s16; Ok (mk_padded b size)
    else
      do b <- subview buf offset size; Ok (mk_padded (b ++ repeat 0 16) size)
  else Err.

(** subview_until_eof, rawsource.rs:99-104 *)
Definition subview_until_eof (buf : list Z) (offset : Z) : res (list Z) :=
  if offset <=? Z.of_nat (length buf) then Ok (skipn (Z.to_nat offset) buf) else Err.

(** subview_until_eof_padded, rawsource.rs:106-118 *)
Definition subview_until_eof_padded (buf : list Z) (offset : Z) : res padded :=
  if offset <? Z.of_nat (length buf) then
    do b <- subview_until_eof buf offset;
    Ok (mk_padded (b ++ repeat 0 16) (Z.of_nat (length buf) - offset))
  else Err.
