(** Minolta MRW files (rawler/src/decoders/mrw.rs).
    Reads outside the file panic ([&buf[pos..pos + n]], bits.rs:148-208), as do
    overflows (debug build).  The camera lookup and the JPEG variant are left
    out. *)
From Coq Require Import List ZArith Bool.
From Verif Require Import Base Tiff RawSource Par Packed.
Import ListNotations.
Open Scope Z_scope.

(** BEu16, BEu32 and [buf[i]], bits.rs:148-150, 200-202 *)
Definition be_at (file : list Z) (p n : Z) : res Z := match rd file p n with Ok b => Ok (dec BE b) | _ => Panic end.

(** the local variables of new_mrw, mrw.rs:151-156 *)
Record mrw := mk_mrw { m_h : Z; m_w : Z; m_packed : bool; m_wb : list Z; m_tiff : Z }.
Definition mrw_init : mrw := mk_mrw 0 0 false [0; 0; 0; 0] 0.

(** the match on the tag, mrw.rs:164-184 *)
Definition mrw_block (file : list Z) (tag pos : Z) (s : mrw) : res mrw :=
  if tag =? 0x505244 then
    do h <- be_at file (pos + 16) 2;
    do w <- be_at file (pos + 18) 2;
    do b <- be_at file (pos + 24) 1;
    Ok (mk_mrw h w (b =? 12) (m_wb s) (m_tiff s))
  else if tag =? 0x574247 then
    do a <- be_at file (pos + 12) 2;
    do b <- be_at file (pos + 14) 2;
    do c <- be_at file (pos + 16) 2;
    do d <- be_at file (pos + 18) 2;
    Ok (mk_mrw (m_h s) (m_w s) (m_packed s) [a; b; c; d] (m_tiff s))
  else if tag =? 0x545457 then Ok (mk_mrw (m_h s) (m_w s) (m_packed s) (m_wb s) (pos + 8))
  else Ok s.

(** the loop over the blocks, mrw.rs:158-186; [None] when the fuel is used up *)
Fixpoint mrw_loop (fuel : nat) (file : list Z) (data_offset pos : Z) (s : mrw) : option (res mrw) :=
  if pos + 20 <? data_offset then
    match fuel with
    | O => None
    | S fuel =>
      match (do tag <- be_at file pos 4;
             do len <- be_at file (pos + 4) 4;
             do s <- mrw_block file tag pos s;
             if len + 8 <? 2 ^ 32 then Ok (s, pos + (len + 8)) else Panic) with
      | Ok (s, pos) => mrw_loop fuel file data_offset pos s
      | Err => Some Err
      | Panic => Some Panic
      end
    end
  else Some (Ok s).

(** new_mrw, mrw.rs:147-186, up to the place of the TIFF data *)
Definition mrw_parse (fuel : nat) (file : list Z) : option (res (Z * mrw)) :=
  match be_at file 4 4 with
  | Ok n =>
    if n + 8 <? 2 ^ 32 then
      match mrw_loop fuel file (n + 8) 8 mrw_init with
      | Some (Ok s) => Some (Ok (n + 8, s))
      | Some Err => Some Err
      | Some Panic => Some Panic
      | None => None
      end
    else Some Panic
  | Err => Some Err
  | Panic => Some Panic
  end.

(** raw_image, mrw.rs:208-217, for the MRW variant ([bits] is 12) *)
Definition mrw_raw (file : list Z) (off : Z) (s : mrw) : res (pstate Z) :=
  do src <- subview_until_eof file off;
  if m_packed s then decompress_12be src (Z.to_nat (m_w s)) (Z.to_nat (m_h s))
  else decompress_12be_unpacked src (Z.to_nat (m_w s)) (Z.to_nat (m_h s)).
