(** Canon CIFF files, the CRW container (rawler/src/formats/ciff/mod.rs).
    Reads outside the file panic (bits.rs:148-208), as does an underflow (debug
    build).  The hash map of entries is a list, the newest first. *)
From Coq Require Import List ZArith Bool.
From Verif Require Import Base Tiff.
Import ListNotations.
Open Scope Z_scope.

(** LEu16 and LEu32, bits.rs:154-156, 206-208 *)
Definition le_at (file : list Z) (p n : Z) : res Z := match rd file p n with Ok b => Ok (dec LE b) | _ => Panic end.

(** CiffEntry, mod.rs:25-33; [count] is left out *)
Record centry := mk_centry { c_tag : Z; c_typ : Z; c_size : Z; c_off : Z; c_data : list Z }.

(** CiffIFD, mod.rs:35-39 *)
Inductive cifd := CIfd (entries : list (Z * centry)) (subs : list cifd).

(** CiffEntry::new, mod.rs:102-126 *)
Definition ciff_entry (file : list Z) (value_data off : Z) : res centry :=
  do p <- le_at file off 2;
  let loc := Z.land p 0xc000 in
  do so <- (if loc =? 0 then
              do size <- le_at file (off + 2) 4;
              do o <- le_at file (off + 6) 4;
              Ok (size, o + value_data)
            else if loc =? 0x4000 then Ok (8, off + 2) else Err);
  let '(size, doff) := so in
  do data <- (match rd file doff size with Ok b => Ok b | _ => Panic end);
  Ok (mk_centry (Z.land p 0x3fff) (Z.land p 0x3800) size doff data).

(** the loop over the entries, mod.rs:62-84; [sub] reads a sub directory and is
    [None] from depth 10 on *)
Fixpoint ciff_loop (sub : option (Z -> Z -> res cifd)) (file : list Z) (start first : Z) (k : nat) (i : Z)
    (es : list (Z * centry)) (subs : list cifd) : res cifd :=
  match k with
  | O => Ok (CIfd es subs)
  | S k =>
    do e <- ciff_entry file start (first + i * 10);
    if (c_typ e =? 0x2800) || (c_typ e =? 0x3000) then
      match sub with
      | None => ciff_loop sub file start first k (i + 1) es subs
      | Some f =>
        match f (c_off e) (c_off e + c_size e) with
        | Ok d => ciff_loop sub file start first k (i + 1) es (subs ++ [d])
        | Err => ciff_loop sub file start first k (i + 1) ((c_tag e, e) :: es) subs
        | Panic => Panic
        end
      end
    else ciff_loop sub file start first k (i + 1) ((c_tag e, e) :: es) subs
  end.

(** CiffIFD::new, mod.rs:55-85, where [left] is 10 - depth *)
Fixpoint ciff_new (left : nat) (file : list Z) (start end_ : Z) : res cifd :=
  do e4 <- (if 4 <=? end_ then Ok (end_ - 4) else Panic);
  do vs <- le_at file e4 4;
  do count <- le_at file (start + vs) 2;
  ciff_loop (match left with O => None | S l => Some (ciff_new l file) end) file start (start + vs + 2) (Z.to_nat count) 0 [] [].

(** CiffIFD::new_file, mod.rs:49-53 *)
Definition ciff_file (file : list Z) : res cifd :=
  do start <- le_at file 2 4;
  ciff_new 9 file start (Z.of_nat (length file)).

(** find_entry, mod.rs:87-98 *)
Fixpoint map_get (t : Z) (es : list (Z * centry)) : option centry :=
  match es with [] => None | (t', e) :: es => if t' =? t then Some e else map_get t es end.
Fixpoint ciff_find (d : cifd) (t : Z) : option centry :=
  match d with
  | CIfd es subs =>
    match map_get t es with
    | Some e => Some e
    | None => (fix go (l : list cifd) := match l with [] => None | x :: l => match ciff_find x t with Some e => Some e | None => go l end end) subs
    end
  end.
