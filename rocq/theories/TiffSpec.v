(** Specifications for [PropTiff]: the TIFF 6.0 layout of a directory, stated
    without the reader or the writer. *)
From Coq Require Import List ZArith Bool.
From Verif Require Import Base Bits Tiff.
Import ListNotations.
Open Scope Z_scope.

(** the bytes [b] are in the file at position [p] *)
Definition at_ (file : list Z) (p : Z) (b : list Z) : Prop :=
  exists pre post, file = pre ++ b ++ post /\ Z.of_nat (length pre) = p.

(** serialisation of a value in byte order [e] *)
Definition venc (e : bord) (v : value) : list Z :=
  match v with
  | VByte l | VUndef l | VUnknown _ l => l
  | VAscii ss _ => flat_map (fun s => s ++ [0]) ss
  | VSByte l => flat_map (enc e 1) l
  | VShort l | VSShort l => flat_map (enc e 2) l
  | VLong l | VSLong l | VFloat l => flat_map (enc e 4) l
  | VDouble l => flat_map (enc e 8) l
  | VRational l | VSRational l => flat_map (fun r => enc e 4 (fst r) ++ enc e 4 (snd r)) l
  end.

Definition urange (k v : Z) : Prop := 0 <= v < 2 ^ k.
Definition srange (k v : Z) : Prop := - 2 ^ (k - 1) <= v < 2 ^ (k - 1).
(** elements are in the range of their type *)
Definition value_ok (v : value) : Prop :=
  match v with
  | VByte l | VUndef l => Forall (urange 8) l
  | VUnknown t l => (t = 0 \/ 12 < t < 65536) /\ Forall (urange 8) l
  | VAscii ss _ => Forall (fun s => Forall (urange 8) s /\ ~ In 0 s) ss
  | VShort l => Forall (urange 16) l
  | VLong l | VFloat l => Forall (urange 32) l
  | VDouble l => Forall (urange 64) l
  | VRational l => Forall (fun r => urange 32 (fst r) /\ urange 32 (snd r)) l
  | VSByte l => Forall (srange 8) l
  | VSShort l => Forall (srange 16) l
  | VSLong l => Forall (srange 32) l
  | VSRational l => Forall (fun r => srange 32 (fst r) /\ srange 32 (snd r)) l
  end /\ Z.of_nat (vcount v) < 2 ^ 32.

(** what a reader makes of a stored value: an ascii value is its first string *)
Definition as_read (v : value) : value :=
  match v with
  | VAscii ss _ => let s := hd [] ss in VAscii [if is_utf8 s then s else invalid_utf8] (flat_map (fun s => s ++ [0]) ss)
  | _ => v
  end.
(** equality of values; the raw bytes a string was read from do not count *)
Definition same_value (v w : value) : Prop :=
  match v, w with
  | VAscii ss _, VAscii ss' _ => ss = ss'
  | _, _ => v = w
  end.

(** a directory record at [p]: tag, type, count, and the value inline or at the
    offset the record holds.  Offsets are relative to [base] after adding
    [corr] (both 0 in an ordinary file). *)
Definition record_at (e : bord) (file : list Z) (base corr p : Z) (tag : Z) (v : value) : Prop :=
  urange 16 tag /\ value_ok v /\
  at_ file p (enc e 2 tag ++ enc e 2 (vtype v) ++ enc e 4 (Z.of_nat (vcount v))) /\
  ((vsize v <= 4)%nat /\ (exists pad, length (venc e v ++ pad) = 4%nat /\ at_ file (p + 8) (venc e v ++ pad))
   \/ (4 < vsize v)%nat /\ exists o, urange 32 o /\ at_ file (p + 8) (enc e 4 o) /\
      let o' := (o + corr) mod 2 ^ 32 in
      o' <> 2 ^ 32 - 1 /\ base + o' < 2 ^ 32 /\ at_ file (base + o') (venc e v)).

(** a directory at [off] (relative to [base]) *)
Definition dir_at (e : bord) (file : list Z) (base corr off : Z) (ents : list (Z * value)) (next : Z) : Prop :=
  0 <= base /\ 0 <= off /\ base + off + 2 + 12 * Z.of_nat (length ents) < 2 ^ 32 /\ (length ents <= 4096)%nat /\
  at_ file (base + off) (enc e 2 (Z.of_nat (length ents))) /\
  (forall i tag v, nth_error ents i = Some (tag, v) ->
     record_at e file base corr (base + off + 2 + 12 * Z.of_nat i) tag v) /\
  urange 32 next /\ at_ file (base + off + 2 + 12 * Z.of_nat (length ents)) (enc e 4 next).

(** tags in increasing order *)
Fixpoint ascending {A} (l : list (Z * A)) : Prop :=
  match l with
  | (a, _) :: (((b, _) :: _) as l') => a < b /\ ascending l'
  | _ => True
  end.

(** the value given to a tag last *)
Fixpoint last_value (t : Z) (adds : list (Z * value)) : option value :=
  match adds with
  | [] => None
  | (t', v) :: adds => match last_value t adds with Some w => Some w | None => if t =? t' then Some v else None end
  end.
Definition dir_of (adds : list (Z * value)) : list (Z * value) := fold_left (fun d e => add_tag d (fst e) (snd e)) adds [].

(** values the writer stores faithfully: not empty, a single well formed
    string, and inline signed values only with non-negative elements before the
    last; no inline float (see the [_refuted] theorems) *)
Definition writable (v : value) : Prop :=
  value_ok v /\ (0 < vcount v)%nat /\
  match v with
  | VAscii ss _ => exists s, ss = [s] /\ is_utf8 s = true
  | VSByte l => (4 < length l)%nat \/ Forall (fun x => 0 <= x) (removelast l)
  | VSShort l => (2 < length l)%nat \/ Forall (fun x => 0 <= x) (removelast l)
  | VFloat l => (1 < length l)%nat
  | _ => True
  end.

(** programs of the TIFF writer: data blocks and directories in any order *)
Inductive wop := WData (d : list Z) | WDir (adds : list (Z * value)).
Fixpoint wrun (ops : list wop) (buf : list Z) : res (list Z * list Z) :=
  match ops with
  | [] => Ok ([], buf)
  | op :: ops =>
    do (off, buf) <- match op with WData d => Ok (write_data buf d) | WDir adds => dir_build (dir_of adds) 0 buf end;
    do (offs, buf) <- wrun ops buf;
    Ok (off :: offs, buf)
  end.
Definition wop_ok (op : wop) : Prop :=
  match op with
  | WData d => Forall (urange 8) d
  | WDir adds => adds <> [] /\ (length (dir_of adds) <= 4096)%nat /\ Forall (fun a => urange 16 (fst a) /\ writable (snd a)) adds
  end.

(** the entries that were read are those that were added *)
Definition reads_back (adds : list (Z * value)) (es : list (Z * entry)) : Prop :=
  forall t, match last_value t adds, bt_get t es with
    | Some v, Some en => same_value v (e_value en)
    | None, None => True
    | _, _ => False
    end.
