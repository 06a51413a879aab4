(** Specification vocabulary of the lossless JPEG properties. *)
From Coq Require Import List ZArith Lia Bool.
From Verif Require Import Base LjpegEnc.
Import ListNotations.
Open Scope Z_scope.

(** The encoded area of the input buffer: [h] rows of [n] samples, the rows
    being [stride] samples apart. *)
Definition area (image : list Z) (h n stride : nat) : list Z :=
  flat_map (fun r => firstn n (skipn (r * stride) image)) (seq 0 h).

(** Code word of a table entry: the upper [nbits] bits of the storage word. *)
Definition code_word (e : bitarray16) : list bool := firstn (ba_nbits e) (bits_of 16 (ba_storage e)).

Definition is_prefix (a b : list bool) : Prop := exists c, b = a ++ c.

(** A marker segment with its length field (which counts itself). *)
Definition seg_bytes (s : Z * list Z) : list Z :=
  [255; fst s] ++ [(2 + Z.of_nat (length (snd s))) / 256; (2 + Z.of_nat (length (snd s))) mod 256] ++ snd s.

(** Every 0xFF in [l] is followed by 0x00 in [l]. *)
Definition ff_stuffed (l : list Z) : Prop :=
  forall i, (i < length l)%nat -> nth i l 0 = 255 -> (i + 1 < length l)%nat /\ nth (i + 1) l 0 = 0.

Definition wf_stream (bytes : list Z) (comps : nat) : Prop :=
  exists sof dhts sos ent,
    bytes = [255; 216] ++ flat_map seg_bytes ([(195, sof)] ++ map (fun d => (196, d)) dhts ++ [(218, sos)])
              ++ ent ++ [255; 217] /\
    length dhts = comps /\
    Forall (fun p => 2 + Z.of_nat (length p) < 65536) ([sof; sos] ++ dhts) /\
    Forall is_byte bytes /\ ff_stuffed ent.

