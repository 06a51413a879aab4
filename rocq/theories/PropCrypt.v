(** C29: maker note ciphers. *)
From Coq Require Import List ZArith.
From Verif Require Import Base Tiff Crypt CryptSpec CryptProofs CryptSony.
Import ListNotations.
Open Scope Z_scope.

(** Nikon: decrypting twice is the identity, for every serial number, key,
    start position and buffer (whenever the first run completes). *)
Theorem C29_nikon_involution : forall serial key start buf out,
  nef_decrypt serial key start buf = Ok out ->
  nef_decrypt serial key start out = Ok buf.
Proof. exact c29_nikon_involution. Qed.
Print Assumptions C29_nikon_involution.

(** Nikon: length and the bytes before the start are kept, and every byte is
    masked with a key stream that depends only on serial number and key. *)
Theorem C29_nikon_mask : forall serial key start buf out,
  nef_decrypt serial key start buf = Ok out ->
  length out = length buf /\ firstn start out = firstn start buf /\
  exists s k, In s WB_SERIALMAP /\ In k WB_KEYMAP /\
    (forall start' buf' out', nef_decrypt serial key start' buf' = Ok out' ->
       forall i, (start' + i < length buf')%nat -> nth (start' + i) out' 0 = Z.lxor (nth (start' + i) buf' 0) (nikon_mask s k i)).
Proof. exact c29_nikon_mask. Qed.
Print Assumptions C29_nikon_mask.

(** Nikon: it completes for serial numbers of at most 19 characters and at most 4000 bytes. *)
Theorem C29_nikon_completes : forall serial key start buf,
  Forall is_byte serial -> (length serial <= 19)%nat ->
  (start <= length buf)%nat -> Z.of_nat (length buf) <= Z.of_nat start + 4000 ->
  exists out, nef_decrypt serial key start buf = Ok out.
Proof. exact c29_nikon_total. Qed.
Print Assumptions C29_nikon_completes.

(** Nikon: a long buffer overflows the accumulator and panics. *)
Theorem C29_nikon_long_buffer_refuted : exists serial key buf,
  Forall is_byte serial /\ Forall is_byte buf /\ nef_decrypt serial key 0 buf = Panic.
Proof. exact c29_nikon_long. Qed.
Print Assumptions C29_nikon_long_buffer_refuted.

(** Sony: decrypting the decrypted words again gives the original words back. *)
Theorem C29_sony_involution : forall buf off len key out, Forall is_byte buf ->
  sony_decrypt buf off len key = Ok out ->
  length out = (4 * (len / 4))%nat /\
  sony_decrypt out 0 len key = Ok (firstn (4 * (len / 4)) (skipn off buf)).
Proof. exact c29_sony_involution. Qed.
Print Assumptions C29_sony_involution.

(** Sony: word [k] is masked with element [k + 127] of the feedback sequence
    seeded by the key; a range outside the buffer is an error. *)
Theorem C29_sony_words : forall buf off len key w, sony_stream key w ->
  (length buf < off + 4 * (len / 4) -> sony_decrypt buf off len key = Err)%nat /\
  ((off + 4 * (len / 4) <= length buf)%nat -> exists out, sony_decrypt buf off len key = Ok out /\
     length out = (4 * (len / 4))%nat /\
     (Forall is_byte buf -> forall k, (k < len / 4)%nat -> word_at out (k * 4) = Z.lxor (word_at buf (off + k * 4)) (w (k + 127)%nat))).
Proof. exact c29_sony_words. Qed.
Print Assumptions C29_sony_words.

Theorem C29_sony_stream_exists : forall key, exists w, sony_stream key w.
Proof. exact c29_sony_stream. Qed.
Print Assumptions C29_sony_stream_exists.

Example C29_nikon_example :
  nef_decrypt [54; 48; 49] 7 1 [1; 2; 3; 4] = Ok [1; 135; 167; 70] /\
  nef_decrypt [54; 48; 49] 7 1 [1; 135; 167; 70] = Ok [1; 2; 3; 4].
Proof. split; reflexivity. Qed.
Example C29_sony_example : exists out, sony_decrypt [9; 1; 2; 3; 4; 5; 6; 7; 8] 1 8 305419896 = Ok out /\
  sony_decrypt out 0 8 305419896 = Ok [1; 2; 3; 4; 5; 6; 7; 8].
Proof.
  destruct (C29_sony_stream_exists 305419896) as [w Hw].
  destruct (proj2 (C29_sony_words [9; 1; 2; 3; 4; 5; 6; 7; 8] 1 8 305419896 w Hw)) as (out & E & _); [cbn; repeat constructor|].
  exists out. split; [exact E|]. apply C29_sony_involution in E; [exact (proj2 E)|]. repeat constructor; discriminate.
Qed.
