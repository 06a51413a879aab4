(** Property C05: the bit pumps. *)
From Coq Require Import List ZArith Lia Bool.
From Coq Require Import ZifyBool ZifyNat.
From Verif Require Import Base BaseLemmas Pumps PumpProofs PumpSeq.
Import ListNotations.
Open Scope Z_scope.

(** Any script of peeks and reads with widths up to 32 that stays inside the
    buffer returns the bit fields at the offsets given by [windows]: a peek
    reads at the current offset and leaves it, a read advances it. *)
Theorem C05_msb_pump : forall src s,
  Forall is_byte src -> script_ok s (8 * length src) ->
  run_pump msb_ops s (wpump_new src) = Ok (map (field_be (byte_bits src)) (windows s 0)).
Proof.
  intros src s HF HS.
  exact (run_pump_be msb_ops msb_rep msb_refines s 0 (8 * length src) (wpump_new src) (byte_bits src)
    (msb_new_rep src (8 * length src) HF (Nat.le_refl _)) HS).
Qed.
Print Assumptions C05_msb_pump.

Theorem C05_lsb_pump : forall src s,
  Forall is_byte src -> script_ok s (8 * length src) ->
  run_pump lsb_ops s (wpump_new src) = Ok (map (field_le src) (windows s 0)).
Proof.
  intros src s HF HS. apply run_pump_le with (k := (8 * length src)%nat); [|exact HS].
  unfold lsb_rep, lsb_den, wpump_new. cbn [w_bits w_nbits w_rest Z.of_nat Z.pow].
  rewrite Z.div_1_r. repeat split; auto; lia.
Qed.
Print Assumptions C05_lsb_pump.

(** MSB32: the buffer is a sequence of little endian 32 bit words. *)
Theorem C05_msb32_pump : forall src s q,
  Forall is_byte src -> length src = (4 * q)%nat -> script_ok s (8 * length src) ->
  run_pump msb32_ops s (wpump_new src) = Ok (map (field_be (byte_bits (swap32 src))) (windows s 0)).
Proof.
  intros src s q HF HL HS.
  exact (run_pump_be msb32_ops msb32_rep msb32_refines s 0 (8 * length src) (wpump_new src) (byte_bits (swap32 src))
    (msb32_new_rep src (8 * length src) q HF HL (Nat.le_refl _)) HS).
Qed.
Print Assumptions C05_msb32_pump.

(** JPEG: stuffing removed, zero bits for ever after the first marker or the
    end of the buffer; no limit on the script. *)
Theorem C05_jpeg_pump : forall src s total,
  Forall is_byte src -> no_lone_ff src -> script_ok s total ->
  run_pump jpeg_ops s (jpump_new src) = Ok (map (field_be (byte_bits (unstuff src))) (windows s 0)).
Proof.
  intros src s total HF HN HS.
  exact (run_pump_be jpeg_ops jpeg_rep jpeg_refines s 0 total (jpump_new src) (byte_bits (unstuff src))
    (jpeg_new_rep total src HF HN) HS).
Qed.
Print Assumptions C05_jpeg_pump.

(** Sign extended reads and zero run counting, for every pump. *)
Theorem C05_signed_read : forall P (o : pump_ops P) rep, pump_refines o rep -> forall k p l n,
  rep k p l -> (1 <= n <= k)%nat -> (n <= 32)%nat ->
  exists p', get_ibits_sext o n p = Ok (signed n (peekv n l), p') /\ rep (k - n)%nat p' (skipn n l).
Proof. exact @get_sext_spec. Qed.
Print Assumptions C05_signed_read.

Theorem C05_zero_run : forall P (o : pump_ops P) rep, pump_refines o rep -> forall fuel z k p t c,
  rep k p (repeat false z ++ true :: t) -> (z + 31 <= k)%nat -> (z < 31 * fuel)%nat ->
  exists p', consume_zerobits o fuel p c = Ok ((c + z)%nat, p') /\ rep (k - z)%nat p' (true :: t).
Proof. exact @consume_zerobits_spec. Qed.
Print Assumptions C05_zero_run.

(** Outside these conditions the property is false. *)

(** MSB32 on a buffer whose length is not a multiple of four: the 16 bits just
    peeked are not the leading 16 bits of the following 24 bit read, although
    that read ends exactly at the end of the buffer (buffered bits are shifted
    by 32 places while only 8 bits are added). *)
Theorem C05_msb32_tail_refuted : exists (src : list Z) (a b c : Z),
  Forall is_byte src /\ script_ok [PGet 16; PPeek 16; PGet 24] (8 * length src) /\
  run_pump msb32_ops [PGet 16; PPeek 16; PGet 24] (wpump_new src) = Ok [a; b; c] /\
  c / 2 ^ 8 <> b.
Proof.
  exists [68; 51; 34; 17; 1], 4386, 13124, 1.
  split; [repeat constructor; unfold is_byte; lia|].
  split; [repeat constructor; cbn; lia|]. split; [vm_compute; reflexivity|vm_compute; discriminate].
Qed.
Print Assumptions C05_msb32_tail_refuted.

(** A JPEG stream ending in a single 0xFF byte reads past the buffer. *)
Theorem C05_jpeg_lone_ff_refuted : exists src s,
  Forall is_byte src /\ script_ok s (8 * length src) /\ run_pump jpeg_ops s (jpump_new src) = Panic.
Proof.
  exists [1; 255], [PGet 8]. split; [repeat constructor; unfold is_byte; lia|].
  split; [repeat constructor; cbn; lia|vm_compute; reflexivity].
Qed.
Print Assumptions C05_jpeg_lone_ff_refuted.

(** Sample instances. *)
Example C05_example :
  let src := [18; 52; 86; 120; 154; 188; 222; 240] in
  let s := [PGet 3; PPeek 13; PGet 32; PGet 0; PGet 21] in
  Forall is_byte src /\ script_ok s (8 * length src) /\ length src = (4 * 2)%nat /\
  run_pump msb_ops s (wpump_new src) = Ok [0; 4660; 2443359172; 0; 1752286] /\
  run_pump lsb_ops s (wpump_new src) = Ok [2; 1666; 1326106242; 0; 1824659] /\
  run_pump msb32_ops s (wpump_new src) = Ok [3; 6230; 3266420887; 0; 1105596] /\
  no_lone_ff [18; 255; 0; 86; 255; 217; 3] /\
  run_pump jpeg_ops [PGet 9; PPeek 12; PGet 32; PGet 8] (jpump_new [18; 255; 0; 86; 255; 217; 3])
    = Ok [37; 4074; 4272685056; 0].
Proof. cbn zeta. split; [repeat constructor; unfold is_byte; lia|].
  split; [repeat constructor; cbn; lia|]. split; [reflexivity|]. repeat split; vm_compute; auto.
Qed.
