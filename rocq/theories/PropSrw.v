(** C53: Samsung SRW image data. *)
From Coq Require Import List ZArith Lia.
From Verif Require Import Base CryptSpec CrxImageSpec PefSpec Srw SrwSpec SrwTwo SrwOne SrwTop SrwEx.
Import ListNotations.
Open Scope Z_scope.

(** first format, whatever the rows contain: the picture given by the corrections,
    with red and blue exchanged *)
Theorem C53_srw1_any_data : forall f a w h s buf loffsets, form_ok f a w h -> srw1_picture f a w h s ->
  (16 <= w)%nat -> (2 <= h)%nat -> (w mod 2 = 0)%nat -> (h mod 2 = 0)%nat -> Forall is_byte buf -> (4 * h <= length loffsets)%nat ->
  (forall r, (r < h)%nat -> row_stored buf (Z.to_nat (word_at loffsets (4 * r))) (row_bits f a w r)) ->
  srw1_decode buf loffsets w h = Ok (samples (swapped s) w h).
Proof. exact srw1_any. Qed.
Print Assumptions C53_srw1_any_data.

Theorem C53_srw1_roundtrip : forall f w h s, (16 <= w)%nat -> (2 <= h)%nat -> (w mod 2 = 0)%nat -> (h mod 2 = 0)%nat ->
  picture_within s w h 65536 -> form_ok f (corrections f s w) w h -> Z.of_nat (srw1_offset f (corrections f s w) w h) < 2 ^ 32 ->
  srw1_decode (srw1_rows f (corrections f s w) w h) (srw1_offsets f (corrections f s w) w h) w h = Ok (samples (swapped s) w h).
Proof. exact srw1_roundtrip. Qed.
Print Assumptions C53_srw1_roundtrip.

(** a form exists for every picture of 14 bit samples *)
Theorem C53_srw1_storable : forall dir s w h, (16 <= w)%nat -> picture_within s w h 16384 -> form_ok (plain_form dir) (corrections (plain_form dir) s w) w h.
Proof. exact plain_ok. Qed.
Print Assumptions C53_srw1_storable.

Theorem C53_srw1_odd_height : forall buf loffsets w h out, (h mod 2 = 1)%nat -> (0 < w)%nat -> srw1_decode buf loffsets w h <> Ok out.
Proof. exact srw1_odd_height. Qed.
Print Assumptions C53_srw1_odd_height.

(** second format, whatever the data: lane by lane sums of the differences *)
Theorem C53_srw2_any_data : forall src w h, Forall is_byte src -> Z.of_nat (w + h) <= 65000 -> data_for (fun _ => srw2_next) (byte_bits src) (w * h) ->
  exists s, lane_picture zero_init (diff_at (fun _ => srw2_next) (byte_bits src)) w h s /\
    srw2_decode src w h = Ok (samples (fun r c => s r c mod 65536) w h).
Proof. exact srw2_any. Qed.
Print Assumptions C53_srw2_any_data.

Theorem C53_srw2_roundtrip : forall w h s tail, Z.of_nat (w + h) <= 65000 -> picture_within s w h 8192 -> Forall is_byte tail -> (4 <= length tail)%nat ->
  srw2_decode (stored (srw2_encode s w h) tail) w h = Ok (samples s w h).
Proof. exact srw2_roundtrip. Qed.
Print Assumptions C53_srw2_roundtrip.

(** taking one from a length of zero ends the program *)
Example C53_srw1_short_length : srw1_decode [32; 0; 128; 127; 0; 0; 0; 0] (repeat 0 8) 32 2 = Panic.
Proof. reflexivity. Qed.

Example C53_example_srw1 :
  let a := corrections srw_form srw_picture 32 in
  form_ok srw_form a 32 2 /\
  firstn 12 (srw1_rows srw_form a 32 2) = [16; 0; 72; 54; 138; 33; 48; 32; 5; 6; 4; 0] /\
  srw1_decode (srw1_rows srw_form a 32 2) (srw1_offsets srw_form a 32 2) 32 2 = Ok (samples (swapped srw_picture) 32 2).
Proof.
  assert (F : form_ok srw_form (corrections srw_form srw_picture 32) 32 2) by (apply form_b_ok; reflexivity).
  split; [exact F|]. split; [reflexivity|]. apply C53_srw1_roundtrip; [lia|lia|reflexivity|reflexivity|apply srw_picture_small'; lia|exact F|reflexivity].
Qed.

Example C53_example_srw2 :
  firstn 6 (pack (srw2_encode srw_picture 4 3)) = [232; 14; 129; 251; 238; 131] /\
  srw2_decode (stored (srw2_encode srw_picture 4 3) [1; 2; 3; 4]) 4 3 = Ok (samples srw_picture 4 3).
Proof.
  split; [reflexivity|]. apply C53_srw2_roundtrip; [lia|apply srw_picture_small; lia|repeat constructor; lia|cbn; lia].
Qed.
