(** Properties C01 - C04: the lossless JPEG codec. *)
From Coq Require Import List ZArith Lia Bool.
From Verif Require Import Base LjpegEnc LjpegDec HuffTree LjpegSpec LjpegTop.
Import ListNotations.
Open Scope Z_scope.

(** ** C01: round trip, full frame *)

(** [dbg] is the debug_assertions switch.  In release builds (dbg = false) no
    condition on the sample values is needed. *)
Theorem C01_ljpeg_roundtrip : forall dbg image w h comps depth px pad,
  Forall is_u16 image ->
  (1 <= w)%nat -> Z.of_nat w <= 65535 -> (1 <= h)%nat -> Z.of_nat h <= 65535 ->
  (1 <= comps <= 4)%nat -> (10 <= depth <= 16)%nat -> (1 <= px <= 7)%nat ->
  (h * ((w + pad) * comps) <= length image)%nat ->
  (dbg = true -> Forall (fun s => s < 2 ^ Z.of_nat depth) image) ->
  exists bytes dec,
    ljpeg_compress dbg image w h comps depth px 0 pad = Ok bytes /\ Forall is_byte bytes /\
    ljdec_new bytes = Ok dec /\ ljdec_width dec = (w * comps)%nat /\ ljdec_height dec = h /\
    ljdec_decode dec (repeat 0 (w * comps * h)) 0 (w * comps) (w * comps) h
      = Ok (area image h (w * comps) ((w + pad) * comps)).
Proof. exact c01_ljpeg_roundtrip. Qed.
Print Assumptions C01_ljpeg_roundtrip.

(** A 2 x 3 image of two components meets the hypotheses; the theorem gives its
    round trip and the model computes the first bytes. *)
Definition c01_image : list Z := [0; 1023; 512; 7;  5; 900; 33; 33;  1000; 1; 2; 3].
Example C01_example : exists bytes dec,
  ljpeg_compress true c01_image 2 3 2 10 6 0 0 = Ok bytes /\ firstn 8 bytes = [255; 216; 255; 195; 0; 14; 10; 0] /\
  ljdec_new bytes = Ok dec /\ ljdec_decode dec (repeat 0 12) 0 4 4 3 = Ok c01_image.
Proof.
  destruct (C01_ljpeg_roundtrip true c01_image 2 3 2 10 6 0) as (bytes & dec & E & _ & EN & _ & _ & ED);
    [repeat constructor; unfold is_u16; lia|lia|lia|lia|lia|lia|lia|lia|cbn; lia|intros _; repeat constructor; cbn; lia|].
  exists bytes, dec. split; [exact E|]. split; [|split; [exact EN|exact ED]].
  apply (f_equal (fun r => match r with Ok b => firstn 8 b | _ => [] end)) in E. cbv beta iota in E. rewrite <- E.
  vm_compute. reflexivity.
Qed.

(** ** C02: point transform, cropped decoding, offset and stride *)
Theorem C02_ljpeg_point_transform_and_crop : forall dbg image w h comps depth px pt pad,
  Forall is_u16 image ->
  (1 <= w)%nat -> Z.of_nat w <= 65535 -> (1 <= h)%nat -> Z.of_nat h <= 65535 ->
  (1 <= comps <= 4)%nat -> (10 <= depth <= 16)%nat -> (1 <= px <= 7)%nat -> (pt < depth)%nat ->
  (h * ((w + pad) * comps) <= length image)%nat ->
  (dbg = true -> Forall (fun s => s < 2 ^ Z.of_nat depth) image) ->
  exists bytes dec,
    ljpeg_compress dbg image w h comps depth px pt pad = Ok bytes /\
    ljdec_new bytes = Ok dec /\
    forall out0 x stride wp height,
      (1 <= wp <= w)%nat -> (1 <= height <= h)%nat -> (x + wp * comps <= stride)%nat ->
      ((height - 1) * stride + x + wp * comps <= length out0)%nat ->
      exists out, ljdec_decode dec out0 x stride (wp * comps) height = Ok out /\ length out = length out0 /\
        (forall r c, (r < height)%nat -> (c < wp * comps)%nat ->
           nth (r * stride + x + c) out 0 = nth (r * ((w + pad) * comps) + c) image 0 / 2 ^ Z.of_nat pt) /\
        (forall j, (forall r c, (r < height)%nat -> (c < wp * comps)%nat -> j <> (r * stride + x + c)%nat) ->
           nth j out 0 = nth j out0 0).
Proof. exact c02_ljpeg_point_transform_and_crop. Qed.
Print Assumptions C02_ljpeg_point_transform_and_crop.

Example C02_example : exists bytes dec out,
  ljpeg_compress true c01_image 2 3 2 10 5 2 0 = Ok bytes /\ ljdec_new bytes = Ok dec /\
  ljdec_decode dec (repeat 9999 10) 1 5 2 2 = Ok out /\
  out = [9999; 0; 255; 9999; 9999; 9999; 1; 225; 9999; 9999].
Proof.
  destruct (C02_ljpeg_point_transform_and_crop true c01_image 2 3 2 10 5 2 0) as (bytes & dec & E & EN & ED);
    [repeat constructor; unfold is_u16; lia|lia|lia|lia|lia|lia|lia|lia|lia|cbn; lia|intros _; repeat constructor; cbn; lia|].
  destruct (ED (repeat 9999 10) 1%nat 5%nat 1%nat 2%nat) as (out & EO & HL & HI & HO); [lia|lia|lia|cbn; lia|].
  exists bytes, dec, out. split; [exact E|]. split; [exact EN|]. split; [exact EO|].
  pose proof (HI 0 0 ltac:(lia) ltac:(lia))%nat as I0. pose proof (HI 0 1 ltac:(lia) ltac:(lia))%nat as I1.
  pose proof (HI 1 0 ltac:(lia) ltac:(lia))%nat as I2. pose proof (HI 1 1 ltac:(lia) ltac:(lia))%nat as I3.
  pose proof (HO 0 ltac:(lia))%nat as O0. pose proof (HO 3 ltac:(lia))%nat as O3. pose proof (HO 4 ltac:(lia))%nat as O4.
  pose proof (HO 5 ltac:(lia))%nat as O5. pose proof (HO 8 ltac:(lia))%nat as O8. pose proof (HO 9 ltac:(lia))%nat as O9.
  clear - HL I0 I1 I2 I3 O0 O3 O4 O5 O8 O9. cbn in HL.
  do 10 (destruct out as [|? out]; [discriminate HL|]). destruct out; [|discriminate HL].
  cbn in *. subst. reflexivity.
Qed.

(** ** C03: Huffman tables *)
Theorem C03_huffman_table : forall hist,
  length hist = 17%nat -> Forall (fun x => 0 <= x) hist -> zsum hist + 1 < 2 ^ 64 ->
  (exists s, 0 < nth s hist 0) ->
  exists tbl, build_table hist = Ok tbl /\ length tbl = 17%nat /\
    (forall s, (s < 17)%nat ->
       let e := nth s tbl ba_default in
       (nth s hist 0 = 0 -> ba_nbits e = 0%nat) /\
       (0 < nth s hist 0 -> (1 <= ba_nbits e <= 16)%nat /\ length (code_word e) = ba_nbits e /\ In false (code_word e))) /\
    (forall s s', (s < 17)%nat -> (s' < 17)%nat -> s <> s' -> 0 < nth s hist 0 -> 0 < nth s' hist 0 ->
       ~ is_prefix (code_word (nth s tbl ba_default)) (code_word (nth s' tbl ba_default))) /\
    zsum (map (fun s => if 0 <? nth s hist 0 then 2 ^ (16 - Z.of_nat (ba_nbits (nth s tbl ba_default))) else 0) (seq 0 17))
      < 2 ^ 16.
Proof. exact c03_huffman_table. Qed.
Print Assumptions C03_huffman_table.

Example C03_example :
  let hist := [1; 3; 9; 27; 81; 243; 729; 2187; 6561; 19683; 59049; 177147; 531441; 1594323; 4782969; 14348907; 43046721] in
  (length hist = 17%nat /\ Forall (fun x => 0 <= x) hist /\ zsum hist + 1 < 2 ^ 64 /\ 0 < nth 3 hist 0) /\
  (match build_table hist with Ok t => map ba_nbits t | _ => [] end)
     = [16; 16; 16; 14; 13; 12; 11; 10; 9; 8; 7; 6; 5; 4; 3; 2; 1]%nat.
Proof.
  cbv zeta. split.
  - repeat split; [repeat constructor; lia].
  - vm_compute. reflexivity.
Qed.

(** ** C04: well formed marker stream *)
Theorem C04_ljpeg_stream_wellformed : forall dbg image w h comps depth px pt pad,
  (1 <= w)%nat -> Z.of_nat w <= 65535 -> (1 <= h)%nat -> Z.of_nat h <= 65535 ->
  (1 <= comps <= 4)%nat -> (2 <= depth <= 16)%nat -> (1 <= px <= 7)%nat -> (pt < depth)%nat ->
  (h * ((w + pad) * comps) <= length image)%nat ->
  (dbg = true -> Forall (fun s => 0 <= s < 2 ^ Z.of_nat depth) image) ->
  exists bytes, ljpeg_compress dbg image w h comps depth px pt pad = Ok bytes /\ wf_stream bytes comps.
Proof. exact c04_ljpeg_stream_wellformed. Qed.
Print Assumptions C04_ljpeg_stream_wellformed.

Example C04_example :
  match ljpeg_compress true [255; 1; 2; 3] 2 2 1 8 1 0 0 with
  | Ok bytes => (nth 0 bytes 0, nth 1 bytes 0, skipn (length bytes - 2) bytes) = (255, 216, [255; 217])
  | _ => False
  end.
Proof. vm_compute. reflexivity. Qed.
