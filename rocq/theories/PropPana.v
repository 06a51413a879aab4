(** C54: Panasonic RW2 image data. *)
From Coq Require Import List ZArith Lia.
From Verif Require Import Base SonySpec Pana PanaSpec PanaProofs PanaStore PanaSix PanaFour PanaEx.
Import ListNotations.
Open Scope Z_scope.

(** format 4, whatever the data: each packet gives its 14 samples; in the split
    order this leaves out one packet of 1024 *)
Theorem C54_v4_any_data : forall buf split w h, Forall is_byte buf -> (0 < w)%nat -> (w mod 14 = 0)%nat -> holds_packets split (w * h / 14) buf ->
  exists out, v4_decode buf w h split = Ok out /\ length out = (w * h)%nat /\
    forall p, (p < w * h / 14)%nat -> (split = true -> Z.of_nat p mod 1024 <> 512) ->
      firstn 14 (skipn (14 * p) out) = v4_packet_samples (packet_value split buf p).
Proof. exact v4_any. Qed.
Print Assumptions C54_v4_any_data.

Theorem C54_v4_plain_data : forall buf w h, Forall is_byte buf -> (0 < w)%nat -> (w mod 14 = 0)%nat -> (16 * (w * h / 14) < length buf)%nat ->
  v4_decode buf w h false = Ok (flat_map (fun p => v4_packet_samples (packet_value false buf p)) (seq 0 (w * h / 14))).
Proof. exact v4_plain. Qed.
Print Assumptions C54_v4_plain_data.

Theorem C54_v4_roundtrip : forall s w h tail, (0 < w)%nat -> (w mod 14 = 0)%nat -> Forall is_byte tail -> tail <> [] -> packets_are v4_smooth 14 (w * h) s ->
  v4_decode (store_plain (fun p => v4_value (fun i => s (p * 14 + i)%nat)) (w * h / 14) ++ tail) w h false = Ok (map s (seq 0 (w * h))).
Proof. exact v4_roundtrip. Qed.
Print Assumptions C54_v4_roundtrip.

(** the packet left out takes bits from after its 16 KiB: its bytes are all zero
    and one of its samples is not *)
Theorem C54_v4_split_seam_refuted : exists out, v4_decode seam_bytes 14 513 true = Ok out /\ nth (512 * 14 + 7) out 0 = 3840 /\
  v4_packet_samples (packet_value true seam_bytes 512) = repeat 0 14.
Proof. exact v4_seam. Qed.
Print Assumptions C54_v4_split_seam_refuted.

Theorem C54_v5_any_data : forall buf bps, Forall is_byte buf -> bps = 12%nat \/ bps = 14%nat -> forall w h,
  (stretches (packets_of (w * h) (per_packet bps)) * stretch_bytes <= length buf)%nat ->
  v5_decode buf w h bps = Ok (packed_picture true bps buf (w * h)).
Proof. exact v5_any. Qed.
Print Assumptions C54_v5_any_data.

Theorem C54_v5_roundtrip : forall bps s w h tail, bps = 12%nat \/ bps = 14%nat -> Forall is_byte tail ->
  (forall i, (i < w * h / per_packet bps * per_packet bps)%nat -> 0 <= s i < 2 ^ Z.of_nat bps) ->
  v5_decode (store_split (packed_value bps s) (packets_of (w * h) (per_packet bps)) ++ tail) w h bps =
    Ok (map (fun i => if (i <? w * h / per_packet bps * per_packet bps)%nat then s i else 0) (seq 0 (w * h))).
Proof. exact v5_roundtrip. Qed.
Print Assumptions C54_v5_roundtrip.

Theorem C54_v6_any_data : forall buf w h bps, bps = 12%nat \/ bps = 14%nat -> Forall is_byte buf -> (0 < w)%nat -> (w mod v6_per bps = 0)%nat ->
  (16 * (w / v6_per bps * h) <= length buf)%nat -> v6_decode buf w h bps = Ok (v6_picture bps buf (w * h)).
Proof. exact v6_any. Qed.
Print Assumptions C54_v6_any_data.

Theorem C54_v6_roundtrip : forall bps s w h tail, bps = 12%nat \/ bps = 14%nat -> (0 < w)%nat -> (w mod v6_per bps = 0)%nat -> Forall is_byte tail ->
  packets_are (v6_smooth bps) (v6_per bps) (w * h) s ->
  v6_decode (store_plain (fun p => v6_value bps (fun i => s (p * v6_per bps + i)%nat)) (w * h / v6_per bps) ++ tail) w h bps = Ok (map s (seq 0 (w * h))).
Proof. exact v6_roundtrip. Qed.
Print Assumptions C54_v6_roundtrip.

(** black data comes out nearly white *)
Theorem C54_v6_dark : forall w h bps n, bps = 12%nat \/ bps = 14%nat -> (0 < w)%nat -> (w mod v6_per bps = 0)%nat ->
  (16 * (w / v6_per bps * h) <= n)%nat -> v6_decode (repeat 0 n) w h bps = Ok (repeat (if (bps =? 14)%nat then 65521 else 16369) (w * h)).
Proof. exact v6_dark. Qed.
Print Assumptions C54_v6_dark.

Theorem C54_v7_any_data : forall buf w h, Forall is_byte buf -> (0 < w)%nat -> (w mod 9 = 0)%nat -> (16 * (w / 9 * h) <= length buf)%nat ->
  v7_decode buf w h 14 = Ok (packed_picture false 14 buf (w * h)).
Proof. exact v7_any. Qed.
Print Assumptions C54_v7_any_data.

Theorem C54_v7_roundtrip : forall s w h tail, (0 < w)%nat -> (w mod 9 = 0)%nat -> Forall is_byte tail ->
  (forall i, (i < w * h)%nat -> 0 <= s i < 16384) ->
  v7_decode (store_plain (packed_value 14 s) (w * h / 9) ++ tail) w h 14 = Ok (map s (seq 0 (w * h))).
Proof. exact v7_roundtrip. Qed.
Print Assumptions C54_v7_roundtrip.

Theorem C54_v7_twelve_bits : forall buf w h out, (0 < w)%nat -> (0 < h)%nat -> v7_decode buf w h 12 <> Ok out.
Proof. exact v7_twelve. Qed.
Print Assumptions C54_v7_twelve_bits.

Example C54_example_v4 :
  store_plain (fun p => v4_value (fun i => pana_picture (p * 14 + i))) 1 = [138; 138; 138; 40; 42; 158; 113; 166; 168; 136; 162; 162; 34; 93; 130; 37] /\
  v4_decode (store_plain (fun p => v4_value (fun i => pana_picture (p * 14 + i))) (28 * 6 / 14) ++ [0]) 28 6 false = Ok (map pana_picture (seq 0 (28 * 6))).
Proof. split; [reflexivity|]. apply C54_v4_roundtrip; [lia|reflexivity|repeat constructor; unfold is_byte; lia|discriminate|apply pana_four]. Qed.
Example C54_example_v4_scales : v4_packet_samples (2 ^ 120 * 60 + 2 ^ 110 * 3 + 2 ^ 102 * 130) = [960; 224; 960; 224; 960; 224; 960; 224; 960; 224; 960; 224; 960; 224].
Proof. reflexivity. Qed.

Example C54_example_v5 :
  map (fun i => split_byte (packed_value 12 pana_picture) (Z.to_nat i)) [8184; 8185; 8186; 8198; 8199; 8200] = [88; 210; 37; 38; 0; 103] /\
  v5_decode (store_split (packed_value 12 pana_picture) (packets_of (20 * 3) (per_packet 12)) ++ [7]) 20 3 12 = Ok (map pana_picture (seq 0 60)).
Proof. split; [reflexivity|]. rewrite C54_v5_roundtrip; [reflexivity|auto|repeat constructor; unfold is_byte; lia|intros; apply pana_packed; auto]. Qed.

Example C54_example_v6 :
  store_plain (fun p => v6_value 14 (fun i => pana_picture (p * v6_per 14 + i))) 1 = [160; 160; 130; 231; 113; 158; 130; 10; 162; 160; 130; 10; 194; 38; 156; 9] /\
  v6_decode (store_plain (fun p => v6_value 14 (fun i => pana_picture (p * v6_per 14 + i))) (22 * 3 / v6_per 14) ++ []) 22 3 14 = Ok (map pana_picture (seq 0 (22 * 3))).
Proof. split; [reflexivity|]. apply C54_v6_roundtrip; [auto|lia|reflexivity|constructor|apply pana_six; auto]. Qed.

Example C54_example_v6_scales : map (v6_sample 14 (2^114*100 + 2^100*1000 + 2^98*2 + 2^88*300 + 2^78*200 + 2^68*512 + 2^66*3)) (seq 0 11) =
  [85; 985; 1185; 785; 2033; 65521; 65521; 65521; 65521; 65521; 65521].
Proof. reflexivity. Qed.

Example C54_example_v7 :
  store_plain (packed_value 14 pana_picture) 1 = [88; 66; 151; 32; 38; 156; 9; 108; 66; 156; 96; 39; 96; 9; 93; 2] /\
  v7_decode (store_plain (packed_value 14 pana_picture) (18 * 2 / 9) ++ []) 18 2 14 = Ok (map pana_picture (seq 0 (18 * 2))).
Proof. split; [reflexivity|]. apply C54_v7_roundtrip; [lia|reflexivity|constructor|intros; apply (pana_packed 14); auto]. Qed.
