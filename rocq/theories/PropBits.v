(** Properties C16, C17, C28, C32: floats, rationals, lookup tables, predictor. *)
From Coq Require Import List ZArith Lia Bool.
From Verif Require Import Base Bits BitsSpec BitsProofs.
Import ListNotations.
Open Scope Z_scope.

(** ** C16: widening *)
Theorem C16_half_to_single : forall v, 0 <= v < 2 ^ 16 ->
  exists r, extend 10 5 v = Ok r /\ 0 <= r < 2 ^ 32 /\ fsign 23 8 r = fsign 10 5 v /\
    classify 23 8 r = classify 10 5 v /\
    (classify 10 5 v = Finite -> scaled 23 8 r = scaled 10 5 v) /\
    (classify 10 5 v = NotANumber -> ffrac 23 r = ffrac 10 v * 2 ^ (23 - 10)).
Proof. intros v H. exact (extend_ok 10 5 v extend_16 H). Qed.
Print Assumptions C16_half_to_single.

Theorem C16_fp24_to_single : forall v, 0 <= v < 2 ^ 24 ->
  exists r, extend 16 7 v = Ok r /\ 0 <= r < 2 ^ 32 /\ fsign 23 8 r = fsign 16 7 v /\
    classify 23 8 r = classify 16 7 v /\
    (classify 16 7 v = Finite -> scaled 23 8 r = scaled 16 7 v) /\
    (classify 16 7 v = NotANumber -> ffrac 23 r = ffrac 16 v * 2 ^ (23 - 16)).
Proof. intros v H. exact (extend_ok 16 7 v extend_24 H). Qed.
Print Assumptions C16_fp24_to_single.

Theorem C16_single_kept : forall v, 0 <= v < 2 ^ 32 -> ~ subnormal 23 8 v -> extend 23 8 v = Ok v.
Proof. exact extend_32. Qed.
Print Assumptions C16_single_kept.

(** The smallest half subnormal, 2^-24, and one half. *)
Example C16_example : extend 10 5 1 = Ok (Z.shiftl (127 - 24) 23) /\ scaled 10 5 1 = 2 ^ (149 - 24) /\
  extend 10 5 14336 = Ok 1056964608 /\ scaled 23 8 1056964608 = 2 ^ 148 /\ ~ subnormal 23 8 1056964608.
Proof. repeat split; try reflexivity. intros [H _]. discriminate H. Qed.

(** 32 bit floats of a deflate image go through the same routine, which does
    not keep their subnormals: 2^-127 becomes 0, and smaller ones underflow *)
Theorem C16_single_subnormal_refuted :
  (exists v, 0 <= v < 2 ^ 32 /\ scaled 23 8 v = 2 ^ 22 /\ extend 23 8 v = Ok 0) /\
  (exists v, 0 <= v < 2 ^ 32 /\ extend 23 8 v = Panic).
Proof. split; [exists 4194304|exists 1]; (split; [lia|]); vm_compute; auto. Qed.
Print Assumptions C16_single_subnormal_refuted.

(** ** C17: rationals *)
Theorem C17_order_of_fractions : forall a b, rat_u32 a -> rat_u32 b -> 0 < r_d a -> 0 < r_d b ->
  rat_cmp a b = (r_n a * r_d b ?= r_n b * r_d a).
Proof. exact rat_cmp_frac. Qed.
Print Assumptions C17_order_of_fractions.

Theorem C17_signed_order_of_fractions : forall a b, rat_i32 a -> rat_i32 b -> 0 < r_d a -> 0 < r_d b ->
  srat_cmp a b = (r_n a * r_d b ?= r_n b * r_d a).
Proof. exact srat_cmp_frac. Qed.
Print Assumptions C17_signed_order_of_fractions.

Theorem C17_equality_agrees : forall a b, rat_eq a b = match rat_cmp a b with Eq => true | _ => false end.
Proof. exact rat_eq_cmp. Qed.
Print Assumptions C17_equality_agrees.

Theorem C17_antisymmetric : forall a b, rat_u32 a -> rat_u32 b -> rat_cmp b a = CompOpp (rat_cmp a b).
Proof. exact rat_cmp_sym. Qed.
Print Assumptions C17_antisymmetric.

Theorem C17_transitive : forall a b c, rat_valid a -> rat_valid b -> rat_valid c ->
  rat_cmp a b <> Gt -> rat_cmp b c <> Gt -> rat_cmp a c <> Gt.
Proof. exact rat_le_trans. Qed.
Print Assumptions C17_transitive.

(** The largest products, and an infinite value. *)
Example C17_example :
  rat_cmp (mk_rat 4294967295 4294967294) (mk_rat 4294967294 4294967295) = Gt /\ rat_valid (mk_rat 4294967295 4294967294) /\
  rat_cmp (mk_rat 5 0) (mk_rat 4294967295 1) = Gt /\ rat_valid (mk_rat 5 0) /\
  srat_cmp (mk_rat (-2147483648) 2147483647) (mk_rat 1 2) = Lt.
Proof. unfold rat_valid, rat_u32, is_u32. cbn [r_n r_d]. repeat split; try reflexivity; lia. Qed.

(** 0/0 is equal to every value, so equality is not transitive with it;
    a negative denominator reverses the order *)
Theorem C17_zero_over_zero_refuted : exists a b c, rat_u32 a /\ rat_u32 b /\ rat_u32 c /\
  rat_eq a b = true /\ rat_eq b c = true /\ rat_eq a c = false.
Proof.
  exists (mk_rat 1 2), (mk_rat 0 0), (mk_rat 3 1). unfold rat_u32, is_u32. cbn [r_n r_d].
  repeat split; try reflexivity; lia.
Qed.
Print Assumptions C17_zero_over_zero_refuted.
Theorem C17_negative_denominator_refuted : exists a b, rat_i32 a /\ rat_i32 b /\
  r_d a < 0 /\ 0 < r_d b /\ srat_cmp a b = Gt /\ (* a < b, as a = -(r_n a) / -(r_d a) *)
  - r_n a * r_d b < r_n b * - r_d a.
Proof. exists (mk_rat 1 (-2)), (mk_rat 1 2). unfold rat_i32, is_i32. cbn [r_n r_d]. repeat split; try reflexivity; lia. Qed.
Print Assumptions C17_negative_denominator_refuted.

(** ** C28: lookup tables *)
Theorem C28_dithered_row : forall t row rand, lut_ok t ->
  Forall (fun p => 0 <= p < Z.of_nat (length t)) row -> is_u32 rand ->
  exists l out, lut_new t = Ok l /\ dither_row l row rand = Ok out /\
    Forall2 (fun v p => is_u16 p /\
      let c := nth (Z.to_nat v) t 0 in let d := step_of t (Z.to_nat v) in
      (c <> 0 -> Z.abs (p - c) <= (d + 2) / 4) /\ (c = 0 -> 2 * p <= d)) row out.
Proof. exact dither_row_top. Qed.
Print Assumptions C28_dithered_row.

(** a table padded to [bits] bits has an entry for every [bits] wide sample,
    which is the last one past the end of the table *)
Theorem C28_padded_table : forall t bits l, t <> [] -> lut_new_bits t bits = Ok l ->
  (2 ^ bits <= length l)%nat /\
  forall v, (v < length l)%nat -> fst (fst (nth v l (0, 0, 0))) = nth (Nat.min v (length t - 1)) t 0.
Proof. exact lut_bits_top. Qed.
Print Assumptions C28_padded_table.

Theorem C28_clampbits : forall v b, 0 <= b <= 16 -> clampbits v b = Z.max 0 (Z.min v (2 ^ b - 1)).
Proof. exact clampbits_ok. Qed.
Print Assumptions C28_clampbits.

Theorem C28_log2ceil : forall n, 2 <= n < 2 ^ 64 ->
  exists k, log2ceil n = Ok k /\ n <= 2 ^ Z.of_nat k /\ 2 ^ (Z.of_nat k - 1) < n.
Proof. exact log2ceil_ok. Qed.
Print Assumptions C28_log2ceil.

Example C28_example : lut_ok [0; 10; 20; 45; 70; 70] /\
  (do l <- lut_new [0; 10; 20; 45; 70; 70]; dither_row l [0; 1; 2; 3; 4; 5] 123456789) = Ok [3; 9; 21; 32; 67; 70] /\
  (do l <- lut_new_bits [0; 10; 20] 3; Ok (map (fun e => fst (fst e)) l)) = Ok [0; 10; 20; 20; 20; 20; 20; 20].
Proof.
  split; [|split; vm_compute; reflexivity]. split; [repeat constructor; unfold is_u16; lia|].
  intros i Hi. do 6 (destruct i as [|i]; [vm_compute; repeat split; intros; first [discriminate | congruence | auto]|]). cbn in Hi. lia.
Qed.

(** A monotone table can still be refused (the base of an entry underflows),
    and a large last step to 65535 wraps to a dark sample *)
Theorem C28_monotone_table_refuted : exists t, Forall is_u16 t /\ (forall i, (i + 1 < length t)%nat -> nth i t 0 <= nth (i + 1) t 0) /\
  lut_new t = Panic.
Proof.
  exists [0; 1; 100]. split; [repeat constructor; unfold is_u16; lia|]. split; [|reflexivity].
  intros i Hi. do 2 (destruct i as [|i]; [cbn; lia|]). cbn in Hi. lia.
Qed.
Print Assumptions C28_monotone_table_refuted.
Theorem C28_white_wraps_refuted : exists t l v rand r, lut_new t = Ok l /\ nth v t 0 = 65533 /\ is_u32 rand /\
  dither l (Z.of_nat v) rand = Ok (0, r).
Proof.
  exists [65520; 65533; 65535]. eexists. exists 1%nat, 2047. eexists. split; [vm_compute; reflexivity|].
  split; [reflexivity|]. split; [unfold is_u32; lia|]. vm_compute. reflexivity.
Qed.
Print Assumptions C28_white_wraps_refuted.

(** ** C32: predictor *)
Theorem C32_delta_inverse : forall factor row, (0 < factor)%nat -> Forall is_byte row ->
  delta_bytes factor (delta_enc factor row) = Ok row.
Proof. exact delta_inv. Qed.
Print Assumptions C32_delta_inverse.

Theorem C32_float_rows : forall bps factor rows w, (bps = 16 \/ bps = 24 \/ bps = 32)%nat -> (0 < factor)%nat ->
  Forall (fun row => length row = w) rows ->
  Forall (Forall (fun v => 0 <= v < 2 ^ Z.of_nat bps /\ (bps = 32%nat -> ~ subnormal 23 8 v))) rows ->
  exists out, deflate_decode bps factor (flat_map (fun row => delta_enc factor (planes (bps / 8) row)) rows) (length rows) w = Ok out /\
    Forall2 (Forall2 (fun v p => extend (fst (fmt bps)) (snd (fmt bps)) v = Ok p)) rows out.
Proof. exact deflate_ok. Qed.
Print Assumptions C32_float_rows.

Example C32_example : (* 1.0, 2.0 / 0.5, 1.5 as half floats, one component *)
  flat_map (fun row => delta_enc 1 (planes 2 row)) [[15360; 16384]; [14336; 15872]] = [60; 4; 192; 0; 56; 6; 194; 0] /\
  deflate_decode 16 1 [60; 4; 192; 0; 56; 6; 194; 0] 2 2 = Ok [[1065353216; 1073741824]; [1056964608; 1069547520]].
Proof. split; vm_compute; reflexivity. Qed.
