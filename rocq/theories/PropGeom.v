(** Properties C15 (crop and rotation), C25 (rectangles), C26 (deinterleave). *)
From Coq Require Import List ZArith Lia Bool Permutation.
From Verif Require Import Base Par Tiles Geom GeomProofs.
Import ListNotations.
Open Scope nat_scope.

(** ** C15.  [px d p row col] is the pixel of [p] at that position. *)

(** A crop of a color array succeeds exactly when the rectangle is inside the
    image, and returns exactly its pixels. *)
Theorem C15_color_crop_total : forall A (d : A) (p : pix2d A) a, pix_ok p -> 0 < px_w p ->
  (exists q, color_crop p a = Ok q) <-> (r_x a + r_w a <= px_w p /\ r_y a + r_h a <= px_h p).
Proof. exact @color_crop_ok. Qed.
Print Assumptions C15_color_crop_total.

Theorem C15_color_crop : forall A (d : A) (p : pix2d A) a q, pix_ok p -> 0 < px_w p -> color_crop p a = Ok q ->
  pix_ok q /\ px_w q = r_w a /\ px_h q = r_h a /\
  forall row col, row < r_h a -> col < r_w a -> px d q row col = px d p (r_y a + row) (r_x a + col).
Proof. exact @color_crop_spec. Qed.
Print Assumptions C15_color_crop.

(** Same for the single channel array, including the no-op shortcut. *)
Theorem C15_pix_crop : forall A (d : A) (p : pix2d A) x y w h, pix_ok p -> 0 < w -> x + w <= px_w p -> y + h <= px_h p ->
  exists q, into_crop p x y w h = Ok q /\ pix_ok q /\ px_w q = w /\ px_h q = h /\
  forall row col, row < h -> col < w -> px d q row col = px d p (y + row) (x + col).
Proof. exact @pix_into_crop_spec. Qed.
Print Assumptions C15_pix_crop.

Theorem C15_rotate_90cw : forall A (d : A) (p : pix2d A), pix_ok p -> 0 < px_h p ->
  exists q, rotate_90cw p = Ok q /\ pix_ok q /\ px_w q = px_h p /\ px_h q = px_w p /\
    forall row col, row < px_w p -> col < px_h p -> px d q row col = px d p (px_h p - 1 - col) row.
Proof. exact @rotate_90cw_ok. Qed.
Print Assumptions C15_rotate_90cw.

Theorem C15_rotate_90ccw : forall A (d : A) (p : pix2d A), pix_ok p -> 0 < px_h p ->
  exists q, rotate_90ccw p = Ok q /\ pix_ok q /\ px_w q = px_h p /\ px_h q = px_w p /\
    forall row col, row < px_w p -> col < px_h p -> px d q row col = px d p col (px_w p - 1 - row).
Proof. exact @rotate_90ccw_ok. Qed.
Print Assumptions C15_rotate_90ccw.

Theorem C15_rotate_180 : forall A (d : A) (p : pix2d A), pix_ok p ->
  exists q, rotate_180 p = Ok q /\ pix_ok q /\ px_w q = px_w p /\ px_h q = px_h p /\
    forall row col, row < px_h p -> col < px_w p -> px d q row col = px d p (px_h p - 1 - row) (px_w p - 1 - col).
Proof. exact @rotate_180_ok. Qed.
Print Assumptions C15_rotate_180.

Theorem C15_four_turns : forall A (d : A) (p : pix2d A), pix_ok p -> 0 < px_h p -> 0 < px_w p ->
  (do a <- rotate_90cw p; do b <- rotate_90cw a; do c <- rotate_90cw b; rotate_90cw c) = Ok p.
Proof. exact @four_turns. Qed.
Print Assumptions C15_four_turns.

Theorem C15_turn_back : forall A (d : A) (p q r : pix2d A), pix_ok p -> 0 < px_h p -> 0 < px_w p ->
  rotate_90cw p = Ok q -> rotate_90ccw q = Ok r -> r = p.
Proof. exact @rot_cw_ccw. Qed.
Print Assumptions C15_turn_back.

Theorem C15_turn_forth : forall A (d : A) (p q r : pix2d A), pix_ok p -> 0 < px_h p -> 0 < px_w p ->
  rotate_90ccw p = Ok q -> rotate_90cw q = Ok r -> r = p.
Proof. exact @rot_ccw_cw. Qed.
Print Assumptions C15_turn_forth.

Theorem C15_two_quarters : forall A (d : A) (p q r : pix2d A), pix_ok p -> 0 < px_h p -> 0 < px_w p ->
  rotate_90cw p = Ok q -> rotate_90cw q = Ok r -> rotate_180 p = Ok r.
Proof. exact @rot_cw_cw. Qed.
Print Assumptions C15_two_quarters.

(** The slice version agrees with the array version and leaves the rest of the
    destination alone. *)
Theorem C15_rotate_slice : forall A (d : A) (p : pix2d A) dst q, pix_ok p -> 0 < px_h p -> 0 < px_w p ->
  length (px_data p) <= length dst -> rotate_90cw p = Ok q ->
  rotate_90 (px_data p) dst (px_w p) (px_h p) = Ok (px_data q ++ skipn (length (px_data p)) dst).
Proof. exact @rotate_90_ok. Qed.
Print Assumptions C15_rotate_slice.

Example C15_example : rotate_90cw (mk_pix 3 2 [1;2;3; 4;5;6]) = Ok (mk_pix 2 3 [4;1; 5;2; 6;3]) /\
  color_crop (mk_pix 3 2 [1;2;3; 4;5;6]) (mk_rect 1 1 2 1) = Ok (mk_pix 2 1 [5;6]).
Proof. split; reflexivity. Qed.

(** ** C25.  [in_rect r x y]: the pixel belongs to the rectangle. *)

Theorem C25_points : forall x1 y1 x2 y2,
  ((exists r, rect_points x1 y1 x2 y2 = Ok r) <-> x1 <= x2 /\ y1 <= y2) /\
  forall r, rect_points x1 y1 x2 y2 = Ok r ->
    as_ltrb r = (x1, y1, x2, y2) /\ as_tlbr r = (y1, x1, y2, x2) /\
    forall x y, in_rect r x y <-> x1 <= x < x2 /\ y1 <= y < y2.
Proof. exact (fun x1 y1 x2 y2 => conj (rect_points_iff x1 y1 x2 y2) (rect_points_pixels x1 y1 x2 y2)). Qed.
Print Assumptions C25_points.

Theorem C25_dng : forall r, let '(t, l, b, rt) := as_tlbr r in rect_dng t l b rt = Ok r.
Proof. exact rect_dng_inv. Qed.
Print Assumptions C25_dng.

(** Borders and offsets are inverse to each other, and defined exactly when
    the rectangle lies inside the image. *)
Theorem C25_borders : forall dw dh b0 b1 b2 b3 r,
  rect_borders dw dh b0 b1 b2 b3 = Ok r <-> as_ltrb_offsets r dw dh = Ok (b0, b1, b2, b3).
Proof. exact rect_offsets. Qed.
Print Assumptions C25_borders.

Theorem C25_borders_total : forall dw dh b0 b1 b2 b3,
  (exists r, rect_borders dw dh b0 b1 b2 b3 = Ok r) <-> b0 + b2 <= dw /\ b1 + b3 <= dh.
Proof. exact rect_borders_iff. Qed.
Print Assumptions C25_borders_total.

Theorem C25_offsets_total : forall r dw dh,
  (exists o, as_ltrb_offsets r dw dh = Ok o) <-> r_x r + r_w r <= dw /\ r_y r + r_h r <= dh.
Proof. exact rect_offsets_iff. Qed.
Print Assumptions C25_offsets_total.

Theorem C25_tlbr_offsets : forall r dw dh a b c e,
  as_ltrb_offsets r dw dh = Ok (a, b, c, e) <-> as_tlbr_offsets r dw dh = Ok (b, a, e, c).
Proof. exact tlbr_offsets. Qed.
Print Assumptions C25_tlbr_offsets.

(** Adapting keeps the absolute position, and works for every nonempty
    rectangle inside the master. *)
Theorem C25_adapt : forall r m r', rect_adapt r m = Ok r' ->
  forall x y, in_rect r' x y <-> in_rect r (x + r_x m) (y + r_y m).
Proof. exact rect_adapt_ok. Qed.
Print Assumptions C25_adapt.

Theorem C25_adapt_total : forall r m, (forall x y, in_rect r x y -> in_rect m x y) -> 0 < r_w r -> 0 < r_h r ->
  exists r', rect_adapt r m = Ok r'.
Proof. exact rect_adapt_total. Qed.
Print Assumptions C25_adapt_total.

(** adapt also accepts a rectangle that sticks out of the master. *)
Theorem C25_adapt_outside_refuted : exists r m r', rect_adapt r m = Ok r' /\ r_x r' + r_w r' > r_w m.
Proof. exists (mk_rect 5 0 3 1), (mk_rect 0 0 5 1). eexists. split; [reflexivity|]. cbn. lia. Qed.
Print Assumptions C25_adapt_outside_refuted.

(** is_empty is false for a rectangle without pixels when only one side is 0. *)
Theorem C25_is_empty_refuted : exists r, (forall x y, ~ in_rect r x y) /\ rect_is_empty r = false.
Proof. exists (mk_rect 0 0 0 5). split; [|reflexivity]. unfold in_rect. cbn. lia. Qed.
Print Assumptions C25_is_empty_refuted.

Example C25_example : rect_borders 100 80 10 5 20 15 = Ok (mk_rect 10 5 70 60) /\
  rect_adapt (mk_rect 12 9 50 40) (mk_rect 10 5 70 60) = Ok (mk_rect 2 4 50 40).
Proof. split; reflexivity. Qed.

(** ** C26.  Output cell (r, c) comes from row [r/2] of the upper or lower half
    and column [c/2] of the left or right half. *)
Theorem C26_deinterleave : forall A (d : A) dbg (p : pix2d A) sched s0,
  pix_ok p -> px_w p mod 2 = 0 -> px_h p mod 2 = 0 ->
  deinterleave2x2 d dbg p = Ok s0 -> ended (prun d sched s0) ->
  exists out, result (prun d sched s0) = POk out /\ length out = px_h p * px_w p /\
    (forall r c, r < px_h p -> c < px_w p ->
      nth (r * px_w p + c) out d =
      nth ((r / 2 + r mod 2 * (px_h p / 2)) * px_w p + (c / 2 + c mod 2 * (px_w p / 2))) (px_data p) d) /\
    Permutation out (px_data p).
Proof.
  intros A d dbg p sched s0 HP HW HH E HE.
  destruct (deinterleave_ok d dbg p sched s0 HP HW HH E HE) as (out & ER & LO & NO).
  exact (ex_intro _ out (conj ER (conj LO (conj NO (deint_perm d _ _ _ _ HW HH HP LO NO))))).
Qed.
Print Assumptions C26_deinterleave.

(** With an odd height the lower half starts in the middle of a row, and
    samples are duplicated and lost. *)
Theorem C26_odd_height_refuted : exists s0,
  deinterleave2x2 0 true (mk_pix 2 3 [1;2; 3;4; 5;6]) = Ok s0 /\
  result (prun 0 [0; 1; 2] s0) = POk [1;2; 4;5; 3;4].
Proof. eexists. split; [reflexivity|]. vm_compute. reflexivity. Qed.
Print Assumptions C26_odd_height_refuted.

Example C26_example : exists s0,
  deinterleave2x2 0 true (mk_pix 4 2 [1;2;3;4; 5;6;7;8]) = Ok s0 /\
  result (prun 0 [1; 0] s0) = POk [1;3;2;4; 5;7;6;8].
Proof. eexists. split; [reflexivity|]. vm_compute. reflexivity. Qed.
