(** Demosaicing (rawler/src/imgop/sensor/bayer/{mod,ppg,bilinear,superpixel}.rs,
    rawler/src/imgop/sensor/xtrans/bilinear.rs).

    The sample type and its arithmetic are a parameter [o]: nothing is assumed
    about them, so the results hold for f32 with rounding and NaN.  A Color2D of
    N channels is one list of cells, channel [ch] of pixel (row, col) at
    N * (row * w + col) + ch.  The parallel loops are [par_loop]s with an
    arbitrary schedule.  usize overflow is not modelled. *)
From Coq Require Import List ZArith Lia Bool.
From Verif Require Import Base Share Tiles Geom Cfa.
Import ListNotations.
Open Scope nat_scope.

(** f32 operations; [f_nat n] is the literal or the cast [n as f32]. *)
Record fops (F : Type) := mk_fops {
  f_nat : nat -> F;
  f_add : F -> F -> F;
  f_sub : F -> F -> F;
  f_mul : F -> F -> F;
  f_div : F -> F -> F;
  f_abs : F -> F;
  f_lt : F -> F -> bool;
  f_eq : F -> F -> bool
}.
Arguments f_nat {F}. Arguments f_add {F}. Arguments f_sub {F}. Arguments f_mul {F}.
Arguments f_div {F}. Arguments f_abs {F}. Arguments f_lt {F}. Arguments f_eq {F}.

(** is_rgb, cfa.rs:198-200 *)
Definition is_rgb (c : cfa) : bool :=
  forallb (fun ch => has_char ch [82; 71; 66]%Z) (c_name c) &&
  has_char 82 (c_name c) && has_char 71 (c_name c) && has_char 66 (c_name c).

(** color_at as a channel number *)
Definition chan (c : cfa) (row col : nat) : nat := Z.to_nat (color_at c row col).

Section Demosaic.
Context {F : Type}.
Variable o : fops F.

(** the cell of a channel *)
Definition cell (n w row col ch : nat) : nat := n * (row * w + col) + ch.

(** ** expand_bayer_rgb, bayer/mod.rs:20-34 *)

Definition expand_px (raw : list F) (c : cfa) (w start row col : nat) (k : prog F) : prog F :=
  match nth_error raw (start + col) with
  | Some v => let ch := chan c row col in
              if ch <? 3 then Wr (cell 3 w row col ch) v k else Crash
  | None => Crash
  end.

(** one row of the output; the slice of the input row is checked first *)
Definition expand_row (raw : list F) (dw : nat) (c : cfa) (roi : rect) (row : nat) : prog F :=
  let start := (r_y roi + row) * dw + r_x roi in
  if start + r_w roi <=? length raw
  then fold_right (expand_px raw c (r_w roi) start row) Done (seq 0 (r_w roi))
  else Crash.

Definition expand_bayer_rgb (sched : list nat) (raw : list F) (dw : nat) (c : cfa) (roi : rect) : res (list F) :=
  do cr <- cfa_shift c (r_x roi) (r_y roi);
  do _ <- assert_ (0 <? r_w roi);      (* par_chunks_exact_mut(0) *)
  par_loop sched (map (expand_row raw dw cr roi) (seq 0 (r_h roi))) (repeat (f_nat o 0) (3 * (r_w roi * r_h roi))).

(** ** PPG, bayer/ppg.rs *)

(** The columns that interpolate_borders visits in one row (ppg.rs:74-80, 98):
    [None] when [fuel] steps of the while loop were not enough. *)
Fixpoint border_cols (fuel w h row col : nat) : option (list nat) :=
  match fuel with
  | O => None
  | S fuel' =>
    if col <? w then
      let col' := if (col =? 3) && (3 <=? row) && (row <? h - 3) then w - 3 else col in
      option_map (cons col') (border_cols fuel' w h row (S col'))
    else Some []
  end.

Fixpoint border_plan (fuel w h : nat) (rows : list nat) : option (list (nat * nat)) :=
  match rows with
  | [] => Some []
  | row :: rows' =>
    match border_cols fuel w h row 0, border_plan fuel w h rows' with
    | Some cols, Some rest => Some (map (pair row) cols ++ rest)
    | _, _ => None
    end
  end.

(** [row.saturating_sub(1)..=row.add(1)] *)
Definition around (x : nat) : list nat := seq (x - 1) (x + 2 - (x - 1)).

(** the sums over the 3 x 3 window, ppg.rs:81-90 *)
Definition border_sums (c : cfa) (w h : nat) (m : list F) (row col : nat) : res (list (F * nat)) :=
  for_each (list_prod (around row) (around col)) (fun yx sum =>
    let '(y, x) := yx in
    if (y <? h) && (x <? w) then
      let ch := chan c y x in
      do s <- get sum ch;
      do v <- get m (cell 3 w y x ch);
      put sum ch (f_add o (fst s) v, S (snd s))
    else Ok sum) (repeat (f_nat o 0, 0) 3).

(** one visited pixel, ppg.rs:81-97 *)
Definition border_px (c : cfa) (w h : nat) (rc : nat * nat) (m : list F) : res (list F) :=
  let '(row, col) := rc in
  do sum <- border_sums c w h m row col;
  let ch := chan c row col in
  for_each (seq 0 3) (fun color m =>
    do s <- get sum color;
    if negb (color =? ch) && (0 <? snd s)
    then put m (cell 3 w row col color) (f_div o (fst s) (f_nat o (snd s)))
    else Ok m) m.

(** Reads through the raw pointer (pixarray.rs:583-588) and of the own pixel. *)
Definition rd (w h row col ch : nat) (k : F -> prog F) : prog F :=
  if (row <? h) && (col <? w) && (ch <? 3) then Rd (cell 3 w row col ch) k else Crash.
Definition wr (w h row col ch : nat) (v : F) (k : prog F) : prog F :=
  if (row <? h) && (col <? w) && (ch <? 3) then Wr (cell 3 w row col ch) v k else Crash.

(** the estimate of the green value, ppg.rs:132-160 *)
Definition green_value (x n_1 n_2 e_1 e_2 s_1 s_2 w_1 w_2 : F) : F :=
  let add := f_add o in let sub := f_sub o in let mul := f_mul o in
  let two := f_nat o 2 in let three := f_nat o 3 in let four := f_nat o 4 in
  let n := add (mul (f_abs o (sub x n_2)) two) (f_abs o (sub n_1 s_1)) in
  let e := add (mul (f_abs o (sub x e_2)) two) (f_abs o (sub w_1 e_1)) in
  let w := add (mul (f_abs o (sub x w_2)) two) (f_abs o (sub w_1 e_1)) in
  let s := add (mul (f_abs o (sub x s_2)) two) (f_abs o (sub n_1 s_1)) in
  let min := n in
  let min := if f_lt o e min then e else min in
  let min := if f_lt o w min then w else min in
  let min := if f_lt o s min then s else min in
  if f_eq o min n then f_div o (sub (add (add (mul n_1 three) s_1) x) n_2) four
  else if f_eq o min e then f_div o (sub (add (add (mul e_1 three) w_1) x) e_2) four
  else if f_eq o min w then f_div o (sub (add (add (mul w_1 three) e_1) x) w_2) four
  else f_div o (sub (add (add (mul s_1 three) n_1) x) s_2) four.

(** interpolate_green, one pixel, ppg.rs:118-163 *)
Definition green_px (c : cfa) (w h row col : nat) (k : prog F) : prog F :=
  let ch := chan c row col in
  if ch =? 1 then k
  else
    rd w h row col ch (fun x =>
    rd w h (row - 1) col 1 (fun n_1 =>
    rd w h (row - 2) col ch (fun n_2 =>
    rd w h row (col + 1) 1 (fun e_1 =>
    rd w h row (col + 2) ch (fun e_2 =>
    rd w h (row + 1) col 1 (fun s_1 =>
    rd w h (row + 2) col ch (fun s_2 =>
    rd w h row (col - 1) 1 (fun w_1 =>
    rd w h row (col - 2) ch (fun w_2 =>
    wr w h row col 1 (green_value x n_1 n_2 e_1 e_2 s_1 s_2 w_1 w_2) k))))))))).

(** hue_transit, ppg.rs:253-259 *)
Definition hue_transit (l1 l2 l3 v1 v3 : F) : F :=
  let add := f_add o in let sub := f_sub o in let mul := f_mul o in
  if (f_lt o l1 l2 && f_lt o l2 l3) || (f_lt o l2 l1 && f_lt o l3 l2)
  then add v1 (f_div o (mul (sub v3 v1) (sub l2 l1)) (sub l3 l1))
  else add (f_div o (add v1 v3) (f_nat o 2)) (f_div o (sub (sub (mul l2 (f_nat o 2)) l1) l3) (f_nat o 4)).

(** interpolate_rb_at_green, one pixel, ppg.rs:177-199 *)
Definition rbg_px (c : cfa) (w h row col : nat) (k : prog F) : prog F :=
  if chan c row col =? 1 then
    let h_ch := chan c row (col + 1) in
    let v_ch := chan c (row + 1) col in
    rd w h row col 1 (fun g_x =>
    rd w h row (col - 1) 1 (fun g_w =>
    rd w h row (col + 1) 1 (fun g_e =>
    rd w h (row - 1) col 1 (fun g_n =>
    rd w h (row + 1) col 1 (fun g_s =>
    rd w h row (col - 1) h_ch (fun h_w =>
    rd w h row (col + 1) h_ch (fun h_e =>
    rd w h (row - 1) col v_ch (fun v_n =>
    rd w h (row + 1) col v_ch (fun v_s =>
    wr w h row col h_ch (hue_transit g_w g_x g_e h_w h_e)
    (wr w h row col v_ch (hue_transit g_n g_x g_s v_n v_s) k))))))))))
  else k.

(** the choice between the two diagonals, ppg.rs:237-246 *)
Definition diag_value (y_ne_1 y_sw_1 x_ne_2 x_center x_sw_2 g_ne_1 g_center g_sw_1
                       y_nw_1 y_se_1 x_nw_2 x_se_2 g_nw_1 g_se_1 : F) : F :=
  let add := f_add o in
  let ad a b := f_abs o (f_sub o a b) in
  let ne := add (add (add (add (ad y_ne_1 y_sw_1) (ad x_ne_2 x_center)) (ad x_center x_sw_2)) (ad g_ne_1 g_center)) (ad g_center g_sw_1) in
  let nw := add (add (add (add (ad y_nw_1 y_se_1) (ad x_nw_2 x_center)) (ad x_center x_se_2)) (ad g_nw_1 g_center)) (ad g_center g_se_1) in
  if f_lt o ne nw then hue_transit g_ne_1 g_center g_sw_1 y_ne_1 y_sw_1
  else hue_transit g_nw_1 g_center g_se_1 y_nw_1 y_se_1.

(** interpolate_rb_at_non_green, one pixel, ppg.rs:214-247 *)
Definition rbx_px (c : cfa) (w h row col : nat) (k : prog F) : prog F :=
  let x_ch := chan c row col in
  if x_ch =? 1 then k
  else
    let y_ch := if x_ch =? 0 then 2 else 0 in
    rd w h (row - 1) (col + 1) y_ch (fun y_ne_1 =>
    rd w h (row + 1) (col - 1) y_ch (fun y_sw_1 =>
    rd w h (row - 2) (col + 2) x_ch (fun x_ne_2 =>
    rd w h row col x_ch (fun x_center =>
    rd w h (row + 2) (col - 2) x_ch (fun x_sw_2 =>
    rd w h (row - 1) (col + 1) 1 (fun g_ne_1 =>
    rd w h row col 1 (fun g_center =>
    rd w h (row + 1) (col - 1) 1 (fun g_sw_1 =>
    rd w h (row - 1) (col - 1) y_ch (fun y_nw_1 =>
    rd w h (row + 1) (col + 1) y_ch (fun y_se_1 =>
    rd w h (row - 2) (col - 2) x_ch (fun x_nw_2 =>
    rd w h (row + 2) (col + 2) x_ch (fun x_se_2 =>
    rd w h (row - 1) (col - 1) 1 (fun g_nw_1 =>
    rd w h (row + 1) (col + 1) 1 (fun g_se_1 =>
    wr w h row col y_ch (diag_value y_ne_1 y_sw_1 x_ne_2 x_center x_sw_2 g_ne_1 g_center g_sw_1
                                    y_nw_1 y_se_1 x_nw_2 x_se_2 g_nw_1 g_se_1) k)))))))))))))).

(** The three passes share this loop: rows 3 .. h - 3 in parallel, columns
    3 .. w - 3 of each, ppg.rs:117-119, 176-178, 213-215. *)
Definition pass (px : nat -> nat -> prog F -> prog F) (w h : nat) (sched : list nat) (m : list F) : res (list F) :=
  do n <- usub h 6;
  par_loop sched (map (fun row =>
    if 6 <=? w then fold_right (px row) Done (seq 3 (w - 6)) else Crash) (seq 3 n)) m.

(** PPGDemosaic::demosaic, ppg.rs:37-62.  [None]: the border loop has not ended
    after [fuel] steps in some row.  [s0 .. s3] are the schedules. *)
Definition ppg (fuel : nat) (s0 s1 s2 s3 : list nat) (raw : list F) (dw : nat) (c : cfa) (roi : rect) : option (res (list F)) :=
  let w := r_w roi in
  let h := r_h roi in
  if negb (is_rgb c) then Some Panic else
  match cfa_shift c (r_x roi) (r_y roi) with
  | Ok cr =>
    match expand_bayer_rgb s0 raw dw c roi with
    | Ok m0 =>
      match border_plan fuel w h (seq 0 h) with
      | None => None
      | Some plan => Some (
          do m1 <- for_each plan (border_px cr w h) m0;
          do m2 <- pass (green_px cr w h) w h s1 m1;
          do m3 <- pass (rbg_px cr w h) w h s2 m2;
          pass (rbx_px cr w h) w h s3 m3)
      end
    | _ => Some Panic
    end
  | _ => Some Panic
  end.

(** ** Bilinear4Channel, bayer/bilinear.rs:31-113 *)

(** [out.at_mut(row, col)[ch(r2, c2)] = v]; [pm] is the plane lookup table *)
Definition plane (pm : list Z) (c : cfa) (row col : nat) : res nat :=
  do p <- get pm (chan c row col); Ok (Z.to_nat p).
Definition put4 (pm : list Z) (c : cfa) (w h : nat) (row col r2 c2 : nat) (v : res F) (m : list F) : res (list F) :=
  do v <- v;
  do p <- plane pm c r2 c2;
  do _ <- assert_ ((row * w + col <? w * h) && (p <? 4));
  put m (cell 4 w row col p) v.

(** interior pixels, bilinear.rs:103-109: the program of one row *)
Definition wr4 (pm : list Z) (c : cfa) (w row col r2 c2 : nat) (v : res F) (k : prog F) : prog F :=
  match v, plane pm c r2 c2 with
  | Ok v, Ok p => if (col <? w) && (p <? 4) then Wr (cell 4 w row col p) v k else Crash
  | _, _ => Crash
  end.

Definition mean2 (a b : res F) : res F :=
  do a <- a; do b <- b; Ok (f_div o (f_add o a b) (f_nat o 2)).
Definition mean4 (a b c d : res F) : res F :=
  do a <- a; do b <- b; do c <- c; do d <- d;
  Ok (f_div o (f_add o (f_add o (f_add o a b) c) d) (f_nat o 4)).

Definition bil_px (pm : list Z) (c : cfa) (p : pix2d F) (row col : nat) (k : prog F) : prog F :=
  let w := px_w p in
  let at_ := pix_at p in
  wr4 pm c w row col row col (at_ row col)
  (wr4 pm c w row col (row + 1) col (mean2 (at_ (row - 1) col) (at_ (row + 1) col))
  (wr4 pm c w row col row (col + 1) (mean2 (at_ row (col - 1)) (at_ row (col + 1)))
  (wr4 pm c w row col (row + 1) (col + 1)
    (mean4 (at_ (row - 1) (col - 1)) (at_ (row - 1) (col + 1)) (at_ (row + 1) (col - 1)) (at_ (row + 1) (col + 1))) k))).

Definition bil_row (pm : list Z) (c : cfa) (p : pix2d F) (row : nat) : prog F :=
  if (row =? 0) || (row =? px_h p - 1) then Done
  else fold_right (bil_px pm c p row) Done (seq 1 (px_w p - 2)).

Definition bilinear4 (sched : list nat) (p0 : pix2d F) (c0 : cfa) (colors : list nat) (roi : rect) : res (list F) :=
  do _ <- assert_ (length colors =? 4);
  do c <- cfa_shift c0 (r_x roi) (r_y roi);
  do pm <- plane_table colors;
  do p <- crop p0 (r_x roi) (r_y roi) (r_w roi) (r_h roi);
  let w := px_w p in
  let h := px_h p in
  let at_ := pix_at p in
  let pt := put4 pm c w h in
  let m := repeat (f_nat o 0) (4 * (w * h)) in
  (* corners, bilinear.rs:46-64 *)
  do m <- pt 0 0 0 0 (at_ 0 0) m;
  do m <- pt 0 0 0 1 (at_ 0 1) m;
  do m <- pt 0 0 1 0 (at_ 1 0) m;
  do m <- pt 0 0 1 1 (at_ 1 1) m;
  do w1 <- usub w 1;
  do w2 <- usub w 2;
  do m <- pt 0 w1 0 w1 (at_ 0 w1) m;
  do m <- pt 0 w1 0 w2 (at_ 0 w2) m;
  do m <- pt 0 w1 1 w1 (at_ 1 w1) m;
  do m <- pt 0 w1 1 w2 (at_ 1 w2) m;
  do h1 <- usub h 1;
  do h2 <- usub h 2;
  do m <- pt h1 0 h1 0 (at_ h1 0) m;
  do m <- pt h1 0 h1 1 (at_ h1 1) m;
  do m <- pt h1 0 h2 0 (at_ h2 0) m;
  do m <- pt h1 0 h2 1 (at_ h2 1) m;
  do m <- pt h1 w1 h1 w1 (at_ h1 w1) m;
  do m <- pt h1 w1 h1 w2 (at_ h1 w2) m;
  do m <- pt h1 w1 h2 w1 (at_ h2 w1) m;
  do m <- pt h1 w1 h2 w2 (at_ h2 w2) m;
  (* top and bottom line, bilinear.rs:67-78 *)
  do m <- for_each (seq 1 (w - 2)) (fun i m =>
    do m <- pt 0 i 0 i (at_ 0 i) m;
    do m <- pt 0 i 0 (i + 1) (mean2 (at_ 0 (i - 1)) (at_ 0 (i + 1))) m;
    do m <- pt 0 i 1 i (at_ 1 i) m;
    do m <- pt 0 i 1 (i + 1) (mean2 (at_ 1 (i - 1)) (at_ 1 (i + 1))) m;
    do m <- pt h1 i h1 i (at_ h1 i) m;
    do m <- pt h1 i h1 (i + 1) (mean2 (at_ h1 (i - 1)) (at_ h1 (i + 1))) m;
    do m <- pt h1 i h2 i (at_ h2 i) m;
    pt h1 i h2 (i + 1) (mean2 (at_ h2 (i - 1)) (at_ h2 (i + 1))) m) m;
  (* left and right column, bilinear.rs:80-91 *)
  do m <- for_each (seq 1 (h - 2)) (fun i m =>
    do m <- pt i 0 i 0 (at_ i 0) m;
    do m <- pt i 0 (i + 1) 0 (mean2 (at_ (i - 1) 0) (at_ (i + 1) 0)) m;
    do m <- pt i 0 i 1 (at_ i 1) m;
    do m <- pt i 0 (i + 1) 1 (mean2 (at_ (i - 1) 1) (at_ (i + 1) 1)) m;
    do m <- pt i w1 i w1 (at_ i w1) m;
    do m <- pt i w1 (i + 1) w1 (mean2 (at_ (i - 1) w1) (at_ (i + 1) w1)) m;
    do m <- pt i w1 i w2 (at_ i w2) m;
    pt i w1 (i + 1) w2 (mean2 (at_ (i - 1) w2) (at_ (i + 1) w2)) m) m;
  par_loop sched (map (bil_row pm c p) (seq 0 h)) m.

(** ** Superpixel3Channel and Superpixel4Channel, bayer/superpixel.rs *)

(** The common frame, superpixel.rs:36, 50-73 and 95, 105-131: pairs of rows of
    the window, pairs of columns inside the ROI, one output pixel each.  The
    ordered parallel map is a map. *)
Definition super_rows (f : list F -> res (list F)) (w : nat) (roi : rect) (s : list F) : res (list F) :=
  do r1 <- slice (firstn w s) (r_x roi) (r_x roi + r_w roi);
  do r2 <- slice (skipn w s) (r_x roi) (r_x roi + r_w roi);
  do a <- chunks_exact 2 r1;
  do b <- chunks_exact 2 r2;
  for_each (combine a b) (fun ab out => do p <- f (fst ab ++ snd ab); Ok (out ++ p)) [].

Definition superpixel (f : list F -> res (list F)) (p : pix2d F) (roi : rect) : res (list F) :=
  do window <- slice (px_data p) (r_y roi * px_w p) (r_y roi * px_w p + r_h roi * px_w p);
  do rows <- chunks_exact (px_w p * 2) window;
  for_each rows (fun s out => do l <- super_rows f (px_w p) roi s; Ok (out ++ l)) [].

(** [Rect::new(roi.p, Dim2::new(roi.width() & !1, roi.height() & !1))] *)
Definition roi_even (roi : rect) : rect := mk_rect (r_x roi) (r_y roi) (2 * (r_w roi / 2)) (2 * (r_h roi / 2)).

(** the match on the name, superpixel.rs:41-47, 62-67 *)
Definition rgb_of (name : list Z) (p : list F) : res (list F) :=
  do p0 <- get p 0; do p1 <- get p 1; do p2 <- get p 2; do p3 <- get p 3;
  let half a b := f_div o (f_add o a b) (f_nat o 2) in
  match name with
  | [82; 71; 71; 66]%Z => Ok [p0; half p1 p2; p3]
  | [66; 71; 71; 82]%Z => Ok [p3; half p1 p2; p0]
  | [71; 66; 82; 71]%Z => Ok [p2; half p0 p3; p1]
  | [71; 82; 66; 71]%Z => Ok [p1; half p0 p3; p2]
  | _ => Panic
  end.
Definition is_quad (name : list Z) : bool :=
  match name with
  | [82; 71; 71; 66]%Z | [66; 71; 71; 82]%Z | [71; 66; 82; 71]%Z | [71; 82; 66; 71]%Z => true
  | _ => false
  end.

Definition superpixel3 (p : pix2d F) (c0 : cfa) (ncolors : nat) (roi : rect) : res (list F) :=
  do _ <- assert_ (ncolors =? 3);
  do _ <- assert_ (is_rgb c0);
  let roi := roi_even roi in
  do c <- cfa_shift c0 (r_x roi) (r_y roi);
  do _ <- assert_ (is_quad (c_name c));      (* unreachable!() *)
  superpixel (rgb_of (c_name c)) p roi.

(** superpixel.rs:102, 116-123 *)
Definition pick4 (colormap : list nat) (p : list F) : res (list F) :=
  for_each colormap (fun i out => do v <- get p i; Ok (out ++ [v])) [].

Definition superpixel4 (p : pix2d F) (c0 : cfa) (colors : list Z) (roi : rect) : res (list F) :=
  do _ <- assert_ (length colors =? 4);
  let roi := roi_even roi in
  do c <- cfa_shift c0 (r_x roi) (r_y roi);
  do colormap <- for_each colors (fun col l => do i <- cfa_index c col; Ok (l ++ [i])) [];
  superpixel (pick4 colormap) p roi.

(** ** XTransBilinearDemosaic, xtrans/bilinear.rs:72-102 *)

Definition xt_px (p : pix2d F) (c : cfa) (roi : rect) (y x : nat) : res (list F) :=
  let w := r_w roi in
  let h := r_h roi in
  let rows := seq (y - 2) (S (Nat.min (y + 2) (h - 1)) - (y - 2)) in
  let cols := seq (x - 2) (S (Nat.min (x + 2) (w - 1)) - (x - 2)) in
  do sum <- for_each (list_prod rows cols) (fun rc sum =>
    let '(row, col) := rc in
    let ch := chan c row col in
    do s <- get sum ch;
    do v <- pix_at p (r_y roi + row) (r_x roi + col);
    put sum ch (f_add o (fst s) v, S (snd s))) (repeat (f_nat o 0, 0) 3);
  Ok (map (fun s => if 0 <? snd s then f_div o (fst s) (f_nat o (snd s)) else f_nat o 0) sum).

(** Each task writes only its own row and reads only immutable input, so the
    rows are computed one after the other. *)
Definition xtrans_bilinear (p : pix2d F) (c0 : cfa) (roi : rect) : res (list F) :=
  do _ <- assert_ (is_rgb c0);
  do c <- cfa_shift c0 (r_x roi) (r_y roi);
  do _ <- assert_ (0 <? r_w roi);
  for_each (list_prod (seq 0 (r_h roi)) (seq 0 (r_w roi))) (fun yx out =>
    do px <- xt_px p c roi (fst yx) (snd yx); Ok (out ++ px)) [].

End Demosaic.
