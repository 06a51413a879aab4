(** Properties C39 (PPG demosaicing), C40 (four channel bilinear), C41
    (superpixel) and C42 (X-Trans bilinear).  [o] is any arithmetic: the
    statements hold for 32 bit floats with their rounding. *)
From Coq Require Import List ZArith Lia Bool QArith Qcanon.
From Verif Require Import Base Tiles Geom GeomProofs Cfa CfaProofs Share Demosaic DemosaicSpec DemosaicProofs
  DemosaicPpg DemosaicTop DemosaicOther DemosaicBil.
Import ListNotations.
Open Scope nat_scope.

(** Every channel of every pixel is the published formula, for any interleaving
    of the row tasks of the four parallel loops. *)
Theorem C39_ppg : forall F (o : fops F) fuel s0 s1 s2 s3 raw dw dh name c0 roi,
  In name bayer_names -> cfa_new name = Ok c0 ->
  length raw = dw * dh -> r_x roi + r_w roi <= dw -> r_y roi + r_h roi <= dh -> 0 < r_w roi ->
  r_h roi = 6 \/ (6 < r_h roi /\ 6 <= r_w roi) -> r_w roi < fuel ->
  exists out, ppg o fuel s0 s1 s2 s3 raw dw c0 roi = Some (Ok out) /\ length out = 3 * (r_w roi * r_h roi) /\
    forall r q ch, r < r_h roi -> q < r_w roi -> ch < 3 ->
      nth (3 * (r * r_w roi + q) + ch) out (f_nat o 0) =
      ppg_at o (r_w roi) (r_h roi)
        (fun r q => nth ((r_y roi + r) * dw + (r_x roi + q)) raw (f_nat o 0))
        (fun r q => sensor_color name (r_y roi + r) (r_x roi + q)) r q ch.
Proof. intros F. exact (@ppg_spec F). Qed.
Print Assumptions C39_ppg.

(** The measured colour of a pixel is never changed. *)
Theorem C39_keeps_samples : forall F (o : fops F) fuel s0 s1 s2 s3 raw dw dh name c0 roi,
  In name bayer_names -> cfa_new name = Ok c0 ->
  length raw = dw * dh -> r_x roi + r_w roi <= dw -> r_y roi + r_h roi <= dh -> 0 < r_w roi ->
  r_h roi = 6 \/ (6 < r_h roi /\ 6 <= r_w roi) -> r_w roi < fuel ->
  exists out, ppg o fuel s0 s1 s2 s3 raw dw c0 roi = Some (Ok out) /\
    forall r q, r < r_h roi -> q < r_w roi ->
      nth (3 * (r * r_w roi + q) + sensor_color name (r_y roi + r) (r_x roi + q)) out (f_nat o 0) =
      nth ((r_y roi + r) * dw + (r_x roi + q)) raw (f_nat o 0).
Proof. intros F. exact (@ppg_keeps F). Qed.
Print Assumptions C39_keeps_samples.

(** Schedules, samples outside the region, and the position of the region (up to
    parity) do not matter. *)
Theorem C39_local : forall F (o : fops F) fuel s0 s1 s2 s3 raw dw dh roi fuel' s0' s1' s2' s3' raw' dw' dh' roi' name c0,
  In name bayer_names -> cfa_new name = Ok c0 ->
  length raw = dw * dh -> r_x roi + r_w roi <= dw -> r_y roi + r_h roi <= dh ->
  length raw' = dw' * dh' -> r_x roi' + r_w roi' <= dw' -> r_y roi' + r_h roi' <= dh' ->
  r_w roi' = r_w roi -> r_h roi' = r_h roi ->
  r_x roi' mod 2 = r_x roi mod 2 -> r_y roi' mod 2 = r_y roi mod 2 ->
  0 < r_w roi -> r_h roi = 6 \/ (6 < r_h roi /\ 6 <= r_w roi) -> r_w roi < fuel -> r_w roi < fuel' ->
  (forall r q, r < r_h roi -> q < r_w roi ->
     nth ((r_y roi + r) * dw + (r_x roi + q)) raw (f_nat o 0) = nth ((r_y roi' + r) * dw' + (r_x roi' + q)) raw' (f_nat o 0)) ->
  ppg o fuel s0 s1 s2 s3 raw dw c0 roi = ppg o fuel' s0' s1' s2' s3' raw' dw' c0 roi'.
Proof. intros F. exact (@ppg_same F). Qed.
Print Assumptions C39_local.

(** The other sizes: it never ends for width 4 or 5 and height above 6, and
    panics for the rest. *)
Theorem C39_sizes : forall F (o : fops F) fuel s0 s1 s2 s3 raw dw dh name c0 roi,
  In name bayer_names -> cfa_new name = Ok c0 ->
  length raw = dw * dh -> r_x roi + r_w roi <= dw -> r_y roi + r_h roi <= dh -> 0 < r_w roi ->
  (6 < r_h roi /\ (r_w roi = 4 \/ r_w roi = 5) -> ppg o fuel s0 s1 s2 s3 raw dw c0 roi = None) /\
  (r_w roi < fuel -> ~ (6 < r_h roi /\ (r_w roi = 4 \/ r_w roi = 5)) ->
   ~ (r_h roi = 6 \/ (6 < r_h roi /\ 6 <= r_w roi)) ->
   ppg o fuel s0 s1 s2 s3 raw dw c0 roi = Some Panic).
Proof. intros F. exact (@ppg_sizes F). Qed.
Print Assumptions C39_sizes.

(** With exact arithmetic a flat image stays flat. *)
Theorem C39_flat : forall fuel s0 s1 s2 s3 raw dw dh name c0 roi v,
  In name bayer_names -> cfa_new name = Ok c0 ->
  length raw = dw * dh -> r_x roi + r_w roi <= dw -> r_y roi + r_h roi <= dh -> 2 <= r_w roi ->
  r_h roi = 6 \/ (6 < r_h roi /\ 6 <= r_w roi) -> r_w roi < fuel ->
  (forall r q, r < r_h roi -> q < r_w roi -> nth ((r_y roi + r) * dw + (r_x roi + q)) raw (f_nat qops 0) = v) ->
  ppg qops fuel s0 s1 s2 s3 raw dw c0 roi = Some (Ok (repeat v (3 * (r_w roi * r_h roi)))).
Proof. exact ppg_flat. Qed.
Print Assumptions C39_flat.

(** A region of 8 x 8 at (1, 3) of a 10 x 12 GRBG sensor; the value of a pixel
    of a sloped image by the formula. *)
Example C39_example :
  (exists c0, cfa_new [71; 82; 66; 71]%Z = Ok c0) /\
  (exists raw : list Z, length raw = 10 * 12) /\ 1 + 8 <= 10 /\ 3 + 8 <= 12 /\
  map (fun ch => ppg_at zops 8 8 (fun r q => Z.of_nat (8 * r + 12 * q)) (fun r q => sensor_color [71; 82; 66; 71]%Z (3 + r) (1 + q)) 3 4 ch) [0; 1; 2]
  = [72; 72; 72]%Z.
Proof.
  split; [|split; [exists (repeat 0%Z 120); reflexivity|split; [lia|split; [lia|reflexivity]]]].
  destruct (cfa_new_ok [71; 82; 66; 71]%Z 2 2) as (c & E & _); [reflexivity|lia| |eauto].
  intros ch H. cbn in H. repeat (destruct H as [<-|H]; [eexists; reflexivity|]). destruct H.
Qed.

(** Every plane of every pixel is the mean of the nearest samples of its colour:
    one, two or four of them. *)
Theorem C40_bilinear : forall F (o : fops F) sched p0 name c0 colors roi,
  length name = 4 -> cfa_new name = Ok c0 -> NoDup (map letter_color name) ->
  length colors = 4 -> incl (map letter_color name) colors ->
  pix_ok p0 -> 2 <= r_w roi -> 2 <= r_h roi -> r_x roi + r_w roi <= px_w p0 -> r_y roi + r_h roi <= px_h p0 ->
  exists out, bilinear4 o sched p0 c0 colors roi = Ok out /\ length out = 4 * (r_w roi * r_h roi) /\
    forall r q k (drow dcol : bool), r < r_h roi -> q < r_w roi -> k < 4 ->
      pattern_color name 2 2 (r_y roi + (r + Nat.b2n drow)) (r_x roi + (q + Nat.b2n dcol)) = nth k colors 0 ->
      nth (4 * (r * r_w roi + q) + k) out (f_nat o 0) =
      bilinear_at o (r_w roi) (r_h roi) (fun r q => px (f_nat o 0) p0 (r_y roi + r) (r_x roi + q)) r q drow dcol.
Proof. intros F. exact (@bilinear4_ok F). Qed.
Print Assumptions C40_bilinear.

(** Regions of one row or one column are refused. *)
Theorem C40_small : forall F (o : fops F) sched p0 c0 colors roi out,
  r_w roi < 2 \/ r_h roi < 2 -> pix_ok p0 -> r_x roi + r_w roi <= px_w p0 -> r_y roi + r_h roi <= px_h p0 ->
  bilinear4 o sched p0 c0 colors roi <> Ok out.
Proof. intros F. exact (@bilinear4_small F). Qed.
Print Assumptions C40_small.

(** RGBE, planes in the order R, G, B, E; an inner and a corner pixel. *)
Example C40_example :
  (exists c0, cfa_new [82; 71; 66; 69]%Z = Ok c0) /\ NoDup (map letter_color [82; 71; 66; 69]%Z) /\
  incl (map letter_color [82; 71; 66; 69]%Z) [0; 1; 2; 3] /\
  pattern_color [82; 71; 66; 69]%Z 2 2 (1 + (2 + 1)) (0 + (1 + 0)) = 1 /\
  bilinear_at zops 4 4 (fun r q => Z.of_nat (10 * r + q)) 2 1 true false = 21%Z /\
  bilinear_at zops 4 4 (fun r q => Z.of_nat (10 * r + q)) 3 3 true true = 22%Z.
Proof.
  split.
  { destruct (cfa_new_ok [82; 71; 66; 69]%Z 2 2) as (c & E & _); [reflexivity|lia| |eauto].
    intros ch H. cbn in H. repeat (destruct H as [<-|H]; [eexists; reflexivity|]). destruct H. }
  split; [repeat constructor; cbn; intuition discriminate|].
  split; [intros a H; exact H|]. repeat split; reflexivity.
Qed.

(** Half size: each channel is the sample of that colour in the 2 x 2 block, or
    the mean of the two greens; an odd last row or column is dropped. *)
Theorem C41_superpixel3 : forall F (o : fops F) p name c0 roi, In name bayer_names -> cfa_new name = Ok c0 ->
  pix_ok p -> 0 < px_w p -> r_x roi + r_w roi <= px_w p -> r_y roi + r_h roi <= px_h p ->
  exists out, superpixel3 o p c0 3 roi = Ok out /\ length out = 3 * ((r_w roi / 2) * (r_h roi / 2)) /\
    forall i j ch, i < r_h roi / 2 -> j < r_w roi / 2 -> ch < 3 ->
      nth (3 * (i * (r_w roi / 2) + j) + ch) out (f_nat o 0) =
      small_mean o (block_samples (fun r q => px (f_nat o 0) p (r_y roi + r) (r_x roi + q))
                                  (fun r q => sensor_color name (r_y roi + r) (r_x roi + q)) i j ch).
Proof. intros F. exact (@superpixel3_ok F). Qed.
Print Assumptions C41_superpixel3.

(** A pattern of another size passes the check for red, green and blue, but is
    never demosaiced. *)
Theorem C41_superpixel3_other : forall F (o : fops F) p name c0 n roi out,
  cfa_new name = Ok c0 -> length name <> 4 -> superpixel3 o p c0 n roi <> Ok out.
Proof. intros F. exact (@superpixel3_other F). Qed.
Print Assumptions C41_superpixel3_other.

(** Four planes: the first sample of the block with the colour of the plane. *)
Theorem C41_superpixel4 : forall F (o : fops F) p name c0 colors roi, length name = 4 -> cfa_new name = Ok c0 ->
  length colors = 4 -> (forall ch, In ch colors -> In ch (map letter_color name)) ->
  pix_ok p -> 0 < px_w p -> r_x roi + r_w roi <= px_w p -> r_y roi + r_h roi <= px_h p ->
  exists out, superpixel4 p c0 (map Z.of_nat colors) roi = Ok out /\ length out = 4 * ((r_w roi / 2) * (r_h roi / 2)) /\
    forall i j k, i < r_h roi / 2 -> j < r_w roi / 2 -> k < 4 ->
      nth (4 * (i * (r_w roi / 2) + j) + k) out (f_nat o 0) =
      hd (f_nat o 0) (block_samples (fun r q => px (f_nat o 0) p (r_y roi + r) (r_x roi + q))
                          (fun r q => pattern_color name 2 2 (r_y roi + r) (r_x roi + q)) i j (nth k colors 0)).
Proof. intros F. exact (@superpixel4_ok F). Qed.
Print Assumptions C41_superpixel4.

(** A BGGR sensor, region at (1, 0): the blocks are GBRG. *)
Example C41_example :
  In [66; 71; 71; 82]%Z bayer_names /\
  map (fun ch => small_mean zops (block_samples (fun r q => Z.of_nat (10 * r + q)) (fun r q => sensor_color [66; 71; 71; 82]%Z (0 + r) (1 + q)) 1 2 ch)) [0; 1; 2]
  = [34; 29; 25]%Z /\
  pix_ok (mk_pix 3 2 [1; 2; 3; 4; 5; 6]%Z).
Proof. split; [cbn; tauto|]. split; reflexivity. Qed.

(** Each channel is the mean of all samples of that colour in the 5 x 5 square
    around the pixel, inside the region. *)
Theorem C42_xtrans : forall F (o : fops F) p name c0 pw ph roi, cfa_dims (length name) = Ok (pw, ph) ->
  cfa_new name = Ok c0 -> is_rgb c0 = true -> pix_ok p ->
  0 < r_w roi -> r_x roi + r_w roi <= px_w p -> r_y roi + r_h roi <= px_h p ->
  exists out, xtrans_bilinear o p c0 roi = Ok out /\ length out = 3 * (r_w roi * r_h roi) /\
    forall r q ch, r < r_h roi -> q < r_w roi -> ch < 3 ->
      nth (3 * (r * r_w roi + q) + ch) out (f_nat o 0) =
      square_mean o (r_w roi) (r_h roi) (fun r q => px (f_nat o 0) p (r_y roi + r) (r_x roi + q))
        (fun r q => pattern_color name pw ph (r_y roi + r) (r_x roi + q)) 2 r q ch.
Proof. intros F. exact (@xtrans_ok F). Qed.
Print Assumptions C42_xtrans.

(** The X-Trans layout; even the measured colour is averaged. *)
Example C42_example :
  cfa_dims (length xtrans_name) = Ok (6, 6) /\
  (exists c0, cfa_new xtrans_name = Ok c0 /\ is_rgb c0 = true) /\
  pattern_color xtrans_name 6 6 0 1 = 2 /\
  square_mean zops 6 6 (fun r q => Z.of_nat (10 * r + q)) (pattern_color xtrans_name 6 6) 2 0 1 2 = 11%Z.
Proof.
  split; [reflexivity|]. split.
  - destruct (cfa_new_ok xtrans_name 6 6) as (c & E & N & _); [reflexivity|lia| |].
    + intros ch H. cbn in H. repeat (destruct H as [<-|H]; [eexists; reflexivity|]). destruct H.
    + exists c. split; [exact E|]. unfold is_rgb. rewrite N. reflexivity.
  - split; reflexivity.
Qed.
