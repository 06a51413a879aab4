(** Property C45: colour conversion.  Statements about values use exact
    arithmetic; those about the choice of the matrix hold for any arithmetic. *)
From Coq Require Import List ZArith Lia Bool QArith Qcanon.
From Verif Require Import Base Demosaic DemosaicSpec Color ColorSpec ColorProofs ColorTop.
Import ListNotations.
Open Scope nat_scope.

(** For a matrix with independent columns the pseudo inverse is a left inverse. *)
Theorem C45_inverse : forall n m, independent qops n m -> forall i l, i < 3 -> l < 3 ->
  qsum n (fun j => (nth j (nth i (pseudo_inverse qops n m) []) (f_nat qops 0) * nth l (nth j m []) (f_nat qops 0))%Qc) = unit_entry i l.
Proof. exact pinv_left. Qed.
Print Assumptions C45_inverse.

Example C45_example : independent qops 4 (map (map dec5) [[200000; 0; 0]; [0; 100000; 100000]; [0; 0; 300000]; [0; 0; 0]]%Z).
Proof.
  intros x H. pose proof (H 0 ltac:(lia)) as H0. pose proof (H 1 ltac:(lia)) as H1. pose proof (H 2 ltac:(lia)) as H2.
  unfold response, mij in *. cbn [nth map] in *. rewrite !q_nat0 in *. cbn [f_add f_mul qops] in *.
  assert (D0 : dec5 0 = 0%Qc) by now apply Qc_is_canon. assert (D1 : dec5 100000 = 1%Qc) by now apply Qc_is_canon.
  rewrite ?D0, ?D1 in *.
  assert (E0 : x 0 = 0%Qc). { destruct (Qcmult_integral (dec5 200000) (x 0)) as [E|E]; [|discriminate|exact E]. rewrite <- H0. ring. }
  assert (E2 : x 2 = 0%Qc). { destruct (Qcmult_integral (dec5 300000) (x 2)) as [E|E]; [|discriminate|exact E]. rewrite <- H2. ring. }
  split; [exact E0|]. split; [|exact E2]. rewrite E2 in H1. rewrite <- H1. ring.
Qed.

(** Rows are scaled to sum one; rows of sum zero become zero. *)
Theorem C45_normalize : forall mm a i, i < mm ->
  let s := (mij qops a i 0 + mij qops a i 1 + mij qops a i 2)%Qc in
  let r := mij qops (normalize qops 3 mm a) i in
  (s <> 0%Qc -> (forall j, j < 3 -> r j = (mij qops a i j / s)%Qc) /\ (r 0%nat + r 1%nat + r 2%nat = 1)%Qc) /\
  (s = 0%Qc -> forall j, j < 3 -> r j = 0%Qc).
Proof. exact normalize_ok. Qed.
Print Assumptions C45_normalize.

(** The camera response to a colour within range is turned back into the colour,
    whatever the square root. *)
Theorem C45_roundtrip : forall fsqrt nch cam wb pix (x : nat -> Qc), independent qops 4 cam -> nch = 3 \/ nch = 4 ->
  (forall k, nch <= k < 4 -> response qops cam k x = 0%Qc) ->
  (forall k, k < nch -> (nth k pix 0 * nth k wb 0)%Qc = response qops cam k x) ->
  (forall i, i < 3 -> (0 <= x i <= 1)%Qc) ->
  map_pixel qops fsqrt qmax nch (pseudo_inverse qops 4 cam) wb pix = [x 0; x 1; x 2].
Proof. exact pixel_roundtrip. Qed.
Print Assumptions C45_roundtrip.

(** A pixel whose white balanced channels agree becomes grey of the same value,
    for any camera matrix. *)
Theorem C45_neutral : forall fsqrt nch srgb x2c wb pix g, independent qops 4 (cam_matrix qops srgb x2c) -> nch = 3 \/ nch = 4 ->
  (forall i, i < nch -> (primary x2c srgb i 0 + primary x2c srgb i 1 + primary x2c srgb i 2)%Qc <> 0%Qc) ->
  (forall i, nch <= i < 4 -> (primary x2c srgb i 0 + primary x2c srgb i 1 + primary x2c srgb i 2)%Qc = 0%Qc) ->
  (forall k, k < nch -> (nth k pix 0 * nth k wb 0)%Qc = g) -> (0 <= g <= 1)%Qc ->
  map_to_rgb qops fsqrt qmax srgb nch wb x2c [pix] = [[g; g; g]].
Proof. exact pixel_neutral'. Qed.
Print Assumptions C45_neutral.

(** Every pixel is converted on its own. *)
Theorem C45_pointwise : forall F (o : fops F) fsqrt fmax srgb nch wb x2c src,
  map_to_rgb o fsqrt fmax srgb nch wb x2c src = concat (map (fun p => map_to_rgb o fsqrt fmax srgb nch wb x2c [p]) src).
Proof. intros F. exact (@map_to_rgb_pointwise F). Qed.
Print Assumptions C45_pointwise.

(** Converted samples are never negative, and in range colours are kept. *)
Theorem C45_clip_nonneg : forall fsqrt p, (forall x, 0 <= fsqrt x)%Qc -> (0 < fsqrt (f_nat qops (length p)))%Qc ->
  length (clip_norm_avg qops fsqrt qmax p) = length p /\
  forall x, In x (clip_norm_avg qops fsqrt qmax p) -> (0 <= x)%Qc.
Proof. intros fsqrt p H1 H2. exact (conj (clip_length fsqrt p) (clip_nonneg fsqrt p H1 H2)). Qed.
Print Assumptions C45_clip_nonneg.

Theorem C45_clip_id : forall fsqrt p, (forall x, In x p -> 0 <= x <= 1)%Qc -> clip_norm_avg qops fsqrt qmax p = p.
Proof. exact clip_id. Qed.
Print Assumptions C45_clip_id.

(** The clip does not bring samples below one: a grey of ten becomes 5.5. *)
Theorem C45_clip_refuted : forall fsqrt, fsqrt (dec5 30000000) = (dec5 1000000 * fsqrt (dec5 300000))%Qc -> fsqrt (dec5 300000) <> 0%Qc ->
  clip_norm_avg qops fsqrt qmax [dec5 1000000; dec5 1000000; dec5 1000000] = [dec5 550000; dec5 550000; dec5 550000].
Proof. exact clip_bright. Qed.
Print Assumptions C45_clip_refuted.

(** ** The matrix used *)

(** A D65 matrix is used as it is, missing rows are zero; other sizes than up to
    four rows of three panic. *)
Theorem C45_matrix_d65 : forall F (o : fops F) tri brad bradi find m, find D65 = Some m ->
  xyz2cam_of o tri brad bradi find =
  if (length m mod 3 =? 0) && (length m / 3 <=? 4)
  then Ok (mat 4 3 (fun i j => if i <? length m / 3 then nth (i * 3 + j) m (f_nat o 0) else f_nat o 0)) else Panic.
Proof. intros F. exact (@xyz2cam_d65 F). Qed.
Print Assumptions C45_matrix_d65.

(** Else the first available of A, B, C, D50, D55, D75, Daylight, Flash, adapted. *)
Theorem C45_matrix_other : forall F (o : fops F) tri brad bradi find illu m l1 l2,
  [D65; IllA; IllB; IllC; D50; D55; D75; Daylight; Flash] = l1 ++ illu :: l2 -> l1 <> [] ->
  (forall j, In j l1 -> find j = None) -> find illu = Some m ->
  (length m <> 9 -> xyz2cam_of o tri brad bradi find = Panic) /\
  (length m = 9 -> exists a, adaption_matrix o tri brad bradi illu D65 = Ok a /\
     xyz2cam_of o tri brad bradi find = Ok (mat 4 3 (fun i j => if i <? 3
        then mij o (multiply o 3 3 3 (mat 3 3 (fun i j => nth (i * 3 + j) m (f_nat o 0))) a) i j else f_nat o 0))).
Proof. intros F. exact (@xyz2cam_other F). Qed.
Print Assumptions C45_matrix_other.

Example C45_other_example :
  [D65; IllA; IllB; IllC; D50; D55; D75; Daylight; Flash] = [D65; IllA; IllB; IllC] ++ D50 :: [D55; D75; Daylight; Flash].
Proof. reflexivity. Qed.

Theorem C45_matrix_none : forall F (o : fops F) tri brad bradi find,
  (forall j, In j [D65; IllA; IllB; IllC; D50; D55; D75; Daylight; Flash] -> find j = None) ->
  xyz2cam_of o tri brad bradi find = Ok (mat 4 3 (fun i j => if i =? j then f_nat o 1 else f_nat o 0)).
Proof. intros F. exact (@xyz2cam_none F). Qed.
Print Assumptions C45_matrix_none.

(** The adaption takes the white of the source to the white of the destination. *)
Theorem C45_bradford_white : forall src dst, has_white src = true -> has_white dst = true ->
  exists a, adaption_matrix qops white bradford bradford_inv src dst = Ok a /\
    forall i, i < 3 -> close (dec7 10) (nth i (multiply_row1 qops a (white src)) (f_nat qops 0)) (nth i (white dst) (f_nat qops 0)).
Proof. exact bradford_white. Qed.
Print Assumptions C45_bradford_white.

(** But the adapted matrix does not give the destination white the response of
    the source white: the factor is the inverse of the one needed. *)
Theorem C45_bradford_direction_refuted : ~ (forall src m a, has_white src = true ->
  adapt_bradford qops white bradford bradford_inv src D65 m = Ok a ->
  forall i, i < 3 -> close (dec5 1000) (nth i (multiply_row1 qops a (white D65)) (f_nat qops 0))
                                       (nth i (multiply_row1 qops m (white src)) (f_nat qops 0))).
Proof. exact bradford_direction. Qed.
Print Assumptions C45_bradford_direction_refuted.
