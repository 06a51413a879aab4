(** C48: a CRX plane coded as wavelet bands is reconstructed sample for sample. *)
From Coq Require Import List ZArith Lia.
From Verif Require Import Base Idwt IdwtSpec IdwtTop IdwtBelow.
Import ListNotations.
Open Scope Z_scope.

(** However many levels, whatever the neighbours on the left and right, the
    lines that come out are those of the plane whose bands go in. *)
Theorem C48_plane_roundtrip :
  forall (B : Type) (next : B -> res (list Z * B)) left right lvs w h (P : plane) C s,
  lvs <> [] ->
  fits left right lvs w h ->
  (forall i j, Z.abs (P i j) <= C) ->
  (C + 1) * 4 ^ Z.of_nat (length lvs) <= 2 ^ 28 ->
  coded next left right lvs w h P s ->
  plane_decode B next (mk_nbrs false false left right) h s = Ok (image P w h).
Proof. exact plane_roundtrip. Qed.
Print Assumptions C48_plane_roundtrip.

(** A tile with another tile below it is never decoded to its last line. *)
Theorem C48_tile_above_another_fails :
  forall (B : Type) (next : B -> res (list Z * B)) top left right h w b1 b2 b3 below rows,
  (3 <= h)%nat ->
  plane_decode B next (mk_nbrs top true left right) h (Lev (wt_new h w) b1 b2 b3 below) <> Ok rows.
Proof. exact below_never. Qed.
Print Assumptions C48_tile_above_another_fails.

(** One level, odd height, even width, a neighbour on the right; lists of
    lines as sources. *)
Example C48_example :
  let next := fun b : list (list Z) => match b with [] => Err | l :: b => Ok (l, b) end in
  let P := fun r c => (r * r * 5 + c * 7) mod 64 in
  plane_decode (list (list Z)) next (mk_nbrs false false false true) 5
    (Lev (wt_new 5 6)
       [[0; 0; 0; 8]; [0; -8; 0; -20]; [0; -16; 0; -16]]
       [[-5; -5; -5; -1]; [27; 19; -45; -29]]
       [[0; 0; 0; 16]; [0; -32; 0; 32]]
       (LL [[-2; 12; 26; 42]; [26; 38; 36; 47]; [30; 40; 22; 36]]))
  = Ok [[0; 7; 14; 21; 28; 35]; [5; 12; 19; 26; 33; 40]; [20; 27; 34; 41; 48; 55];
        [45; 52; 59; 2; 9; 16]; [16; 23; 30; 37; 44; 51]].
Proof.
  intros next P.
  apply (C48_plane_roundtrip _ next false true [(4, 4)]%nat 6 5 P 64).
  - discriminate.
  - cbn. repeat split; lia.
  - intros i j. unfold P. pose proof (Z.mod_pos_bound (i * i * 5 + j * 7) 64 ltac:(lia)). lia.
  - cbn. lia.
  - cbn -[wt_new]. repeat split; repeat (eexists; split; [reflexivity|]); exact I.
Qed.
