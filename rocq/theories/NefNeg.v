(** NEF images that are never decoded. *)
From Coq Require Import List ZArith Lia Bool.
From Coq Require Import ZifyBool ZifyNat.
From Verif Require Import Base BaseLemmas Pumps LjpegDec LjpegDecode Bits Crx PefSpec Pef PefNeg NefSpec NefHead.
Import ListNotations.
Open Scope Z_scope.

Section Odd.
  Variables w h sel split bits : nat.
  Variable lut : list (Z * Z * Z).
  Let total := (w * h)%nat.

  Definition ninner (t : hufft) (row col : nat) (st : Z * Z * Z * wpump * list Z) : res (Z * Z * Z * wpump * list Z) :=
    let '(l1, l2, random, pump, out) := st in
      do (l1, l2, pump) <- (if (0 <? col)%nat then
          do (d1, pump) <- huff_decode msb_ops t pump;
          do l1 <- i32 (l1 + d1);
          do (d2, pump) <- huff_decode msb_ops t pump;
          do l2 <- i32 (l2 + d2);
          Ok (l1, l2, pump)
        else Ok (l1, l2, pump));
      do c1 <- Pef.clampbits l1 bits;
      do (v1, random) <- dither lut c1 random;
      do out <- put out (row * w + col + 0) v1;
      do c2 <- Pef.clampbits l2 bits;
      do (v2, random) <- dither lut c2 random;
      do out <- put out (row * w + col + 1) v2;
      Ok (l1, l2, random, pump, out).
  Lemma dither_len (v r : Z) x : dither lut v r = Ok x -> (0 < length lut)%nat.
  Proof. unfold dither. intros H. apply bind_ok in H as (e & H & _). apply (get_inv _ _ _ (0, 0, 0)) in H. lia. Qed.
  Lemma ninner_ok t row col st : length (snd st) = total -> oks (fun st' => length (snd st') = total /\ (row * w + col + 1 < total)%nat /\ (0 < length lut)%nat) (ninner t row col st).
  Proof.
    destruct st as [[[[l1 l2] rn] pm] o]. intros L. cbn [snd] in L. unfold ninner. do 7 ostep. apply oks_ok. cbn [snd].
    apply put_len in E2 as [A1 A2]. apply put_len in E5 as [B1 B2]. apply dither_len in E1. lia.
  Qed.
  Definition none_row (row : nat) (st : hufft * list Z * list Z * Z * wpump * list Z) : res (hufft * list Z * list Z * Z * wpump * list Z) :=
    let '(t, up1, up2, random, pump, out) := st in
    do t <- (if (0 <? split)%nat && (row =? split)%nat then create_hufftable (sel + 1) else Ok t);
    do (d1, pump) <- huff_decode msb_ops t pump;
    do u1 <- get up1 (row mod 2);
    do l1 <- i32 (u1 + d1);
    do up1 <- put up1 (row mod 2) l1;
    do (d2, pump) <- huff_decode msb_ops t pump;
    do u2 <- get up2 (row mod 2);
    do l2 <- i32 (u2 + d2);
    do up2 <- put up2 (row mod 2) l2;
    do (_, _, random, pump, out) <- for_each (step_range 0 w 2) (ninner t row) (l1, l2, random, pump, out);
    Ok (t, up1, up2, random, pump, out).
  Lemma none_row_ok row st : length (snd st) = total ->
    oks (fun st' => length (snd st') = total /\ forall col, In col (step_range 0 w 2) -> (row * w + col + 1 < total)%nat /\ (0 < length lut)%nat) (none_row row st).
  Proof.
    destruct st as [[[[[t u1] u2] rn] pm] o]. intros L. cbn [snd] in L. unfold none_row. ostep. do 9 ostep. apply oks_ok. cbn [snd].
    match goal with H : for_each (step_range 0 w 2) _ _ = _ |- _ => rename H into EF end.
    match type of EF with for_each _ (ninner ?T _) ?S0 = Ok ?S1 =>
      assert (ST : forall a s s', In a (step_range 0 w 2) -> length (snd s) = total -> ninner T row a s = Ok s' -> length (snd s') = total)
        by (intros a s s' _ HL EI; exact (proj1 (ninner_ok T row a s HL s' EI)));
      split; [apply (for_each_ok_inv (fun s => length (snd s) = total) (ninner T row) (step_range 0 w 2) S0 S1 ST); [exact L|exact EF]|];
      intros col Hc; destruct (for_each_ok_in (fun s => length (snd s) = total) (ninner T row) (step_range 0 w 2) S0 S1 col ST L EF Hc) as (s1 & s2 & HL & EI);
      destruct (ninner_ok T row col s1 HL s2 EI) as (_ & X & Y); auto end.
  Qed.
  Lemma rows_need src up1 up2 out : (0 < h)%nat -> nef_rows sel up1 up2 lut split bits src w h = Ok out ->
    forall col, In col (step_range 0 w 2) -> ((h - 1) * w + col + 1 < total)%nat /\ (0 < length lut)%nat.
  Proof.
    intros Hh H. unfold nef_rows in H. apply bind_ok in H as (t & Et & H). apply bind_ok in H as ([rn pm] & Ep & H).
    apply bind_ok in H as (st & E & _).
    change (for_each (seq 0 h) none_row (t, up1, up2, rn, pm, repeat 0 (w * h)) = Ok st) in E.
    destruct (for_each_ok_in (fun s => length (snd s) = total) none_row (seq 0 h) (t, up1, up2, rn, pm, repeat 0 (w * h)) st (h - 1)%nat (fun a s s' _ HL E => proj1 (none_row_ok a s HL s' E)) ltac:(cbn [snd]; apply repeat_length) E) as (s1 & s2 & HL & E1).
    { apply in_seq. lia. }
    exact (proj2 (none_row_ok (h - 1) s1 HL s2 E1)).
  Qed.
End Odd.

Lemma step_range_last w : (w mod 2 = 1)%nat -> In (w - 1)%nat (step_range 0 w 2).
Proof.
  intros Ho. pose proof (Nat.div_mod w 2 ltac:(lia)) as DM. rewrite Ho in DM. unfold step_range. apply in_map_iff. exists (w / 2)%nat. split; [lia|].
  apply in_seq. split; [lia|]. replace (w - 0 + (2 - 1))%nat with (0 + (w / 2 + 1) * 2)%nat by lia. rewrite Nat.div_add by lia. change (0 / 2)%nat with 0%nat. lia.
Qed.
Lemma step_range_first w : (0 < w)%nat -> In 0%nat (step_range 0 w 2).
Proof.
  intros H. unfold step_range. apply in_map_iff. exists 0%nat. split; [lia|]. apply in_seq. split; [lia|].
  enough (1 <= (w - 0 + (2 - 1)) / 2)%nat by lia. apply Nat.div_le_lower_bound; lia.
Qed.
Theorem nef_odd_width src meta big w h bps out : (w mod 2 = 1)%nat -> (0 < h)%nat -> nef_decode src meta big w h bps <> Ok out.
Proof.
  intros Ho Hh H. unfold nef_decode in H. repeat (apply bind_ok in H as (? & _ & H)). repeat match type of H with (let '(_, _) := ?x in _) = _ => destruct x end.
  apply bind_ok in H as (lut & _ & H). pose proof (rows_need w h _ _ _ _ _ _ _ _ Hh H (w - 1)%nat (step_range_last w Ho)) as [X _].
  assert ((h - 1) * w + w = w * h)%nat; [|assert (0 < w)%nat by (destruct w; cbn in Ho; lia); lia]. replace h with (S (h - 1)) at 2 by lia. lia.
Qed.
(** a table of no points: a file that should have a curve and has none *)
Theorem nef_no_curve src meta big w h bps out : (0 < w)%nat -> (0 < h)%nat -> head_ok big meta bps -> tabulated big meta bps = true -> head_csize big meta = 0%nat ->
  nef_decode src meta big w h bps <> Ok out.
Proof.
  intros Hw Hh HO HT HC H. pose proof HO as (HM & HL & _). unfold nef_decode in H.
  rewrite (get_ok meta 0 0), (get_ok meta 1 0) in H by lia. cbn [bind] in H. fold (version0 meta) (version1 meta) in H.
  assert (EP : (if (version0 meta =? 73) || (version1 meta =? 88) then do _ <- check (2110 <=? length meta - 2)%nat; Ok 2112%nat else Ok 2%nat) = Ok (head_pos meta)).
  { unfold head_pos in *. destruct ((version0 meta =? 73) || (version1 meta =? 88)); [|reflexivity]. rewrite (proj2 (Nat.leb_le _ _)) by lia. reflexivity. }
  rewrite EP in H. cbn [bind] in H. cbv zeta in H. rewrite !rd16_ok in H by lia. cbn [bind] in H. rewrite (curve_ok big meta bps HO) in H. cbn [bind] in H.
  assert (EC : head_curve big meta bps = []).
  { unfold head_curve. rewrite HT. unfold tabulated in HT. destruct (interpolated big meta bps); [discriminate|]. rewrite HC. reflexivity. }
  rewrite EC in H. cbn [lut_new length seq for_each repeat bind] in H.
  pose proof (rows_need w h _ _ _ _ _ _ _ _ Hh H 0%nat (step_range_first w Hw)) as [_ X]. cbn in X. lia.
Qed.
