(** The three decoders of subsampled pictures. *)
From Coq Require Import List ZArith Lia Bool.
From Coq Require Import ZifyBool ZifyNat.
From Verif Require Import Base BaseLemmas Pumps PumpProofs LjpegDec LjpegAnySpec LjpegAny LjpegAnyTop Crx CrxLL LjpegYuv LjpegYuvSpec PefSpec Lanes OrfRows LjpegYuvProofs.
Import ListNotations.
Open Scope Z_scope.

Lemma base_ok d : (ld_pt d < sof_precision (ld_sof d))%nat -> base_prediction d = Ok (half_range d).
Proof. intros H. unfold base_prediction, half_range. rewrite usub_ok by lia. cbn [bind]. rewrite usub_ok by lia. reflexivity. Qed.

Ltac block_mem := repeat (first [left; reflexivity | left; lia | right]).

Section Two.
Context (bug : bool) (d : ljdec) (tabs : list (list nat * list nat)) (bw bh : nat) (q : planes).
Context (HU : usable bug d tabs) (HT3 : length tabs = 3%nat).
Context (Hbw : (1 <= bw)%nat) (Hbh : (1 <= bh)%nat) (HF : fits16 2 bw bh q).
Let w := (6 * bw)%nat.
Let h := (2 * bh)%nat.
Let bits := byte_bits (unstuff (ld_buffer d)).
Let dif := diff_no bug (block_tabs 2 tabs) bits.
Let inv := yinv bug d tabs 2 bw bh q.
Let pic := interleaved 2 q.
Context (HPT : (ld_pt d < sof_precision (ld_sof d))%nat).
Context (HBY : Forall is_byte (ld_buffer d)) (HFF : no_lone_ff (ld_buffer d)).
Context (t1 t2 t3 : hufft) (T1 : holds bug tabs t1 0) (T2 : holds bug tabs t2 1) (T3 : holds bug tabs t3 2).

Lemma pic_at r c k : (k < 2)%nat ->
  pic (2 * r + k) (6 * c + 0) = pl_y q (2 * r + k) (2 * c) /\ pic (2 * r + k) (6 * c + 1) = pl_cb q r c /\ pic (2 * r + k) (6 * c + 2) = pl_cr q r c /\
  pic (2 * r + k) (6 * c + 3) = pl_y q (2 * r + k) (2 * c + 1) /\ pic (2 * r + k) (6 * c + 4) = pl_cb q r c /\ pic (2 * r + k) (6 * c + 5) = pl_cr q r c.
Proof. clear. intros Hk. pose proof (inter_at 2 q (2 * r + k) c) as H. rewrite (div_v 2 ltac:(lia) r k Hk) in H. exact H. Qed.
Lemma write_420 r c out p : (r < bh)%nat -> (c < bw)%nat -> length out = (w * h)%nat ->
  (forall r' x, (r' < h)%nat -> (x < w)%nat -> done 2 r c r' x -> nth (r' * w + x) out 0 = pic r' x) ->
  jpeg_rep 32 p (after bug (block_tabs 2 tabs) bits (6 * (r * bw + S c))) ->
  exists out', set_yuv_420 out (2 * r) (6 * c) w (pl_y q (2 * r) (2 * c)) (pl_y q (2 * r) (2 * c + 1)) (pl_y q (2 * r + 1) (2 * c)) (pl_y q (2 * r + 1) (2 * c + 1)) (pl_cb q r c) (pl_cr q r c) = Ok out'
    /\ inv r (S c) (out', p).
Proof. clear - Hbw HF pic.
  intros Hr Hc L A R.
  pose proof (y_range 2 bw bh q HF (2 * r) (2 * c) ltac:(lia) ltac:(lia)) as Y1. pose proof (y_range 2 bw bh q HF (2 * r) (2 * c + 1) ltac:(lia) ltac:(lia)) as Y2.
  pose proof (y_range 2 bw bh q HF (2 * r + 1) (2 * c) ltac:(lia) ltac:(lia)) as Y3. pose proof (y_range 2 bw bh q HF (2 * r + 1) (2 * c + 1) ltac:(lia) ltac:(lia)) as Y4.
  pose proof (cb_range 2 bw bh q HF r c Hr Hc) as B. pose proof (cr_range 2 bw bh q HF r c Hr Hc) as C.
  rewrite yuv420_puts by lia. rewrite !wrap16 by lia.
  apply (block_puts bug d tabs 2 bw bh q ltac:(lia) Hbw r c); auto; fold w h.
  - destruct (pic_at r c 0 ltac:(lia)) as (P0 & P1 & P2 & P3 & P4 & P5). destruct (pic_at r c 1 ltac:(lia)) as (Q0 & Q1 & Q2 & Q3 & Q4 & Q5).
    rewrite !Nat.add_0_r in *.
    intros i z Hi. fold pic. repeat (destruct Hi as [Hi|Hi]; [apply pair_equal_spec in Hi as [<- <-]|]); try (destruct Hi; fail).
    + exists 0%nat, 0%nat. rewrite !Nat.add_0_r. repeat split; try lia; auto.
    + exists 0%nat, 1%nat. rewrite !Nat.add_0_r. repeat split; try lia; auto.
    + exists 0%nat, 2%nat. rewrite !Nat.add_0_r. repeat split; try lia; auto.
    + exists 0%nat, 3%nat. rewrite !Nat.add_0_r. repeat split; try lia; auto.
    + exists 0%nat, 4%nat. rewrite !Nat.add_0_r. repeat split; try lia; auto.
    + exists 0%nat, 5%nat. rewrite !Nat.add_0_r. repeat split; try lia; auto.
    + exists 1%nat, 0%nat. rewrite !Nat.add_0_r. repeat split; try lia; auto.
    + exists 1%nat, 1%nat. repeat split; try lia; auto.
    + exists 1%nat, 2%nat. repeat split; try lia; auto.
    + exists 1%nat, 3%nat. repeat split; try lia; auto.
    + exists 1%nat, 4%nat. repeat split; try lia; auto.
    + exists 1%nat, 5%nat. repeat split; try lia; auto.
  - intros k m Hk Hm. cbn [map fst]. clear - Hk Hm.
    assert (k = 0 \/ k = 1)%nat as [-> | ->] by lia; assert (m = 0 \/ m = 1 \/ m = 2 \/ m = 3 \/ m = 4 \/ m = 5)%nat as [->|[->|[->|[->|[->| ->]]]]] by lia; block_mem.
Qed.

(** the symbols of a block *)
Lemma turn_y r c k : (k < 4)%nat -> turn (block_tabs 2 tabs) (6 * (r * bw + c) + k) = tab tabs 0.
Proof. clear. intros H. rewrite (xt_turn tabs 2 ltac:(lia)) by lia. apply xt_y. lia. Qed.
Lemma turn_cb r c : turn (block_tabs 2 tabs) (6 * (r * bw + c) + 4) = tab tabs 1.
Proof. clear. rewrite (xt_turn tabs 2 ltac:(lia)) by lia. exact (xt_cb tabs 2). Qed.
Lemma turn_cr r c : turn (block_tabs 2 tabs) (6 * (r * bw + c) + 5) = tab tabs 2.
Proof. clear. rewrite (xt_turn tabs 2 ltac:(lia)) by lia. exact (xt_cr tabs 2). Qed.

Lemma step_y r c k prev p b : (k < 4)%nat -> jpeg_rep 32 p (after bug (block_tabs 2 tabs) bits (6 * (r * bw + c) + k)) ->
  b = prev + dif (6 * (r * bw + c) + k) -> 0 <= b < 65536 ->
  exists p', add_diff t1 prev p = Ok (b, p') /\ jpeg_rep 32 p' (after bug (block_tabs 2 tabs) bits (6 * (r * bw + c) + S k)).
Proof. clear - T1.
  intros Hk R E HB. destruct (add_any bug d tabs 2 t1 0 _ prev p b T1 (turn_y r c k Hk) R E HB) as (p' & E1 & R1). exists p'. split; auto.
  now rewrite <- plus_n_Sm.
Qed.

Lemma block_420_ok r c py pcb pcr out p : diffs_420 (half_range d) bw bh dif q -> (r < bh)%nat -> (c < bw)%nat ->
  py = (if (c =? 0)%nat then (if (r =? 0)%nat then half_range d else pl_y q (2 * r - 2) 0) else pl_y q (2 * r + 1) (2 * c - 1)) ->
  pcb = chroma_from (half_range d) (pl_cb q) r c -> pcr = chroma_from (half_range d) (pl_cr q) r c ->
  inv r c (out, p) -> exists st', block_420 t1 t2 t3 w (2 * r) (6 * c) py pcb pcr out p = Ok st' /\ inv r (S c) st'.
Proof. clear - Hbw HF T1 T2 T3 h pic.
  intros HD Hr Hc -> -> -> (L & A & R). cbn [fst snd] in *. destruct (HD r c Hr Hc) as (D0 & D1 & D2 & D3 & D4 & D5). clear HD.
  pose proof (y_range 2 bw bh q HF (2 * r) (2 * c) ltac:(lia) ltac:(lia)) as Y1. pose proof (y_range 2 bw bh q HF (2 * r) (2 * c + 1) ltac:(lia) ltac:(lia)) as Y2.
  pose proof (y_range 2 bw bh q HF (2 * r + 1) (2 * c) ltac:(lia) ltac:(lia)) as Y3. pose proof (y_range 2 bw bh q HF (2 * r + 1) (2 * c + 1) ltac:(lia) ltac:(lia)) as Y4.
  pose proof (cb_range 2 bw bh q HF r c Hr Hc) as B. pose proof (cr_range 2 bw bh q HF r c Hr Hc) as C.
  unfold block_420. change (2 * 2 + 2)%nat with 6%nat in R. fold bits in R.
  set (k := (6 * (r * bw + c))%nat) in *.
  assert (R0 : jpeg_rep 32 p (after bug (block_tabs 2 tabs) bits (k + 0))) by (now rewrite Nat.add_0_r). rewrite <- (Nat.add_0_r k) in D0.
  destruct (step_y r c 0 _ p _ ltac:(lia) R0 D0 Y1) as (p1 & E1 & R1). rewrite E1. cbn [bind].
  destruct (step_y r c 1 _ p1 _ ltac:(lia) R1 D1 Y2) as (p2 & E2 & R2). rewrite E2. cbn [bind].
  destruct (step_y r c 2 _ p2 _ ltac:(lia) R2 D2 Y3) as (p3 & E3 & R3). rewrite E3. cbn [bind].
  destruct (step_y r c 3 _ p3 _ ltac:(lia) R3 D3 Y4) as (p4 & E4 & R4). rewrite E4. cbn [bind].
  destruct (add_any bug d tabs 2 t2 1 _ _ p4 _ T2 (turn_cb r c) R4 D4 B) as (p5 & E5 & R5). rewrite E5. cbn [bind].
  rewrite plus_n_Sm in R5. destruct (add_any bug d tabs 2 t3 2 _ _ p5 _ T3 (turn_cr r c) R5 D5 C) as (p6 & E6 & R6). rewrite E6. cbn [bind].
  destruct (write_420 r c out p6 Hr Hc L A) as (out' & E7 & I7).
  { replace (6 * (r * bw + S c))%nat with (S (k + 5)) by (unfold k; lia). exact R6. }
  rewrite E7. cbn [bind]. eauto.
Qed.

Lemma block_sony_ok r c py py3 pcb pcr out p : diffs_sony (half_range d) bw bh dif q -> (r < bh)%nat -> (c < bw)%nat ->
  py = (if (c =? 0)%nat then (if (r =? 0)%nat then half_range d else pl_y q (2 * r - 2) 0) else pl_y q (2 * r) (2 * c - 1)) ->
  py3 = (if (c =? 0)%nat then None else Some (pl_y q (2 * r + 1) (2 * c - 1))) ->
  pcb = chroma_from (half_range d) (pl_cb q) r c -> pcr = chroma_from (half_range d) (pl_cr q) r c ->
  inv r c (out, p) -> exists st', block_sony t1 t2 t3 w (2 * r) (6 * c) py py3 pcb pcr out p = Ok st' /\ inv r (S c) st'.
Proof. clear - Hbw HF T1 T2 T3 h pic.
  intros HD Hr Hc -> Ep3 -> -> (L & A & R). cbn [fst snd] in *. destruct (HD r c Hr Hc) as (D0 & D1 & D2 & D3 & D4 & D5). clear HD.
  pose proof (y_range 2 bw bh q HF (2 * r) (2 * c) ltac:(lia) ltac:(lia)) as Y1. pose proof (y_range 2 bw bh q HF (2 * r) (2 * c + 1) ltac:(lia) ltac:(lia)) as Y2.
  pose proof (y_range 2 bw bh q HF (2 * r + 1) (2 * c) ltac:(lia) ltac:(lia)) as Y3. pose proof (y_range 2 bw bh q HF (2 * r + 1) (2 * c + 1) ltac:(lia) ltac:(lia)) as Y4.
  pose proof (cb_range 2 bw bh q HF r c Hr Hc) as B. pose proof (cr_range 2 bw bh q HF r c Hr Hc) as C.
  assert (E3' : (if (c =? 0)%nat then pl_y q (2 * r) 0 else pl_y q (2 * r + 1) (2 * c - 1)) = match py3 with None => pl_y q (2 * r) (2 * c) | Some z => z end).
  { subst py3. destruct (Nat.eqb_spec c 0); [subst c; now rewrite Nat.mul_0_r|reflexivity]. }
  rewrite E3' in D2. clear Ep3 E3'.
  unfold block_sony. change (2 * 2 + 2)%nat with 6%nat in R. fold bits in R.
  set (k := (6 * (r * bw + c))%nat) in *.
  assert (R0 : jpeg_rep 32 p (after bug (block_tabs 2 tabs) bits (k + 0))) by (now rewrite Nat.add_0_r). rewrite <- (Nat.add_0_r k) in D0.
  destruct (step_y r c 0 _ p _ ltac:(lia) R0 D0 Y1) as (p1 & E1 & R1). rewrite E1. cbn [bind].
  destruct (step_y r c 1 _ p1 _ ltac:(lia) R1 D1 Y2) as (p2 & E2 & R2). rewrite E2. cbn [bind].
  destruct (step_y r c 2 _ p2 _ ltac:(lia) R2 D2 Y3) as (p3 & E3 & R3). rewrite E3. cbn [bind].
  destruct (step_y r c 3 _ p3 _ ltac:(lia) R3 D3 Y4) as (p4 & E4 & R4). rewrite E4. cbn [bind].
  destruct (add_any bug d tabs 2 t2 1 _ _ p4 _ T2 (turn_cb r c) R4 D4 B) as (p5 & E5 & R5). rewrite E5. cbn [bind].
  rewrite plus_n_Sm in R5. destruct (add_any bug d tabs 2 t3 2 _ _ p5 _ T3 (turn_cr r c) R5 D5 C) as (p6 & E6 & R6). rewrite E6. cbn [bind].
  destruct (write_420 r c out p6 Hr Hc L A) as (out' & E7 & I7).
  { replace (6 * (r * bw + S c))%nat with (S (k + 5)) by (unfold k; lia). exact R6. }
  rewrite E7. cbn [bind]. eauto.
Qed.

Lemma inv_start out : length out = (w * h)%nat -> inv 0 0 (out, jpump_new (ld_buffer d)).
Proof. clear - HBY HFF.
  intros L. split; [exact L|]. split.
  - intros r' x _ _ D. unfold done in D. lia.
  - cbn [snd]. rewrite Nat.mul_0_l, Nat.add_0_r, Nat.mul_0_r. cbn [after]. now apply jpeg_new_rep.
Qed.

(** prediction of a block from the cells decoded so far *)
Lemma read_cell r c out p r' c' k i z : inv r c (out, p) -> (r' < h)%nat -> (c' < bw)%nat -> (k < 6)%nat -> done 2 r c r' (6 * c' + k) ->
  i = (r' * w + (6 * c' + k))%nat -> z = pic r' (6 * c' + k) -> get out i = Ok z.
Proof. clear. intros I H1 H2 H3 H4 H5 ->. exact (cell bug d tabs 2 bw bh q r c (out, p) r' c' k i I H1 H2 H3 H4 H5). Qed.
Lemma chroma_left r c p : (c <> 0)%nat -> chroma_from (half_range d) p r c = p r (c - 1)%nat.
Proof. clear. intros H. unfold chroma_from. now replace (c =? 0)%nat with false by lia. Qed.
Lemma chroma_above r p : (r <> 0)%nat -> chroma_from (half_range d) p r 0 = p (r - 1)%nat 0%nat.
Proof. clear. intros H. unfold chroma_from. now replace (r =? 0)%nat with false by lia. Qed.

Lemma step_420 r c out p : diffs_420 (half_range d) bw bh dif q -> (r < bh)%nat -> (c < bw)%nat -> (r = 0 -> c <> 0)%nat -> inv r c (out, p) ->
  exists st', (do pos <- (if (6 * c =? 0)%nat then do r <- usub (2 * r) 2; Ok (r * w)%nat else usub ((2 * r + 1) * w + 6 * c) 3);
      do py <- get out pos;
      do pcb <- get out (pos + 1);
      do pcr <- get out (pos + 2);
      block_420 t1 t2 t3 w (2 * r) (6 * c) py pcb pcr out p) = Ok st' /\ inv r (S c) st'.
Proof. clear - Hbw HF T1 T2 T3 h pic.
  intros HD Hr Hc H0 I. destruct (Nat.eq_dec c 0) as [->|N].
  - replace (6 * 0 =? 0)%nat with true by reflexivity. rewrite usub_ok by lia. cbn [bind].
    destruct (pic_at (r - 1) 0 0 ltac:(lia)) as (P0 & P1 & P2 & _). replace (2 * (r - 1) + 0)%nat with (2 * r - 2)%nat in * by lia.
    rewrite (read_cell r 0 out p (2 * r - 2) 0 0 _ _ I) by (try (symmetry; exact P0); unfold done, h; lia). cbn [bind].
    rewrite (read_cell r 0 out p (2 * r - 2) 0 1 _ _ I) by (try (symmetry; exact P1); unfold done, h; lia). cbn [bind].
    rewrite (read_cell r 0 out p (2 * r - 2) 0 2 _ _ I) by (try (symmetry; exact P2); unfold done, h; lia). cbn [bind].
    apply block_420_ok; auto.
    + cbn [Nat.eqb]. replace (r =? 0)%nat with false by lia. reflexivity.
    + now rewrite chroma_above by lia.
    + now rewrite chroma_above by lia.
  - replace (6 * c =? 0)%nat with false by lia. rewrite usub_ok by lia. cbn [bind].
    destruct (pic_at r (c - 1) 1 ltac:(lia)) as (_ & _ & _ & P0 & P1 & P2).
    rewrite (read_cell r c out p (2 * r + 1) (c - 1) 3 _ _ I) by (try (symmetry; exact P0); unfold done, h; lia). cbn [bind].
    rewrite (read_cell r c out p (2 * r + 1) (c - 1) 4 _ _ I) by (try (symmetry; exact P1); unfold done, h; lia). cbn [bind].
    rewrite (read_cell r c out p (2 * r + 1) (c - 1) 5 _ _ I) by (try (symmetry; exact P2); unfold done, h; lia). cbn [bind].
    apply block_420_ok; auto.
    + replace (c =? 0)%nat with false by lia. f_equal. lia.
    + now rewrite chroma_left by lia.
    + now rewrite chroma_left by lia.
Qed.
Lemma step_sony r c out p : diffs_sony (half_range d) bw bh dif q -> (r < bh)%nat -> (c < bw)%nat -> (r = 0 -> c <> 0)%nat -> inv r c (out, p) ->
  exists st', (do (py1, py3, pcb, pcr) <- (if (6 * c =? 0)%nat then
          do r <- usub (2 * r) 2;
          let pos := (r * w)%nat in
          do a <- get out pos;
          do b <- get out (pos + 1);
          do c <- get out (pos + 2);
          Ok (a, None, b, c)
        else
          do pos1 <- usub (2 * r * w + 6 * c) 3;
          do pos3 <- usub ((2 * r + 1) * w + 6 * c) 3;
          do a <- get out pos1;
          do a3 <- get out pos3;
          do b <- get out (pos1 + 1);
          do c <- get out (pos1 + 2);
          Ok (a, Some a3, b, c));
      block_sony t1 t2 t3 w (2 * r) (6 * c) py1 py3 pcb pcr out p) = Ok st' /\ inv r (S c) st'.
Proof. clear - Hbw HF T1 T2 T3 h pic.
  intros HD Hr Hc H0 I. destruct (Nat.eq_dec c 0) as [->|N].
  - replace (6 * 0 =? 0)%nat with true by reflexivity. rewrite usub_ok by lia. cbn [bind]. cbv zeta.
    destruct (pic_at (r - 1) 0 0 ltac:(lia)) as (P0 & P1 & P2 & _). replace (2 * (r - 1) + 0)%nat with (2 * r - 2)%nat in * by lia.
    rewrite (read_cell r 0 out p (2 * r - 2) 0 0 _ _ I) by (try (symmetry; exact P0); unfold done, h; lia). cbn [bind].
    rewrite (read_cell r 0 out p (2 * r - 2) 0 1 _ _ I) by (try (symmetry; exact P1); unfold done, h; lia). cbn [bind].
    rewrite (read_cell r 0 out p (2 * r - 2) 0 2 _ _ I) by (try (symmetry; exact P2); unfold done, h; lia). cbn [bind].
    apply block_sony_ok; auto.
    + cbn [Nat.eqb]. replace (r =? 0)%nat with false by lia. reflexivity.
    + now rewrite chroma_above by lia.
    + now rewrite chroma_above by lia.
  - replace (6 * c =? 0)%nat with false by lia. rewrite !usub_ok by lia. cbn [bind].
    destruct (pic_at r (c - 1) 0 ltac:(lia)) as (_ & _ & _ & P0 & P1 & P2). destruct (pic_at r (c - 1) 1 ltac:(lia)) as (_ & _ & _ & Q0 & _ & _). rewrite !Nat.add_0_r in *.
    rewrite (read_cell r c out p (2 * r) (c - 1) 3 _ _ I) by (try (symmetry; exact P0); unfold done, h; lia). cbn [bind].
    rewrite (read_cell r c out p (2 * r + 1) (c - 1) 3 _ _ I) by (try (symmetry; exact Q0); unfold done, h; lia). cbn [bind].
    rewrite (read_cell r c out p (2 * r) (c - 1) 4 _ _ I) by (try (symmetry; exact P1); unfold done, h; lia). cbn [bind].
    rewrite (read_cell r c out p (2 * r) (c - 1) 5 _ _ I) by (try (symmetry; exact P2); unfold done, h; lia). cbn [bind].
    apply block_sony_ok; auto.
    + replace (c =? 0)%nat with false by lia. f_equal. lia.
    + replace (c =? 0)%nat with false by lia. do 2 f_equal. lia.
    + now rewrite chroma_left by lia.
    + now rewrite chroma_left by lia.
Qed.
End Two.

Section One.
Context (bug : bool) (d : ljdec) (tabs : list (list nat * list nat)) (bw bh : nat) (q : planes).
Context (HU : usable bug d tabs) (HT3 : length tabs = 3%nat).
Context (Hbw : (1 <= bw)%nat) (Hbh : (1 <= bh)%nat) (HF : fits16 1 bw bh q).
Let w := (6 * bw)%nat.
Let bits := byte_bits (unstuff (ld_buffer d)).
Let dif := diff_no bug (block_tabs 1 tabs) bits.
Let inv := yinv bug d tabs 1 bw bh q.
Let pic := interleaved 1 q.
Context (HBY : Forall is_byte (ld_buffer d)) (HFF : no_lone_ff (ld_buffer d)).
Context (t1 t2 t3 : hufft) (T1 : holds bug tabs t1 0) (T2 : holds bug tabs t2 1) (T3 : holds bug tabs t3 2).

Lemma pic_one r c :
  pic r (6 * c + 0) = pl_y q r (2 * c) /\ pic r (6 * c + 1) = pl_cb q r c /\ pic r (6 * c + 2) = pl_cr q r c /\
  pic r (6 * c + 3) = pl_y q r (2 * c + 1) /\ pic r (6 * c + 4) = pl_cb q r c /\ pic r (6 * c + 5) = pl_cr q r c.
Proof. clear. pose proof (inter_at 1 q r c) as H. rewrite Nat.div_1_r in H. exact H. Qed.
Lemma write_422 r c out p : (r < bh)%nat -> (c < bw)%nat -> length out = (w * bh)%nat ->
  (forall r' x, (r' < bh)%nat -> (x < w)%nat -> done 1 r c r' x -> nth (r' * w + x) out 0 = pic r' x) ->
  jpeg_rep 32 p (after bug (block_tabs 1 tabs) bits (4 * (r * bw + S c))) ->
  exists out', set_yuv_422 out r (6 * c) w (pl_y q r (2 * c)) (pl_y q r (2 * c + 1)) (pl_cb q r c) (pl_cr q r c) = Ok out' /\ inv r (S c) (out', p).
Proof. clear - Hbw HF pic.
  intros Hr Hc L A R.
  pose proof (y_range 1 bw bh q HF r (2 * c) ltac:(lia) ltac:(lia)) as Y1. pose proof (y_range 1 bw bh q HF r (2 * c + 1) ltac:(lia) ltac:(lia)) as Y2.
  pose proof (cb_range 1 bw bh q HF r c Hr Hc) as B. pose proof (cr_range 1 bw bh q HF r c Hr Hc) as C.
  rewrite yuv422_puts by lia. rewrite !wrap16 by lia.
  apply (block_puts bug d tabs 1 bw bh q ltac:(lia) Hbw r c); auto; fold w; rewrite ?Nat.mul_1_l in *; auto.
  - destruct (pic_one r c) as (P0 & P1 & P2 & P3 & P4 & P5). rewrite !Nat.add_0_r in *.
    intros i z Hi. fold pic. repeat (destruct Hi as [Hi|Hi]; [apply pair_equal_spec in Hi as [<- <-]|]); try (destruct Hi; fail).
    + exists 0%nat, 0%nat. rewrite !Nat.add_0_r. repeat split; try lia; auto.
    + exists 0%nat, 1%nat. rewrite !Nat.add_0_r. repeat split; try lia; auto.
    + exists 0%nat, 2%nat. rewrite !Nat.add_0_r. repeat split; try lia; auto.
    + exists 0%nat, 3%nat. rewrite !Nat.add_0_r. repeat split; try lia; auto.
    + exists 0%nat, 4%nat. rewrite !Nat.add_0_r. repeat split; try lia; auto.
    + exists 0%nat, 5%nat. rewrite !Nat.add_0_r. repeat split; try lia; auto.
  - intros k m Hk Hm. cbn [map fst]. clear - Hk Hm. assert (k = 0)%nat as -> by lia.
    assert (m = 0 \/ m = 1 \/ m = 2 \/ m = 3 \/ m = 4 \/ m = 5)%nat as [->|[->|[->|[->|[->| ->]]]]] by lia; block_mem.
Qed.
Lemma turn1_y r c k : (k < 2)%nat -> turn (block_tabs 1 tabs) (4 * (r * bw + c) + k) = tab tabs 0.
Proof. clear. intros H. rewrite (xt_turn tabs 1 ltac:(lia)) by lia. apply xt_y. lia. Qed.
Lemma turn1_cb r c : turn (block_tabs 1 tabs) (4 * (r * bw + c) + 2) = tab tabs 1.
Proof. clear. rewrite (xt_turn tabs 1 ltac:(lia)) by lia. exact (xt_cb tabs 1). Qed.
Lemma turn1_cr r c : turn (block_tabs 1 tabs) (4 * (r * bw + c) + 3) = tab tabs 2.
Proof. clear. rewrite (xt_turn tabs 1 ltac:(lia)) by lia. exact (xt_cr tabs 1). Qed.

Lemma block_422_ok r c py pcb pcr out p : diffs_422 (half_range d) bw bh dif q -> (r < bh)%nat -> (c < bw)%nat ->
  py = (if (c =? 0)%nat then (if (r =? 0)%nat then half_range d else pl_y q (r - 1) 0) else pl_y q r (2 * c - 1)) ->
  pcb = chroma_from (half_range d) (pl_cb q) r c -> pcr = chroma_from (half_range d) (pl_cr q) r c ->
  inv r c (out, p) -> exists st', block_422 t1 t2 t3 w r (6 * c) py pcb pcr out p = Ok st' /\ inv r (S c) st'.
Proof. clear - Hbw HF T1 T2 T3 pic.
  intros HD Hr Hc -> -> -> (L & A & R). cbn [fst snd] in *. destruct (HD r c Hr Hc) as (D0 & D1 & D2 & D3). clear HD.
  pose proof (y_range 1 bw bh q HF r (2 * c) ltac:(lia) ltac:(lia)) as Y1. pose proof (y_range 1 bw bh q HF r (2 * c + 1) ltac:(lia) ltac:(lia)) as Y2.
  pose proof (cb_range 1 bw bh q HF r c Hr Hc) as B. pose proof (cr_range 1 bw bh q HF r c Hr Hc) as C.
  unfold block_422. change (2 * 1 + 2)%nat with 4%nat in R. fold bits in R. rewrite Nat.mul_1_l in L, A.
  set (k := (4 * (r * bw + c))%nat) in *.
  pose proof (turn1_y r c 0 ltac:(lia)) as M0. fold k in M0. rewrite Nat.add_0_r in M0.
  destruct (add_any bug d tabs 1 t1 0 _ _ p _ T1 M0 R D0 Y1) as (p1 & E1 & R1). rewrite E1. cbn [bind].
  replace (S k) with (k + 1)%nat in R1 by lia. destruct (add_any bug d tabs 1 t1 0 _ _ p1 _ T1 (turn1_y r c 1 ltac:(lia)) R1 D1 Y2) as (p2 & E2 & R2). rewrite E2. cbn [bind].
  rewrite plus_n_Sm in R2. destruct (add_any bug d tabs 1 t2 1 _ _ p2 _ T2 (turn1_cb r c) R2 D2 B) as (p5 & E5 & R5). rewrite E5. cbn [bind].
  rewrite plus_n_Sm in R5. destruct (add_any bug d tabs 1 t3 2 _ _ p5 _ T3 (turn1_cr r c) R5 D3 C) as (p6 & E6 & R6). rewrite E6. cbn [bind].
  destruct (write_422 r c out p6 Hr Hc L A) as (out' & E7 & I7).
  { replace (4 * (r * bw + S c))%nat with (S (k + 3)) by (unfold k; lia). exact R6. }
  rewrite E7. cbn [bind]. eauto.
Qed.
Lemma inv1_start out : length out = (w * bh)%nat -> inv 0 0 (out, jpump_new (ld_buffer d)).
Proof. clear - HBY HFF.
  intros L. split; [rewrite Nat.mul_1_l; exact L|]. split.
  - intros r' x _ _ D. unfold done in D. lia.
  - cbn [snd]. rewrite Nat.mul_0_l, Nat.add_0_r, Nat.mul_0_r. cbn [after]. now apply jpeg_new_rep.
Qed.
Lemma read1_cell r c out p r' c' k i z : inv r c (out, p) -> (r' < bh)%nat -> (c' < bw)%nat -> (k < 6)%nat -> done 1 r c r' (6 * c' + k) ->
  i = (r' * w + (6 * c' + k))%nat -> z = pic r' (6 * c' + k) -> get out i = Ok z.
Proof. clear. intros I H1 H2 H3 H4 H5 ->. refine (cell bug d tabs 1 bw bh q r c (out, p) r' c' k i I _ H2 H3 H4 H5). lia. Qed.
Lemma step_422 r c out p : diffs_422 (half_range d) bw bh dif q -> (r < bh)%nat -> (c < bw)%nat -> (r = 0 -> c <> 0)%nat -> inv r c (out, p) ->
  exists st', (do pos <- (if (6 * c =? 0)%nat then do r <- usub r 1; Ok (r * w)%nat else usub (r * w + 6 * c) 3);
      do py <- get out pos;
      do pcb <- get out (pos + 1);
      do pcr <- get out (pos + 2);
      block_422 t1 t2 t3 w r (6 * c) py pcb pcr out p) = Ok st' /\ inv r (S c) st'.
Proof. clear - Hbw HF T1 T2 T3 pic.
  intros HD Hr Hc H0 I. destruct (Nat.eq_dec c 0) as [->|N].
  - replace (6 * 0 =? 0)%nat with true by reflexivity. rewrite usub_ok by lia. cbn [bind].
    destruct (pic_one (r - 1) 0) as (P0 & P1 & P2 & _).
    rewrite (read1_cell r 0 out p (r - 1) 0 0 _ _ I) by (try (symmetry; exact P0); unfold done; lia). cbn [bind].
    rewrite (read1_cell r 0 out p (r - 1) 0 1 _ _ I) by (try (symmetry; exact P1); unfold done; lia). cbn [bind].
    rewrite (read1_cell r 0 out p (r - 1) 0 2 _ _ I) by (try (symmetry; exact P2); unfold done; lia). cbn [bind].
    apply block_422_ok; auto.
    + cbn [Nat.eqb]. replace (r =? 0)%nat with false by lia. reflexivity.
    + unfold chroma_from. cbn [Nat.eqb]. now replace (r =? 0)%nat with false by lia.
    + unfold chroma_from. cbn [Nat.eqb]. now replace (r =? 0)%nat with false by lia.
  - replace (6 * c =? 0)%nat with false by lia. rewrite usub_ok by lia. cbn [bind].
    destruct (pic_one r (c - 1)) as (_ & _ & _ & P0 & P1 & P2).
    rewrite (read1_cell r c out p r (c - 1) 3 _ _ I) by (try (symmetry; exact P0); unfold done; lia). cbn [bind].
    rewrite (read1_cell r c out p r (c - 1) 4 _ _ I) by (try (symmetry; exact P1); unfold done; lia). cbn [bind].
    rewrite (read1_cell r c out p r (c - 1) 5 _ _ I) by (try (symmetry; exact P2); unfold done; lia). cbn [bind].
    apply block_422_ok; auto.
    + replace (c =? 0)%nat with false by lia. f_equal. lia.
    + unfold chroma_from. now replace (c =? 0)%nat with false by lia.
    + unfold chroma_from. now replace (c =? 0)%nat with false by lia.
Qed.
End One.

(** ** The decoders *)
Lemma for_each_ext {A B} (f g : A -> B -> res B) l : (forall a b, f a b = g a b) -> forall s, for_each l f s = for_each l g s.
Proof. intros E. induction l as [|a l IH]; intros s; cbn [for_each]; auto. rewrite E. destruct (g a s); cbn [bind]; auto. Qed.
Lemma yuv_checks d width height : (sof_width (ld_sof d) * 3 = width)%nat -> sof_height (ld_sof d) = height -> yuv_check d width height = Ok tt.
Proof. intros <- <-. unfold yuv_check. now rewrite !Nat.eqb_refl. Qed.

Lemma dec_422 bug d tabs bw bh q out : usable bug d tabs -> length tabs = 3%nat -> (1 <= bw)%nat -> (1 <= bh)%nat -> fits16 1 bw bh q ->
  (ld_pt d < sof_precision (ld_sof d))%nat -> sof_width (ld_sof d) = (2 * bw)%nat -> sof_height (ld_sof d) = bh ->
  Forall is_byte (ld_buffer d) -> no_lone_ff (ld_buffer d) ->
  diffs_422 (half_range d) bw bh (diff_no bug (block_tabs 1 tabs) (byte_bits (unstuff (ld_buffer d)))) q -> length out = (6 * bw * bh)%nat ->
  decode_ljpeg_422 d out (6 * bw) bh = Ok (samples (interleaved 1 q) (6 * bw) bh).
Proof.
  intros HU H3 Hw Hh HF HPT EW EH HBY HFF HD L. destruct (tables bug d tabs HU H3) as (t1 & t2 & t3 & E1 & E2 & E3 & T1 & T2 & T3).
  unfold decode_ljpeg_422. rewrite yuv_checks by lia. cbn [bind]. rewrite E1, E2, E3. cbn [bind]. rewrite base_ok by auto. cbn [bind].
  pose proof (inv1_start bug d tabs bw bh q HBY HFF out L) as I0.
  destruct (block_422_ok bug d tabs bw bh q Hw HF t1 t2 t3 T1 T2 T3 0 0 _ _ _ out _ HD ltac:(lia) ltac:(lia) eq_refl eq_refl eq_refl I0) as (st1 & B1 & I1).
  cbn [Nat.eqb] in B1. unfold chroma_from in B1. cbn [Nat.eqb] in B1. rewrite Nat.mul_0_r in B1. rewrite B1. cbn [bind].
  destruct (block_loop 1 bw bh (yinv bug d tabs 1 bw bh q) (fun row col '(out, p) =>
      do pos <- (if (col =? 0)%nat then do r <- usub row 1; Ok (r * (6 * bw))%nat else usub (row * (6 * bw) + col) 3);
      do py <- get out pos;
      do pcb <- get out (pos + 1);
      do pcr <- get out (pos + 2);
      block_422 t1 t2 t3 (6 * bw) row col py pcb pcr out p) st1) as (st' & E & I); auto.
  - intros r c [o p] Hr Hc H0 I. rewrite Nat.mul_1_l. exact (step_422 bug d tabs bw bh q Hw HF t1 t2 t3 T1 T2 T3 r c o p HD Hr Hc H0 I).
  - intros r st I. exact (yinv_next bug d tabs 1 bw bh q r st I).
  - assert (ES : map (fun i => (1 * i)%nat) (seq 0 bh) = seq 0 bh) by (rewrite <- (map_id (seq 0 bh)) at 2; apply map_ext; intros; lia).
    rewrite ES in E. rewrite E. cbn [bind]. destruct st' as [o p]. pose proof (yinv_all bug d tabs 1 bw bh q ltac:(lia) Hw _ I) as X. cbn [fst] in X. subst o.
    now rewrite Nat.mul_1_l.
Qed.
Lemma dec_420 bug d tabs bw bh q out : usable bug d tabs -> length tabs = 3%nat -> (1 <= bw)%nat -> (1 <= bh)%nat -> fits16 2 bw bh q ->
  (ld_pt d < sof_precision (ld_sof d))%nat -> sof_width (ld_sof d) = (2 * bw)%nat -> sof_height (ld_sof d) = (2 * bh)%nat ->
  Forall is_byte (ld_buffer d) -> no_lone_ff (ld_buffer d) ->
  diffs_420 (half_range d) bw bh (diff_no bug (block_tabs 2 tabs) (byte_bits (unstuff (ld_buffer d)))) q -> length out = (6 * bw * (2 * bh))%nat ->
  decode_ljpeg_420 d out (6 * bw) (2 * bh) = Ok (samples (interleaved 2 q) (6 * bw) (2 * bh)).
Proof.
  intros HU H3 Hw Hh HF HPT EW EH HBY HFF HD L. destruct (tables bug d tabs HU H3) as (t1 & t2 & t3 & E1 & E2 & E3 & T1 & T2 & T3).
  unfold decode_ljpeg_420. rewrite yuv_checks by lia. cbn [bind].
  assert (M1 : ((6 * bw) mod 2 = 0)%nat) by (replace (6 * bw)%nat with (3 * bw * 2)%nat by lia; apply Nat.mod_mul; lia).
  assert (M2 : ((6 * bw) mod 6 = 0)%nat) by (rewrite Nat.mul_comm; apply Nat.mod_mul; lia).
  assert (M3 : ((2 * bh) mod 2 = 0)%nat) by (rewrite Nat.mul_comm; apply Nat.mod_mul; lia).
  rewrite M1, M2, M3. cbn [Nat.eqb assert_ bind].
  rewrite E1, E2, E3. cbn [bind]. rewrite base_ok by auto. cbn [bind].
  pose proof (inv_start bug d tabs bw bh q HBY HFF out L) as I0.
  destruct (block_420_ok bug d tabs bw bh q Hw HF t1 t2 t3 T1 T2 T3 0 0 _ _ _ out _ HD ltac:(lia) ltac:(lia) eq_refl eq_refl eq_refl I0) as (st1 & B1 & I1).
  cbn [Nat.eqb] in B1. unfold chroma_from in B1. cbn [Nat.eqb] in B1. rewrite !Nat.mul_0_r in B1. rewrite B1. cbn [bind].
  destruct (block_loop 2 bw bh (yinv bug d tabs 2 bw bh q) (fun row col '(out, p) =>
      do pos <- (if (col =? 0)%nat then do r <- usub row 2; Ok (r * (6 * bw))%nat else usub ((row + 1) * (6 * bw) + col) 3);
      do py <- get out pos;
      do pcb <- get out (pos + 1);
      do pcr <- get out (pos + 2);
      block_420 t1 t2 t3 (6 * bw) row col py pcb pcr out p) st1) as (st' & E & I); auto.
  - intros r c [o p] Hr Hc H0 I. exact (step_420 bug d tabs bw bh q Hw HF t1 t2 t3 T1 T2 T3 r c o p HD Hr Hc H0 I).
  - intros r st I. exact (yinv_next bug d tabs 2 bw bh q r st I).
  - rewrite step_mul by lia. rewrite E. cbn [bind]. destruct st' as [o p]. pose proof (yinv_all bug d tabs 2 bw bh q ltac:(lia) Hw _ I) as X. cbn [fst] in X. now subst o.
Qed.
Lemma dec_sony bug d tabs bw bh q out : usable bug d tabs -> length tabs = 3%nat -> (1 <= bw)%nat -> (1 <= bh)%nat -> fits16 2 bw bh q ->
  (ld_pt d < sof_precision (ld_sof d))%nat -> sof_width (ld_sof d) = (2 * bw)%nat -> sof_height (ld_sof d) = (2 * bh)%nat ->
  Forall is_byte (ld_buffer d) -> no_lone_ff (ld_buffer d) ->
  diffs_sony (half_range d) bw bh (diff_no bug (block_tabs 2 tabs) (byte_bits (unstuff (ld_buffer d)))) q -> length out = (6 * bw * (2 * bh))%nat ->
  decode_sony_ljpeg_420 d out (6 * bw) (2 * bh) = Ok (samples (interleaved 2 q) (6 * bw) (2 * bh)).
Proof.
  intros HU H3 Hw Hh HF HPT EW EH HBY HFF HD L. destruct (tables bug d tabs HU H3) as (t1 & t2 & t3 & E1 & E2 & E3 & T1 & T2 & T3).
  unfold decode_sony_ljpeg_420. rewrite yuv_checks by lia. cbn [bind].
  assert (M1 : ((6 * bw) mod 2 = 0)%nat) by (replace (6 * bw)%nat with (3 * bw * 2)%nat by lia; apply Nat.mod_mul; lia).
  assert (M2 : ((6 * bw) mod 6 = 0)%nat) by (rewrite Nat.mul_comm; apply Nat.mod_mul; lia).
  assert (M3 : ((2 * bh) mod 2 = 0)%nat) by (rewrite Nat.mul_comm; apply Nat.mod_mul; lia).
  rewrite M1, M2, M3. cbn [Nat.eqb assert_ bind].
  rewrite E1, E2, E3. cbn [bind]. rewrite base_ok by auto. cbn [bind].
  pose proof (inv_start bug d tabs bw bh q HBY HFF out L) as I0.
  destruct (block_sony_ok bug d tabs bw bh q Hw HF t1 t2 t3 T1 T2 T3 0 0 _ _ _ _ out _ HD ltac:(lia) ltac:(lia) eq_refl eq_refl eq_refl eq_refl I0) as (st1 & B1 & I1).
  cbn [Nat.eqb] in B1. unfold chroma_from in B1. cbn [Nat.eqb] in B1. rewrite !Nat.mul_0_r in B1. rewrite B1. cbn [bind].
  match goal with |- context [for_each _ (fun row st => for_each _ (fun col x => @?g row col x) st)] => set (blk := g) end.
  destruct (block_loop 2 bw bh (yinv bug d tabs 2 bw bh q) blk st1) as (st' & E & I); auto.
  - intros r c [o p] Hr Hc H0 I. exact (step_sony bug d tabs bw bh q Hw HF t1 t2 t3 T1 T2 T3 r c o p HD Hr Hc H0 I).
  - intros r st I. exact (yinv_next bug d tabs 2 bw bh q r st I).
  - rewrite step_mul by lia. unfold blk in E. rewrite E. cbn [bind]. destruct st' as [o p]. pose proof (yinv_all bug d tabs 2 bw bh q ltac:(lia) Hw _ I) as X. cbn [fst] in X. now subst o.
Qed.
