(** The scan decoder inverts the scan encoder. *)
From Coq Require Import List ZArith Lia Bool.
From Coq Require Import ZifyBool ZifyNat.
From Verif Require Import Base BaseLemmas Pumps PumpProofs LjpegEnc LjpegDec HuffTree HuffCanon HuffBuild HuffDec LjpegBits LjpegScan.
Import ListNotations.
Open Scope Z_scope.

Lemma for_each_map {A B S} (g : A -> B) (l : list A) (f : B -> S -> res S) s :
  for_each (map g l) f s = for_each l (fun a => f (g a)) s.
Proof. revert s. induction l; simpl; auto. intros. destruct (f (g a) s); simpl; auto. Qed.

Lemma jpeg_rep_same k p l l' : jpeg_rep k p l -> same_bits l l' -> jpeg_rep k p l'.
Proof. intros [I S] H. split; auto. eapply same_bits_trans; eauto. Qed.

Lemma lin_lt a b c k : (a < b)%nat -> (c < k)%nat -> (a * k + c < b * k)%nat.
Proof. intros. pose proof (Nat.mul_le_mono_r (S a) b k). lia. Qed.

Lemma pred_cases px (A B C : res Z) a b c : (1 <= px <= 7)%nat -> A = Ok a -> B = Ok b -> C = Ok c ->
  match px with
  | 1%nat => A | 2%nat => B | 3%nat => C
  | 4%nat => do a <- A; do b <- B; do c_ <- C; Ok (a + b - c_)
  | 5%nat => do a <- A; do b <- B; do c_ <- C; Ok (a + Z.shiftr (b - c_) 1)
  | 6%nat => do a <- A; do b <- B; do c_ <- C; Ok (b + Z.shiftr (a - c_) 1)
  | 7%nat => do a <- A; do b <- B; Ok (Z.shiftr (a + b) 1)
  | _ => Panic
  end = Ok (pred_val px a b c).
Proof.
  intros HP -> -> ->. do 8 (destruct px as [|px]; [first [exfalso; lia | reflexivity]|]). exfalso; lia.
Qed.

Section Decode.
Context (d : ljdec) (comps w h px : nat) (codes : list (list nat * list nat)) (base : Z) (smp : nat -> nat -> Z).
Let rs := (w * comps)%nat.
Context (HC : (1 <= comps)%nat) (HP : (1 <= px <= 7)%nat).
Context (HNC : ljdec_ncomp d = comps) (HSW : sof_width (ld_sof d) = w) (HSH : sof_height (ld_sof d) = h).
Context (HPT : (ld_pt d < sof_precision (ld_sof d))%nat) (HBASE : base = 2 ^ Z.of_nat (sof_precision (ld_sof d) - ld_pt d - 1)).
Context (HPX : ld_pred d = px).
Context (HT : forall c, (c < comps)%nat -> exists t, htable d c = Ok t /\
   dtable t (fst (nth c codes ([], []))) (snd (nth c codes ([], []))) /\
   canon (fst (nth c codes ([], []))) (snd (nth c codes ([], [])))).
Context (HS : forall r c, 0 <= smp r c < 65536).
Context (cache : list Z) (HCL : length cache = (h * rs)%nat).
Context (HCN : forall r c, (r < h)%nat -> (c < rs)%nat -> nth (r * rs + c) cache 0 = diff_at px comps base smp r c).
Context (HIN : forall j, (j < length cache)%nat ->
   In (lookup_ssss (nth j cache 0)) (snd (nth (j mod comps) codes ([], [])))).
Context (HBUF : jpeg_rep 32 (jpump_new (ld_buffer d)) (scan_bits codes comps 0 cache)).

Definition rem (i : nat) : list bool := scan_bits codes comps i (skipn i cache).

Lemma rem_step i : (i < length cache)%nat ->
  rem i = (let c := nth (i mod comps) codes ([], []) in sym_bits (fst c) (snd c) (nth i cache 0)) ++ rem (S i).
Proof.
  intros. unfold rem. assert (E : skipn i cache = nth i cache 0 :: skipn (S i) cache).
  { revert H. clear. revert i. induction cache; intros; simpl in *; [lia|]. destruct i; auto. apply IHl. lia. }
  rewrite E. apply scan_bits_cons.
Qed.

Lemma decode_next r c0 c p : (r < h)%nat -> (c0 < w)%nat -> (c < comps)%nat ->
  jpeg_rep 32 p (rem (r * rs + (c0 * comps + c))) ->
  exists t p', htable d c = Ok t /\
    huff_decode jpeg_ops t p = Ok (diff_at px comps base smp r (c0 * comps + c)%nat, p') /\
    jpeg_rep 32 p' (rem (r * rs + (c0 * comps + S c))).
Proof.
  intros Hr Hc0 Hc R.
  assert (Hi : (c0 * comps + c < rs)%nat) by (apply lin_lt; auto).
  set (i := (r * rs + (c0 * comps + c))%nat) in *.
  assert (Hl : (i < length cache)%nat) by (rewrite HCL; apply lin_lt; auto).
  assert (EM : (i mod comps = c)%nat).
  { unfold i, rs. replace (r * (w * comps) + (c0 * comps + c))%nat with (c + (r * w + c0) * comps)%nat by lia.
    rewrite Nat.mod_add by lia. apply Nat.mod_small. auto. }
  destruct (HT c Hc) as (t & ET & DT & CN).
  rewrite rem_step in R by auto. cbv zeta in R. rewrite EM in R.
  assert (EC : nth i cache 0 = diff_at px comps base smp r (c0 * comps + c)%nat) by (apply HCN; auto).
  pose proof (HIN i Hl) as Hin. rewrite EM in Hin. rewrite EC in R, Hin.
  destruct (decode_symbol t _ _ _ _ p DT CN (wrap_i16_range _) Hin R) as (p' & E & R').
  exists t, p'. split; auto. split; auto. replace (r * rs + (c0 * comps + S c))%nat with (S i) by (unfold i; lia). auto.
Qed.

Context (x sw wp height : nat) (out0 : list Z).
Let width := (wp * comps)%nat.
Context (HWP : (1 <= wp <= w)%nat) (HHT : (1 <= height <= h)%nat) (HX : (x + width <= sw)%nat)
        (HO : ((height - 1) * sw + x + width <= length out0)%nat).

Definition is_cell (j : nat) : Prop := exists r c, (r < height)%nat /\ (c < wp * comps)%nat /\ j = (r * sw + x + c)%nat.

Definition cells (r0 c0 : nat) (out : list Z) : Prop :=
  length out = length out0 /\
  (forall r c, (r < height)%nat -> (c < width)%nat -> (r < r0 \/ r = r0 /\ c < c0)%nat ->
     nth (r * sw + x + c) out 0 = smp r c) /\
  (forall j, ~ is_cell j -> nth j out 0 = nth j out0 0).

Definition inv (r0 c0 : nat) (st : list Z * jpump) : Prop :=
  cells r0 c0 (fst st) /\ jpeg_rep 32 (snd st) (rem (r0 * rs + c0)).

Lemma cells_put r c out : (r < height)%nat -> (c < width)%nat -> cells r c out ->
  exists out', put out (r * sw + x + c) (smp r c) = Ok out' /\ cells r (S c) out'.
Proof.
  intros Hr Hc (L & A & B). assert (HI : (r * sw + x + c < length out0)%nat) by nia.
  rewrite put_ok by lia. eexists. split; [reflexivity|]. split; [now rewrite upd_list_length|]. split.
  - intros r1 c1 Hr1 Hc1 HD. rewrite nth_upd by lia.
    destruct (Nat.eqb_spec (r * sw + x + c) (r1 * sw + x + c1)) as [E|N].
    + assert (r = r1) by nia. subst r1. assert (c = c1) by lia. subst. reflexivity.
    + apply A; auto. destruct HD as [?|[-> ?]]; auto. assert (c1 <> c) by (intros ->; auto). lia.
  - intros j Hj. rewrite nth_upd by lia.
    destruct (Nat.eqb_spec (r * sw + x + c) j) as [E|N]; auto.
    exfalso. apply Hj. exists r, c. auto.
Qed.

(** Out-of-loop values of the neighbours. *)
Lemma pred_spec r q c out : (r < height)%nat -> (q < wp)%nat -> (c < comps)%nat -> (r = 0 -> 1 <= q)%nat ->
  cells r (q * comps + c) out ->
  decode_pred px comps sw x r (x + q * comps) c out = Ok (pred_at px comps base smp r (q * comps + c)).
Proof.
  intros Hr Hq Hc H0 (L & A & _). unfold decode_pred, pred_at.
  assert (G : forall r1 c1, (r1 < height)%nat -> (c1 < width)%nat -> (r1 < r \/ r1 = r /\ c1 < q * comps + c)%nat ->
     forall k, k = (r1 * sw + x + c1)%nat -> get out k = Ok (smp r1 c1)).
  { intros r1 c1 H1 H2 H3 k ->. rewrite (get_ok _ _ 0) by nia. f_equal. apply A; auto. }
  assert (W : (q * comps + c < width)%nat) by (apply lin_lt; auto).
  destruct (Nat.eqb_spec (x + q * comps) x).
  - assert (q = 0)%nat by nia. subst q. rewrite usub_ok by lia. cbn [bind].
    replace (r =? 0)%nat with false by lia. replace (0 * comps + c <? comps)%nat with true by lia.
    apply G; try lia. 
  - assert (1 <= q)%nat by (destruct q; lia).
    replace (q * comps + c <? comps)%nat with false by nia.
    assert (EA : (do j <- usub (x + q * comps) comps; get out (r * sw + j + c)) = Ok (smp r (q * comps + c - comps))).
    { rewrite usub_ok by nia. cbn [bind]. apply G; try nia. }
    rewrite EA. destruct (Nat.eqb_spec r 0); [subst; auto|].
    assert (EB : (do r1 <- usub r 1; get out (r1 * sw + (x + q * comps) + c)) = Ok (smp (r - 1) (q * comps + c))).
    { rewrite usub_ok by lia. cbn [bind]. apply G; try nia. }
    assert (EC : (do r1 <- usub r 1; do j <- usub (x + q * comps) comps; get out (r1 * sw + j + c))
        = Ok (smp (r - 1) (q * comps + c - comps))).
    { rewrite usub_ok by lia. cbn [bind]. rewrite usub_ok by nia. cbn [bind]. apply G; try nia. }
    now apply pred_cases.
Qed.

Lemma sample_step r q c st : (r < height)%nat -> (q < wp)%nat -> (c < comps)%nat -> (r = 0 -> 1 <= q)%nat ->
  inv r (q * comps + c) st ->
  exists st', decode_sample d sw x r (x + q * comps) c st = Ok st' /\ inv r (q * comps + S c) st'.
Proof.
  intros Hr Hq Hc H0 [HCE HR]. destruct st as [out pump]. cbn [fst snd] in *.
  unfold decode_sample. rewrite HPX, HNC, pred_spec by auto. cbn [bind].
  destruct (decode_next r q c pump) as (t & p' & ET & ED & R'); auto; [lia|lia|].
  rewrite ET. cbn [bind]. rewrite ED. cbn [bind]. unfold diff_at. rewrite wrap_recover by apply HS.
  destruct (cells_put r (q * comps + c) out) as (out' & EP & CE); auto.
  { apply lin_lt; auto. }
  replace (r * sw + (x + q * comps) + c)%nat with (r * sw + x + (q * comps + c))%nat by lia.
  rewrite EP. cbn [bind]. eexists. split; [reflexivity|]. split; cbn [fst snd]; auto.
  now replace (q * comps + S c)%nat with (S (q * comps + c)) by lia.
Qed.

Lemma pixel_step r q st : (r < height)%nat -> (q < wp)%nat -> (r = 0 -> 1 <= q)%nat ->
  inv r (q * comps) st ->
  exists st', for_each (seq 0 comps) (fun c st => decode_sample d sw x r (x + q * comps) c st) st = Ok st' /\
   inv r (S q * comps) st'.
Proof.
  intros Hr Hq H0 I.
  destruct (for_each_seq_inv (fun c st => decode_sample d sw x r (x + q * comps) c st)
     (fun c st => inv r (q * comps + c) st) 0 comps st) as (st' & E & I').
  - now rewrite Nat.add_0_r.
  - intros. apply sample_step; auto. lia.
  - exists st'. split; auto. now replace (S q * comps)%nat with (q * comps + (0 + comps))%nat by lia.
Qed.

Lemma skip_step r q p : (r < height)%nat -> (q < w)%nat -> jpeg_rep 32 p (rem (r * rs + q * comps)) ->
  exists p', skip_pixel d p = Ok p' /\ jpeg_rep 32 p' (rem (r * rs + S q * comps)).
Proof.
  intros Hr Hq R. unfold skip_pixel. rewrite HNC.
  match goal with |- context [for_each (seq 0 comps) ?G p] =>
  destruct (for_each_seq_inv G (fun c p => jpeg_rep 32 p (rem (r * rs + (q * comps + c)))) 0 comps p) as (p' & E & I') end.
  - now rewrite Nat.add_0_r.
  - intros c p1 Hc R1. destruct (decode_next r q c p1) as (t & p' & ET & ED & R'); auto; [lia|lia|].
    rewrite ET. cbn [bind]. rewrite ED. cbn [bind]. eauto.
  - exists p'. split; auto. now replace (S q * comps)%nat with (q * comps + (0 + comps))%nat by lia.
Qed.

Definition startq (r : nat) : nat := if (r =? 0)%nat then 1%nat else 0%nat.

Lemma row_step r st : (r < height)%nat -> inv r (startq r * comps) st ->
  exists st', decode_row d sw x width (w - wp) r st = Ok st' /\ inv (S r) (startq (S r) * comps) st'.
Proof.
  intros Hr I. unfold decode_row. rewrite HNC.
  assert (SQ : (startq r <= 1)%nat) by (unfold startq; destruct (r =? 0)%nat; lia).
  assert (ES : (if (r =? 0)%nat then (x + comps)%nat else x) = (x + startq r * comps)%nat).
  { unfold startq. destruct (r =? 0)%nat; lia. }
  rewrite ES. unfold step_range. rewrite for_each_map.
  assert (EN : ((width + x - (x + startq r * comps) + (comps - 1)) / comps = wp - startq r)%nat).
  { replace (width + x - (x + startq r * comps) + (comps - 1))%nat with ((comps - 1) + (wp - startq r) * comps)%nat.
    2:{ unfold width. rewrite Nat.mul_sub_distr_r. pose proof (Nat.mul_le_mono_r (startq r) wp comps). lia. }
    rewrite Nat.div_add by lia. rewrite Nat.div_small by lia. auto. }
  rewrite EN.
  match goal with |- context [for_each (seq 0 (wp - startq r)) ?G st] =>
  destruct (for_each_seq_inv G (fun i st => inv r ((startq r + i) * comps) st) 0 (wp - startq r) st) as (st1 & E1 & I1) end.
  - now rewrite Nat.add_0_r.
  - intros i s Hi HI. replace (x + startq r * comps + i * comps)%nat with (x + (startq r + i) * comps)%nat by lia.
    destruct (pixel_step r (startq r + i) s) as (s' & E & I'); auto; [lia| |].
    { intros ->. unfold startq. cbn. lia. }
    exists s'. split; auto. now replace (startq r + S i)%nat with (S (startq r + i)) by lia.
  - rewrite E1. cbn [bind]. destruct st1 as [out pump].
    replace (startq r + (0 + (wp - startq r)))%nat with wp in I1 by lia. destruct I1 as [C1 R1]. cbn [fst snd] in *.
    destruct (for_each_seq_inv (fun _ p => skip_pixel d p) (fun i p => jpeg_rep 32 p (rem (r * rs + (wp + i) * comps)))
       0 (w - wp) pump) as (p' & E2 & R2).
    + now rewrite Nat.add_0_r.
    + intros i p Hi HR. destruct (skip_step r (wp + i) p) as (p' & E & R'); auto; [lia|].
      exists p'. split; auto. now replace (wp + S i)%nat with (S (wp + i)) by lia.
    + rewrite E2. cbn [bind]. eexists. split; [reflexivity|]. split; cbn [fst snd].
      * destruct C1 as (L & A & B). split; auto. split; auto. intros r1 c1 H1 H2 H3. apply A; auto.
        unfold startq in H3. cbn in H3. fold width. lia.
      * replace (S r * rs + startq (S r) * comps)%nat with (r * rs + (wp + (0 + (w - wp))) * comps)%nat; auto.
        unfold startq. cbn [Nat.eqb]. replace (wp + (0 + (w - wp)))%nat with w by lia. unfold rs. lia.
Qed.

Theorem decode_ljpeg_spec :
  exists out, decode_ljpeg d out0 x sw width height = Ok out /\ length out = length out0 /\
    (forall r c, (r < height)%nat -> (c < width)%nat -> nth (r * sw + x + c) out 0 = smp r c) /\
    (forall j, ~ is_cell j -> nth j out 0 = nth j out0 0).
Proof.
  unfold decode_ljpeg. rewrite HNC, HSW, HSH.
  assert (WW : (width <= w * comps)%nat) by (unfold width; apply Nat.mul_le_mono_r; lia).
  replace (w * comps <? width)%nat with false by lia. replace (h <? height)%nat with false by lia.
  cbn [orb negb check bind]. rewrite usub_ok by lia. cbn [bind]. rewrite usub_ok by lia. cbn [bind].
  rewrite <- HBASE.
  match goal with |- context [for_each (seq 0 comps) ?G ?S0] =>
  destruct (for_each_seq_inv G (fun c st => inv 0 c st) 0 comps S0) as (st & E & I) end.
  - split; cbn [fst snd].
    + split; auto. split; auto. intros. lia.
    + replace (0 * rs + 0)%nat with 0%nat by lia. unfold rem. cbn [skipn]. exact HBUF.
  - intros c [out pump] Hc [C R]. cbn [fst snd] in *.
    destruct (decode_next 0 0 c pump) as (t & p' & ET & ED & R'); auto; [lia|lia|lia|].
    rewrite ET. cbn [bind]. rewrite ED. cbn [bind]. unfold diff_at.
    assert (EB : pred_at px comps base smp 0 (0 * comps + c) = base).
    { unfold pred_at. replace (0 =? 0)%nat with true by auto. now replace (0 * comps + c <? comps)%nat with true by lia. }
    rewrite EB. rewrite wrap_recover by apply HS.
    assert (CW : (c < width)%nat) by (unfold width; pose proof (Nat.mul_le_mono_r 1 wp comps); lia).
    destruct (cells_put 0 c out) as (out' & EP & CE); auto; [lia|].
    cbn [Nat.mul Nat.add] in EP. cbn [Nat.mul Nat.add]. rewrite EP. cbn [bind].
    eexists. split; [reflexivity|]. split; cbn [fst snd]; auto.
  - rewrite E. cbn [bind]. unfold width at 1. rewrite Nat.div_mul by lia. rewrite usub_ok by lia. cbn [bind].
    destruct (for_each_seq_inv (fun row st => decode_row d sw x width (w - wp) row st)
      (fun r st => inv r (startq r * comps) st) 0 height st) as (st2 & E2 & I2).
    + unfold startq. cbn [Nat.eqb]. now replace (1 * comps)%nat with (0 + comps)%nat by lia.
    + intros. apply row_step; auto. lia.
    + rewrite E2. cbn [bind]. destruct st2 as [out pump]. destruct I2 as [(L & A & B) _]. cbn [fst snd] in *.
      exists out. split; [auto|]. split; [auto|]. split; [|auto]. intros; apply A; auto; lia.
Qed.
End Decode.
