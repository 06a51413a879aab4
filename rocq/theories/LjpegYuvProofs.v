(** Decoding of chroma-subsampled LJPEG pictures. *)
From Coq Require Import List ZArith Lia Bool.
From Coq Require Import ZifyBool ZifyNat.
From Verif Require Import Base BaseLemmas Pumps PumpProofs LjpegDec LjpegAnySpec LjpegAny LjpegAnyTop Crx CrxLL LjpegYuv LjpegYuvSpec PefSpec Lanes OrfRows GeomProofs.
Import ListNotations.
Open Scope Z_scope.

(** ** Several writes *)
Fixpoint put_all (out : list Z) (l : list (nat * Z)) : res (list Z) :=
  match l with [] => Ok out | (i, v) :: t => do out <- put out i v; put_all out t end.
Lemma put_all_ok F : forall l out, (forall i v, In (i, v) l -> (i < length out)%nat /\ v = F i) ->
  exists out', put_all out l = Ok out' /\ length out' = length out /\
    (forall j, In j (map fst l) -> nth j out' 0 = F j) /\ (forall j, nth j out 0 = F j -> nth j out' 0 = F j).
Proof.
  induction l as [|[i v] l IH]; intros out H; cbn [put_all].
  - exists out. repeat split; auto. intros j [].
  - destruct (H i v (or_introl eq_refl)) as [Hi Hv]. rewrite put_ok by auto. cbn [bind].
    destruct (IH (upd_list out i v)) as (out' & E & L & A & B).
    { intros i' v' Hin. rewrite upd_list_length. apply H. now right. }
    exists out'. rewrite upd_list_length in L. split; auto. split; auto.
    assert (K : forall j, nth j out 0 = F j -> nth j (upd_list out i v) 0 = F j).
    { intros j Hj. rewrite nth_upd by auto. destruct (Nat.eqb_spec i j); subst; auto. }
    split.
    + intros j [<-|Hj]; [|auto]. apply B. cbn [fst]. rewrite nth_upd_eq by auto. auto.
    + intros j Hj. apply B. auto.
Qed.
Lemma assert_true b : b = true -> assert_ b = Ok tt.
Proof. now intros ->. Qed.
Lemma bind_ret {A} (m : res A) : (do x <- m; Ok x) = m.
Proof. now destruct m. Qed.
Lemma yuv420_puts out row col width y1 y2 y3 y4 cb cr :
  0 <= y1 -> 0 <= y2 -> 0 <= y3 -> 0 <= y4 -> 0 <= cb -> 0 <= cr ->
  set_yuv_420 out row col width y1 y2 y3 y4 cb cr =
  put_all out [(row * width + col + 0, wrap_u16 y1); (row * width + col + 1, wrap_u16 cb); (row * width + col + 2, wrap_u16 cr);
    (row * width + col + 3 + 0, wrap_u16 y2); (row * width + col + 3 + 1, wrap_u16 cb); (row * width + col + 3 + 2, wrap_u16 cr);
    ((row + 1) * width + col + 0, wrap_u16 y3); ((row + 1) * width + col + 1, wrap_u16 cb); ((row + 1) * width + col + 2, wrap_u16 cr);
    ((row + 1) * width + col + 3 + 0, wrap_u16 y4); ((row + 1) * width + col + 3 + 1, wrap_u16 cb); ((row + 1) * width + col + 3 + 2, wrap_u16 cr)]%nat.
Proof.
  intros. unfold set_yuv_420. rewrite !assert_true by lia. cbn [bind put_all].
  repeat (match goal with |- bind ?m _ = bind ?m _ => destruct m; cbn [bind]; auto end).
  now rewrite bind_ret.
Qed.
Lemma yuv422_puts out row col width y1 y2 cb cr :
  0 <= y1 -> 0 <= y2 -> 0 <= cb -> 0 <= cr ->
  set_yuv_422 out row col width y1 y2 cb cr =
  put_all out [(row * width + col + 0, wrap_u16 y1); (row * width + col + 1, wrap_u16 cb); (row * width + col + 2, wrap_u16 cr);
    (row * width + col + 3 + 0, wrap_u16 y2); (row * width + col + 3 + 1, wrap_u16 cb); (row * width + col + 3 + 2, wrap_u16 cr)]%nat.
Proof.
  intros. unfold set_yuv_422. rewrite !assert_true by lia. cbn [bind put_all].
  repeat (match goal with |- bind ?m _ = bind ?m _ => destruct m; cbn [bind]; auto end).
  now rewrite bind_ret.
Qed.

(** ** The interleaved picture *)
Lemma div_mod_at w r x : (x < w)%nat -> ((r * w + x) / w = r /\ (r * w + x) mod w = x)%nat.
Proof. intros H. split.
  - rewrite Nat.div_add_l by lia. rewrite (Nat.div_small x) by auto. lia.
  - rewrite Nat.add_comm. rewrite Nat.mod_add by lia. now apply Nat.mod_small. Qed.
Lemma inter_at v q r c : 
  interleaved v q r (6 * c + 0) = pl_y q r (2 * c) /\ interleaved v q r (6 * c + 1) = pl_cb q (r / v) c /\ interleaved v q r (6 * c + 2) = pl_cr q (r / v) c /\
  interleaved v q r (6 * c + 3) = pl_y q r (2 * c + 1) /\ interleaved v q r (6 * c + 4) = pl_cb q (r / v) c /\ interleaved v q r (6 * c + 5) = pl_cr q (r / v) c.
Proof.
  assert (M : forall k, ((6 * c + k) mod 3 = k mod 3)%nat).
  { intros k. replace (6 * c + k)%nat with (k + (2 * c) * 3)%nat by lia. now rewrite Nat.mod_add by lia. }
  assert (D3 : forall k, ((6 * c + k) / 3 = 2 * c + k / 3)%nat).
  { intros k. replace (6 * c + k)%nat with ((2 * c) * 3 + k)%nat by lia. now rewrite Nat.div_add_l by lia. }
  assert (D6 : forall k, ((6 * c + k) / 6 = c + k / 6)%nat).
  { intros k. replace (6 * c + k)%nat with (c * 6 + k)%nat by lia. now rewrite Nat.div_add_l by lia. }
  unfold interleaved. rewrite !M, !D3, !D6. cbn [Nat.modulo Nat.divmod Nat.div fst snd Nat.sub]. rewrite !Nat.add_0_r. repeat split.
Qed.

(** ** The loops over the blocks *)
Lemma step_mul v n : (1 <= v)%nat -> step_range 0 (v * n) v = map (fun i => (v * i)%nat) (seq 0 n).
Proof.
  intros H. unfold step_range. replace ((v * n - 0 + (v - 1)) / v)%nat with n.
  - apply map_ext. intros i. lia.
  - rewrite Nat.sub_0_r, Nat.mul_comm. rewrite Nat.div_add_l by lia. rewrite Nat.div_small by lia. lia.
Qed.
Lemma step_from v n : (1 <= v)%nat -> (1 <= n)%nat -> step_range v (v * n) v = map (fun i => (v * i)%nat) (seq 1 (n - 1)).
Proof.
  intros H Hn. unfold step_range. replace ((v * n - v + (v - 1)) / v)%nat with (n - 1)%nat.
  - rewrite <- seq_shift, map_map. apply map_ext. intros i. lia.
  - replace (v * n - v)%nat with ((n - 1) * v)%nat by nia. rewrite Nat.div_add_l by lia. rewrite Nat.div_small by lia. lia.
Qed.
Lemma block_loop {A} v bw bh (I : nat -> nat -> A -> Prop) blk st0 : (1 <= v)%nat -> (1 <= bw)%nat -> (1 <= bh)%nat ->
  (forall r c st, (r < bh)%nat -> (c < bw)%nat -> (r = 0 -> c <> 0)%nat -> I r c st -> exists st', blk (v * r)%nat (6 * c)%nat st = Ok st' /\ I r (S c) st') ->
  (forall r st, I r bw st -> I (S r) 0%nat st) -> I 0%nat 1%nat st0 ->
  exists st', for_each (map (fun i => (v * i)%nat) (seq 0 bh)) (fun row st =>
    for_each (step_range (if (row =? 0)%nat then 6 else 0) (6 * bw) 6) (fun col st => blk row col st) st) st0 = Ok st' /\ I bh 0%nat st'.
Proof.
  intros Hv Hw Hh HB HN H0. rewrite for_each_map.
  destruct (for_each_seq_inv (fun i st => for_each (step_range (if (v * i =? 0)%nat then 6 else 0) (6 * bw) 6) (fun col st => blk (v * i)%nat col st) st)
     (fun i st => I i (if (i =? 0)%nat then 1 else 0)%nat st) 0 bh st0) as (st' & E & X); auto.
  - intros i st Hi H. replace (S i =? 0)%nat with false by lia.
    destruct (Nat.eqb_spec i 0) as [->|N].
    + rewrite Nat.mul_0_r. cbn [Nat.eqb]. rewrite step_from by lia. rewrite for_each_map.
      destruct (for_each_seq_inv (fun c st => blk 0%nat (6 * c)%nat st) (fun c st => I 0%nat c st) 1 (bw - 1) st) as (s2 & E2 & X2); auto.
      * intros c s Hc Hs. pose proof (HB 0%nat c s ltac:(lia) ltac:(lia) ltac:(lia) Hs) as X. rewrite Nat.mul_0_r in X. exact X.
      * exists s2. split; [exact E2|]. apply HN. replace bw with (1 + (bw - 1))%nat by lia. exact X2.
    + replace (v * i =? 0)%nat with false by nia. rewrite step_mul by lia. rewrite for_each_map.
      destruct (for_each_seq_inv (fun c st => blk (v * i)%nat (6 * c)%nat st) (fun c st => I i c st) 0 bw st) as (s2 & E2 & X2); auto.
      * intros c s Hc Hs. apply HB; auto; lia.
      * exists s2. split; [exact E2|]. apply HN. exact X2.
  - exists st'. split; [exact E|]. replace (0 + bh =? 0)%nat with false in X by lia. exact X.
Qed.

(** ** Decoding *)
Section Yuv.
Context (bug : bool) (d : ljdec) (tabs : list (list nat * list nat)) (v bw bh : nat) (q : planes).
Context (HU : usable bug d tabs) (HT3 : length tabs = 3%nat).
Context (Hv : (1 <= v <= 2)%nat) (Hbw : (1 <= bw)%nat) (Hbh : (1 <= bh)%nat) (HF : fits16 v bw bh q).
Let w := (6 * bw)%nat.
Let h := (v * bh)%nat.
Let n := (2 * v + 2)%nat.
Let xt := block_tabs v tabs.
Let bits := byte_bits (unstuff (ld_buffer d)).
Let dif := diff_no bug xt bits.
Let pic := interleaved v q.

Lemma xt_len : length xt = n.
Proof. clear - Hv. unfold xt, block_tabs, n. rewrite app_length, repeat_length. cbn [length]. lia. Qed.
Lemma xt_turn c k : (k < n)%nat -> turn xt (n * c + k) = nth k xt ([], []).
Proof. clear - Hv. intros H. unfold turn. rewrite xt_len. f_equal. rewrite Nat.mul_comm, Nat.add_comm. rewrite Nat.mod_add by (unfold n; lia). now apply Nat.mod_small. Qed.
Lemma xt_y k : (k < 2 * v)%nat -> nth k xt ([], []) = tab tabs 0.
Proof. clear. intros H. unfold xt, block_tabs. rewrite app_nth1 by (rewrite repeat_length; auto). now apply nth_repeat_lt. Qed.
Lemma xt_cb : nth (2 * v) xt ([], []) = tab tabs 1.
Proof. clear. unfold xt, block_tabs. rewrite app_nth2 by (rewrite repeat_length; auto). rewrite repeat_length, Nat.sub_diag. reflexivity. Qed.
Lemma xt_cr : nth (2 * v + 1) xt ([], []) = tab tabs 2.
Proof. clear. unfold xt, block_tabs. rewrite app_nth2 by (rewrite repeat_length; lia). rewrite repeat_length. replace (2 * v + 1 - 2 * v)%nat with 1%nat by lia. reflexivity. Qed.

Definition holds (t : hufft) (c : nat) : Prop := ht_dng_bug t = bug /\ atable t (fst (tab tabs c)) (snd (tab tabs c)).
Lemma tables : exists t1 t2 t3, htable d 0 = Ok t1 /\ htable d 1 = Ok t2 /\ htable d 2 = Ok t3 /\ holds t1 0 /\ holds t2 1 /\ holds t3 2.
Proof. clear - HU HT3.
  destruct (usable_tables bug d tabs HU 0 ltac:(lia)) as (t1 & E1 & B1 & A1).
  destruct (usable_tables bug d tabs HU 1 ltac:(lia)) as (t2 & E2 & B2 & A2).
  destruct (usable_tables bug d tabs HU 2 ltac:(lia)) as (t3 & E3 & B3 & A3).
  exists t1, t2, t3. unfold holds, tab. auto 10.
Qed.

Lemma add_any t c k prev p b : holds t c -> turn xt k = tab tabs c -> jpeg_rep 32 p (after bug xt bits k) ->
  b = prev + dif k -> 0 <= b < 65536 ->
  exists p', add_diff t prev p = Ok (b, p') /\ jpeg_rep 32 p' (after bug xt bits (S k)).
Proof. clear.
  intros [Eb A] M R -> HV. unfold add_diff.
  destruct (huff_decode_any jpeg_ops jpeg_rep jpeg_refines t _ _ 32 p _ A (Nat.le_refl _) R) as (p' & E1 & R1).
  exists p'. rewrite <- surjective_pairing, Eb in E1, R1. unfold dif, diff_no in *. rewrite M in *. rewrite E1. cbn [bind].
  rewrite i32_ok by lia. split; [reflexivity|]. cbn [after]. rewrite M. destruct R1 as [I S]. split; auto.
Qed.

Definition done (r c r' x : nat) : Prop := (r' < v * r \/ r' < v * S r /\ x < 6 * c)%nat.
Definition yinv (r c : nat) (st : list Z * jpump) : Prop :=
  length (fst st) = (w * h)%nat /\
  (forall r' x, (r' < h)%nat -> (x < w)%nat -> done r c r' x -> nth (r' * w + x) (fst st) 0 = pic r' x) /\
  jpeg_rep 32 (snd st) (after bug xt bits (n * (r * bw + c))).
Lemma yinv_next r st : yinv r bw st -> yinv (S r) 0 st.
Proof. clear.
  intros (L & A & R). split; [auto|]. split.
  - intros r' x Hr Hx D. apply A; auto. unfold done, w in *. lia.
  - replace (S r * bw + 0)%nat with (r * bw + bw)%nat by lia. auto.
Qed.
Lemma yinv_all st : yinv bh 0 st -> fst st = samples pic w h.
Proof. clear - Hbw Hv.
  intros (L & A & _). apply (nth_ext_len _ _ 0); [unfold samples; rewrite map_length, seq_length; auto|].
  intros i Hi. rewrite samples_nth by lia. assert (w <> 0)%nat by (unfold w; lia).
  assert (i / w < h)%nat by (apply Nat.div_lt_upper_bound; lia). pose proof (Nat.mod_upper_bound i w ltac:(auto)) as MB.
  rewrite <- (A (i / w)%nat (i mod w)%nat); auto; [|unfold done, h in *; lia].
  f_equal. pose proof (Nat.div_mod i w ltac:(auto)). lia.
Qed.
(** reading a decoded cell *)
Lemma cell r c st r' c' k i : yinv r c st -> (r' < h)%nat -> (c' < bw)%nat -> (k < 6)%nat -> done r c r' (6 * c' + k) -> i = (r' * w + (6 * c' + k))%nat ->
  get (fst st) i = Ok (pic r' (6 * c' + k)).
Proof. clear.
  intros (L & A & _) Hr Hc Hk D ->. assert (X : (6 * c' + k < w)%nat) by (unfold w; lia).
  rewrite (get_ok _ _ 0) by nia. now rewrite A.
Qed.
Lemma y_range r c : (r < v * bh)%nat -> (c < 2 * bw)%nat -> 0 <= pl_y q r c < 65536.
Proof. apply HF. Qed.
Lemma cb_range r c : (r < bh)%nat -> (c < bw)%nat -> 0 <= pl_cb q r c < 65536.
Proof. apply HF. Qed.
Lemma cr_range r c : (r < bh)%nat -> (c < bw)%nat -> 0 <= pl_cr q r c < 65536.
Proof. apply HF. Qed.
Lemma wrap16 z : 0 <= z < 65536 -> wrap_u16 z = z.
Proof. clear. intros. unfold wrap_u16. now apply Z.mod_small. Qed.
Lemma div_v r k : (k < v)%nat -> ((v * r + k) / v = r)%nat.
Proof. clear - Hv. intros. rewrite Nat.mul_comm. rewrite Nat.div_add_l by lia. rewrite Nat.div_small by auto. lia. Qed.
Let F j := pic (j / w) (j mod w).
Lemma F_at r x : (x < w)%nat -> F (r * w + x) = pic r x.
Proof. clear. intros H. unfold F. destruct (div_mod_at w r x H) as [-> ->]. reflexivity. Qed.
(** a list of writes that fills a block *)
Lemma block_puts r c l out p : (r < bh)%nat -> (c < bw)%nat ->
  (forall i z, In (i, z) l -> exists k m, (k < v)%nat /\ (m < 6)%nat /\ i = ((v * r + k) * w + (6 * c + m))%nat /\ z = pic (v * r + k) (6 * c + m)) ->
  (forall k m, (k < v)%nat -> (m < 6)%nat -> In ((v * r + k) * w + (6 * c + m))%nat (map fst l)) ->
  length out = (w * h)%nat ->
  (forall r' x, (r' < h)%nat -> (x < w)%nat -> done r c r' x -> nth (r' * w + x) out 0 = pic r' x) ->
  jpeg_rep 32 p (after bug xt bits (n * (r * bw + S c))) ->
  exists out', put_all out l = Ok out' /\ yinv r (S c) (out', p).
Proof. clear - Hv Hbw F.
  intros Hr Hc HL HA L A R. assert (HX : forall m, (m < 6)%nat -> (6 * c + m < w)%nat) by (unfold w; lia).
  assert (HRH : forall k, (k < v)%nat -> (v * r + k < h)%nat) by (intros k Hk; unfold h; nia).
  destruct (put_all_ok F l out) as (out' & E & L' & P1 & P2).
  { intros i z Hi. destruct (HL i z Hi) as (k & m & Hk & Hm & -> & ->). specialize (HX m Hm). specialize (HRH k Hk). split; [nia|]. now rewrite F_at. }
  exists out'. split; [exact E|]. split; [cbn [fst]; lia|]. split; [|exact R].
  cbn [fst]. intros r' x Hr' Hx D.
  assert (DD : done r c r' x \/ (exists k m, (k < v)%nat /\ (m < 6)%nat /\ r' = (v * r + k)%nat /\ x = (6 * c + m)%nat)).
  { unfold done in *. destruct (Nat.lt_ge_cases r' (v * r)); [left; lia|]. destruct (Nat.lt_ge_cases x (6 * c)); [left; lia|].
    right. exists (r' - v * r)%nat, (x - 6 * c)%nat. nia. }
  destruct DD as [D'|(k & m & Hk & Hm & -> & ->)].
  - rewrite <- F_at by auto. apply P2. rewrite F_at by auto. now apply A.
  - rewrite P1 by (apply HA; auto). apply F_at. auto.
Qed.
End Yuv.
