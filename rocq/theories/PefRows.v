(** The decoding loop of PEF files. *)
From Coq Require Import List ZArith Lia Bool.
From Coq Require Import ZifyBool ZifyNat.
From Verif Require Import Base BaseLemmas Pumps PumpProofs LjpegEnc LjpegDec HuffTree HuffCanon HuffBuild HuffDec LjpegAnySpec LjpegAny Crx CrxLL CrxImageSpec LjpegDecode PefSpec Lanes Pef.
Import ListNotations.
Open Scope Z_scope.

(** ** Output written in reading order *)
Definition filled (F : nat -> Z) (total n : nat) (out : list Z) : Prop :=
  length out = total /\ forall j, (j < n)%nat -> nth j out 0 = F j.
Lemma filled_put F total n out v : filled F total n out -> (n < total)%nat -> v = F n ->
  exists out', put out n v = Ok out' /\ filled F total (S n) out'.
Proof.
  intros [L H] Hn ->. rewrite put_ok by lia. eexists. split; [reflexivity|]. split; [now rewrite upd_list_length|].
  intros j Hj. destruct (Nat.eq_dec j n) as [->|N]; [now rewrite nth_upd_eq by lia|]. rewrite nth_upd_neq by auto. apply H. lia.
Qed.
Lemma filled_all F total out : filled F total total out -> out = map F (seq 0 total).
Proof.
  intros [L H]. apply (nth_ext_len _ _ 0); [now rewrite map_length, seq_length|]. intros i Hi. rewrite nth_map_seq by lia. apply H. lia.
Qed.

(** ** Predictors of the row parities *)
Definition above (init : nat -> nat -> Z) (s : nat -> nat -> Z) (r c : nat) : Z :=
  if (2 <=? r)%nat then s (r - 2)%nat c else init r c.
Definition ups (init : nat -> nat -> Z) (s : nat -> nat -> Z) (r c : nat) (up : list Z) : Prop :=
  length up = 2%nat /\ forall k, (k < 2)%nat -> nth k up 0 = above init s (if (k =? r mod 2)%nat then r else S r) c.
Lemma ups_get init s r c up : ups init s r c up -> get up (r mod 2) = Ok (above init s r c).
Proof.
  intros [L H]. pose proof (Nat.mod_upper_bound r 2 ltac:(lia)). rewrite (get_ok _ _ 0) by lia. rewrite H by auto. now rewrite Nat.eqb_refl.
Qed.
Lemma ups_put init s r c up v : ups init s r c up -> v = s r c ->
  exists up', put up (r mod 2) v = Ok up' /\ ups init s (S r) c up'.
Proof.
  intros [L H] ->. pose proof (Nat.mod_upper_bound r 2 ltac:(lia)) as B. rewrite put_ok by lia. eexists. split; [reflexivity|].
  split; [now rewrite upd_list_length|]. intros k Hk.
  assert (E : (S r mod 2 = 1 - r mod 2)%nat).
  { pose proof (Nat.div_mod r 2 ltac:(lia)). pose proof (Nat.div_mod (S r) 2 ltac:(lia)). pose proof (Nat.mod_upper_bound (S r) 2 ltac:(lia)). lia. }
  destruct (Nat.eqb_spec k (S r mod 2)) as [K|K].
  - rewrite nth_upd_neq by lia. rewrite H by auto. replace (k =? r mod 2)%nat with false by lia. reflexivity.
  - replace k with (r mod 2)%nat by lia. rewrite nth_upd_eq by lia. unfold above. cbn [Nat.leb]. now replace (S (S r) - 2)%nat with r by lia.
Qed.

Section Rows.
  Variable t : hufft.
  Variables sz hv : list nat.
  Hypothesis D : atable t sz hv.
  Hypothesis Hbug : ht_dng_bug t = false.
  Variables w h : nat.
  Variable l0 : list bool.
  Let nx : nat -> list bool -> Z * list bool := fun _ => next_diff false (sz, hv).
  Hypothesis HD : data_for nx l0 (w * h).
  Variable init : nat -> nat -> Z.
  Variable s : nat -> nat -> Z.
  Hypothesis HS : lane_picture init (diff_at nx l0) w h s.
  Hypothesis Hinit : forall r c, 0 <= init r c <= 65535.
  Hypothesis HB : Z.of_nat (w + h) <= 65000.

  Definition at_diff (i : nat) (p : wpump) : Prop := msb_rep (length (bits_after nx l0 i)) p (bits_after nx l0 i).
  Lemma diff_size i : (-32768 <= diff_at nx l0 i <= 32768).
  Proof.
    unfold diff_at. set (B := bits_after nx l0 i). pose proof (proj2 (symbol_bounds t sz hv B D)) as C.
    unfold nx, next_diff. destruct (symbol (sz, hv) B) as [len cat]. cbn [fst snd] in *.
    unfold difference. destruct (Nat.eqb_spec cat 0); [lia|]. destruct (Nat.eqb_spec cat 16); [lia|].
    pose proof (peekv_range cat (skipn len B)).
    assert (2 ^ Z.of_nat cat <= 32768) by (apply (pow2_le cat 15); lia). destruct (_ <? _); lia.
  Qed.
  Lemma next_ok i p : (i < w * h)%nat -> at_diff i p -> exists p', huff_decode msb_ops t p = Ok (diff_at nx l0 i, p') /\ at_diff (S i) p'.
  Proof.
    intros Hi R. destruct (huff_decode_any msb_ops msb_rep msb_refines t sz hv _ p _ D (HD i Hi) R) as (p' & E & R').
    rewrite Hbug in E, R'. exists p'. split; [exact E|]. unfold at_diff. set (B := bits_after nx l0 i) in *.
    assert (EB : bits_after nx l0 (S i) = skipn (fst (symbol (sz, hv) B) + magnitude_bits false (snd (symbol (sz, hv) B))) B).
    { change (snd (next_diff false (sz, hv) B) = skipn (fst (symbol (sz, hv) B) + magnitude_bits false (snd (symbol (sz, hv) B))) B).
      unfold next_diff. now destruct (symbol (sz, hv) B). }
    rewrite EB, skipn_length. replace (snd (next_diff false (sz, hv) B)) with (bits_after nx l0 (S i)) in R' by reflexivity. rewrite EB in R'. exact R'.
  Qed.
  Lemma step_i32 r c : (r < h)%nat -> (c < w)%nat -> i32 (lane_pred init s r c + diff_at nx l0 (r * w + c)) = Ok (s r c).
  Proof.
    intros Hr Hc. rewrite <- HS by auto. apply i32_ok. apply (picture_i32 init (diff_at nx l0) w h s); auto. intros; apply diff_size.
  Qed.
  Hypothesis Hev : (w mod 2 = 0)%nat.
  Hypothesis Hw0 : (0 < w)%nat.

  Let F : nat -> Z := fun j => wrap_u16 (s (j / w)%nat (j mod w)%nat).
  Lemma F_at r c : (c < w)%nat -> F (r * w + c) = wrap_u16 (s r c).
  Proof.
    intros Hc. unfold F. replace (r * w + c)%nat with (c + r * w)%nat by lia. rewrite Nat.div_add, Nat.mod_add by lia.
    now rewrite Nat.div_small, Nat.mod_small by auto.
  Qed.

  Lemma rows_ok src : Forall is_byte src -> l0 = byte_bits src -> init = (fun _ _ => 0) ->
    pef_rows t src w h = Ok (map F (seq 0 (w * h))).
  Proof.
    intros HBy El Ei. unfold pef_rows.
    assert (W2 : (2 <= w)%nat) by (destruct w as [|[|]]; cbn in Hev; lia).
    match goal with |- context [for_each (seq 0 h) ?G ?S0] =>
      destruct (for_each_seq_inv G (fun r '(up1, up2, pump, out) => ups init s r 0 up1 /\ ups init s r 1 up2 /\ at_diff (r * w) pump /\ filled F (w * h) (r * w) out) 0 h S0)
        as (st & E & I) end.
    - split; [|split; [|split]].
      + split; [reflexivity|]. intros k Hk. unfold above. destruct k as [|[|k]]; [| |lia]; cbn; subst init; reflexivity.
      + split; [reflexivity|]. intros k Hk. unfold above. destruct k as [|[|k]]; [| |lia]; cbn; subst init; reflexivity.
      + unfold at_diff. cbn [Nat.mul bits_after]. rewrite El. apply msb_new_rep; auto. rewrite byte_bits_length. lia.
      + split; [now rewrite repeat_length|]. lia.
    - intros r [[[up1 up2] pump] out] Hr (U1 & U2 & R & O).
      assert (Brow : (S r * w <= h * w)%nat) by (apply Nat.mul_le_mono_r; lia). cbn [Nat.mul] in Brow.
      destruct (next_ok (r * w) pump) as (p1 & E1 & R1); [lia|auto|]. rewrite E1. cbn [bind]. rewrite (ups_get _ _ _ _ _ U1). cbn [bind].
      assert (X1 : i32 (above init s r 0 + diff_at nx l0 (r * w)) = Ok (s r 0%nat)).
      { pose proof (step_i32 r 0 ltac:(lia) Hw0) as X. unfold lane_pred in X. cbn [Nat.leb] in X. rewrite Nat.add_0_r in X. exact X. }
      rewrite X1. cbn [bind]. destruct (ups_put _ _ _ _ _ (s r 0%nat) U1 eq_refl) as (up1' & EU1 & U1'). rewrite EU1. cbn [bind].
      destruct (next_ok (S (r * w)) p1) as (p2 & E2 & R2); [lia|auto|]. rewrite E2. cbn [bind]. rewrite (ups_get _ _ _ _ _ U2). cbn [bind].
      assert (X2 : i32 (above init s r 1 + diff_at nx l0 (S (r * w))) = Ok (s r 1%nat)).
      { pose proof (step_i32 r 1 ltac:(lia) ltac:(lia)) as X. unfold lane_pred in X. cbn [Nat.leb] in X. replace (r * w + 1)%nat with (S (r * w)) in X by lia. exact X. }
      rewrite X2. cbn [bind]. destruct (ups_put _ _ _ _ _ (s r 1%nat) U2 eq_refl) as (up2' & EU2 & U2'). rewrite EU2. cbn [bind].
      rewrite Nat.add_0_r. destruct (filled_put F (w * h) (r * w) out (wrap_u16 (s r 0%nat)) O) as (o1 & EO1 & O1); [lia|symmetry; rewrite <- (F_at r 0 Hw0); f_equal; lia|].
      rewrite EO1. cbn [bind]. replace (r * w + 1)%nat with (S (r * w)) by lia.
      destruct (filled_put F (w * h) (S (r * w)) o1 (wrap_u16 (s r 1%nat)) O1) as (o2 & EO2 & O2); [lia|symmetry; rewrite <- (F_at r 1 ltac:(lia)); f_equal; lia|].
      rewrite EO2. cbn [bind].
      unfold step_range. rewrite for_each_map.
      replace ((w - 2 + (2 - 1)) / 2)%nat with ((w - 2) / 2)%nat.
      2:{ pose proof (Nat.div_mod w 2 ltac:(lia)) as DM. rewrite Hev in DM. replace (w - 2)%nat with (0 + (w / 2 - 1) * 2)%nat by lia.
          replace (0 + (w / 2 - 1) * 2 + (2 - 1))%nat with (1 + (w / 2 - 1) * 2)%nat by lia. rewrite !Nat.div_add by lia. reflexivity. }
      match goal with |- context [for_each (seq 0 ((w - 2) / 2)) ?G ?S0] =>
        destruct (for_each_seq_inv G (fun i '(l1, l2, pump, out) => l1 = s r (2 * i)%nat /\ l2 = s r (2 * i + 1)%nat /\ at_diff (r * w + 2 * i + 2) pump /\ filled F (w * h) (r * w + 2 * i + 2) out) 0 ((w - 2) / 2)%nat S0)
          as (st & E & I) end.
      + replace (r * w + 2 * 0 + 2)%nat with (S (S (r * w))) by lia. auto.
      + intros i [[[l1 l2] pm] o] Hi (-> & -> & Rp & Of).
        assert (Bi : (2 * i + 3 < w)%nat).
        { pose proof (Nat.div_mod w 2 ltac:(lia)) as DM. rewrite Hev in DM. pose proof (Nat.mul_div_le (w - 2) 2 ltac:(lia)). lia. }
        destruct (next_ok (r * w + 2 * i + 2) pm) as (p3 & E3 & R3); [lia|auto|]. rewrite E3. cbn [bind].
        assert (X3 : i32 (s r (2 * i)%nat + diff_at nx l0 (r * w + 2 * i + 2)) = Ok (s r (2 * i + 2)%nat)).
        { pose proof (step_i32 r (2 * i + 2) ltac:(lia) ltac:(lia)) as X. unfold lane_pred in X. replace (2 <=? 2 * i + 2)%nat with true in X by lia.
          replace (2 * i + 2 - 2)%nat with (2 * i)%nat in X by lia. rewrite Nat.add_assoc in X. exact X. }
        rewrite X3. cbn [bind]. destruct (next_ok (S (r * w + 2 * i + 2)) p3) as (p4 & E4 & R4); [lia|auto|]. rewrite E4. cbn [bind].
        assert (X4 : i32 (s r (2 * i + 1)%nat + diff_at nx l0 (S (r * w + 2 * i + 2))) = Ok (s r (2 * i + 3)%nat)).
        { pose proof (step_i32 r (2 * i + 3) ltac:(lia) ltac:(lia)) as X. unfold lane_pred in X. replace (2 <=? 2 * i + 3)%nat with true in X by lia.
          replace (2 * i + 3 - 2)%nat with (2 * i + 1)%nat in X by lia. replace (r * w + (2 * i + 3))%nat with (S (r * w + 2 * i + 2)) in X by lia. exact X. }
        rewrite X4. cbn [bind].
        replace (r * w + (2 + i * 2) + 0)%nat with (r * w + 2 * i + 2)%nat by lia.
        destruct (filled_put F (w * h) (r * w + 2 * i + 2) o (wrap_u16 (s r (2 * i + 2)%nat)) Of) as (o3 & EO3 & O3); [lia|symmetry; rewrite <- (F_at r (2 * i + 2)) by lia; f_equal; lia|].
        rewrite EO3. cbn [bind]. replace (r * w + (2 + i * 2) + 1)%nat with (S (r * w + 2 * i + 2)) by lia.
        destruct (filled_put F (w * h) (S (r * w + 2 * i + 2)) o3 (wrap_u16 (s r (2 * i + 3)%nat)) O3) as (o4 & EO4 & O4); [lia|symmetry; rewrite <- (F_at r (2 * i + 3)) by lia; f_equal; lia|].
        rewrite EO4. cbn [bind]. eexists. split; [reflexivity|].
        replace (2 * S i)%nat with (2 * i + 2)%nat by lia. replace (2 * i + 2 + 1)%nat with (2 * i + 3)%nat by lia.
        replace (r * w + (2 * i + 2) + 2)%nat with (S (S (r * w + 2 * i + 2))) by lia. auto.
      + rewrite E. cbn [bind]. destruct st as [[[l1 l2] pm] o]. destruct I as (_ & _ & Rp & Of). eexists. split; [reflexivity|].
        assert (EW : (r * w + 2 * (0 + (w - 2) / 2) + 2 = S r * w)%nat).
        { pose proof (Nat.div_mod w 2 ltac:(lia)) as DM. rewrite Hev in DM. replace (w - 2)%nat with (0 + (w / 2 - 1) * 2)%nat by lia. rewrite Nat.div_add by lia.
          change (0 / 2)%nat with 0%nat. cbn [Nat.mul]. lia. }
        rewrite EW in Rp, Of. exact (conj U1' (conj U2' (conj Rp Of))).
    - rewrite E. cbn [bind]. destruct st as [[[u1 u2] pm] o]. destruct I as (_ & _ & _ & Of). cbn [bind]. f_equal. apply filled_all.
      replace (w * h)%nat with ((0 + h) * w)%nat at 2 by lia. exact Of.
  Qed.
End Rows.
