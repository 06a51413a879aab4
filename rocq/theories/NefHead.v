(** The maker note entry of NEF files. *)
From Coq Require Import List ZArith Lia Bool.
From Coq Require Import ZifyBool ZifyNat.
From Verif Require Import Base BaseLemmas Pumps PumpProofs LjpegEnc LjpegDec HuffTree HuffCanon HuffBuild HuffDec Bits BitsSpec Crx PefSpec Pef NefSpec.
Import ListNotations.
Open Scope Z_scope.

Lemma rd16_ok big l p : (p + 1 < length l)%nat -> rd16 big l p = Ok (u16_at big l p).
Proof. intros H. unfold rd16. rewrite (get_ok l p 0), (get_ok l (p + 1) 0) by lia. reflexivity. Qed.
Lemma u16_at_range big l p : Forall is_byte l -> 0 <= u16_at big l p <= 65535.
Proof.
  intros H. assert (B : forall k, 0 <= nth k l 0 < 256).
  { intros k. destruct (Nat.lt_ge_cases k (length l)); [|rewrite nth_overflow by auto; lia]. rewrite Forall_forall in H. apply (H _ (nth_In l 0 H0)). }
  unfold u16_at. pose proof (B p). pose proof (B (p + 1)%nat). destruct big; lia.
Qed.
Lemma identity_nth n j : (j < n)%nat -> nth j (map Z.of_nat (seq 0 n)) 0 = Z.of_nat j.
Proof. intros H. now rewrite nth_map_seq by auto. Qed.

Section Curve.
  Variable big : bool.
  Variable meta : list Z.
  Variable bps : nat.
  Hypothesis HO : head_ok big meta bps.
  Local Notation bits := (head_bits meta bps).
  Local Notation csize := (head_csize big meta).
  Local Notation step := (head_step big meta bps).
  Local Notation TOP := (Z.to_nat 65536).

  Lemma max_bound : (2 ^ bits <= Z.to_nat 32768)%nat.
  Proof.
    destruct HO as (_ & _ & HB & _). apply Nat2Z.inj_le. rewrite pow2_nat. pose proof (pow2_le bits 15 HB). change (2 ^ Z.of_nat 15) with 32768 in *. lia.
  Qed.
  Lemma step_mul : (step * (csize - 1) <= 2 ^ bits)%nat.
  Proof.
    unfold head_step. destruct (Nat.ltb_spec 1 csize); [|lia]. rewrite Nat.mul_comm. apply Nat.mul_div_le. lia.
  Qed.
  Lemma step_le : (1 < csize)%nat -> (step <= 2 ^ bits)%nat.
  Proof. intros H. pose proof step_mul. nia. Qed.

  (** points set from the stored knots *)
  Definition knotted (n j : nat) : Z := if ((j mod step =? 0) && (j / step <? n))%nat then head_point big meta (j / step) else Z.of_nat j.
  Lemma knots_ok : (0 < step)%nat -> (head_pos meta + 10 + 2 * csize <= length meta)%nat ->
    exists pts, for_each (seq 0 csize) (fun i points => do x <- rd16 big meta (head_pos meta + 8 + 2 + 2 * i); put points (i * step) x) (map Z.of_nat (seq 0 TOP)) = Ok pts /\
      length pts = TOP /\ forall j, (j < TOP)%nat -> nth j pts 0 = knotted csize j.
  Proof.
    intros HS HL. match goal with |- context [for_each (seq 0 csize) ?G ?S0] =>
      destruct (for_each_seq_inv G (fun n pts => length pts = TOP /\ forall j, (j < TOP)%nat -> nth j pts 0 = knotted n j) 0 csize S0) as (pts & E & I) end.
    - split; [now rewrite map_length, seq_length|]. intros j Hj. rewrite identity_nth by auto. unfold knotted. rewrite (proj2 (Nat.ltb_ge (j / step) 0) (Nat.le_0_l _)). now rewrite andb_false_r.
    - intros i pts Hi [L H]. rewrite rd16_ok by lia. cbn [bind].
      assert (BI : (i * step < TOP)%nat).
      { pose proof step_mul as A1. pose proof max_bound as A2. assert (A3 : (i * step <= (csize - 1) * step)%nat) by (apply Nat.mul_le_mono_r; lia). rewrite Nat.mul_comm in A1. lia. }
      rewrite put_ok by lia. eexists. split; [reflexivity|]. split; [now rewrite upd_list_length|].
      intros j Hj. destruct (Nat.eq_dec (i * step) j) as [<-|N].
      + rewrite nth_upd_eq by lia. unfold knotted. rewrite Nat.mod_mul, Nat.div_mul by lia. rewrite Nat.eqb_refl, (proj2 (Nat.ltb_lt i (S i))) by lia. cbn [andb].
        unfold head_point. f_equal. lia.
      + rewrite nth_upd_neq by lia. rewrite H by auto. unfold knotted. destruct (Nat.eqb_spec (j mod step) 0) as [M|M]; cbn [andb]; auto.
        assert (j / step <> i)%nat. { intros X. apply N. pose proof (Nat.div_mod j step ltac:(lia)). nia. }
        replace (j / step <? S i)%nat with (j / step <? i)%nat by lia. reflexivity.
    - exists pts. split; [exact E|exact I].
  Qed.
  Lemma knotted_knot k : (0 < step)%nat -> knotted csize (k * step) = head_knot big meta bps k.
  Proof.
    intros HS. unfold knotted, head_knot. rewrite Nat.mod_mul, Nat.div_mul by lia. rewrite Nat.eqb_refl. reflexivity.
  Qed.
  Lemma knot_range k : (k * step <= Z.to_nat 65535)%nat -> 0 <= head_knot big meta bps k <= 65535.
  Proof.
    intros H. unfold head_knot. destruct (k <? csize)%nat; [apply u16_at_range; apply HO|]. lia.
  Qed.

  Definition interp (i : nat) : Z := let b := (i mod step)%nat in
        (Z.of_nat (step - b) * head_knot big meta bps (i / step) + Z.of_nat b * head_knot big meta bps (i / step + 1)) / Z.of_nat step.
  Lemma interp_mul k : (0 < step)%nat -> interp (k * step) = head_knot big meta bps k.
  Proof.
    intros HS. unfold interp. rewrite Nat.mod_mul, Nat.div_mul by lia. rewrite Nat.sub_0_r. rewrite Z.mul_0_l, Z.add_0_r.
    rewrite Z.mul_comm. apply Z.div_mul. lia.
  Qed.
  Lemma interp_ok pts : (0 < step)%nat -> (1 < csize)%nat -> length pts = TOP -> (forall j, (j < TOP)%nat -> nth j pts 0 = knotted csize j) ->
    exists pts', for_each (seq 0 (2 ^ bits)) (fun i points =>
         let b_scale := (i mod step)%nat in
         let a_pos := (i - b_scale)%nat in
         let b_pos := (a_pos + step)%nat in
         let a_scale := (step - b_scale)%nat in
         do a <- get points a_pos;
         do b <- get points b_pos;
         put points i (wrap_u16 ((Z.of_nat a_scale * a + Z.of_nat b_scale * b) / Z.of_nat step))) pts = Ok pts' /\
      length pts' = TOP /\ forall j, (j < 2 ^ bits)%nat -> nth j pts' 0 = interp j.
  Proof.
    intros HS HC L HP. pose proof max_bound as MB. pose proof (step_le HC) as SL. match goal with |- context [for_each (seq 0 (2 ^ bits)) ?G ?S0] =>
      destruct (for_each_seq_inv G (fun n pts => length pts = TOP /\ (forall j, (j < n)%nat -> nth j pts 0 = interp j) /\ (forall j, (n <= j < TOP)%nat -> nth j pts 0 = knotted csize j)) 0 (2 ^ bits)%nat S0) as (pts' & E & I) end.
    - split; [auto|]. split; [lia|]. intros; apply HP; lia.
    - clear pts L HP. intros i pts Hi (L & H1 & H2). cbv zeta.
      pose proof (Nat.div_mod i step ltac:(lia)) as DM. pose proof (Nat.mod_upper_bound i step ltac:(lia)) as MU. set (b := (i mod step)%nat) in *. set (k := (i / step)%nat) in *.
      assert (EA : (i - b = k * step)%nat) by lia. rewrite EA.
      assert (EB : (k * step + step = (k + 1) * step)%nat) by lia. rewrite EB.
      assert (BB : ((k + 1) * step <= Z.to_nat 65535)%nat) by lia.
      rewrite (get_ok pts (k * step) 0) by (lia). rewrite (get_ok pts ((k + 1) * step) 0) by (lia). cbn [bind].
      assert (VA : nth (k * step) pts 0 = head_knot big meta bps k).
      { destruct (Nat.eq_dec b 0) as [B0|B0]; [rewrite H2 by (lia); apply knotted_knot; auto|rewrite H1 by lia; apply interp_mul; auto]. }
      assert (VB : nth ((k + 1) * step) pts 0 = head_knot big meta bps (k + 1)) by (rewrite H2 by (lia); apply knotted_knot; auto).
      rewrite VA, VB. assert (EI : (Z.of_nat (step - b) * head_knot big meta bps k + Z.of_nat b * head_knot big meta bps (k + 1)) / Z.of_nat step = interp i) by reflexivity.
      rewrite EI.
      assert (RI : 0 <= interp i <= 65535).
      { pose proof (knot_range k ltac:(lia)). pose proof (knot_range (k + 1) BB). rewrite <- EI. split; [apply Z.div_pos; nia|].
        apply Z.lt_succ_r. apply Z.div_lt_upper_bound; [lia|]. nia. }
      rewrite put_ok by (lia). eexists. split; [reflexivity|]. split; [now rewrite upd_list_length|]. unfold wrap_u16. rewrite Z.mod_small by lia. split.
      + intros j Hj. destruct (Nat.eq_dec i j) as [<-|N]; [now rewrite nth_upd_eq by (lia)|]. rewrite nth_upd_neq by auto. apply H1. lia.
      + intros j Hj. rewrite nth_upd_neq by lia. apply H2. lia.
    - exists pts'. split; [exact E|]. destruct I as (I1 & I2 & _). auto.
  Qed.
  (** points read one after the other *)
  Lemma table_pts : (head_pos meta + 10 + 2 * csize <= length meta)%nat -> (csize <= Z.to_nat 16385)%nat ->
    exists pts, for_each (seq 0 csize) (fun i points => do x <- rd16 big meta (head_pos meta + 8 + 2 + 2 * i); put points i x) (map Z.of_nat (seq 0 TOP)) = Ok pts /\
      length pts = TOP /\ forall j, (j < csize)%nat -> nth j pts 0 = head_point big meta j.
  Proof.
    intros HL HC. match goal with |- context [for_each (seq 0 csize) ?G ?S0] =>
      destruct (for_each_seq_inv G (fun n pts => length pts = TOP /\ forall j, (j < n)%nat -> nth j pts 0 = head_point big meta j) 0 csize S0) as (pts & E & I) end.
    - split; [now rewrite map_length, seq_length|]. lia.
    - intros i pts Hi [L H]. rewrite rd16_ok by lia. cbn [bind]. rewrite put_ok by (lia). eexists. split; [reflexivity|]. split; [now rewrite upd_list_length|].
      intros j Hj. destruct (Nat.eq_dec i j) as [<-|N].
      + rewrite nth_upd_eq by (lia). unfold head_point. f_equal. lia.
      + rewrite nth_upd_neq by auto. apply H. lia.
    - exists pts. split; [exact E|exact I].
  Qed.
  Lemma slice_map (f : nat -> Z) pts n : length pts = TOP -> (n <= TOP)%nat -> (forall j, (j < n)%nat -> nth j pts 0 = f j) -> slice pts 0 n = Ok (map f (seq 0 n)).
  Proof.
    intros L Hn H. rewrite slice_ok by lia. f_equal. apply (nth_ext_len _ _ 0).
    - cbn [skipn]. rewrite firstn_length, map_length, seq_length. lia.
    - intros i Hi. cbn [skipn] in *. rewrite firstn_length in Hi. rewrite nth_firstn by lia. rewrite H by lia. now rewrite nth_map_seq by lia.
  Qed.

  Lemma curve_ok : nef_curve big meta (version0 meta) (version1 meta) (head_pos meta + 8) bps = Ok (head_curve big meta bps, head_split big meta bps, head_bits meta bps).
  Proof.
    pose proof HO as (HB & HL & Hb & H2 & H564 & HC). pose proof max_bound as MB. unfold nef_curve.
    assert (RB : (if (version0 meta =? 68) && (version1 meta =? 64) then usub bps 2 else Ok bps) = Ok bits).
    { unfold head_bits. destruct (Z.eqb_spec (version0 meta) 68); cbn [andb]; auto. destruct (Z.eqb_spec (version1 meta) 64); auto. apply usub_ok. auto. }
    rewrite RB. cbn [bind]. replace (bits <? 64)%nat with true by lia. cbn [assert_ bind]. rewrite rd16_ok by lia. cbn [bind].
    fold (head_csize big meta). 
    change (if (1 <? csize)%nat then (2 ^ bits / (csize - 1))%nat else 0%nat) with step.
    fold (interpolated big meta bps). unfold head_curve, head_split. 
    change ((version0 meta =? 68) && ((version1 meta =? 32) || (version1 meta =? 64)) && (0 <? step)%nat) with (interpolated big meta bps).
    destruct (interpolated big meta bps) eqn:EI.
    - assert (HS : (0 < step)%nat) by (unfold interpolated in EI; lia).
      assert (HC1 : (1 < csize)%nat) by (unfold head_step in HS; destruct (Nat.ltb_spec 1 csize); lia).
      specialize (H564 eq_refl). specialize (HC (or_introl eq_refl)). 
      destruct (knots_ok HS HC) as (pts & E1 & L1 & P1). rewrite E1. cbn [bind].
      destruct (interp_ok pts HS HC1 L1 P1) as (pts' & E2 & L2 & P2). cbv zeta in E2. rewrite E2. cbn [bind]. rewrite rd16_ok by lia. cbn [bind].
      rewrite (slice_map interp pts') by (auto; lia). reflexivity.
    - assert (ET : negb (version0 meta =? 70) && (u16_at big meta (head_pos meta + 8) <=? 16385) = tabulated big meta bps).
      { unfold tabulated. rewrite EI. cbn [negb andb]. f_equal. unfold head_csize. pose proof (u16_at_range big meta (head_pos meta + 8) HB). lia. }
      rewrite ET. destruct (tabulated big meta bps) eqn:ETB.
      + specialize (HC (or_intror eq_refl)).  assert (HC2 : (csize <= Z.to_nat 16385)%nat) by (unfold tabulated in ETB; lia).
        destruct (table_pts HC HC2) as (pts & E1 & L1 & P1). rewrite E1. cbn [bind].
        rewrite (slice_map (head_point big meta) pts) by (auto; lia). reflexivity.
      + cbn [bind]. rewrite (slice_map Z.of_nat); [reflexivity|now rewrite map_length, seq_length|lia|].
        intros j Hj. apply identity_nth. lia.
  Qed.
End Curve.
