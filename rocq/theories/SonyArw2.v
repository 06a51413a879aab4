(** Sony ARW2: the decoder reads blocks as specified. *)
From Coq Require Import List ZArith Lia Bool.
From Coq Require Import ZifyBool ZifyNat.
From Verif Require Import Base BaseLemmas Pumps PumpProofs PumpSeq HuffTree HuffCanon HuffBuild HuffDec Bits BitsSpec BitsProofs Crx CrxLL CrxImageSpec PefSpec NefSpec NefRows Sony SonySpec.
Import ListNotations.
Open Scope Z_scope.

Lemma le_value_val bs : le_value bs = le_val bs.
Proof. induction bs as [|b bs IH]; [reflexivity|]. cbn [le_value le_val]. now rewrite IH. Qed.
Lemma lsb_get k p V n : lsb_rep k p V -> (n <= k)%nat -> (n <= 32)%nat ->
  exists p', get_bits lsb_ops n p = Ok (V mod 2 ^ Z.of_nat n, p') /\ lsb_rep (k - n) p' (V / 2 ^ Z.of_nat n).
Proof.
  intros R H1 H2. unfold get_bits. destruct (Nat.eqb_spec n 0) as [->|N].
  - exists p. change (2 ^ Z.of_nat 0) with 1. rewrite Z.mod_1_r, Z.div_1_r, Nat.sub_0_r. auto.
  - destruct (lsb_peek_spec k p V n R H1 H2) as (p1 & E1 & R1 & C). rewrite E1. cbn [bind]. destruct (C n ltac:(lia)) as (p2 & E2 & R2). rewrite E2. cbn [bind]. eauto.
Qed.
Lemma lsb_new src k : Forall is_byte src -> (k <= 8 * length src)%nat -> lsb_rep k (wpump_new src) (le_val src).
Proof.
  intros. unfold lsb_rep, lsb_den, wpump_new. cbn [w_bits w_nbits w_rest]. change (2 ^ Z.of_nat 0) with 1. repeat split; auto; lia.
Qed.

Lemma div_pow V a b : V / 2 ^ Z.of_nat a / 2 ^ Z.of_nat b = V / 2 ^ Z.of_nat (a + b).
Proof. rewrite Z.div_div by (try apply Z.pow_nonzero; try apply Z.pow_pos_nonneg; lia). now rewrite <- Z.pow_add_r, Nat2Z.inj_add by lia. Qed.

Lemma lead0_bits n : forall v, 0 <= v < 2 ^ Z.of_nat n -> Z.of_nat (lead0 (bits_of n v)) = Z.of_nat n - (if v =? 0 then 0 else Z.log2 v + 1).
Proof.
  induction n; intros v Hv.
  - change (2 ^ Z.of_nat 0) with 1 in Hv. replace v with 0 by lia. reflexivity.
  - cbn [bits_of lead0]. rewrite Z.testbit_eqb by lia. destruct (Z.lt_ge_cases v (2 ^ Z.of_nat n)) as [H|H].
    + rewrite Z.div_small by lia. cbn [Z.modulo Z.eqb]. change ((0 mod 2 =? 1)) with false. cbv iota. rewrite Nat2Z.inj_succ, IHn by lia. lia.
    + assert (P : 0 < 2 ^ Z.of_nat n) by (apply Z.pow_pos_nonneg; lia).
      assert (E : 2 ^ Z.of_nat (S n) = 2 * 2 ^ Z.of_nat n) by (rewrite Nat2Z.inj_succ, Z.pow_succ_r; lia).
      replace (v / 2 ^ Z.of_nat n) with 1 by (apply (Z.div_unique v (2 ^ Z.of_nat n) 1 (v - 2 ^ Z.of_nat n)); lia).
      change (1 mod 2 =? 1) with true. cbv iota. replace (v =? 0) with false by lia.
      assert (L : Z.log2 v = Z.of_nat n) by (apply Z.log2_unique; [lia|]; rewrite <- Nat2Z.inj_succ; lia). lia.
Qed.
Lemma shift_excess d : 0 <= d < 2 ^ 32 -> arw2_shift d = excess d.
Proof.
  intros H. unfold arw2_shift, excess, leading_zeros32. rewrite (lead0_bits 32) by exact H. destruct (Z.eqb_spec d 0); lia.
Qed.
Lemma excess_range d : 0 <= d < 2048 -> 0 <= excess d <= 4.
Proof.
  intros H. unfold excess. destruct (Z.eqb_spec d 0); [lia|]. assert (Z.log2 d < 11) by (apply Z.log2_lt_pow2; lia). lia.
Qed.
Lemma others_S a b i : length (others a b (S i)) = (length (others a b i) + (if (i =? a) || (i =? b) then 0 else 1))%nat.
Proof.
  unfold others. rewrite seq_S, filter_app, app_length. cbn [plus filter]. destruct (i =? a)%nat, (i =? b)%nat; cbn; lia.
Qed.
Lemma others_mono a b i m : (i <= m)%nat -> (length (others a b i) <= length (others a b m))%nat.
Proof. induction 1 as [|m Hm IH]; [lia|]. rewrite others_S. lia. Qed.
Lemma nat_eqb i z : 0 <= z -> (Z.of_nat i =? z) = (i =? Z.to_nat z)%nat.
Proof. intros. destruct (Z.eqb_spec (Z.of_nat i) z), (Nat.eqb_spec i (Z.to_nat z)); lia. Qed.
Lemma bits_at_range o n V : 0 <= bits_at o n V < 2 ^ Z.of_nat n.
Proof. apply Z.mod_pos_bound. apply Z.pow_pos_nonneg; lia. Qed.
Lemma block_value_range V i : block_min V <= block_max V -> 0 <= block_value V i <= 2047.
Proof.
  intros H. unfold block_value. pose proof (bits_at_range 0 11 V) as A. pose proof (bits_at_range 11 11 V) as B. fold (block_max V) in A. fold (block_min V) in B.
  change (2 ^ Z.of_nat 11) with 2048 in *. destruct (i =? block_imax V)%nat; [lia|]. destruct (i =? block_imin V)%nat; [lia|].
  match goal with |- context [bits_at ?o 7 V] => pose proof (bits_at_range o 7 V) as C; set (x := bits_at o 7 V) in * end.
  assert (0 < 2 ^ excess (block_max V - block_min V)) by (apply Z.pow_pos_nonneg; [lia|]; apply excess_range; lia). nia.
Qed.

Definition ord (c : nat) : nat := (16 * block_no c + block_ix c)%nat.
Local Ltac Zify.zify_post_hook ::= Z.div_mod_to_equations.
Lemma ord_inj c c' : ord c = ord c' -> c = c'.
Proof. unfold ord, block_no, block_ix. lia. Qed.
Lemma block_no_col q j i : (j < 2)%nat -> (i < 16)%nat -> block_no (32 * q + (j + i * 2)) = (2 * q + j)%nat.
Proof. unfold block_no. lia. Qed.
Lemma block_ix_col q j i : (j < 2)%nat -> (i < 16)%nat -> block_ix (32 * q + (j + i * 2)) = i.
Proof. unfold block_ix. lia. Qed.
Lemma col_inside q j i n : (2 * q + j < 2 * n)%nat -> (j < 2)%nat -> (i < 16)%nat -> (32 * q + (j + i * 2) < 32 * n)%nat.
Proof. lia. Qed.
Lemma stretch w : (32 * (w / 32) <= w)%nat.
Proof. lia. Qed.
Local Ltac Zify.zify_post_hook ::= idtac.
Section Row.
  Variables (curve : list Z) (lut : list (Z * Z * Z)) (w : nat) (V0 seed : Z).
  Hypothesis HC : lut_ok curve.
  Hypothesis HL : lut_new curve = Ok lut.
  Hypothesis HN : 4094 < Z.of_nat (length curve).
  Hypothesis Hseed : is_u32 seed.
  Local Notation B := (from_block V0).
  Hypothesis HM : forall k, (k < 2 * (w / 32))%nat -> block_min (B k) <= block_max (B k).
  Definition F (c : nat) : Z := dithered curve (Z.to_nat (2 * row_value V0 c)) (noise seed (ord c)).
  Definition wr (t : nat) (line : list Z) : Prop :=
    length line = w /\ forall c, (c < w)%nat -> nth c line 0 = if (c <? 32 * (w / 32))%nat && (ord c <? t)%nat then F c else 0.
  Lemma wr_put t line c : wr t line -> (c < 32 * (w / 32))%nat -> ord c = t -> exists line', put line c (F c) = Ok line' /\ wr (S t) line'.
  Proof.
    intros [L H] Hc Ho. pose proof (stretch w). assert (Hw : (c < w)%nat) by lia. rewrite put_ok by lia. eexists. split; [reflexivity|]. split; [now rewrite upd_list_length|].
    intros c' Hc'. destruct (Nat.eq_dec c' c) as [->|N].
    - rewrite nth_upd_eq by lia. replace (c <? 32 * (w / 32))%nat with true by lia. replace (ord c <? S t)%nat with true by lia. reflexivity.
    - rewrite nth_upd_neq by auto. rewrite H by auto. destruct (Nat.ltb_spec c' (32 * (w / 32))); cbn [andb]; [|reflexivity].
      assert (ord c' <> t) by (intros X; apply N, ord_inj; congruence). destruct (Nat.ltb_spec (ord c') t), (Nat.ltb_spec (ord c') (S t)); try lia; reflexivity.
  Qed.

  Lemma block_ok k p n q j line : (n < 2 * (w / 32))%nat -> n = (2 * q + j)%nat -> (j < 2)%nat -> lsb_rep k p (B n) -> (block_bits (B n) <= k)%nat -> wr (16 * n) line ->
    exists p' line', arw2_block lut (32 * q) j (noise seed (16 * n)) p line = Ok (noise seed (16 * S n), p', line') /\
      lsb_rep (k - block_bits (B n)) p' (B (S n)) /\ wr (16 * S n) line'.
  Proof.
    intros Hn En Hj R Hk HW. unfold arw2_block. set (V := B n) in *.
    assert (HK : (30 <= k)%nat) by (unfold block_bits in Hk; clear - Hk; lia).
    assert (K1 : (11 <= k)%nat) by (clear - HK; lia). assert (K2 : (11 <= k - 11)%nat) by (clear - HK; lia).
    assert (K3 : (4 <= k - 11 - 11)%nat) by (clear - HK; lia). assert (K4 : (4 <= k - 11 - 11 - 4)%nat) by (clear - HK; lia).
    assert (S11 : (11 <= 32)%nat) by (clear; lia). assert (S4 : (4 <= 32)%nat) by (clear; lia).
    destruct (lsb_get k p V 11 R K1 S11) as (p1 & E1 & R1). rewrite E1. cbn [bind].
    destruct (lsb_get _ _ _ 11 R1 K2 S11) as (p2 & E2 & R2). rewrite E2. cbn [bind]. rewrite div_pow in R2.
    assert (X1 : V mod 2 ^ Z.of_nat 11 = block_max V) by (unfold block_max, bits_at; change (2 ^ Z.of_nat 0) with 1; now rewrite Z.div_1_r).
    assert (X2 : V / 2 ^ Z.of_nat 11 mod 2 ^ Z.of_nat 11 = block_min V) by reflexivity. rewrite X1, X2.
    pose proof (HM n Hn) as HV. fold V in HV. pose proof (bits_at_range 0 11 V) as A0. pose proof (bits_at_range 11 11 V) as A1.
    fold (block_max V) in A0. fold (block_min V) in A1. change (2 ^ Z.of_nat 11) with 2048 in A0, A1.
    rewrite u32_ok by (clear - A0 A1 HV; lia). cbn [bind]. cbv zeta. rewrite shift_excess by (clear - A0 A1 HV; lia).
    destruct (lsb_get _ _ _ 4 R2 K3 S4) as (p3 & E3 & R3). rewrite E3. cbn [bind]. rewrite div_pow in R3.
    destruct (lsb_get _ _ _ 4 R3 K4 S4) as (p4 & E4 & R4). rewrite E4. cbn [bind]. rewrite div_pow in R4.
    cbn [plus] in *.
    change (V / 2 ^ Z.of_nat 22 mod 2 ^ Z.of_nat 4) with (bits_at 22 4 V). change (V / 2 ^ Z.of_nat 26 mod 2 ^ Z.of_nat 4) with (bits_at 26 4 V).
    pose proof (bits_at_range 22 4 V) as A2. pose proof (bits_at_range 26 4 V) as A3.
    match goal with |- context [for_each (seq 0 16) ?f ?s] =>
      destruct (for_each_seq_inv f (fun i '(random, p, line) => random = noise seed (16 * n + i) /\ wr (16 * n + i) line /\
        lsb_rep (k - (30 + 7 * length (others (block_imax V) (block_imin V) i))) p (V / 2 ^ Z.of_nat (30 + 7 * length (others (block_imax V) (block_imin V) i)))) 0 16 s)
        as ([[rd p'] line'] & E & -> & W' & R') end.
    - rewrite Nat.add_0_r. split; [reflexivity|]. split; [exact HW|]. change (30 + 7 * length (others (block_imax V) (block_imin V) 0))%nat with 30%nat.
      replace (k - 30)%nat with (k - 11 - 11 - 4 - 4)%nat by (clear - HK; lia). exact R4.
    - intros i [[rd pp] ln] Hi (-> & W & RR). set (o := (30 + 7 * length (others (block_imax V) (block_imin V) i))%nat) in *.
      pose proof (others_S (block_imax V) (block_imin V) i) as OS.
      assert (OB : (length (others (block_imax V) (block_imin V) (S i)) <= length (others (block_imax V) (block_imin V) 16))%nat) by (apply others_mono; clear - Hi; lia).
      assert (VAL : exists pp', (if Z.of_nat i =? bits_at 22 4 V then Ok (block_max V, pp)
          else if Z.of_nat i =? bits_at 26 4 V then Ok (block_min V, pp)
          else do (v, p) <- get_bits lsb_ops 7 pp; Ok (Z.min 2047 (Z.shiftl v (excess (block_max V - block_min V)) + block_min V), p)) = Ok (block_value V i, pp') /\
          lsb_rep (k - (30 + 7 * length (others (block_imax V) (block_imin V) (S i)))) pp' (V / 2 ^ Z.of_nat (30 + 7 * length (others (block_imax V) (block_imin V) (S i))))).
      { unfold block_value. rewrite (nat_eqb i (bits_at 22 4 V)), (nat_eqb i (bits_at 26 4 V)) by apply bits_at_range. fold (block_imax V) (block_imin V).
        destruct (Nat.eqb_spec i (block_imax V)) as [e|ne]; [|destruct (Nat.eqb_spec i (block_imin V)) as [e2|ne2]]; cbn [orb] in OS; rewrite OS.
        - exists pp. split; [reflexivity|]. rewrite Nat.add_0_r. exact RR.
        - exists pp. split; [reflexivity|]. rewrite Nat.add_0_r. exact RR.
        - destruct (lsb_get _ _ _ 7 RR) as (pp' & EG & RG); [unfold o; unfold block_bits in Hk; rewrite OS in OB; clear - OB Hk; lia|clear; lia|]. rewrite EG. cbn [bind].
          exists pp'. split.
          + do 3 f_equal. fold (bits_at o 7 V). rewrite Z.shiftl_mul_pow2 by (apply excess_range; clear - A0 A1 HV; lia). fold o. apply Z.add_comm.
          + rewrite div_pow in RG. replace (30 + 7 * (length (others (block_imax V) (block_imin V) i) + 1))%nat with (o + 7)%nat by (unfold o; clear; lia).
            replace (k - (o + 7))%nat with (k - o - 7)%nat by (clear; lia). exact RG. }
      destruct VAL as (pp' & EV & RV). rewrite EV. cbn [bind].
      pose proof (block_value_range V i HV) as VR. assert (VR2 : 0 <= 2 * block_value V i < 4095) by (clear - VR; lia). assert (HN2 : 4095 <= Z.of_nat (length curve)) by (clear - HN; lia).
      assert (WU : wrap_u16 (2 * block_value V i) = 2 * block_value V i) by (unfold wrap_u16; apply Z.mod_small; clear - VR; lia). rewrite WU.
      pose proof (noise_range seed (16 * n + i) Hseed) as NR.
      destruct (dither_exact curve lut (2 * block_value V i) (noise seed (16 * n + i)) HC HL (conj (proj1 VR2) (Z.lt_le_trans _ _ _ (proj2 VR2) HN2)) NR) as [ED _]. rewrite ED. cbn [bind].
      set (c := (32 * q + (j + i * 2))%nat).
      assert (BN : block_no c = n) by (unfold c; rewrite block_no_col; clear - Hi Hj En; lia). assert (BI : block_ix c = i) by (unfold c; apply block_ix_col; clear - Hi Hj; lia).
      assert (OC : ord c = (16 * n + i)%nat) by (unfold ord; rewrite BN, BI; reflexivity).
      assert (FC : dithered curve (Z.to_nat (2 * block_value V i)) (noise seed (16 * n + i)) = F c).
      { unfold F, row_value. rewrite OC, BN, BI. reflexivity. }
      rewrite FC. destruct (wr_put (16 * n + i) ln c W) as (ln' & EP & W'); [unfold c; apply col_inside; clear - Hn En Hi Hj; lia|exact OC|]. rewrite EP. cbn [bind].
      eexists. split; [reflexivity|]. replace (16 * n + S i)%nat with (S (16 * n + i)) by (clear; lia). split; [reflexivity|]. split; [exact W'|exact RV].
    - exists p', line'. replace (16 * S n)%nat with (16 * n + (0 + 16))%nat by (clear; lia). split; [exact E|]. split; [exact R'|exact W'].
  Qed.
End Row.

Lemma start_mono V a b : (a <= b)%nat -> (block_start V a <= block_start V b)%nat.
Proof. induction 1; cbn [block_start]; lia. Qed.
Lemma row_ok curve lut buf w r : lut_ok curve -> lut_new curve = Ok lut -> 4094 < Z.of_nat (length curve) -> Forall is_byte buf ->
  (r * w <= length buf)%nat -> row_fits (row_data buf w r) w ->
  arw2_row lut buf w r = Ok (arw2_line curve (le_value (row_data buf w r)) w).
Proof.
  intros HC HL HN HB Hr HF. unfold arw2_row. rewrite slice_ok by lia. cbn [bind].
  assert (ES : firstn (length buf - r * w) (skipn (r * w) buf) = row_data buf w r).
  { unfold row_data. apply firstn_all2. rewrite skipn_length. lia. }
  rewrite ES. set (src := row_data buf w r) in *. assert (HBs : Forall is_byte src).
  { unfold src, row_data. apply Forall_forall. intros x Hx. rewrite Forall_forall in HB. apply HB. rewrite <- (firstn_skipn (r * w) buf). apply in_or_app. auto. }
  red in HF. rewrite le_value_val in HF. rewrite le_value_val. set (V0 := le_val src) in *. destruct HF as (L2 & HS & HM).
  pose proof (lsb_new src (8 * length src) HBs ltac:(lia)) as R0. fold V0 in R0.
  destruct (lsb_peek_spec _ _ _ 16 R0 ltac:(lia) ltac:(lia)) as (p1 & E1 & R1 & _). rewrite E1. cbn [bind].
  change (2 ^ Z.of_nat 16) with 65536. set (seed := V0 mod 65536).
  assert (Hseed : is_u32 seed) by (unfold seed, is_u32; pose proof (Z.mod_pos_bound V0 65536 ltac:(lia)); lia).
  match goal with |- context [for_each (seq 0 (w / 32)) ?f ?s] =>
    destruct (for_each_seq_inv f (fun q '(random, p, line) => random = noise seed (16 * (2 * q)) /\ wr curve w V0 seed (16 * (2 * q)) line /\
      lsb_rep (8 * length src - block_start V0 (2 * q)) p (from_block V0 (2 * q))) 0 (w / 32) s) as ([[rd p'] line] & E & _ & [WL W] & _) end.
  - change (2 * 0)%nat with 0%nat. cbn [Nat.mul from_block block_start noise]. rewrite Nat.sub_0_r. split; [reflexivity|]. split; [|exact R1]. split; [apply repeat_length|].
    intros c Hc. rewrite nth_repeat_lt by auto. change (ord c <? 0)%nat with false. now rewrite andb_false_r.
  - intros q [[rd p] ln] Hq (-> & W & R). cbn [seq for_each].
    pose proof (start_mono V0 (S (S (2 * q))) (2 * (w / 32)) ltac:(lia)) as SM. cbn [block_start] in SM.
    assert (A1 : (2 * q < 2 * (w / 32))%nat) by lia. assert (A2 : (2 * q = 2 * q + 0)%nat) by lia.
    assert (A3 : (block_bits (from_block V0 (2 * q)) <= 8 * length src - block_start V0 (2 * q))%nat) by lia.
    destruct (block_ok curve lut w V0 seed HC HL HN Hseed HM _ p (2 * q) q 0 ln A1 A2 ltac:(lia) R A3 W) as (p2 & ln2 & E2 & R2 & W2). rewrite E2. cbn [bind].
    assert (A4 : (S (2 * q) < 2 * (w / 32))%nat) by lia. assert (A5 : (S (2 * q) = 2 * q + 1)%nat) by lia.
    assert (A6 : (block_bits (from_block V0 (S (2 * q))) <= 8 * length src - block_start V0 (2 * q) - block_bits (from_block V0 (2 * q)))%nat) by lia.
    destruct (block_ok curve lut w V0 seed HC HL HN Hseed HM _ p2 (S (2 * q)) q 1 ln2 A4 A5 ltac:(lia) R2 A6 W2) as (p3 & ln3 & E3 & R3 & W3). rewrite E3. cbn [bind].
    replace (2 * S q)%nat with (S (S (2 * q))) by lia. eexists. split; [reflexivity|]. split; [reflexivity|]. split; [exact W3|].
    replace (8 * length src - block_start V0 (S (S (2 * q))))%nat with (8 * length src - block_start V0 (2 * q) - block_bits (from_block V0 (2 * q)) - block_bits (from_block V0 (S (2 * q))))%nat by (cbn [block_start]; lia).
    exact R3.
  - rewrite E. cbn [bind]. f_equal. unfold arw2_line. apply (nth_ext_len _ _ 0); [now rewrite WL, map_length, seq_length|].
    intros c Hc. rewrite WL in Hc. rewrite nth_map_seq by auto. cbn [plus]. rewrite W by auto. destruct (Nat.ltb_spec c (32 * (w / 32))) as [H|H]; cbn [andb]; [|reflexivity].
    assert (O : (ord c < 16 * (2 * (0 + w / 32)))%nat).
    { unfold ord, block_no, block_ix. pose proof (Nat.div_mod c 32 ltac:(lia)). pose proof (Nat.mod_upper_bound c 32 ltac:(lia)). pose proof (Nat.mod_upper_bound c 2 ltac:(lia)).
      assert (c / 32 < w / 32)%nat by (apply Nat.div_lt_upper_bound; lia).
      assert (c mod 32 / 2 < 16)%nat by (apply Nat.div_lt_upper_bound; lia). lia. }
    apply Nat.ltb_lt in O. rewrite O. reflexivity.
Qed.

Theorem arw2_any curve lut buf w h : lut_ok curve -> lut_new curve = Ok lut -> 4094 < Z.of_nat (length curve) -> Forall is_byte buf -> (0 < w)%nat ->
  (forall r, (r < h)%nat -> row_fits (row_data buf w r) w) ->
  arw2_decode lut buf w h = Ok (flat_map (fun r => arw2_line curve (le_value (row_data buf w r)) w) (seq 0 h)).
Proof.
  intros HC HL HN HB Hw HR. unfold arw2_decode. unfold assert_. replace (0 <? w)%nat with true by lia. cbn [bind].
  match goal with |- context [for_each (seq 0 h) ?f ?s] =>
    destruct (for_each_seq_inv f (fun n out => out = flat_map (fun r => arw2_line curve (le_value (row_data buf w r)) w) (seq 0 n)) 0 h s) as (out & E & ->) end; auto.
  intros r out Hr ->. specialize (HR r ltac:(lia)). rewrite (row_ok curve); auto.
  - cbn [bind]. eexists. split; [reflexivity|]. rewrite seq_S, flat_map_app. cbn [plus flat_map]. now rewrite app_nil_r.
  - destruct (Nat.le_gt_cases (r * w) (length buf)); auto. exfalso. destruct HR as (L & _). unfold row_data in L. rewrite skipn_length in L. lia.
Qed.
