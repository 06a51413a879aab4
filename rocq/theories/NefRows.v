(** The decoding loop of NEF files. *)
From Coq Require Import List ZArith Lia Bool.
From Coq Require Import ZifyBool ZifyNat.
From Verif Require Import Base BaseLemmas Pumps PumpProofs LjpegDec HuffDec Bits BitsSpec BitsProofs LjpegAnySpec LjpegAny Crx CrxLL CrxImageSpec LjpegDecode PefSpec Lanes Pef PefRows NefSpec NefHuff.
Import ListNotations.
Open Scope Z_scope.

(** ** The six codes *)
Lemma nth_pad (l : list nat) n k : nth k (l ++ repeat 0%nat n) 0%nat = nth k l 0%nat.
Proof.
  destruct (Nat.lt_ge_cases k (length l)); [now rewrite app_nth1 by auto|]. rewrite app_nth2 by auto. rewrite nth_repeat. now rewrite nth_overflow by auto.
Qed.
Lemma stable_ext t sz hv sh hv' sh' : stable t sz hv sh -> (forall k, (k < length sz)%nat -> nth k hv 0%nat = nth k hv' 0%nat /\ nth k sh 0%nat = nth k sh' 0%nat) -> stable t sz hv' sh'.
Proof.
  intros [A B C D E F] H. constructor; auto.
  - intros k Hk. destruct (H k Hk) as [<- <-]. auto.
  - intros l. destruct (F l) as (k & F1 & F2 & F3). exists k. split; [exact F1|]. split; [exact F2|]. destruct (H k F2) as [<- <-]. exact F3.
Qed.
Definition code_check (num : nat) : bool :=
  let '(bits, hv, sh) := nth num nikon_tree ([], [], []) in
  let '(sz, cats, shs) := nikon_code num in
  let b := firstn 15 bits ++ repeat 0%nat 2 in
  (if list_eq_dec Nat.eq_dec (sizes_of b) sz then true else false) && (1 <=? max_len b 16)%nat && (max_len b 16 <=? 13)%nat &&
  (length sz <=? 15)%nat && (kraft sz =? 65536) &&
  forallb (fun k => (nth k (firstn 15 hv) 0 =? nth k cats 0)%nat && (nth k (firstn 15 sh) 0 =? nth k shs 0)%nat && (nth k cats 0 + nth k shs 0 <=? 15)%nat) (seq 0 (length sz)).
Lemma create_ok num : (num < 6)%nat -> exists t, create_hufftable num = Ok t /\
  let '(sz, cats, shs) := nikon_code num in stable t sz cats shs.
Proof.
  intros H. assert (C : code_check num = true) by (do 6 (destruct num; [reflexivity|]); lia).
  unfold create_hufftable. rewrite (get_ok _ _ ([], [], [])) by (change (length nikon_tree) with 6%nat; auto). cbn [bind].
  unfold code_check in C. destruct (nth num nikon_tree ([], [], [])) as [[bits hv] sh]. destruct (nikon_code num) as [[sz cats] shs].
  rewrite !andb_true_iff in C. destruct C as (((((C1 & C2) & C3) & C4) & C5) & C6). destruct (list_eq_dec _ _ _) as [ES|]; [|discriminate].
  set (b := firstn 15 bits ++ repeat 0%nat 2) in *. rewrite forallb_forall in C6.
  assert (K : forall k, (k < length sz)%nat -> nth k (firstn 15 hv ++ repeat 0%nat 241) 0%nat = nth k cats 0%nat /\ nth k (firstn 15 sh ++ repeat 0%nat 241) 0%nat = nth k shs 0%nat /\ (nth k cats 0 + nth k shs 0 <= 15)%nat).
  { intros k Hk. specialize (C6 k ltac:(apply in_seq; lia)). rewrite !nth_pad. rewrite !andb_true_iff in C6. destruct C6 as ((X & Y) & Z0).
    apply Nat.eqb_eq in X. apply Nat.eqb_eq in Y. apply Nat.leb_le in Z0. auto. }
  destruct (shift_table b (firstn 15 hv ++ repeat 0%nat 241) (firstn 15 sh ++ repeat 0%nat 241)) as (t & Et & ST); rewrite ?ES; try lia.
  - rewrite app_length, repeat_length. lia.
  - rewrite app_length, repeat_length. lia.
  - intros k Hk. destruct (K k Hk) as (-> & -> & X). exact X.
  - exists t. split; [exact Et|]. rewrite ES in ST. apply (stable_ext _ _ _ _ _ _ ST). intros k Hk. destruct (K k Hk) as (X & Y & _). auto.
Qed.
Definition tabled (t : hufft) (num : nat) : Prop := let '(sz, cats, shs) := nikon_code num in stable t sz cats shs.
Lemma tabled_decode t num {P} (o : pump_ops P) rep (R : pump_refines o rep) n p l : tabled t num -> (28 <= n)%nat -> rep n p l ->
    exists p' c, huff_decode o t p = Ok (fst (next_shift (nikon_code num) l), p') /\ snd (next_shift (nikon_code num) l) = skipn c l /\
      rep (n - c)%nat p' (skipn c l) /\ -32768 < fst (next_shift (nikon_code num) l) < 32768.
Proof.
  unfold tabled. destruct (nikon_code num) as [[sz hv] sh]. intros D. apply decode_shift; auto.
Qed.

(** ** Samples *)
Lemma clampbits_ok bits v : (bits <= 16)%nat -> Pef.clampbits v bits = Ok (cut bits v).
Proof.
  intros H. unfold Pef.clampbits. replace (bits <? 31)%nat with true by lia. cbn [assert_ bind]. f_equal. unfold cut, wrap_u16.
  assert (1 <= 2 ^ Z.of_nat bits <= 65536) by (split; [pose proof (pow2_pos bits); lia|apply (pow2_le bits 16); auto]).
  destruct (Z.ltb_spec v 0); [rewrite Z.mod_small by lia; lia|]. destruct (Z.ltb_spec (2 ^ Z.of_nat bits - 1) v); rewrite Z.mod_small by lia; lia.
Qed.
Lemma cut_range bits v : 0 <= cut bits v < 2 ^ Z.of_nat bits.
Proof. unfold cut. pose proof (pow2_pos bits). lia. Qed.
Lemma noise_range seed n : is_u32 seed -> is_u32 (noise seed n).
Proof.
  intros H. induction n; [exact H|]. cbn [noise]. unfold is_u32 in *. pose proof (Z.mod_pos_bound (noise seed n) 65536 ltac:(lia)).
  assert (0 <= noise seed n / 65536 < 65536) by (split; [apply Z.div_pos; lia|apply Z.div_lt_upper_bound; lia]). lia.
Qed.
Lemma dither_exact curve l v rand : lut_ok curve -> lut_new curve = Ok l -> 0 <= v < Z.of_nat (length curve) -> is_u32 rand ->
  dither l v rand = Ok (dithered curve (Z.to_nat v) rand, 15700 * (rand mod 65536) + rand / 65536) /\ is_u16 (dithered curve (Z.to_nat v) rand).
Proof.
  intros HT EL Hv Hr. destruct (dither_ok curve l v rand HT EL Hv Hr) as (p & r & E & Hp & _).
  destruct (lut_new_ok curve HT) as (l' & EL' & HL & HV). rewrite EL in EL'. injection EL' as <-.
  assert (Hi : (Z.to_nat v < length curve)%nat) by lia. specialize (HV _ Hi).
  pose proof E as E2. unfold dither in E2. rewrite (get_ok l (Z.to_nat v) (0, 0, 0)) in E2 by lia. rewrite HV in E2. cbn [bind] in E2. cbv zeta in E2.
  apply bind_ok in E2 as (u1 & A1 & E2). apply bind_ok in E2 as (u2 & A2 & E2). injection E2 as <- <-. rewrite E.
  destruct HT as [HF HT]. destruct (HT _ Hi) as (H1 & H2 & H3).
  set (c := nth (Z.to_nat v) curve 0) in *. set (d := step_of curve (Z.to_nat v)) in *.
  assert (HC : is_u16 c) by (rewrite Forall_forall in HF; apply HF, nth_In; auto). unfold is_u16 in *.
  assert (W : wrap_u16 (dithered curve (Z.to_nat v) rand) = dithered curve (Z.to_nat v) rand).
  { unfold dithered, wrap_u16. fold c d. pose proof (Z.mod_pos_bound rand 2048 ltac:(lia)) as HM.
    assert (0 <= (d * (rand mod 2048) + 1024) / 4096 <= (d * 2047 + 1024) / 4096) by (split; [apply Z.div_pos; nia|apply Z.div_le_mono; nia]).
    assert (T3 : 2 * ((d * 2047 + 1024) / 4096) <= d).
    { assert ((d * 2047 + 1024) / 4096 < d / 2 + 1); [|pose proof (Z.mul_div_le d 2 ltac:(lia)); lia].
      pose proof (Z.div_mod d 2 ltac:(lia)). pose proof (Z.mod_pos_bound d 2 ltac:(lia)). apply Z.div_lt_upper_bound; lia. }
    apply Z.mod_small. destruct (Z.eqb_spec c 0); [lia|]. specialize (H2 n). lia. }
  unfold dithered in W at 1. fold c d in W. rewrite W. split; [reflexivity|]. rewrite <- W. exact Hp.
Qed.

Section Rows.
  Variables w h sel split bits : nat.
  Variable curve : list Z.
  Variable lut : list (Z * Z * Z).
  Hypothesis HC : lut_ok curve.
  Hypothesis HL : lut_new curve = Ok lut.
  Hypothesis Hbits : (bits <= 16)%nat.
  Hypothesis Hlen : (2 ^ bits <= length curve)%nat.
  Hypothesis Hsel : (sel < 6)%nat.
  Hypothesis Hsplit : (0 < split)%nat -> (S sel < 6)%nat.
  Variable l0 : list bool.
  Definition rcode (r : nat) : nat := if ((0 <? split) && (split <=? r))%nat then S sel else sel.
  Definition nx : nat -> list bool -> Z * list bool := fun i => next_shift (nikon_code (rcode (i / w))).
  Hypothesis HD : data_for nx l0 (w * h).
  Variable init : nat -> nat -> Z.
  Variable s : nat -> nat -> Z.
  Hypothesis HS : lane_picture init (diff_at nx l0) w h s.
  Hypothesis Hinit : forall r c, 0 <= init r c <= 65535.
  Hypothesis HB : Z.of_nat (w + h) <= 65000.

  Definition at_d (i : nat) (p : wpump) : Prop := msb_rep (length (bits_after nx l0 i)) p (bits_after nx l0 i).
  Lemma rcode_lt r : (rcode r < 6)%nat.
  Proof. unfold rcode. destruct (Nat.ltb_spec 0 split); cbn [andb]; auto. destruct (split <=? r)%nat; auto. Qed.
  Lemma diff_sz i : (-32768 <= diff_at nx l0 i <= 32768).
  Proof.
    unfold diff_at, nx. set (B := bits_after _ l0 i). destruct (create_ok (rcode (i / w)) (rcode_lt _)) as (t & _ & T).
    unfold next_shift. destruct (nikon_code (rcode (i / w))) as [[sz hv] sh].
    destruct (st_look _ _ _ _ T B) as (k & F1 & F2 & _). unfold found in F1. rewrite F1. cbn [fst].
    pose proof (shift_diff_range (nth k hv 0%nat) (nth k sh 0%nat) (peekv (nth k hv 0%nat) (skipn (nth k sz 0%nat) B)) (st_sym _ _ _ _ T k F2) (peekv_range _ _)). lia.
  Qed.
  Lemma next_d t i p : tabled t (rcode (i / w)) -> (i < w * h)%nat -> at_d i p -> exists p', huff_decode msb_ops t p = Ok (diff_at nx l0 i, p') /\ at_d (S i) p'.
  Proof.
    intros T Hi R. pose proof (HD i Hi) as L32.
    destruct (tabled_decode t (rcode (i / w)) msb_ops msb_rep msb_refines (length (bits_after nx l0 i)) p (bits_after nx l0 i) T ltac:(lia) R) as (p' & c & E & Es & R' & _).
    exists p'. split; [exact E|]. unfold at_d.
    assert (EB : bits_after nx l0 (S i) = skipn c (bits_after nx l0 i)) by exact Es.
    rewrite EB, skipn_length. exact R'.
  Qed.
  Lemma step_i r c : (r < h)%nat -> (c < w)%nat -> i32 (lane_pred init s r c + diff_at nx l0 (r * w + c)) = Ok (s r c).
  Proof.
    intros Hr Hc. rewrite <- HS by auto. apply i32_ok. apply (picture_i32 init (diff_at nx l0) w h s); auto. intros; apply diff_sz.
  Qed.
  Hypothesis Hev : (w mod 2 = 0)%nat.
  Hypothesis Hw0 : (0 < w)%nat.

  Variable seed : Z.
  Hypothesis Hseed : is_u32 seed.
  Let F : nat -> Z := fun i => dithered curve (Z.to_nat (cut bits (s (i / w)%nat (i mod w)%nat))) (noise seed i).
  Lemma div_row r c : (c < w)%nat -> ((r * w + c) / w = r /\ (r * w + c) mod w = c)%nat.
  Proof.
    intros Hc. replace (r * w + c)%nat with (c + r * w)%nat by lia. rewrite Nat.div_add, Nat.mod_add by lia.
    now rewrite Nat.div_small, Nat.mod_small by auto.
  Qed.
  Lemma F_row r c : (c < w)%nat -> F (r * w + c) = dithered curve (Z.to_nat (cut bits (s r c))) (noise seed (r * w + c)).
  Proof. intros Hc. unfold F. destruct (div_row r c Hc) as [-> ->]. reflexivity. Qed.
  Lemma sample_ok i r c : (c < w)%nat -> i = (r * w + c)%nat ->
    (do c1 <- Pef.clampbits (s r c) bits; dither lut c1 (noise seed i)) = Ok (F i, noise seed (S i)).
  Proof.
    intros Hc ->. rewrite clampbits_ok by auto. cbn [bind]. pose proof (cut_range bits (s r c)) as CR.
    rewrite (F_row r c Hc). apply (dither_exact curve); auto; [|apply noise_range; auto].
    apply Nat2Z.inj_le in Hlen. rewrite pow2_nat in Hlen. lia.
  Qed.

  Lemma nef_rows_ok src a b c d : Forall is_byte src -> l0 = byte_bits src -> (4 <= length src)%nat -> seed = peekv 24 l0 ->
    [a; b] = [init 0%nat 0%nat; init 1%nat 0%nat] -> [c; d] = [init 0%nat 1%nat; init 1%nat 1%nat] ->
    nef_rows sel [a; b] [c; d] lut split bits src w h = Ok (map F (seq 0 (w * h))).
  Proof.
    intros HBy El L4 Es Ei1 Ei2. unfold nef_rows.
    assert (W2 : (2 <= w)%nat) by (destruct w as [|[|]]; cbn in Hev; lia).
    destruct (create_ok sel Hsel) as (t0 & Et0 & T0). rewrite Et0. cbn [bind].
    assert (R0 : msb_rep (length l0) (wpump_new src) l0) by (rewrite El; apply msb_new_rep; auto; rewrite byte_bits_length; lia).
    destruct (pr_peek msb_refines (length l0) (wpump_new src) l0 24 R0) as (p0 & E0 & R0' & _); [rewrite El, byte_bits_length; lia|lia|].
    rewrite E0. cbn [bind]. rewrite <- Es.
    assert (DV : (w = 2 * (w / 2))%nat) by (pose proof (Nat.div_mod w 2 ltac:(lia)) as DM; rewrite Hev in DM; lia).
    match goal with |- context [for_each (seq 0 h) ?G ?S0] =>
      destruct (for_each_seq_inv G (fun r '(t, up1, up2, random, pump, out) => tabled t (if ((0 <? split) && (split <? r))%nat then S sel else sel) /\ ups init s r 0 up1 /\ ups init s r 1 up2 /\ random = noise seed (r * w) /\ at_d (r * w) pump /\ filled F (w * h) (r * w) out) 0 h S0)
        as (st & E & I) end.
    - split; [rewrite andb_false_r; exact T0|].
      split; [split; [reflexivity|intros k Hk; rewrite Ei1; unfold above; destruct k as [|[|k]]; [reflexivity|reflexivity|lia]]|].
      split; [split; [reflexivity|intros k Hk; rewrite Ei2; unfold above; destruct k as [|[|k]]; [reflexivity|reflexivity|lia]]|].
      split; [reflexivity|]. split; [exact R0'|]. split; [now rewrite repeat_length|]. intros j Hj. lia.
    - intros r [[[[[t up1] up2] random] pump] out] Hr (T & U1 & U2 & -> & R & O).
      assert (Brow : (S r * w <= h * w)%nat) by (apply Nat.mul_le_mono_r; lia). cbn [Nat.mul] in Brow.
      assert (TN : exists t', (if (0 <? split)%nat && (r =? split)%nat then create_hufftable (sel + 1) else Ok t) = Ok t' /\ tabled t' (rcode r)).
      { unfold rcode. destruct (Nat.ltb_spec 0 split) as [SP|SP]; cbn [andb] in *; [|eauto].
        destruct (Nat.eqb_spec r split) as [->|N].
        - rewrite Nat.leb_refl. replace (sel + 1)%nat with (S sel) by lia. apply create_ok. auto.
        - exists t. split; [reflexivity|]. replace (split <=? r)%nat with (split <? r)%nat by lia. exact T. }
      destruct TN as (t' & ETN & T'). rewrite ETN. cbn [bind].
      assert (TAB : forall k, (k < w)%nat -> tabled t' (rcode ((r * w + k) / w))) by (intros k Hk; rewrite (proj1 (div_row r k Hk)); exact T').
      destruct (next_d t' (r * w) pump) as (p1 & E1 & R1); [rewrite <- (Nat.add_0_r (r * w)); apply TAB; lia|lia|auto|]. rewrite E1. cbn [bind]. rewrite (ups_get _ _ _ _ _ U1). cbn [bind].
      assert (X1 : i32 (above init s r 0 + diff_at nx l0 (r * w)) = Ok (s r 0%nat)).
      { pose proof (step_i r 0 ltac:(lia) Hw0) as X. unfold lane_pred in X. cbn [Nat.leb] in X. rewrite Nat.add_0_r in X. exact X. }
      rewrite X1. cbn [bind]. destruct (ups_put _ _ _ _ _ (s r 0%nat) U1 eq_refl) as (up1' & EU1 & U1'). rewrite EU1. cbn [bind].
      destruct (next_d t' (S (r * w)) p1) as (p2 & E2 & R2); [replace (S (r * w)) with (r * w + 1)%nat by lia; apply TAB; lia|lia|auto|]. rewrite E2. cbn [bind]. rewrite (ups_get _ _ _ _ _ U2). cbn [bind].
      assert (X2 : i32 (above init s r 1 + diff_at nx l0 (S (r * w))) = Ok (s r 1%nat)).
      { pose proof (step_i r 1 ltac:(lia) ltac:(lia)) as X. unfold lane_pred in X. cbn [Nat.leb] in X. replace (r * w + 1)%nat with (S (r * w)) in X by lia. exact X. }
      rewrite X2. cbn [bind]. destruct (ups_put _ _ _ _ _ (s r 1%nat) U2 eq_refl) as (up2' & EU2 & U2'). rewrite EU2. cbn [bind].
      unfold step_range. rewrite for_each_map.
      replace ((w - 0 + (2 - 1)) / 2)%nat with (w / 2)%nat.
      2:{ rewrite DV at 2. replace (2 * (w / 2) - 0 + (2 - 1))%nat with (1 + (w / 2) * 2)%nat by lia. rewrite Nat.div_add by lia. reflexivity. }
      match goal with |- context [for_each (seq 0 (w / 2)) ?G ?S0] =>
        destruct (for_each_seq_inv G (fun i '(l1, l2, random, pump, out) => l1 = s r (2 * (i - 1))%nat /\ l2 = s r (2 * (i - 1) + 1)%nat /\ random = noise seed (r * w + 2 * i) /\
          at_d (r * w + 2 * (if (i =? 0)%nat then 1 else i)) pump /\ filled F (w * h) (r * w + 2 * i) out) 0 (w / 2)%nat S0)
          as (st & E & I) end.
      + cbn [Nat.eqb Nat.mul Nat.sub Nat.add]. rewrite Nat.add_0_r. replace (r * w + 2)%nat with (S (S (r * w))) by lia.
        exact (conj eq_refl (conj eq_refl (conj eq_refl (conj R2 O)))).
      + intros i [[[[l1 l2] random] pm] o] Hi (-> & -> & -> & Rp & Of).
        assert (Bi : (2 * i + 1 < w)%nat) by lia.
        assert (STEP : exists p3, (if (0 <? 0 + i * 2)%nat then
            do (d1, pump) <- huff_decode msb_ops t' pm; do l1 <- i32 (s r (2 * (i - 1))%nat + d1);
            do (d2, pump) <- huff_decode msb_ops t' pump; do l2 <- i32 (s r (2 * (i - 1) + 1)%nat + d2); Ok (l1, l2, pump)
          else Ok (s r (2 * (i - 1))%nat, s r (2 * (i - 1) + 1)%nat, pm)) = Ok (s r (2 * i)%nat, s r (2 * i + 1)%nat, p3) /\ at_d (r * w + 2 * S i) p3).
        { destruct i as [|i].
          - exists pm. cbn [Nat.eqb Nat.mul Nat.sub Nat.add] in *. auto.
          - replace (0 <? 0 + S i * 2)%nat with true by lia. replace (S i =? 0)%nat with false in Rp by lia.
            destruct (next_d t' (r * w + 2 * S i) pm) as (p3 & E3 & R3); [apply TAB; lia|lia|auto|]. rewrite E3. cbn [bind].
            assert (X3 : i32 (s r (2 * (S i - 1))%nat + diff_at nx l0 (r * w + 2 * S i)) = Ok (s r (2 * S i)%nat)).
            { pose proof (step_i r (2 * S i) ltac:(lia) ltac:(lia)) as X. unfold lane_pred in X. replace (2 <=? 2 * S i)%nat with true in X by lia.
              replace (2 * S i - 2)%nat with (2 * (S i - 1))%nat in X by lia. exact X. }
            rewrite X3. cbn [bind].
            destruct (next_d t' (S (r * w + 2 * S i)) p3) as (p4 & E4 & R4); [replace (S (r * w + 2 * S i)) with (r * w + (2 * S i + 1))%nat by lia; apply TAB; lia|lia|auto|]. rewrite E4. cbn [bind].
            assert (X4 : i32 (s r (2 * (S i - 1) + 1)%nat + diff_at nx l0 (S (r * w + 2 * S i))) = Ok (s r (2 * S i + 1)%nat)).
            { pose proof (step_i r (2 * S i + 1) ltac:(lia) ltac:(lia)) as X. unfold lane_pred in X. replace (2 <=? 2 * S i + 1)%nat with true in X by lia.
              replace (2 * S i + 1 - 2)%nat with (2 * (S i - 1) + 1)%nat in X by lia. replace (r * w + (2 * S i + 1))%nat with (S (r * w + 2 * S i)) in X by lia. exact X. }
            rewrite X4. cbn [bind]. exists p4. split; [reflexivity|]. replace (r * w + 2 * S (S i))%nat with (S (S (r * w + 2 * S i))) by lia. exact R4. }
        destruct STEP as (p3 & ESt & R3). rewrite ESt. cbn [bind].
        pose proof (sample_ok (r * w + 2 * i) r (2 * i) ltac:(lia) ltac:(lia)) as Y1. rewrite clampbits_ok in Y1 |- * by auto. cbn [bind] in Y1 |- *. rewrite Y1. cbn [bind].
        replace (r * w + (0 + i * 2) + 0)%nat with (r * w + 2 * i)%nat by lia.
        destruct (filled_put F (w * h) (r * w + 2 * i) o (F (r * w + 2 * i)%nat) Of) as (o3 & EO3 & O3); [lia|reflexivity|]. rewrite EO3. cbn [bind].
        pose proof (sample_ok (S (r * w + 2 * i)) r (2 * i + 1) ltac:(lia) ltac:(lia)) as Y2. rewrite clampbits_ok in Y2 |- * by auto. cbn [bind] in Y2 |- *. rewrite Y2. cbn [bind].
        replace (r * w + (0 + i * 2) + 1)%nat with (S (r * w + 2 * i)) by lia.
        destruct (filled_put F (w * h) (S (r * w + 2 * i)) o3 (F (S (r * w + 2 * i))%nat) O3) as (o4 & EO4 & O4); [lia|reflexivity|]. rewrite EO4. cbn [bind].
        eexists. split; [reflexivity|]. replace (S i - 1)%nat with i by lia. replace (S i =? 0)%nat with false by lia.
        replace (r * w + 2 * S i)%nat with (S (S (r * w + 2 * i))) in * by lia. exact (conj eq_refl (conj eq_refl (conj eq_refl (conj R3 O4)))).
      + rewrite E. cbn [bind]. destruct st as [[[[l1 l2] random] pm] o]. destruct I as (_ & _ & -> & Rp & Of). eexists. split; [reflexivity|].
        assert (EW : (r * w + 2 * (0 + w / 2) = S r * w)%nat) by lia.
        replace (0 + w / 2 =? 0)%nat with false in Rp by lia.
        rewrite EW in *. assert (TS : (if ((0 <? split) && (split <? S r))%nat then S sel else sel) = rcode r) by reflexivity.
        rewrite TS. exact (conj T' (conj U1' (conj U2' (conj eq_refl (conj Rp Of))))).
    - rewrite E. cbn [bind]. destruct st as [[[[[t u1] u2] rn] pm] o]. destruct I as (_ & _ & _ & _ & _ & Of). cbn [bind]. f_equal. apply filled_all.
      replace (w * h)%nat with ((0 + h) * w)%nat at 2 by lia. exact Of.
  Qed.
End Rows.
