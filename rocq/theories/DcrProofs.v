(** Kodak DCR: proofs. *)
From Coq Require Import List ZArith Lia Bool.
From Verif Require Import Base BaseLemmas Bits BitsSpec BitsProofs Crx CrxLL Dcr SonySpec SonyArw2 SonyTop NefSpec NefRows PanaProofs DcrSpec.
Import ListNotations.
Open Scope Z_scope.

(** ** Words *)
Lemma words_range f : (forall k, 0 <= f k < 65536) -> forall n, 0 <= words_value f n < 2 ^ Z.of_nat (16 * n).
Proof.
  intros H. induction n; [cbn; lia|]. cbn [words_value]. specialize (H n). replace (16 * S n)%nat with (16 * n + 16)%nat by lia. rewrite pow2_add.
  change (2 ^ Z.of_nat 16) with 65536. nia.
Qed.
Lemma words_more f : forall n k, exists r, words_value f (n + k) = words_value f n + 2 ^ Z.of_nat (16 * n) * r.
Proof.
  intros n. induction k as [|k (r & IH)]; [exists 0; rewrite Nat.add_0_r; lia|]. rewrite Nat.add_succ_r. cbn [words_value]. rewrite IH.
  exists (r + 2 ^ Z.of_nat (16 * k) * f (n + k)%nat). replace (16 * (n + k))%nat with (16 * n + 16 * k)%nat by lia. rewrite pow2_add. ring.
Qed.
Lemma bits_at_low o l m V r : (o + l <= m)%nat -> bits_at o l (V + 2 ^ Z.of_nat m * r) = bits_at o l V.
Proof.
  intros H. unfold bits_at. replace m with (o + l + (m - o - l))%nat by lia. rewrite !pow2_add.
  replace (2 ^ Z.of_nat o * 2 ^ Z.of_nat l * 2 ^ Z.of_nat (m - o - l) * r) with (2 ^ Z.of_nat l * (2 ^ Z.of_nat (m - o - l) * r) * 2 ^ Z.of_nat o) by ring.
  pose proof (pow2_pos o). rewrite Z.div_add by lia. rewrite Z.mul_comm, Z_mod_plus_full. reflexivity.
Qed.
Lemma words_bits f n m o l : (n <= m)%nat -> (o + l <= 16 * n)%nat -> bits_at o l (words_value f n) = bits_at o l (words_value f m).
Proof. intros H1 H2. destruct (words_more f n (m - n)) as (r & E). replace (n + (m - n))%nat with m in E by lia. rewrite E. now rewrite bits_at_low by lia. Qed.

Local Ltac Zify.zify_post_hook ::= Z.div_mod_to_equations.
Lemma words_step size off len : (len <= 15)%nat -> let m := words_for size off in
  (if 16 * m - off <? len then m + 2 else m)%nat = words_for size (off + len) /\ (off <= 16 * m)%nat.
Proof.
  clear. intros H. unfold words_for. cbv zeta. set (e := if (size mod 8 =? 4)%nat then 1%nat else 0%nat). assert (He : (e <= 1)%nat) by (unfold e; destruct (_ =? _)%nat; lia).
  clearbody e. destruct (Nat.ltb_spec (16 * (e + 2 * ((off + 31 - 16 * e) / 32)) - off) len); split; lia.
Qed.
Lemma words_zero size : words_for size 0 = if (size mod 8 =? 4)%nat then 1%nat else 0%nat.
Proof. unfold words_for. destruct (size mod 8 =? 4)%nat; reflexivity. Qed.
Lemma words_mono size a b : (a <= b)%nat -> (words_for size a <= words_for size b)%nat.
Proof. clear. unfold words_for. destruct (size mod 8 =? 4)%nat; lia. Qed.
Lemma half_lt k size : (k < (size + 1) / 2)%nat -> (size <= 256)%nat -> (2 * k + 1 < 256)%nat.
Proof. clear. lia. Qed.
Lemma half_ix i : (i / 2 = i / 2 /\ (2 * (i / 2) + i mod 2 = i) /\ i mod 2 < 2)%nat.
Proof. clear. lia. Qed.
Lemma half_even k : (2 * k / 2 = k /\ (2 * k) mod 2 = 0)%nat. Proof. clear. lia. Qed.
Lemma half_odd k : ((2 * k + 1) / 2 = k /\ (2 * k + 1) mod 2 = 1)%nat. Proof. clear. lia. Qed.
Lemma half_cover size i : (i < size)%nat -> (i < 2 * ((size + 1) / 2))%nat. Proof. clear. lia. Qed.
Lemma nibbles b : is_byte b -> 0 <= b mod 16 < 16 /\ 0 <= b / 16 < 16.
Proof. clear. unfold is_byte. lia. Qed.
Local Ltac Zify.zify_post_hook ::= idtac.

Lemma land_bit v len : (0 < len)%nat -> 0 <= v < 2 ^ Z.of_nat len -> (Z.land v (2 ^ Z.of_nat (len - 1)) =? 0) = (v <? 2 ^ Z.of_nat (len - 1)).
Proof.
  intros Hl Hv. set (k := (len - 1)%nat). replace len with (k + 1)%nat in Hv by lia. rewrite pow2_add in Hv. change (2 ^ Z.of_nat 1) with 2 in Hv. pose proof (pow2_pos k) as Hk.
  assert (E : Z.land v (2 ^ Z.of_nat k) = if Z.testbit v (Z.of_nat k) then 2 ^ Z.of_nat k else 0).
  { apply Z.bits_inj'. intros n Hn. rewrite Z.land_spec, Z.pow2_bits_eqb by lia. destruct (Z.testbit v (Z.of_nat k)) eqn:EV.
    - rewrite Z.pow2_bits_eqb by lia. destruct (Z.eqb_spec (Z.of_nat k) n) as [<-|N]; [rewrite EV|rewrite andb_false_r]; reflexivity.
    - rewrite Z.bits_0. destruct (Z.eqb_spec (Z.of_nat k) n) as [<-|N]; [rewrite EV|rewrite andb_false_r]; reflexivity. }
  assert (T : Z.testbit v (Z.of_nat k) = negb (v <? 2 ^ Z.of_nat k)).
  { rewrite Z.testbit_odd, Z.shiftr_div_pow2 by lia. destruct (Z.ltb_spec v (2 ^ Z.of_nat k)).
    - now rewrite Z.div_small by lia.
    - assert (D : v / 2 ^ Z.of_nat k = 1) by (symmetry; apply Z.div_unique with (v - 2 ^ Z.of_nat k); lia). rewrite D. reflexivity. }
  rewrite E, T. destruct (v <? 2 ^ Z.of_nat k); cbn [negb]; [reflexivity|]. apply Z.eqb_neq. lia.
Qed.

Section Segment.
  Variables (buf : list Z) (p size : nat).
  Hypothesis HB : Forall is_byte buf.
  Hypothesis Hs : (size <= 256)%nat.
  Lemma byte_at i : is_byte (nth i buf 0).
  Proof. clear - HB. destruct (Nat.lt_ge_cases i (length buf)); [rewrite Forall_forall in HB; apply HB, nth_In; auto|rewrite nth_overflow by auto; unfold is_byte; lia]. Qed.
  Lemma word_range q k : 0 <= be_word buf q k < 65536.
  Proof. clear - HB. unfold be_word. pose proof (byte_at (q + 2 * k)). pose proof (byte_at (q + 2 * k + 1)). unfold is_byte in *. lia. Qed.
  Lemma seg_len_le i : (seg_len buf p i <= 15)%nat.
  Proof. clear - HB. unfold seg_len. destruct (nibbles _ (byte_at (p + i / 2))). cbv zeta. destruct (i mod 2 =? 0)%nat; lia. Qed.
  Lemma lens_ok : (p + (size + 1) / 2 <= length buf)%nat -> exists lens, dcr_lens buf p size = Ok ((p + (size + 1) / 2)%nat, lens) /\ length lens = 256%nat /\
    forall i, (i < size)%nat -> nth i lens 0%nat = seg_len buf p i.
  Proof.
    intros HL. unfold dcr_lens.
    match goal with |- context [for_each _ ?F ?s] => destruct (for_each_seq_inv F (fun k st => exists lens, st = ((p + k)%nat, lens) /\ length lens = 256%nat /\
      forall i, (i < 2 * k)%nat -> nth i lens 0%nat = seg_len buf p i) 0 ((size + 1) / 2) s) as (st & E & lens & -> & L & H) end.
    - eexists. rewrite Nat.add_0_r. split; [reflexivity|]. split; [apply repeat_length|]. intros i Hi. lia.
    - intros k st Hk (lens & -> & L & H). pose proof (half_lt k size ltac:(lia) Hs) as K. rewrite (get_ok buf (p + k) 0) by lia. cbn [bind].
      rewrite put_ok by lia. cbn [bind]. unfold stream_u8. rewrite (get_ok buf (p + k) 0) by lia. cbn [bind]. rewrite put_ok by (rewrite upd_list_length; lia). cbn [bind].
      eexists. split; [reflexivity|]. eexists. split; [f_equal; lia|]. split; [now rewrite !upd_list_length|]. intros i Hi.
      destruct (Nat.eq_dec i (2 * k + 1)) as [->|N1].
      + rewrite nth_upd_eq by (rewrite upd_list_length; lia). unfold seg_len. destruct (half_odd k) as [-> ->]. cbn [Nat.eqb]. now rewrite Z.shiftr_div_pow2 by lia.
      + rewrite nth_upd_neq by lia. destruct (Nat.eq_dec i (2 * k)) as [->|N0].
        * rewrite nth_upd_eq by lia. unfold seg_len. destruct (half_even k) as [-> ->]. cbn [Nat.eqb]. change 15 with (Z.ones 4). now rewrite Z.land_ones by lia.
        * rewrite nth_upd_neq by lia. apply H. lia.
    - exists lens. split; [exact E|]. split; [exact L|]. intros i Hi. apply H. now apply half_cover.
  Qed.

  (** ** The words *)
  Variable q : nat.
  Let f := be_word buf q.
  Lemma refill_ok m off bits : (q + 2 * (m + 2) <= length buf)%nat -> (bits <= 15)%nat -> (off + bits = 16 * m)%nat ->
    dcr_refill buf (q + 2 * m) (words_value f m / 2 ^ Z.of_nat off) bits = Ok ((q + 2 * (m + 2))%nat, words_value f (m + 2) / 2 ^ Z.of_nat off, (bits + 32)%nat).
  Proof.
    intros HL Hb Ho. unfold dcr_refill. set (V := words_value f m / 2 ^ Z.of_nat off).
    assert (HV : 0 <= V < 2 ^ Z.of_nat bits).
    { unfold V. pose proof (words_range f (fun k => word_range q k) m) as R. replace (16 * m)%nat with (off + bits)%nat in R by lia. rewrite pow2_add in R. pose proof (pow2_pos off).
      split; [apply Z.div_pos; lia|apply Z.div_lt_upper_bound; lia]. }
    pose proof (pow2_le bits 15 Hb) as HP. change (2 ^ Z.of_nat 15) with 32768 in HP. pose proof (pow2_pos bits) as HP0.
    pose proof (byte_at (q + 2 * m)) as B0. pose proof (byte_at (q + 2 * m + 1)) as B1. pose proof (byte_at (q + 2 * m + 2)) as B2. pose proof (byte_at (q + 2 * m + 3)) as B3.
    set (b0 := nth (q + 2 * m) buf 0) in *. set (b1 := nth (q + 2 * m + 1) buf 0) in *. set (b2 := nth (q + 2 * m + 2) buf 0) in *. set (b3 := nth (q + 2 * m + 3) buf 0) in *.
    unfold is_byte in *.
    assert (SH : forall b s, 0 <= b < 256 -> (s <= 24)%nat -> wrap_u64 (Z.shiftl b (Z.of_nat (bits + s))) = b * 2 ^ Z.of_nat s * 2 ^ Z.of_nat bits).
    { intros b s Hb0 Hs0. rewrite Z.shiftl_mul_pow2 by lia. rewrite pow2_add. unfold wrap_u64. pose proof (pow2_le s 24 Hs0) as Q. change (2 ^ Z.of_nat 24) with 16777216 in Q. pose proof (pow2_pos s).
      rewrite Z.mod_small; [ring|]. change (2 ^ 64) with 18446744073709551616. split; [nia|]. assert (b * (2 ^ Z.of_nat bits * 2 ^ Z.of_nat s) <= 255 * (32768 * 16777216)); [|lia].
      apply Z.mul_le_mono_nonneg; [lia|lia|nia|apply Z.mul_le_mono_nonneg; lia]. }
    cbn [for_each]. unfold stream_u8.
    rewrite (get_ok buf (q + 2 * m) 0) by lia. cbn [bind]. fold b0. rewrite SH by lia. unfold u64.
    set (X := 2 ^ Z.of_nat bits) in *. change (2 ^ Z.of_nat 8) with 256. change (2 ^ Z.of_nat 0) with 1. change (2 ^ Z.of_nat 24) with 16777216. change (2 ^ Z.of_nat 16) with 65536.
    change (2 ^ 64) with 18446744073709551616.
    replace ((0 <=? V + b0 * 256 * X) && (V + b0 * 256 * X <? 18446744073709551616)) with true by (symmetry; apply andb_true_iff; split; [apply Z.leb_le|apply Z.ltb_lt]; nia). cbn [bind].
    rewrite (get_ok buf (q + 2 * m + 1) 0) by lia. cbn [bind]. fold b1. rewrite SH by lia. fold X. change (2 ^ Z.of_nat 0) with 1.
    set (V1 := V + b0 * 256 * X). assert (HV1 : 0 <= V1 < 65536 * X) by (unfold V1; nia).
    replace ((0 <=? V1 + b1 * 1 * X) && (V1 + b1 * 1 * X <? 18446744073709551616)) with true by (symmetry; apply andb_true_iff; split; [apply Z.leb_le|apply Z.ltb_lt]; nia). cbn [bind].
    replace (q + 2 * m + 1 + 1)%nat with (q + 2 * m + 2)%nat by lia. rewrite (get_ok buf (q + 2 * m + 2) 0) by lia. cbn [bind]. fold b2. rewrite SH by lia. fold X. change (2 ^ Z.of_nat 24) with 16777216.
    set (V2 := V1 + b1 * 1 * X). assert (HV2 : 0 <= V2 < 65792 * X) by (unfold V2; nia).
    replace ((0 <=? V2 + b2 * 16777216 * X) && (V2 + b2 * 16777216 * X <? 18446744073709551616)) with true by (symmetry; apply andb_true_iff; split; [apply Z.leb_le|apply Z.ltb_lt]; nia). cbn [bind].
    replace (q + 2 * m + 2 + 1)%nat with (q + 2 * m + 3)%nat by lia. rewrite (get_ok buf (q + 2 * m + 3) 0) by lia. cbn [bind]. fold b3. rewrite SH by lia. fold X. change (2 ^ Z.of_nat 16) with 65536.
    set (V3 := V2 + b2 * 16777216 * X). assert (HV3 : 0 <= V3 < 4294967296 * X) by (unfold V3; nia).
    replace ((0 <=? V3 + b3 * 65536 * X) && (V3 + b3 * 65536 * X <? 18446744073709551616)) with true by (symmetry; apply andb_true_iff; split; [apply Z.leb_le|apply Z.ltb_lt]; nia). cbn [bind].
    do 2 f_equal. f_equal; [lia|].
    assert (EW : words_value f (m + 2) = words_value f m + 2 ^ Z.of_nat (16 * m) * (f m + 65536 * f (S m))).
    { rewrite Nat.add_comm. cbn [plus words_value]. replace (16 * S m)%nat with (16 * m + 16)%nat by lia. rewrite pow2_add. change (2 ^ Z.of_nat 16) with 65536. ring. }
    rewrite EW. rewrite <- Ho, pow2_add. fold X.
    replace (2 ^ Z.of_nat off * X * (f m + 65536 * f (S m))) with (X * (f m + 65536 * f (S m)) * 2 ^ Z.of_nat off) by ring. pose proof (pow2_pos off). rewrite Z.div_add by lia. fold V.
    unfold V3, V2, V1, f, be_word. replace (q + 2 * S m)%nat with (q + 2 * m + 2)%nat by lia. replace (q + 2 * m + 2 + 1)%nat with (q + 2 * m + 3)%nat by lia. fold b0 b1 b2 b3. ring.
  Qed.

  Lemma seg_bit_S i : seg_bit buf p (S i) = (seg_bit buf p i + seg_len buf p i)%nat.
  Proof. clear. unfold seg_bit. rewrite seq_S, map_app, list_sum_app. cbn [plus map list_sum fold_right]. lia. Qed.
  Lemma seg_bit_mono i j : (i <= j)%nat -> (seg_bit buf p i <= seg_bit buf p j)%nat.
  Proof. clear. induction 1; [lia|]. rewrite seg_bit_S. lia. Qed.
  Lemma diff_ok lens i out : length lens = 256%nat -> (i < size)%nat -> nth i lens 0%nat = seg_len buf p i -> q = (p + (size + 1) / 2)%nat -> (seg_end buf p size <= length buf)%nat ->
    let m := words_for size (seg_bit buf p i) in let m' := words_for size (seg_bit buf p (S i)) in
    dcr_diff buf lens i ((q + 2 * m)%nat, words_value f m / 2 ^ Z.of_nat (seg_bit buf p i), (16 * m - seg_bit buf p i)%nat, out) =
      Ok ((q + 2 * m')%nat, words_value f m' / 2 ^ Z.of_nat (seg_bit buf p (S i)), (16 * m' - seg_bit buf p (S i))%nat, out ++ [seg_diff buf p size i]).
  Proof.
    intros HL Hi Hn Hq HE m m'. unfold dcr_diff. rewrite (get_ok lens i 0%nat) by lia. cbn [bind]. rewrite Hn.
    assert (EV : seg_diff buf p size i = code_diff (seg_len buf p i) (bits_at (seg_bit buf p i) (seg_len buf p i) (words_value f m'))).
    { unfold seg_diff, seg_code. f_equal. rewrite <- Hq. fold f. symmetry. apply words_bits; [apply words_mono, seg_bit_mono; lia|].
      unfold m'. rewrite <- seg_bit_S. exact (proj2 (words_step size (seg_bit buf p (S i)) 0 ltac:(lia))). }
    set (off := seg_bit buf p i) in *. set (len := seg_len buf p i) in *. pose proof (seg_len_le i) as H15. fold len in H15.
    assert (EB : seg_bit buf p (S i) = (off + len)%nat) by apply seg_bit_S.
    destruct (words_step size off len H15) as [S1 S2]. fold m in S1, S2. rewrite <- EB in S1. fold m' in S1.
    assert (Hm' : (q + 2 * m' <= length buf)%nat).
    { rewrite Hq. unfold m'. unfold seg_end, seg_words in HE. pose proof (words_mono size (seg_bit buf p (S i)) (seg_bit buf p size) (seg_bit_mono (S i) size Hi)). lia. }
    assert (ER : (if (16 * m - off <? len)%nat then dcr_refill buf (q + 2 * m) (words_value f m / 2 ^ Z.of_nat off) (16 * m - off) else Ok ((q + 2 * m)%nat, words_value f m / 2 ^ Z.of_nat off, (16 * m - off)%nat)) =
      Ok ((q + 2 * m')%nat, words_value f m' / 2 ^ Z.of_nat off, (16 * m' - off)%nat)).
    { destruct (16 * m - off <? len)%nat eqn:C; [apply Nat.ltb_lt in C|now rewrite S1]. rewrite <- S1. rewrite refill_ok; [|rewrite S1; exact Hm'|lia|lia]. replace (16 * (m + 2) - off)%nat with (16 * m - off + 32)%nat by lia. reflexivity. }
    rewrite ER. cbn [bind]. rewrite usub_ok by lia. cbn [bind].
    assert (Hle : (off + len <= 16 * m')%nat) by (unfold m'; rewrite EB; exact (proj2 (words_step size (off + len) 0 ltac:(lia)))).
    rewrite usub_ok by lia. cbn [bind]. rewrite EB. pose proof (pow2_pos off). pose proof (pow2_pos len).
    assert (EM : Z.land (words_value f m' / 2 ^ Z.of_nat off) (Z.shiftr 65535 (Z.of_nat (16 - len))) = bits_at off len (words_value f m')).
    { change 65535 with (Z.ones 16). rewrite Z.shiftr_div_pow2 by lia. rewrite Z.ones_div_pow2 by lia. replace (16 - Z.of_nat (16 - len)) with (Z.of_nat len) by lia.
      rewrite Z.land_ones by lia. reflexivity. }
    rewrite EM, EV. rewrite (Z.shiftr_div_pow2 (words_value f m' / _)) by lia. rewrite Z.div_div by lia. rewrite pow2_add. replace (16 * m' - off - len)%nat with (16 * m' - (off + len))%nat by lia.
    apply (f_equal (fun x => Ok ((q + 2 * m')%nat, words_value f m' / (2 ^ Z.of_nat off * 2 ^ Z.of_nat len), (16 * m' - (off + len))%nat, out ++ [x]))). set (v := bits_at off len (words_value f m')). assert (Hv : 0 <= v < 2 ^ Z.of_nat len) by (apply Z.mod_pos_bound; lia).
    unfold code_diff. destruct (Nat.eqb_spec len 0) as [E0|E0]; cbn [negb andb]; [rewrite E0 in Hv; change (2 ^ Z.of_nat 0) with 1 in Hv; lia|].
    rewrite !Z.shiftl_1_l. rewrite land_bit by (auto; lia). destruct (v <? _); reflexivity.
  Qed.
End Segment.
Theorem seg_ok buf p size : Forall is_byte buf -> (size <= 256)%nat -> (seg_end buf p size <= length buf)%nat ->
  dcr_segment buf p size = Ok (map (seg_diff buf p size) (seq 0 size), seg_end buf p size).
Proof.
  intros HB Hs HE. unfold dcr_segment. destruct (lens_ok buf p size Hs) as (lens & -> & HL & Hn); [unfold seg_end in HE; lia|]. cbn [bind].
  set (q := (p + (size + 1) / 2)%nat). set (f := be_word buf q).
  assert (EI : (if (size mod 8 =? 4)%nat then do (b1, pos) <- stream_u8 buf q; do (b2, pos) <- stream_u8 buf pos; Ok (pos, Z.lor (Z.shiftl b1 8) b2, 16%nat) else Ok (q, 0, 0%nat)) =
    Ok ((q + 2 * words_for size 0)%nat, words_value f (words_for size 0), (16 * words_for size 0)%nat)).
  { rewrite words_zero. assert (HE' : (q + 2 * words_for size 0 <= length buf)%nat).
    { unfold seg_end, seg_words in HE. fold q in HE. pose proof (words_mono size 0 (seg_bit buf p size) ltac:(lia)). lia. }
    rewrite words_zero in HE'. destruct (size mod 8 =? 4)%nat.
    - unfold stream_u8. rewrite (get_ok buf q 0) by lia. cbn [bind]. rewrite (get_ok buf (q + 1) 0) by lia. cbn [bind]. replace (q + 1 + 1)%nat with (q + 2 * 1)%nat by lia.
      unfold words_value, f, be_word. rewrite !Nat.mul_0_r, !Nat.add_0_r. pose proof (byte_at buf HB (q + 1)) as B1. unfold is_byte in B1.
      rewrite Z.shiftl_mul_pow2 by lia. change (2 ^ 8) with (2 ^ Z.of_nat 8). rewrite lor_add_disjoint by (change (2 ^ Z.of_nat 8) with 256; lia). change (2 ^ Z.of_nat 8) with 256. change (2 ^ Z.of_nat 0) with 1. apply (f_equal (fun V => Ok ((q + 2 * 1)%nat, V, 16%nat))). lia.
    - cbn [words_value]. rewrite Nat.mul_0_r, Nat.add_0_r. reflexivity. }
  rewrite EI. cbn [bind].
  match goal with |- context [for_each _ ?F ?s] => destruct (for_each_seq_inv F (fun i st => st = ((q + 2 * words_for size (seg_bit buf p i))%nat, words_value f (words_for size (seg_bit buf p i)) / 2 ^ Z.of_nat (seg_bit buf p i),
    (16 * words_for size (seg_bit buf p i) - seg_bit buf p i)%nat, map (seg_diff buf p size) (seq 0 i))) 0 size s) as (st & E & ->) end.
  - change (seg_bit buf p 0) with 0%nat. change (2 ^ Z.of_nat 0) with 1. rewrite Z.div_1_r, Nat.sub_0_r. reflexivity.
  - intros i st Hi ->. rewrite (diff_ok buf p size HB Hs q lens i _ HL ltac:(lia) (Hn i ltac:(lia)) eq_refl HE). eexists. split; [reflexivity|]. rewrite (seq_S i), map_app. reflexivity.
  - rewrite E. cbn [bind]. reflexivity.
Qed.

(** ** Pixels *)
Lemma lane_range d par n : (forall i, (i < n)%nat -> Z.abs (d i) <= 32767) -> forall k, (2 * k + par < n + 2)%nat -> 0 <= lane d par k <= 32767 * Z.of_nat k.
Proof.
  intros H. induction k; intros Hk; [cbn; lia|]. cbn [lane]. specialize (IHk ltac:(lia)). specialize (H (2 * k + par)%nat ltac:(lia)). lia.
Qed.
Local Ltac Zify.zify_post_hook ::= Z.div_mod_to_equations.
Lemma par_step i par : (par < 2)%nat -> ((S i + 1 - par) / 2 = if i mod 2 =? par then S (i / 2) else (i + 1 - par) / 2)%nat /\ (i mod 2 = par -> (i + 1 - par) / 2 = i / 2)%nat.
Proof. clear. intros H. destruct (Nat.eqb_spec (i mod 2) par); split; lia. Qed.
Lemma par_lt i : (i mod 2 < 2 /\ 2 * (i / 2) + i mod 2 = i)%nat. Proof. clear. lia. Qed.
Lemma row_ix w r c : (c < w)%nat -> ((r * w + c) / w = r /\ (r * w + c) mod w = c)%nat.
Proof. intros H. split; [rewrite Nat.add_comm, Nat.div_add by lia; rewrite Nat.div_small by lia; lia|rewrite Nat.add_comm, Nat.mod_add by lia; apply Nat.mod_small; lia]. Qed.
Local Ltac Zify.zify_post_hook ::= idtac.
Section Image.
  Variables (curve : list Z) (lut : list (Z * Z * Z)).
  Hypothesis HC : lut_ok curve.
  Hypothesis HT : lut_new curve = Ok lut.
  Lemma pixels_ok d n j : (n <= 256)%nat -> (forall i, (i < n)%nat -> Z.abs (d i) <= 32767) -> (forall i, (i < n)%nat -> seg_sample d i < Z.of_nat (length curve)) ->
    dcr_pixels lut (map d (seq 0 n)) (noise 0 j) = Ok (noise 0 (j + n), map (fun i => dithered curve (Z.to_nat (seg_sample d i)) (noise 0 (j + i))) (seq 0 n)).
  Proof.
    intros Hn Hd Hc. unfold dcr_pixels. rewrite map_length, seq_length.
    match goal with |- context [for_each _ ?F ?s] => destruct (for_each_seq_inv F (fun i st => exists pred, st = (pred, noise 0 (j + i), map (fun i => dithered curve (Z.to_nat (seg_sample d i)) (noise 0 (j + i))) (seq 0 i)) /\
      length pred = 2%nat /\ forall par, (par < 2)%nat -> nth par pred 0 = lane d par ((i + 1 - par) / 2)) 0 n s) as (st & E & pred & -> & _) end.
    - eexists. rewrite Nat.add_0_r. split; [reflexivity|]. split; [reflexivity|]. intros [|[|par]] H; [reflexivity|reflexivity|lia].
    - intros i st Hi (pred & -> & HL & HP). destruct (par_lt i) as [P1 P2]. rewrite (get_ok (map d (seq 0 n)) i 0) by (rewrite map_length, seq_length; lia). cbn [bind].
      rewrite nth_map_seq by lia. rewrite (get_ok pred (i mod 2) 0) by lia. cbn [bind]. rewrite HP by lia. rewrite (proj2 (par_step i (i mod 2) P1) eq_refl).
      pose proof (lane_range d (i mod 2) n Hd (i / 2) ltac:(lia)) as R. pose proof (Hd i ltac:(lia)) as D. rewrite i32_ok by lia. cbn [bind].
      set (x := lane d (i mod 2) (S (i / 2))). assert (EX : (if lane d (i mod 2) (i / 2) + d i <? 0 then 0 else lane d (i mod 2) (i / 2) + d i) = x).
      { unfold x. cbn [lane]. rewrite P2. destruct (Z.ltb_spec (lane d (i mod 2) (i / 2) + d i) 0); lia. }
      rewrite EX. rewrite put_ok by lia. cbn [bind]. change (wrap_u16 x) with (seg_sample d i).
      destruct (dither_exact curve lut (seg_sample d i) (noise 0 (j + i)) HC HT) as [-> _].
      { split; [apply Z.mod_pos_bound; lia|apply Hc; lia]. } { apply noise_range. unfold is_u32. lia. }
      cbn [bind]. eexists. split; [reflexivity|]. exists (upd_list pred (i mod 2) x). split.
      + rewrite (seq_S i), map_app. rewrite Nat.add_succ_r. reflexivity.
      + split; [now rewrite upd_list_length|]. intros par Hpar. destruct (par_step i par Hpar) as [-> _]. destruct (Nat.eqb_spec (i mod 2) par) as [E|E].
        * subst par. now rewrite nth_upd_eq by lia.
        * rewrite nth_upd_neq by lia. now apply HP.
    - rewrite E. reflexivity.
  Qed.

  Variables (buf : list Z) (w h : nat) (P : nat -> nat) (d : nat -> nat -> Z).
  Hypothesis HP0 : P 0%nat = 0%nat.
  Hypothesis HS : forall g, (g < h * segs w)%nat -> dcr_segment buf (P g) (seg_size w g) = Ok (map (d g) (seq 0 (seg_size w g)), P (S g)).
  Hypothesis HD : forall g i, (g < h * segs w)%nat -> (i < seg_size w g)%nat -> Z.abs (d g i) <= 32767.
  Hypothesis HV : forall g i, (g < h * segs w)%nat -> (i < seg_size w g)%nat -> seg_sample (d g) i < Z.of_nat (length curve).
  Definition smp (r c : nat) : Z := seg_sample (d (r * segs w + c / 256)%nat) (c mod 256).
  Let F (i : nat) : Z := dithered curve (Z.to_nat (smp (i / w) (i mod w))) (noise 0 i).
  Lemma row_segs r out : (r < h)%nat -> for_each (seq 0 (segs w)) (fun k st =>
      let '(pos, random, out) := st in
      do (diffs, pos) <- dcr_segment buf pos (Nat.min 256 (w - 256 * k));
      do (random, px) <- dcr_pixels lut diffs random;
      Ok (pos, random, out ++ px)) (P (r * segs w), noise 0 (r * w), out) =
    Ok (P (S r * segs w), noise 0 (S r * w), out ++ map (fun c => F (r * w + c)%nat) (seq 0 w)).
  Proof.
    intros Hr.
    match goal with |- for_each _ ?G ?s = _ => destruct (for_each_seq_inv G (fun k st => st = (P (r * segs w + k)%nat, noise 0 (r * w + Nat.min w (256 * k)),
      out ++ flat_map (fun c => map (fun i => F (r * w + (c * 256 + i))%nat) (seq 0 (Nat.min 256 (w - c * 256)))) (seq 0 k))) 0 (segs w) s) as (st & E & ->) end.
    - cbn [seq flat_map]. rewrite app_nil_r, Nat.mul_0_r, Nat.min_0_r, !Nat.add_0_r. reflexivity.
    - intros k st Hk ->. assert (Hk' : (k < segs w)%nat) by lia. pose proof (chunk_inside 256 w k ltac:(lia)) as Hin.
      replace (w + 256 - 1)%nat with (w + 255)%nat in Hin by lia. fold (segs w) in Hin. specialize (Hin Hk').
      assert (Hg : (r * segs w + k < h * segs w)%nat) by nia.
      assert (EG : ((r * segs w + k) mod segs w = k)%nat) by (apply row_ix; auto).
      assert (ES : seg_size w (r * segs w + k) = Nat.min 256 (w - 256 * k)) by (unfold seg_size; now rewrite EG).
      rewrite <- ES. rewrite HS by exact Hg. cbn [bind]. rewrite pixels_ok; [|rewrite ES; lia|intros; apply HD; auto|intros; apply HV; auto]. cbn [bind].
      eexists. split; [reflexivity|]. rewrite flat_map_seq_S, app_assoc. f_equal; [f_equal|].
      + f_equal. lia.
      + f_equal. rewrite ES. lia.
      + f_equal. rewrite ES. replace (256 * k)%nat with (k * 256)%nat by lia. apply map_ext_in. intros i Hi. apply in_seq in Hi.
        assert (Hc : (k * 256 + i < w)%nat) by lia. unfold F. destruct (row_ix w r (k * 256 + i) Hc) as [-> ->].
        unfold smp. destruct (row_ix 256 k i ltac:(lia)) as [-> ->]. replace (r * w + Nat.min w (k * 256) + i)%nat with (r * w + (k * 256 + i))%nat by lia. reflexivity.
    - rewrite E. assert (EC : Nat.min w (256 * segs w) = w).
      { pose proof (Nat.div_mod (w + 255) 256 ltac:(lia)). pose proof (Nat.mod_upper_bound (w + 255) 256 ltac:(lia)). unfold segs. lia. }
      change (0 + segs w)%nat with (segs w). rewrite EC. replace (S r * segs w)%nat with (r * segs w + segs w)%nat by lia. replace (S r * w)%nat with (r * w + w)%nat by lia.
      pose proof (chunks_map (fun c => F (r * w + c)%nat) 256 w ltac:(lia)) as K. replace (w + 256 - 1)%nat with (w + 255)%nat in K by lia. fold (segs w) in K. now rewrite K.
  Qed.
  Theorem image_ok : dcr_decode buf lut w h = Ok (through_curve curve smp w h).
  Proof.
    unfold dcr_decode. change ((w + 255) / 256)%nat with (segs w).
    match goal with |- context [for_each (seq 0 h) ?G ?s] => destruct (for_each_seq_inv G (fun r st => st = (P (r * segs w), noise 0 (r * w), flat_map (fun b => map (fun j => F (b * w + j)%nat) (seq 0 w)) (seq 0 r))) 0 h s) as (st & E & ->) end.
    - cbn [Nat.mul]. now rewrite HP0.
    - intros r st Hr ->. rewrite row_segs by lia. eexists. split; [reflexivity|]. now rewrite flat_map_seq_S.
    - rewrite E. cbn [bind]. rewrite flat_map_rows, Nat.mul_comm. reflexivity.
  Qed.
End Image.
