(** Kodak DCR: any data, and the encoder. *)
From Coq Require Import List ZArith Lia Bool.
From Verif Require Import Base BaseLemmas Bits BitsSpec BitsProofs Dcr SonySpec SonyArw2 SonyTop NefSpec NefRows CrxImageSpec PefSpec PanaProofs DcrSpec DcrProofs.
Import ListNotations.
Open Scope Z_scope.

Lemma code_diff_range len v : (len <= 15)%nat -> 0 <= v < 2 ^ Z.of_nat len -> Z.abs (code_diff len v) <= 32767.
Proof.
  intros H Hv. unfold code_diff. pose proof (pow2_le len 15 H) as P. change (2 ^ Z.of_nat 15) with 32768 in P. destruct (len =? 0)%nat; [lia|]. destruct (v <? _); lia.
Qed.
Lemma start_mono buf w a b : (a <= b)%nat -> (seg_start buf w a <= seg_start buf w b)%nat.
Proof. induction 1; [lia|]. cbn [seg_start]. unfold seg_end. lia. Qed.
Lemma seg_place w g i : (i < seg_size w g)%nat -> (g mod segs w * 256 + i < w)%nat /\ (i < 256)%nat /\ (0 < segs w)%nat.
Proof.
  unfold seg_size. intros H. split; [lia|]. split; [lia|]. unfold segs. assert (1 <= w)%nat by lia. change 1%nat with (256 / 256)%nat. pose proof (Nat.div_le_mono 256 (w + 255) 256 ltac:(lia) ltac:(lia)). lia.
Qed.
Lemma seg_row w h g : (g < h * segs w)%nat -> (0 < segs w)%nat -> (g / segs w < h /\ g / segs w * segs w + g mod segs w = g)%nat.
Proof. intros H H0. split; [apply Nat.div_lt_upper_bound; lia|]. pose proof (Nat.div_mod g (segs w)). lia. Qed.
Theorem dcr_any curve lut buf w h : lut_ok curve -> lut_new curve = Ok lut -> Forall is_byte buf -> (seg_start buf w (h * segs w) <= length buf)%nat ->
  (forall r c, (r < h)%nat -> (c < w)%nat -> dcr_sample buf w r c < Z.of_nat (length curve)) ->
  dcr_decode buf lut w h = Ok (through_curve curve (dcr_sample buf w) w h).
Proof.
  intros HC HT HB HL HV. apply (image_ok curve lut HC HT buf w h (seg_start buf w) (fun g => seg_diff buf (seg_start buf w g) (seg_size w g))).
  - reflexivity.
  - intros g Hg. apply seg_ok; [exact HB|unfold seg_size; lia|]. pose proof (start_mono buf w (S g) (h * segs w) ltac:(lia)) as M. cbn [seg_start] in M. lia.
  - intros g i Hg Hi. apply code_diff_range; [now apply seg_len_le|]. apply Z.mod_pos_bound. apply pow2_pos.
  - intros g i Hg Hi. destruct (seg_place w g i Hi) as (P1 & P2 & P3). destruct (seg_row w h g Hg P3) as (R1 & R2).
    pose proof (HV (g / segs w)%nat (g mod segs w * 256 + i)%nat R1 P1) as K. unfold dcr_sample in K. destruct (row_ix 256 (g mod segs w) i P2) as [E1 E2]. rewrite E1, E2, R2 in K. exact K.
Qed.

(** ** Lengths and codes *)
Lemma len_upto_spec m d : Z.abs d < 2 ^ Z.of_nat m -> Z.abs d < 2 ^ Z.of_nat (len_upto m d) /\ (len_upto m d <= m)%nat /\ ((0 < len_upto m d)%nat -> 2 ^ Z.of_nat (len_upto m d - 1) <= Z.abs d).
Proof.
  induction m as [|m IH]; cbn [len_upto]; intros H; [split; [exact H|lia]|]. destruct (Z.ltb_spec (Z.abs d) (2 ^ Z.of_nat m)) as [E|E].
  - destruct (IH E) as (A & B & C). split; [exact A|]. split; [lia|exact C].
  - split; [exact H|]. split; [lia|]. intros _. now replace (S m - 1)%nat with m by lia.
Qed.
Lemma diff_len_le d : Z.abs d <= 32767 -> (diff_len d <= 15)%nat.
Proof. intros H. apply (len_upto_spec 15 d). change (2 ^ Z.of_nat 15) with 32768. lia. Qed.
Lemma diff_code_ok d : Z.abs d <= 32767 -> 0 <= diff_code d < 2 ^ Z.of_nat (diff_len d) /\ code_diff (diff_len d) (diff_code d) = d.
Proof.
  intros H. destruct (len_upto_spec 15 d) as (A & B & C); [change (2 ^ Z.of_nat 15) with 32768; lia|]. fold (diff_len d) in *. unfold diff_code, code_diff.
  destruct (Nat.eqb_spec (diff_len d) 0) as [E|E].
  - rewrite E in *. change (2 ^ Z.of_nat 0) with 1 in *. destruct (Z.ltb_spec d 0); lia.
  - specialize (C ltac:(lia)). assert (P : 2 ^ Z.of_nat (diff_len d) = 2 * 2 ^ Z.of_nat (diff_len d - 1)).
    { replace (diff_len d) with (1 + (diff_len d - 1))%nat at 1 by lia. rewrite pow2_add. reflexivity. }
    destruct (Z.ltb_spec d 0); (split; [lia|]); match goal with |- context [?a <? ?b] => destruct (Z.ltb_spec a b) end; lia.
Qed.

(** ** A stored segment *)
Lemma words_ext f g n : (forall k, (k < n)%nat -> f k = g k) -> words_value f n = words_value g n.
Proof. induction n; intros H; [reflexivity|]. cbn [words_value]. rewrite IHn, H by (intros; try apply H; lia). reflexivity. Qed.
Lemma words_of_bits V n : words_value (fun k => bits_at (16 * k) 16 V) n = V mod 2 ^ Z.of_nat (16 * n).
Proof.
  induction n; [cbn [words_value]; change (2 ^ Z.of_nat (16 * 0)) with 1; now rewrite Z.mod_1_r|]. cbn [words_value]. rewrite IHn. replace (16 * S n)%nat with (16 * n + 16)%nat by lia.
  rewrite pow2_add. unfold bits_at. pose proof (pow2_pos (16 * n)). pose proof (pow2_pos 16). now rewrite Z.rem_mul_r by lia.
Qed.
Lemma two_bytes V k : 256 * bits_at (16 * k + 8) 8 V + bits_at (16 * k) 8 V = bits_at (16 * k) 16 V.
Proof.
  unfold bits_at. rewrite pow2_add. pose proof (pow2_pos (16 * k)). change (2 ^ Z.of_nat 8) with 256. rewrite <- Z.div_div by lia. set (X := V / 2 ^ Z.of_nat (16 * k)).
  change (2 ^ Z.of_nat 16) with (256 * 256). rewrite Z.rem_mul_r by lia. lia.
Qed.
Lemma flat2_nth (a b : nat -> Z) n k : (k < n)%nat -> nth (2 * k) (flat_map (fun k => [a k; b k]) (seq 0 n)) 0 = a k /\ nth (2 * k + 1) (flat_map (fun k => [a k; b k]) (seq 0 n)) 0 = b k.
Proof.
  intros H. split.
  - replace (2 * k)%nat with (k * 2 + 0)%nat by lia. now rewrite (flat_map_seq_nth (fun k => [a k; b k]) n 2) by (auto; lia).
  - replace (2 * k + 1)%nat with (k * 2 + 1)%nat by lia. now rewrite (flat_map_seq_nth (fun k => [a k; b k]) n 2) by (auto; lia).
Qed.
Section Stored.
  Variables (d : nat -> Z) (size : nat) (pre rest : list Z).
  Hypothesis Hs : (size <= 256)%nat.
  Hypothesis HD : forall i, (i < size)%nat -> Z.abs (d i) <= 32767.
  Hypothesis HB1 : Forall is_byte pre.
  Hypothesis HB2 : Forall is_byte rest.
  Let seg := store_segment d size.
  Let buf := pre ++ seg ++ rest.
  Let p := length pre.
  Let W := words_for size (diff_bits d size).
  Lemma seg_length : length seg = ((size + 1) / 2 + 2 * W)%nat.
  Proof. unfold seg, store_segment. rewrite app_length, map_length, seq_length. fold W. rewrite (flat_map_seq_length _ W 2) by reflexivity. lia. Qed.
  Lemma len_byte_ok k : (2 * k < size)%nat -> is_byte (len_byte d size k) /\ len_byte d size k mod 16 = Z.of_nat (diff_len (d (2 * k)%nat)) /\
    ((2 * k + 1 < size)%nat -> len_byte d size k / 16 = Z.of_nat (diff_len (d (2 * k + 1)%nat))).
  Proof.
    clear - HD. intros Hk. unfold len_byte. pose proof (diff_len_le _ (HD _ Hk)) as L0.
    set (x := if (2 * k + 1 <? size)%nat then Z.of_nat (diff_len (d (2 * k + 1)%nat)) else 0).
    assert (L1 : 0 <= x <= 15) by (unfold x; destruct (Nat.ltb_spec (2 * k + 1) size) as [H|H]; [pose proof (diff_len_le _ (HD _ H)); lia|lia]).
    unfold is_byte. split; [lia|]. split.
    - rewrite Z.mul_comm, Z_mod_plus_full. apply Z.mod_small. lia.
    - intros H. rewrite (Z.mul_comm 16), Z.div_add by lia. rewrite Z.div_small by lia. unfold x. now replace (2 * k + 1 <? size)%nat with true by lia.
  Qed.
  Lemma seg_bytes : Forall is_byte seg.
  Proof.
    unfold seg. clear - HD. unfold store_segment. apply Forall_app. split.
    - apply Forall_map, Forall_forall. intros k Hk. apply in_seq in Hk. apply len_byte_ok. pose proof (Nat.div_mod (size + 1) 2 ltac:(lia)). pose proof (Nat.mod_upper_bound (size + 1) 2 ltac:(lia)). lia.
    - apply Forall_flat_map, Forall_forall. intros k _. assert (R : forall o V, is_byte (bits_at o 8 V)) by (intros; unfold is_byte, bits_at; apply Z.mod_pos_bound; lia). repeat constructor; apply R.
  Qed.
  Lemma buf_nth i : (i < length seg)%nat -> nth (p + i) buf 0 = nth i seg 0.
  Proof. intros H. unfold buf, p. rewrite app_nth2 by lia. rewrite app_nth1 by lia. f_equal. lia. Qed.
  Lemma stored_len i : (i < size)%nat -> seg_len buf p i = diff_len (d i).
  Proof.
    intros Hi. unfold seg_len. destruct (par_lt i) as [P1 P2]. pose proof (half_cover size i Hi) as HC.
    assert (Hk : (i / 2 < (size + 1) / 2)%nat) by lia. rewrite buf_nth by (rewrite seg_length; lia). unfold seg, store_segment.
    rewrite app_nth1 by (rewrite map_length, seq_length; lia). rewrite nth_map_seq by lia. destruct (len_byte_ok (i / 2) ltac:(lia)) as (_ & E1 & E2).
    destruct (Nat.eqb_spec (i mod 2) 0) as [E|E].
    - rewrite E1. replace (2 * (i / 2))%nat with i by lia. lia.
    - rewrite E2 by lia. replace (2 * (i / 2) + 1)%nat with i by lia. lia.
  Qed.
  Lemma stored_bit i : (i <= size)%nat -> seg_bit buf p i = list_sum (map (fun i => diff_len (d i)) (seq 0 i)).
  Proof. intros Hi. unfold seg_bit. f_equal. apply map_ext_in. intros k Hk. apply in_seq in Hk. apply stored_len. lia. Qed.
  Lemma stored_words : seg_words buf p size = W.
  Proof. unfold seg_words, W, diff_bits. now rewrite stored_bit by lia. Qed.
  Definition fields (n : nat) : list (nat * Z) := map (fun i => (diff_len (d i), diff_code (d i))) (seq 0 n).
  Lemma fields_fits n : (n <= size)%nat -> fits (fields n).
  Proof. intros Hn. unfold fits, fields. apply Forall_map, Forall_forall. intros i Hi. apply in_seq in Hi. cbn [fst snd]. apply diff_code_ok, HD. lia. Qed.
  Lemma fields_widths n : widths (fields n) = list_sum (map (fun i => diff_len (d i)) (seq 0 n)).
  Proof. unfold fields. induction (seq 0 n) as [|a l IH]; [reflexivity|]. cbn [map widths fold_right fst list_sum]. fold (widths (map (fun i => (diff_len (d i), diff_code (d i))) l)). rewrite IH. reflexivity. Qed.
  Lemma stored_value : words_value (be_word buf (p + (size + 1) / 2)) W = diff_value d size.
  Proof.
    rewrite (words_ext _ (fun k => bits_at (16 * k) 16 (diff_value d size))).
    - rewrite words_of_bits. apply Z.mod_small. unfold diff_value. fold (fields size). pose proof (lef_range _ (fields_fits size ltac:(lia))) as R. rewrite fields_widths in R.
      assert (L : (list_sum (map (fun i => diff_len (d i)) (seq 0 size)) <= 16 * W)%nat) by exact (proj2 (words_step size (diff_bits d size) 0 ltac:(lia))).
      pose proof (pow2_le _ _ L). lia.
    - intros k Hk. unfold be_word.
      replace (p + (size + 1) / 2 + 2 * k + 1)%nat with (p + ((size + 1) / 2 + (2 * k + 1)))%nat by lia. replace (p + (size + 1) / 2 + 2 * k)%nat with (p + ((size + 1) / 2 + 2 * k))%nat by lia.
      rewrite !buf_nth by (rewrite seg_length; lia). unfold seg, store_segment. fold W.
      assert (SK : forall j, nth ((size + 1) / 2 + j) (map (len_byte d size) (seq 0 ((size + 1) / 2)) ++ flat_map (fun k => [bits_at (16 * k + 8) 8 (diff_value d size); bits_at (16 * k) 8 (diff_value d size)]) (seq 0 W)) 0 =
        nth j (flat_map (fun k => [bits_at (16 * k + 8) 8 (diff_value d size); bits_at (16 * k) 8 (diff_value d size)]) (seq 0 W)) 0).
      { intros j. rewrite app_nth2 by (rewrite map_length, seq_length; lia). rewrite map_length, seq_length. f_equal. lia. }
      rewrite !SK. destruct (flat2_nth (fun k => bits_at (16 * k + 8) 8 (diff_value d size)) (fun k => bits_at (16 * k) 8 (diff_value d size)) W k Hk) as [-> ->]. apply two_bytes.
  Qed.
  Lemma stored_diff i : (i < size)%nat -> seg_diff buf p size i = d i.
  Proof.
    intros Hi. unfold seg_diff, seg_code. rewrite stored_words, stored_value, stored_len, stored_bit by lia. rewrite <- (proj2 (diff_code_ok (d i) (HD i Hi))) at 3. f_equal.
    unfold diff_value. rewrite <- fields_widths.
    assert (E : map (fun i => (diff_len (d i), diff_code (d i))) (seq 0 size) = fields i ++ (diff_len (d i), diff_code (d i)) :: map (fun i => (diff_len (d i), diff_code (d i))) (seq (S i) (size - i - 1))).
    { unfold fields. replace size with (i + S (size - i - 1))%nat at 1 by lia. rewrite seq_app, map_app. reflexivity. }
    rewrite E. apply (lef_field (fields i) _ _ _ 0); [apply fields_fits; lia|]. apply diff_code_ok, HD, Hi.
  Qed.
  Theorem stored_segment : dcr_segment buf p size = Ok (map d (seq 0 size), (p + length seg)%nat).
  Proof.
    assert (EE : seg_end buf p size = (p + length seg)%nat) by (unfold seg_end; rewrite stored_words, seg_length; lia).
    rewrite seg_ok; [|apply Forall_app; split; [exact HB1|apply Forall_app; split; [exact seg_bytes|exact HB2]]|exact Hs|rewrite EE; unfold buf, p; rewrite !app_length; lia].
    rewrite EE. f_equal. f_equal. apply map_ext_in. intros i Hi. apply in_seq in Hi. apply stored_diff. lia.
  Qed.
End Stored.

(** ** The picture *)
Lemma lane_back s r col par w : (par < 2)%nat -> (forall c, (c < w)%nat -> 0 <= s r c) -> forall k, (col + (2 * k + par) < w)%nat -> lane (sample_diff s r col) par (S k) = s r (col + (2 * k + par))%nat.
Proof.
  intros Hp H. induction k; intros Hk.
  - cbn [lane]. unfold sample_diff. replace (2 * 0 + par <? 2)%nat with true by lia. specialize (H (col + (2 * 0 + par))%nat Hk). lia.
  - cbn [lane] in *. rewrite IHk by lia. unfold sample_diff. replace (2 * S k + par <? 2)%nat with false by lia. replace (col + (2 * S k + par) - 2)%nat with (col + (2 * k + par))%nat by lia.
    specialize (H (col + (2 * S k + par))%nat Hk). lia.
Qed.
Lemma diff_small s w h r col i : picture_within s w h 32768 -> (r < h)%nat -> (col + i < w)%nat -> Z.abs (sample_diff s r col i) <= 32767.
Proof.
  intros H Hr Hc. unfold sample_diff. pose proof (H r (col + i)%nat Hr Hc). destruct (Nat.ltb_spec i 2); [lia|]. pose proof (H r (col + i - 2)%nat Hr ltac:(lia)). lia.
Qed.
Lemma sample_back s w h r col i : picture_within s w h 32768 -> (r < h)%nat -> (col + i < w)%nat -> seg_sample (sample_diff s r col) i = s r (col + i)%nat.
Proof.
  intros H Hr Hc. unfold seg_sample. destruct (par_lt i) as [P1 P2]. rewrite (lane_back s r col (i mod 2) w P1); [|intros c Hc'; apply H; auto|lia]. rewrite P2. apply Z.mod_small.
  pose proof (H r (col + i)%nat Hr Hc). lia.
Qed.
Section Picture.
  Variables (s : nat -> nat -> Z) (w h : nat) (tail : list Z).
  Hypothesis HS : picture_within s w h 32768.
  Hypothesis HB : Forall is_byte tail.
  Definition sdiff (g : nat) : nat -> Z := sample_diff s (g / segs w) (256 * (g mod segs w)).
  Definition segment (g : nat) : list Z := store_segment (sdiff g) (seg_size w g).
  Definition upto (g : nat) : list Z := flat_map segment (seq 0 g).
  Lemma sdiff_small g i : (g < h * segs w)%nat -> (i < seg_size w g)%nat -> Z.abs (sdiff g i) <= 32767.
  Proof. intros Hg Hi. destruct (seg_place w g i Hi) as (P1 & P2 & P3). destruct (seg_row w h g Hg P3) as (R1 & R2). apply (diff_small s w h); auto. lia. Qed.
  Lemma segment_bytes g : (g < h * segs w)%nat -> Forall is_byte (segment g).
  Proof. intros Hg. apply (seg_bytes (sdiff g) (seg_size w g)). intros i Hi. now apply sdiff_small. Qed.
  Lemma upto_S g : upto (S g) = upto g ++ segment g.
  Proof. unfold upto. now rewrite flat_map_seq_S. Qed.
  Lemma encode_split g : (g < h * segs w)%nat -> exists rest, dcr_encode s w h ++ tail = upto g ++ segment g ++ rest /\ Forall is_byte rest.
  Proof.
    intros Hg. exists (flat_map segment (seq (S g) (h * segs w - g - 1)) ++ tail). split.
    - change (dcr_encode s w h) with (upto (h * segs w)). unfold upto. replace (h * segs w)%nat with (g + S (h * segs w - g - 1))%nat at 1 by lia. rewrite seq_app, flat_map_app.
      cbn [plus seq flat_map]. now rewrite <- !app_assoc.
    - apply Forall_app. split; [|exact HB]. apply Forall_flat_map, Forall_forall. intros k Hk. apply in_seq in Hk. apply segment_bytes. lia.
  Qed.
  Theorem dcr_roundtrip curve lut : lut_ok curve -> lut_new curve = Ok lut -> (forall r c, (r < h)%nat -> (c < w)%nat -> s r c < Z.of_nat (length curve)) ->
    dcr_decode (dcr_encode s w h ++ tail) lut w h = Ok (through_curve curve s w h).
  Proof.
    intros HC HT HV.
    assert (SB : forall g i, (g < h * segs w)%nat -> (i < seg_size w g)%nat -> seg_sample (sdiff g) i = s (g / segs w)%nat (256 * (g mod segs w) + i)%nat).
    { intros g i Hg Hi. destruct (seg_place w g i Hi) as (P1 & P2 & P3). destruct (seg_row w h g Hg P3) as (R1 & R2). apply (sample_back s w h); auto. lia. }
    rewrite (image_ok curve lut HC HT _ w h (fun g => length (upto g)) sdiff).
    - f_equal. unfold through_curve. apply map_ext_in. intros i Hi. apply in_seq in Hi. assert (Hw : (0 < w)%nat) by lia.
      assert (Hr : (i / w < h)%nat) by (apply Nat.div_lt_upper_bound; lia). pose proof (Nat.mod_upper_bound i w ltac:(lia)) as Hc. f_equal. f_equal.
      set (r := (i / w)%nat) in *. set (c := (i mod w)%nat) in *. unfold smp.
      pose proof (Nat.div_mod c 256 ltac:(lia)) as DM. pose proof (Nat.mod_upper_bound c 256 ltac:(lia)) as MB.
      assert (Hk : (c / 256 < segs w)%nat) by (unfold segs; pose proof (Nat.div_mod (w + 255) 256 ltac:(lia)); pose proof (Nat.mod_upper_bound (w + 255) 256 ltac:(lia)); apply Nat.div_lt_upper_bound; lia).
      destruct (row_ix (segs w) r (c / 256) Hk) as [E1 E2].
      assert (Hg : (r * segs w + c / 256 < h * segs w)%nat) by nia.
      rewrite SB; [|exact Hg|unfold seg_size; rewrite E2; lia]. rewrite E1, E2. now rewrite <- DM.
    - reflexivity.
    - intros g Hg. destruct (encode_split g Hg) as (rest & -> & HR). rewrite upto_S, app_length. apply stored_segment.
      + unfold seg_size. lia.
      + intros i Hi. now apply sdiff_small.
      + apply Forall_flat_map, Forall_forall. intros k Hk. apply in_seq in Hk. apply segment_bytes. lia.
      + exact HR.
    - apply sdiff_small.
    - intros g i Hg Hi. rewrite SB by auto. destruct (seg_place w g i Hi) as (P1 & P2 & P3). destruct (seg_row w h g Hg P3) as (R1 & R2). apply HV; auto. lia.
  Qed.
End Picture.
