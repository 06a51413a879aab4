(** NEF image data: theorems. *)
From Coq Require Import List ZArith Lia Bool.
From Coq Require Import ZifyBool ZifyNat.
From Verif Require Import Base BaseLemmas Pumps PumpProofs LjpegEnc LjpegDec HuffTree HuffCanon HuffBuild HuffDec Bits BitsSpec BitsProofs LjpegAnySpec LjpegAny Crx CrxLL CrxImageSpec CrxQuant PefSpec Lanes Pef PefRows PefNeg NefSpec NefHuff NefRows NefHead.
Import ListNotations.
Open Scope Z_scope.

Lemma code_lt big meta bps r : (row_code big meta bps r < 6)%nat.
Proof.
  unfold row_code, head_split, head_code, interpolated. destruct (Z.eqb_spec (version0 meta) 70) as [E|E].
  - rewrite E. cbn [Z.eqb andb]. change (70 =? 68) with false. cbn [andb Nat.ltb Nat.leb]. destruct (bps =? 14)%nat; cbn; lia.
  - destruct (bps =? 14)%nat; match goal with |- context [if ?b then _ else _] => destruct b end; lia.
Qed.

Theorem nef_any big meta bps src w h : head_ok big meta bps -> curve_for (head_bits meta bps) (head_curve big meta bps) ->
  Forall is_byte src -> (4 <= length src)%nat -> (w mod 2 = 0)%nat -> (0 < w)%nat -> Z.of_nat (w + h) <= 65000 ->
  data_for (nef_next big meta bps w) (byte_bits src) (w * h) ->
  exists s, lane_picture (head_init big meta) (diff_at (nef_next big meta bps w) (byte_bits src)) w h s /\
    nef_decode src meta big w h bps = Ok (developed (head_curve big meta bps) (head_bits meta bps) (byte_bits src) s w h).
Proof.
  intros HO [HC1 HC2] HBy L4 Hev Hw HB HD. set (init := head_init big meta).
  exists (picture init (diff_at (nef_next big meta bps w) (byte_bits src)) w). split; [apply picture_exists|].
  pose proof HO as (HM & HL & Hb & _). unfold nef_decode.
  rewrite (get_ok meta 0 0), (get_ok meta 1 0) by lia. cbn [bind]. fold (version0 meta) (version1 meta).
  assert (EP : (if (version0 meta =? 73) || (version1 meta =? 88) then do _ <- check (2110 <=? length meta - 2)%nat; Ok 2112%nat else Ok 2%nat) = Ok (head_pos meta)).
  { unfold head_pos in *. destruct ((version0 meta =? 73) || (version1 meta =? 88)); [|reflexivity]. rewrite (proj2 (Nat.leb_le _ _)) by lia. reflexivity. }
  rewrite EP. cbn [bind]. cbv zeta. rewrite !rd16_ok by lia. cbn [bind]. rewrite (curve_ok big meta bps HO). cbn [bind].
  destruct (lut_new_ok _ HC2) as (lut & EL & _). rewrite EL. cbn [bind].
  apply (nef_rows_ok w h (head_code meta bps) (head_split big meta bps) (head_bits meta bps) (head_curve big meta bps) lut HC2 EL ltac:(lia) HC1) with (l0 := byte_bits src) (init := init); auto.
  - pose proof (code_lt big meta bps 0) as X. unfold row_code in X. destruct (_ && _); lia.
  - intros Hs. pose proof (code_lt big meta bps (head_split big meta bps)) as X. unfold row_code in X. rewrite Nat.leb_refl in X. replace (0 <? head_split big meta bps)%nat with true in X by lia. exact X.
  - apply picture_exists.
  - intros r c. apply u16_at_range. exact HM.
  - unfold is_u32. pose proof (peekv_range 24 (byte_bits src)). change (2 ^ Z.of_nat 24) with 16777216 in *. lia.
  - unfold init, head_init. cbn [Nat.mul Nat.add Nat.ltb Nat.leb]. now rewrite Nat.add_0_r.
Qed.

(** ** Dithering stays close to the curve *)
Theorem dithered_close curve v rand : lut_ok curve -> (v < length curve)%nat -> is_u32 rand ->
  let c := nth v curve 0 in let d := step_of curve v in is_u16 (dithered curve v rand) /\
  (c <> 0 -> Z.abs (dithered curve v rand - c) <= (d + 2) / 4) /\ (c = 0 -> 2 * dithered curve v rand <= d).
Proof.
  intros HT Hv Hr. destruct (lut_new_ok curve HT) as (l & EL & _).
  destruct (dither_ok curve l (Z.of_nat v) rand HT EL ltac:(lia) Hr) as (p & r & E & Hp & _ & B).
  destruct (dither_exact curve l (Z.of_nat v) rand HT EL ltac:(lia) Hr) as [E2 _]. rewrite E in E2. injection E2 as E2 _.
  rewrite Nat2Z.id in *. cbv zeta in *. rewrite <- E2. auto.
Qed.

(** ** Symbols *)
Definition prefix_check (num : nat) : bool :=
  let '(sz, hv, _) := nikon_code num in
  forallb (fun k => (0 <=? codeword sz k) && (codeword sz k <? 2 ^ Z.of_nat (nth k sz 0%nat)) &&
    forallb (fun j => ((nth j sz 0 <=? nth k sz 0)%nat && negb (codeword sz k / 2 ^ Z.of_nat (nth k sz 0 - nth j sz 0)%nat =? codeword sz j))) (seq 0 k)) (seq 0 (length sz)).
Lemma symbol_next num kv rest : (num < 6)%nat -> valid_symbol num kv -> next_shift (nikon_code num) (symbol_bits num kv ++ rest) = (symbol_diff num kv, rest).
Proof.
  intros Hn HV. assert (C : prefix_check num = true) by (do 6 (destruct num; [reflexivity|]); lia).
  unfold prefix_check, valid_symbol, symbol_bits, symbol_diff, next_shift in *. destruct (nikon_code num) as [[sz hv] sh]. destruct kv as [k v]. cbn [fst snd] in *.
  destruct HV as [Hk Hv]. rewrite forallb_forall in C. specialize (C k ltac:(apply in_seq; lia)). rewrite !andb_true_iff in C. destruct C as [[C1 C2] C3].
  rewrite forallb_forall in C3. rewrite <- app_assoc. set (l := bits_of (nth k sz 0%nat) (codeword sz k) ++ bits_of (nth k hv 0%nat) v ++ rest).
  assert (PK : peekv (nth k sz 0%nat) l = codeword sz k) by (unfold l; apply peekv_bits_of; lia).
  assert (F : find (fun k => peekv (nth k sz 0%nat) l =? codeword sz k) (seq 0 (length sz)) = Some k).
  { replace (length sz) with (k + S (length sz - k - 1))%nat by lia. rewrite seq_app. cbn [seq plus].
    assert (G : forall m, (m <= k)%nat -> forall tl, find (fun k => peekv (nth k sz 0%nat) l =? codeword sz k) (seq (k - m) m ++ k :: tl) = Some k).
    { induction m; intros Hm tl; cbn [seq app find]; [now rewrite PK, Z.eqb_refl|].
      specialize (C3 (k - S m)%nat ltac:(apply in_seq; lia)). rewrite andb_true_iff in C3. destruct C3 as [A B]. apply Nat.leb_le in A.
      rewrite <- (peekv_div (nth k sz 0%nat) (nth (k - S m) sz 0%nat) l) by auto. rewrite PK. destruct (_ =? _); [discriminate|].
      replace (S (k - S m))%nat with (k - m)%nat by lia. apply IHm. lia. }
    rewrite <- (G k (Nat.le_refl k) (seq (S k) (length sz - k - 1))). now rewrite Nat.sub_diag. }
  rewrite F. assert (SK : skipn (nth k sz 0%nat) l = bits_of (nth k hv 0%nat) v ++ rest).
  { unfold l. rewrite skipn_app, bits_of_length, Nat.sub_diag, skipn_all2 by (rewrite bits_of_length; auto). reflexivity. }
  rewrite SK. rewrite peekv_bits_of by lia. f_equal. rewrite <- skipn_skipn, SK. rewrite skipn_app, bits_of_length, Nat.sub_diag, skipn_all2 by (rewrite bits_of_length; auto). reflexivity.
Qed.
Section Symbols.
  Variable code : nat -> nat.
  Variable w : nat.
  Hypothesis Hc : forall r, (code r < 6)%nat.
  Variable syms : list (nat * Z).
  Hypothesis HV : forall i, (i < length syms)%nat -> valid_symbol (code (i / w)%nat) (nth i syms (0%nat, 0)).
  Variable rest : list bool.
  Let tail_bits (i : nat) : list bool := concat (map (fun i => symbol_bits (code (i / w)%nat) (nth i syms (0%nat, 0))) (seq i (length syms - i))).
  Lemma symbols_after i : (i <= length syms)%nat -> bits_after (fun i => next_shift (nikon_code (code (i / w)%nat))) (symbols_bits code w syms ++ rest) i = tail_bits i ++ rest.
  Proof.
    induction i; intros Hi; [unfold tail_bits, symbols_bits; rewrite Nat.sub_0_r; reflexivity|]. cbn [bits_after]. rewrite IHi by lia.
    unfold tail_bits at 1. replace (length syms - i)%nat with (S (length syms - S i)) by lia. cbn [seq map concat]. rewrite <- app_assoc.
    rewrite symbol_next by (auto; apply HV; lia). reflexivity.
  Qed.
  Lemma symbols_diff i : (i < length syms)%nat -> diff_at (fun i => next_shift (nikon_code (code (i / w)%nat))) (symbols_bits code w syms ++ rest) i = symbol_diff (code (i / w)%nat) (nth i syms (0%nat, 0)).
  Proof.
    intros Hi. unfold diff_at. rewrite symbols_after by lia. unfold tail_bits. replace (length syms - i)%nat with (S (length syms - S i)) by lia. cbn [seq map concat]. rewrite <- app_assoc.
    rewrite symbol_next by (auto; apply HV; lia). reflexivity.
  Qed.
  Lemma symbols_data : (32 <= length rest)%nat -> data_for (fun i => next_shift (nikon_code (code (i / w)%nat))) (symbols_bits code w syms ++ rest) (length syms).
  Proof. intros L i Hi. rewrite symbols_after by lia. rewrite app_length. lia. Qed.
End Symbols.

Lemma developed_ext curve bits l s s' w h : (forall r c, (r < h)%nat -> (c < w)%nat -> s r c = s' r c) -> developed curve bits l s w h = developed curve bits l s' w h.
Proof.
  intros H. unfold developed. apply map_ext_in. intros i Hi. apply in_seq in Hi. rewrite H; auto; [apply Nat.div_lt_upper_bound; lia|apply Nat.mod_upper_bound; lia].
Qed.
(** pictures given by their symbols, with or without a split row *)
Theorem nef_symbols big meta bps syms tail w h s : head_ok big meta bps -> curve_for (head_bits meta bps) (head_curve big meta bps) ->
  Forall is_byte tail -> (4 <= length tail)%nat -> (w mod 2 = 0)%nat -> (0 < w)%nat -> Z.of_nat (w + h) <= 65000 ->
  length syms = (w * h)%nat -> (forall i, (i < w * h)%nat -> valid_symbol (row_code big meta bps (i / w)) (nth i syms (0%nat, 0))) ->
  lane_picture (head_init big meta) (fun i => symbol_diff (row_code big meta bps (i / w)) (nth i syms (0%nat, 0))) w h s ->
  let data := stored (symbols_bits (row_code big meta bps) w syms) tail in
  nef_decode data meta big w h bps = Ok (developed (head_curve big meta bps) (head_bits meta bps) (byte_bits data) s w h).
Proof.
  intros HO HC Ht Lt Hev Hw HB HL HV HS data.
  destruct (stored_bits (symbols_bits (row_code big meta bps) w syms) tail Lt Ht) as (rest & EB & LR). fold data in EB.
  assert (BY : Forall is_byte data) by (unfold data, stored; apply Forall_app; split; auto; apply pack_bytes).
  assert (L4 : (4 <= length data)%nat) by (unfold data, stored; rewrite app_length; lia).
  destruct (nef_any big meta bps data w h HO HC BY L4 Hev Hw HB) as (s' & LP & E).
  - rewrite EB, <- HL. apply symbols_data; auto; [intros; apply code_lt|rewrite HL; exact HV].
  - rewrite E. f_equal. apply developed_ext. intros r c Hr Hc.
    apply (lane_unique (head_init big meta) (diff_at (nef_next big meta bps w) (byte_bits data)) w h s' s LP) with (n := S (r + c)); auto.
    intros r' c' Hr' Hc'. rewrite (HS r' c' Hr' Hc'). f_equal. rewrite EB. symmetry. apply (symbols_diff (row_code big meta bps) w); [intros; apply code_lt|rewrite HL; exact HV|]. rewrite HL. nia.
Qed.

(** ** Codes without shifts *)
Definition plain_check (num n : nat) : bool :=
  let '(sz, hv, sh) := nikon_code num in
  forallb (fun c => match code_of sz hv c with Some k => (nth k sh 0 =? 0)%nat | None => false end) (seq 0 (S n)).
Lemma diff_symbol num n d : plain_check num n = true -> (n <= 15)%nat -> Z.abs d < 2 ^ Z.of_nat n ->
  exists kv, valid_symbol num kv /\ symbol_diff num kv = d /\ (let '(sz, hv, _) := nikon_code num in encode_diff sz hv d) = symbol_bits num kv.
Proof.
  intros C Hn Hd. unfold plain_check, valid_symbol, symbol_diff, symbol_bits in *. destruct (nikon_code num) as [[sz hv] sh].
  pose proof (category_bound d n Hd) as CB. rewrite forallb_forall in C. specialize (C (category d) ltac:(apply in_seq; lia)).
  unfold encode_diff. destruct (code_of sz hv (category d)) as [k|] eqn:EK; [|discriminate]. apply Nat.eqb_eq in C. apply code_of_some in EK as [K1 K2].
  set (v := if d <? 0 then d + 2 ^ Z.of_nat (category d) - 1 else d).
  assert (V : 0 <= v < 2 ^ Z.of_nat (category d)).
  { destruct (Z.eq_dec d 0) as [->|N]; [cbn; lia|]. destruct (category_range d N) as [R _]. unfold v. destruct (Z.ltb_spec d 0); lia. }
  exists (k, v). cbn [fst snd]. rewrite K2, C. split; [auto|]. split; [|reflexivity].
  pose proof (difference_magnitude d [] ltac:(lia)) as DM. rewrite app_nil_r in DM. unfold magnitude in DM. fold v in DM.
  assert (P : peekv (category d) (bits_of (category d) v) = v) by (rewrite <- (app_nil_r (bits_of _ v)); apply peekv_bits_of; lia). rewrite P in DM.
  unfold shift_diff. cbn [Nat.eqb]. destruct (Nat.eqb_spec (category d) 0) as [E|E]; [|exact DM]. unfold difference in DM. rewrite E in DM. cbn [Nat.eqb] in DM. auto.
Qed.
Lemma concat_map_ext {A B} (f g : A -> list B) l : (forall a, In a l -> f a = g a) -> concat (map f l) = concat (map g l).
Proof. intros H. f_equal. apply map_ext_in. exact H. Qed.

Lemma choose_list {A} (P : nat -> A -> Prop) (d : A) n : (forall i, (i < n)%nat -> exists a, P i a) -> exists l, length l = n /\ forall i, (i < n)%nat -> P i (nth i l d).
Proof.
  induction n; intros H; [exists []; split; [reflexivity|lia]|]. destruct IHn as (l & L & Hl); [auto|]. destruct (H n ltac:(lia)) as (a & Ha).
  exists (l ++ [a]). rewrite app_length. cbn. split; [lia|]. intros i Hi. destruct (Nat.eq_dec i n) as [->|N].
  - rewrite app_nth2, L, Nat.sub_diag by lia. exact Ha.
  - rewrite app_nth1 by lia. apply Hl. lia.
Qed.

(** encoded pictures without a split row *)
Theorem nef_roundtrip big meta bps w h s tail n : head_ok big meta bps -> curve_for (head_bits meta bps) (head_curve big meta bps) ->
  head_split big meta bps = 0%nat -> n = (if (bps =? 14)%nat then 14%nat else 12%nat) ->
  Forall is_byte tail -> (4 <= length tail)%nat -> (w mod 2 = 0)%nat -> (0 < w)%nat -> Z.of_nat (w + h) <= 65000 ->
  diffs_within (head_init big meta) s w h n ->
  let data := stored (encode_picture (head_code meta bps) (head_init big meta) s w h) tail in
  nef_decode data meta big w h bps = Ok (developed (head_curve big meta bps) (head_bits meta bps) (byte_bits data) s w h).
Proof.
  intros HO HC HS Hn Ht Lt Hev Hw HB HDf data.
  assert (RC : forall r, row_code big meta bps r = head_code meta bps) by (intros r; unfold row_code; rewrite HS; reflexivity).
  assert (PC : plain_check (head_code meta bps) n = true).
  { subst n. unfold head_code. destruct (version0 meta =? 70), (bps =? 14)%nat; reflexivity. }
  assert (Hn15 : (n <= 15)%nat) by (subst n; destruct (bps =? 14)%nat; lia).
  set (num := head_code meta bps) in *. set (init := head_init big meta) in *.
  set (d := fun i => s (i / w)%nat (i mod w)%nat - lane_pred init s (i / w)%nat (i mod w)%nat).
  destruct (choose_list (fun i kv => valid_symbol num kv /\ symbol_diff num kv = d i /\ (let '(sz, hv, _) := nikon_code num in encode_diff sz hv (d i)) = symbol_bits num kv) (0%nat, 0) (w * h)) as (syms & LS & HSy).
  { intros i Hi. apply (diff_symbol num n); auto. unfold d. apply HDf; [apply Nat.div_lt_upper_bound; lia|apply Nat.mod_upper_bound; lia]. }
  assert (EE : encode_picture num init s w h = symbols_bits (row_code big meta bps) w syms).
  { unfold encode_picture, symbols_bits. destruct (nikon_code num) as [[sz hv] sh] eqn:EN. unfold encode_lanes, lane_diffs. rewrite map_map. fold d. rewrite LS. apply concat_map_ext.
    intros i Hi. apply in_seq in Hi. rewrite RC. destruct (HSy i ltac:(lia)) as (_ & _ & X). exact X. }
  unfold data. rewrite EE. apply (nef_symbols big meta bps syms tail w h s); auto.
  - intros i Hi. rewrite RC. apply HSy. auto.
  - intros r c Hr Hc. rewrite RC. assert (Hi : (r * w + c < w * h)%nat) by nia. destruct (HSy _ Hi) as (_ & X & _). rewrite X. unfold d.
    replace (r * w + c)%nat with (c + r * w)%nat by lia. rewrite Nat.div_add, Nat.mod_add by lia. rewrite Nat.div_small, Nat.mod_small by auto. cbn [plus]. fold init. lia.
Qed.

(** ** Lossless files *)
Definition ramp (n : nat) : list Z := map Z.of_nat (seq 0 n).
Lemma ramp_nth n i : (i < n)%nat -> nth i (ramp n) 0 = Z.of_nat i.
Proof. apply identity_nth. Qed.
Lemma ramp_step n i : (i < n)%nat -> step_of (ramp n) i = (if (i =? n - 1)%nat then 0 else 1) + (if (i =? 0)%nat then 0 else 1).
Proof.
  intros H. unfold step_of, upper_of, lower_of. unfold ramp at 1. rewrite map_length, seq_length.
  destruct (Nat.eqb_spec i (n - 1)), (Nat.eqb_spec i 0); destruct (Nat.ltb_spec i (n - 1)), (Nat.ltb_spec 0 i); try lia; rewrite !ramp_nth by lia; lia.
Qed.
Lemma ramp_ok n : (n <= Z.to_nat 65535)%nat -> lut_ok (ramp n).
Proof.
  intros H. split.
  - apply Forall_forall. intros x Hx. apply in_map_iff in Hx as (i & <- & Hi). apply in_seq in Hi. unfold is_u16. lia.
  - intros i Hi. unfold ramp in Hi. rewrite map_length, seq_length in Hi. rewrite ramp_step, ramp_nth by auto.
    set (d := _ + _). assert (D : 0 <= d <= 2) by (unfold d; destruct (i =? n - 1)%nat, (i =? 0)%nat; lia).
    split; [lia|]. split.
    + intros N. enough ((d + 2) / 4 < 2) by lia. apply Z.div_lt_upper_bound; lia.
    + assert ((d * 2047 + 1024) / 4096 <= 1) by (apply Z.lt_succ_r, Z.div_lt_upper_bound; lia).
      pose proof (Z.div_pos (d + 2) 4 ltac:(lia) ltac:(lia)). lia.
Qed.
Lemma ramp_dither n v rand : (2 <= n)%nat -> (v < n)%nat ->
  dithered (ramp n) v rand = if (0 <? Z.of_nat v) && (Z.of_nat v <? Z.of_nat n - 1) && (rand mod 2048 <? 1536) then Z.of_nat v - 1 else Z.of_nat v.
Proof.
  intros Hn Hv. unfold dithered. rewrite ramp_nth, ramp_step by auto. pose proof (Z.mod_pos_bound rand 2048 ltac:(lia)) as M. set (m := rand mod 2048) in *.
  destruct (Nat.eqb_spec v 0) as [->|N0].
  - replace (0 =? n - 1)%nat with false by lia. change (Z.of_nat 0) with 0. cbn [Z.eqb Z.ltb Z.compare andb]. rewrite Z.div_small by lia. reflexivity.
  - destruct (Nat.eqb_spec v (n - 1)) as [E1|N1].
    + replace (Z.of_nat v =? 0) with false by lia. replace (Z.of_nat v <? Z.of_nat n - 1) with false by lia. rewrite andb_false_r. cbn [andb].
      change ((0 + 1 + 2) / 4) with 0. rewrite Z.div_small by lia. lia.
    + replace (Z.of_nat v =? 0) with false by lia. replace (Z.of_nat v <? Z.of_nat n - 1) with true by lia. replace (0 <? Z.of_nat v) with true by lia. cbn [andb].
      change ((1 + 1 + 2) / 4) with 1. destruct (Z.ltb_spec m 1536); [rewrite Z.div_small by lia; lia|].
      replace (((1 + 1) * m + 1024) / 4096) with 1; [lia|]. apply Z.div_unique with ((1 + 1) * m + 1024 - 4096); lia.
Qed.

Theorem nef_lossless big meta bps w h s tail : head_ok big meta bps -> version0 meta = 70 -> bps = 12%nat \/ bps = 14%nat ->
  Forall is_byte tail -> (4 <= length tail)%nat -> (w mod 2 = 0)%nat -> (0 < w)%nat -> Z.of_nat (w + h) <= 65000 ->
  picture_within s w h (2 ^ Z.of_nat bps) -> diffs_within (head_init big meta) s w h bps ->
  let data := stored (encode_picture (head_code meta bps) (head_init big meta) s w h) tail in
  nef_decode data meta big w h bps =
    Ok (map (fun i => lossless_out bps (s (i / w)%nat (i mod w)%nat) (noise (peekv 24 (byte_bits data)) i)) (seq 0 (w * h))).
Proof.
  intros HO HV Hbps Ht Lt Hev Hw HB HP HDf data.
  assert (EB : head_bits meta bps = bps) by (unfold head_bits; rewrite HV; reflexivity).
  assert (EI : interpolated big meta bps = false) by (unfold interpolated; rewrite HV; reflexivity).
  assert (ET : tabulated big meta bps = false) by (unfold tabulated; rewrite HV; now rewrite andb_false_r).
  assert (ECv : head_curve big meta bps = ramp (2 ^ bps)) by (unfold head_curve; rewrite EI, ET, EB; reflexivity).
  assert (B2 : (2 <= 2 ^ bps <= Z.to_nat 32768)%nat).
  { split; apply Nat2Z.inj_le; rewrite pow2_nat; [apply (pow2_le 1 bps); lia|]. pose proof (pow2_le bps 15 ltac:(lia)). change (2 ^ Z.of_nat 15) with 32768 in *. lia. }
  pose proof (nef_roundtrip big meta bps w h s tail (if (bps =? 14)%nat then 14%nat else 12%nat) HO) as RT. cbv zeta in RT. fold data in RT. rewrite RT; auto.
  - f_equal. unfold developed. apply map_ext_in. intros i Hi. apply in_seq in Hi. rewrite EB, ECv.
    assert (HR : 0 <= s (i / w)%nat (i mod w)%nat < 2 ^ Z.of_nat bps) by (apply HP; [apply Nat.div_lt_upper_bound; lia|apply Nat.mod_upper_bound; lia]).
    set (v := s (i / w)%nat (i mod w)%nat) in *. assert (EC : cut bps v = v) by (unfold cut; lia). rewrite EC.
    rewrite ramp_dither by (try lia; apply Nat2Z.inj_lt; rewrite pow2_nat; lia). rewrite Z2Nat.id by lia. rewrite pow2_nat. reflexivity.
  - rewrite ECv, EB. split; [unfold ramp; rewrite map_length, seq_length; lia|apply ramp_ok; lia].
  - unfold head_split. now rewrite EI.
  - destruct Hbps; subst bps; exact HDf.
Qed.
