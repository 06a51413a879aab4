(** The entropy coded segment: bit writer, symbol coding and its inverse. *)
From Coq Require Import List ZArith Lia Bool.
From Coq Require Import ZifyBool ZifyNat.
From Verif Require Import Base BaseLemmas Pumps PumpProofs LjpegEnc LjpegDec HuffTree HuffCanon HuffBuild HuffDec.
Import ListNotations.
Open Scope Z_scope.

(** ** Byte stuffing *)
Definition stuff (data : list Z) : list Z := flat_map (fun b => if b =? 255 then [255; 0] else [b]) data.

Lemma stuff_app a b : stuff (a ++ b) = stuff a ++ stuff b.
Proof. unfold stuff. apply flat_map_app. Qed.

Lemma unstuff_stuff data rest : unstuff (stuff data ++ rest) = data ++ unstuff rest.
Proof.
  unfold stuff. induction data as [|b data IH]; auto. cbn [flat_map].
  destruct (Z.eqb_spec b 255).
  - subst. rewrite <- app_assoc. cbn [app unstuff]. change (255 =? 255) with true. cbn iota. now rewrite IH.
  - rewrite <- app_assoc. cbn [app]. rewrite unstuff_cons by auto. now rewrite IH.
Qed.

Lemma no_lone_stuff data rest : no_lone_ff rest -> no_lone_ff (stuff data ++ rest).
Proof.
  intros H. unfold stuff. induction data as [|b data IH]; auto. cbn [flat_map].
  destruct (Z.eqb_spec b 255).
  - subst. rewrite <- app_assoc. cbn [app no_lone_ff]. exact IH.
  - rewrite <- app_assoc. cbn [app]. rewrite no_lone_cons by auto. exact IH.
Qed.

Lemma stuff_bytes data : Forall is_byte data -> Forall is_byte (stuff data).
Proof.
  unfold stuff. induction 1; cbn [flat_map]; [constructor|]. apply Forall_app. split; auto.
  destruct (x =? 255); repeat constructor; try (unfold is_byte; lia). unfold is_byte in *; lia. unfold is_byte in *; lia.
Qed.

(** ** Writer *)
Definition bw_inv (w : bwriter) (bits : list bool) : Prop :=
  exists data a, bw_out w = stuff data /\ Forall is_byte data /\ (bw_used w <= 8)%nat /\
    0 <= a < 2 ^ Z.of_nat (bw_used w) /\ bw_next w = a * 2 ^ Z.of_nat (8 - bw_used w) /\
    bits = byte_bits data ++ bits_of (bw_used w) a.

Lemma bw_new_inv : bw_inv bw_new [].
Proof.
  exists [], 0. cbn. repeat split; auto; lia.
Qed.

Lemma internal_flush_inv w bits : bw_inv w bits ->
  bw_inv (bw_internal_flush w) (bits ++ repeat false (8 - bw_used w)).
Proof.
  intros (data & a & E1 & HF & HU & Ha & En & ->).
  set (u := bw_used w) in *.
  assert (B : is_byte (bw_next w)).
  { rewrite En. unfold is_byte. pose proof (pow2_pos (8 - u)). split; [nia|].
    apply Z.lt_le_trans with (2 ^ Z.of_nat u * 2 ^ Z.of_nat (8 - u)); [nia|].
    rewrite <- pow2_add. replace (u + (8 - u))%nat with 8%nat by lia. reflexivity || (simpl; lia). }
  exists (data ++ [bw_next w]), 0. unfold bw_internal_flush; cbn [bw_out bw_used bw_next].
  split; [|split; [|split; [lia|split; [simpl; lia|split; [simpl; lia|]]]]].
  - rewrite E1, stuff_app. f_equal. unfold stuff. cbn [flat_map]. rewrite app_nil_r.
    destruct (Z.eqb_spec (bw_next w) 255); [now rewrite e|reflexivity].
  - apply Forall_app; split; auto.
  - rewrite byte_bits_app, byte_bits_1. cbn [bits_of]. rewrite app_nil_r, <- app_assoc. f_equal.
    symmetry. transitivity (bits_of (u + (8 - u)) (bw_next w)); [unfold u in *; replace (bw_used w + (8 - bw_used w))%nat with 8%nat by lia; reflexivity|]. rewrite bits_of_app. rewrite En. f_equal.
    + rewrite Z.div_mul by (pose proof (pow2_pos (8 - u)); lia). reflexivity.
    + rewrite <- bits_of_mod. rewrite Z.mod_mul by (pose proof (pow2_pos (8 - u)); lia). now rewrite bits_of_0.
Qed.

Lemma bw_write_loop_inv fuel : forall bits v w l,
  (bits < fuel)%nat -> bw_inv w l -> 0 <= v ->
  bw_inv (bw_write_loop fuel bits v w) (l ++ bits_of bits v).
Proof.
  induction fuel; intros bits v w l Hf HI Hv; [lia|].
  cbn [bw_write_loop]. destruct (Nat.eqb_spec bits 0).
  { subst. cbn [bits_of]. now rewrite app_nil_r. }
  assert (HI1 : exists w1, (if (bw_used w =? 8)%nat then bw_internal_flush w else w) = w1 /\ bw_inv w1 l /\ (bw_used w1 < 8)%nat).
  { destruct (Nat.eqb_spec (bw_used w) 8).
    - eexists; split; [reflexivity|]. pose proof (internal_flush_inv _ _ HI) as X. rewrite e in X. cbn in X.
      rewrite app_nil_r in X. split; auto. cbn. lia.
    - eexists; split; [reflexivity|]. split; auto. destruct HI as (? & ? & ? & ? & ? & _). lia. }
  destruct HI1 as (w1 & -> & (data & a & E1 & HF & HU & Ha & En & ->) & HU1).
  set (u := bw_used w1) in *. set (free := (8 - u)%nat). set (take := Nat.min bits free).
  assert (TK : (1 <= take /\ take <= bits /\ take <= free)%nat) by lia.
  assert (PK : wrap_u8 (Z.land (Z.shiftr v (Z.of_nat (bits - take))) (Z.shiftl 1 (Z.of_nat take) - 1))
             = (v / 2 ^ Z.of_nat (bits - take)) mod 2 ^ Z.of_nat take).
  { rewrite Z.shiftl_mul_pow2, Z.mul_1_l by lia. rewrite land_ones'. rewrite Z.shiftr_div_pow2 by lia.
    unfold wrap_u8. apply Z.mod_small. pose proof (Z.mod_pos_bound (v / 2 ^ Z.of_nat (bits - take)) (2 ^ Z.of_nat take) (pow2_pos take)).
    pose proof (pow2_le take 8 ltac:(lia)). change (2 ^ Z.of_nat 8) with (2 ^ 8) in *. lia. }
  rewrite PK. set (pk := (v / 2 ^ Z.of_nat (bits - take)) mod 2 ^ Z.of_nat take).
  assert (Hpk : 0 <= pk < 2 ^ Z.of_nat take) by (apply Z.mod_pos_bound, pow2_pos).
  assert (SH : wrap_u8 (Z.shiftl pk (Z.of_nat (free - take))) = pk * 2 ^ Z.of_nat (free - take)).
  { rewrite Z.shiftl_mul_pow2 by lia. unfold wrap_u8. apply Z.mod_small. pose proof (pow2_pos (free - take)).
    split; [nia|]. apply Z.lt_le_trans with (2 ^ Z.of_nat take * 2 ^ Z.of_nat (free - take)); [nia|].
    rewrite <- pow2_add. apply (pow2_le _ 8). lia. }
  rewrite SH.
  replace (byte_bits data ++ bits_of u a) with (byte_bits data ++ bits_of u a) by auto.
  assert (EB : bits_of bits v = bits_of take pk ++ bits_of (bits - take) v).
  { replace bits with (take + (bits - take))%nat at 1 by lia. rewrite bits_of_app. f_equal.
    unfold pk. now rewrite bits_of_mod. }
  rewrite EB, app_assoc. apply IHfuel; [lia| |auto].
  exists data, (a * 2 ^ Z.of_nat take + pk). cbn [bw_out bw_used bw_next].
  pose proof (pow2_pos take) as PT. pose proof (pow2_pos (free - take)) as PFT.
  split; auto. split; auto. split; [lia|]. split; [|split].
  - rewrite pow2_add. nia.
  - rewrite En. replace (8 - u)%nat with (take + (free - take))%nat by lia. rewrite pow2_add.
    replace (a * (2 ^ Z.of_nat take * 2 ^ Z.of_nat (free - take))) with (a * 2 ^ Z.of_nat (take + (free - take))).
    2:{ rewrite pow2_add. ring. }
    rewrite (lor_add_disjoint a (pk * 2 ^ Z.of_nat (free - take)) (take + (free - take))).
    2:{ rewrite pow2_add. nia. }
    replace (8 - (u + take))%nat with (free - take)%nat by lia. rewrite pow2_add. ring.
  - rewrite <- app_assoc. f_equal. rewrite bits_of_app. f_equal.
    + f_equal. apply Z.div_unique with pk; [left; lia|lia].
    + rewrite <- (bits_of_mod take (a * _ + pk)). f_equal.
      apply Z.mod_unique with a; [left; lia|lia].
Qed.

Lemma bw_write_inv n v w l : bw_inv w l -> 0 <= v -> bw_inv (bw_write n v w) (l ++ bits_of n v).
Proof. intros. apply bw_write_loop_inv; auto. Qed.

Lemma bw_flush_spec w l : bw_inv w l ->
  exists data, bw_out (bw_flush w) = stuff data /\ Forall is_byte data /\ same_bits (byte_bits data) l.
Proof.
  intros HI. unfold bw_flush. destruct (Nat.ltb_spec 0 (bw_used w)).
  - pose proof (internal_flush_inv _ _ HI) as (data & a & E & F & _ & _ & _ & EB).
    exists data. split; auto. split; auto. cbn [bw_internal_flush bw_used bits_of] in EB. rewrite app_nil_r in EB.
    rewrite <- EB. apply same_bits_zeros.
  - destruct HI as (data & a & E & F & U & _ & _ & ->). exists data. split; auto. split; auto.
    replace (bw_used w) with 0%nat by lia. cbn [bits_of]. rewrite app_nil_r. apply same_bits_refl.
Qed.

(** ** Magnitude classes *)
Lemma num_bits_loop_spec fuel : forall v nb,
  0 < v < 2 ^ Z.of_nat fuel -> exists n, num_bits_loop fuel v nb = (nb + n)%nat /\
    2 ^ Z.of_nat n <= v < 2 ^ Z.of_nat (S n).
Proof.
  induction fuel; intros v nb Hv; [simpl in Hv; lia|].
  cbn [num_bits_loop]. rewrite Z.shiftr_div_pow2 by lia. change (2 ^ 1) with 2.
  destruct (Z.eqb_spec (v / 2) 0).
  - exists 0%nat. split; [lia|]. assert (v < 2) by lia. simpl. lia.
  - rewrite pow2_S in Hv. destruct (IHfuel (v / 2) (S nb)) as (n1 & E & R); [lia|].
    exists (S n1). rewrite E. split; [lia|]. rewrite !pow2_S in *. lia.
Qed.

Lemma num_bits_spec v : 0 <= v < 256 ->
  (v = 0 /\ num_bits_tbl v = 0%nat) \/
  (exists n, num_bits_tbl v = S n /\ 2 ^ Z.of_nat n <= v < 2 ^ Z.of_nat (S n)).
Proof.
  intros Hv. unfold num_bits_tbl. destruct (Z.eqb_spec v 0); [auto|]. right.
  destruct (num_bits_loop_spec 8 v 1) as (n1 & E & R); [simpl; lia|]. exists n1. rewrite E. auto.
Qed.

(** lookup_ssss is the bit length of the magnitude. *)
Lemma lookup_ssss_spec d : -32768 <= d <= 32767 ->
  (d = 0 /\ lookup_ssss d = 0%nat) \/
  (exists n, lookup_ssss d = S n /\ 2 ^ Z.of_nat n <= Z.abs d < 2 ^ Z.of_nat (S n)).
Proof.
  intros Hd. unfold lookup_ssss. change 255 with (2 ^ Z.of_nat 8 - 1). rewrite !land_ones'.
  rewrite Z.shiftr_div_pow2 by lia. change (2 ^ 8) with 256. change (2 ^ Z.of_nat 8) with 256.
  destruct (Z.leb_spec 256 (Z.abs d)).
  - right. rewrite Z.mod_small by lia.
    destruct (num_bits_spec (Z.abs d / 256)) as [[X _]|(n & E & R)]; [lia|lia|].
    exists (n + 8)%nat. rewrite E. split; [lia|]. replace (S (n + 8))%nat with (S n + 8)%nat by lia.
    rewrite !pow2_add. change (2 ^ Z.of_nat 8) with 256. lia.
  - rewrite Z.mod_small by lia. destruct (num_bits_spec (Z.abs d)) as [[X E]|(n & E & R)]; [lia| |].
    + left. split; [lia|auto].
    + right. exists n. auto.
Qed.

Lemma ssss_le d : -32768 <= d <= 32767 -> (lookup_ssss d <= 16)%nat.
Proof.
  intros H. destruct (lookup_ssss_spec d H) as [[_ ->]|(n & -> & R)]; [lia|].
  destruct (Nat.le_gt_cases (S n) 16); auto. pose proof (pow2_le 16 n ltac:(lia)).
  change (2 ^ Z.of_nat 16) with 65536 in *. lia.
Qed.

Lemma ssss_16 d : -32768 <= d <= 32767 -> (lookup_ssss d = 16%nat <-> d = -32768).
Proof.
  intros H. split.
  - intros E. destruct (lookup_ssss_spec d H) as [[_ X]|(n & X & R)]; [lia|].
    assert (n = 15)%nat by lia. subst n. change (2 ^ Z.of_nat 15) with 32768 in R. lia.
  - intros ->. reflexivity.
Qed.

(** Extra bits of a difference. *)
Definition extra_bits (d : Z) : list bool :=
  bits_of (extra (lookup_ssss d)) (if d <? 0 then d - 1 else d).

Lemma extend_extra d rest : -32768 <= d <= 32767 ->
  extend (lookup_ssss d) (peekv (lookup_ssss d) (extra_bits d ++ rest)) = d.
Proof.
  intros H. unfold extend, extra_bits, extra.
  destruct (Nat.eqb_spec (lookup_ssss d) 0) as [E|N0].
  { destruct (lookup_ssss_spec d H) as [[-> _]|(n & X & _)]; [auto|lia]. }
  destruct (Nat.eqb_spec (lookup_ssss d) 16) as [E|N16].
  { apply ssss_16 in E; auto. }
  destruct (lookup_ssss_spec d H) as [[_ X]|(n & E & R)]; [lia|].
  rewrite E. set (v := if d <? 0 then d - 1 else d).
  replace (peekv (S n) (bits_of (S n) v ++ rest)) with (v mod 2 ^ Z.of_nat (S n)).
  2:{ rewrite <- bval_bits_of. symmetry. apply peekv_app. apply bits_of_length. }
  replace (S n - 1)%nat with n by lia. rewrite pow2_S in *. pose proof (pow2_pos n).
  unfold v. destruct (Z.ltb_spec d 0).
  - assert (M : (d - 1) mod (2 * 2 ^ Z.of_nat n) = d - 1 + 2 * 2 ^ Z.of_nat n).
    { symmetry. apply Z.mod_unique with (-1); [left; lia|lia]. }
    rewrite M. destruct (Z.ltb_spec (d - 1 + 2 * 2 ^ Z.of_nat n) (2 ^ Z.of_nat n)); lia.
  - rewrite Z.mod_small by lia. destruct (Z.ltb_spec d (2 ^ Z.of_nat n)); lia.
Qed.

Lemma extra_bits_length d : length (extra_bits d) = extra (lookup_ssss d).
Proof. apply bits_of_length. Qed.

(** Code word of a difference with a canonical code. *)
Definition sym_bits (sz hv : list nat) (d : Z) : list bool :=
  match index_of (lookup_ssss d) hv with
  | Some k => bits_of (nth k sz 0%nat) (code sz k) ++ extra_bits d
  | None => []
  end.

Lemma canon_aligned sz hv : canon sz hv -> forall i, (i < length sz)%nat -> (nth i sz 0 <= 16)%nat.
Proof. intros C i Hi. pose proof (cn_sz _ _ C i Hi). lia. Qed.

Lemma canon_get_lsb sz hv k : canon sz hv -> (k < length sz)%nat ->
  ba_get_lsb (mk_ba (start sz k) (nth k sz 0%nat)) = Ok (code sz k) /\ 0 <= code sz k < 2 ^ Z.of_nat (nth k sz 0%nat).
Proof.
  intros C Hk. pose proof (canon_aligned _ _ C) as CA.
  pose proof (cn_sz _ _ C k Hk) as R. pose proof (cn_mono _ _ C) as CM. pose proof (cn_kraft _ _ C) as CK. unfold ba_get_lsb. cbn [ba_nbits ba_storage].
  rewrite usub_ok by lia. cbn [bind]. replace (16 - nth k sz 0 <? 16)%nat with true by lia. cbn [assert_ bind].
  pose proof (code_start sz k CM CA Hk) as CS. pose proof (weight_pos (nth k sz 0%nat) ltac:(lia)) as W.
  split.
  - f_equal. rewrite Z.shiftr_div_pow2 by lia. rewrite <- weight_nat by lia. reflexivity.
  - pose proof (start_mono sz 0 k ltac:(lia)). rewrite start_0 in *.
    pose proof (start_mono sz k (length sz) ltac:(lia)).
    split; [nia|].
    assert (weight (nth k sz 0%nat) * 2 ^ Z.of_nat (nth k sz 0%nat) = 65536).
    { rewrite weight_nat by lia. rewrite <- pow2_add. replace (16 - nth k sz 0 + nth k sz 0)%nat with 16%nat by lia. reflexivity. }
    nia.
Qed.

(** Decoding one symbol. *)
Lemma decode_symbol t sz hv d rest p :
  dtable t sz hv -> canon sz hv -> -32768 <= d <= 32767 -> In (lookup_ssss d) hv ->
  jpeg_rep 32 p (sym_bits sz hv d ++ rest) ->
  exists p', huff_decode jpeg_ops t p = Ok (d, p') /\ jpeg_rep 32 p' rest.
Proof.
  intros D C Hd HIn HR. unfold sym_bits in HR.
  destruct (index_of (lookup_ssss d) hv) as [k|] eqn:E; [|exfalso; now apply (index_of_none _ _ E)].
  apply index_of_some in E. destruct E as [Hk Ek].
  assert (Hk' : (k < length sz)%nat) by (rewrite (cn_len _ _ C); auto).
  destruct (canon_get_lsb sz hv k C Hk') as [_ CR].
  destruct (huff_decode_spec jpeg_ops jpeg_rep jpeg_refines t sz hv k 32 p ((bits_of (nth k sz 0%nat) (code sz k) ++ extra_bits d) ++ rest) D Hk') as (p' & E & R'); [|lia|exact HR|].
  { rewrite <- app_assoc. now apply peekv_bits_of. }
  cbv zeta in E, R'. rewrite Ek in E, R'.
  assert (SK : skipn (nth k sz 0%nat) ((bits_of (nth k sz 0%nat) (code sz k) ++ extra_bits d) ++ rest) = extra_bits d ++ rest).
  { rewrite <- app_assoc. rewrite skipn_app, bits_of_length, Nat.sub_diag, skipn_all2 by (rewrite bits_of_length; auto). reflexivity. }
  rewrite SK, extend_extra in E by auto.
  exists p'. split; auto.
  rewrite <- skipn_skipn, SK in R'.
  rewrite skipn_app, extra_bits_length, Nat.sub_diag, skipn_all2 in R' by (rewrite extra_bits_length; auto).
  exact R'.
Qed.

(** Writing the scan. *)
Definition tbl_of (c : list nat * list nat) : list bitarray16 := map (canon_entry (fst c) (snd c)) (seq 0 17).

Definition scan_bits (codes : list (list nat * list nat)) (comps i : nat) (cache : list Z) : list bool :=
  flat_map (fun j => let c := nth ((i + j) mod comps) codes ([], []) in
                     sym_bits (fst c) (snd c) (nth j cache 0)) (seq 0 (length cache)).

Lemma scan_bits_cons codes comps i d cache :
  scan_bits codes comps i (d :: cache) =
  (let c := nth (i mod comps) codes ([], []) in sym_bits (fst c) (snd c) d) ++ scan_bits codes comps (S i) cache.
Proof.
  unfold scan_bits. cbn [length seq flat_map nth]. rewrite Nat.add_0_r. f_equal.
  rewrite <- seq_shift. rewrite !flat_map_concat_map, map_map. f_equal. apply map_ext. intros j.
  replace (i + S j)%nat with (S i + j)%nat by lia. reflexivity.
Qed.

Lemma write_body_loop_spec dbg comps codes cache : forall i w l,
  (1 <= comps)%nat -> length codes = comps -> (forall c, In c codes -> canon (fst c) (snd c)) ->
  (forall j, (j < length cache)%nat -> -32768 <= nth j cache 0 <= 32767 /\
      In (lookup_ssss (nth j cache 0)) (snd (nth ((i + j) mod comps) codes ([], [])))) ->
  bw_inv w l ->
  exists w', write_body_loop dbg comps i cache (map tbl_of codes) w = Ok w' /\
    bw_inv w' (l ++ scan_bits codes comps i cache).
Proof.
  induction cache as [|d cache IH]; intros i w l HC HL HCN HD HI.
  - exists w. split; auto. unfold scan_bits. cbn. now rewrite app_nil_r.
  - cbn [write_body_loop].
    assert (HM : (i mod comps < comps)%nat) by (apply Nat.mod_upper_bound; lia).
    rewrite (get_ok _ _ (tbl_of ([], []))) by (rewrite map_length; lia). cbn [bind].
    rewrite map_nth. set (c := nth (i mod comps) codes ([], [])) in *.
    assert (Cc : canon (fst c) (snd c)) by (apply HCN, nth_In; lia).
    destruct (HD 0%nat) as [Hd Hin]; [simpl; lia|]. cbn [nth] in Hd, Hin. rewrite Nat.add_0_r in Hin. fold c in Hin.
    pose proof (ssss_le d Hd) as SL.
    rewrite (get_ok _ _ ba_default) by (unfold tbl_of; rewrite map_length, seq_length; lia). cbn [bind].
    assert (ET : nth (lookup_ssss d) (tbl_of c) ba_default = canon_entry (fst c) (snd c) (lookup_ssss d)).
    { unfold tbl_of. now rewrite nth_map_seq by lia. }
    rewrite ET. unfold canon_entry.
    destruct (index_of (lookup_ssss d) (snd c)) as [k|] eqn:EI; [|exfalso; now apply (index_of_none _ _ EI)].
    pose proof (index_of_some _ _ _ EI) as [Hk Ek].
    assert (Hk' : (k < length (fst c))%nat) by (rewrite (cn_len _ _ Cc); auto).
    destruct (canon_get_lsb _ _ k Cc Hk') as [EG CR]. rewrite EG. cbn [bind].
    pose proof (cn_sz _ _ Cc k Hk') as SZ.
    cbn [ba_nbits].
    assert (A1 : (if dbg then assert_ (0 <? nth k (fst c) 0)%nat else Ok tt) = Ok tt).
    { destruct dbg; auto. replace (0 <? nth k (fst c) 0)%nat with true by lia. auto. }
    rewrite A1. cbn [bind].
    assert (A2 : (if dbg then assert_ (lookup_ssss d <=? 16)%nat else Ok tt) = Ok tt).
    { destruct dbg; auto. replace (lookup_ssss d <=? 16)%nat with true by lia. auto. }
    rewrite A2. cbn [bind].
    set (w1 := bw_write (nth k (fst c) 0%nat) (code (fst c) k) w).
    assert (I1 : bw_inv w1 (l ++ bits_of (nth k (fst c) 0%nat) (code (fst c) k))) by (apply bw_write_inv; auto; lia).
    match goal with |- context [write_body_loop dbg comps (S i) cache _ ?W] => set (w2 := W) end.
    assert (I2 : bw_inv w2 ((l ++ bits_of (nth k (fst c) 0%nat) (code (fst c) k)) ++ extra_bits d)).
    { unfold w2, extra_bits, extra.
      replace (negb (Z.land (Z.of_nat (lookup_ssss d)) 15 =? 0)) with
        (negb (lookup_ssss d =? 0)%nat && negb (lookup_ssss d =? 16)%nat).
      2:{ clear - SL. change 15 with (2 ^ Z.of_nat 4 - 1). rewrite land_ones'. change (2 ^ Z.of_nat 4) with 16.
          destruct (Nat.eqb_spec (lookup_ssss d) 0) as [->|N0]; [reflexivity|].
          destruct (Nat.eqb_spec (lookup_ssss d) 16) as [->|N16]; [reflexivity|].
          cbn [negb andb]. rewrite Z.mod_small by lia. lia. }
      destruct (Nat.eqb_spec (lookup_ssss d) 0) as [E0|N0]; cbn [negb andb].
      { rewrite E0. cbn. rewrite app_nil_r. auto. }
      destruct (Nat.eqb_spec (lookup_ssss d) 16) as [E16|N16]; cbn [negb].
      { cbn [bits_of]. rewrite app_nil_r. auto. }
      set (v := if d <? 0 then d - 1 else d).
      assert (MASK : Z.shiftr 65535 (Z.of_nat (16 - lookup_ssss d)) = 2 ^ Z.of_nat (lookup_ssss d) - 1).
      { rewrite Z.shiftr_div_pow2 by lia. symmetry.
        assert (E2 : 65536 = 2 ^ Z.of_nat (lookup_ssss d) * 2 ^ Z.of_nat (16 - lookup_ssss d)).
        { rewrite <- pow2_add. replace (lookup_ssss d + (16 - lookup_ssss d))%nat with 16%nat by lia. reflexivity. }
        pose proof (pow2_pos (16 - lookup_ssss d)).
        apply Z.div_unique with (2 ^ Z.of_nat (16 - lookup_ssss d) - 1); [left; lia|nia]. }
      rewrite MASK, land_ones'. rewrite <- (bits_of_mod (lookup_ssss d) v).
      apply bw_write_inv; auto. apply Z.mod_pos_bound, pow2_pos. }
    edestruct (fun A => IH (S i) w2 _ HC HL HCN A I2) as (w' & E & I').
    { intros j Hj. destruct (HD (S j)) as [X Y]; [simpl; lia|]. cbn [nth] in X, Y.
      replace (S i + j)%nat with (i + S j)%nat by lia. auto. }
    exists w'. split; auto. rewrite scan_bits_cons. cbv zeta. fold c. unfold sym_bits. rewrite EI.
    rewrite !app_assoc in *. exact I'.
Qed.

Theorem write_body_spec dbg comps codes cache :
  (1 <= comps)%nat -> length codes = comps -> (forall c, In c codes -> canon (fst c) (snd c)) ->
  (forall j, (j < length cache)%nat -> -32768 <= nth j cache 0 <= 32767 /\
      In (lookup_ssss (nth j cache 0)) (snd (nth (j mod comps) codes ([], [])))) ->
  exists data, write_body dbg comps cache (map tbl_of codes) = Ok (stuff data) /\
    Forall is_byte data /\ same_bits (byte_bits data) (scan_bits codes comps 0 cache).
Proof.
  intros. unfold write_body.
  destruct (write_body_loop_spec dbg comps codes cache 0 bw_new [] H H0 H1) as (w & E & I); [auto|apply bw_new_inv|].
  rewrite E. cbn [bind]. destruct (bw_flush_spec _ _ I) as (data & E2 & F & S). rewrite E2. eauto.
Qed.
