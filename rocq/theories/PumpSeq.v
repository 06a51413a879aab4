From Coq Require Import List ZArith Lia Bool.
From Coq Require Import ZifyBool ZifyNat.
From Verif Require Import Base BaseLemmas Pumps PumpProofs.
Import ListNotations.
Open Scope Z_scope.

(** ** Scripts of reads *)
Inductive pop := PPeek (n : nat) | PGet (n : nat).

Fixpoint run_pump {P} (o : pump_ops P) (s : list pop) (p : P) : res (list Z) :=
  match s with
  | [] => Ok []
  | PPeek n :: t => do (v, p') <- peek_bits o n p; do vs <- run_pump o t p'; Ok (v :: vs)
  | PGet n :: t => do (v, p') <- get_bits o n p; do vs <- run_pump o t p'; Ok (v :: vs)
  end.

(** Specification: the bit offset each operation reads at, and its width. *)
Fixpoint windows (s : list pop) (off : nat) : list (nat * nat) :=
  match s with
  | [] => []
  | PPeek n :: t => (off, n) :: windows t off
  | PGet n :: t => (off, n) :: windows t (off + n)
  end.

(** The widths are legal and every window ends at or before bit [total]. *)
Definition script_ok (s : list pop) (total : nat) : Prop :=
  Forall (fun '(o, n) => (n <= 32)%nat /\ (o + n <= total)%nat) (windows s 0).

(** Big endian bit field: bits [o .. o+n) of the byte string, bit 0 being the
    most significant bit of the first byte. *)
Definition field_be (bits : list bool) (w : nat * nat) : Z := peekv (snd w) (skipn (fst w) bits).

(** Little endian bit field: bit 0 is the least significant bit of the first
    byte. *)
Fixpoint le_val (bs : list Z) : Z :=
  match bs with
  | [] => 0
  | b :: t => b + 256 * le_val t
  end.
Definition field_le (bs : list Z) (w : nat * nat) : Z :=
  le_val bs / 2 ^ Z.of_nat (fst w) mod 2 ^ Z.of_nat (snd w).

Lemma run_pump_be {P} (o : pump_ops P) rep (R : pump_refines o rep) s : forall off k p l,
  rep k p (skipn off l) ->
  Forall (fun '(o, n) => (n <= 32)%nat /\ (o + n <= off + k)%nat) (windows s off) ->
  run_pump o s p = Ok (map (field_be l) (windows s off)).
Proof.
  induction s as [|[n|n] t IH]; intros off k p l HR HF; auto; cbn [windows] in HF;
    apply Forall_cons_iff in HF; destruct HF as ((H32 & HK) & HF); cbn [run_pump windows map].
  - destruct (pr_peek R _ _ _ n HR) as (p' & E & R' & _); [lia..|].
    rewrite E. cbn [bind]. rewrite (IH off k p' l) by auto. reflexivity.
  - destruct (pr_get _ _ R _ _ _ n HR) as (p' & E & R'); [lia..|].
    rewrite E. cbn [bind]. rewrite skipn_skipn in R'.
    rewrite (IH (off + n)%nat (k - n)%nat p' l); [reflexivity|auto|].
    eapply Forall_impl; [|exact HF]. intros [a b]. lia.
Qed.

(** *** LSB pump *)
Definition lsb_den (p : wpump) : Z := w_bits p + 2 ^ Z.of_nat (w_nbits p) * le_val (w_rest p).
Definition lsb_rep (k : nat) (p : wpump) (v : Z) : Prop :=
  0 <= w_bits p < 2 ^ Z.of_nat (w_nbits p) /\ (w_nbits p < 64)%nat /\ Forall is_byte (w_rest p) /\
  (k <= w_nbits p + 8 * length (w_rest p))%nat /\ v = lsb_den p.

Lemma slow_fold_le l : Forall is_byte l -> (length l < 4)%nat ->
  slow_fold (rev l) = (le_val l, (8 * length l)%nat).
Proof.
  intros HF HL. rewrite (surjective_pairing (slow_fold (rev l))).
  destruct l as [|a [|b [|c [|d t]]]]; cbn [length] in HL; try lia; auto;
   repeat match goal with H : Forall _ (_ :: _) |- _ => inversion H; clear H; subst end;
   unfold is_byte in *; cbn [rev app slow_fold fold_left fst snd length].
  - f_equal; try lia. cbn [le_val]. unfold wrap_u32. cbn. lia.
  - f_equal; try lia. cbn [le_val].
    change (wrap_u32 (Z.shiftl 0 8)) with 0. rewrite Z.lor_0_l.
    rewrite Z.shiftl_mul_pow2 by lia. unfold wrap_u32. rewrite (Z.mod_small (b * 2 ^ 8)) by lia. change (2 ^ 8) with (2 ^ Z.of_nat 8).
    rewrite (lor_add_disjoint b a 8) by lia. change (2 ^ Z.of_nat 8) with 256. lia.
  - f_equal; try lia. cbn [le_val].
    change (wrap_u32 (Z.shiftl 0 8)) with 0. rewrite Z.lor_0_l.
    rewrite !Z.shiftl_mul_pow2 by lia. unfold wrap_u32. rewrite (Z.mod_small (c * 2 ^ 8)) by lia. change (2 ^ 8) with (2 ^ Z.of_nat 8).
    rewrite (lor_add_disjoint c b 8) by lia. change (2 ^ Z.of_nat 8) with 256.
    rewrite (Z.mod_small ((c * 256 + b) * 256)) by lia.
    change ((c * 256 + b) * 256) with ((c * 256 + b) * 2 ^ Z.of_nat 8). rewrite (lor_add_disjoint _ a 8) by lia. change (2 ^ Z.of_nat 8) with 256. lia.
Qed.

Lemma refill_le_spec rest : Forall is_byte rest -> rest <> [] ->
  exists v cnt rest', refill_le rest = Ok (v, cnt, rest') /\ 0 <= v < 2 ^ Z.of_nat cnt /\
    (cnt <= 32)%nat /\ (cnt + 8 * length rest' = 8 * length rest)%nat /\ Forall is_byte rest' /\
    le_val rest = v + 2 ^ Z.of_nat cnt * le_val rest' /\
    (rest' = [] \/ cnt = 32%nat).
Proof.
  intros HF HN.
  assert (HS : (length rest < 4)%nat -> refill_le rest = Ok (le_val rest, (8 * length rest)%nat, [])).
  { intros HL. destruct rest as [|a [|b [|c [|d t]]]]; cbn [length] in HL; try congruence; try lia;
    unfold refill_le; rewrite slow_fold_le by (auto; cbn; lia); reflexivity. }
  destruct (Nat.lt_ge_cases (length rest) 4) as [HL|HL].
  - rewrite HS by auto. exists (le_val rest), (8 * length rest)%nat, []. split; auto.
    assert (0 <= le_val rest < 2 ^ Z.of_nat (8 * length rest)).
    { clear - HF. induction HF as [|x l Hx HF IH]; cbn [le_val length]; [cbn; lia|].
      replace (8 * S (length l))%nat with (8 + 8 * length l)%nat by lia. rewrite pow2_add.
      change (2 ^ Z.of_nat 8) with 256. unfold is_byte in Hx. nia. }
    cbn [length le_val]. repeat split; auto; lia.
  - destruct rest as [|a [|b [|c [|d t]]]]; cbn [length] in HL; try lia.
    repeat match goal with H : Forall _ (_ :: _) |- _ => inversion H; clear H; subst end.
    exists (le32 a b c d), 32%nat, t. split; auto. unfold is_byte in *. unfold le32, be32.
    change (2 ^ Z.of_nat 32) with 4294967296. cbn [length le_val].
    repeat split; auto; try lia.
Qed.

Lemma lsb_peek_spec k p v n : lsb_rep k p v -> (n <= k)%nat -> (n <= 32)%nat ->
  exists p', peek_bits lsb_ops n p = Ok (v mod 2 ^ Z.of_nat n, p') /\ lsb_rep k p' v /\
    forall m, (m <= n)%nat ->
      exists p'', consume_bits lsb_ops m p' = Ok p'' /\ lsb_rep (k - m)%nat p'' (v / 2 ^ Z.of_nat m).
Proof.
  intros (HB & H64 & HF & HK & ->) Hnk H32.
  assert (exists p1,
    (if (w_nbits p <? n)%nat then
       do (inb, cnt, rest) <- refill_le (w_rest p);
       do s <- usub 32 (w_nbits p);
       do hi <- shl64 inb 32;
       do lo <- shl64 (w_bits p) s;
       do v <- shr64 (Z.lor hi lo) s;
       Ok (mk_wpump rest v (w_nbits p + cnt) (w_pos p))
     else Ok p) = Ok p1 /\ (n <= w_nbits p1)%nat /\ lsb_rep k p1 (lsb_den p)) as (p1 & E1 & HN & HR).
  { destruct (Nat.ltb_spec (w_nbits p) n) as [HL|HL].
    - destruct (refill_le_spec (w_rest p)) as (v & cnt & rest' & E & Hv & Hc & HC & HF' & HV & HX); auto.
      { intros X. rewrite X in HK. cbn in HK. lia. }
      rewrite E. cbn [bind]. rewrite usub_ok by lia. cbn [bind].
      rewrite (shl64_exact v 32 cnt) by lia. cbn [bind].
      rewrite (shl64_exact (w_bits p) (32 - w_nbits p) (w_nbits p)) by lia. cbn [bind].
      rewrite shr64_ok by lia. cbn [bind]. eexists. split; [reflexivity|].
      cbn [w_nbits].
      assert (HP : 2 ^ Z.of_nat 32 = 2 ^ Z.of_nat (w_nbits p) * 2 ^ Z.of_nat (32 - w_nbits p)).
      { rewrite <- pow2_add. f_equal. f_equal. lia. }
      pose proof (pow2_pos (32 - w_nbits p)) as HP1.
      assert (HE : Z.lor (v * 2 ^ Z.of_nat 32) (w_bits p * 2 ^ Z.of_nat (32 - w_nbits p)) / 2 ^ Z.of_nat (32 - w_nbits p)
                   = v * 2 ^ Z.of_nat (w_nbits p) + w_bits p).
      { rewrite lor_add_disjoint. 2: { rewrite HP. nia. }
        rewrite HP. replace (v * (2 ^ Z.of_nat (w_nbits p) * 2 ^ Z.of_nat (32 - w_nbits p)) +
          w_bits p * 2 ^ Z.of_nat (32 - w_nbits p))
          with ((v * 2 ^ Z.of_nat (w_nbits p) + w_bits p) * 2 ^ Z.of_nat (32 - w_nbits p)) by ring.
        apply Z.div_mul. lia. }
      rewrite HE. split.
      { destruct HX as [->| ->]; [|lia]. cbn [length] in HC. lia. }
      pose proof (pow2_pos (w_nbits p)). pose proof (pow2_pos cnt).
      red. unfold lsb_den. cbn [w_nbits w_bits w_rest]. rewrite pow2_add, HV.
      split; [nia|]. split; [lia|]. split; [auto|]. split; [lia|]. ring.
    - exists p. split; auto. split; auto. red. auto 6. }
  destruct HR as (HB1 & H641 & HF1 & HK1 & HD).
  exists p1. split; [|split].
  - cbn [peek_bits lsb_ops]. unfold lsb_peek. rewrite E1. cbn [bind]. rewrite usub_ok by lia. cbn [bind].
    f_equal. f_equal.
    assert (HM : Z.shiftr 4294967295 (Z.of_nat (32 - n)) = 2 ^ Z.of_nat n - 1).
    { rewrite Z.shiftr_div_pow2 by lia. symmetry.
      apply Z.div_unique_pos with (r := 2 ^ Z.of_nat (32 - n) - 1).
      - pose proof (pow2_pos (32 - n)). lia.
      - replace 4294967295 with (2 ^ Z.of_nat (n + (32 - n)) - 1).
        + rewrite pow2_add. ring.
        + replace (n + (32 - n))%nat with 32%nat by lia. reflexivity. }
    rewrite HM, land_ones'. pose proof (pow2_pos n).
    rewrite wrap_u32_small with (n := n); [|lia|apply Z.mod_pos_bound; lia].
    rewrite HD. unfold lsb_den.
    replace (2 ^ Z.of_nat (w_nbits p1)) with (2 ^ Z.of_nat (w_nbits p1 - n) * 2 ^ Z.of_nat n).
    2: { rewrite <- pow2_add. f_equal. f_equal. lia. }
    replace (w_bits p1 + 2 ^ Z.of_nat (w_nbits p1 - n) * 2 ^ Z.of_nat n * le_val (w_rest p1))
      with (w_bits p1 + (2 ^ Z.of_nat (w_nbits p1 - n) * le_val (w_rest p1)) * 2 ^ Z.of_nat n) by ring.
    now rewrite Z_mod_plus_full.
  - red. auto 6.
  - intros m Hm. cbn [consume_bits lsb_ops]. unfold lsb_consume. rewrite usub_ok by lia. cbn [bind].
    rewrite shr64_ok by lia. cbn [bind]. eexists. split; [reflexivity|].
    pose proof (pow2_pos m). red. rewrite HD. unfold lsb_den. cbn [w_nbits w_bits w_rest].
    assert (HP : 2 ^ Z.of_nat (w_nbits p1) = 2 ^ Z.of_nat (w_nbits p1 - m) * 2 ^ Z.of_nat m).
    { rewrite <- pow2_add. f_equal. f_equal. lia. }
    split; [|split; [lia|split; [auto|split; [lia|]]]].
    + split; [apply Z.div_pos; lia|]. apply Z.div_lt_upper_bound; [lia|]. rewrite Z.mul_comm, <- HP. lia.
    + rewrite HP.
      replace (w_bits p1 + 2 ^ Z.of_nat (w_nbits p1 - m) * 2 ^ Z.of_nat m * le_val (w_rest p1))
      with (w_bits p1 + (2 ^ Z.of_nat (w_nbits p1 - m) * le_val (w_rest p1)) * 2 ^ Z.of_nat m) by ring.
      now rewrite Z.div_add by lia.
Qed.

Lemma run_pump_le s : forall off k p bs,
  lsb_rep k p (le_val bs / 2 ^ Z.of_nat off) ->
  Forall (fun '(o, n) => (n <= 32)%nat /\ (o + n <= off + k)%nat) (windows s off) ->
  run_pump lsb_ops s p = Ok (map (field_le bs) (windows s off)).
Proof.
  induction s as [|[n|n] t IH]; intros off k p l HR HF; auto; cbn [windows] in HF;
    apply Forall_cons_iff in HF; destruct HF as ((H32 & HK) & HF); cbn [run_pump windows map].
  - destruct (lsb_peek_spec _ _ _ n HR) as (p' & E & R' & _); [lia..|].
    rewrite E. cbn [bind]. rewrite (IH off k p' l) by auto. reflexivity.
  - unfold get_bits. destruct (Nat.eqb_spec n 0) as [->|Hn].
    + cbn [bind]. rewrite Nat.add_0_r in *. rewrite (IH off k p l) by auto. cbn [bind].
      do 2 f_equal. unfold field_le. cbn [fst snd]. change (2 ^ Z.of_nat 0) with 1. now rewrite Z.mod_1_r.
    + destruct (lsb_peek_spec _ _ _ n HR) as (p' & E & R' & C); [lia..|].
      rewrite E. cbn [bind]. destruct (C n) as (p2 & E2 & R2); [lia|]. rewrite E2. cbn [bind].
      rewrite Z.div_div in R2 by (pose proof (pow2_pos off); pose proof (pow2_pos n); lia).
      rewrite <- pow2_add in R2.
      rewrite (IH (off + n)%nat (k - n)%nat p2 l); [reflexivity|auto|].
      eapply Forall_impl; [|exact HF]. intros [a b]. lia.
Qed.

Lemma msb32_new_rep src k q : Forall is_byte src -> length src = (4 * q)%nat -> (k <= 8 * length src)%nat ->
  msb32_rep k (wpump_new src) (byte_bits (swap32 src)).
Proof.
  intros HF HL HK. red. unfold msb32_den, wpump_new. cbn [w_bits w_nbits w_rest bits_of app].
  assert (HS : forall q src, length src = (4 * q)%nat -> length (swap32 src) = length src).
  { clear. induction q; intros src HL. - destruct src; [auto|cbn in HL; lia].
    - destruct src as [|a [|b [|c [|d t]]]]; cbn [length] in HL; try lia.
      cbn [swap32 length]. rewrite IHq; lia. }
  split; [cbn; lia|]. split; [lia|]. split; [auto|]. split; [eauto|]. split; [|auto].
  rewrite byte_bits_length, (HS q) by auto. auto.
Qed.

(** *** Provided methods *)
(** Two's complement value of an [n] bit pattern. *)
Definition signed (n : nat) (v : Z) : Z := if v <? 2 ^ Z.of_nat (n - 1) then v else v - 2 ^ Z.of_nat n.

Lemma sext_arith n v : (1 <= n <= 32)%nat -> 0 <= v < 2 ^ Z.of_nat n ->
  wshr32 (wshl32 (wrap_i32 v) (32 - n)) (32 - n) = signed n v.
Proof.
  intros Hn Hv. unfold wshr32, wshl32. rewrite !Nat.mod_small by lia.
  rewrite Z.shiftl_mul_pow2, Z.shiftr_div_pow2 by lia.
  set (q := 2 ^ Z.of_nat (32 - n)).
  assert (HQ : 2 ^ 32 = 2 * 2 ^ Z.of_nat (n - 1) * q).
  { unfold q. rewrite <- Z.pow_succ_r by lia. rewrite <- Z.pow_add_r by lia. f_equal. lia. }
  assert (HN : 2 ^ Z.of_nat n = 2 * 2 ^ Z.of_nat (n - 1)).
  { rewrite <- Z.pow_succ_r by lia. f_equal. lia. }
  pose proof (pow2_pos (32 - n)) as Hq. fold q in Hq.
  assert (HX : exists t, wrap_i32 v = v + t * 2 ^ 32).
  { unfold wrap_i32. exists (- ((v + 2 ^ 31) / 2 ^ 32)). rewrite Z.mod_eq by lia. lia. }
  destruct HX as (t & ->).
  assert (HW : wrap_i32 ((v + t * 2 ^ 32) * q) = signed n v * q).
  { unfold wrap_i32, signed.
    assert (HH : 2 ^ 31 = 2 ^ Z.of_nat (n - 1) * q) by lia.
    destruct (Z.ltb_spec v (2 ^ Z.of_nat (n - 1))).
    - replace ((v + t * 2 ^ 32) * q + 2 ^ 31) with (v * q + 2 ^ 31 + (t * q) * 2 ^ 32) by ring.
      rewrite Z_mod_plus_full. rewrite Z.mod_small; [lia|]. split; [nia|].
      enough (v * q < 2 ^ 31) by lia. rewrite HH. nia.
    - replace ((v + t * 2 ^ 32) * q + 2 ^ 31) with (v * q - 2 ^ 31 + (t * q + 1) * 2 ^ 32) by ring.
      rewrite Z_mod_plus_full. rewrite Z.mod_small.
      + rewrite HN. rewrite HH. ring.
      + rewrite HH. split; [nia|]. rewrite HQ. nia. }
  rewrite HW. rewrite Z.div_mul; lia.
Qed.

Lemma get_sext_spec {P} (o : pump_ops P) rep (R : pump_refines o rep) k p l n :
  rep k p l -> (1 <= n <= k)%nat -> (n <= 32)%nat ->
  exists p', get_ibits_sext o n p = Ok (signed n (peekv n l), p') /\ rep (k - n)%nat p' (skipn n l).
Proof.
  intros HR Hn H32. unfold get_ibits_sext.
  destruct (pr_get o rep R k p l n HR) as (p' & E & R'); [lia..|].
  rewrite E. cbn [bind]. rewrite usub_ok by lia. cbn [bind]. exists p'. split; [|auto].
  f_equal. f_equal. apply sext_arith; [lia|]. apply peekv_range.
Qed.

Lemma bval_snoc l b : bval (l ++ [b]) = 2 * bval l + Z.b2z b.
Proof. rewrite bval_app. cbn [length bval]. change (2 ^ Z.of_nat 1) with 2. change (2 ^ Z.of_nat 0) with 1. lia. Qed.

Lemma lead0_app_true l t : lead0 (l ++ true :: t) = lead0 (l ++ [true]).
Proof. induction l as [|[] l IH]; cbn; auto. Qed.

Lemma leading_zeros_batch l :
  leading_zeros32 (Z.lor (wrap_u32 (Z.shiftl (peekv 31 l) 1)) 1) = lead0 (take0 31 l ++ [true]).
Proof.
  unfold leading_zeros32. f_equal. pose proof (peekv_range 31 l) as HR. change (2 ^ Z.of_nat 31) with 2147483648 in HR.
  rewrite Z.shiftl_mul_pow2 by lia. unfold wrap_u32. rewrite Z.mod_small by lia.
  change (2 ^ 1) with (2 ^ Z.of_nat 1). rewrite (lor_add_disjoint _ 1 1) by lia.
  change (2 ^ Z.of_nat 1) with 2. unfold peekv.
  replace (bval (take0 31 l) * 2 + 1) with (bval (take0 31 l ++ [true])) by (rewrite bval_snoc; change (Z.b2z true) with 1; lia).
  transitivity (bits_of (length (take0 31 l ++ [true])) (bval (take0 31 l ++ [true]))).
  - rewrite app_length, take0_length. reflexivity.
  - apply bits_of_bval.
Qed.

Lemma lead0_repeat z t : lead0 (repeat false z ++ true :: t) = z.
Proof. induction z; cbn; auto. Qed.

Lemma lead0_all l : Forall (fun b => b = false) l -> lead0 (l ++ [true]) = length l.
Proof. induction 1 as [|x l -> HF IH]; cbn; auto. Qed.

(** Zero run counting: if the stream starts with [z] zero bits and a one, and
    31 more bits are available there, the run length is returned and the pump
    stands on the one bit. *)
Lemma consume_zerobits_spec {P} (o : pump_ops P) rep (R : pump_refines o rep) : forall fuel z k p t c,
  rep k p (repeat false z ++ true :: t) -> (z + 31 <= k)%nat -> (z < 31 * fuel)%nat ->
  exists p', consume_zerobits o fuel p c = Ok ((c + z)%nat, p') /\ rep (k - z)%nat p' (true :: t).
Proof.
  induction fuel; intros z k p t c HR HK HZ; [lia|]. cbn [consume_zerobits].
  destruct (pr_peek R _ _ _ 31 HR) as (p1 & E1 & R1 & C); [lia..|]. rewrite E1. cbn [bind]. cbv zeta.
  rewrite leading_zeros_batch.
  destruct (Nat.lt_ge_cases z 31) as [HL|HL].
  - assert (EN : lead0 (take0 31 (repeat false z ++ true :: t) ++ [true]) = z).
    { replace 31%nat with (length (repeat false z) + S (30 - z))%nat by (rewrite repeat_length; lia).
      rewrite take0_app_ge. cbn [take0]. rewrite <- app_assoc. cbn [app]. apply lead0_repeat. }
    rewrite EN. destruct (C z) as (p2 & E2 & R2); [lia|]. rewrite E2. cbn [bind].
    replace (z =? 31)%nat with false by lia. exists p2. split; auto.
    rewrite skipn_app, repeat_length, skipn_all2 in R2 by (rewrite repeat_length; lia).
    replace (z - z)%nat with 0%nat in R2 by lia. exact R2.
  - assert (ES : repeat false z ++ true :: t = repeat false 31 ++ repeat false (z - 31) ++ true :: t).
    { rewrite app_assoc, <- repeat_app. repeat f_equal. lia. }
    assert (EN : lead0 (take0 31 (repeat false z ++ true :: t) ++ [true]) = 31%nat).
    { rewrite ES. rewrite take0_app by apply repeat_length. rewrite lead0_repeat. auto. }
    rewrite EN. destruct (C 31%nat) as (p2 & E2 & R2); [lia|]. rewrite E2. cbn [bind]. cbn [Nat.eqb].
    rewrite ES in R2. rewrite skipn_app, repeat_length, skipn_all2 in R2 by (rewrite repeat_length; lia).
    cbn [app Nat.sub skipn] in R2.
    destruct (IHfuel (z - 31)%nat (k - 31)%nat p2 t (c + 31)%nat) as (p3 & E3 & R3); [exact R2|lia|lia|].
    rewrite E3. exists p3. split; [f_equal; f_equal; lia|]. replace (k - z)%nat with (k - 31 - (z - 31))%nat by lia. auto.
Qed.
