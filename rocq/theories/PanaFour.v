(** Panasonic format 4. *)
From Coq Require Import List ZArith Bool Lia Arith.
From Verif Require Import Base BaseLemmas Pumps PumpProofs PumpSeq PefNeg Crx CrxLL Pana SonySpec SonyArw2 SonyTop PanaSpec PanaProofs PanaStore PanaSix.
Import ListNotations.
Open Scope Z_scope.

(** ** The reader *)
Lemma flip_bits x : 0 <= x < 1024 -> Z.lxor x 1023 = 1023 - x.
Proof.
  intros H. assert (E1 : Z.land x 1023 = x) by (change 1023 with (Z.ones 10); rewrite Z.land_ones by lia; now apply Z.mod_small).
  assert (E2 : Z.land x (Z.lxor x 1023) = 0).
  { apply Z.bits_inj'. intros n Hn. rewrite Z.land_spec, Z.lxor_spec, Z.bits_0. assert (B : Z.testbit (Z.land x 1023) n = Z.testbit x n) by now rewrite E1.
    rewrite Z.land_spec in B. destruct (Z.testbit x n), (Z.testbit 1023 n); cbn in *; congruence. }
  pose proof (Z.add_nocarry_lxor x (Z.lxor x 1023) E2) as E3. rewrite <- Z.lxor_assoc, Z.lxor_nilpotent, Z.lxor_0_l in E3. lia.
Qed.
Lemma flip_byte u r : 0 <= u < 1024 -> 0 <= r < 16 -> Z.lxor (16 * (1023 - u) + r) 16368 = 16 * u + r.
Proof.
  intros Hu Hr.
  assert (C : forall a, Z.land (16 * a) r = 0).
  { intros a. apply Z.bits_inj'. intros n Hn. rewrite Z.land_spec, Z.bits_0. destruct (Z.lt_ge_cases n 4).
    - replace (16 * a) with (a * 2 ^ 4) by (change (2 ^ 4) with 16; lia). now rewrite Z.mul_pow2_bits_low by lia.
    - destruct (Z.eq_dec r 0) as [->|]; [now rewrite Z.bits_0, andb_false_r|]. assert (Z.log2 r < 4) by (apply Z.log2_lt_pow2; lia). rewrite (Z.bits_above_log2 r n), andb_false_r by lia. reflexivity. }
  rewrite (Z.add_nocarry_lxor _ _ (C (1023 - u))), (Z.add_nocarry_lxor _ _ (C u)).
  rewrite (Z.lxor_comm _ r), Z.lxor_assoc, (Z.lxor_comm r). f_equal.
  change 16368 with (Z.shiftl 1023 4). replace (16 * (1023 - u)) with (Z.shiftl (1023 - u) 4) by (rewrite Z.shiftl_mul_pow2 by lia; change (2 ^ 4) with 16; lia).
  rewrite <- Z.shiftl_lxor, flip_bits by lia. rewrite Z.shiftl_mul_pow2 by lia. change (2 ^ 4) with 16. lia.
Qed.

Section Reader.
  Variables (src : list Z) (split : bool).
  Hypothesis HB : Forall is_byte src.
  (** after [t] bits *)
  Definition pst (t : Z) : ppump := mk_ppump src (16384 * ((t + 131071) / 131072)) (131072 * ((t + 131071) / 131072) - t) split.
  Definition enough (k : nat) : Prop := if split then 16384 * (Z.of_nat k / 1024) + 16385 <= Z.of_nat (length src) else 16 * Z.of_nat k + 17 <= Z.of_nat (length src).
  Definition raw_field (k o n : nat) : Z :=
    let q := (128 - o - n)%nat in
    (nth (packet_home split k (q / 8)) src 0 + 256 * nth (packet_home split k (q / 8) + 1) src 0) / 2 ^ Z.of_nat (q mod 8) mod 2 ^ Z.of_nat n.
  Local Ltac Zify.zify_post_hook ::= Z.div_mod_to_equations.
  Lemma pst_peek t n : 0 <= t -> 0 < n <= 8 -> t mod 128 + n <= 128 ->
    (if 131072 * ((t + 131071) / 131072) - t <? n then (16384 * ((t + 131071) / 131072) + 16384, 131072 * ((t + 131071) / 131072) - t + 131072)
     else (16384 * ((t + 131071) / 131072), 131072 * ((t + 131071) / 131072) - t)) = (16384 * (t / 131072 + 1), 131072 * (t / 131072 + 1) - t).
  Proof. clear. intros. destruct (Z.ltb_spec (131072 * ((t + 131071) / 131072) - t) n); f_equal; lia. Qed.
  Lemma pst_next t n : 0 <= t -> 0 < n <= 8 -> t mod 128 + n <= 128 -> (t + n + 131071) / 131072 = t / 131072 + 1.
  Proof. clear. intros. lia. Qed.
  Lemma left_bits k o n : 0 <= k -> 0 <= o -> 0 < n -> o + n <= 128 ->
    131072 * ((128 * k + o) / 131072 + 1) - (128 * k + o) - n = 128 * (1023 - k mod 1024) + (128 - o - n) /\ (128 * k + o) / 131072 = k / 1024.
  Proof. clear. intros. lia. Qed.
  Lemma eighth a q : 0 <= q < 128 -> (128 * a + q) / 8 = 16 * a + q / 8 /\ (128 * a + q) mod 8 = q mod 8 /\ 0 <= q / 8 < 16.
  Proof. clear. intros. lia. Qed.
  Lemma home_of k j : (j < 16)%nat -> Z.of_nat (packet_home split k j) =
    16384 * (Z.of_nat k / 1024) + (if split then (16 * (Z.of_nat k mod 1024) + Z.of_nat j + 16384 - 8200) mod 16384 else 16 * (Z.of_nat k mod 1024) + Z.of_nat j).
  Proof. clear. intros. unfold packet_home. destruct split; lia. Qed.
  Lemma home_enough k j : (j < 16)%nat -> enough k -> (packet_home split k j + 1 < length src)%nat.
  Proof. clear. intros H. unfold enough, packet_home. destruct split; lia. Qed.
  Local Ltac Zify.zify_post_hook ::= idtac.
  Lemma pana_get k o n : (0 < n <= 8)%nat -> (o + n <= 128)%nat -> enough k ->
    get_bits pana_ops n (pst (128 * Z.of_nat k + Z.of_nat o)) = Ok (raw_field k o n, pst (128 * Z.of_nat k + Z.of_nat o + Z.of_nat n)).
  Proof.
    intros Hn Ho HE. unfold get_bits. replace (n =? 0)%nat with false by lia. cbn [peek_bits consume_bits pana_ops].
    set (t := 128 * Z.of_nat k + Z.of_nat o).
    assert (Tm : t mod 128 = Z.of_nat o mod 128) by (unfold t; rewrite Z.add_comm, Z.mul_comm; apply Z.mod_add; lia).
    assert (Ht : t mod 128 + Z.of_nat n <= 128) by (rewrite Tm, Z.mod_small by lia; lia).
    assert (E : (if pp_nbits (pst t) <? Z.of_nat n then mk_ppump (pp_buf (pst t)) (pp_pos (pst t) + 16384) (pp_nbits (pst t) + 131072) (pp_split (pst t)) else pst t) =
      mk_ppump src (16384 * (t / 131072 + 1)) (131072 * (t / 131072 + 1) - t) split).
    { pose proof (pst_peek t (Z.of_nat n) ltac:(unfold t; lia) ltac:(lia) Ht) as K. unfold pst. cbn [pp_nbits pp_buf pp_pos pp_split].
      destruct (_ <? Z.of_nat n); apply pair_equal_spec in K; destruct K as [-> ->]; reflexivity. }
    unfold pana_peek. cbv zeta. rewrite E. cbn [pp_nbits pp_buf pp_pos pp_split].
    destruct (left_bits (Z.of_nat k) (Z.of_nat o) (Z.of_nat n)) as [EL EB]; try lia. fold t in EL, EB. rewrite EB in *.
    set (q := (128 - o - n)%nat). assert (Eq : 128 - Z.of_nat o - Z.of_nat n = Z.of_nat q) by (unfold q; lia). rewrite Eq in EL. rewrite EL.
    set (u := Z.of_nat k mod 1024) in *. assert (Hu : 0 <= u < 1024) by (apply Z.mod_pos_bound; lia).
    rewrite u32_ok by (unfold q in *; lia). cbn [bind].
    destruct (eighth (1023 - u) (Z.of_nat q) ltac:(unfold q; lia)) as (D1 & D2 & D3).
    rewrite Z.shiftr_div_pow2 by lia. change (2 ^ 3) with 8. rewrite D1, flip_byte by assumption.
    replace (Z.land (128 * (1023 - u) + Z.of_nat q) 7) with (Z.of_nat (q mod 8)) by (change 7 with (Z.ones 3); rewrite Z.land_ones by lia; change (2 ^ 3) with 8; rewrite D2, Nat2Z.inj_mod; reflexivity).
    assert (Hj : (q / 8 < 16)%nat) by (apply Nat2Z.inj_lt; rewrite Nat2Z.inj_div; exact (proj2 D3)).
    assert (EA : (if split then (16 * u + Z.of_nat q / 8 + 16384 - 8200) mod 16384 else 16 * u + Z.of_nat q / 8) + 16384 * (Z.of_nat k / 1024 + 1) - 16384 = Z.of_nat (packet_home split k (q / 8))).
    { rewrite home_of by exact Hj. rewrite Nat2Z.inj_div. change (Z.of_nat 8) with 8. fold u. lia. }
    rewrite EA. unfold le16_at. pose proof (home_enough k (q / 8) Hj HE) as HH.
    rewrite assert_true by lia. cbn [bind]. rewrite Nat2Z.id. replace (Z.to_nat (Z.of_nat (packet_home split k (q / 8)) + 1)) with (packet_home split k (q / 8) + 1)%nat by lia.
    rewrite !(get_ok src _ 0) by lia. cbn [bind]. rewrite u32_ok by lia. cbn [bind]. rewrite assert_true by lia. cbn [bind]. unfold pana_consume. cbn [pp_nbits pp_buf pp_pos pp_split].
    rewrite EL, u32_ok by (unfold q in *; lia). cbn [bind]. f_equal. f_equal.
    - unfold raw_field. fold q. rewrite Z.shiftr_div_pow2 by lia. change 4294967295 with (Z.ones 32). rewrite Z.shiftr_div_pow2, Z.ones_div_pow2 by lia.
      replace (32 - (32 - Z.of_nat n)) with (Z.of_nat n) by lia. now rewrite Z.land_ones by lia.
    - unfold pst. rewrite (pst_next t (Z.of_nat n)) by (unfold t in *; lia). rewrite EB. f_equal. rewrite <- Eq in EL. rewrite <- Eq. lia.
  Qed.
  Lemma raw_range k o n : 0 <= raw_field k o n < 2 ^ Z.of_nat n.
  Proof. apply Z.mod_pos_bound, pow2_pos. Qed.
  Local Ltac Zify.zify_post_hook ::= Z.div_mod_to_equations.
  Lemma home_next k r : (r < 15)%nat -> (split = true -> Z.of_nat k mod 1024 <> 512) -> (packet_home split k r + 1 = packet_home split k (r + 1))%nat.
  Proof. clear. intros H1 H2. unfold packet_home. destruct split; [specialize (H2 eq_refl)|]; lia. Qed.
  Lemma byte_parts o n q : (q = 128 - o - n)%nat -> (0 < n <= 8)%nat -> (o + n <= 128)%nat -> (q = 8 * (q / 8) + q mod 8 /\ q mod 8 < 8 /\ q / 8 < 16 /\ (q / 8 = 15 -> q mod 8 + n <= 8))%nat.
  Proof. clear. intros -> H1 H2. lia. Qed.
  Local Ltac Zify.zify_post_hook ::= idtac.
  Lemma high_part x y (s n m : nat) : (s + n <= m)%nat -> (x + 2 ^ Z.of_nat m * y) / 2 ^ Z.of_nat s mod 2 ^ Z.of_nat n = x / 2 ^ Z.of_nat s mod 2 ^ Z.of_nat n.
  Proof.
    clear. intros H. replace m with (s + (n + (m - s - n)))%nat by lia. rewrite !pow2_add.
    replace (x + 2 ^ Z.of_nat s * (2 ^ Z.of_nat n * 2 ^ Z.of_nat (m - s - n)) * y) with (x + (2 ^ Z.of_nat (m - s - n) * y * 2 ^ Z.of_nat n) * 2 ^ Z.of_nat s) by ring.
    rewrite Z.div_add, Z.mod_add by (apply Z.pow_nonzero; lia). reflexivity.
  Qed.
  Lemma le_skip l : forall r, Forall is_byte l -> le_value l / 2 ^ Z.of_nat (8 * r) = le_value (skipn r l).
  Proof.
    clear. induction l as [|a l IH]; intros r HF; [rewrite skipn_nil; apply Z.div_0_l, Z.pow_nonzero; lia|].
    destruct r; [change (2 ^ Z.of_nat (8 * 0)) with 1; now rewrite Z.div_1_r|]. inversion HF as [|? ? H1 H2]; subst. cbn [skipn]. rewrite <- (IH r H2). cbn [le_value].
    replace (8 * S r)%nat with (8 + 8 * r)%nat by lia. rewrite pow2_add. change (2 ^ Z.of_nat 8) with 256. unfold is_byte in H1.
    rewrite <- Z.div_div by (try (apply Z.pow_pos_nonneg; lia); lia). f_equal. rewrite (Z.mul_comm 256), Z.div_add by lia. rewrite Z.div_small by lia. lia.
  Qed.
  Lemma skipn_two (l : list Z) r : (r < length l)%nat -> skipn r l = nth r l 0 :: skipn (S r) l.
  Proof. clear. revert r. induction l as [|a l IH]; intros r H; [cbn in H; lia|]. destruct r; [reflexivity|]. cbn [skipn nth]. apply IH. cbn in H. lia. Qed.
  Lemma raw_good k o n : (0 < n <= 8)%nat -> (o + n <= 128)%nat -> enough k -> (split = true -> Z.of_nat k mod 1024 <> 512) ->
    raw_field k o n = bits_at (128 - o - n) n (packet_value split src k).
  Proof.
    intros Hn Ho HE Hg. unfold raw_field, bits_at. set (q := (128 - o - n)%nat). destruct (byte_parts o n q eq_refl Hn Ho) as (Q1 & Q2 & Q3 & Q4).
    set (r := (q / 8)%nat) in *. set (s := (q mod 8)%nat) in *. rewrite Q1, pow2_add.
    rewrite <- Z.div_div by (try (apply Z.pow_pos_nonneg; lia); try (apply Z.pow_nonzero; lia)).
    unfold packet_value. rewrite le_skip by (now apply packet_bytes). set (l := packet split src k).
    assert (Ll : length l = 16%nat) by apply packet_length.
    assert (Nl : forall j, (j < 16)%nat -> nth j l 0 = nth (packet_home split k j) src 0) by (intros j Hj; unfold l, packet; now rewrite nth_map_seq by exact Hj).
    rewrite (skipn_two l r) by lia. cbn [le_value]. rewrite (Nl r Q3). destruct (Nat.eq_dec r 15) as [E|E].
    - specialize (Q4 E). rewrite (skipn_all2 (n := S r) l) by lia. cbn [le_value]. rewrite Z.mul_0_r, Z.add_0_r. apply (high_part _ _ s n 8). lia.
    - rewrite (skipn_two l (S r)) by lia. cbn [le_value]. rewrite (Nl (S r)) by lia. rewrite home_next by (auto; lia). replace (r + 1)%nat with (S r) by lia.
      set (a := nth (packet_home split k r) src 0). set (b := nth (packet_home split k (S r)) src 0). set (X := le_value (skipn (S (S r)) l)).
      replace (a + 256 * (b + 256 * X)) with (a + 256 * b + 2 ^ Z.of_nat 16 * X) by (change (2 ^ Z.of_nat 16) with 65536; ring).
      symmetry. apply high_part. lia.
  Qed.

  (** ** A packet *)
  Lemma shift_code v : 0 <= v < 4 -> Z.shiftr 4 (3 - v) = nth (Z.to_nat v) [0; 1; 2; 4] 0 /\ In (nth (Z.to_nat v) [0; 1; 2; 4] 0) [0; 1; 2; 4].
  Proof. clear. intros H. assert (C : v = 0 \/ v = 1 \/ v = 2 \/ v = 3) by lia. destruct C as [-> | [-> | [-> | ->]]]; cbn; auto 6. Qed.
  Lemma next_step sh v j : In sh [0; 1; 2; 4] -> 0 <= v <= 30000 -> 0 < j < 256 ->
    (do pr <- i32 (v - Z.shiftl 128 sh);
     let pr := if (pr <? 0) || (sh =? 4) then Z.land pr (Z.lnot (Z.shiftl (-1) sh)) else pr in
     i32 (pr + Z.shiftl j sh)) = Ok (v4_next sh v j) /\ 0 <= v4_next sh v j <= Z.max v 4095 + 508.
  Proof.
    clear. intros HS Hv Hj. unfold v4_next. replace (j =? 0) with false by lia. cbn [In] in HS.
    assert (L : Z.lnot (Z.shiftl (-1) sh) = Z.ones sh /\ 0 <= sh <= 4) by (destruct HS as [<-|[<-|[<-|[<-|[]]]]]; split; (reflexivity || lia)).
    destruct L as [L L4]. rewrite L. rewrite !Z.shiftl_mul_pow2 by lia. rewrite i32_ok by (destruct HS as [<-|[<-|[<-|[<-|[]]]]]; match goal with |- context [2 ^ ?b] => let y := eval compute in (2 ^ b) in change (2 ^ b) with y end; lia).
    cbn [bind]. rewrite Z.land_ones by lia. cbv zeta. set (p := v - 128 * 2 ^ sh).
    assert (R : 0 <= (if (p <? 0) || (sh =? 4) then p mod 2 ^ sh else p) + j * 2 ^ sh <= Z.max v 4095 + 508).
    { destruct HS as [<-|[<-|[<-|[<-|[]]]]]; match goal with |- context [j * 2 ^ ?b] => let y := eval compute in (2 ^ b) in change (2 ^ b) with y in * end;
        cbn [Z.eqb Pos.eqb]; rewrite ?orb_false_r, ?orb_true_r.
      - destruct (Z.ltb_spec p 0); [pose proof (Z.mod_pos_bound p 1 ltac:(lia))|unfold p in *]; lia.
      - destruct (Z.ltb_spec p 0); [pose proof (Z.mod_pos_bound p 2 ltac:(lia))|unfold p in *]; lia.
      - destruct (Z.ltb_spec p 0); [pose proof (Z.mod_pos_bound p 4 ltac:(lia))|unfold p in *]; lia.
      - pose proof (Z.mod_pos_bound p 16 ltac:(lia)). lia. }
    rewrite i32_ok by lia. split; [reflexivity|exact R].
  Qed.
  Definition one_shift (f : nat -> nat -> Z) (i o : nat) (sh : Z) : Z * nat :=
    if (i mod 3 =? 2)%nat then (nth (Z.to_nat (f o 2%nat)) [0; 1; 2; 4] 0, (o + 2)%nat) else (sh, o).
  Definition one_value (f : nat -> nat -> Z) (i o : nat) (sh : Z) (x : option Z) : option Z * nat :=
    match x with
    | Some v => (Some (v4_next sh v (f o 8%nat)), (o + 8)%nat)
    | None => if (f o 8%nat =? 0) && (i <? 12)%nat then (None, (o + 8)%nat) else (Some (16 * f o 8%nat + f (o + 8)%nat 4%nat), (o + 12)%nat)
    end.
  Lemma values_S f n i o sh x y : v4_values f (S n) i o sh x y =
    from_option (fst (one_value f i (snd (one_shift f i o sh)) (fst (one_shift f i o sh)) x)) ::
    v4_values f n (S i) (snd (one_value f i (snd (one_shift f i o sh)) (fst (one_shift f i o sh)) x)) (fst (one_shift f i o sh)) y
      (fst (one_value f i (snd (one_shift f i o sh)) (fst (one_shift f i o sh)) x)).
  Proof. cbn [v4_values]. fold (one_shift f i o sh). destruct (one_shift f i o sh) as [sh' o']. cbn [fst snd]. fold (one_value f i o' sh' x). now destruct (one_value f i o' sh' x). Qed.
  Definition cnt (x : option Z) : nat := match x with Some _ => 1%nat | None => 0%nat end.
  Local Ltac Zify.zify_post_hook ::= Z.div_mod_to_equations.
  Lemma third_next i : (S i / 3 = i / 3 + (if i mod 3 =? 2 then 1 else 0))%nat.
  Proof. clear. destruct (Nat.eqb_spec (i mod 3) 2); lia. Qed.
  Lemma third_small i : (i < 14 -> i / 3 <= 4)%nat.
  Proof. clear. lia. Qed.
  Lemma third_small' i : (i < 14 -> S i / 3 <= 4)%nat.
  Proof. clear. lia. Qed.
  Local Ltac Zify.zify_post_hook ::= idtac.
  Section Packet4.
    Variable k : nat.
    Hypothesis HE : enough k.
    Let f := raw_field k.
    Lemma f_range o n : 0 <= f o n < 2 ^ Z.of_nat n. Proof. apply raw_range. Qed.
    Lemma pixel4 i o sh x pred nonz out par : (i < 14)%nat -> (i mod 2 = par)%nat -> (o + (if i mod 3 =? 2 then 2 else 0) + 8 + (4 - 4 * cnt x) <= 128)%nat ->
      In sh [0; 1; 2; 4] -> 0 <= from_option x <= 4095 + 508 * Z.of_nat i -> (par < length pred)%nat -> (par < length nonz)%nat ->
      nth par pred 0 = from_option x -> started x (nth par nonz 0) ->
      exists sh' o' x' nz, one_shift f i o sh = (sh', snd (one_shift f i o sh)) /\ one_value f i (snd (one_shift f i o sh)) sh' x = (x', o') /\
        v4_pixel i (pst (128 * Z.of_nat k + Z.of_nat o), sh, pred, nonz, out) =
          Ok (pst (128 * Z.of_nat k + Z.of_nat o'), sh', upd_list pred par (from_option x'), upd_list nonz par nz, out ++ [from_option x']) /\
        ((i < 12)%nat -> started x' nz) /\ In sh' [0; 1; 2; 4] /\ 0 <= from_option x' <= 4095 + 508 * Z.of_nat (S i) /\
        (o' + 4 * cnt x = o + (if i mod 3 =? 2 then 2 else 0) + 8 + 4 * cnt x')%nat /\ (x' = None -> (i < 12)%nat /\ x = None).
    Proof.
      intros Hi Hpar Ho HS Hx HP HN EP EN. unfold v4_pixel. rewrite Hpar.
      assert (H1 : exists sh' o1, one_shift f i o sh = (sh', o1) /\ In sh' [0; 1; 2; 4] /\ o1 = (o + (if i mod 3 =? 2 then 2 else 0))%nat /\
        (if (i mod 3 =? 2)%nat then do (v, p) <- get_bits pana_ops 2 (pst (128 * Z.of_nat k + Z.of_nat o)); Ok (Z.shiftr 4 (3 - v), p) else Ok (sh, pst (128 * Z.of_nat k + Z.of_nat o))) =
          Ok (sh', pst (128 * Z.of_nat k + Z.of_nat o1))).
      { unfold one_shift. destruct (i mod 3 =? 2)%nat.
        - rewrite pana_get by (auto; lia). cbn [bind]. fold f. pose proof (f_range o 2) as R. change (2 ^ Z.of_nat 2) with 4 in R. destruct (shift_code _ R) as [-> R2].
          do 2 eexists. split; [reflexivity|]. split; [exact R2|]. split; [reflexivity|]. do 3 f_equal. lia.
        - do 2 eexists. repeat split; auto. }
      destruct H1 as (sh' & o1 & E1 & HS' & Eo1 & ->). rewrite E1. cbn [fst snd bind]. rewrite (get_ok nonz _ 0), (get_ok pred _ 0) by lia. cbn [bind].
      assert (G8 : get_bits pana_ops 8 (pst (128 * Z.of_nat k + Z.of_nat o1)) = Ok (f o1 8%nat, pst (128 * Z.of_nat k + Z.of_nat (o1 + 8)))).
      { rewrite pana_get by (auto; lia). do 3 f_equal. lia. }
      pose proof (f_range o1 8) as R8. change (2 ^ Z.of_nat 8) with 256 in R8.
      assert (W : forall z, 0 <= z < 65536 -> wrap_u16 z = z) by (intros; unfold wrap_u16; now apply Z.mod_small).
      destruct x as [v|]; cbn [from_option started cnt] in *.
      - replace (nth par nonz 0 =? 0) with false by lia. cbn [negb]. rewrite G8. cbn [bind one_value].
        exists sh', (o1 + 8)%nat, (Some (v4_next sh' v (f o1 8%nat))), (nth par nonz 0). split; [reflexivity|]. split; [reflexivity|]. cbn [from_option started cnt].
        assert (RV : 0 <= v4_next sh' v (f o1 8%nat) <= 4095 + 508 * Z.of_nat (S i)).
        { destruct (Z.eq_dec (f o1 8%nat) 0) as [->|E0]; [change (v4_next sh' v 0) with v; lia|]. destruct (next_step sh' v (f o1 8%nat) HS' ltac:(lia) ltac:(lia)) as [_ R]. lia. }
        split; [|repeat split; auto; try lia; discriminate].
        destruct (Z.eqb_spec (f o1 8%nat) 0) as [E0|E0]; cbn [negb].
        + cbn [bind]. rewrite EP. assert (EV : v4_next sh' v (f o1 8%nat) = v) by (rewrite E0; reflexivity). rewrite EV in *. rewrite !put_ok by lia. cbn [bind]. now rewrite W by lia.
        + destruct (next_step sh' v (f o1 8%nat) HS' ltac:(lia) ltac:(lia)) as [NS _]. rewrite EP.
          destruct (i32 (v - Z.shiftl 128 sh')) as [pr| |]; cbn [bind] in *; try discriminate. cbv zeta in *. rewrite NS. cbn [bind]. rewrite !put_ok by lia. cbn [bind]. now rewrite W by lia.
      - rewrite EN. cbn [Z.eqb negb one_value]. rewrite G8. cbn [bind].
        assert (EC : negb (f o1 8%nat =? 0) || (11 <? i)%nat = negb ((f o1 8%nat =? 0) && (i <? 12)%nat)).
        { destruct (f o1 8%nat =? 0); cbn [negb orb andb]; [|reflexivity]. destruct (Nat.ltb_spec 11 i), (Nat.ltb_spec i 12); cbn; lia || reflexivity. }
        rewrite EC. destruct ((f o1 8%nat =? 0) && (i <? 12)%nat) eqn:EB; cbn [negb].
        + cbn [bind]. apply andb_true_iff in EB. destruct EB as [B1 B2]. exists sh', (o1 + 8)%nat, None, (f o1 8%nat). cbn [from_option started cnt].
          split; [reflexivity|]. split; [reflexivity|]. split; [|repeat split; auto; lia].
          rewrite !put_ok by lia. cbn [bind]. rewrite EP. now rewrite W by lia.
        + pose proof (f_range (o1 + 8) 4) as R4. change (2 ^ Z.of_nat 4) with 16 in R4.
          rewrite pana_get by (auto; lia). fold f. cbn [bind]. exists sh', (o1 + 12)%nat, (Some (16 * f o1 8%nat + f (o1 + 8)%nat 4%nat)), (f o1 8%nat). cbn [from_option started cnt].
          split; [reflexivity|]. split; [reflexivity|]. split; [|repeat split; auto; try lia; try discriminate].
          * assert (EL : Z.lor (Z.shiftl (f o1 8%nat) 4) (f (o1 + 8)%nat 4%nat) = 16 * f o1 8%nat + f (o1 + 8)%nat 4%nat).
            { rewrite Z.shiftl_mul_pow2 by lia. change (2 ^ 4) with (2 ^ Z.of_nat 4). rewrite lor_add_disjoint by exact R4. change (2 ^ Z.of_nat 4) with 16. lia. }
            rewrite EL. rewrite !put_ok by lia. cbn [bind]. rewrite W by lia. replace (128 * Z.of_nat k + Z.of_nat (o1 + 8) + Z.of_nat 4) with (128 * Z.of_nat k + Z.of_nat (o1 + 12)) by lia. reflexivity.
    Qed.
    Lemma started_dec (x : option Z) : {x = None} + {x <> None}. Proof. destruct x; [right; discriminate|now left]. Qed.
    Lemma packet_loop : forall n i o sh x y pred nonz out, (i + n = 14)%nat -> (o = 8 * i + 2 * (i / 3) + 4 * (cnt x + cnt y))%nat ->
      length pred = 2%nat -> length nonz = 2%nat -> nth (i mod 2) pred 0 = from_option x -> nth (S i mod 2) pred 0 = from_option y ->
      ((1 <= n)%nat -> started x (nth (i mod 2) nonz 0)) -> ((2 <= n)%nat -> started y (nth (S i mod 2) nonz 0)) ->
      0 <= from_option x <= 4095 + 508 * Z.of_nat i -> 0 <= from_option y <= 4095 + 508 * Z.of_nat i -> In sh [0; 1; 2; 4] ->
      ((13 <= i)%nat -> y <> None) -> ((14 <= i)%nat -> x <> None) ->
      exists sh' pred' nonz', for_each (seq i n) v4_pixel (pst (128 * Z.of_nat k + Z.of_nat o), sh, pred, nonz, out) =
        Ok (pst (128 * Z.of_nat k + 128), sh', pred', nonz', out ++ v4_values f n i o sh x y) /\ In sh' [0; 1; 2; 4].
    Proof.
      induction n; intros i o sh x y pred nonz out Hn Ho LP LN Px Py Nx Ny Rx Ry HS Hy Hx.
      - replace i with 14%nat in * by lia. cbn [seq for_each v4_values]. specialize (Hy ltac:(lia)). specialize (Hx ltac:(lia)). destruct x, y; try congruence. cbn [cnt] in Ho.
        change (8 * 14 + 2 * (14 / 3) + 4 * (1 + 1))%nat with 128%nat in Ho. rewrite Ho. rewrite app_nil_r. do 3 eexists. split; [reflexivity|exact HS].
      - cbn [seq for_each]. pose proof (third_next i) as T. pose proof (third_small' i ltac:(lia)) as T4. pose proof (Nat.mod_upper_bound i 2 ltac:(lia)) as Hp.
        pose proof (Nat.mod_upper_bound (S i) 2 ltac:(lia)) as Hp'.
        assert (Hcx : (cnt x <= 1)%nat) by (destruct x; cbn; lia). assert (Hcy : (cnt y <= 1)%nat) by (destruct y; cbn; lia).
        destruct (pixel4 i o sh x pred nonz out (i mod 2)) as (sh' & o' & x' & nz & E1 & E2 & EP & HN & HS' & RX & EO & HNone); auto; try lia.
        { destruct (i mod 3 =? 2)%nat; lia. }
        { apply Nx. lia. }
        rewrite EP. cbn [bind]. rewrite values_S. rewrite E1 in *. cbn [fst snd] in *. rewrite E2. cbn [fst snd].
        assert (Hcx' : (cnt x' <= 1)%nat) by (destruct x'; cbn; lia).
        assert (Ne : (S i mod 2 <> i mod 2)%nat) by (rewrite <- !Nat.bit0_mod; cbn [Nat.testbit]; rewrite Nat.odd_succ, <- Nat.negb_odd; destruct (Nat.odd i); cbn; discriminate).
        assert (SS : (S (S i) mod 2 = i mod 2)%nat) by (replace (S (S i)) with (i + 1 * 2)%nat by lia; apply Nat.mod_add; lia).
        destruct (IHn (S i) o' sh' y x' (upd_list pred (i mod 2) (from_option x')) (upd_list nonz (i mod 2) nz) (out ++ [from_option x'])) as (sh2 & pred2 & nonz2 & EF & HS2); rewrite ?upd_list_length, ?SS; auto; try lia.
        + destruct (i mod 3 =? 2)%nat; lia.
        + now rewrite nth_upd_neq by lia.
        + now rewrite nth_upd_eq by lia.
        + intros H1. rewrite nth_upd_neq by lia. apply Ny. lia.
        + intros H. rewrite nth_upd_eq by lia. apply HN. lia.
        + intros H E. apply HNone in E. lia.
        + intros H. apply Hy. lia.
        + rewrite EF. do 3 eexists. split; [now rewrite <- app_assoc|exact HS2].
    Qed.
    Lemma values_sh g sh : v4_values g 14 0 0 sh None None = v4_samples g.
    Proof.
      unfold v4_samples. rewrite !(values_S g 13). cbn [one_shift Nat.modulo Nat.divmod Nat.eqb Nat.sub fst snd one_value].
      change (one_shift g 0 0 sh) with (sh, 0%nat). change (one_shift g 0 0 0) with (0, 0%nat). cbn [fst snd].
      change (one_value g 0 0 sh None) with (one_value g 0 0 0 None). destruct (one_value g 0 0 0 None) as [x1 o1]. cbn [fst snd]. f_equal.
    Qed.
    Lemma packet_done sh out : In sh [0; 1; 2; 4] -> exists sh', v4_packet (pst (128 * Z.of_nat k), sh, out) = Ok (pst (128 * Z.of_nat (S k)), sh', out ++ v4_samples f) /\ In sh' [0; 1; 2; 4].
    Proof.
      intros HS. unfold v4_packet. destruct (packet_loop 14 0 0 sh None None [0; 0] [0; 0] out) as (sh' & pred' & nonz' & E & HS'); try reflexivity; try lia; auto; try (cbn; lia).
      rewrite Z.add_0_r in E. rewrite E. cbn [bind]. rewrite values_sh. exists sh'. split; [|exact HS']. do 4 f_equal. lia.
    Qed.
  End Packet4.
  Lemma values_length g : forall n i o sh x y, length (v4_values g n i o sh x y) = n.
  Proof. clear. induction n; intros; [reflexivity|]. rewrite values_S. cbn [length]. now rewrite IHn. Qed.
  Lemma values_ext g h : (forall o n, (0 < n <= 8)%nat -> (o + n <= 128)%nat -> g o n = h o n) -> forall n i o sh x y,
    (i + n <= 14)%nat -> (o = 8 * i + 2 * (i / 3) + 4 * (cnt x + cnt y))%nat -> v4_values g n i o sh x y = v4_values h n i o sh x y.
  Proof.
    clear. intros H. induction n; intros i o sh x y Hn Ho; [reflexivity|]. rewrite !values_S.
    pose proof (third_next i) as T. pose proof (third_small' i ltac:(lia)) as T4.
    assert (Hcx : (cnt x <= 1)%nat) by (destruct x; cbn; lia). assert (Hcy : (cnt y <= 1)%nat) by (destruct y; cbn; lia).
    assert (E1 : one_shift g i o sh = one_shift h i o sh) by (unfold one_shift; destruct (i mod 3 =? 2)%nat; [|reflexivity]; rewrite H by lia; reflexivity).
    rewrite E1. destruct (one_shift h i o sh) as [sh' o1] eqn:Es. cbn [fst snd].
    assert (Eo : (o1 = o + (if i mod 3 =? 2 then 2 else 0))%nat) by (unfold one_shift in Es; destruct (i mod 3 =? 2)%nat; injection Es as _ <-; lia).
    assert (B : (o1 + 8 + (4 - 4 * cnt x) <= 128)%nat) by (destruct (i mod 3 =? 2)%nat; lia).
    assert (E2 : one_value g i o1 sh' x = one_value h i o1 sh' x).
    { unfold one_value. destruct x; cbn [cnt] in B; rewrite !(H o1 8%nat) by lia; [reflexivity|]. now rewrite (H (o1 + 8)%nat 4%nat) by lia. }
    rewrite E2. destruct (one_value h i o1 sh' x) as [x' o2] eqn:Ev. cbn [fst snd]. f_equal. apply IHn; [lia|].
    assert (EO : (o2 + 4 * cnt x = o1 + 8 + 4 * cnt x')%nat).
    { unfold one_value in Ev. destruct x; [injection Ev as <- <-; cbn [cnt]; lia|]. destruct (_ && _)%bool; injection Ev as <- <-; cbn [cnt]; lia. }
    destruct (i mod 3 =? 2)%nat; lia.
  Qed.
  Lemma samples_ext g h : (forall o n, (0 < n <= 8)%nat -> (o + n <= 128)%nat -> g o n = h o n) -> v4_samples g = v4_samples h.
  Proof. intros H. apply (values_ext g h H); [lia|reflexivity]. Qed.
  Lemma samples_length g : length (v4_samples g) = 14%nat. Proof. apply values_length. Qed.

  (** ** Packets in turn *)
  Local Ltac Zify.zify_post_hook ::= Z.div_mod_to_equations.
  Lemma enough_le a b : (a <= b)%nat -> enough b -> enough a.
  Proof. clear. unfold enough. destruct split; lia. Qed.
  Lemma sixteenth m : (16 * (m / 16) + m mod 16 = m /\ m mod 16 < 16)%nat.
  Proof. clear. lia. Qed.
  Local Ltac Zify.zify_post_hook ::= idtac.
  Lemma skip_ok k : enough k -> for_each (seq 0 (16 * k)) (fun _ p => do (_, p) <- get_bits pana_ops 8 p; Ok p) (pst 0) = Ok (pst (128 * Z.of_nat k)).
  Proof.
    intros HE.
    match goal with |- for_each _ ?F _ = _ => destruct (for_each_seq_inv F (fun m p => p = pst (8 * Z.of_nat m)) 0 (16 * k) (pst 0)) as (p & E & ->) end; [reflexivity| |].
    - intros m p Hm ->. destruct (sixteenth m) as [M1 M2].
      replace (8 * Z.of_nat m) with (128 * Z.of_nat (m / 16) + Z.of_nat (8 * (m mod 16))) by lia. rewrite pana_get; [|lia|lia|apply enough_le with k; [lia|exact HE]].
      cbn [bind]. eexists. split; [reflexivity|]. f_equal. lia.
    - rewrite E. do 2 f_equal. lia.
  Qed.
  Lemma packets_ok k n : (forall m, (m < n)%nat -> enough (k + m)) -> exists p sh, for_each (seq 0 n) (fun _ st => v4_packet st) (pst (128 * Z.of_nat k), 0, []) =
    Ok (p, sh, flat_map (fun m => v4_samples (raw_field (k + m))) (seq 0 n)).
  Proof.
    intros HE.
    match goal with |- context [for_each _ ?F ?s] => destruct (for_each_seq_inv F (fun m st => exists sh, st = (pst (128 * Z.of_nat (k + m)), sh, flat_map (fun m => v4_samples (raw_field (k + m))) (seq 0 m)) /\ In sh [0; 1; 2; 4]) 0 n s) as (st & E & sh & -> & _) end.
    - exists 0. rewrite Nat.add_0_r. split; [reflexivity|cbn; auto].
    - intros m st Hm (sh & -> & HS). destruct (packet_done (k + m) (HE m ltac:(lia)) sh (flat_map (fun m => v4_samples (raw_field (k + m))) (seq 0 m)) HS) as (sh' & -> & HS').
      eexists. split; [reflexivity|]. exists sh'. split; [|exact HS']. rewrite flat_map_seq_S. do 4 f_equal. lia.
    - eauto.
  Qed.
End Reader.

(** the data from a stretch on *)
Lemma home_shift split b k j : (packet_home split (1024 * b + k) j = Z.to_nat (16384 * Z.of_nat b) + packet_home split k j)%nat.
Proof. Local Ltac Zify.zify_post_hook ::= Z.div_mod_to_equations. unfold packet_home. destruct split; lia. Qed.
Lemma enough_shift buf split b k : enough buf split (1024 * b + k) -> enough (skipn (Z.to_nat (16384 * Z.of_nat b)) buf) split k.
Proof. unfold enough. rewrite skipn_length. destruct split; lia. Qed.
Lemma enough_start buf split b k : enough buf split (1024 * b + k) -> (Z.to_nat (16384 * Z.of_nat b) <= length buf)%nat.
Proof. unfold enough. destruct split; lia. Qed.
Lemma skip_parts q row w : w = (14 * q)%nat -> let skip := Z.of_nat ((w * row * 9 + w / 14 * 2 * row) / 8) in
  skip / 16384 = Z.of_nat (q * row / 1024) /\ Z.to_nat (skip mod 16384) = (16 * (q * row mod 1024))%nat.
Proof.
  intros ->. cbv zeta. replace (14 * q / 14)%nat with q by (symmetry; rewrite Nat.mul_comm; apply Nat.div_mul; lia).
  replace (14 * q * row * 9 + q * 2 * row)%nat with (16 * (q * row) * 8)%nat by ring. rewrite Nat.div_mul by lia. generalize (q * row)%nat as x. intros x. lia.
Qed.
Lemma stretch_of x : (1024 * (x / 1024) + x mod 1024 = x)%nat. Proof. lia. Qed.
Local Ltac Zify.zify_post_hook ::= idtac.
Lemma raw_shift buf split b k o n : raw_field (skipn (Z.to_nat (16384 * Z.of_nat b)) buf) split k o n = raw_field buf split (1024 * b + k) o n.
Proof. unfold raw_field. rewrite !nth_skipn, !home_shift, !Nat.add_assoc. reflexivity. Qed.

Lemma strip_ok buf split q row n w : Forall is_byte buf -> w = (14 * q)%nat -> (0 < n)%nat -> (forall m, (m < n)%nat -> enough buf split (q * row + m)) ->
  v4_strip buf split w row (14 * n) = Ok (flat_map (fun m => v4_samples (raw_field buf split (q * row + m))) (seq 0 n)).
Proof.
  intros HB Hw Hn HE. unfold v4_strip. destruct (skip_parts q row w Hw) as [S1 S2]. rewrite S1, S2.
  set (b := (q * row / 1024)%nat) in *. set (k := (q * row mod 1024)%nat) in *. assert (Eb : (q * row = 1024 * b + k)%nat) by (symmetry; apply stretch_of).
  replace (Z.of_nat b * 16384) with (16384 * Z.of_nat b) by lia.
  assert (HE' : forall m, (m < n)%nat -> enough buf split (1024 * b + (k + m))) by (intros m Hm; specialize (HE m Hm); rewrite Eb in HE; now rewrite Nat.add_assoc).
  pose proof (enough_start buf split b (k + 0) (HE' 0%nat Hn)) as HL. rewrite slice_ok by lia. cbn [bind].
  rewrite firstn_all2 by (rewrite skipn_length; lia). set (src := skipn (Z.to_nat (16384 * Z.of_nat b)) buf).
  assert (HEs : forall m, (m < n)%nat -> enough src split (k + m)) by (intros m Hm; apply enough_shift; auto).
  change (ppump_new src split) with (pst src split 0). rewrite skip_ok; [|specialize (HEs 0%nat Hn); now rewrite Nat.add_0_r in HEs].
  cbn [bind]. replace (14 * n / 14)%nat with n by (symmetry; rewrite Nat.mul_comm; apply Nat.div_mul; lia).
  destruct (packets_ok src split k n HEs) as (p & sh & E). rewrite E. cbn [bind]. replace (14 * n mod 14)%nat with 0%nat by (symmetry; rewrite Nat.mul_comm; apply Nat.mod_mul; lia).
  cbn [repeat]. rewrite app_nil_r. f_equal. apply flat_map_ext_seq. intros m Hm. apply samples_ext. intros o l _ _. unfold src. rewrite raw_shift. f_equal. lia.
Qed.
Lemma concat_flat {A} (F : nat -> list A) (g : nat -> list nat) l : flat_map (fun c => flat_map F (g c)) l = flat_map F (flat_map g l).
Proof. induction l; [reflexivity|]. cbn [flat_map]. now rewrite IHl, flat_map_app. Qed.
Lemma shift_rows {A} (F : nat -> list A) a n : flat_map (fun m => F (a + m)%nat) (seq 0 n) = flat_map F (seq a n).
Proof. rewrite !flat_map_concat_map. now rewrite (map_seq_add F). Qed.
Lemma chunks_seq B T : (0 < B)%nat -> flat_map (fun c => seq (c * B) (Nat.min B (T - c * B))) (seq 0 ((T + B - 1) / B)) = seq 0 T.
Proof.
  intros H. pose proof (chunks_map (fun i => i) B T H) as K. rewrite map_id in K. rewrite <- K. apply flat_map_ext_seq. intros c _.
  rewrite <- (map_id (seq (c * B) _)), (map_seq_add (fun i => i)). reflexivity.
Qed.
Lemma holds_enough split n buf p : holds_packets split n buf -> (p < n)%nat -> enough buf split p.
Proof.
  Local Ltac Zify.zify_post_hook ::= Z.div_mod_to_equations.
  unfold holds_packets, enough, stretches. pose proof stretch_z. destruct split; intros H1 H2; [|lia].
  assert (E : Z.of_nat p / 1024 + 1 <= Z.of_nat ((n + 1023) / 1024)) by lia. nia.
Qed.
Local Ltac Zify.zify_post_hook ::= idtac.
Lemma v4_raw buf split w h : Forall is_byte buf -> (0 < w)%nat -> (w mod 14 = 0)%nat -> holds_packets split (w * h / 14) buf ->
  v4_decode buf w h split = Ok (flat_map (fun p => v4_samples (raw_field buf split p)) (seq 0 (w * h / 14))).
Proof.
  intros HB Hw Hm HH. assert (Ew : exists q, w = (14 * q)%nat) by (exists (w / 14)%nat; pose proof (Nat.div_mod w 14); lia). destruct Ew as [q Ew].
  assert (Hq : (0 < q)%nat) by lia. assert (EP : (w * h / 14 = q * h)%nat) by (rewrite Ew; replace (14 * q * h)%nat with (q * h * 14)%nat by ring; apply Nat.div_mul; lia).
  rewrite EP in *. unfold v4_decode. rewrite assert_true by lia. cbn [bind].
  assert (EN : ((w * h + w * 5 - 1) / (w * 5) = (q * h + 5 * q - 1) / (5 * q))%nat).
  { rewrite Ew. replace (14 * q * 5)%nat with (14 * (5 * q))%nat by ring. rewrite <- Nat.div_div by lia. f_equal.
    replace (14 * q * h + 14 * (5 * q) - 1)%nat with (13 + (q * h + 5 * q - 1) * 14)%nat by nia. rewrite Nat.div_add by lia. reflexivity. }
  rewrite EN. rewrite (in_turn_ok _ _ (fun c => flat_map (fun p => v4_samples (raw_field buf split p)) (seq (c * (5 * q)) (Nat.min (5 * q) (q * h - c * (5 * q)))))).
  - f_equal. rewrite concat_flat. now rewrite chunks_seq by lia.
  - intros c Hc. pose proof (chunk_inside (5 * q) (q * h) c ltac:(lia) Hc) as Hin.
    replace (Nat.min (w * 5) (w * h - c * (w * 5)))%nat with (14 * Nat.min (5 * q) (q * h - c * (5 * q)))%nat
      by (rewrite Ew; clear; replace (14 * q * 5)%nat with (14 * (5 * q))%nat by ring; replace (14 * q * h)%nat with (14 * (q * h))%nat by ring;
          replace (c * (14 * (5 * q)))%nat with (14 * (c * (5 * q)))%nat by ring; lia).
    assert (HE : forall m, (m < Nat.min (5 * q) (q * h - c * (5 * q)))%nat -> enough buf split (q * (c * 5) + m)).
    { intros m Hm'. apply holds_enough with (q * h)%nat; [exact HH|]. replace (q * (c * 5))%nat with (c * (5 * q))%nat by ring. clear - Hm'. lia. }
    rewrite (strip_ok buf split q) by (auto; lia).
    replace (q * (c * 5))%nat with (c * (5 * q))%nat by ring. generalize (Nat.min (5 * q) (q * h - c * (5 * q)))%nat as n. generalize (c * (5 * q))%nat as a. intros a n.
    apply (f_equal (fun l => Ok l)). exact (shift_rows (fun p => v4_samples (raw_field buf split p)) a n).
Qed.
Theorem v4_any buf split w h : Forall is_byte buf -> (0 < w)%nat -> (w mod 14 = 0)%nat -> holds_packets split (w * h / 14) buf ->
  exists out, v4_decode buf w h split = Ok out /\ length out = (w * h)%nat /\
    forall p, (p < w * h / 14)%nat -> (split = true -> Z.of_nat p mod 1024 <> 512) -> firstn 14 (skipn (14 * p) out) = v4_packet_samples (packet_value split buf p).
Proof.
  intros HB Hw Hm HH. rewrite v4_raw by auto. eexists. split; [reflexivity|].
  assert (HL : length (flat_map (fun p => v4_samples (raw_field buf split p)) (seq 0 (w * h / 14))) = (w * h)%nat).
  { rewrite (flat_map_seq_length _ _ 14) by (intros; apply samples_length). exact (proj2 (full_width w 14 h ltac:(lia) Hm)). }
  split; [exact HL|]. intros p Hp Hg.
  transitivity (v4_samples (raw_field buf split p)).
  - apply nth_ext_len with 0; [rewrite firstn_length, skipn_length, HL, samples_length; pose proof (full_width w 14 h ltac:(lia) Hm); lia|].
    intros i Hi. rewrite firstn_length in Hi. rewrite nth_firstn, nth_skipn by lia. rewrite (Nat.mul_comm 14).
    apply (flat_map_seq_nth (fun p => v4_samples (raw_field buf split p)) _ 14); [intros; apply samples_length|exact Hp|lia].
  - apply samples_ext. intros o n Hn Ho. apply raw_good; auto. apply holds_enough with (w * h / 14)%nat; auto.
Qed.
Theorem v4_plain buf w h : Forall is_byte buf -> (0 < w)%nat -> (w mod 14 = 0)%nat -> (16 * (w * h / 14) < length buf)%nat ->
  v4_decode buf w h false = Ok (flat_map (fun p => v4_packet_samples (packet_value false buf p)) (seq 0 (w * h / 14))).
Proof.
  intros HB Hw Hm HH. rewrite v4_raw by auto. f_equal. apply flat_map_ext_seq. intros p Hp. apply samples_ext. intros o n Hn Ho. apply raw_good; auto; [|discriminate].
  apply holds_enough with (w * h / 14)%nat; auto.
Qed.

(** ** Storing *)
Definition v4_fields (x : nat -> Z) : list (nat * Z) :=
  flat_map (fun i =>
    if (i <? 2)%nat then [(8%nat, x i / 16); (4%nat, x i mod 16)]
    else (if (i mod 3 =? 2)%nat then [(2%nat, 0)] else []) ++ [(8%nat, v4_code (x (i - 2)%nat) (x i))]) (seq 0 14).
Fixpoint placed (o : nat) (fs : list (nat * Z)) : list (nat * (nat * Z)) :=
  match fs with [] => [] | (n, v) :: fs => (o, (n, v)) :: placed (o + n) fs end.
Lemma placed_ok : forall b a, fit_fields b -> total_width (a ++ b) = 128%nat ->
  Forall (fun '(o, (n, v)) => bits_at (128 - o - n) n (be_fields (a ++ b)) = v) (placed (total_width a) b).
Proof.
  induction b as [|[n v] b IH]; intros a HF HT; cbn [placed]; constructor.
  - inversion HF as [|? ? H1 H2]; subst. rewrite <- (be_field a n v b H2 H1) at 2. f_equal. unfold total_width in *. rewrite map_app, list_sum_app in HT. cbn [map fst list_sum fold_right] in HT.
    change (fold_right Nat.add 0%nat (map fst b)) with (list_sum (map fst b)) in HT. lia.
  - inversion HF as [|? ? H1 H2]; subst. specialize (IH (a ++ [(n, v)]) H2). rewrite <- app_assoc in IH. cbn [app] in IH. specialize (IH HT).
    replace (total_width a + n)%nat with (total_width (a ++ [(n, v)])); [exact IH|]. unfold total_width. rewrite map_app, list_sum_app. cbn [map fst list_sum fold_right]. lia.
Qed.
Lemma next_back v x : x = v \/ 1 <= v4_code v x <= 255 -> v4_next 0 v (v4_code v x) = x.
Proof.
  intros H. unfold v4_next, v4_code in *. destruct (Z.eqb_spec x v) as [E|E]; [now subst|]. destruct H as [H|H]; [lia|]. change (2 ^ 0) with 1.
  rewrite Z.mod_1_r. destruct (Z.ltb_spec v 128).
  - replace (x =? 0) with false by lia. cbn [Z.eqb orb]. replace (v - 128 * 1 <? 0) with true by lia. cbn [orb]. lia.
  - replace (x - v + 128 =? 0) with false by lia. replace (v - 128 * 1 <? 0) with false by lia. cbn [Z.eqb orb]. lia.
Qed.
Lemma values_back g x : v4_smooth x -> Forall (fun '(o, (n, v)) => g o n = v) (placed 0 (v4_fields x)) -> v4_samples g = map x (seq 0 14).
Proof.
  intros (H0 & H1 & HC) HF.
  assert (HN : forall i, (2 <= i < 14)%nat -> v4_next 0 (x (i - 2)%nat) (v4_code (x (i - 2)%nat) (x i)) = x i) by (intros i Hi; apply next_back; auto).
  assert (N2 := HN 2%nat ltac:(lia)). assert (N3 := HN 3%nat ltac:(lia)). assert (N4 := HN 4%nat ltac:(lia)). assert (N5 := HN 5%nat ltac:(lia)).
  assert (N6 := HN 6%nat ltac:(lia)). assert (N7 := HN 7%nat ltac:(lia)). assert (N8 := HN 8%nat ltac:(lia)). assert (N9 := HN 9%nat ltac:(lia)).
  assert (N10 := HN 10%nat ltac:(lia)). assert (N11 := HN 11%nat ltac:(lia)). assert (N12 := HN 12%nat ltac:(lia)). assert (N13 := HN 13%nat ltac:(lia)).
  clear HN HC. cbn [Nat.sub] in *. unfold v4_fields in HF. cbn [seq flat_map Nat.ltb Nat.leb Nat.modulo Nat.divmod Nat.sub snd Nat.eqb app placed Nat.add] in HF.
  repeat match goal with H : Forall _ (_ :: _) |- _ => inversion_clear H end.
  assert (Q0 : (x 0%nat / 16 =? 0) = false) by (pose proof (Z.div_le_lower_bound (x 0%nat) 16 1); lia).
  assert (Q1 : (x 1%nat / 16 =? 0) = false) by (pose proof (Z.div_le_lower_bound (x 1%nat) 16 1); lia).
  pose proof (Z.div_mod (x 0%nat) 16 ltac:(lia)) as D0. pose proof (Z.div_mod (x 1%nat) 16 ltac:(lia)) as D1.
  unfold v4_samples.
  repeat (rewrite values_S; unfold one_shift, one_value; cbn [Nat.modulo Nat.divmod Nat.sub snd fst Nat.eqb Nat.add Nat.ltb Nat.leb];
    repeat match goal with H : g ?o ?n = _ |- context [g ?o ?n] => rewrite H end; cbn [Z.to_nat nth]; rewrite ?Q0, ?Q1, <- ?D0, <- ?D1;
    cbn [andb fst snd from_option]; rewrite ?N2, ?N3, ?N4, ?N5, ?N6, ?N7, ?N8, ?N9, ?N10, ?N11, ?N12, ?N13).
  reflexivity.
Qed.
Lemma fields_fit x : v4_smooth x -> fit_fields (v4_fields x).
Proof.
  intros (H0 & H1 & HC). unfold fit_fields, v4_fields. apply Forall_flat_map, Forall_forall. intros i Hi. apply in_seq in Hi.
  assert (HX : forall v, 16 <= v < 4096 -> 0 <= v / 16 < 256 /\ 0 <= v mod 16 < 16) by (intros v Hv; split; [split; [apply Z.div_pos|apply Z.div_lt_upper_bound]; lia|apply Z.mod_pos_bound; lia]).
  destruct (Nat.ltb_spec i 2).
  - assert (Hi2 : 16 <= x i < 4096) by (destruct i as [|[|?]]; auto; lia). destruct (HX _ Hi2). repeat constructor; cbn; lia.
  - apply Forall_app. split; [destruct (i mod 3 =? 2)%nat; repeat constructor; cbn; lia|]. constructor; [|constructor].
    change (2 ^ Z.of_nat 8) with 256. destruct (HC i ltac:(lia)) as [E|E]; [unfold v4_code; rewrite E, Z.eqb_refl; lia|lia].
Qed.
Lemma packet_back x : v4_smooth x -> v4_packet_samples (v4_value x) = map x (seq 0 14).
Proof.
  intros H. apply values_back; [exact H|]. exact (placed_ok (v4_fields x) [] (fields_fit x H) eq_refl).
Qed.
Lemma value4_range x : v4_smooth x -> 0 <= v4_value x < 2 ^ 128.
Proof. intros H. pose proof (be_range (v4_fields x) (fields_fit x H)) as R. change (Z.of_nat (total_width (v4_fields x))) with 128 in R. exact R. Qed.
Theorem v4_roundtrip s w h tail : (0 < w)%nat -> (w mod 14 = 0)%nat -> Forall is_byte tail -> tail <> [] -> packets_are v4_smooth 14 (w * h) s ->
  v4_decode (store_plain (fun p => v4_value (fun i => s (p * 14 + i)%nat)) (w * h / 14) ++ tail) w h false = Ok (map s (seq 0 (w * h))).
Proof.
  intros Hw Hm HT HN HS. rewrite v4_plain; auto.
  - apply (f_equal (fun l => Ok l)). rewrite <- (proj2 (full_width w 14 h ltac:(lia) Hm)) at 2. rewrite <- flat_map_rows. apply flat_map_ext_seq. intros p Hp.
    rewrite plain_value; [|exact Hp|apply value4_range, HS, Hp]. apply packet_back. exact (HS p Hp).
  - apply Forall_app. split; [apply store_plain_byte|exact HT].
  - rewrite app_length, store_plain_length. destruct tail; [congruence|cbn [length]; lia].
Qed.

(** ** The packet across the seam *)
Definition seam_field (o n : nat) : Z :=
  let q := (128 - o - n)%nat in (if (q / 8 =? 7)%nat then 256 * 255 else 0) / 2 ^ Z.of_nat (q mod 8) mod 2 ^ Z.of_nat n.
Local Ltac Zify.zify_post_hook ::= Z.div_mod_to_equations.
Lemma seam_home j : (j < 16)%nat -> Z.of_nat (packet_home true 512 j) = if (j <? 8)%nat then 16376 + Z.of_nat j else Z.of_nat j - 8.
Proof. intros H. unfold packet_home. destruct (Nat.ltb_spec j 8); lia. Qed.
Lemma seam_q o n : (0 < n <= 8)%nat -> (o + n <= 128)%nat -> ((128 - o - n) / 8 < 16)%nat.
Proof. lia. Qed.
Local Ltac Zify.zify_post_hook ::= idtac.
Lemma seam_nth i : Z.of_nat i <= 16384 -> nth i seam_bytes 0 = if Z.of_nat i =? 16384 then 255 else 0.
Proof.
  intros H. unfold seam_bytes. destruct (Z.eqb_spec (Z.of_nat i) 16384) as [E|E].
  - rewrite app_nth2 by (rewrite repeat_length; lia). rewrite repeat_length. replace (i - Z.to_nat 16384)%nat with 0%nat by lia. reflexivity.
  - rewrite app_nth1 by (rewrite repeat_length; lia). apply nth_repeat.
Qed.
Lemma seam_length : Z.of_nat (length seam_bytes) = 16385.
Proof. unfold seam_bytes. rewrite app_length, repeat_length. cbn [length]. lia. Qed.
Lemma seam_raw o n : (0 < n <= 8)%nat -> (o + n <= 128)%nat -> raw_field seam_bytes true 512 o n = seam_field o n.
Proof.
  intros Hn Ho. unfold raw_field, seam_field. cbv zeta. pose proof (seam_q o n Hn Ho) as Hq. set (j := ((128 - o - n) / 8)%nat) in *.
  pose proof (seam_home j Hq) as E. do 2 f_equal. assert (E1 : Z.of_nat (packet_home true 512 j) < 16384) by (rewrite E; clear - Hq; destruct (Nat.ltb_spec j 8); lia).
  rewrite !seam_nth by (clear - E1; lia).
  rewrite Nat2Z.inj_add, E. destruct (Nat.ltb_spec j 8).
  - replace (16376 + Z.of_nat j =? 16384) with false by lia. destruct (Nat.eqb_spec j 7); [replace (16376 + Z.of_nat j + Z.of_nat 1 =? 16384) with true by lia|replace (16376 + Z.of_nat j + Z.of_nat 1 =? 16384) with false by lia]; reflexivity.
  - replace (Z.of_nat j - 8 =? 16384) with false by lia. replace (Z.of_nat j - 8 + Z.of_nat 1 =? 16384) with false by lia. now replace (j =? 7)%nat with false by lia.
Qed.
Theorem v4_seam : exists out, v4_decode seam_bytes 14 513 true = Ok out /\ nth (512 * 14 + 7) out 0 = 3840 /\ v4_packet_samples (packet_value true seam_bytes 512) = repeat 0 14.
Proof.
  assert (EP : (14 * 513 / 14 = 513)%nat) by (rewrite Nat.mul_comm; apply Nat.div_mul; lia).
  rewrite v4_raw; [|unfold seam_bytes; apply Forall_app; split; [apply Forall_forall; intros x Hx; apply repeat_spec in Hx; subst; unfold is_byte; lia|repeat constructor; unfold is_byte; lia]|lia|reflexivity|].
  - eexists. split; [reflexivity|]. rewrite EP. split.
    + rewrite (flat_map_seq_nth (fun p => v4_samples (raw_field seam_bytes true p)) 513 14 512 7); [|intros; apply samples_length|apply Nat.ltb_lt; reflexivity|lia]. rewrite (samples_ext _ seam_field seam_raw). reflexivity.
    + replace (packet_value true seam_bytes 512) with 0; [reflexivity|]. unfold packet_value, packet.
      rewrite (map_ext_in _ (fun _ => 0)); [reflexivity|]. intros j Hj. apply in_seq in Hj. pose proof (seam_home j ltac:(lia)) as E. rewrite seam_nth by (rewrite E; destruct (Nat.ltb_spec j 8); lia).
      rewrite E. destruct (Nat.ltb_spec j 8); [replace (16376 + Z.of_nat j =? 16384) with false by lia|replace (Z.of_nat j - 8 =? 16384) with false by lia]; reflexivity.
  - rewrite EP. unfold holds_packets, stretches. pose proof seam_length. pose proof stretch_z. change ((513 + 1023) / 1024)%nat with 1%nat. lia.
Qed.
