(** Panasonic format 6. *)
From Coq Require Import List ZArith Bool Lia Arith.
From Verif Require Import Base BaseLemmas Pumps PumpProofs PumpSeq PefNeg Pana SonySpec SonyArw2 SonyTop PanaSpec PanaProofs PanaStore.
Import ListNotations.
Open Scope Z_scope.

(** ** The buffer *)
Fixpoint placed (V : Z) (rs : list (option nat * nat)) (o : nat) (out : list Z) : list Z :=
  match rs with
  | [] => out
  | (Some i, n) :: t => placed V t (o + n) (upd_list out i (bits_at o n V))
  | (None, n) :: t => placed V t (o + n) out
  end.
Definition read_ok (len : nat) (r : option nat * nat) : Prop := (snd r <= 16)%nat /\ match fst r with Some i => (i < len)%nat | None => True end.
Lemma wrap_bits o n V : (n <= 16)%nat -> wrap_u16 (bits_at o n V) = bits_at o n V.
Proof.
  intros H. unfold wrap_u16. apply Z.mod_small. pose proof (bits_at_range o n V).
  assert (2 ^ Z.of_nat n <= 2 ^ 16) by (apply Z.pow_le_mono_r; lia). change (2 ^ 16) with 65536 in *. lia.
Qed.
Lemma reads_ok V rs : forall o k p out, lsb_rep k p (V / 2 ^ Z.of_nat o) -> (list_sum (map snd rs) <= k)%nat -> Forall (read_ok (length out)) rs ->
  exists p', for_each rs (fun '(o, n) '(p, out) =>
    do (v, p) <- get_bits lsb_ops n p;
    do out <- (match o with Some i => put out i (wrap_u16 v) | None => Ok out end);
    Ok (p, out)) (p, out) = Ok (p', placed V rs o out).
Proof.
  induction rs as [|[[i|] n] rs IH]; intros o k p out R HK HF; cbn [for_each placed]; [eauto| |];
    cbn [map list_sum fold_right snd] in HK; fold (list_sum (map snd rs)) in HK; inversion HF as [|? ? [H1 H2] HF']; subst; cbn [fst snd] in *;
    (destruct (lsb_get _ p _ n R) as (p1 & E & R1); [lia|lia|]); rewrite E; cbn [bind]; fold (bits_at o n V).
  - rewrite wrap_bits by exact H1. rewrite put_ok by exact H2. cbn [bind]. rewrite div_pow in R1.
    apply (IH _ _ _ _ R1); [lia|]. now rewrite upd_list_length.
  - rewrite div_pow in R1. apply (IH _ _ _ _ R1); [lia|exact HF'].
Qed.
Definition v6_count (bps : nat) : nat := if (bps =? 14)%nat then 14%nat else 18%nat.
Lemma placed_fields bps V : bps = 12%nat \/ bps = 14%nat -> placed V (v6_reads bps) 0 (repeat 0 18) = map (top_field (v6_widths bps) V) (seq 0 (v6_count bps)) ++ repeat 0 (18 - v6_count bps).
Proof. intros [-> | ->]; reflexivity. Qed.
Lemma buffer_ok bps block : bps = 12%nat \/ bps = 14%nat -> Forall is_byte block -> length block = 16%nat ->
  exists b, v6_buffer bps block = Ok b /\ length b = 18%nat /\ forall j, (j < v6_count bps)%nat -> nth j b 0 = top_field (v6_widths bps) (le_value block) j.
Proof.
  intros Hb HB HL. unfold v6_buffer. set (V := le_value block).
  assert (R : lsb_rep 128 (wpump_new block) (V / 2 ^ Z.of_nat 0)).
  { change (2 ^ Z.of_nat 0) with 1. rewrite Z.div_1_r. unfold V. rewrite le_value_val. apply lsb_new; [exact HB|lia]. }
  destruct (reads_ok V (v6_reads bps) 0 128 (wpump_new block) (repeat 0 18) R) as (p' & E).
  - destruct Hb as [-> | ->]; cbn; lia.
  - rewrite repeat_length. destruct Hb as [-> | ->]; cbn; repeat constructor; cbn; lia.
  - rewrite E. cbn [bind]. rewrite (placed_fields bps V Hb). eexists. split; [reflexivity|]. split.
    + rewrite app_length, map_length, seq_length, repeat_length. unfold v6_count. destruct (bps =? 14)%nat; reflexivity.
    + intros j Hj. rewrite app_nth1 by (rewrite map_length, seq_length; lia). rewrite nth_map_seq by lia. reflexivity.
Qed.

(** ** The samples *)
Section Block.
  Variables (bps : nat) (V : Z) (k : v6_const).
  Hypothesis Hb : bps = 12%nat \/ bps = 14%nat.
  Hypothesis Hk : v6_const_of bps = Some k.
  Let per := v6_per bps.
  Definition cw : Z := if (bps =? 14)%nat then 1023 else 255.
  Definition gain : Z := if (bps =? 14)%nat then 2044 else 508.
  Definition first_max : Z := if (bps =? 14)%nat then 16383 else 4095.
  Lemma k_fields : k_per k = per /\ k_base0 k = v6_zero bps /\ k_base_cmp k = v6_zero bps * 16 /\ k_spix_cmp k = (if (bps =? 14)%nat then 65535 else 16383).
  Proof. unfold per. destruct Hb as [-> | ->]; injection Hk as <-; repeat split. Qed.
  Lemma code_width i : (2 <= i < per)%nat -> nth (i + (i + 1) / 3) (v6_widths bps) 0%nat = (if (bps =? 14)%nat then 10%nat else 8%nat) /\
    nth (4 * ((i - 2) / 3) + 2) (v6_widths bps) 0%nat = 2%nat /\ (i + (i + 1) / 3 < v6_count bps)%nat /\ (4 * ((i - 2) / 3) + 2 < v6_count bps)%nat.
  Proof.
    unfold per, v6_per, v6_widths, v6_count. intros H. destruct Hb as [-> | ->]; cbn [Nat.eqb] in *;
      do 14 (destruct i as [|i]; [first [lia | cbn; lia]|]); lia.
  Qed.
  Lemma code_first i : (i < 2)%nat -> 0 <= v6_code bps V i <= first_max /\ (i + (i + 1) / 3 = i)%nat /\ (i < v6_count bps)%nat.
  Proof.
    intros H. unfold v6_code, top_field, first_max, v6_count. assert (E : (i + (i + 1) / 3 = i)%nat) by (destruct i as [|[|i]]; [reflexivity|reflexivity|lia]).
    rewrite E. match goal with |- context [bits_at ?o ?n V] => pose proof (bits_at_range o n V) as B; set (x := bits_at o n V) in *; clearbody x end.
    destruct Hb as [-> | ->]; destruct i as [|[|i]]; try lia; cbn [v6_widths Nat.eqb nth] in *; match type of B with context [2 ^ Z.of_nat ?n] => let x := eval compute in (2 ^ Z.of_nat n) in change (2 ^ Z.of_nat n) with x in B end; repeat split; lia.
  Qed.
  Lemma code_next i : (2 <= i < per)%nat -> 0 <= v6_code bps V i <= cw.
  Proof.
    intros H. destruct (code_width i H) as (E & _). unfold v6_code, top_field. rewrite E. unfold cw.
    match goal with |- context [bits_at ?o ?n V] => pose proof (bits_at_range o n V) as B end.
    destruct (bps =? 14)%nat; [change (2 ^ Z.of_nat 10) with 1024 in B|change (2 ^ Z.of_nat 8) with 256 in B]; lia.
  Qed.
  Lemma scale_cases i : (2 <= i < per)%nat -> In (v6_scale bps V i) [0; 1; 2; 4].
  Proof.
    intros H. destruct (code_width i H) as (_ & E & _). unfold v6_scale, top_field. rewrite E.
    match goal with |- context [bits_at ?o ?n V] => pose proof (bits_at_range o n V) as B; set (x := bits_at o n V) in * end.
    change (2 ^ Z.of_nat 2) with 4 in B. destruct (Z.eqb_spec x 3); cbn; lia.
  Qed.
  Lemma zero_pos : 128 <= v6_zero bps <= 512. Proof. unfold v6_zero. destruct (bps =? 14)%nat; lia. Qed.
  Lemma next_range i x m : (i < per)%nat -> ((i < 2)%nat -> x = None) -> 0 <= m -> 0 <= from_option x <= first_max + m ->
    0 <= from_option (v6_next bps V i x) <= first_max + gain + m.
  Proof.
    intros Hi H2 Hm Hx. unfold v6_next. destruct x as [last|]; cbn [from_option] in *.
    - assert (2 <= i)%nat by (destruct (Nat.lt_ge_cases i 2); [specialize (H2 H); discriminate|lia]).
      pose proof (code_next i ltac:(lia)) as C. pose proof (scale_cases i ltac:(lia)) as Sc. cbn [In] in Sc.
      unfold v6_zero, gain, first_max, cw in *. destruct Sc as [<-|[<-|[<-|[<-|[]]]]].
      all: destruct (bps =? 14)%nat; match goal with |- context [2 ^ ?b] => let x := eval compute in (2 ^ b) in change (2 ^ b) with x end; cbn [Z.ltb Z.compare Pos.compare Pos.compare_cont andb];
        cbn [from_option]; try (match goal with |- context [?a <? ?b] => destruct (Z.ltb_spec a b) end); lia.
    - assert (C : 0 <= v6_code bps V i <= first_max).
      { destruct (Nat.lt_ge_cases i 2); [now apply code_first|]. pose proof (code_next i ltac:(lia)). unfold first_max, cw in *. destruct (bps =? 14)%nat; lia. }
      assert (0 <= gain) by (unfold gain; destruct (bps =? 14)%nat; lia). destruct (v6_code bps V i =? 0); cbn [from_option]; lia.
  Qed.
  Lemma state_range par n : (par < 2)%nat -> (n = 0 \/ 2 * (n - 1) + par < per)%nat -> 0 <= from_option (v6_state bps V par n) <= first_max + gain * Z.of_nat n.
  Proof.
    intros Hp. induction n; intros Hn.
    - cbn. unfold first_max. destruct (bps =? 14)%nat; lia.
    - cbn [v6_state]. pose proof (next_range (2 * n + par) (v6_state bps V par n) (gain * Z.of_nat n)) as K.
      assert (0 <= gain) by (unfold gain; destruct (bps =? 14)%nat; lia).
      replace (first_max + gain * Z.of_nat (S n)) with (first_max + gain + gain * Z.of_nat n) by lia. apply K.
      + lia.
      + intros H0. destruct n; [reflexivity|lia].
      + nia.
      + apply IHn. lia.
  Qed.
  Lemma state_small par n : (par < 2)%nat -> (n = 0 \/ 2 * (n - 1) + par < per)%nat -> 0 <= from_option (v6_state bps V par n) <= 31000 /\ (bps = 12%nat -> from_option (v6_state bps V par n) <= 16000).
  Proof.
    intros Hp Hn. pose proof (state_range par n Hp Hn) as R. assert (n <= 7)%nat by (unfold per, v6_per in Hn; destruct (bps =? 14)%nat; lia).
    unfold first_max, gain in R. destruct Hb as [-> | ->]; cbn [Nat.eqb] in R; lia.
  Qed.
  Lemma emit_ok e : 0 <= e <= 31000 -> (bps = 12%nat -> e <= 16000) -> v6_emit k e = v6_result bps e.
  Proof.
    intros H1 H2. unfold v6_emit, v6_result. destruct k_fields as (_ & _ & _ & ->).
    assert (Ew : wrap_i32 (e - 15) = e - 15).
    { unfold wrap_i32. rewrite Z.mod_small by lia. lia. }
    rewrite Ew. destruct Hb as [-> | ->]; cbn [Nat.eqb].
    - specialize (H2 eq_refl). replace (e - 15 <=? 16383) with true by lia. rewrite (Z.land_ones _ 14) by lia. unfold wrap_u16. apply Z.mod_small.
      pose proof (Z.mod_pos_bound (e - 15) (2 ^ 14) ltac:(lia)). change (2 ^ 14) with 16384 in *. lia.
    - replace (e - 15 <=? 65535) with true by lia. rewrite (Z.land_ones _ 16) by lia. unfold wrap_u16. change (2 ^ 16) with 65536. apply Z.mod_small. apply Z.mod_pos_bound. lia.
  Qed.
  Variable buffer : list Z.
  Hypothesis HBL : length buffer = 18%nat.
  Hypothesis HBF : forall j, (j < v6_count bps)%nat -> nth j buffer 0 = top_field (v6_widths bps) V j.
  Definition started (x : option Z) (a : Z) : Prop := match x with None => a = 0 | Some _ => a <> 0 end.
  Definition six_inv (i : nat) (st : nat * list Z * list Z * Z * Z * list Z) : Prop :=
    let '(curr, oe, nz, pmul, pb, out) := st in
    curr = (i + i / 3)%nat /\ (exists a b, oe = [a; b] /\ started (v6_state bps V 0 ((i + 1) / 2)) a /\ started (v6_state bps V 1 (i / 2)) b) /\
    nz = [from_option (v6_state bps V 0 ((i + 1) / 2)); from_option (v6_state bps V 1 (i / 2))] /\
    ((3 <= i)%nat -> pmul = 2 ^ v6_scale bps V (i - 1) /\ pb = v6_zero bps * 2 ^ v6_scale bps V (i - 1)) /\
    out = map (v6_sample bps V) (seq 0 i).
  Lemma u16_ok z : 0 <= z < 65536 -> u16 z = Ok z.
  Proof. intros. unfold u16. replace (0 <=? z) with true by lia. now replace (z <? 65536) with true by lia. Qed.
  Lemma third i : (i mod 3 = 2)%nat -> (i + i / 3 = 4 * ((i - 2) / 3) + 2)%nat /\ ((i + 1) / 3 = i / 3 + 1)%nat /\ (2 <= i)%nat.
  Proof. clear. Local Ltac Zify.zify_post_hook ::= Z.div_mod_to_equations. lia. Qed.
  Lemma not_third i : (i mod 3 <> 2)%nat -> ((i + 1) / 3 = i / 3)%nat /\ ((2 <= i)%nat -> (3 <= i)%nat /\ ((i - 1 - 2) / 3 = (i - 2) / 3)%nat).
  Proof. clear. lia. Qed.
  Local Ltac Zify.zify_post_hook ::= idtac.
  Lemma base_step i pmul pb : (i < per)%nat -> ((3 <= i)%nat -> pmul = 2 ^ v6_scale bps V (i - 1) /\ pb = v6_zero bps * 2 ^ v6_scale bps V (i - 1)) ->
    exists pmul' pb', (if (i mod 3 =? 2)%nat then
      do base <- get buffer (i + i / 3);
      let base := if base =? 3 then 4 else base in
      Ok ((i + i / 3 + 1)%nat, wrap_u16 (Z.shiftl 1 base), wrap_u16 (Z.shiftl (k_base0 k) base))
    else Ok ((i + i / 3)%nat, pmul, pb)) = Ok ((i + (i + 1) / 3)%nat, pmul', pb') /\
    ((2 <= i)%nat -> pmul' = 2 ^ v6_scale bps V i /\ pb' = v6_zero bps * 2 ^ v6_scale bps V i).
  Proof.
    intros Hi HP. assert (H18 : (v6_count bps <= 18)%nat) by (unfold v6_count; destruct (bps =? 14)%nat; lia).
    destruct (Nat.eqb_spec (i mod 3) 2) as [E|E].
    - destruct (third i E) as (E1 & E2 & H).
      destruct (code_width i ltac:(lia)) as (_ & _ & _ & W). rewrite E1. rewrite (get_ok _ _ 0) by lia. cbn [bind]. rewrite HBF by exact W.
      fold (v6_scale bps V i). do 2 eexists. split; [rewrite E2; do 3 f_equal; lia|]. intros _.
      destruct k_fields as (_ & -> & _). pose proof (scale_cases i ltac:(lia)) as Sc. cbn [In] in Sc. unfold v6_scale in Sc. fold (v6_scale bps V i) in Sc.
      change (let b := top_field (v6_widths bps) V (4 * ((i - 2) / 3) + 2) in if b =? 3 then 4 else b) with (v6_scale bps V i) in Sc.
      pose proof zero_pos. unfold wrap_u16. change (if top_field (v6_widths bps) V (4 * ((i - 2) / 3) + 2) =? 3 then 4 else top_field (v6_widths bps) V (4 * ((i - 2) / 3) + 2)) with (v6_scale bps V i).
      destruct Sc as [<-|[<-|[<-|[<-|[]]]]]; (split; [reflexivity|]); rewrite Z.shiftl_mul_pow2 by lia; apply Z.mod_small; match goal with |- context [2 ^ ?b] => let x := eval compute in (2 ^ b) in change (2 ^ b) with x end; lia.
    - destruct (not_third i E) as (E2 & E3). exists pmul, pb. split; [now rewrite E2|]. intros H2. destruct (E3 H2) as (H3 & E4).
      destruct (HP H3) as [-> ->]. unfold v6_scale. rewrite E4. now split.
  Qed.
  Lemma next_value i prev pmul pb : (2 <= i < per)%nat -> 0 <= prev <= 31000 ->
    pmul = 2 ^ v6_scale bps V i -> pb = v6_zero bps * 2 ^ v6_scale bps V i ->
    (do e <- u16 (v6_code bps V i * pmul);
     if (pb <? k_base_cmp k) && (pb <? prev) then do d <- u16 (prev - pb); u16 (e + d) else Ok e) = Ok (from_option (v6_next bps V i (Some prev))).
  Proof.
    intros Hi HL -> ->. destruct k_fields as (_ & _ & -> & _). cbn [v6_next from_option]. pose proof (code_next i Hi) as C. pose proof zero_pos as HZ.
    assert (C2 : cw <= 1023) by (unfold cw; destruct (bps =? 14)%nat; lia).
    pose proof (scale_cases i Hi) as Sc. cbn [In] in Sc. generalize dependent (v6_code bps V i). intros x C.
    destruct Sc as [<-|[<-|[<-|[<-|[]]]]]; match goal with |- context [2 ^ ?b] => let y := eval compute in (2 ^ b) in change (2 ^ b) with y end;
      rewrite (u16_ok (x * _)) by lia; cbn [bind].
    all: match goal with |- context [?q <? v6_zero bps * 16] => first [replace (q <? v6_zero bps * 16) with true by lia | replace (q <? v6_zero bps * 16) with false by lia] end.
    all: match goal with |- context [?q <? 4] => let y := eval compute in (q <? 4) in change (q <? 4) with y end; cbn [andb].
    all: try (f_equal; lia).
    all: match goal with |- context [if ?q <? ?z then _ else _] => destruct (Z.ltb_spec q z) end; [|f_equal; lia].
    all: rewrite u16_ok by lia; cbn [bind]; rewrite u16_ok by lia; reflexivity.
  Qed.
  Lemma halves c : (2 * c / 2 = c /\ (2 * c + 1) / 2 = c /\ (2 * c + 1 + 1) / 2 = S c /\ (2 * c) mod 2 = 0 /\ (2 * c + 1) mod 2 = 1 /\ S (2 * c) / 2 = c)%nat.
  Proof. clear. Local Ltac Zify.zify_post_hook ::= Z.div_mod_to_equations. lia. Qed.
  Local Ltac Zify.zify_post_hook ::= idtac.
  Lemma upd_same (l : list Z) n : upd_list l n (nth n l 0) = l.
  Proof.
    destruct (Nat.lt_ge_cases n (length l)) as [L|L].
    - apply nth_ext_len with 0; [apply upd_list_length|]. intros j Hj. destruct (Nat.eq_dec j n) as [->|Hne]; [now rewrite nth_upd_eq|now rewrite nth_upd_neq by lia].
    - apply nth_ext_len with 0; [apply upd_list_length|]. intros j Hj. rewrite upd_list_length in Hj. now rewrite nth_upd_neq by lia.
  Qed.
  Lemma pixel_core i par oe nz x curr pmul pb out : (i < per)%nat -> (par < length oe)%nat -> (par < length nz)%nat -> started x (nth par oe 0) -> nth par nz 0 = from_option x ->
    ((i < 2)%nat -> x = None) -> 0 <= from_option x <= 31000 -> ((2 <= i)%nat -> pmul = 2 ^ v6_scale bps V i /\ pb = v6_zero bps * 2 ^ v6_scale bps V i) ->
    exists a', (do o <- get oe par;
      do n <- get nz par;
      if negb (o =? 0) then
        do e <- u16 (v6_code bps V i * pmul);
        do e <- (if (pb <? k_base_cmp k) && (pb <? n) then do d <- u16 (n - pb); u16 (e + d) else Ok e);
        do nonzero <- put nz par e;
        Ok (curr, oe, nonzero, pmul, pb, out ++ [v6_emit k e])
      else
        do oddeven <- put oe par (v6_code bps V i);
        if negb (v6_code bps V i =? 0) then
          do nonzero <- put nz par (v6_code bps V i);
          Ok (curr, oddeven, nonzero, pmul, pb, out ++ [v6_emit k (v6_code bps V i)])
        else Ok (curr, oddeven, nz, pmul, pb, out ++ [v6_emit k n])) =
    Ok (curr : nat, upd_list oe par a', upd_list nz par (from_option (v6_next bps V i x)), pmul, pb, out ++ [v6_emit k (from_option (v6_next bps V i x))]) /\
    started (v6_next bps V i x) a'.
  Proof.
    intros Hi Ho Hn HS HE H2 HR HP. rewrite (get_ok oe _ 0), (get_ok nz _ 0) by lia. cbn [bind]. rewrite HE.
    destruct x as [prev|]; cbn [started from_option] in *.
    - replace (nth par oe 0 =? 0) with false by lia. cbn [negb].
      assert (L2 : (2 <= i)%nat) by (destruct (Nat.lt_ge_cases i 2) as [Q|Q]; [specialize (H2 Q); discriminate|lia]).
      destruct (HP L2) as [Q1 Q2]. pose proof (next_value i prev pmul pb ltac:(lia) HR Q1 Q2) as NV.
      destruct (u16 (v6_code bps V i * pmul)) as [e| |]; cbn [bind] in *; try discriminate. rewrite NV. cbn [bind]. rewrite put_ok by lia. cbn [bind].
      exists (nth par oe 0). rewrite upd_same. split; [reflexivity|]. cbn [v6_next started]. exact HS.
    - rewrite HS. cbn [Z.eqb negb]. rewrite put_ok by lia. cbn [bind v6_next]. destruct (Z.eqb_spec (v6_code bps V i) 0) as [E|E]; cbn [negb from_option started].
      + exists (v6_code bps V i). split; [|exact E]. rewrite <- HE at 2. now rewrite upd_same.
      + rewrite put_ok by lia. cbn [bind]. exists (v6_code bps V i). split; [reflexivity|exact E].
  Qed.
  Lemma pixel_step i st : (i < per)%nat -> six_inv i st -> exists st', v6_pixel k buffer i st = Ok st' /\ six_inv (S i) st'.
  Proof.
    intros Hi. destruct st as [[[[[curr oe] nz] pmul] pb] out]. intros (-> & (a & b & -> & Sa & Sb) & -> & HP & ->).
    unfold v6_pixel. destruct (base_step i pmul pb Hi HP) as (pmul' & pb' & E & HP'). cbv zeta in E. rewrite E. clear E. cbn [bind].
    assert (H18 : (v6_count bps <= 18)%nat) by (unfold v6_count; destruct (bps =? 14)%nat; lia).
    assert (HC : (i + (i + 1) / 3 < v6_count bps)%nat).
    { destruct (Nat.lt_ge_cases i 2) as [L|L]; [destruct (code_first i L) as (_ & -> & G); exact G|apply code_width; lia]. }
    rewrite (get_ok buffer _ 0) by lia. cbn [bind]. rewrite HBF by exact HC. fold (v6_code bps V i).
    assert (E1 : (i + (i + 1) / 3 + 1 = S i + S i / 3)%nat) by (replace (S i) with (i + 1)%nat by lia; lia).
    assert (Hsm : map (v6_sample bps V) (seq 0 (S i)) = map (v6_sample bps V) (seq 0 i) ++ [v6_sample bps V i]) by (rewrite seq_S, map_app; reflexivity).
    assert (HP2 : (3 <= S i)%nat -> pmul' = 2 ^ v6_scale bps V (S i - 1) /\ pb' = v6_zero bps * 2 ^ v6_scale bps V (S i - 1)).
    { intros H3. replace (S i - 1)%nat with i by lia. apply HP'. lia. }
    destruct (halves (i / 2)) as (F1 & F2 & F3 & F4 & F5 & F6).
    assert (Ci : i = (2 * (i / 2))%nat \/ i = (2 * (i / 2) + 1)%nat) by (pose proof (Nat.div_mod i 2); pose proof (Nat.mod_upper_bound i 2); lia).
    set (c := (i / 2)%nat) in *. clearbody c.
    assert (Hcore : forall par, (par < 2)%nat -> i = (2 * c + par)%nat -> (i mod 2 = par)%nat /\ v6_sample bps V i = v6_emit k (from_option (v6_next bps V i (v6_state bps V par c))) /\
      ((i < 2)%nat -> v6_state bps V par c = None) /\ 0 <= from_option (v6_state bps V par c) <= 31000 /\ v6_state bps V par (S c) = v6_next bps V i (v6_state bps V par c)).
    { intros par Hpar Ei. assert (Em : (i mod 2 = par)%nat) by (rewrite Ei, Nat.add_comm, Nat.mul_comm, Nat.mod_add, Nat.mod_small by lia; reflexivity).
      assert (Ed : (i / 2 = c)%nat) by (rewrite Ei, Nat.add_comm, Nat.mul_comm, Nat.div_add, Nat.div_small by lia; reflexivity).
      assert (En : v6_state bps V par (S c) = v6_next bps V i (v6_state bps V par c)) by (cbn [v6_state]; now rewrite <- Ei).
      split; [exact Em|]. split; [|split; [|split; [|exact En]]].
      - pose proof (state_small par (S c) Hpar ltac:(right; lia)) as [R1 R2]. rewrite <- En. rewrite emit_ok by assumption. unfold v6_sample. now rewrite Em, Ed.
      - intros L. destruct c; [reflexivity|lia].
      - apply state_small; [exact Hpar|lia]. }
    destruct Ci as [Ci|Ci].
    - assert (Ci0 : i = (2 * c + 0)%nat) by lia. destruct (Hcore 0%nat ltac:(lia) Ci0) as (Em & Es & HN & HR & EN).
      assert (G0 : ((i + 1) / 2 = c)%nat) by (rewrite Ci; exact F2). rewrite G0 in *.
      destruct (pixel_core i (i mod 2) [a; b] [from_option (v6_state bps V 0 c); from_option (v6_state bps V 1 c)] (v6_state bps V 0 c) (i + (i + 1) / 3 + 1) pmul' pb' (map (v6_sample bps V) (seq 0 i))) as (a' & E & HS'); rewrite ?Em; cbn [length nth]; auto; try lia.
      rewrite Em in E. rewrite E. eexists. split; [reflexivity|]. cbn [upd_list].
      assert (N0 : ((S i + 1) / 2 = S c)%nat) by (replace (S i + 1)%nat with (2 * c + 1 + 1)%nat by lia; exact F3).
      assert (N1 : (S i / 2 = c)%nat) by (rewrite Ci; exact F6).
      repeat split; auto.
      + exists a', b. rewrite N0, N1, EN. auto.
      + rewrite N0, N1, EN. reflexivity.
      + now apply HP2.
      + now apply HP2.
      + now rewrite Hsm, Es.
    - destruct (Hcore 1%nat ltac:(lia) Ci) as (Em & Es & HN & HR & EN).
      destruct (pixel_core i (i mod 2) [a; b] [from_option (v6_state bps V 0 ((i + 1) / 2)); from_option (v6_state bps V 1 c)] (v6_state bps V 1 c) (i + (i + 1) / 3 + 1) pmul' pb' (map (v6_sample bps V) (seq 0 i))) as (a' & E & HS'); rewrite ?Em; cbn [length nth]; auto; try lia.
      rewrite Em in E. rewrite E. eexists. split; [reflexivity|]. cbn [upd_list].
      assert (N0 : ((S i + 1) / 2 = (i + 1) / 2)%nat). { replace (S i + 1)%nat with (2 * S c + 1)%nat by lia. replace (i + 1)%nat with (2 * S c)%nat by lia. destruct (halves (S c)) as (-> & -> & _). reflexivity. }
      assert (N1 : (S i / 2 = S c)%nat) by (replace (S i) with (2 * S c)%nat by lia; apply halves).
      repeat split; auto.
      + exists a, a'. rewrite N0, N1, EN. auto.
      + rewrite N0, N1, EN. reflexivity.
      + now apply HP2.
      + now apply HP2.
      + now rewrite Hsm, Es.
  Qed.
End Block.
Lemma block_ok bps k block : bps = 12%nat \/ bps = 14%nat -> v6_const_of bps = Some k -> Forall is_byte block -> length block = 16%nat ->
  v6_block bps k block = Ok (map (v6_sample bps (le_value block)) (seq 0 (v6_per bps))).
Proof.
  intros Hb Hk HB HL. unfold v6_block. destruct (buffer_ok bps block Hb HB HL) as (b & -> & Lb & HF). cbn [bind].
  destruct (k_fields bps k Hb Hk) as (-> & _).
  match goal with |- context [for_each (seq 0 ?n) ?f ?s] => destruct (for_each_seq_inv f (six_inv bps (le_value block)) 0 n s) as (st & E & HI) end.
  - repeat split; try lia. exists 0, 0. repeat split.
  - intros i st Hi HI. apply (pixel_step bps (le_value block) k Hb Hk b Lb HF); [lia|exact HI].
  - rewrite E. destruct st as [[[[[curr oe] nz] pmul] pb] out]. cbn [bind]. destruct HI as (_ & _ & _ & _ & ->). reflexivity.
Qed.
Theorem v6_any buf w h bps : bps = 12%nat \/ bps = 14%nat -> Forall is_byte buf -> (0 < w)%nat -> (w mod v6_per bps = 0)%nat -> (16 * (w / v6_per bps * h) <= length buf)%nat ->
  v6_decode buf w h bps = Ok (v6_picture bps buf (w * h)).
Proof.
  intros Hb HB Hw Hm HL. unfold v6_decode. destruct (v6_const_of bps) as [k|] eqn:Hk; [|destruct Hb as [-> | ->]; discriminate].
  assert (Hp : (0 < v6_per bps)%nat) by (unfold v6_per; destruct (bps =? 14)%nat; lia).
  destruct (k_fields bps k Hb Hk) as (-> & _). rewrite !assert_true by lia. cbn [bind].
  destruct (full_width w (v6_per bps) h Hp Hm) as [E1 E2].
  rewrite (rows_plain buf (v6_block bps k) (fun i => v6_sample bps (packet_value false buf (i / v6_per bps)) (i mod v6_per bps)) (v6_per bps) (w / v6_per bps) h).
  - now rewrite E1.
  - lia.
  - intros p _. rewrite (block_ok bps k _ Hb Hk (packet_bytes false buf p HB) (packet_length false buf p)). f_equal. apply map_ext_seq. intros j Hj. unfold packet_value.
    rewrite (Nat.add_comm (p * _)), Nat.mod_add, Nat.div_add, Nat.mod_small, Nat.div_small by lia. reflexivity.
Qed.

(** ** Zero data *)
Lemma bits_at_zero o n : bits_at o n 0 = 0.
Proof. unfold bits_at. rewrite Z.div_0_l, Z.mod_0_l; [reflexivity|..]; apply Z.pow_nonzero; lia. Qed.
Lemma state_zero bps par n : v6_state bps 0 par n = None.
Proof. induction n; [reflexivity|]. cbn [v6_state]. rewrite IHn. cbn [v6_next]. unfold v6_code, top_field. now rewrite bits_at_zero. Qed.
Lemma le_value_zero n : le_value (repeat 0 n) = 0.
Proof. induction n; [reflexivity|]. cbn [repeat le_value]. rewrite IHn. reflexivity. Qed.
Lemma packet_zero split n p : packet_value split (repeat 0 n) p = 0.
Proof.
  unfold packet_value. replace (packet split (repeat 0 n) p) with (repeat 0 16); [apply le_value_zero|].
  unfold packet. rewrite (map_ext _ (fun _ => 0)); [reflexivity|]. intros j. destruct (Nat.lt_ge_cases (packet_home split p j) n).
  - now apply nth_repeat_lt.
  - apply nth_overflow. rewrite repeat_length. lia.
Qed.
Theorem v6_dark w h bps n : bps = 12%nat \/ bps = 14%nat -> (0 < w)%nat -> (w mod v6_per bps = 0)%nat -> (16 * (w / v6_per bps * h) <= n)%nat ->
  v6_decode (repeat 0 n) w h bps = Ok (repeat (if (bps =? 14)%nat then 65521 else 16369) (w * h)).
Proof.
  intros Hb Hw Hm HL. rewrite v6_any; auto.
  - f_equal. unfold v6_picture. rewrite (map_ext _ (fun _ => if (bps =? 14)%nat then 65521 else 16369)).
    + apply map_const.
    + intros i. rewrite packet_zero. unfold v6_sample. rewrite state_zero. cbn [from_option]. unfold v6_result. destruct (bps =? 14)%nat; reflexivity.
  - apply Forall_forall. intros x Hx. apply repeat_spec in Hx. subst. unfold is_byte. lia.
  - now rewrite repeat_length.
Qed.

(** ** Stored pictures *)
Definition total_width (fs : list (nat * Z)) : nat := list_sum (map fst fs).
Definition fit_fields (fs : list (nat * Z)) : Prop := Forall (fun '(n, x) => 0 <= x < 2 ^ Z.of_nat n) fs.
Lemma be_acc fs : forall a, fold_left (fun a '(n, x) => a * 2 ^ Z.of_nat n + x) fs a = a * 2 ^ Z.of_nat (total_width fs) + be_fields fs.
Proof.
  unfold be_fields. induction fs as [|[n x] fs IH]; intros a; cbn [fold_left].
  - change (2 ^ Z.of_nat (total_width [])) with 1. lia.
  - rewrite IH, (IH (0 * 2 ^ Z.of_nat n + x)). unfold total_width. cbn [map fst list_sum fold_right]. fold (list_sum (map fst fs)).
    rewrite pow2_add. ring.
Qed.
Lemma be_app a b : be_fields (a ++ b) = be_fields a * 2 ^ Z.of_nat (total_width b) + be_fields b.
Proof. unfold be_fields at 1. rewrite fold_left_app. apply be_acc. Qed.
Lemma be_range fs : fit_fields fs -> 0 <= be_fields fs < 2 ^ Z.of_nat (total_width fs).
Proof.
  induction fs as [|[n x] fs IH]; intros H; [cbn; lia|]. inversion H as [|? ? H1 H2]; subst. specialize (IH H2).
  change ((n, x) :: fs) with ([(n, x)] ++ fs). rewrite be_app. unfold total_width in *. rewrite map_app, list_sum_app. cbn [map fst list_sum fold_right].
  rewrite pow2_add. change (be_fields [(n, x)]) with (0 * 2 ^ Z.of_nat n + x). rewrite Nat.add_0_r. nia.
Qed.
Lemma be_field a n x b : fit_fields b -> 0 <= x < 2 ^ Z.of_nat n -> bits_at (total_width b) n (be_fields (a ++ (n, x) :: b)) = x.
Proof.
  intros Hb Hx. change ((n, x) :: b) with ([(n, x)] ++ b). rewrite !be_app. unfold total_width. rewrite map_app, list_sum_app. cbn [map fst list_sum fold_right].
  fold (total_width b). pose proof (be_range b Hb). unfold bits_at. rewrite pow2_add. change (be_fields [(n, x)]) with (0 * 2 ^ Z.of_nat n + x). rewrite Nat.add_0_r.
  replace (be_fields a * (2 ^ Z.of_nat n * 2 ^ Z.of_nat (total_width b)) + ((0 * 2 ^ Z.of_nat n + x) * 2 ^ Z.of_nat (total_width b) + be_fields b))
    with (be_fields b + (x + be_fields a * 2 ^ Z.of_nat n) * 2 ^ Z.of_nat (total_width b)) by ring.
  rewrite Z.div_add by (apply Z.pow_nonzero; lia). rewrite Z.div_small by lia. rewrite Z.add_0_l, Z.mod_add by (apply Z.pow_nonzero; lia). now apply Z.mod_small.
Qed.

Lemma tail_widths (ws : list nat) : forall a, map (fun j => nth j ws 0%nat) (seq a (length ws - a)) = skipn a ws.
Proof.
  intros a. apply nth_ext_len with 0%nat.
  - now rewrite map_length, seq_length, skipn_length.
  - intros i Hi. rewrite map_length, seq_length in Hi. rewrite map_seq_add, nth_map_seq by lia. now rewrite nth_skipn.
Qed.
Section Packet6.
  Variables (bps : nat) (x : nat -> Z).
  Hypothesis Hb : bps = 12%nat \/ bps = 14%nat.
  Hypothesis HX : v6_smooth bps x.
  Let ws := v6_widths bps.
  Let V := v6_value bps x.
  Lemma put_fits j : (j < length ws)%nat -> 0 <= v6_put bps x j < 2 ^ Z.of_nat (nth j ws 0%nat).
  Proof.
    intros Hj. destruct HX as (H0 & H1 & H2 & H3). unfold v6_put.
    destruct (j mod 4 =? 2)%nat eqn:E4; [pose proof (pow2_pos (nth j ws 0%nat)); lia|].
    destruct (j - (j + 1) / 4 <? v6_per bps)%nat eqn:E5; [|pose proof (pow2_pos (nth j ws 0%nat)); lia].
    set (i := (j - (j + 1) / 4)%nat) in *. unfold v6_store. destruct (Nat.ltb_spec i 2) as [L|L].
    - assert (W : nth j ws 0%nat = bps). { unfold ws, i in *. clear - Hb E4 L. destruct j as [|[|[|j]]]; try discriminate; [destruct Hb as [-> | ->]; reflexivity..|]. exfalso. pose proof (Nat.div_mod (S (S (S j)) + 1) 4). lia. }
      rewrite W. destruct i as [|[|i']]; [|..]; try lia; pose proof (H0 0%nat ltac:(unfold v6_per; destruct (bps =? 14)%nat; lia)); pose proof (H0 1%nat ltac:(unfold v6_per; destruct (bps =? 14)%nat; lia)); lia.
    - assert (W : 2 ^ Z.of_nat (nth j ws 0%nat) = 2 * v6_zero bps).
      { unfold ws, i, v6_zero in *. clear - Hb Hj E4 L. destruct Hb as [-> | ->]; cbn [Nat.eqb];
        do 18 (destruct j as [|j]; [first [discriminate | reflexivity | exfalso; cbn in L; lia | exfalso; cbn in Hj; lia]|]); exfalso; cbn in Hj; lia. }
      rewrite W. specialize (H3 i ltac:(lia)). lia.
  Qed.
  Lemma fields_fit a n : (a + n <= length ws)%nat -> fit_fields (map (fun j => (nth j ws 0%nat, v6_put bps x j)) (seq a n)).
  Proof. intros H. unfold fit_fields. apply Forall_map, Forall_forall. intros j Hj. apply in_seq in Hj. apply put_fits. lia. Qed.
  Lemma value_range : 0 <= V < 2 ^ 128.
  Proof.
    unfold V, v6_value. fold ws. pose proof (be_range _ (fields_fit 0 (length ws) ltac:(lia))) as R.
    replace (2 ^ 128) with (2 ^ Z.of_nat (total_width (map (fun j => (nth j ws 0%nat, v6_put bps x j)) (seq 0 (length ws))))); [exact R|].
    unfold total_width. rewrite map_map. cbn [fst]. pose proof (tail_widths ws 0) as T. rewrite Nat.sub_0_r in T. cbn [skipn] in T. rewrite T.
    unfold ws. destruct Hb as [-> | ->]; reflexivity.
  Qed.
  Lemma value_field j : (j < length ws)%nat -> top_field ws V j = v6_put bps x j.
  Proof.
    intros Hj. unfold top_field, V, v6_value. fold ws. replace (seq 0 (length ws)) with (seq 0 (j + S (length ws - S j))) by (f_equal; lia).
    rewrite seq_app, map_app. cbn [plus seq map].
    pose proof (be_field (map (fun j => (nth j ws 0%nat, v6_put bps x j)) (seq 0 j)) (nth j ws 0%nat) (v6_put bps x j) (map (fun j => (nth j ws 0%nat, v6_put bps x j)) (seq (S j) (length ws - S j)))
      (fields_fit (S j) (length ws - S j) ltac:(lia)) (put_fits j Hj)) as K.
    unfold total_width in K. rewrite map_map in K. cbn [fst] in K. rewrite tail_widths in K. exact K.
  Qed.
  Lemma code_back i : (i < v6_per bps)%nat -> (i + (i + 1) / 3 < length ws)%nat /\ v6_put bps x (i + (i + 1) / 3) = v6_store bps x i.
  Proof.
    clear HX V. unfold ws, v6_per, v6_put. intros Hi. destruct Hb as [-> | ->]; cbn [Nat.eqb] in *;
      do 14 (destruct i as [|i]; [first [lia | split; [cbn; lia|reflexivity]]|]); lia.
  Qed.
  Lemma scale_back i : (2 <= i < v6_per bps)%nat -> (4 * ((i - 2) / 3) + 2 < length ws)%nat /\ v6_put bps x (4 * ((i - 2) / 3) + 2) = 0.
  Proof.
    clear HX V. unfold ws, v6_per, v6_put. intros Hi. destruct Hb as [-> | ->]; cbn [Nat.eqb] in *;
      do 14 (destruct i as [|i]; [first [lia | split; [cbn; lia|reflexivity]]|]); lia.
  Qed.
  Lemma state_back par c : (par < 2)%nat -> (2 * c + par < v6_per bps)%nat -> v6_state bps V par (S c) = Some (x (2 * c + par)%nat + 15).
  Proof.
    intros Hp. induction c; intros Hc.
    - cbn [v6_state v6_next]. destruct (code_back (2 * 0 + par) Hc) as [C1 C2]. unfold v6_code. fold ws. rewrite (value_field _ C1), C2. unfold v6_store.
      replace (2 * 0 + par <? 2)%nat with true by lia. destruct HX as (H0 & _). specialize (H0 _ Hc). now replace (x (2 * 0 + par)%nat + 15 =? 0) with false by lia.
    - change (v6_state bps V par (S (S c))) with (v6_next bps V (2 * S c + par) (v6_state bps V par (S c))). rewrite IHc by lia. cbn [v6_next].
      set (i := (2 * S c + par)%nat) in *. destruct (code_back i Hc) as [C1 C2]. destruct (scale_back i ltac:(lia)) as [S1 S2].
      unfold v6_scale. cbv zeta. fold ws. rewrite (value_field _ S1), S2. unfold v6_code. fold ws. rewrite (value_field _ C1), C2. unfold v6_store.
      replace (i <? 2)%nat with false by lia. destruct HX as (_ & _ & _ & H3). specialize (H3 i ltac:(lia)). replace (i - 2)%nat with (2 * c + par)%nat in * by lia.
      cbn [Z.eqb Z.ltb Z.compare andb]. change (2 ^ 0) with 1. replace (v6_zero bps * 1 <? x (2 * c + par)%nat + 15) with true by lia. f_equal. lia.
  Qed.
  Lemma sample_back i : (i < v6_per bps)%nat -> v6_sample bps V i = x i.
  Proof.
    intros Hi. unfold v6_sample. assert (E : i = (2 * (i / 2) + i mod 2)%nat) by (pose proof (Nat.div_mod i 2); lia).
    pose proof (Nat.mod_upper_bound i 2 ltac:(lia)) as M. pose proof (state_back (i mod 2) (i / 2) M ltac:(lia)) as SB. rewrite <- E in SB.
    destruct (v6_const_of bps) as [k|] eqn:Hk; [|destruct Hb as [Eb | Eb]; rewrite Eb in Hk; discriminate].
    destruct (state_small bps V k Hb Hk (i mod 2) (S (i / 2)) M ltac:(right; lia)) as [R1 R2]. rewrite SB in *. cbn [from_option] in *. unfold v6_result.
    replace (x i + 15 - 15) with (x i) by lia. destruct HX as (H0 & _). specialize (H0 i Hi). apply Z.mod_small. destruct Hb as [Eb | Eb]; rewrite Eb in *; cbn [Nat.eqb]; [specialize (R2 eq_refl)|]; lia.
  Qed.
End Packet6.
Theorem v6_roundtrip bps s w h tail : bps = 12%nat \/ bps = 14%nat -> (0 < w)%nat -> (w mod v6_per bps = 0)%nat -> Forall is_byte tail ->
  packets_are (v6_smooth bps) (v6_per bps) (w * h) s ->
  v6_decode (store_plain (fun p => v6_value bps (fun i => s (p * v6_per bps + i)%nat)) (w * h / v6_per bps) ++ tail) w h bps = Ok (map s (seq 0 (w * h))).
Proof.
  intros Hb Hw Hm HT HS. assert (Hp : (0 < v6_per bps)%nat) by (unfold v6_per; destruct (bps =? 14)%nat; lia).
  destruct (full_width w (v6_per bps) h Hp Hm) as [E1 E2].
  rewrite v6_any; auto.
  - f_equal. unfold v6_picture. apply map_ext_seq. intros i Hi.
    assert (Hd : (i / v6_per bps < w * h / v6_per bps)%nat) by (apply Nat.div_lt_upper_bound; lia).
    rewrite plain_value; [|exact Hd|apply value_range; auto].
    rewrite sample_back; auto; [|apply Nat.mod_upper_bound; lia]. f_equal. rewrite Nat.mul_comm. symmetry. apply Nat.div_mod. lia.
  - apply Forall_app. split; [apply store_plain_byte|exact HT].
  - rewrite app_length, store_plain_length. assert (w / v6_per bps * h <= w * h / v6_per bps)%nat by (apply Nat.div_le_lower_bound; lia). lia.
Qed.
