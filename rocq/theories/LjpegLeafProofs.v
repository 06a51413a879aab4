(** Leaf strips and the interlaced row order. *)
From Coq Require Import List ZArith Lia Bool.
From Coq Require Import ZifyBool ZifyNat.
From Verif Require Import Base BaseLemmas Pumps PumpProofs LjpegDec LjpegAnySpec LjpegAny LjpegAnyTop LjpegBits Crx CrxLL LjpegYuv LjpegLeaf LjpegYuvSpec PefSpec PefRows Lanes GeomProofs LjpegYuvProofs LjpegYuvTop LjpegYuvEnd OrfRows.
Import ListNotations.
Open Scope Z_scope.

Lemma add_leaf bug t sz hv prev p l : ht_dng_bug t = bug -> atable t sz hv -> jpeg_rep 32 p l -> 0 <= prev < 65536 ->
  exists p', add_diff t prev p = Ok (prev + fst (next_diff bug (sz, hv) l), p') /\ jpeg_rep 32 p' (snd (next_diff bug (sz, hv) l)).
Proof.
  intros Eb A R HP. unfold add_diff. destruct (huff_decode_any jpeg_ops jpeg_rep jpeg_refines t _ _ 32 p _ A (Nat.le_refl _) R) as (p' & E1 & R1).
  rewrite Eb in E1, R1. rewrite E1. cbn [bind].
  assert (D : -32768 <= fst (next_diff bug (sz, hv) l) <= 32767).
  { unfold next_diff. destruct (symbol_bounds t sz hv l A) as [_ B]. destruct (symbol (sz, hv) l) as [len cat]. cbn [fst snd] in *. apply difference_range; auto. apply peekv_range. }
  rewrite i32_ok by lia. exists p'. split; [reflexivity|]. destruct R1 as [I S]. split; auto.
Qed.

Section Strip.
Context (bug : bool) (t1 t2 : hufft) (tb1 tb2 : list nat * list nat).
Context (E1 : ht_dng_bug t1 = bug) (A1 : atable t1 (fst tb1) (snd tb1)) (E2 : ht_dng_bug t2 = bug) (A2 : atable t2 (fst tb2) (snd tb2)).
Context (base : Z) (HB : 0 <= base < 65536).
Context (half h : nat) (H1 : (1 <= half)%nat) (s : nat -> nat -> Z) (d : nat -> nat -> Z) (HS : leaf_picture base d (2 * half) h s).
Let w := (2 * half)%nat.
Let F j := s (j / w)%nat (j mod w)%nat.
Let xt := [tb1; tb2].

Lemma s_range r c : (r < h)%nat -> (c < w)%nat -> 0 <= s r c < 65536.
Proof. clear - HS. intros Hr Hc. rewrite HS by auto. apply Z.mod_pos_bound. lia. Qed.
Lemma leafF r c : (c < w)%nat -> F (r * w + c) = s r c.
Proof. clear. intros H. unfold F. destruct (div_mod_at w r c H) as [-> ->]. reflexivity. Qed.
Lemma turn_a n : turn xt (2 * n) = tb1.
Proof. clear. unfold turn, xt. cbn [length]. rewrite Nat.mul_comm, Nat.mod_mul by lia. reflexivity. Qed.
Lemma turn_b n : turn xt (2 * n + 1) = tb2.
Proof. clear. unfold turn, xt. cbn [length]. rewrite Nat.mul_comm, Nat.add_comm, Nat.mod_add by lia. reflexivity. Qed.

Context (k : nat) (HK : (8 * k < h)%nat) (bits : list bool) (HD : forall i, d k i = diff_no bug xt bits i).
Let start := (k * (w * 8))%nat.
Definition linv (row c : nat) (st : list Z * jpump) : Prop :=
  filled F (w * h) (start + (row * w + 2 * c)) (fst st) /\ jpeg_rep 32 (snd st) (after bug xt bits (row * w + 2 * c)).
(** the value of one sample of the strip *)
Lemma leaf_value row c pv : (row < 8)%nat -> (8 * k + row < h)%nat -> (c < w)%nat -> pv = leaf_pred base s (8 * k + row) c ->
  wrap_u16 (pv + diff_no bug xt bits (row * w + c)) = F (start + (row * w + c)).
Proof.
  clear - HS HD. intros Hr Hh Hc ->.
  replace (start + (row * w + c))%nat with ((8 * k + row) * w + c)%nat by (unfold start; lia). rewrite leafF by auto. rewrite HS by auto.
  replace ((8 * k + row) / 8)%nat with k by (rewrite Nat.mul_comm, Nat.div_add_l, Nat.div_small by lia; lia).
  replace ((8 * k + row) mod 8)%nat with row by (rewrite Nat.mul_comm, Nat.add_comm, Nat.mod_add by lia; symmetry; apply Nat.mod_small; auto).
  rewrite HD. reflexivity.
Qed.
Lemma pair_step row c out p pv1 pv2 : (row < 8)%nat -> (8 * k + row < h)%nat -> (c < half)%nat -> linv row c (out, p) ->
  pv1 = leaf_pred base s (8 * k + row) (2 * c) -> pv2 = leaf_pred base s (8 * k + row) (2 * c + 1) -> 0 <= pv1 < 65536 -> 0 <= pv2 < 65536 ->
  exists a b p1 p2 out1 out2, add_diff t1 pv1 p = Ok (a, p1) /\ add_diff t2 pv2 p1 = Ok (b, p2) /\
    put out (start + (row * w + 2 * c)) (wrap_u16 a) = Ok out1 /\ put out1 (start + (row * w + 2 * c + 1)) (wrap_u16 b) = Ok out2 /\ linv row (S c) (out2, p2).
Proof.
  clear - HS HD E1 A1 E2 A2. intros Hr Hh Hc [FI R] V1 V2 B1 B2. cbn [fst snd] in *.
  assert (EV : (row * w + 2 * c = 2 * (row * half + c))%nat) by (unfold w; lia).
  destruct (add_leaf bug t1 _ _ pv1 p _ E1 A1 R B1) as (p1 & D1 & R1). rewrite <- surjective_pairing in D1, R1. rewrite <- (turn_a (row * half + c)), <- EV in D1, R1.
  change (jpeg_rep 32 p1 (after bug xt bits (S (row * w + 2 * c)))) in R1.
  destruct (add_leaf bug t2 _ _ pv2 p1 _ E2 A2 R1 B2) as (p2 & D2 & R2). rewrite <- surjective_pairing in D2, R2.
  rewrite <- (turn_b (row * half + c)), <- EV, Nat.add_1_r in D2, R2.
  change (jpeg_rep 32 p2 (after bug xt bits (S (S (row * w + 2 * c))))) in R2.
  fold (diff_no bug xt bits (row * w + 2 * c)) in D1. fold (diff_no bug xt bits (S (row * w + 2 * c))) in D2.
  assert (TOT : (start + (row * w + 2 * c) + 1 < w * h)%nat).
  { unfold start. assert (((8 * k + row) + 1) * w <= h * w)%nat by (apply Nat.mul_le_mono_r; lia). unfold w in *. lia. }
  destruct (filled_put F (w * h) _ out (wrap_u16 (pv1 + diff_no bug xt bits (row * w + 2 * c))) FI ltac:(lia)) as (out1 & P1 & F1).
  { apply leaf_value; auto. unfold w. lia. }
  replace (S (start + (row * w + 2 * c))) with (start + (row * w + 2 * c + 1))%nat in F1 by lia.
  destruct (filled_put F (w * h) _ out1 (wrap_u16 (pv2 + diff_no bug xt bits (S (row * w + 2 * c)))) F1 ltac:(lia)) as (out2 & P2 & F2).
  { replace (row * w + 2 * c + 1)%nat with (row * w + (2 * c + 1))%nat by lia. rewrite <- (leaf_value row (2 * c + 1) pv2) by (auto; unfold w; lia). do 3 f_equal. lia. }
  do 6 eexists. split; [exact D1|]. split; [exact D2|]. split; [exact P1|]. split; [exact P2|].
  split; cbn [fst snd].
  - replace (start + (row * w + 2 * S c))%nat with (S (start + (row * w + 2 * c + 1))) by lia. exact F2.
  - replace (row * w + 2 * S c)%nat with (S (S (row * w + 2 * c))) by lia. exact R2.
Qed.
Lemma linv_get row c out p i : linv row c (out, p) -> (i < start + (row * w + 2 * c))%nat -> (start + (row * w + 2 * c) <= w * h)%nat -> get out i = Ok (F i).
Proof. clear. intros [[L FI] _] Hi HT. cbn [fst] in *. rewrite (get_ok _ _ 0) by lia. now rewrite FI. Qed.

Lemma strip_loop n out p : (n <= 8)%nat -> (8 * k + n <= h)%nat -> (1 <= n)%nat -> linv 0 1 (out, p) ->
  exists st, for_each (seq 0 n) (fun row st =>
    for_each (step_range (if (row =? 0)%nat then 2 else 0) w 2) (fun col '(out, p) =>
      do pos <- (if (col =? 0)%nat then do r <- usub row 1; Ok (r * w)%nat else usub (row * w + col) 2);
      do p1 <- get out (start + pos);
      do p2 <- get out (start + (pos + 1));
      do (a, p) <- add_diff t1 p1 p;
      do (b, p) <- add_diff t2 p2 p;
      do out <- put out (start + (row * w + col)) (wrap_u16 a);
      do out <- put out (start + (row * w + col + 1)) (wrap_u16 b);
      Ok (out, p)) st) (out, p) = Ok st /\ linv n 0 st.
Proof.
  intros Hn Hh H1n I0.
  assert (STEP : forall row c st, (row < n)%nat -> (c < half)%nat -> (row = 0 -> c <> 0)%nat -> linv row c st ->
    exists st', (fun '(out, p) =>
      do pos <- (if (2 * c =? 0)%nat then do r <- usub row 1; Ok (r * w)%nat else usub (row * w + 2 * c) 2);
      do p1 <- get out (start + pos);
      do p2 <- get out (start + (pos + 1));
      do (a, p) <- add_diff t1 p1 p;
      do (b, p) <- add_diff t2 p2 p;
      do out <- put out (start + (row * w + 2 * c)) (wrap_u16 a);
      do out <- put out (start + (row * w + 2 * c + 1)) (wrap_u16 b);
      Ok (out, p)) st = Ok st' /\ linv row (S c) st').
  { intros row c [o q] Hr Hc H0 I. assert (HT : (start + (row * w + 2 * c) <= w * h)%nat).
    { unfold start. assert (((8 * k + row) + 1) * w <= h * w)%nat by (apply Nat.mul_le_mono_r; lia). unfold w in *. lia. }
    assert (G : forall r' c' , (r' < row \/ r' = row /\ c' < 2 * c)%nat -> (c' < w)%nat -> get o (start + (r' * w + c')) = Ok (s (8 * k + r') c')).
    { intros r' c' Hp Hw. rewrite (linv_get row c o q _ I).
      - f_equal. replace (start + (r' * w + c'))%nat with ((8 * k + r') * w + c')%nat by (unfold start; lia). now apply leafF.
      - destruct Hp as [Hp|[-> Hp]]; [|lia]. assert ((S r') * w <= row * w)%nat by (apply Nat.mul_le_mono_r; lia). lia.
      - exact HT. }
    assert (PV : exists pos v1 v2, (if (2 * c =? 0)%nat then do r <- usub row 1; Ok (r * w)%nat else usub (row * w + 2 * c) 2) = Ok pos /\
       get o (start + pos) = Ok v1 /\ get o (start + (pos + 1)) = Ok v2 /\ v1 = leaf_pred base s (8 * k + row) (2 * c) /\ v2 = leaf_pred base s (8 * k + row) (2 * c + 1) /\
       0 <= v1 < 65536 /\ 0 <= v2 < 65536).
    { destruct (Nat.eq_dec c 0) as [->|N].
      - replace (2 * 0 =? 0)%nat with true by reflexivity. rewrite usub_ok by lia. cbn [bind]. exists ((row - 1) * w)%nat, (s (8 * k + (row - 1)) 0), (s (8 * k + (row - 1)) 1).
        split; [reflexivity|]. split; [rewrite <- (Nat.add_0_r ((row - 1) * w)); apply G; unfold w; lia|]. split; [apply G; unfold w; lia|].
        assert (M : ((8 * k + row) mod 8 = row)%nat) by (rewrite Nat.mul_comm, Nat.add_comm, Nat.mod_add by lia; apply Nat.mod_small; lia).
        unfold leaf_pred. rewrite M. replace (2 <=? 2 * 0)%nat with false by reflexivity. replace (2 <=? 2 * 0 + 1)%nat with false by reflexivity. replace (row =? 0)%nat with false by lia.
        replace (8 * k + row - 1)%nat with (8 * k + (row - 1))%nat by lia. split; [reflexivity|]. split; [reflexivity|].
        split; apply s_range; unfold w; lia.
      - replace (2 * c =? 0)%nat with false by lia. rewrite usub_ok by lia. exists (row * w + 2 * c - 2)%nat, (s (8 * k + row) (2 * c - 2)), (s (8 * k + row) (2 * c - 1)).
        split; [reflexivity|]. split; [replace (row * w + 2 * c - 2)%nat with (row * w + (2 * c - 2))%nat by lia; apply G; unfold w; lia|].
        split; [replace (row * w + 2 * c - 2 + 1)%nat with (row * w + (2 * c - 1))%nat by lia; apply G; unfold w; lia|].
        unfold leaf_pred. replace (2 <=? 2 * c)%nat with true by lia. replace (2 <=? 2 * c + 1)%nat with true by lia.
        split; [reflexivity|]. split; [f_equal; lia|]. split; apply s_range; unfold w; lia. }
    destruct PV as (pos & v1 & v2 & EP & G1 & G2 & V1 & V2 & B1 & B2).
    destruct (pair_step row c o q v1 v2 ltac:(lia) ltac:(lia) Hc I V1 V2 B1 B2) as (a & b & p1 & p2 & out1 & out2 & D1 & D2 & P1 & P2 & I2).
    rewrite EP. cbn [bind]. rewrite G1. cbn [bind]. rewrite G2. cbn [bind]. rewrite D1. cbn [bind]. rewrite D2. cbn [bind]. rewrite P1. cbn [bind]. rewrite P2. cbn [bind]. eauto. }
  match goal with |- context [for_each (seq 0 n) ?f _] => set (body := f) end.
  destruct (for_each_seq_inv body (fun row st => linv row (if (row =? 0)%nat then 1 else 0) st) 0 n (out, p)) as (st' & E & X); auto.
  - intros i st Hi I. unfold body. replace (S i =? 0)%nat with false by lia.
    match goal with |- context [for_each (step_range _ w 2) ?f st] => set (inner := f) end.
    assert (STEP' : forall c st, (c < half)%nat -> (i = 0 -> c <> 0)%nat -> linv i c st -> exists st', inner (2 * c)%nat st = Ok st' /\ linv i (S c) st').
    { intros c st1 Hc H0 I1. exact (STEP i c st1 ltac:(lia) Hc H0 I1). }
    clearbody inner. clear STEP.
    assert (NEXT : forall st, linv i half st -> linv (S i) 0 st).
    { intros st1 [X1 X2]. split; replace (S i * w + 2 * 0)%nat with (i * w + 2 * half)%nat by (unfold w; lia); auto. }
    destruct (Nat.eqb_spec i 0) as [E0|N0].
    + change w with (2 * half)%nat at 1; rewrite (step_from 2 half) by lia. rewrite for_each_map.
      destruct (for_each_seq_inv (fun c st => inner (2 * c)%nat st) (fun c st => linv i c st) 1 (half - 1) st I) as (s2 & F1 & X2).
      * intros c st1 Hc I1. apply STEP'; auto; lia.
      * exists s2. split; [exact F1|]. apply NEXT. replace half with (1 + (half - 1))%nat at 1 by lia. exact X2.
    + change w with (2 * half)%nat at 1; rewrite (step_mul 2 half) by lia. rewrite for_each_map.
      destruct (for_each_seq_inv (fun c st => inner (2 * c)%nat st) (fun c st => linv i c st) 0 half st I) as (s2 & F1 & X2).
      * intros c st1 Hc I1. apply STEP'; auto; lia.
      * exists s2. split; [exact F1|]. apply NEXT. exact X2.
  - exists st'. split; [exact E|]. replace (0 + n =? 0)%nat with false in X by lia. exact X.
Qed.

Lemma strip_ok src out n : n = Nat.min 8 (h - k * 8) -> Forall is_byte src -> no_lone_ff src -> byte_bits (unstuff src) = bits ->
  filled F (w * h) start out -> exists out', decode_leaf_strip src start w n t1 t2 base out = Ok out' /\ filled F (w * h) (start + n * w) out'.
Proof.
  intros En HBY HFF EB FI. unfold decode_leaf_strip.
  assert (R0 : jpeg_rep 32 (jpump_new src) (after bug xt bits (0 * w + 2 * 0))) by (cbn [Nat.mul Nat.add after]; rewrite <- EB; now apply jpeg_new_rep).
  assert (I : linv 0 0 (out, jpump_new src)) by (split; [rewrite Nat.mul_0_l, Nat.mul_0_r, !Nat.add_0_r; exact FI|exact R0]).
  assert (M : ((8 * k + 0) mod 8 = 0)%nat) by (rewrite Nat.add_0_r, Nat.mul_comm; apply Nat.mod_mul; lia).
  destruct (pair_step 0 0 out (jpump_new src) base base ltac:(lia) ltac:(lia) ltac:(lia) I) as (a & b & p1 & p2 & out1 & out2 & D1 & D2 & P1 & P2 & I2); auto.
  { unfold leaf_pred. rewrite M. reflexivity. }
  { unfold leaf_pred. rewrite M. reflexivity. }
  cbn [Nat.mul Nat.add] in P1, P2. rewrite D1. cbn [bind]. rewrite P1. cbn [bind]. rewrite D2. cbn [bind]. rewrite P2. cbn [bind].
  destruct (strip_loop n out2 p2 ltac:(lia) ltac:(lia) ltac:(lia) I2) as ([o q] & E & [X _]). rewrite E. cbn [bind]. exists o. split; [reflexivity|].
  cbn [fst] in X. rewrite Nat.mul_0_r, Nat.add_0_r in X. exact X.
Qed.
End Strip.

(** ** The strips of the data *)
Lemma skip_one buf pos a b fuel : nth_error buf pos = Some a -> nth_error buf (pos + 1) = Some b -> (a <> 255 \/ b = 0 \/ b = 255) ->
  skip_to_marker_loop (S fuel) (mk_bstream buf pos) = skip_to_marker_loop fuel (mk_bstream buf (pos + 1)).
Proof.
  intros EA EB H. cbn [skip_to_marker_loop b_buf b_pos]. rewrite (get_nth_error _ _ _ EA), (get_nth_error _ _ _ EB). cbn [bind].
  assert (L : (pos + 1 < length buf)%nat) by (apply nth_error_Some; congruence). replace (length buf <=? pos + 1)%nat with false by lia.
  destruct (Z.eqb_spec a 255) as [->|N]; cbn [bind]; [|reflexivity].
  destruct H as [H|[-> | ->]]; [easy| |]; reflexivity.
Qed.
Lemma nth_error_mid (A : Type) (pre l : list A) i : nth_error (pre ++ l) (length pre + i) = nth_error l i.
Proof. rewrite nth_error_app2 by lia. f_equal. lia. Qed.
Lemma skip_escaped m tail : m <> 0 -> m <> 255 -> forall l pre fuel, (length (escaped l) < fuel)%nat ->
  skip_to_marker_loop fuel (mk_bstream (pre ++ escaped l ++ 255 :: m :: tail) (length pre)) =
  Ok (mk_bstream (pre ++ escaped l ++ 255 :: m :: tail) (length pre + length (escaped l) + 1)).
Proof.
  intros H0 H1. induction l as [|b l IH]; intros pre fuel HF.
  - cbn [escaped flat_map app length] in *. destruct fuel; [lia|]. cbn [skip_to_marker_loop b_buf b_pos].
    assert (A : nth_error (pre ++ 255 :: m :: tail) (length pre) = Some 255) by (rewrite <- (Nat.add_0_r (length pre)), nth_error_mid; reflexivity).
    assert (B : nth_error (pre ++ 255 :: m :: tail) (length pre + 1) = Some m) by (rewrite nth_error_mid; reflexivity).
    rewrite (get_nth_error _ _ _ A), (get_nth_error _ _ _ B). cbn [bind]. change (255 =? 255) with true. cbn [bind].
    replace (negb (m =? 0) && negb (m =? 255)) with true by lia. now rewrite Nat.add_0_r.
  - change (escaped (b :: l)) with ((if b =? 255 then [255; 0] else [b]) ++ escaped l) in *.
    assert (HD : exists x, nth_error (escaped l ++ 255 :: m :: tail) 0 = Some x).
    { destruct (escaped l); cbn [app nth_error]; eauto. }
    destruct HD as (x & HD). destruct (Z.eqb_spec b 255) as [->|N]; cbn [app length] in *.
    + destruct fuel as [|[|fuel]]; [lia|lia|].
      rewrite (skip_one _ _ 255 0); [|rewrite <- (Nat.add_0_r (length pre)), nth_error_mid; reflexivity|rewrite nth_error_mid; reflexivity|auto].
      rewrite (skip_one _ _ 0 x); [|rewrite nth_error_mid; reflexivity| |left; lia].
      * specialize (IH (pre ++ [255; 0]) fuel ltac:(lia)). rewrite <- app_assoc in IH. cbn [app] in IH. rewrite app_length in IH. cbn [length] in IH.
        replace (length pre + 1 + 1)%nat with (length pre + 2)%nat by lia. rewrite IH. f_equal. f_equal. lia.
      * replace (length pre + 1 + 1)%nat with (length pre + 2)%nat by lia. rewrite nth_error_mid. exact HD.
    + destruct fuel as [|fuel]; [lia|].
      rewrite (skip_one _ _ b x); [|rewrite <- (Nat.add_0_r (length pre)), nth_error_mid; reflexivity|rewrite nth_error_mid; exact HD|auto].
      specialize (IH (pre ++ [b]) fuel ltac:(lia)). rewrite <- app_assoc in IH. cbn [app] in IH. rewrite app_length in IH. cbn [length] in IH.
      rewrite IH. f_equal. f_equal. lia.
Qed.
Lemma marker_escaped m tail l pre : m <> 0 -> m <> 255 ->
  get_next_marker (mk_bstream (pre ++ escaped l ++ 255 :: m :: tail) (length pre)) true =
  Ok (m, mk_bstream (pre ++ escaped l ++ 255 :: m :: tail) (length (pre ++ escaped l ++ [255; m]))).
Proof.
  intros H0 H1. unfold get_next_marker. cbn [negb]. unfold skip_to_marker. cbn [b_buf].
  rewrite (skip_escaped m tail H0 H1 l pre) by (rewrite !app_length; lia). cbn [bind]. unfold bs_get_u8. cbn [b_buf b_pos].
  assert (A : nth_error (pre ++ escaped l ++ 255 :: m :: tail) (length pre + length (escaped l) + 1) = Some m).
  { rewrite app_assoc. rewrite <- app_length. rewrite nth_error_mid. reflexivity. }
  rewrite (get_nth_error _ _ _ A). cbn [bind]. do 3 f_equal. rewrite !app_length. cbn [length]. lia.
Qed.
(** where the strips after the first start *)
Fixpoint strip_starts (pos : nat) (cur : list Z) (others : list (Z * list Z)) : list nat :=
  match others with [] => [] | (m, l) :: t => let p := (pos + length (escaped cur) + 2)%nat in p :: strip_starts p l t end.
Lemma offsets_ok rest : forall others pre first fuel, Forall (fun p => separator (fst p)) others -> (length others < fuel)%nat ->
  leaf_offsets fuel (mk_bstream (pre ++ leaf_data first others rest) (length pre)) = Ok (strip_starts (length pre) first others).
Proof.
  induction others as [|[m l] others IH]; intros pre first fuel HS HF; destruct fuel as [|fuel]; cbn [length] in HF; try lia; cbn [leaf_offsets].
  - unfold leaf_data. cbn [flat_map app]. rewrite marker_escaped by lia. reflexivity.
  - inversion HS as [|? ? (B & S0 & S1 & S2) HS']; subst. cbn [fst] in *. unfold leaf_data. cbn [flat_map]. cbn [fst snd app]. rewrite marker_escaped by auto.
    replace (m =? 217) with false by lia. cbn [b_pos].
    replace (pre ++ escaped first ++ 255 :: m :: (escaped l ++ flat_map (fun p => 255 :: fst p :: escaped (snd p)) others) ++ 255 :: 217 :: rest)
      with ((pre ++ escaped first ++ [255; m]) ++ leaf_data l others rest) by (unfold leaf_data; rewrite <- !app_assoc; reflexivity).
    rewrite (IH (pre ++ escaped first ++ [255; m]) l fuel HS') by lia. cbn [bind strip_starts]. do 2 f_equal.
    all: rewrite !app_length; cbn [length]; rewrite ?Nat.add_assoc; reflexivity.
Qed.
Lemma starts_length : forall others pos cur, length (strip_starts pos cur others) = length others.
Proof. induction others as [|[m l] t IH]; intros; cbn [strip_starts length]; auto. Qed.
Lemma starts_data rest : forall others pre first k, (k <= length others)%nat -> Forall (fun p => separator (fst p)) others ->
  exists pre' rem, Forall (fun p => separator (fst p)) rem /\ pre ++ leaf_data first others rest = pre' ++ leaf_data (leaf_strip first others k) rem rest /\ length pre' = nth k (length pre :: strip_starts (length pre) first others) 0%nat.
Proof.
  induction others as [|[m l] others IH]; intros pre first k Hk HS.
  - replace k with 0%nat by (cbn in Hk; lia). exists pre, []. repeat split; auto.
  - destruct k; [exists pre, ((m, l) :: others); repeat split; auto|].
    destruct (IH (pre ++ escaped first ++ [255; m]) l k ltac:(cbn in Hk; lia) ltac:(now inversion HS)) as (pre' & rem & HR & E & L). exists pre', rem. split; [exact HR|]. split.
    + change (leaf_strip first ((m, l) :: others) (S k)) with (leaf_strip l others k). rewrite <- E. unfold leaf_data. cbn [flat_map fst snd app]. rewrite <- ?app_assoc. cbn [app]. rewrite <- ?app_assoc. reflexivity.
    + rewrite L. cbn [strip_starts nth]. rewrite !app_length. cbn [length]. now rewrite !Nat.add_assoc.
Qed.
Lemma seps_head rest others : Forall (fun p => separator (fst p)) others -> is_byte 217 ->
  exists m t, flat_map (fun p => 255 :: fst p :: escaped (snd p)) others ++ 255 :: 217 :: rest = 255 :: m :: t /\ m <> 0.
Proof.
  intros HS _. destruct HS as [|[m x] ? (B & S0 & S1 & S2)]; cbn [flat_map app fst snd]; do 2 eexists; (split; [reflexivity|]); auto. lia.
Qed.
Lemma leaf_bits l others rest : Forall (fun p => separator (fst p)) others -> byte_bits (unstuff (leaf_data l others rest)) = byte_bits l.
Proof.
  intros HS. unfold leaf_data. rewrite escaped_stuff, unstuff_stuff. destruct (seps_head rest others HS ltac:(unfold is_byte; lia)) as (m & t & E & N). rewrite E.
  cbn [unstuff]. change (255 =? 255) with true. cbn iota. destruct m; [easy| |]; now rewrite app_nil_r.
Qed.
Lemma leaf_lone l others rest : Forall (fun p => separator (fst p)) others -> no_lone_ff (leaf_data l others rest).
Proof.
  intros HS. unfold leaf_data. rewrite escaped_stuff. apply no_lone_stuff. destruct (seps_head rest others HS ltac:(unfold is_byte; lia)) as (m & t & E & N). rewrite E.
  cbn [no_lone_ff]. change (255 =? 255) with true. cbn iota. destruct m; [easy|exact I|exact I].
Qed.

Lemma leaf_ok bug d tabs half h s first others rest : usable bug d tabs -> (2 <= length tabs)%nat -> (1 <= half)%nat -> (1 <= h)%nat ->
  (ld_pt d < sof_precision (ld_sof d))%nat -> (sof_precision (ld_sof d) <= 16)%nat ->
  ld_buffer d = leaf_data first others rest -> Forall is_byte (ld_buffer d) -> Forall (fun p => separator (fst p)) others -> S (length others) = ((h - 1) / 8 + 1)%nat ->
  leaf_picture (half_range d) (fun k i => diff_no bug [tab tabs 0; tab tabs 1] (byte_bits (leaf_strip first others k)) i) (2 * half) h s ->
  decode_leaf d (2 * half) h = Ok (samples s (2 * half) h).
Proof.
  intros HU HL Hw Hh HPT HPR EB HBY HS HN HP. unfold decode_leaf. rewrite EB in *. set (buf := leaf_data first others rest) in *.
  assert (LO : (length others < S (length buf))%nat).
  { unfold buf, leaf_data. rewrite !app_length. assert (le (length others) (length (flat_map (fun p : Z * list Z => 255 :: fst p :: escaped (snd p)) others))); [|lia].
    clear. induction others; cbn [length flat_map]; [lia|]. rewrite app_length. cbn [length]. lia. }
  pose proof (offsets_ok rest others [] first (S (length buf)) HS LO) as OF. cbn [app length] in OF. fold buf in OF. rewrite OF. cbn [bind].
  rewrite usub_ok by lia. cbn [bind]. cbn zeta. cbn [length]. rewrite starts_length, HN, Nat.eqb_refl. cbn [check bind].
  destruct (usable_tables bug d tabs HU 0 ltac:(lia)) as (t1 & T1 & B1 & A1). destruct (usable_tables bug d tabs HU 1 ltac:(lia)) as (t2 & T2 & B2 & A2).
  fold (tab tabs 0) in A1. fold (tab tabs 1) in A2. rewrite T1, T2. cbn [bind]. rewrite base_ok by auto. cbn [bind].
  replace (2 * half * 8 =? 0)%nat with false by lia. cbn [negb assert_ bind].
  assert (HB : 0 <= half_range d < 65536).
  { unfold half_range. assert (2 ^ Z.of_nat (sof_precision (ld_sof d) - ld_pt d - 1) <= 2 ^ 15) by (apply Z.pow_le_mono_r; lia). change (2 ^ 15) with 32768 in H. split; [apply Z.pow_nonneg; lia|lia]. }
  set (w := (2 * half)%nat) in *. set (F := fun j => s (j / w)%nat (j mod w)%nat).
  set (ns := ((h - 1) / 8 + 1)%nat) in *.
  assert (NS : (8 * (ns - 1) < h <= 8 * ns)%nat) by (unfold ns; pose proof (Nat.div_mod (h - 1) 8 ltac:(lia)); pose proof (Nat.mod_upper_bound (h - 1) 8 ltac:(lia)); lia).
  match goal with |- for_each _ ?f ?st = _ => destruct (for_each_seq_inv f (fun k out => filled F (w * h) (w * Nat.min (8 * k) h) out) 0 ns st) as (out & E & X) end.
  - split; [now rewrite repeat_length|]. cbn [Nat.mul Nat.min]. rewrite Nat.mul_0_r. lia.
  - intros k out Hk I. cbn beta.
    destruct (starts_data rest others [] first k ltac:(lia) HS) as (pre & rem & HR & ED & EL). cbn [app length] in ED, EL. fold buf in ED.
    assert (G : get (0%nat :: strip_starts 0 first others) k = Ok (length pre)) by (rewrite (get_ok _ _ 0%nat) by (cbn [length]; rewrite starts_length; lia); now rewrite EL).
    rewrite G. cbn [bind].
    assert (SL : slice buf (length pre) (length buf) = Ok (leaf_data (leaf_strip first others k) rem rest)).
    { rewrite slice_ok by (rewrite ED, app_length; lia). f_equal. rewrite ED, app_length. rewrite skipn_app, skipn_all, Nat.sub_diag. cbn [skipn app].
      replace (length pre + length (leaf_data (leaf_strip first others k) rem rest) - length pre)%nat with (length (leaf_data (leaf_strip first others k) rem rest)) by lia. apply firstn_all. }
    rewrite SL. cbn [bind].
    destruct (strip_ok bug t1 t2 (tab tabs 0) (tab tabs 1) B1 A1 B2 A2 (half_range d) HB half h Hw s _ HP k ltac:(lia) (byte_bits (leaf_strip first others k)) ltac:(reflexivity)
       (leaf_data (leaf_strip first others k) rem rest) out (Nat.min 8 (h - k * 8)) eq_refl) as (out' & EO & FO).
    + rewrite ED in HBY. now apply Forall_app in HBY.
    + now apply leaf_lone.
    + now apply leaf_bits.
    + fold w. fold F. replace (k * (w * 8))%nat with (w * Nat.min (8 * k) h)%nat by (rewrite Nat.min_l by lia; lia). exact I.
    + fold w in EO, FO. exists out'. split; [exact EO|]. fold F in FO. replace (w * Nat.min (8 * S k) h)%nat with (k * (w * 8) + Nat.min 8 (h - k * 8) * w)%nat; [exact FO|].
      destruct (Nat.le_gt_cases (8 * S k) h); [rewrite !Nat.min_l by lia; lia|]. rewrite !Nat.min_r by lia. rewrite Nat.mul_sub_distr_r. replace (k * (w * 8))%nat with (k * 8 * w)%nat by lia.
      assert (k * 8 * w <= h * w)%nat by (apply Nat.mul_le_mono_r; lia). lia.
  - rewrite E. f_equal. rewrite Nat.add_0_l, Nat.min_r in X by lia. apply filled_all in X. rewrite X. reflexivity.
Qed.

(** ** Row order *)
Lemma slice_row (s : nat -> nat -> Z) w h row i : (row < h)%nat -> (i < w)%nat ->
  exists line, slice (samples s w h) (row * w) ((row + 1) * w) = Ok line /\ length line = w /\ nth i line 0 = s row i.
Proof.
  intros Hr Hi. assert (B : ((row + 1) * w <= w * h)%nat) by (rewrite (Nat.mul_comm w); apply Nat.mul_le_mono_r; lia).
  assert (L : length (samples s w h) = (w * h)%nat) by (unfold samples; now rewrite map_length, seq_length).
  rewrite slice_ok by lia. eexists. split; [reflexivity|]. split.
  - rewrite firstn_length, skipn_length. lia.
  - rewrite nth_firstn by lia. rewrite nth_skipn. unfold samples. rewrite nth_map_seq by lia. destruct (div_mod_at w row i Hi) as [-> ->]. reflexivity.
Qed.
Definition target (h row : nat) : nat := if (row mod 2 =? 1)%nat then (h - 1 - row / 2)%nat else (row / 2)%nat.
Local Ltac Zify.zify_post_hook ::= Z.div_mod_to_equations.
Lemma target_ok h row : (row < h)%nat -> (target h row < h /\ interlaced_row h (target h row) = row)%nat.
Proof.
  intros H. unfold target, interlaced_row. destruct (Nat.eqb_spec (row mod 2) 1).
  - split; [lia|]. destruct (Nat.ltb_spec (h - 1 - row / 2) ((h + 1) / 2)); lia.
  - split; [lia|]. destruct (Nat.ltb_spec (row / 2) ((h + 1) / 2)); lia.
Qed.
Lemma target_back h r : (r < h)%nat -> (interlaced_row h r < h /\ target h (interlaced_row h r) = r)%nat.
Proof.
  intros H. unfold target, interlaced_row. destruct (Nat.ltb_spec r ((h + 1) / 2)).
  - destruct (Nat.eqb_spec ((2 * r) mod 2) 1); lia.
  - destruct (Nat.eqb_spec ((2 * (h - 1 - r) + 1) mod 2) 1); lia.
Qed.
Lemma target_res h row : (row < h)%nat -> (if (row mod 2 =? 1)%nat then do a <- usub h 1; usub a (row / 2) else Ok (row / 2)%nat) = Ok (target h row).
Proof.
  intros H. unfold target. destruct (Nat.eqb_spec (row mod 2) 1); [|reflexivity]. rewrite usub_ok by lia. cbn [bind]. rewrite usub_ok by lia. reflexivity.
Qed.
Local Ltac Zify.zify_post_hook ::= idtac.
Lemma leaf_rows_ok s w h : (1 <= w)%nat -> leaf_rows (samples s w h) w h = Ok (samples (fun r c => s (interlaced_row h r) c) w h).
Proof.
  intros Hw. unfold leaf_rows. assert (L : length (samples s w h) = (w * h)%nat) by (unfold samples; now rewrite map_length, seq_length).
  rewrite L, (Nat.mul_comm w h), Nat.div_mul by lia.
  set (I := fun n (out : list Z) => length out = (h * w)%nat /\ forall r c, (r < n)%nat -> (c < w)%nat -> nth (target h r * w + c) out 0 = s r c).
  match goal with |- for_each _ ?f ?st = _ => destruct (for_each_seq_inv f I 0 h st) as (out & E & X) end.
  - split; [apply repeat_length|intros; lia].
  - intros row out Hr [LO HO]. rewrite target_res by lia. cbn [bind].
    destruct (slice_row s w h row 0 ltac:(lia) ltac:(lia)) as (line & ES & LL & _). rewrite ES. cbn [bind].
    assert (LN : forall i, (i < w)%nat -> nth i line 0 = s row i).
    { intros i Hi. destruct (slice_row s w h row i ltac:(lia) Hi) as (line' & ES' & _ & N'). rewrite ES in ES'. injection ES' as <-. exact N'. }
    destruct (target_ok h row ltac:(lia)) as [TB TI].
    assert (TW : (target h row * w + w <= h * w)%nat) by (assert ((target h row + 1) * w <= h * w)%nat by (apply Nat.mul_le_mono_r; lia); lia).
    match goal with |- context [for_each _ ?f out] => destruct (for_each_seq_inv f (fun n (o : list Z) => length o = (h * w)%nat /\ (forall r c, (r < row)%nat -> (c < w)%nat -> nth (target h r * w + c) o 0 = s r c) /\ forall c, (c < n)%nat -> nth (target h row * w + c) o 0 = s row c) 0 w out) as (o2 & E2 & L2 & X2 & Y2) end.
    + repeat split; auto. intros; lia.
    + intros i o Hi (LO1 & P1 & P2). rewrite (get_ok _ _ 0) by lia. cbn [bind]. rewrite put_ok by lia. eexists. split; [reflexivity|]. repeat split.
      * now rewrite upd_list_length.
      * intros r c Hr1 Hc1. rewrite nth_upd_neq; [auto|]. intros EQ. pose proof (proj1 (rc_inj w (target h row) i (target h r) c ltac:(lia) Hc1 EQ)) as ET.
        assert (r = row)%nat; [|lia]. rewrite <- TI, ET. symmetry. apply target_ok; lia.
      * intros c Hc1. destruct (Nat.eq_dec c i) as [->|N]; [rewrite nth_upd_eq by lia; apply LN; lia|]. rewrite nth_upd_neq by lia. apply P2. lia.
    + exists o2. split; [exact E2|]. split; [exact L2|]. intros r c Hr1 Hc1. destruct (Nat.eq_dec r row) as [->|N]; [apply Y2; lia|]. apply X2; lia.
  - rewrite E. f_equal. destruct X as [LX X]. apply (nth_ext_len _ _ 0); [unfold samples; rewrite map_length, seq_length; lia|].
    intros i Hi. unfold samples. rewrite nth_map_seq by lia.
    assert (HR : (i / w < h)%nat) by (apply Nat.div_lt_upper_bound; lia). destruct (target_back h (i / w) HR) as [B T].
    rewrite <- (X _ (i mod w)%nat B) by (apply Nat.mod_upper_bound; lia). rewrite T. f_equal. pose proof (Nat.div_mod i w ltac:(lia)). lia.
Qed.
