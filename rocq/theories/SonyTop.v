(** Sony ARW2: round trip up to quantization; the curve. *)
From Coq Require Import List ZArith Lia Bool.
From Coq Require Import ZifyBool ZifyNat.
From Verif Require Import Base BaseLemmas Pumps PumpProofs PumpSeq HuffTree HuffCanon HuffBuild HuffDec Bits BitsSpec BitsProofs Crx CrxLL CrxImageSpec PefSpec NefSpec NefRows Sony SonySpec SonyArw2.
Import ListNotations.
Open Scope Z_scope.

(** ** Extremes *)
Lemma argmax (f : nat -> Z) l : l <> [] -> exists i, In i l /\ forall k, In k l -> f k <= f i.
Proof.
  induction l as [|a l IH]; intros H; [congruence|]. destruct l as [|b l].
  - exists a. split; [now left|]. intros k [->|[]]. lia.
  - destruct IH as (i & Hi & M); [discriminate|]. destruct (Z.le_gt_cases (f a) (f i)).
    + exists i. split; [now right|]. intros k [->|Hk]; auto.
    + exists a. split; [now left|]. intros k [->|Hk]; [lia|]. specialize (M k Hk). lia.
Qed.
Lemma first_index_spec P : (exists i, (i < 16)%nat /\ P i = true) -> (first_index P < 16)%nat /\ P (first_index P) = true.
Proof.
  intros (i & Hi & Pi). unfold first_index. destruct (find P (seq 0 16)) eqn:E.
  - apply find_some in E as [A B]. apply in_seq in A. split; auto. lia.
  - pose proof (find_none _ _ E i) as C. rewrite C in Pi; [discriminate|]. apply in_seq. lia.
Qed.
Lemma maxi_spec v : (maxi v < 16)%nat /\ forall k, (k < 16)%nat -> v k <= v (maxi v).
Proof.
  destruct (first_index_spec (fun i => forallb (fun k => v k <=? v i) (seq 0 16))) as [A B].
  - destruct (argmax v (seq 0 16)) as (i & Hi & M); [discriminate|]. exists i. apply in_seq in Hi. split; [lia|]. apply forallb_forall. intros k Hk. apply Z.leb_le. auto.
  - fold (maxi v) in *. split; auto. intros k Hk. rewrite forallb_forall in B. apply Z.leb_le. apply B. apply in_seq. lia.
Qed.
Lemma mini_spec v : (mini v < 16)%nat /\ mini v <> maxi v /\ forall k, (k < 16)%nat -> v (mini v) <= v k.
Proof.
  destruct (maxi_spec v) as [M1 M2].
  destruct (first_index_spec (fun i => negb (i =? maxi v)%nat && forallb (fun k => (k =? maxi v)%nat || (v i <=? v k)) (seq 0 16))) as [A B].
  - destruct (argmax (fun k => - v k) (filter (fun k => negb (k =? maxi v)%nat) (seq 0 16))) as (i & Hi & M).
    + intros E. assert (X : In (if (maxi v =? 0)%nat then 1%nat else 0%nat) (filter (fun k => negb (k =? maxi v)%nat) (seq 0 16))).
      { apply filter_In. destruct (Nat.eqb_spec (maxi v) 0); (split; [apply in_seq; lia|]); lia. }
      rewrite E in X. destruct X.
    + apply filter_In in Hi as [Hi Hn]. apply in_seq in Hi. exists i. split; [lia|]. rewrite Hn. cbn [andb]. apply forallb_forall. intros k Hk.
      destruct (Nat.eqb_spec k (maxi v)); [reflexivity|]. cbn [orb]. apply Z.leb_le. specialize (M k). cbv beta in M.
      assert (In k (filter (fun k => negb (k =? maxi v)%nat) (seq 0 16))) by (apply filter_In; split; auto; lia). specialize (M H). lia.
  - fold (mini v) in *. apply andb_prop in B as [B1 B2]. split; [auto|]. split; [lia|]. intros k Hk.
    rewrite forallb_forall in B2. specialize (B2 k ltac:(apply in_seq; lia)).
    destruct (Nat.eqb_spec k (maxi v)) as [EK|N]; [|cbn [orb] in B2; lia]. rewrite EK. apply M2. auto.
Qed.
Lemma excess_spec d : 0 <= d -> 0 <= excess d /\ d < 128 * 2 ^ excess d /\ (excess d = 0 \/ 64 * 2 ^ excess d <= d).
Proof.
  intros H. unfold excess. destruct (Z.eqb_spec d 0); [change (2 ^ 0) with 1; lia|]. pose proof (Z.log2_spec d ltac:(lia)) as [A B].
  split; [lia|]. destruct (Z.le_gt_cases (Z.log2 d + 1) 7) as [L|L].
  - rewrite Z.max_l by lia. change (2 ^ 0) with 1. split; [|lia].
    assert (2 ^ Z.succ (Z.log2 d) <= 2 ^ 7) by (apply Z.pow_le_mono_r; lia). change (2 ^ 7) with 128 in *. lia.
  - rewrite Z.max_r by lia. change 128 with (2 ^ 7). change 64 with (2 ^ 6). rewrite <- !Z.pow_add_r by lia.
    replace (7 + (Z.log2 d + 1 - 7)) with (Z.succ (Z.log2 d)) by lia. replace (6 + (Z.log2 d + 1 - 7)) with (Z.log2 d) by lia. lia.
Qed.
Lemma quotient_range v i : (i < 16)%nat -> 0 <= quotient v i < 128 /\ 0 <= v i - (v (mini v) + quotient v i * 2 ^ excess (range v)) < 2 ^ excess (range v).
Proof.
  intros Hi. destruct (maxi_spec v) as [M1 M2]. destruct (mini_spec v) as (N1 & N2 & N3). pose proof (M2 i Hi). pose proof (N3 i Hi). pose proof (N3 _ M1).
  destruct (excess_spec (range v)) as (E1 & E2 & _); [unfold range; lia|]. unfold quotient.
  assert (P : 0 < 2 ^ excess (range v)) by (apply Z.pow_pos_nonneg; lia).
  pose proof (Z.div_mod (v i - v (mini v)) (2 ^ excess (range v)) ltac:(lia)) as D. pose proof (Z.mod_pos_bound (v i - v (mini v)) (2 ^ excess (range v)) P) as MB.
  set (q := (v i - v (mini v)) / 2 ^ excess (range v)) in *. unfold range in *. split; [|lia]. split; [nia|]. nia.
Qed.
Theorem quantized_close v i lo hi : (i < 16)%nat -> (forall k, (k < 16)%nat -> lo <= v k <= hi) ->
  0 <= v i - quantized v i /\ (quantized v i = v i \/ 64 * (v i - quantized v i) < hi - lo).
Proof.
  intros Hi HB. destruct (maxi_spec v) as [M1 M2]. destruct (mini_spec v) as (N1 & N2 & N3). unfold quantized.
  destruct ((i =? maxi v)%nat || (i =? mini v)%nat); [lia|]. destruct (quotient_range v i Hi) as [Q1 Q2]. split; [lia|].
  destruct (excess_spec (range v)) as (E1 & E2 & [E3|E3]); [unfold range; specialize (N3 _ M1); lia| |].
  - left. rewrite E3 in *. change (2 ^ 0) with 1 in *. lia.
  - right. pose proof (HB _ M1). pose proof (HB _ N1). unfold range in *. lia.
Qed.

(** ** Bit fields *)
Definition lef (fs : list (nat * Z)) (rest : Z) : Z := fold_right (fun '(n, x) r => x + 2 ^ Z.of_nat n * r) rest fs.
Definition widths (fs : list (nat * Z)) : nat := fold_right (fun f n => (fst f + n)%nat) 0%nat fs.
Definition fits (fs : list (nat * Z)) : Prop := Forall (fun f => 0 <= snd f < 2 ^ Z.of_nat (fst f)) fs.
Lemma lef_split fs rest : lef fs rest = le_fields fs + 2 ^ Z.of_nat (widths fs) * rest.
Proof.
  induction fs as [|[n x] fs IH]; [cbn [lef fold_right le_fields widths]; change (2 ^ Z.of_nat 0) with 1; lia|].
  change (lef ((n, x) :: fs) rest) with (x + 2 ^ Z.of_nat n * lef fs rest). change (le_fields ((n, x) :: fs)) with (x + 2 ^ Z.of_nat n * le_fields fs).
  change (widths ((n, x) :: fs)) with (n + widths fs)%nat. rewrite IH, Nat2Z.inj_add, Z.pow_add_r by lia. lia.
Qed.
Lemma lef_range fs : fits fs -> 0 <= le_fields fs < 2 ^ Z.of_nat (widths fs).
Proof.
  induction 1 as [|[n x] fs H F IH]; [cbn; lia|]. change (le_fields ((n, x) :: fs)) with (x + 2 ^ Z.of_nat n * le_fields fs).
  change (widths ((n, x) :: fs)) with (n + widths fs)%nat. cbn [fst snd] in H. rewrite Nat2Z.inj_add, Z.pow_add_r by lia. nia.
Qed.
Lemma lef_div fs gs rest : fits fs -> lef (fs ++ gs) rest / 2 ^ Z.of_nat (widths fs) = lef gs rest.
Proof.
  intros H. assert (E : lef (fs ++ gs) rest = lef fs (lef gs rest)) by (unfold lef; apply fold_right_app).
  rewrite E, lef_split. pose proof (lef_range fs H). rewrite Z.mul_comm, Z.div_add by lia. rewrite Z.div_small by auto. lia.
Qed.
Lemma lef_field fs n x gs rest : fits fs -> 0 <= x < 2 ^ Z.of_nat n -> bits_at (widths fs) n (lef (fs ++ (n, x) :: gs) rest) = x.
Proof.
  intros H Hx. unfold bits_at. rewrite lef_div by auto. change (lef ((n, x) :: gs) rest) with (x + 2 ^ Z.of_nat n * lef gs rest).
  rewrite Z.mul_comm, Z_mod_plus_full. apply Z.mod_small. auto.
Qed.
Lemma widths_app fs gs : widths (fs ++ gs) = (widths fs + widths gs)%nat.
Proof. induction fs as [|f fs IH]; [reflexivity|]. cbn [app widths fold_right]. fold (widths (fs ++ gs)) (widths fs). rewrite IH. lia. Qed.
Lemma widths_sevens {A} (f : A -> Z) l : widths (map (fun i => (7%nat, f i)) l) = (7 * length l)%nat.
Proof. induction l as [|a l IH]; [reflexivity|]. cbn [map widths fold_right fst length]. fold (widths (map (fun i => (7%nat, f i)) l)). rewrite IH. lia. Qed.

(** ** A stored block *)
Lemma others_split a b i : (i < 16)%nat -> i <> a -> i <> b -> exists t, others a b 16 = others a b i ++ i :: t.
Proof.
  intros H A B. unfold others. assert (E : seq 0 16 = seq 0 i ++ i :: seq (S i) (15 - i)).
  { replace 16%nat with (i + S (15 - i))%nat by lia. rewrite seq_app. cbn [plus seq]. replace (i + S (15 - i) - i - 1)%nat with (15 - i)%nat by lia. reflexivity. }
  rewrite E, filter_app. cbn [filter].
  replace (i =? a)%nat with false by lia. replace (i =? b)%nat with false by lia. cbn [negb andb]. eauto.
Qed.
Lemma others_count a b n : (a < 16)%nat -> (b < 16)%nat -> a <> b -> (n <= 16)%nat ->
  (length (others a b n) + (if a <? n then 1 else 0) + (if b <? n then 1 else 0) = n)%nat.
Proof.
  intros Ha Hb N. induction n; intros Hn; [reflexivity|]. rewrite others_S. specialize (IHn ltac:(lia)).
  destruct (Nat.eqb_spec n a), (Nat.eqb_spec n b), (Nat.ltb_spec a n), (Nat.ltb_spec b n), (Nat.ltb_spec a (S n)), (Nat.ltb_spec b (S n)); cbn [orb] in *; lia.
Qed.
  Lemma others_lt a b n i : In i (others a b n) -> (i < n)%nat.
  Proof. intros H. apply filter_In in H as [H _]. apply in_seq in H. lia. Qed.
Lemma p11 : 2 ^ Z.of_nat 11 = 2048. Proof. reflexivity. Qed.
Section Block.
  Variables (v : nat -> Z) (R : Z).
  Hypothesis HV : forall k, (k < 16)%nat -> 0 <= v k < 2048.
  Definition head_fields : list (nat * Z) := [(11%nat, v (maxi v)); (11%nat, v (mini v)); (4%nat, Z.of_nat (maxi v)); (4%nat, Z.of_nat (mini v))].
  Definition tail_fields (l : list nat) : list (nat * Z) := map (fun i => (7%nat, quotient v i)) l.
  Lemma head_fits : fits head_fields.
  Proof.
    destruct (maxi_spec v) as [M1 M2]. destruct (mini_spec v) as (N1 & N2 & N3). pose proof (HV _ M1). pose proof (HV _ N1).
    unfold fits, head_fields. repeat (apply Forall_cons); try apply Forall_nil; cbn [fst snd]; change (2 ^ Z.of_nat 11) with 2048; change (2 ^ Z.of_nat 4) with 16; lia.
  Qed.
  Lemma tail_fits l : (forall i, In i l -> (i < 16)%nat) -> fits (tail_fields l).
  Proof.
    intros H. unfold fits, tail_fields. apply Forall_forall. intros f Hf. apply in_map_iff in Hf as (i & <- & Hi). cbn [fst snd]. apply quotient_range. auto.
  Qed.
  Lemma count16 : length (others (maxi v) (mini v) 16) = 14%nat.
  Proof.
    destruct (maxi_spec v) as [M1 M2]. destruct (mini_spec v) as (N1 & N2 & N3). pose proof (others_count (maxi v) (mini v) 16 M1 N1 ltac:(congruence) ltac:(lia)).
    replace (maxi v <? 16)%nat with true in H by lia. replace (mini v <? 16)%nat with true in H by lia. lia.
  Qed.
  Local Notation V := (block_int v + 2 ^ 128 * R).
  Lemma V_lef : V = lef (head_fields ++ tail_fields (others (maxi v) (mini v) 16)) R.
  Proof.
    rewrite lef_split. assert (EW : Z.of_nat (widths (head_fields ++ tail_fields (others (maxi v) (mini v) 16))) = 128).
    { rewrite widths_app. unfold tail_fields. rewrite widths_sevens, count16. reflexivity. }
    rewrite EW. unfold block_int, head_fields, tail_fields. reflexivity.
  Qed.
  Lemma V_max : block_max V = v (maxi v).
  Proof.
    unfold block_max. rewrite V_lef. pose proof (HV _ (proj1 (maxi_spec v))).
    pose proof (lef_field [] 11 (v (maxi v)) ([(11%nat, v (mini v)); (4%nat, Z.of_nat (maxi v)); (4%nat, Z.of_nat (mini v))] ++ tail_fields (others (maxi v) (mini v) 16)) R) as E.
    change (widths []) with 0%nat in E. unfold head_fields. cbn [app] in E |- *. rewrite E; [reflexivity|constructor|rewrite p11; exact H].
  Qed.
  Lemma V_min : block_min V = v (mini v).
  Proof.
    unfold block_min. rewrite V_lef. pose proof (HV _ (proj1 (mini_spec v))). pose proof head_fits as F. inversion F as [|? ? A F2]; subst.
    pose proof (lef_field [(11%nat, v (maxi v))] 11 (v (mini v)) ([(4%nat, Z.of_nat (maxi v)); (4%nat, Z.of_nat (mini v))] ++ tail_fields (others (maxi v) (mini v) 16)) R) as E.
    change (widths [(11%nat, v (maxi v))]) with 11%nat in E. unfold head_fields. cbn [app] in E |- *. rewrite E; [reflexivity| |rewrite p11; exact H].
    apply Forall_cons; [assumption|]. constructor.
  Qed.
  Lemma V_imax : block_imax V = maxi v.
  Proof.
    unfold block_imax. rewrite V_lef. pose proof head_fits as F. inversion F as [|? ? A F2]; subst. inversion F2 as [|? ? B F3]; subst. inversion F3 as [|? ? C F4]; subst.
    pose proof (lef_field [(11%nat, v (maxi v)); (11%nat, v (mini v))] 4 (Z.of_nat (maxi v)) ((4%nat, Z.of_nat (mini v)) :: tail_fields (others (maxi v) (mini v) 16)) R) as E.
    cbn [app] in E. change (widths [(11%nat, v (maxi v)); (11%nat, v (mini v))]) with 22%nat in E. unfold head_fields. cbn [app]. rewrite E; [lia| |exact C].
    repeat (apply Forall_cons; [assumption|]). constructor.
  Qed.
  Lemma V_imin : block_imin V = mini v.
  Proof.
    unfold block_imin. rewrite V_lef. pose proof head_fits as F. inversion F as [|? ? A F2]; subst. inversion F2 as [|? ? B F3]; subst. inversion F3 as [|? ? C F4]; subst. inversion F4 as [|? ? D F5]; subst.
    pose proof (lef_field [(11%nat, v (maxi v)); (11%nat, v (mini v)); (4%nat, Z.of_nat (maxi v))] 4 (Z.of_nat (mini v)) (tail_fields (others (maxi v) (mini v) 16)) R) as E.
    cbn [app] in E. change (widths [(11%nat, v (maxi v)); (11%nat, v (mini v)); (4%nat, Z.of_nat (maxi v))]) with 26%nat in E. unfold head_fields. cbn [app]. rewrite E; [lia| |exact D].
    repeat (apply Forall_cons; [assumption|]). constructor.
  Qed.
  Lemma V_bits : block_bits V = 128%nat.
  Proof. unfold block_bits. rewrite V_imax, V_imin, count16. reflexivity. Qed.
  Lemma V_value i : (i < 16)%nat -> block_value V i = quantized v i.
  Proof.
    intros Hi. unfold block_value, quantized. rewrite V_imax, V_imin, V_max, V_min.
    destruct (Nat.eqb_spec i (maxi v)) as [->|N1]; [reflexivity|]. destruct (Nat.eqb_spec i (mini v)) as [->|N2]; [reflexivity|]. cbn [orb].
    destruct (others_split (maxi v) (mini v) i Hi N1 N2) as (t & ET). destruct (quotient_range v i Hi) as [Q1 Q2].
    assert (EB : bits_at (30 + 7 * length (others (maxi v) (mini v) i)) 7 V = quotient v i).
    { rewrite V_lef, ET. unfold tail_fields. rewrite map_app, app_assoc. cbn [map].
      replace (30 + 7 * length (others (maxi v) (mini v) i))%nat with (widths (head_fields ++ tail_fields (others (maxi v) (mini v) i)))
        by (rewrite widths_app; unfold tail_fields; rewrite widths_sevens; reflexivity).
      apply lef_field; [|exact Q1]. apply Forall_app. split; [apply head_fits|]. apply tail_fits. intros k Hk. apply others_lt in Hk. lia. }
    rewrite EB. fold (range v). specialize (HV i Hi). lia.
  Qed.
End Block.
Lemma block_int_fields v : block_int v = le_fields (head_fields v ++ tail_fields v (others (maxi v) (mini v) 16)).
Proof. unfold block_int, head_fields, tail_fields. reflexivity. Qed.
Lemma fields_width v : Z.of_nat (widths (head_fields v ++ tail_fields v (others (maxi v) (mini v) 16))) = 128.
Proof. rewrite widths_app. unfold tail_fields. rewrite widths_sevens, count16. reflexivity. Qed.
Lemma block_int_range v : (forall k, (k < 16)%nat -> 0 <= v k < 2048) -> 0 <= block_int v < 2 ^ 128.
Proof.
  intros H. rewrite block_int_fields. rewrite <- (fields_width v). apply lef_range. apply Forall_app. split; [now apply head_fits|].
  apply tail_fits. intros i Hi. now apply others_lt in Hi.
Qed.

(** ** Stored rows *)
Lemma le_bytes_length n V : length (le_bytes n V) = n.
Proof. unfold le_bytes. now rewrite map_length, seq_length. Qed.
Lemma le_bytes_byte n V : Forall is_byte (le_bytes n V).
Proof. apply Forall_forall. intros x Hx. apply in_map_iff in Hx as (i & <- & _). unfold is_byte. apply (bits_at_range (8 * i) 8 V). Qed.
Lemma le_value_app a b : le_value (a ++ b) = le_value a + 2 ^ Z.of_nat (8 * length a) * le_value b.
Proof.
  induction a as [|x a IH]; [cbn [app le_value length]; change (2 ^ Z.of_nat (8 * 0)) with 1; lia|].
  cbn [app le_value length]. rewrite IH. replace (8 * S (length a))%nat with (8 + 8 * length a)%nat by lia. rewrite Nat2Z.inj_add, Z.pow_add_r by lia.
  change (2 ^ Z.of_nat 8) with 256. lia.
Qed.
Lemma le_value_bytes n V : le_value (le_bytes n V) = V mod 2 ^ Z.of_nat (8 * n).
Proof.
  induction n; [cbn; now rewrite Z.mod_1_r|]. unfold le_bytes in *. rewrite seq_S, map_app, le_value_app, IHn, map_length, seq_length. cbn [plus map le_value].
  rewrite Z.mul_0_r, Z.add_0_r. unfold bits_at. replace (8 * S n)%nat with (8 * n + 8)%nat by lia. rewrite Nat2Z.inj_add, Z.pow_add_r by lia.
  rewrite Z.rem_mul_r by (try apply Z.pow_nonzero; try apply Z.pow_pos_nonneg; lia). reflexivity.
Qed.
Lemma le_value_nonneg l : Forall is_byte l -> 0 <= le_value l.
Proof. induction 1 as [|x l H F IH]; cbn [le_value]; unfold is_byte in *; lia. Qed.
(** blocks one after the other *)
Section Stored.
  Variables (v : nat -> nat -> Z) (rest : list Z) (n : nat).
  Hypothesis HV : forall m k, (m < n)%nat -> (k < 16)%nat -> 0 <= v m k < 2048.
  Hypothesis HR : Forall is_byte rest.
  Definition from (m : nat) : list Z := flat_map (fun m => le_bytes 16 (block_int (v m))) (seq m (n - m)) ++ rest.
  Lemma from_step m : (m < n)%nat -> le_value (from m) = block_int (v m) + 2 ^ 128 * le_value (from (S m)).
  Proof.
    intros Hm. unfold from. replace (n - m)%nat with (S (n - S m)) by lia. cbn [seq flat_map]. rewrite <- app_assoc, le_value_app, le_bytes_length, le_value_bytes.
    change (Z.of_nat (8 * 16)) with 128. rewrite Z.mod_small by (apply block_int_range; auto). reflexivity.
  Qed.
  Lemma from_nth m : (m <= n)%nat -> from_block (le_value (from 0)) m = le_value (from m) /\ block_start (le_value (from 0)) m = (128 * m)%nat.
  Proof.
    induction m; intros Hm; [auto|]. destruct IHm as [E1 E2]; [lia|]. cbn [from_block block_start]. rewrite E1, E2, (from_step m) by lia.
    rewrite V_bits by (intros; apply HV; lia). split; [|lia]. change (Z.of_nat 128) with 128. pose proof (block_int_range (v m)) as B.
    rewrite Z.mul_comm, Z.div_add by lia. rewrite Z.div_small by (apply B; intros; apply HV; lia). lia.
  Qed.
  Lemma from_length m : length (from m) = (16 * (n - m) + length rest)%nat.
  Proof.
    clear HV HR. unfold from. rewrite app_length. f_equal. generalize (n - m)%nat as k. intros k. revert m. induction k; intros m; [reflexivity|].
    cbn [seq flat_map]. rewrite app_length, le_bytes_length, IHk. lia.
  Qed.
  Lemma from_value m i : (m < n)%nat -> (i < 16)%nat -> block_value (from_block (le_value (from 0)) m) i = quantized (v m) i.
  Proof. intros Hm Hi. destruct (from_nth m ltac:(lia)) as [-> _]. rewrite from_step by auto. apply V_value; auto. Qed.
  Lemma from_order m : (m < n)%nat -> block_min (from_block (le_value (from 0)) m) <= block_max (from_block (le_value (from 0)) m).
  Proof.
    intros Hm. destruct (from_nth m ltac:(lia)) as [-> _]. rewrite from_step by auto. rewrite V_max, V_min by auto.
    apply (proj2 (maxi_spec (v m))). apply (proj1 (mini_spec (v m))).
  Qed.
  Lemma from_seed : (0 < n)%nat -> le_value (from 0) mod 65536 = block_int (v 0%nat) mod 65536.
  Proof.
    intros H. rewrite from_step by auto. replace (2 ^ 128) with (2 ^ 112 * 65536) by reflexivity.
    replace (2 ^ 112 * 65536 * le_value (from 1)) with (2 ^ 112 * le_value (from 1) * 65536) by lia. apply Z_mod_plus_full.
  Qed.
End Stored.

Lemma encode_bytes s w h : Forall is_byte (arw2_encode s w h).
Proof.
  unfold arw2_encode. apply Forall_flat_map, Forall_forall. intros r _. apply Forall_flat_map, Forall_forall. intros m _. apply le_bytes_byte.
Qed.
Lemma skip_rows (g : nat -> list Z) w h tail r : (forall r, length (g r) = w) -> (r <= h)%nat ->
  skipn (r * w) (flat_map g (seq 0 h) ++ tail) = flat_map g (seq r (h - r)) ++ tail.
Proof.
  intros L. induction r; intros Hr; [rewrite Nat.sub_0_r; reflexivity|].
  replace (S r * w)%nat with (r * w + w)%nat by lia. rewrite <- skipn_skipn, IHr by lia.
  replace (h - r)%nat with (S (h - S r)) by lia. cbn [seq flat_map]. rewrite <- app_assoc, skipn_app, (L r), Nat.sub_diag. cbn [skipn].
  rewrite skipn_all2 by (rewrite L; lia). reflexivity.
Qed.
Local Ltac Zify.zify_post_hook ::= Z.div_mod_to_equations.
Lemma blocks32 w : (w mod 32 = 0)%nat -> (w / 16 = 2 * (w / 32))%nat /\ (32 * (w / 32) = w)%nat /\ (16 * (w / 16) = w)%nat.
Proof. lia. Qed.
Lemma block_no_lt c n : (c < 32 * n)%nat -> (block_no c < 2 * n)%nat /\ (block_ix c < 16)%nat.
Proof. unfold block_no, block_ix. lia. Qed.
Lemma block_col c : (32 * (block_no c / 2) + block_no c mod 2 + 2 * block_ix c = c)%nat.
Proof. unfold block_no, block_ix. lia. Qed.
Lemma block_of_lt m k n : (m < 2 * n)%nat -> (k < 16)%nat -> (32 * (m / 2) + m mod 2 + 2 * k < 32 * n)%nat.
Proof. lia. Qed.
Local Ltac Zify.zify_post_hook ::= idtac.
(** a block has the samples it should *)
Lemma block_of_sample s r c : block_of s r (block_no c) (block_ix c) = s r c.
Proof. unfold block_of. now rewrite block_col. Qed.

Theorem arw2_roundtrip curve lut s w h tail : lut_ok curve -> lut_new curve = Ok lut -> 4094 < Z.of_nat (length curve) -> Forall is_byte tail ->
  (0 < w)%nat -> (w mod 32 = 0)%nat -> (forall r c, (r < h)%nat -> (c < w)%nat -> 0 <= s r c < 2048) ->
  arw2_decode lut (arw2_encode s w h ++ tail) w h =
    Ok (flat_map (fun r => map (fun c => dithered curve (Z.to_nat (2 * quantized (block_of s r (block_no c)) (block_ix c)))
      (noise (row_seed s r) (16 * block_no c + block_ix c))) (seq 0 w)) (seq 0 h)).
Proof.
  intros HC HL HN HT Hw H32 HS. destruct (blocks32 w H32) as (B1 & B2 & B3). assert (HB : Forall is_byte (arw2_encode s w h ++ tail)) by (apply Forall_app; split; [apply encode_bytes|auto]).
  set (g := fun r => flat_map (fun n => le_bytes 16 (block_int (block_of s r n))) (seq 0 (w / 16))).
  assert (GL : forall r, length (g r) = w).
  { intros r. unfold g. rewrite (flat_map_seq_length _ _ 16); [lia|]. intros; apply le_bytes_length. }
  assert (ER : forall r, (r < h)%nat -> exists rest, Forall is_byte rest /\ row_data (arw2_encode s w h ++ tail) w r = from (block_of s r) rest (w / 16) 0).
  { intros r Hr. exists (flat_map g (seq (S r) (h - S r)) ++ tail). split.
    - apply Forall_app. split; auto. apply Forall_flat_map, Forall_forall. intros x _. apply Forall_flat_map, Forall_forall. intros y _. apply le_bytes_byte.
    - unfold row_data, arw2_encode. fold g. rewrite (skip_rows g w h tail r GL) by lia. replace (h - r)%nat with (S (h - S r)) by lia. cbn [seq flat_map].
      unfold from. rewrite Nat.sub_0_r. fold (g r). now rewrite <- app_assoc. }
  assert (HV : forall r, (r < h)%nat -> forall m k, (m < w / 16)%nat -> (k < 16)%nat -> 0 <= block_of s r m k < 2048).
  { intros r Hr m k Hm Hk. apply HS; [exact Hr|]. rewrite <- B2. apply block_of_lt; [lia|exact Hk]. }
  rewrite (arw2_any curve); auto.
  - f_equal. rewrite !flat_map_concat_map. f_equal. apply map_ext_in. intros r Hr. apply in_seq in Hr. unfold arw2_line. apply map_ext_in. intros c Hc. apply in_seq in Hc.
    destruct (ER r ltac:(lia)) as (rest & RB & ->). rewrite B2. replace (c <? w)%nat with true by lia.
    destruct (block_no_lt c (w / 32)) as [K1 K2]; [lia|]. unfold row_value. rewrite (from_value (block_of s r) rest (w / 16) (HV r ltac:(lia))) by lia.
    rewrite (from_seed (block_of s r) rest (w / 16) (HV r ltac:(lia))) by lia. reflexivity.
  - intros r Hr. destruct (ER r Hr) as (rest & RB & ->). unfold row_fits. rewrite <- B1. rewrite from_length.
    destruct (from_nth (block_of s r) rest (w / 16) (HV r Hr) (w / 16) ltac:(lia)) as [_ ->]. split; [lia|]. split; [lia|]. intros k Hk. apply (from_order (block_of s r) rest (w / 16) (HV r Hr)); auto.
Qed.

(** ** Blocks whose extremes are in the wrong order *)
Theorem arw2_crossed lut buf w h : Forall is_byte buf -> (3 <= length buf)%nat -> (32 <= w)%nat -> (0 < h)%nat ->
  block_max (le_value buf) < block_min (le_value buf) -> arw2_decode lut buf w h = Panic.
Proof.
  intros HB HL Hw Hh HM. unfold arw2_decode, assert_. replace (0 <? w)%nat with true by lia. cbn [bind]. destruct h as [|h]; [lia|]. cbn [seq for_each].
  unfold arw2_row. cbn [Nat.mul]. rewrite slice_ok by lia. cbn [bind skipn]. rewrite Nat.sub_0_r, firstn_all.
  pose proof (lsb_new buf (8 * length buf) HB ltac:(lia)) as R0. rewrite <- le_value_val in R0. set (V := le_value buf) in *.
  destruct (lsb_peek_spec _ _ _ 16 R0 ltac:(lia) ltac:(lia)) as (p1 & E1 & R1 & _). rewrite E1. cbn [bind].
  assert (W : exists k, (w / 32)%nat = S k). { exists (w / 32 - 1)%nat. assert (1 <= w / 32)%nat by (apply Nat.div_le_lower_bound; lia). lia. }
  destruct W as (k & ->). cbn [seq for_each]. unfold arw2_block at 1.
  destruct (lsb_get _ _ _ 11 R1 ltac:(lia) ltac:(lia)) as (p2 & E2 & R2). rewrite E2. cbn [bind].
  destruct (lsb_get _ _ _ 11 R2 ltac:(lia) ltac:(lia)) as (p3 & E3 & R3). rewrite E3. cbn [bind].
  assert (X1 : V mod 2 ^ Z.of_nat 11 = block_max V) by (unfold block_max, bits_at; change (2 ^ Z.of_nat 0) with 1; now rewrite Z.div_1_r).
  assert (X2 : V / 2 ^ Z.of_nat 11 mod 2 ^ Z.of_nat 11 = block_min V) by reflexivity. rewrite X1, X2.
  unfold u32. replace ((0 <=? block_max V - block_min V) && (block_max V - block_min V <? 2 ^ 32)) with false by lia. reflexivity.
Qed.

(** ** Curve *)
Lemma knot_land v : 0 <= v -> Z.land (Z.shiftr v 2) 4095 = knot_of v.
Proof. intros H. unfold knot_of. rewrite Z.shiftr_div_pow2 by lia. change 4095 with (Z.ones 12). rewrite Z.land_ones by lia. reflexivity. Qed.
Lemma knot_range v : 0 <= knot_of v < 4096.
Proof. apply Z.mod_pos_bound. lia. Qed.
Section Curve.
  Variables c1 c2 c3 c4 : Z.
  Hypothesis H1 : 0 <= c1.
  Hypothesis H12 : c1 <= c2.
  Hypothesis H23 : c2 <= c3.
  Hypothesis H34 : c3 <= c4.
  Hypothesis H4 : c4 <= 4095.
  Local Notation sv := (sony_value c1 c2 c3 c4).
  Definition knot (i : nat) : Z := nth i [0; c1; c2; c3; c4; 4095] 0.
  Lemma sv_step i j : (i < 5)%nat -> knot i < j <= knot (S i) -> sv j = sv (j - 1) + 2 ^ Z.of_nat i.
  Proof.
    intros Hi Hj. unfold knot in Hj. destruct i as [|[|[|[|[|i]]]]]; [| | | | |lia]; cbn [nth] in Hj; unfold sony_value;
      [change (2 ^ Z.of_nat 0) with 1|change (2 ^ Z.of_nat 1) with 2|change (2 ^ Z.of_nat 2) with 4|change (2 ^ Z.of_nat 3) with 8|change (2 ^ Z.of_nat 4) with 16]; lia.
  Qed.
  Lemma sv_range j : 0 <= j <= 4095 -> 0 <= sv j <= 65520.
  Proof. unfold sony_value. lia. Qed.
  Lemma knot_mono i : (i < 5)%nat -> 0 <= knot i <= knot (S i) /\ knot (S i) <= 4095.
  Proof. intros Hi. unfold knot. destruct i as [|[|[|[|[|i]]]]]; [| | | | |lia]; cbn [nth]; lia. Qed.
  Lemma points_ok : sony_points (map (fun i => Z.to_nat (knot i)) (seq 0 6)) = Ok (map (fun j => sv (Z.of_nat j)) (seq 0 (Z.to_nat 4096))).
  Proof.
    unfold sony_points. rewrite (get_ok _ _ 0%nat) by (rewrite map_length, seq_length; lia). cbn [bind].
    rewrite (nth_map_seq (fun i => Z.to_nat (knot i))) by lia. change (0 + 5)%nat with 5%nat. change (knot 5) with 4095.
    set (N := Z.to_nat 4096). assert (EN : (Z.to_nat 4095 + 1)%nat = N) by (unfold N; lia). rewrite EN. assert (HN : Z.of_nat N = 4096) by (unfold N; lia). clearbody N. clear EN.
    match goal with |- for_each (seq 0 5) ?f ?s = _ =>
      destruct (for_each_seq_inv f (fun i out => length out = N /\ forall j, 0 <= j <= knot i -> nth (Z.to_nat j) out 0 = sv j) 0 5 s) as (out & E & L & V) end.
    - split; [apply repeat_length|]. intros j Hj. change (knot 0) with 0 in Hj. replace j with 0 by lia. rewrite nth_repeat_lt by lia. unfold sony_value. lia.
    - intros i out Hi (L & V). assert (Hi5 : (i < 5)%nat) by lia. destruct (knot_mono i Hi5) as (K1 & K2).
      rewrite !(get_ok _ _ 0%nat) by (rewrite map_length, seq_length; lia). cbn [bind]. rewrite (nth_map_seq (fun i => Z.to_nat (knot i))) by lia.
      rewrite (nth_map_seq (fun i => Z.to_nat (knot i))) by lia. cbn [plus]. replace (i + 1)%nat with (S i) by lia. clear Hi.
      match goal with |- context [for_each (seq ?a ?n) ?f ?s] =>
        destruct (for_each_seq_inv f (fun m out => length out = N /\ forall j, 0 <= j < Z.of_nat m -> nth (Z.to_nat j) out 0 = sv j) a n s) as (o2 & E2 & L2 & V2) end.
      + split; auto. intros j Hj. apply V. lia.
      + intros m o Hm (L' & V'). rewrite (get_ok _ _ 0) by lia. cbn [bind]. replace (m - 1)%nat with (Z.to_nat (Z.of_nat m - 1)) by lia. rewrite V' by lia.
        pose proof (sv_step i (Z.of_nat m) Hi5 ltac:(lia)) as SS. pose proof (sv_range (Z.of_nat m) ltac:(lia)). unfold add16. rewrite <- SS. change (2 ^ 16) with 65536.
        replace (sv (Z.of_nat m) <? 65536) with true by lia. cbn [bind]. rewrite put_ok by lia.
        eexists. split; [reflexivity|]. split; [now rewrite upd_list_length|]. intros j Hj. destruct (Z.eq_dec j (Z.of_nat m)) as [->|NE].
        * rewrite Nat2Z.id, nth_upd_eq by lia. reflexivity.
        * rewrite nth_upd_neq by lia. apply V'. lia.
      + rewrite E2. eexists. split; [reflexivity|]. split; auto. intros j Hj. apply V2. lia.
    - rewrite E. f_equal. apply (nth_ext_len _ _ 0); [rewrite L, map_length, seq_length; reflexivity|]. intros k Hk. rewrite nth_map_seq by lia. cbn [plus].
      rewrite <- (V (Z.of_nat k)), Nat2Z.id; [reflexivity|]. change (knot (0 + 5)) with 4095. lia.
  Qed.
End Curve.

Local Ltac Zify.zify_post_hook ::= Z.div_mod_to_equations.
Lemma entry_arith x lo up : 0 <= lo <= x -> x <= up <= 65520 -> up - lo <= 32 -> (x = 0 \/ (up - lo + 2) / 4 <= x) ->
  0 <= up - lo < 65534 /\ (x <> 0 -> (up - lo + 2) / 4 <= x) /\ x - (up - lo + 2) / 4 + ((up - lo) * 2047 + 1024) / 4096 < 65536.
Proof. lia. Qed.
Lemma sv_entry c1 c2 c3 c4 j : 4 <= c1 -> c1 <= c2 -> c2 <= c3 -> c3 <= c4 -> 0 <= j ->
  let sv := sony_value c1 c2 c3 c4 in
  0 <= sv j /\ sv j <= sv (j + 1) <= sv j + 16 /\ (sv j = 0 \/ (sv (j + 1) - sv (Z.max 0 (j - 1)) + 2) / 4 <= sv j).
Proof.
  intros A1 A2 A3 A4 Hj sv. unfold sv, sony_value. split; [lia|]. split; [lia|].
  destruct (Z.le_gt_cases j 3); [right|]. all: lia.
Qed.
Local Ltac Zify.zify_post_hook ::= idtac.

Lemma table_length t1 t2 t3 t4 : length (sony_table t1 t2 t3 t4) = Z.to_nat 4096.
Proof. unfold sony_table. now rewrite map_length, seq_length. Qed.
Lemma table_nth t1 t2 t3 t4 j : Z.of_nat j < 4096 -> nth j (sony_table t1 t2 t3 t4) 0 = sony_value (knot_of t1) (knot_of t2) (knot_of t3) (knot_of t4) (Z.of_nat j).
Proof. intros H. unfold sony_table. rewrite nth_map_seq by lia. reflexivity. Qed.
Theorem curve_points t1 t2 t3 t4 : 0 <= t1 -> 0 <= t2 -> 0 <= t3 -> 0 <= t4 ->
  knot_of t1 <= knot_of t2 -> knot_of t2 <= knot_of t3 -> knot_of t3 <= knot_of t4 ->
  sony_points (sony_knots [t1; t2; t3; t4]) = Ok (sony_table t1 t2 t3 t4).
Proof.
  intros A1 A2 A3 A4 K1 K2 K3. unfold sony_knots. cbn [map app]. rewrite !knot_land by auto.
  change [0%nat; Z.to_nat (knot_of t1); Z.to_nat (knot_of t2); Z.to_nat (knot_of t3); Z.to_nat (knot_of t4); Z.to_nat 4095]
    with (map (fun i => Z.to_nat (knot (knot_of t1) (knot_of t2) (knot_of t3) (knot_of t4) i)) (seq 0 6)).
  pose proof (knot_range t1). pose proof (knot_range t4). apply points_ok; lia.
Qed.
Theorem curve_ok t1 t2 t3 t4 : 4 <= knot_of t1 -> knot_of t1 <= knot_of t2 -> knot_of t2 <= knot_of t3 -> knot_of t3 <= knot_of t4 ->
  lut_ok (sony_table t1 t2 t3 t4) /\ length (sony_table t1 t2 t3 t4) = Z.to_nat 4096.
Proof.
  intros K1 K2 K3 K4. split; [|apply table_length]. pose proof (knot_range t4) as B4.
  assert (SR : forall j, 0 <= j <= 4095 -> 0 <= sony_value (knot_of t1) (knot_of t2) (knot_of t3) (knot_of t4) j <= 65520) by (intros j Hj; apply sv_range; lia).
  pose proof (fun j => sv_entry (knot_of t1) (knot_of t2) (knot_of t3) (knot_of t4) j K1 K2 K3 K4) as SE. cbv zeta in SE.
  set (sv := sony_value (knot_of t1) (knot_of t2) (knot_of t3) (knot_of t4)) in *. set (t := sony_table t1 t2 t3 t4).
  assert (TN : forall j, Z.of_nat j < 4096 -> nth j t 0 = sv (Z.of_nat j)) by (intros j Hj; apply (table_nth t1 t2 t3 t4 j Hj)).
  assert (TL : Z.of_nat (length t) = 4096) by (unfold t; rewrite table_length; reflexivity).
  split.
  - apply Forall_forall. intros x Hx. destruct (In_nth _ _ 0 Hx) as (j & Hj & <-). rewrite TN by lia. specialize (SR (Z.of_nat j) ltac:(lia)). unfold is_u16. lia.
  - intros i Hi. unfold step_of. assert (Hi' : Z.of_nat i < 4096) by lia. rewrite (TN i Hi').
    assert (EL : lower_of t i = sv (Z.max 0 (Z.of_nat i - 1))).
    { unfold lower_of. destruct (Nat.ltb_spec 0 i); rewrite TN by lia; f_equal; lia. }
    assert (EU : upper_of t i = if Z.of_nat i <? 4095 then sv (Z.of_nat i + 1) else sv (Z.of_nat i)).
    { unfold upper_of. destruct (Nat.ltb_spec i (length t - 1)), (Z.ltb_spec (Z.of_nat i) 4095); try lia; rewrite TN by lia; f_equal; lia. }
    rewrite EL, EU. destruct (SE (Z.of_nat i) ltac:(lia)) as (S0 & S1 & S2). pose proof (SR (Z.of_nat i) ltac:(lia)) as R0.
    assert (S3 : sv (Z.max 0 (Z.of_nat i - 1)) <= sv (Z.of_nat i) <= sv (Z.max 0 (Z.of_nat i - 1)) + 16).
    { destruct i as [|i]; [change (Z.max 0 (Z.of_nat 0 - 1)) with 0; change (Z.of_nat 0) with 0; lia|].
      destruct (SE (Z.of_nat i) ltac:(lia)) as (_ & X & _). replace (Z.max 0 (Z.of_nat (S i) - 1)) with (Z.of_nat i) by lia. replace (Z.of_nat (S i)) with (Z.of_nat i + 1) by lia. exact X. }
    pose proof (SR (Z.max 0 (Z.of_nat i - 1)) ltac:(lia)) as R1.
    destruct (Z.ltb_spec (Z.of_nat i) 4095) as [L|L].
    + pose proof (SR (Z.of_nat i + 1) ltac:(lia)) as R2. apply entry_arith; [lia|lia|lia|exact S2].
    + apply entry_arith; [lia|lia|lia|]. right. apply (Z.le_trans _ 5); [|].
      * apply Z.div_le_upper_bound; lia.
      * replace (Z.of_nat i) with 4095 by lia. unfold sv, sony_value. lia.
Qed.

Theorem arw2_file s w h tail t1 t2 t3 t4 : 0 <= t1 -> 0 <= t2 -> 0 <= t3 -> 0 <= t4 ->
  4 <= knot_of t1 -> knot_of t1 <= knot_of t2 -> knot_of t2 <= knot_of t3 -> knot_of t3 <= knot_of t4 -> Forall is_byte tail ->
  (0 < w)%nat -> (w mod 32 = 0)%nat -> (forall r c, (r < h)%nat -> (c < w)%nat -> 0 <= s r c < 2048) ->
  exists lut, sony_curve [t1; t2; t3; t4] = Ok lut /\
  arw2_decode lut (arw2_encode s w h ++ tail) w h =
    Ok (flat_map (fun r => map (fun c => dithered (sony_table t1 t2 t3 t4) (Z.to_nat (2 * quantized (block_of s r (block_no c)) (block_ix c)))
      (noise (row_seed s r) (16 * block_no c + block_ix c))) (seq 0 w)) (seq 0 h)).
Proof.
  intros A1 A2 A3 A4 K1 K2 K3 K4 HT Hw H32 HS. destruct (curve_ok t1 t2 t3 t4 K1 K2 K3 K4) as [LO LL]. destruct (lut_new_ok _ LO) as (lut & EL & _).
  exists lut. split.
  - unfold sony_curve. rewrite curve_points by auto. exact EL.
  - apply arw2_roundtrip; auto. rewrite LL. lia.
Qed.
Theorem arw2_file_any buf w h t1 t2 t3 t4 : 0 <= t1 -> 0 <= t2 -> 0 <= t3 -> 0 <= t4 ->
  4 <= knot_of t1 -> knot_of t1 <= knot_of t2 -> knot_of t2 <= knot_of t3 -> knot_of t3 <= knot_of t4 -> Forall is_byte buf -> (0 < w)%nat ->
  (forall r, (r < h)%nat -> row_fits (row_data buf w r) w) ->
  exists lut, sony_curve [t1; t2; t3; t4] = Ok lut /\
  arw2_decode lut buf w h = Ok (flat_map (fun r => arw2_line (sony_table t1 t2 t3 t4) (le_value (row_data buf w r)) w) (seq 0 h)).
Proof.
  intros A1 A2 A3 A4 K1 K2 K3 K4 HB Hw HR. destruct (curve_ok t1 t2 t3 t4 K1 K2 K3 K4) as [LO LL]. destruct (lut_new_ok _ LO) as (lut & EL & _).
  exists lut. split.
  - unfold sony_curve. rewrite curve_points by auto. exact EL.
  - apply arw2_any; auto. rewrite LL. lia.
Qed.
(** a curve that starts too steep *)
Theorem curve_steep t1 t2 t3 t4 : 0 <= t1 -> 0 <= t2 -> 0 <= t3 -> 0 <= t4 ->
  knot_of t1 = 1 -> knot_of t2 = 1 -> knot_of t3 = 1 -> knot_of t4 = 1 -> sony_curve [t1; t2; t3; t4] = Panic.
Proof.
  intros A1 A2 A3 A4 K1 K2 K3 K4. unfold sony_curve. rewrite curve_points by (auto; lia). cbn [bind]. unfold lut_new.
  pose proof (table_length t1 t2 t3 t4) as TL. pose proof (table_nth t1 t2 t3 t4) as TN. rewrite K1, K2, K3, K4 in TN.
  set (t := sony_table t1 t2 t3 t4) in *. assert (E : exists n, length t = S (S (S n))) by (exists (Z.to_nat 4093); lia). destruct E as (n & E).
  assert (HN : Z.of_nat n = 4093) by lia. clear TL. rewrite E. change (seq 0 (S (S (S n)))) with (0%nat :: 1%nat :: seq 2 (S n)). cbn [for_each].
  unfold lut_entry. rewrite E. change (0 <? 0)%nat with false. change (0 <? 1)%nat with true. cbv iota.
  rewrite !(get_ok t _ 0) by lia. cbn [bind]. replace (0 <? S (S (S n)) - 1)%nat with true by lia. replace (1 <? S (S (S n)) - 1)%nat with true by lia.
  change (0 + 1)%nat with 1%nat. change (1 + 1)%nat with 2%nat. change (1 - 1)%nat with 0%nat. cbn [bind].
  rewrite !TN by lia. cbn [Z.of_nat]. reflexivity.
Qed.
