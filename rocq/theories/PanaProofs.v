(** Panasonic formats 5 and 7. *)
From Coq Require Import List ZArith Bool Lia Arith.
From Verif Require Import Base BaseLemmas Pumps PumpProofs PumpSeq PefNeg Pana SonySpec SonyArw2 SonyTop PanaSpec.
Import ListNotations.
Open Scope Z_scope.

Lemma in_turn_ok n f g : (forall i, (i < n)%nat -> f i = Ok (g i)) -> in_turn n f = Ok (flat_map g (seq 0 n)).
Proof.
  intros H. unfold in_turn.
  match goal with |- for_each (seq 0 n) ?F ?s = _ => destruct (for_each_seq_inv F (fun k out => out = flat_map g (seq 0 k)) 0 n s) as (out & E & ->) end; auto.
  intros i s Hi ->. rewrite H by lia. cbn [bind]. eexists. split; [reflexivity|]. now rewrite flat_map_seq_S.
Qed.
Lemma seq_add_map a n : forall b, map (fun j => (a + j)%nat) (seq b n) = seq (a + b) n.
Proof. induction n; intros b; [reflexivity|]. cbn [seq map]. rewrite IHn. now rewrite Nat.add_succ_r. Qed.
Lemma map_seq_add {A} (F : nat -> A) a n : map F (seq a n) = map (fun j => F (a + j)%nat) (seq 0 n).
Proof. rewrite <- (map_map (fun j => (a + j)%nat) F), seq_add_map. now rewrite Nat.add_0_r. Qed.
Lemma flat_map_rows {A} (F : nat -> A) n per : flat_map (fun b => map (fun j => F (b * per + j)%nat) (seq 0 per)) (seq 0 n) = map F (seq 0 (n * per)).
Proof.
  induction n; [reflexivity|]. rewrite flat_map_seq_S, IHn. replace (S n * per)%nat with (n * per + per)%nat by lia.
  rewrite seq_app, map_app. f_equal. cbn [plus]. now rewrite (map_seq_add F (n * per)).
Qed.
Lemma flat_map_ext_seq {A} (f g : nat -> list A) n : (forall i, (i < n)%nat -> f i = g i) -> flat_map f (seq 0 n) = flat_map g (seq 0 n).
Proof. induction n; intros H; [reflexivity|]. rewrite !flat_map_seq_S, IHn, H by (intros; try apply H; lia). reflexivity. Qed.
Lemma map_ext_seq {A} (f g : nat -> A) n : (forall i, (i < n)%nat -> f i = g i) -> map f (seq 0 n) = map g (seq 0 n).
Proof. intros H. apply map_ext_in. intros i Hi. apply in_seq in Hi. apply H. lia. Qed.

Lemma map_const (c : Z) m : forall a, map (fun _ : nat => c) (seq a m) = repeat c m.
Proof. induction m; intros a; [reflexivity|]. cbn [seq map repeat]. now rewrite IHm. Qed.
(** chunks of [B] of [T] things, the last one shorter *)
Lemma chunks_map {A} (F : nat -> A) B T : (0 < B)%nat ->
  flat_map (fun c => map (fun i => F (c * B + i)%nat) (seq 0 (Nat.min B (T - c * B)))) (seq 0 ((T + B - 1) / B)) = map F (seq 0 T).
Proof.
  intros HB.
  assert (K : forall n, (n <= (T + B - 1) / B)%nat ->
    flat_map (fun c => map (fun i => F (c * B + i)%nat) (seq 0 (Nat.min B (T - c * B)))) (seq 0 n) = map F (seq 0 (Nat.min T (n * B)))).
  { induction n; intros Hn.
    - now rewrite Nat.mul_0_l, Nat.min_0_r.
    - rewrite flat_map_seq_S, IHn by lia.
      assert (n * B < T)%nat.
      { assert (n < (T + B - 1) / B)%nat as H by lia. pose proof (Nat.mul_div_le (T + B - 1) B ltac:(lia)). nia. }
      rewrite (Nat.min_r T (n * B)) by lia. replace (Nat.min T (S n * B)) with (n * B + Nat.min B (T - n * B))%nat by lia.
      rewrite seq_app, map_app. f_equal. cbn [plus]. now rewrite (map_seq_add F (n * B)). }
  rewrite K by lia. rewrite Nat.min_l; [reflexivity|].
  pose proof (Nat.div_mod (T + B - 1) B ltac:(lia)) as E. pose proof (Nat.mod_upper_bound (T + B - 1) B ltac:(lia)). nia.
Qed.
Lemma chunk_inside B T c : (0 < B)%nat -> (c < (T + B - 1) / B)%nat -> (c * B < T)%nat.
Proof. intros HB H. pose proof (Nat.mul_div_le (T + B - 1) B ltac:(lia)). nia. Qed.

Lemma fields_ok bps n bytes : Forall is_byte bytes -> (bps <= 16)%nat -> (bps * n <= 8 * length bytes)%nat ->
  pana_fields bps n bytes = Ok (map (fun j => bits_at (bps * j) bps (le_value bytes)) (seq 0 n)).
Proof.
  intros HB H16 HL. unfold pana_fields. pose proof (lsb_new bytes (bps * n) HB HL) as R0. rewrite <- le_value_val in R0.
  match goal with |- context [for_each (seq 0 n) ?F ?s] =>
    destruct (for_each_seq_inv F (fun k st => lsb_rep (bps * n - bps * k) (fst st) (le_value bytes / 2 ^ Z.of_nat (bps * k)) /\
      snd st = map (fun j => bits_at (bps * j) bps (le_value bytes)) (seq 0 k)) 0 n s) as (st & E & HI) end.
  - cbn [fst snd]. rewrite Nat.mul_0_r, Nat.sub_0_r. change (2 ^ Z.of_nat 0) with 1. now rewrite Z.div_1_r.
  - intros i [p out] Hi [R O]. cbn [fst snd] in *. destruct (lsb_get _ p _ bps R) as (p' & E & R'); [nia|lia|]. rewrite E. cbn [bind].
    eexists. split; [reflexivity|]. cbn [fst snd]. split.
    + replace (bps * n - bps * S i)%nat with (bps * n - bps * i - bps)%nat by lia. rewrite div_pow in R'.
      replace (bps * i + bps)%nat with (bps * S i)%nat in R' by lia. exact R'.
    + rewrite seq_S, map_app, O. cbn [plus map]. f_equal. f_equal. unfold bits_at, wrap_u16. apply Z.mod_small.
      pose proof (bits_at_range (bps * i) bps (le_value bytes)) as B. unfold bits_at in B.
      assert (2 ^ Z.of_nat bps <= 2 ^ 16) by (apply Z.pow_le_mono_r; lia). change (2 ^ 16) with 65536 in *. lia.
  - destruct st as [p out]. rewrite E. cbn [bind snd] in *. now destruct HI as [_ ->].
Qed.

(** packets as they are sliced *)
Lemma packet_plain buf p : (16 * p + 16 <= length buf)%nat -> firstn 16 (skipn (16 * p) buf) = packet false buf p.
Proof.
  intros H. apply nth_ext_len with 0.
  - unfold packet. rewrite firstn_length, skipn_length, map_length, seq_length. lia.
  - intros i Hi. rewrite firstn_length in Hi. unfold packet. rewrite nth_map_seq by lia. rewrite nth_firstn, nth_skipn by lia. reflexivity.
Qed.
Lemma packet_bytes split buf p : Forall is_byte buf -> Forall is_byte (packet split buf p).
Proof.
  intros H. unfold packet. apply Forall_map, Forall_forall. intros j _.
  destruct (Nat.lt_ge_cases (packet_home split p j) (length buf)) as [L|L].
  - now apply Forall_nth.
  - rewrite nth_overflow by lia. unfold is_byte. lia.
Qed.
Lemma packet_length split buf p : length (packet split buf p) = 16%nat.
Proof. unfold packet. now rewrite map_length, seq_length. Qed.

Lemma v5_size_z : Z.of_nat v5_size = 16384. Proof. apply Z2Nat.id. lia. Qed.
Lemma v5_split_z : Z.of_nat v5_split = 8184. Proof. apply Z2Nat.id. lia. Qed.
Lemma stretch_z : Z.of_nat stretch_bytes = 16384. Proof. apply Z2Nat.id. lia. Qed.
Global Opaque v5_size v5_split stretch_bytes.
Lemma v5_size_div : (v5_size / 16 = 1024)%nat.
Proof. pose proof v5_size_z. apply Nat2Z.inj. rewrite Nat2Z.inj_div, H. reflexivity. Qed.

Local Ltac Zify.zify_post_hook ::= Z.div_mod_to_equations.
Lemma home_split id k j : (k < 1024)%nat -> (j < 16)%nat ->
  Z.of_nat (packet_home true (1024 * id + k) j) = 16384 * Z.of_nat id + (16 * Z.of_nat k + Z.of_nat j + 8184) mod 16384.
Proof. intros. unfold packet_home. lia. Qed.
Lemma home_low id k j : (k < 1024)%nat -> (j < 16)%nat -> 16 * Z.of_nat k + Z.of_nat j < 8200 ->
  (packet_home true (1024 * id + k) j = id * v5_size + (v5_split + (16 * k + j)))%nat.
Proof. intros H1 H2 H3. pose proof (home_split id k j H1 H2). pose proof v5_size_z. pose proof v5_split_z. nia. Qed.
Lemma home_high id k j : (k < 1024)%nat -> (j < 16)%nat -> 8200 <= 16 * Z.of_nat k + Z.of_nat j ->
  (packet_home true (1024 * id + k) j = id * v5_size + (16 * k + j - (v5_size - v5_split)))%nat.
Proof. intros H1 H2 H3. pose proof (home_split id k j H1 H2). pose proof v5_size_z. pose proof v5_split_z. nia. Qed.
Local Ltac Zify.zify_post_hook ::= idtac.

Section Five.
  Variables (buf : list Z) (bps : nat).
  Hypothesis HB : Forall is_byte buf.
  Hypothesis Hbps : bps = 12%nat \/ bps = 14%nat.
  Let per := per_packet bps.
  Lemma per_range : (9 <= per <= 10)%nat.
  Proof. unfold per, per_packet. destruct (bps =? 12)%nat; lia. Qed.
  Lemma per_fits : (bps <= 16 /\ bps * per <= 128)%nat.
  Proof. unfold per, per_packet. destruct Hbps as [-> | ->]; cbn; lia. Qed.
  Lemma per_eq : v5_per_packet bps = Some per.
  Proof. unfold per, per_packet, v5_per_packet. destruct Hbps as [-> | ->]; reflexivity. Qed.
  Lemma packet_samples split p : pana_fields bps per (packet split buf p) = Ok (map (fun j => packed_sample split bps buf (p * per + j)) (seq 0 per)).
  Proof.
    rewrite fields_ok; [|now apply packet_bytes|apply per_fits|rewrite packet_length; apply per_fits].
    f_equal. apply map_ext_seq. intros j Hj. unfold packed_sample. fold per.
    rewrite (Nat.add_comm (p * per)), Nat.mod_add, Nat.div_add, Nat.mod_small, Nat.div_small by lia. reflexivity.
  Qed.
  Lemma chunk_ok id len : (id * v5_size + v5_size <= length buf)%nat -> (len <= 1024 * per)%nat ->
    v5_chunk buf bps per len id = Ok (map (fun i => if (i <? len / per * per)%nat then packed_sample true bps buf (id * (1024 * per) + i) else 0) (seq 0 len)).
  Proof.
    intros HL Hlen. pose proof per_range as Hp. pose proof v5_size_z as Z1. pose proof v5_split_z as Z2.
    assert (Hq : (len / per <= 1024)%nat) by (apply Nat.div_le_upper_bound; lia).
    assert (Hm : (len / per * per <= len)%nat) by (rewrite Nat.mul_comm; apply Nat.mul_div_le; lia).
    unfold v5_chunk. rewrite slice_ok by lia. cbn [bind]. replace (id * v5_size + v5_size - id * v5_size)%nat with v5_size by lia.
    set (src := firstn v5_size (skipn (id * v5_size) buf)).
    assert (Ls : length src = v5_size) by (unfold src; rewrite firstn_length, skipn_length; lia).
    rewrite !slice_ok by lia. cbn [bind]. rewrite Nat.sub_0_r, (firstn_all2 (n := length src - v5_split)) by (rewrite skipn_length; lia). cbn [skipn].
    set (sw := skipn v5_split src ++ firstn v5_split src).
    assert (Lw : length sw = v5_size) by (unfold sw; rewrite app_length, skipn_length, firstn_length; lia).
    rewrite Lw, v5_size_div, Nat.min_l by lia.
    rewrite (in_turn_ok _ _ (fun k => map (fun j => packed_sample true bps buf (id * (1024 * per) + (k * per + j))) (seq 0 per))).
    2:{ intros k Hk. rewrite slice_ok by lia. cbn [bind]. replace (16 * k + 16 - 16 * k)%nat with 16%nat by lia.
        replace (firstn 16 (skipn (16 * k) sw)) with (packet true buf (1024 * id + k)).
        - rewrite packet_samples. f_equal. apply map_ext_seq. intros j Hj. f_equal. lia.
        - apply nth_ext_len with 0.
          + rewrite packet_length, firstn_length, skipn_length. lia.
          + intros j Hj. rewrite packet_length in Hj. rewrite nth_firstn, nth_skipn by lia. unfold packet. rewrite nth_map_seq by lia. cbn [plus].
            unfold sw. destruct (Z.lt_ge_cases (16 * Z.of_nat k + Z.of_nat j) 8200).
            * rewrite home_low by lia. rewrite app_nth1 by (rewrite skipn_length; lia). rewrite nth_skipn. unfold src. rewrite nth_firstn, nth_skipn by lia. f_equal. 
            * rewrite home_high by lia. rewrite app_nth2 by (rewrite skipn_length; lia). rewrite skipn_length, Ls.
              rewrite nth_firstn by lia. unfold src. rewrite nth_firstn, nth_skipn by lia. reflexivity. }
    cbn [bind]. f_equal. rewrite (flat_map_rows (fun i => packed_sample true bps buf (id * (1024 * per) + i)) (len / per) per).
    replace (seq 0 len) with (seq 0 (len / per * per) ++ seq (len / per * per) (len - len / per * per)).
    2:{ rewrite <- seq_app. f_equal. lia. }
    rewrite map_app. f_equal.
    - apply map_ext_seq. intros i Hi. now replace (i <? len / per * per)%nat with true by lia.
    - symmetry. rewrite (map_ext_in _ (fun _ => 0)).
      + apply map_const.
      + intros i Hi. apply in_seq in Hi. now replace (i <? len / per * per)%nat with false by lia.
  Qed.
  Lemma v5_any w h : (stretches (packets_of (w * h) per) * stretch_bytes <= length buf)%nat ->
    v5_decode buf w h bps = Ok (packed_picture true bps buf (w * h)).
  Proof.
    intros HL. pose proof per_range as Hp. unfold v5_decode. rewrite per_eq, v5_size_div. set (T := (w * h)%nat) in *.
    set (B := (1024 * per)%nat).
    assert (HB0 : (0 < B)%nat) by (unfold B; lia).
    assert (HN : (((T + B - 1) / B) * v5_size <= length buf)%nat).
    { assert (E : ((T + B - 1) / B = stretches (packets_of T per))%nat).
      { unfold stretches, packets_of. rewrite <- Nat.div_add, Nat.div_div by lia. f_equal; unfold B; lia. }
      rewrite E. pose proof v5_size_z. pose proof stretch_z. replace v5_size with stretch_bytes by lia. exact HL. }
    erewrite (in_turn_ok _ _).
    2:{ intros c Hc. apply chunk_ok.
        - pose proof v5_size_z. nia.
        - unfold B. lia. }
    unfold packed_picture. fold per. rewrite <- (chunks_map _ B T HB0). f_equal. apply flat_map_ext_seq. intros c Hc. apply map_ext_seq. intros i Hi.
    pose proof (chunk_inside B T c HB0 Hc) as HcT.
    fold B.
    replace (c * B + i <? T / per * per)%nat with (i <? Nat.min B (T - c * B) / per * per)%nat; [reflexivity|].
    assert (EB : (c * B = 1024 * c * per)%nat) by (unfold B; lia).
    destruct (Nat.le_gt_cases B (T - c * B)) as [L|L].
    - rewrite Nat.min_l by lia. replace (B / per * per)%nat with B by (unfold B; rewrite Nat.div_mul by lia; lia).
      assert (1024 * S c <= T / per)%nat by (apply Nat.div_le_lower_bound; unfold B in *; lia).
      rewrite Nat.min_l in Hi by lia. assert (c * B + B <= T / per * per)%nat by (unfold B; nia).
      replace (i <? B)%nat with true by lia. lia.
    - rewrite Nat.min_r by lia. replace ((T - c * B) / per)%nat with (T / per - 1024 * c)%nat.
      + assert (1024 * c <= T / per)%nat by (apply Nat.div_le_lower_bound; lia). rewrite Nat.mul_sub_distr_r, EB.
        destruct (Nat.ltb_spec i (T / per * per - 1024 * c * per)), (Nat.ltb_spec (1024 * c * per + i) (T / per * per)); lia.
      + rewrite EB. replace T with (T - 1024 * c * per + 1024 * c * per)%nat at 1 by lia. rewrite Nat.div_add by lia. lia.
  Qed.
End Five.

(** rows of whole packets in the plain order *)
Lemma rows_plain buf (f : list Z -> res (list Z)) (F : nat -> Z) per blocks h :
  (h * (16 * blocks) <= length buf)%nat ->
  (forall p, (p < h * blocks)%nat -> f (packet false buf p) = Ok (map (fun j => F (p * per + j)%nat) (seq 0 per))) ->
  in_turn h (fun row =>
    do src <- slice buf (row * (16 * blocks)) (row * (16 * blocks) + 16 * blocks);
    in_turn blocks (fun k => do bytes <- slice src (16 * k) (16 * k + 16); f bytes)) = Ok (map F (seq 0 (blocks * per * h))).
Proof.
  intros HL Hf.
  rewrite (in_turn_ok _ _ (fun row => map (fun c => F (row * (blocks * per) + c)%nat) (seq 0 (blocks * per)))).
  - rewrite (flat_map_rows F h (blocks * per)). now rewrite (Nat.mul_comm h).
  - intros row Hr. assert (row * (16 * blocks) + 16 * blocks <= length buf)%nat by nia. rewrite slice_ok by lia. cbn [bind].
    replace (row * (16 * blocks) + 16 * blocks - row * (16 * blocks))%nat with (16 * blocks)%nat by lia.
    set (src := firstn (16 * blocks) (skipn (row * (16 * blocks)) buf)).
    assert (Ls : length src = (16 * blocks)%nat) by (unfold src; rewrite firstn_length, skipn_length; lia).
    rewrite (in_turn_ok _ _ (fun k => map (fun j => F (row * (blocks * per) + (k * per + j))%nat) (seq 0 per))).
    + now rewrite (flat_map_rows (fun i => F (row * (blocks * per) + i)%nat) blocks per).
    + intros k Hk. rewrite slice_ok by lia. cbn [bind]. replace (16 * k + 16 - 16 * k)%nat with 16%nat by lia.
      replace (firstn 16 (skipn (16 * k) src)) with (packet false buf (row * blocks + k)).
      * rewrite Hf by nia. f_equal. apply map_ext_seq. intros j Hj. f_equal. lia.
      * rewrite <- packet_plain by nia. unfold src. rewrite skipn_firstn_comm, firstn_firstn, skipn_skipn. f_equal; [|f_equal]; lia.
Qed.
Lemma assert_true b : b = true -> assert_ b = Ok tt. Proof. intros ->. reflexivity. Qed.

Lemma full_width w per h : (0 < per)%nat -> (w mod per = 0)%nat -> (w / per * per * h = w * h)%nat /\ (w * h / per * per = w * h)%nat.
Proof.
  intros Hp H. assert (E : (w = w / per * per)%nat) by (pose proof (Nat.div_mod w per); lia). split; [now rewrite <- E|].
  revert E. generalize (w / per)%nat as q. intros q ->. replace (q * per * h)%nat with (q * h * per)%nat by lia. now rewrite Nat.div_mul by lia.
Qed.

Theorem v7_any buf w h : Forall is_byte buf -> (0 < w)%nat -> (w mod 9 = 0)%nat -> (16 * (w / 9 * h) <= length buf)%nat ->
  v7_decode buf w h 14 = Ok (packed_picture false 14 buf (w * h)).
Proof.
  intros HB Hw Hm HL. unfold v7_decode. change (v5_per_packet 14) with (Some 9%nat). cbv iota beta.
  rewrite !assert_true by lia. cbn [bind]. unfold v7_row.
  destruct (full_width w 9 h ltac:(lia) Hm) as [E1 E2].
  rewrite (rows_plain buf (pana_fields 14 9) (packed_sample false 14 buf) 9 (w / 9) h).
  - rewrite E1. f_equal. unfold packed_picture. change (per_packet 14) with 9%nat. apply map_ext_seq. intros i Hi.
    rewrite E2. now replace (i <? w * h)%nat with true by lia.
  - lia.
  - intros p _. apply (packet_samples buf 14 HB). now right.
Qed.

(** ** 12 bits in format 7 *)
Definition room (p : wpump) : nat := (w_nbits p + 8 * length (w_rest p))%nat.
Lemma refill_room l v n t : refill_le l = Ok (v, n, t) -> (n + 8 * length t = 8 * length l)%nat.
Proof.
  destruct l as [|a [|b [|c [|d l]]]]; unfold refill_le, slow_fold; cbn [rev app fold_left]; try discriminate; intros E; injection E as <- <- <-; cbn [length]; lia.
Qed.
Lemma lsb_room n p v p' : (0 < n)%nat -> get_bits lsb_ops n p = Ok (v, p') -> (room p' + n = room p)%nat.
Proof.
  intros Hn. unfold get_bits. replace (n =? 0)%nat with false by lia. cbn [peek_bits consume_bits lsb_ops]. unfold lsb_peek, lsb_consume.
  assert (K : forall p1, (room p1 = room p)%nat ->
    bind (do m <- usub 32 n; Ok (wrap_u32 (Z.land (w_bits p1) (Z.shiftr 4294967295 (Z.of_nat m))), p1))
      (fun '(v0, p2) => do p3 <- (do n0 <- usub (w_nbits p2) n; do v1 <- shr64 (w_bits p2) n; Ok (mk_wpump (w_rest p2) v1 n0 (w_pos p2))); Ok (v0, p3)) = Ok (v, p') ->
    (room p' + n = room p)%nat).
  { intros p1 R E. unfold usub in E. destruct (n <=? 32)%nat; cbn [bind] in E; [|discriminate].
    destruct (n <=? w_nbits p1)%nat eqn:Hc; cbn [bind] in E; [|discriminate]. destruct (shr64 (w_bits p1) n); cbn [bind] in E; try discriminate.
    inversion E. unfold room in *. cbn [w_nbits w_rest]. lia. }
  destruct (w_nbits p <? n)%nat.
  - destruct (refill_le (w_rest p)) as [[[inb cnt] rest]| |] eqn:ER; cbn [bind]; try discriminate. apply refill_room in ER.
    destruct (usub 32 (w_nbits p)); cbn [bind]; try discriminate. destruct (shl64 inb 32); cbn [bind]; try discriminate.
    destruct (shl64 (w_bits p) _); cbn [bind]; try discriminate. destruct (shr64 _ _); cbn [bind]; try discriminate.
    intros E. apply K in E; [exact E|]. unfold room. cbn [w_nbits w_rest]. lia.
  - cbn [bind]. intros E. now apply K in E.
Qed.
Lemma fields_room (l : list nat) : forall p out p' out',
  for_each l (fun _ '(p, out) => do (v, p) <- get_bits lsb_ops 14 p; Ok (p, out ++ [wrap_u16 v])) (p, out) = Ok (p', out') -> (room p' + 14 * length l = room p)%nat.
Proof.
  induction l as [|a l IH]; intros p out p' out' E; cbn [for_each length] in *; [inversion E; lia|].
  destruct (get_bits lsb_ops 14 p) as [[v q]| |] eqn:EG; cbn [bind] in E; try discriminate. apply lsb_room in EG; [|lia]. apply IH in E. lia.
Qed.
Lemma fields_short n bytes out : pana_fields 14 n bytes = Ok out -> (14 * n <= 8 * length bytes)%nat.
Proof.
  unfold pana_fields. destruct (for_each (seq 0 n) _ _) as [[p o]| |] eqn:E; cbn [bind]; try discriminate. intros _.
  apply fields_room in E. rewrite seq_length in E. unfold room, wpump_new in E. cbn [w_nbits w_rest] in E. lia.
Qed.
Lemma in_turn_all n f out i : in_turn n f = Ok out -> (i < n)%nat -> exists l, f i = Ok l.
Proof.
  intros E Hi. unfold in_turn in E.
  destruct (for_each_ok_in (fun _ => True) _ _ _ _ i (fun _ _ _ _ _ _ => I) I E ltac:(apply in_seq; lia)) as (s1 & s2 & _ & E2).
  destruct (f i) as [l| |] eqn:EF; cbn [bind] in E2; try discriminate. eauto.
Qed.
Theorem v7_twelve buf w h out : (0 < w)%nat -> (0 < h)%nat -> v7_decode buf w h 12 <> Ok out.
Proof.
  intros Hw Hh E. unfold v7_decode in E. change (v5_per_packet 12) with (Some 10%nat) in E. cbv iota beta in E.
  destruct (Nat.eqb_spec (w mod 10) 0) as [Hm|Hm]; cbn [assert_ bind] in E; [|discriminate].
  rewrite assert_true in E by lia. cbn [bind] in E. destruct (in_turn_all _ _ _ 0%nat E Hh) as (l & E1).
  unfold v7_row in E1. destruct (slice buf _ _) as [src| |]; cbn [bind] in E1; try discriminate.
  assert (0 < w / 10)%nat by (pose proof (Nat.div_mod w 10); lia).
  destruct (in_turn_all _ _ _ 0%nat E1 H) as (l2 & E2).
  unfold slice in E2. destruct ((16 * 0 <=? 16 * 0 + 16)%nat && (16 * 0 + 16 <=? length src)%nat)%bool; cbn [bind] in E2; try discriminate.
  apply fields_short in E2. rewrite firstn_length in E2. lia.
Qed.
