(** Proofs about uncompressed strips. *)
From Coq Require Import List ZArith Bool Lia.
From Verif Require Import Base BaseLemmas Bits BitsSpec Par ParProofs Decomp DecompProofs Packed PackedProofs
  Tiff TiffSpec TiffBytes TiffRead TiffWrite RawSource RawSourceProofs Strips StripsSpec.
Import ListNotations.
Open Scope Z_scope.

(** ** chunks *)
Lemma concat_chunks {A} c (l : list A) : forall k, concat (map (fun i => firstn c (skipn (i * c) l)) (seq 0 k)) = firstn (k * c) l.
Proof.
  induction k; [reflexivity|]. rewrite seq_S, map_app, concat_app, IHk. cbn [map concat]. rewrite app_nil_r.
  rewrite <- (firstn_skipn (k * c) l) at 3. cbn [Nat.add].
  replace (S k * c)%nat with (k * c + c)%nat by lia.
  destruct (Nat.le_gt_cases (k * c) (length l)) as [L|L].
  - rewrite firstn_app, firstn_length, Nat.min_l by lia. rewrite firstn_firstn, Nat.min_r by lia. f_equal. f_equal. lia.
  - rewrite (skipn_all2 l) by lia. rewrite firstn_nil, !app_nil_r. rewrite firstn_firstn. f_equal. lia.
Qed.

Definition nchunks (c n : nat) : nat := ((n + c - 1) / c)%nat.
Definition chunk {A} (c : nat) (l : list A) (i : nat) : list A := firstn c (skipn (i * c) l).

Lemma slice_chunks_ok {A} c (l : list A) : (0 < c)%nat ->
  slice_chunks c l = Ok (map (chunk c l) (seq 0 (nchunks c (length l)))) /\
  concat (map (chunk c l) (seq 0 (nchunks c (length l)))) = l.
Proof.
  intros H. unfold slice_chunks. replace (c =? 0)%nat with false by (symmetry; apply Nat.eqb_neq; lia).
  split; [reflexivity|]. unfold chunk. rewrite concat_chunks. apply firstn_all2. apply ceil_cover. exact H.
Qed.

(** ** 16 bit little endian samples *)
Lemma bytes16_le l : bytes16 l = flat_map (le_bytes 2) l.
Proof. apply flat_map_ext. intros v. rewrite !le_bytes_S. reflexivity. Qed.

Local Opaque le_bytes.
Lemma bytes16_length l : length (bytes16 l) = (2 * length l)%nat.
Proof. rewrite bytes16_le, (flat_map_length_const _ 2) by (intros; apply le_bytes_length). lia. Qed.
Lemma bytes16_app a b : bytes16 (a ++ b) = bytes16 a ++ bytes16 b.
Proof. apply flat_map_app. Qed.
Lemma bytes16_bytes l : Forall is_byte (bytes16 l).
Proof.
  rewrite bytes16_le. apply Forall_forall. intros x Hx. apply in_flat_map in Hx as (v & _ & Hx).
  pose proof (le_bytes_byte 2 v) as H. rewrite Forall_forall in H. apply H in Hx. exact Hx.
Qed.
Lemma bytes16_nth l : forall k, (k < length l)%nat ->
  nth (2 * k) (bytes16 l) 0 = nth k l 0 mod 256 /\ nth (2 * k + 1) (bytes16 l) 0 = (nth k l 0 / 256) mod 256.
Proof.
  induction l as [|a l IH]; intros k Hk; cbn [length] in Hk; [lia|].
  cbn [bytes16 flat_map].
  destruct k as [|k]; [split; reflexivity|].
  replace (2 * S k)%nat with (S (S (2 * k))) by lia. cbn [app nth]. apply IH. lia.
Qed.

Lemma sample16 l k : Forall is_u16 l -> (k < length l)%nat -> packed_sample 16 LittleE (bytes16 l) k = nth k l 0.
Proof.
  intros Hl Hk. unfold packed_sample. pose proof (stream_bytes _ (bytes16_bytes l)) as HB.
  rewrite field_lsb_at; [|exact HB|].
  - assert (D : (16 * k / 8 = 2 * k)%nat) by (replace (16 * k)%nat with (2 * k * 8)%nat by lia; apply Nat.div_mul; lia).
    assert (M : (16 * k mod 8 = 0)%nat) by (replace (16 * k)%nat with (2 * k * 8)%nat by lia; apply Nat.mod_mul; lia).
    rewrite D, M. change (Z.of_nat 0) with 0. change (2 ^ 0) with 1. rewrite Z.div_1_r.
    destruct (bytes16_nth l k Hk) as [E0 E1]. change (stream (bytes16 l) (2 * k + 1)) with (nth (2 * k + 1) (bytes16 l) 0). change (stream (bytes16 l) (2 * k)) with (nth (2 * k) (bytes16 l) 0). rewrite E0, E1.
    assert (R : is_u16 (nth k l 0)) by (rewrite Forall_forall in Hl; apply Hl, nth_In; lia).
    pose proof (HB (2 * k + 2)%nat) as H2. unfold is_u16 in R.
    set (v := nth k l 0) in *. set (b2 := stream _ (2 * k + 2)) in *. clearbody v b2. unfold is_byte in H2.
    change (2 ^ Z.of_nat 16) with 65536.
    assert (V : (v / 256) mod 256 = v / 256) by (apply Z.mod_small; split; [apply Z.div_pos; lia|apply Z.div_lt_upper_bound; lia]).
    rewrite V. pose proof (Z.div_mod v 256). symmetry. apply Z.mod_unique with b2; lia.
  - replace (16 * k)%nat with (2 * k * 8)%nat by lia. rewrite Nat.mod_mul by lia. lia.
Qed.

Lemma rows_list l w : forall nl skip, ((skip + nl) * w <= length l)%nat ->
  rows (fun r c => nth (r * w + c) l 0) w skip nl = firstn (nl * w) (skipn (skip * w) l).
Proof.
  intros nl skip H. rewrite <- (rows_flat (fun i => nth i l 0)).
  apply (nth_ext_len _ _ 0).
  - rewrite map_length, seq_length, firstn_length, skipn_length. lia.
  - intros i Hi. rewrite map_length, seq_length in Hi.
    rewrite (nth_indep _ 0 (nth 0 l 0)) by (rewrite map_length, seq_length; lia).
    rewrite (map_nth (fun i => nth i l 0)), seq_nth by lia. rewrite nth_firstn by lia. now rewrite nth_skipn.
Qed.

(** decoding [nl] rows of a byte string that starts with the samples [l] *)
Lemma decode16 l skip nl w : Forall is_u16 l -> (0 < w)%nat -> ((skip + nl) * w <= length l)%nat ->
  run_ops (packed_decompress 16 LittleE (bytes16 l) skip nl w) (repeat 0 (nl * w)) = Some (firstn (nl * w) (skipn (skip * w) l)).
Proof.
  intros Hl Hw H. rewrite packed_ok.
  - f_equal. rewrite <- rows_list by assumption. apply rows_ext. intros r c Hr Hc. apply sample16; [exact Hl|].
    assert ((r + 1) * w <= (skip + nl) * w)%nat by (apply Nat.mul_le_mono_r; lia). lia.
  - apply bytes16_bytes.
  - lia.
  - replace (w * 16)%nat with (w * 2 * 8)%nat by lia. apply Nat.mod_mul. lia.
  - rewrite bytes16_length. lia.
Qed.

(** ** the reader *)

Lemma views_ok file : forall chunks offs, Z.of_nat (length file) < 2 ^ 32 -> Forall2 (strip_at file) offs chunks ->
  strip_views file 0 offs (map (fun c => 2 * Z.of_nat (length c)) chunks) = Ok (map bytes16 chunks).
Proof.
  intros chunks offs Hf H. induction H as [|o c offs chunks A _ IH]; [reflexivity|].
  cbn [strip_views map]. pose proof (at_len _ _ _ A) as [A1 A2]. rewrite bytes16_length in A2.
  unfold add_u32. replace (0 + o <? 2 ^ 32) with true by (symmetry; apply Z.ltb_lt; lia). cbn [bind].
  rewrite Z.add_0_l. rewrite (proj2 (subview_ok file o (2 * Z.of_nat (length c)) (bytes16 c) A1 ltac:(lia) ltac:(lia))).
  - cbn [bind]. rewrite IH. reflexivity.
  - split; [exact A|]. rewrite bytes16_length. lia.
Qed.

Lemma contiguous_false : forall offs sizes z, contiguous offs sizes (false, z) = Ok (false, 0) \/ contiguous offs sizes (false, z) = Ok (false, z).
Proof.
  induction offs as [|o offs IH]; intros [|s sizes] z; cbn; auto.
  destruct (IH sizes 0) as [->| ->]; auto.
Qed.

Lemma contiguous_ok file : forall chunks offs p, Z.of_nat (length file) < 2 ^ 32 -> 0 <= p <= Z.of_nat (length file) ->
  Forall2 (strip_at file) offs chunks ->
  (contiguous offs (map (fun c => 2 * Z.of_nat (length c)) chunks) (true, p) = Ok (true, p + Z.of_nat (length (bytes16 (concat chunks)))) /\
     at_ file p (bytes16 (concat chunks))) \/
  (exists z, contiguous offs (map (fun c => 2 * Z.of_nat (length c)) chunks) (true, p) = Ok (false, z)).
Proof.
  intros chunks offs p Hf Hp H. revert p Hp. induction H as [|o c offs chunks A H IH]; intros p Hp.
  - left. cbn [contiguous map concat]. split; [do 2 f_equal; cbn; lia|]. now apply at_nil.
  - cbn [contiguous map fst snd andb]. destruct (Z.eqb_spec p o) as [->|N].
    + pose proof (at_len _ _ _ A) as [A1 A2]. rewrite bytes16_length in A2.
      unfold add_u32. replace (o + 2 * Z.of_nat (length c) <? 2 ^ 32) with true by (symmetry; apply Z.ltb_lt; lia). cbn [bind].
      destruct (IH (o + 2 * Z.of_nat (length c))) as [[E B]|[z E]]; [lia| |].
      * left. rewrite E. cbn [concat]. rewrite bytes16_app, app_length, !bytes16_length. split; [do 2 f_equal; lia|].
        apply at_app. split; [exact A|]. rewrite bytes16_length. replace (Z.of_nat (2 * length c)) with (2 * Z.of_nat (length c)) by lia. exact B.
      * right. now exists z.
    + right. destruct (contiguous_false offs (map (fun c => 2 * Z.of_nat (length c)) chunks) 0) as [->| ->]; now eexists.
Qed.

Lemma strip_data_ok file chunks offs : Z.of_nat (length file) < 2 ^ 32 -> chunks <> [] -> Forall2 (strip_at file) offs chunks ->
  exists cont, strip_data file 0 offs (map (fun c => 2 * Z.of_nat (length c)) chunks) = Ok (map bytes16 chunks, cont) /\
    (cont = None /\ (2 <= length chunks)%nat \/ cont = Some (bytes16 (concat chunks))).
Proof.
  intros Hf Hn H. unfold strip_data. assert (L : length offs = length chunks) by (clear - H; induction H; cbn; congruence). rewrite map_length, L, Nat.eqb_refl. cbn [negb].
  destruct offs as [|o0 offs]; [destruct chunks; [congruence|discriminate]|].
  change (get (o0 :: offs) 0) with (Ok o0). cbn [bind].
  rewrite (views_ok _ _ _ Hf H). destruct chunks as [|c0 chunks]; [congruence|].
  assert (A : strip_at file o0 c0) by (inversion H; assumption). pose proof (at_len _ _ _ A) as [A1 A2].
  destruct (contiguous_ok file (c0 :: chunks) (o0 :: offs) o0 Hf ltac:(lia) H) as [[E B]|[z E]]; rewrite E; cbn [bind].
  - unfold add_u32. rewrite Z.add_0_l. replace (o0 <? 2 ^ 32) with true by (symmetry; apply Z.ltb_lt; lia). cbn [bind].
    set (T := bytes16 (concat (c0 :: chunks))) in *. replace (o0 + Z.of_nat (length T) - o0) with (Z.of_nat (length T)) by lia.
    pose proof (at_len _ _ _ B) as [B1 B2].
    rewrite (proj2 (subview_ok file o0 (Z.of_nat (length T)) T A1 ltac:(lia) ltac:(lia))) by (split; [exact B|reflexivity]).
    cbn [bind]. eexists. split; [reflexivity|]. now right.
  - eexists. split; [reflexivity|]. left. split; [reflexivity|].
    destruct chunks as [|c1 chunks]; [|cbn; lia]. exfalso.
    inversion H as [|? ? ? ? _ H']; subst. inversion H'; subst. cbn [contiguous map fst snd andb] in E. rewrite Z.eqb_refl in E.
    rewrite bytes16_length in A2. unfold add_u32 in E.
    replace (o0 + 2 * Z.of_nat (length c0) <? 2 ^ 32) with true in E by (symmetry; apply Z.ltb_lt; lia). discriminate.
Qed.

Lemma lines16 data lw h : (0 < lw)%nat -> Forall is_u16 data -> (h * lw <= length data)%nat ->
  yields (lines_fn 0 lw h (fun row => packed_decompress 16 LittleE (bytes16 data) row 1 lw)) (firstn (h * lw) data).
Proof.
  intros Hlw H16 Hd.
  destruct (lines_fn_delivers lw h (fun row => packed_decompress 16 LittleE (bytes16 data) row 1 lw) (fun r c => nth (r * lw + c) data 0) Hlw)
    as (s0 & Es & Hres).
  - intros r Hr. pose proof (packed_len 16 LittleE (bytes16 data) r 1 lw) as P. now rewrite Nat.mul_1_l in P.
  - intros r Hr. pose proof (decode16 data r 1 lw H16 Hlw) as D. rewrite Nat.mul_1_l in D.
    assert ((r + 1) * lw <= length data)%nat by (transitivity (h * lw)%nat; [apply Nat.mul_le_mono_r; lia|exact Hd]).
    rewrite D by assumption. f_equal. pose proof (rows_list data lw 1 r) as RL. rewrite Nat.mul_1_l in RL. rewrite <- RL by assumption.
    unfold rows. cbn [seq flat_map]. now rewrite app_nil_r.
  - exists s0. split; [exact Es|]. intros sched HE. rewrite Hres by exact HE. f_equal.
    rewrite rows_list by (cbn; lia). reflexivity.
Qed.

Lemma decode_ok file offs w h cpp R data : Z.of_nat (length file) < 2 ^ 32 ->
  (0 < w * cpp)%nat -> (0 < h)%nat -> (0 < R)%nat -> length data = (w * cpp * h)%nat -> Forall is_u16 data ->
  let c := (R * (w * cpp))%nat in
  let chunks := map (chunk c data) (seq 0 (nchunks c (length data))) in
  Forall2 (strip_at file) offs chunks ->
  forall rows0, ((2 <= length chunks)%nat -> rows0 = R) ->
  yields (decode_strips file 0 offs (map (fun c => 2 * Z.of_nat (length c)) chunks) w h cpp rows0 16 LittleE) data.
Proof.
  intros Hf Hlw Hh HR Hd H16 c chunks Hs rows0 Hrows. set (lw := (w * cpp)%nat) in *.
  assert (Hc : (0 < c)%nat) by (unfold c; now apply Nat.mul_pos_pos).
  assert (Hcat : concat chunks = data) by (apply slice_chunks_ok; exact Hc).
  assert (Hne : chunks <> []).
  { intros E. rewrite E in Hcat. cbn in Hcat. rewrite <- Hcat in Hd. cbn in Hd. pose proof (Nat.mul_pos_pos lw h Hlw Hh). lia. }
  destruct (strip_data_ok file chunks offs Hf Hne Hs) as (cont & E & [[-> L2]| ->]); unfold decode_strips; rewrite E; cbn [bind].
  - (* strips *)
    rewrite (Hrows L2). fold lw.
    match goal with |- yields (strips_fn 0 lw h R ?cl) _ => set (closure := cl) end.
    assert (Hex : exists s0, strips_fn 0 lw h R closure = Ok s0).
    { unfold strips_fn, par_chunks. destruct (Nat.eqb_spec (lw * R) 0) as [Z0|_]; [|eauto]. exfalso. unfold c in Hc. lia. }
    destruct Hex as [s0 Es]. exists s0. split; [exact Es|]. intros sched HE.
    rewrite (strips_fn_ok 0 lw h R closure s0 sched Es); [| |exact HE].
    + assert (EN : ((lw * h + lw * R - 1) / (lw * R) = nchunks c (length data))%nat).
      { unfold nchunks. rewrite Hd. unfold c. now rewrite (Nat.mul_comm R lw). }
      rewrite EN. set (N := nchunks c (length data)) in *.
      rewrite (all_some_map_some _ (chunk c data)); [|].
      * unfold chunks in Hcat. now rewrite Hcat.
      * intros i Hi. apply in_seq in Hi. unfold closure.
        assert (EV : nth_error (map bytes16 chunks) i = Some (bytes16 (chunk c data i))).
        { unfold chunks. rewrite map_map. apply (map_nth_error (fun x => bytes16 (chunk c data x))). rewrite (nth_error_nth' _ 0%nat) by (rewrite seq_length; lia).
          now rewrite seq_nth by lia. }
        rewrite EV. set (nl := Nat.min R (h - i * R)).
        assert (Hic : (i * c < length data)%nat).
        { assert (Hi' : (i + 1 <= N)%nat) by lia. unfold N, nchunks in Hi'.
          pose proof (Nat.mul_div_le (length data + c - 1) c ltac:(lia)) as D.
          assert ((i + 1) * c <= (length data + c - 1) / c * c)%nat by (apply Nat.mul_le_mono_r; exact Hi'). lia. }
        assert (Ln : length (chunk c data i) = (nl * lw)%nat).
        { unfold chunk. rewrite firstn_length, skipn_length, Hd. unfold nl, c. rewrite <- Nat.mul_min_distr_r, Nat.mul_sub_distr_r.
          f_equal. lia. }
        rewrite (Nat.mul_comm lw nl).
        rewrite decode16; [|apply Forall_forall; intros x Hx; rewrite Forall_forall in H16; apply H16|exact Hlw|rewrite Ln; lia].
        -- f_equal. cbn [Nat.mul skipn]. apply firstn_all2. rewrite Ln. lia.
        -- rewrite <- (firstn_skipn (i * c) data). apply in_or_app. right.
           unfold chunk in Hx. rewrite <- (firstn_skipn c (skipn (i * c) data)). apply in_or_app. now left.
    + intros i r. unfold closure. destruct (nth_error (map bytes16 chunks) i) as [src|].
      * pose proof (packed_len 16 LittleE src 0 (Nat.min R (h - i * R)) lw) as P.
        replace (Nat.min (lw * R) (lw * h - i * (lw * R)))%nat with (Nat.min R (h - i * R) * lw)%nat; [exact P|].
        rewrite <- Nat.mul_min_distr_r, Nat.mul_sub_distr_r. f_equal; lia.
      * constructor; [|constructor]. intros v v' Hv Hx. discriminate.
  - (* one contiguous view *)
    rewrite Hcat. fold lw.
    pose proof (lines16 data lw h Hlw H16 ltac:(rewrite Hd; lia)) as LN.
    rewrite (firstn_all2 data) in LN by (rewrite Hd; lia). exact LN.
Qed.

(** ** the writer *)
Lemma strip_at_shift pre body ext n c : strip_at body n c -> strip_at (pre ++ body ++ ext) (Z.of_nat (length pre) + n) c.
Proof.
  intros (a & b & -> & <-). exists (pre ++ a), (b ++ ext). rewrite <- !app_assoc, app_length. split; [reflexivity|lia].
Qed.

Lemma put_all lw : (0 < lw)%nat -> forall strips os ss rs buf, exists offs body,
  for_each strips (put_strip lw) (os, ss, rs, buf) =
    Ok (os ++ offs, ss ++ map (fun c => wrap_u32 (2 * Z.of_nat (length c))) strips,
        rs ++ map (fun c => wrap_u32 (Z.of_nat (length c / lw))) strips, buf ++ body) /\
  (2 * length (concat strips) <= length body)%nat /\
  (Z.of_nat (length (buf ++ body)) < 2 ^ 32 ->
   Forall (fun o => o mod 4 = 0 /\ Z.of_nat (length buf) <= o) offs /\
   forall pre ext, length pre = length buf -> Forall2 (strip_at (pre ++ body ++ ext)) offs strips).
Proof.
  intros Hlw. induction strips as [|c strips IH]; intros os ss rs buf.
  - exists [], []. cbn [for_each map concat]. rewrite !app_nil_r. repeat split; auto.
  - cbn [for_each]. unfold put_strip at 1. unfold write_data_u16, write_data.
    replace (lw =? 0)%nat with false by (symmetry; apply Nat.eqb_neq; lia). cbn [bind].
    destruct (pad4_app buf) as [z Hz]. rewrite <- (bytes16_le c).
    destruct (IH (os ++ [tpos (pad4 buf)]) (ss ++ [wrap_u32 (2 * Z.of_nat (length c))])
                (rs ++ [wrap_u32 (Z.of_nat (length c / lw))]) (pad4 buf ++ bytes16 c)) as (offs & body & E & L & P).
    exists (tpos (pad4 buf) :: offs), (z ++ bytes16 c ++ body). rewrite E. cbn [map concat].
    split; [rewrite <- !app_assoc; rewrite Hz, <- !app_assoc; reflexivity|].
    split; [rewrite !app_length, bytes16_length; lia|].
    intros Hlen.
    assert (Hlen' : Z.of_nat (length ((pad4 buf ++ bytes16 c) ++ body)) < 2 ^ 32) by (rewrite Hz, <- !app_assoc; exact Hlen).
    destruct (P Hlen') as [PA PB].
    assert (T : tpos (pad4 buf) = Z.of_nat (length buf + length z)).
    { rewrite tpos_small; rewrite Hz in *; rewrite !app_length in *; lia. }
    pose proof (pad4_aligned buf) as AL. rewrite Hz, app_length in AL.
    split.
    + constructor; [rewrite T; split; [exact AL|lia]|].
      eapply Forall_impl; [|exact PA]. intros o [O1 O2]. split; [exact O1|]. rewrite Hz, !app_length in O2. lia.
    + intros pre ext Hp. constructor.
      * rewrite T, Nat2Z.inj_add, <- Hp. apply strip_at_shift.
        exists z, body. split; reflexivity.
      * replace (pre ++ (z ++ bytes16 c ++ body) ++ ext) with ((pre ++ z ++ bytes16 c) ++ body ++ ext) by (now rewrite <- !app_assoc).
        apply PB. rewrite Hz, !app_length. lia.
Qed.

Lemma rows_per_strip_pos t r h : (0 < r)%nat -> (0 < h)%nat -> (0 < rows_per_strip t r h)%nat.
Proof. intros. unfold rows_per_strip. destruct (t <? h)%nat; lia. Qed.

Lemma strips_roundtrip threshold rps buf w h cpp data :
  (0 < w)%nat -> (0 < h)%nat -> (0 < cpp)%nat -> (0 < rps)%nat -> length data = (w * h * cpp)%nat -> Forall is_u16 data ->
  exists offs sizes rows body,
    put_raw_uncompressed threshold rps buf w h cpp data = Ok (offs, sizes, rows, buf ++ body) /\
    (Z.of_nat (length (buf ++ body)) < 2 ^ 32 -> Forall (fun o => o mod 4 = 0 /\ Z.of_nat (length buf) <= o) offs) /\
    forall pre ext, length pre = length buf -> Z.of_nat (length (pre ++ body ++ ext)) < 2 ^ 32 ->
    yields (decode_strips (pre ++ body ++ ext) 0 offs sizes w h cpp (Z.to_nat (nth 0 rows 0)) 16 LittleE) data.
Proof.
  intros Hw Hh Hcpp Hr Hd H16. unfold put_raw_uncompressed.
  pose proof (rows_per_strip_pos threshold rps h Hr Hh) as HR. set (R := rows_per_strip threshold rps h) in *.
  pose proof (Nat.mul_pos_pos w cpp Hw Hcpp) as Hlw.
  replace (R * w * cpp)%nat with (R * (w * cpp))%nat by lia. set (lw := (w * cpp)%nat) in *.
  pose proof (Nat.mul_pos_pos R lw HR Hlw) as Hc. set (c := (R * lw)%nat) in *.
  destruct (slice_chunks_ok c data Hc) as [-> Hcat]. cbn [bind].
  set (chunks := map (chunk c data) (seq 0 (nchunks c (length data)))) in *.
  destruct (put_all lw Hlw chunks [] [] [] buf) as (offs & body & E & L & P). rewrite E. cbn [app].
  eexists offs, _, _, body. split; [reflexivity|]. split; [intros Hl; now apply P|].
  intros pre ext Hp Hl. rewrite Hcat in L.
  assert (Hd' : length data = (lw * h)%nat) by (rewrite Hd; unfold lw; lia).
  assert (Hsmall : 2 * Z.of_nat (length data) < 2 ^ 32) by (rewrite !app_length in Hl; lia).
  assert (HF : Forall2 (strip_at (pre ++ body ++ ext)) offs chunks).
  { apply P; [|exact Hp]. rewrite !app_length in *. lia. }
  assert (HL : forall x, In x chunks -> (length x <= length data)%nat).
  { intros x Hx. unfold chunks in Hx. apply in_map_iff in Hx as (i & <- & _). unfold chunk. rewrite firstn_length, skipn_length. lia. }
  assert (ES : map (fun c => wrap_u32 (2 * Z.of_nat (length c))) chunks = map (fun c => 2 * Z.of_nat (length c)) chunks).
  { apply map_ext_in. intros x Hx. apply HL in Hx. unfold wrap_u32. apply Z.mod_small. lia. }
  rewrite ES. apply decode_ok; auto.
  fold lw. fold c. fold chunks. intros L2.
  destruct chunks as [|c0 [|c1 rest]] eqn:EC; cbn [length] in L2; try lia. cbn [map nth].
  assert (C0 : c0 = chunk c data 0 /\ (c < length data)%nat).
  { unfold chunks in EC. destruct (nchunks c (length data)) as [|[|n]] eqn:EN; try discriminate. cbn [seq map] in EC.
    split; [congruence|]. unfold nchunks in EN. pose proof (Nat.mul_div_le (length data + c - 1) c ltac:(lia)) as D.
    rewrite EN in D. cbn [Nat.mul] in D. lia. }
  destruct C0 as [-> Hcd]. unfold chunk. cbn [Nat.mul skipn]. rewrite firstn_length, Nat.min_l by lia.
  replace (c / lw)%nat with R by (unfold c; symmetry; apply Nat.div_mul; lia).
  assert (HRc : (R <= c)%nat) by (unfold c; nia).
  unfold wrap_u32. rewrite Z.mod_small by lia. lia.
Qed.

(** ** any placement *)
Lemma chunks_unique {A} c : (0 < c)%nat -> forall (strips : list (list A)) l,
  Forall (fun s => length s = c) strips -> (0 < length l <= c)%nat ->
  strips ++ [l] = map (chunk c (concat (strips ++ [l]))) (seq 0 (nchunks c (length (concat (strips ++ [l]))))).
Proof.
  intros Hc. induction strips as [|s strips IH]; intros l HF Hl.
  - cbn [app concat length]. rewrite app_nil_r.
    assert (E : nchunks c (length l) = 1%nat).
    { unfold nchunks. symmetry. apply Nat.div_unique with (length l - 1)%nat; lia. }
    rewrite E. cbn [seq map]. unfold chunk. cbn [Nat.mul skipn]. now rewrite firstn_all2 by lia.
  - inversion HF as [|? ? Hs HF']; subst. specialize (IH l HF' Hl). cbn [app concat].
    set (D := concat (strips ++ [l])) in *. rewrite app_length.
    assert (E : nchunks (length s) (length s + length D) = S (nchunks (length s) (length D))).
    { unfold nchunks. assert (length D > 0)%nat by (unfold D; rewrite concat_app, app_length; cbn; rewrite app_length; lia).
      replace (length s + length D + length s - 1)%nat with (length D + length s - 1 + 1 * length s)%nat by lia.
      rewrite Nat.div_add by lia. lia. }
    rewrite E. cbn [seq map]. f_equal.
    + unfold chunk. cbn [Nat.mul skipn]. rewrite firstn_app, Nat.sub_diag, firstn_all. cbn [firstn]. now rewrite app_nil_r.
    + rewrite IH at 1. rewrite <- seq_shift, map_map. apply map_ext. intros i. unfold chunk.
      rewrite skipn_app. rewrite (skipn_all2 s) by (cbn; lia). cbn [app]. do 2 f_equal. cbn. lia.
Qed.

Lemma any_placement file offs w h cpp R strips last_ :
  Z.of_nat (length file) < 2 ^ 32 -> (0 < w * cpp)%nat -> (0 < R)%nat ->
  Forall (fun s => length s = (R * (w * cpp))%nat) strips -> (0 < length last_ <= R * (w * cpp))%nat ->
  length (concat (strips ++ [last_])) = (w * cpp * h)%nat -> Forall (Forall is_u16) (strips ++ [last_]) ->
  Forall2 (strip_at file) offs (strips ++ [last_]) ->
  yields (decode_strips file 0 offs (map (fun c => 2 * Z.of_nat (length c)) (strips ++ [last_])) w h cpp R 16 LittleE)
    (concat (strips ++ [last_])).
Proof.
  intros Hf Hlw HR HF Hl Hd H16 Hs.
  pose proof (Nat.mul_pos_pos R _ HR Hlw) as Hc. pose proof (chunks_unique _ Hc strips last_ HF Hl) as EC.
  set (D := concat (strips ++ [last_])) in *. rewrite EC in Hs |- *.
  apply decode_ok; auto.
  - assert (0 < length D)%nat by (unfold D; rewrite concat_app, app_length; cbn; rewrite app_length; lia).
    rewrite Hd in H. destruct h; lia.
  - unfold D. apply Forall_forall. intros x Hx. apply in_concat in Hx as (s & Hs1 & Hs2).
    rewrite Forall_forall in H16. specialize (H16 s Hs1). rewrite Forall_forall in H16. now apply H16.
Qed.

Lemma padded_strips_refuted : exists file offs sizes,
  (* two strips of one sample, 1 and 2, each with two spare bytes inside its byte count *)
  strip_at file (nth 0 offs 0) [1] /\ strip_at file (nth 1 offs 0) [2] /\ length offs = 2%nat /\ sizes = [4; 4] /\
  forall s0, decode_strips file 0 offs sizes 1 2 1 1 16 LittleE = Ok s0 ->
  forall sched, ended (prun 0 sched s0) -> result (prun 0 sched s0) <> Par.POk [1; 2].
Proof.
  Local Transparent le_bytes.
  exists [1; 0; 9; 0; 2; 0; 9; 0], [0; 4], [4; 4].
  split; [exists [], [9; 0; 2; 0; 9; 0]; split; reflexivity|].
  split; [exists [1; 0; 9; 0], [9; 0]; split; reflexivity|]. split; [reflexivity|]. split; [reflexivity|].
  intros s0 E sched HE.
  unfold decode_strips in E.
  change (strip_data [1; 0; 9; 0; 2; 0; 9; 0] 0 [0; 4] [4; 4]) with (Ok ([[1; 0; 9; 0]; [2; 0; 9; 0]], Some (bytes16 [1; 9; 2; 9]))) in E.
  cbn [bind Nat.mul] in E.
  destruct (lines16 [1; 9; 2; 9] 1 2) as (s1 & E1 & R).
  - lia.
  - repeat constructor; unfold is_u16; lia.
  - cbn; lia.
  - change (1 + 0)%nat with 1%nat in E. rewrite E in E1. injection E1 as <-. rewrite R by exact HE. discriminate.
Qed.

Lemma empty_image_refuted threshold rps buf h cpp : put_raw_uncompressed threshold rps buf 0 h cpp [] = Panic.
Proof. unfold put_raw_uncompressed, slice_chunks. now rewrite Nat.mul_0_r. Qed.
