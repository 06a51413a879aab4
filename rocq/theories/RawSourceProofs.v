(** Proofs about the sub views of a source file. *)
From Coq Require Import List ZArith Bool Lia.
From Verif Require Import Base BaseLemmas Bits Tiff TiffSpec TiffBytes RawSource.
Import ListNotations.
Open Scope Z_scope.

Lemma get_range_at buf a n b : 0 <= a -> 0 <= n ->
  (get_range buf a (a + n) = Ok b <-> at_ buf a b /\ Z.of_nat (length b) = n).
Proof.
  intros Ha Hn. unfold get_range. split.
  - destruct (_ && _) eqn:C; [|discriminate]. apply andb_prop in C as [_ C]. apply Z.leb_le in C.
    intros E. apply (rd_inv buf a n b Ha Hn). unfold rd.
    replace (a + n <=? Z.of_nat (length buf)) with true by (symmetry; apply Z.leb_le; lia).
    rewrite <- E. do 2 f_equal. lia.
  - intros [H <-]. pose proof (at_len _ _ _ H).
    replace ((a <=? a + Z.of_nat (length b)) && (a + Z.of_nat (length b) <=? Z.of_nat (length buf))) with true
      by (symmetry; apply andb_true_intro; split; apply Z.leb_le; lia).
    pose proof (rd_at _ _ _ H) as R. unfold rd in R.
    replace (a + Z.of_nat (length b) <=? Z.of_nat (length buf)) with true in R by (symmetry; apply Z.leb_le; lia).
    rewrite <- R. do 2 f_equal. lia.
Qed.

Lemma get_range_in buf a n : 0 <= a -> 0 <= n -> a + n <= Z.of_nat (length buf) ->
  exists b, get_range buf a (a + n) = Ok b.
Proof.
  intros. unfold get_range.
  replace (a <=? a + n) with true by (symmetry; apply Z.leb_le; lia).
  replace (a + n <=? Z.of_nat (length buf)) with true by (symmetry; apply Z.leb_le; lia). now eexists.
Qed.
Lemma get_range_out buf a n : Z.of_nat (length buf) < a + n -> get_range buf a (a + n) = Err.
Proof.
  intros. unfold get_range.
  replace (a + n <=? Z.of_nat (length buf)) with false by (symmetry; apply Z.leb_gt; lia).
  now rewrite andb_false_r.
Qed.

Lemma add_u64_ok a b : a + b < 2 ^ 64 -> add_u64 a b = Ok (a + b).
Proof. intros. unfold add_u64. now replace (a + b <? 2 ^ 64) with true by (symmetry; apply Z.ltb_lt; lia). Qed.
Lemma add_u64_over a b : 2 ^ 64 <= a + b -> add_u64 a b = Panic.
Proof. intros. unfold add_u64. now replace (a + b <? 2 ^ 64) with false by (symmetry; apply Z.ltb_ge; lia). Qed.

Lemma subview_ok buf off size b : 0 <= off -> 0 <= size -> off + size < 2 ^ 64 ->
  (subview buf off size = Ok b <-> at_ buf off b /\ Z.of_nat (length b) = size).
Proof.
  intros. unfold subview. rewrite add_u64_ok by lia. cbn [bind]. now apply get_range_at.
Qed.
Lemma subview_in buf off size : 0 <= off -> 0 <= size -> off + size < 2 ^ 64 -> off + size <= Z.of_nat (length buf) ->
  exists b, subview buf off size = Ok b.
Proof.
  intros. unfold subview. rewrite add_u64_ok by lia. cbn [bind]. now apply get_range_in.
Qed.
Lemma subview_err buf off size : off + size < 2 ^ 64 -> Z.of_nat (length buf) < off + size -> subview buf off size = Err.
Proof.
  intros. unfold subview. rewrite add_u64_ok by lia. cbn [bind]. now apply get_range_out.
Qed.

(** all of subview *)
Lemma subview_total buf off size : 0 <= off -> 0 <= size -> off + size < 2 ^ 64 ->
  (forall b, subview buf off size = Ok b <-> at_ buf off b /\ Z.of_nat (length b) = size) /\
  (off + size <= Z.of_nat (length buf) -> exists b, subview buf off size = Ok b) /\
  (Z.of_nat (length buf) < off + size -> subview buf off size = Err).
Proof.
  intros. split; [intros b; now apply subview_ok|]. split; intros; [now apply subview_in|now apply subview_err].
Qed.

Definition padded_view (buf : list Z) (off size : Z) (p : padded) : Prop :=
  p_size p = size /\ exists b pad, p_buf p = b ++ pad /\ at_ buf off b /\ Z.of_nat (length b) = size /\ length pad = 16%nat.

Lemma padded_in buf off size : Z.of_nat (length buf) < 2 ^ 63 -> 0 <= off -> 0 <= size -> off + size <= Z.of_nat (length buf) ->
  exists p, subview_padded buf off size = Ok p /\ padded_view buf off size p.
Proof.
  intros Hl Ho Hs Hin. unfold subview_padded. rewrite add_u64_ok by lia. cbn [bind].
  replace (off + size <=? Z.of_nat (length buf)) with true by (symmetry; apply Z.leb_le; lia).
  rewrite add_u64_ok by lia. cbn [bind].
  destruct (Z.leb_spec (off + size + 16) (Z.of_nat (length buf))) as [L|L].
  - rewrite add_u64_ok by lia. cbn [bind].
    destruct (subview_in buf off (size + 16)) as [b E]; try lia. rewrite E. cbn [bind].
    eexists. split; [reflexivity|]. apply subview_ok in E as [E El]; try lia.
    split; [reflexivity|]. exists (firstn (Z.to_nat size) b), (skipn (Z.to_nat size) b). cbn [p_buf].
    split; [symmetry; apply firstn_skipn|].
    rewrite <- (firstn_skipn (Z.to_nat size) b) in E. apply at_app in E as [E _].
    split; [exact E|]. rewrite firstn_length, skipn_length. split; lia.
  - destruct (subview_in buf off size) as [b E]; try lia. rewrite E. cbn [bind].
    eexists. split; [reflexivity|]. apply subview_ok in E as [E El]; try lia.
    split; [reflexivity|]. exists b, (repeat 0 16). cbn [p_buf]. repeat split; auto.
Qed.
Lemma padded_out buf off size : off + size < 2 ^ 64 -> Z.of_nat (length buf) < off + size -> subview_padded buf off size = Err.
Proof.
  intros. unfold subview_padded. rewrite add_u64_ok by lia. cbn [bind].
  now replace (off + size <=? Z.of_nat (length buf)) with false by (symmetry; apply Z.leb_gt; lia).
Qed.

Lemma eof_in buf off : 0 <= off <= Z.of_nat (length buf) ->
  exists b, subview_until_eof buf off = Ok b /\ at_ buf off b /\ Z.of_nat (length b) = Z.of_nat (length buf) - off.
Proof.
  intros H. unfold subview_until_eof.
  replace (off <=? Z.of_nat (length buf)) with true by (symmetry; apply Z.leb_le; lia).
  eexists. split; [reflexivity|]. split; [|rewrite skipn_length; lia].
  exists (firstn (Z.to_nat off) buf), []. rewrite app_nil_r, firstn_skipn, firstn_length. split; [reflexivity|lia].
Qed.
Lemma eof_out buf off : Z.of_nat (length buf) < off -> subview_until_eof buf off = Err.
Proof. intros. unfold subview_until_eof. now replace (off <=? Z.of_nat (length buf)) with false by (symmetry; apply Z.leb_gt; lia). Qed.

Lemma eof_padded_in buf off : 0 <= off < Z.of_nat (length buf) ->
  exists p, subview_until_eof_padded buf off = Ok p /\ padded_view buf off (Z.of_nat (length buf) - off) p.
Proof.
  intros H. unfold subview_until_eof_padded.
  replace (off <? Z.of_nat (length buf)) with true by (symmetry; apply Z.ltb_lt; lia).
  destruct (eof_in buf off) as [b [-> [Hb Hl]]]; [lia|]. cbn [bind]. eexists. split; [reflexivity|].
  split; [reflexivity|]. exists b, (repeat 0 16). cbn [p_buf]. repeat split; auto.
Qed.
Lemma eof_padded_out buf off : Z.of_nat (length buf) <= off -> subview_until_eof_padded buf off = Err.
Proof. intros. unfold subview_until_eof_padded. now replace (off <? Z.of_nat (length buf)) with false by (symmetry; apply Z.ltb_ge; lia). Qed.

Lemma c24_exact : forall buf off size, 0 <= off -> 0 <= size -> off + size < 2 ^ 64 ->
  (forall b, subview buf off size = Ok b <-> at_ buf off b /\ Z.of_nat (length b) = size) /\
  (off + size <= Z.of_nat (length buf) -> exists b, subview buf off size = Ok b) /\
  (Z.of_nat (length buf) < off + size -> subview buf off size = Err).
Proof. exact subview_total. Qed.

Lemma c24_padded : forall buf off size, Z.of_nat (length buf) < 2 ^ 63 -> 0 <= off -> 0 <= size -> off + size < 2 ^ 64 ->
  (off + size <= Z.of_nat (length buf) ->
    exists p b pad, subview_padded buf off size = Ok p /\ p_size p = size /\ p_buf p = b ++ pad /\
                    subview buf off size = Ok b /\ length pad = 16%nat) /\
  (Z.of_nat (length buf) < off + size -> subview_padded buf off size = Err).
Proof.
  intros buf off size Hl Ho Hs Hb. split; [|now apply padded_out].
  intros Hin. destruct (padded_in buf off size Hl Ho Hs Hin) as (p & E & Ep & b & pad & Eb & Hat & Lb & Lp).
  exists p, b, pad. repeat split; auto. apply subview_ok; auto.
Qed.

Lemma c24_until_eof : forall buf off, 0 <= off ->
  (off <= Z.of_nat (length buf) -> exists b, subview_until_eof buf off = Ok b /\ at_ buf off b /\
     off + Z.of_nat (length b) = Z.of_nat (length buf)) /\
  (Z.of_nat (length buf) < off -> subview_until_eof buf off = Err).
Proof.
  intros buf off Ho. split; [|apply eof_out]. intros H. destruct (eof_in buf off) as (b & E & A & L); [lia|].
  exists b. repeat split; auto. lia.
Qed.

Lemma c24_until_eof_padded : forall buf off, 0 <= off ->
  (off < Z.of_nat (length buf) ->
     exists p b pad, subview_until_eof_padded buf off = Ok p /\ p_buf p = b ++ pad /\ p_size p = Z.of_nat (length b) /\
                     subview_until_eof buf off = Ok b /\ length pad = 16%nat) /\
  (Z.of_nat (length buf) <= off -> subview_until_eof_padded buf off = Err).
Proof.
  intros buf off Ho. split; [|apply eof_padded_out]. intros H.
  destruct (eof_padded_in buf off) as (p & E & Ep & b & pad & Eb & Hat & Lb & Lp); [lia|].
  exists p, b, pad. repeat split; auto; [lia|].
  destruct (eof_in buf off) as (b' & -> & A' & L'); [lia|]. f_equal.
  pose proof (rd_at _ _ _ A') as R1. pose proof (rd_at _ _ _ Hat) as R2. rewrite L' in R1. rewrite Lb in R2.
  rewrite R1 in R2. now injection R2.
Qed.

(** the overflow of [offset + size] is not caught, and the two end-of-file
    variants disagree on the empty view at the end *)
Lemma c24_overflow : exists buf off size, 0 <= off < 2 ^ 64 /\ 0 <= size < 2 ^ 64 /\
  subview buf off size = Panic /\ subview_padded buf off size = Panic.
Proof. exists [], (2 ^ 64 - 1), 1. repeat split; try reflexivity; lia. Qed.
Lemma c24_empty_tail : forall buf, subview_until_eof buf (Z.of_nat (length buf)) = Ok [] /\
  subview_until_eof_padded buf (Z.of_nat (length buf)) = Err.
Proof.
  intros buf. split; [|apply eof_padded_out; lia].
  destruct (eof_in buf (Z.of_nat (length buf))) as (b & -> & _ & L); [lia|].
  destruct b; [reflexivity|cbn in L; lia].
Qed.
