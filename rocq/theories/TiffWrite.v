(** The writer produces well formed directories. *)
From Coq Require Import List ZArith Lia Bool.
From Verif Require Import Base BaseLemmas Bits BitsSpec Tiff TiffSpec TiffBytes TiffRead.
Import ListNotations.
Open Scope Z_scope.

Lemma shl_wrap x k : 0 <= k <= 32 -> wrap_u32 (wrap_u32 x * 2 ^ k) = (x mod 2 ^ (32 - k)) * 2 ^ k.
Proof.
  intros Hk. unfold wrap_u32. assert (0 < 2 ^ k) by (apply Z.pow_pos_nonneg; lia). assert (0 < 2 ^ (32 - k)) by (apply Z.pow_pos_nonneg; lia).
  rewrite Z.mul_mod_idemp_l by lia.
  replace (2 ^ 32) with (2 ^ (32 - k) * 2 ^ k) by (rewrite <- Z.pow_add_r by lia; f_equal; lia).
  now rewrite Z.mul_mod_distr_r by lia.
Qed.
Lemma lor_low a y k : 0 <= k -> 0 <= a < 2 ^ k -> Z.lor a (y * 2 ^ k) = a + 2 ^ k * y.
Proof.
  intros Hk H. rewrite <- (Z2Nat.id k) in * by lia. rewrite Z.lor_comm, lor_add_disjoint by exact H. lia.
Qed.

Lemma or4_1 a : or4 [a] = wrap_u32 a.
Proof. unfold or4. cbn [nth]. change (wrap_u32 (wrap_u32 0 * 2 ^ 8)) with 0. change (wrap_u32 (wrap_u32 0 * 2 ^ 16)) with 0.
  change (wrap_u32 (wrap_u32 0 * 2 ^ 24)) with 0. now rewrite !Z.lor_0_r. Qed.
Lemma or4_2 a b : urange 8 a -> or4 [a; b] = a + 256 * (b mod 2 ^ 24).
Proof.
  intros Ha. unfold urange in *. unfold or4. cbn [nth]. change (wrap_u32 (wrap_u32 0 * 2 ^ 16)) with 0. change (wrap_u32 (wrap_u32 0 * 2 ^ 24)) with 0.
  rewrite !Z.lor_0_r. rewrite (shl_wrap b 8) by lia. unfold wrap_u32. rewrite (Z.mod_small a) by lia.
  apply (lor_low a _ 8); [lia|exact Ha].
Qed.
Lemma or4_3 a b c : urange 8 a -> urange 8 b -> or4 [a; b; c] = a + 256 * (b + 256 * (c mod 2 ^ 16)).
Proof.
  intros Ha Hb. unfold urange in *. unfold or4. cbn [nth]. change (wrap_u32 (wrap_u32 0 * 2 ^ 24)) with 0.
  rewrite !Z.lor_0_r. rewrite (shl_wrap b 8), (shl_wrap c 16) by lia. unfold wrap_u32. rewrite (Z.mod_small a) by lia.
  rewrite (Z.mod_small b) by lia.
  rewrite (lor_low a b 8) by lia. rewrite (lor_low _ _ 16); lia.
Qed.
Lemma or4_4 a b c d : urange 8 a -> urange 8 b -> urange 8 c -> or4 [a; b; c; d] = a + 256 * (b + 256 * (c + 256 * (d mod 2 ^ 8))).
Proof.
  intros Ha Hb Hc. unfold urange in *. unfold or4. cbn [nth].
  rewrite (shl_wrap b 8), (shl_wrap c 16), (shl_wrap d 24) by lia. unfold wrap_u32. rewrite (Z.mod_small a) by lia.
  rewrite (Z.mod_small b), (Z.mod_small c) by lia.
  rewrite (lor_low a b 8) by lia. rewrite (lor_low _ c 16) by lia.
  rewrite (lor_low _ _ 24); lia.
Qed.
Lemma le_bytes_step k a y : urange 8 a -> le_bytes (S k) (a + 256 * y) = a :: le_bytes k y.
Proof.
  unfold urange. change (2 ^ 8) with 256. intros H. rewrite le_bytes_S. replace (a + 256 * y) with (a + y * 256) by lia.
  rewrite Z.mod_add, Z.mod_small, Z.div_add, Z.div_small, Z.add_0_l by lia. reflexivity.
Qed.

(** all elements but the last are bytes: the stored bytes begin with the elements *)
Lemma or4_prefix l : (0 < length l <= 4)%nat -> Forall (urange 8) (removelast l) ->
  exists pad, le_bytes 4 (or4 l) = map (fun x => x mod 256) l ++ pad.
Proof.
  intros HL HF. destruct l as [|a [|b [|c [|d [|e l]]]]]; cbn [length] in HL; try lia; cbn [removelast map] in *;
    repeat match goal with H : Forall _ (_ :: _) |- _ => apply Forall_cons_iff in H; destruct H end.
  - rewrite or4_1. unfold wrap_u32. rewrite (le_bytes_mod 4), le_bytes_S. eexists. reflexivity.
  - rewrite or4_2, le_bytes_step, le_bytes_S by assumption. eexists. cbn [app]. f_equal; [symmetry; now apply Z.mod_small|]. f_equal.
    rewrite <- (Znumtheory.Zmod_div_mod 256 (2 ^ 24)); [reflexivity|lia|lia|exists 65536; reflexivity].
  - rewrite or4_3, !le_bytes_step, le_bytes_S by assumption. eexists. cbn [app]. f_equal; [symmetry; now apply Z.mod_small|]. f_equal; [symmetry; now apply Z.mod_small|]. f_equal.
    rewrite <- (Znumtheory.Zmod_div_mod 256 (2 ^ 16)); [reflexivity|lia|lia|exists 256; reflexivity].
  - rewrite or4_4, !le_bytes_step, le_bytes_S by assumption. eexists. cbn [app]. f_equal; [symmetry; now apply Z.mod_small|]. f_equal; [symmetry; now apply Z.mod_small|].
    f_equal; [symmetry; now apply Z.mod_small|]. f_equal. change (2 ^ 8) with 256. apply Z.mod_mod. lia.
Qed.
Lemma or4_exact l : (0 < length l <= 4)%nat -> Forall (urange 8) l -> le_bytes 4 (or4 l) = l ++ repeat 0 (4 - length l).
Proof.
  intros HL HF. destruct l as [|a [|b [|c [|d [|e l]]]]]; cbn [length] in HL; try lia; cbn [removelast map] in *;
    repeat match goal with H : Forall _ (_ :: _) |- _ => apply Forall_cons_iff in H; destruct H end.
  - rewrite or4_1. unfold wrap_u32. rewrite (le_bytes_mod 4). replace a with (a + 256 * 0) by lia. rewrite le_bytes_step by assumption. replace (a + 256 * 0) with a by lia. reflexivity.
  - rewrite or4_2 by assumption. rewrite Z.mod_small by (unfold urange in *; lia). rewrite le_bytes_step by assumption.
    replace b with (b + 256 * 0) by lia. rewrite le_bytes_step by assumption. replace (b + 256 * 0) with b by lia. reflexivity.
  - rewrite or4_3 by assumption. rewrite Z.mod_small by (unfold urange in *; lia). rewrite !le_bytes_step by assumption.
    replace c with (c + 256 * 0) by lia. rewrite le_bytes_step by assumption. replace (c + 256 * 0) with c by lia. reflexivity.
  - rewrite or4_4 by assumption. rewrite Z.mod_small by (unfold urange in *; lia). rewrite !le_bytes_step by assumption.
    replace d with (d + 256 * 0) by lia. rewrite le_bytes_step by assumption. replace (d + 256 * 0) with d by lia. reflexivity.
Qed.

Lemma le2_split v : le_bytes 2 v = [v mod 256; (v / 256) mod 256].
Proof. rewrite !le_bytes_S. reflexivity. Qed.
Lemma le_bytes_app2 a y : 0 <= a < 65536 -> le_bytes 4 (a + 65536 * y) = le_bytes 2 a ++ le_bytes 2 y.
Proof.
  intros H. rewrite (le_bytes_S 3). replace (a + 65536 * y) with (a + (256 * y) * 256) by lia.
  rewrite Z.mod_add, Z.div_add by lia. rewrite (le_bytes_S 2). replace (a / 256 + 256 * y) with (a / 256 + y * 256) by lia.
  rewrite Z.mod_add, Z.div_add by lia. rewrite (Z.div_small (a / 256)) by (split; [apply Z.div_pos; lia|apply Z.div_lt_upper_bound; lia]).
  now rewrite (le2_split a), Z.add_0_l.
Qed.
Lemma or2_1 a : or2 [a] = wrap_u32 a.
Proof. unfold or2. cbn [nth]. change (wrap_u32 (wrap_u32 0 * 2 ^ 16)) with 0. now rewrite Z.lor_0_r. Qed.
Lemma or2_2 a b : 0 <= a < 65536 -> or2 [a; b] = a + 65536 * (b mod 2 ^ 16).
Proof.
  intros Ha. unfold or2. cbn [nth]. rewrite (shl_wrap b 16) by lia. unfold wrap_u32. rewrite (Z.mod_small a) by lia.
  apply (lor_low a _ 16); [lia|exact Ha].
Qed.
Lemma le4_prefix2 a : exists pad, le_bytes 4 a = le_bytes 2 a ++ pad.
Proof. rewrite (le_bytes_S 3), (le_bytes_S 2), (le2_split a). eexists. reflexivity. Qed.
Lemma or2_prefix l : (0 < length l <= 2)%nat -> Forall (fun x => 0 <= x < 65536) (removelast l) ->
  exists pad, le_bytes 4 (or2 l) = flat_map (le_bytes 2) l ++ pad.
Proof.
  intros HL HF. destruct l as [|a [|b [|c l]]]; cbn [length] in HL; try lia; cbn [removelast flat_map] in *.
  - rewrite or2_1. unfold wrap_u32. rewrite (le_bytes_mod 4), app_nil_r. apply le4_prefix2.
  - inversion HF; subst. rewrite or2_2, le_bytes_app2 by assumption. exists []. rewrite (le_bytes_mod 2), !app_nil_r. reflexivity.
Qed.
Lemma or2_exact l : (0 < length l <= 2)%nat -> Forall (fun x => 0 <= x < 65536) l ->
  le_bytes 4 (or2 l) = flat_map (le_bytes 2) l ++ repeat 0 (4 - 2 * length l).
Proof.
  intros HL HF. destruct l as [|a [|b [|c l]]]; cbn [length] in HL; try lia; cbn [removelast flat_map] in *;
    repeat match goal with H : Forall _ (_ :: _) |- _ => apply Forall_cons_iff in H; destruct H end.
  - rewrite or2_1. unfold wrap_u32. rewrite (le_bytes_mod 4). replace a with (a + 65536 * 0) at 1 by lia.
    rewrite le_bytes_app2 by assumption. rewrite app_nil_r. reflexivity.
  - rewrite or2_2, le_bytes_app2 by assumption. rewrite (le_bytes_mod 2), !app_nil_r. reflexivity.
Qed.

Lemma ascii_nul_ok ss : Forall (fun s => Forall (urange 8) s /\ ~ In 0 s) ss -> ascii_nul ss = Ok (flat_map (fun s => s ++ [0]) ss).
Proof.
  intros H. unfold ascii_nul.
  assert (G : forall out, for_each ss (fun s out => if existsb (Z.eqb 0) s then Panic else Ok (out ++ s ++ [0])) out
      = Ok (out ++ flat_map (fun s => s ++ [0]) ss)).
  { induction H as [|s ss [_ Hs] _ IH]; intros out; cbn [for_each flat_map]; [now rewrite app_nil_r|].
    replace (existsb (Z.eqb 0) s) with false.
    - cbn [bind]. rewrite IH, <- !app_assoc. reflexivity.
    - symmetry. apply not_true_is_false. rewrite existsb_exists. intros [x [Hx E]]. apply Z.eqb_eq in E. now subst. }
  apply (G []).
Qed.
Lemma write_value_ok v : value_ok v -> write_value v = Ok (venc LE v).
Proof. intros [H _]. destruct v; cbn [write_value venc enc]; try reflexivity. now apply ascii_nul_ok. Qed.

Lemma flat_le1 l : flat_map (le_bytes 1) l = map (fun x => x mod 256) l.
Proof. induction l; [reflexivity|]. cbn [flat_map map]. rewrite IHl, le_bytes_S. reflexivity. Qed.

Lemma removelast_forall {A} (P : A -> Prop) l : Forall P l -> Forall P (removelast l).
Proof.
  induction 1 as [|a l Ha Hl IH]; [constructor|]. cbn [removelast]. destruct l; [constructor|]. now constructor.
Qed.
Lemma map_mod_bytes l : Forall (urange 8) l -> map (fun x => x mod 256) l = l.
Proof. induction 1 as [|a l Ha _ IH]; [reflexivity|]. cbn [map]. rewrite IH, Z.mod_small by exact Ha. reflexivity. Qed.

(** the embedded field begins with the serialised value *)
Lemma embed_prefix v : writable v -> (vsize v <= 4)%nat ->
  exists emb pad, as_embedded v = Ok emb /\ le_bytes 4 emb = venc LE v ++ pad.
Proof.
  intros (Hok & Hc & Hw) Hs. destruct Hok as [Hok _]. unfold as_embedded.
  replace (vcount v =? 0)%nat with false by (symmetry; apply Nat.eqb_neq; lia).
  replace (vsize v <=? 4)%nat with true by (symmetry; apply Nat.leb_le; lia). cbn [check negb bind].
  assert (B : forall l, (0 < length l <= 4)%nat -> Forall (urange 8) l -> exists emb pad, Ok (or4 l) = Ok emb /\ le_bytes 4 emb = l ++ pad).
  { intros l H1 H2. do 2 eexists. split; [reflexivity|]. now apply or4_exact. }
  destruct v; cbn [vcount vsize venc] in *.
  - now apply B.
  - rewrite ascii_nul_ok by assumption. cbn [bind]. apply B; [rewrite ascii_count_length; lia|].
    clear - Hok. induction Hok as [|s ss [Hs _] _ IH]; [constructor|]. cbn [flat_map].
    rewrite !Forall_app. repeat split; [exact Hs| |exact IH]. repeat constructor; unfold urange; lia.
  - do 2 eexists. split; [reflexivity|]. apply or2_exact; [lia|exact Hok].
  - destruct l as [|x [|y l]]; cbn [length] in *; try lia. exists (wrap_u32 x), []. split; [reflexivity|].
    unfold wrap_u32. rewrite (le_bytes_mod 4). cbn [flat_map enc]. now rewrite !app_nil_r.
  - destruct l; cbn [length] in *; lia.
  - destruct Hw as [Hw|Hw]; [lia|]. cbn [enc]. rewrite flat_le1.
    destruct (or4_prefix l) as [pad E]; [lia| |eauto].
    apply removelast_forall in Hok. clear - Hw Hok. induction (removelast l); [constructor|]. inversion Hw; inversion Hok; subst.
    constructor; [unfold urange, srange in *; change (2 ^ (8 - 1)) with 128 in *; lia|auto].
  - now apply B.
  - destruct Hw as [Hw|Hw]; [lia|]. cbn [enc].
    destruct (or2_prefix l) as [pad E]; [lia| |eauto].
    apply removelast_forall in Hok. clear - Hw Hok. induction (removelast l); [constructor|]. inversion Hw; inversion Hok; subst.
    constructor; [unfold urange, srange in *; change (2 ^ (16 - 1)) with 32768 in *; lia|auto].
  - destruct l as [|x [|y l]]; cbn [length] in *; try lia. exists (wrap_u32 x), []. split; [reflexivity|].
    unfold wrap_u32. rewrite (le_bytes_mod 4). cbn [flat_map enc]. now rewrite !app_nil_r.
  - destruct l; cbn [length] in *; lia.
  - destruct l; cbn [length] in *; lia.
  - destruct l; cbn [length] in *; lia.
  - destruct Hok. now apply B.
Qed.

(** values whose inline form is exact *)
Definition plain_inline (v : value) : Prop :=
  match v with
  | VSByte l | VSShort l => Forall (fun x => 0 <= x) l
  | VFloat _ => False
  | _ => True
  end.
Lemma embed_exact v : value_ok v -> (0 < vcount v)%nat -> (vsize v <= 4)%nat -> plain_inline v ->
  exists emb w, as_embedded v = Ok emb /\ write_value v = Ok w /\ le_bytes 4 emb = w ++ repeat 0 (4 - length w).
Proof.
  intros Hok Hc Hs Hw. pose proof (write_value_ok v Hok) as W. pose proof (venc_length LE v) as L. destruct Hok as [Hok _].
  unfold as_embedded.
  replace (vcount v =? 0)%nat with false by (symmetry; apply Nat.eqb_neq; lia).
  replace (vsize v <=? 4)%nat with true by (symmetry; apply Nat.leb_le; lia). cbn [check negb bind].
  assert (B : forall l, (0 < length l <= 4)%nat -> Forall (urange 8) l -> write_value v = Ok l ->
     exists emb w, Ok (or4 l) = Ok emb /\ write_value v = Ok w /\ le_bytes 4 emb = w ++ repeat 0 (4 - length w)).
  { intros l H1 H2 H3. do 2 eexists. split; [reflexivity|]. split; [exact H3|]. now apply or4_exact. }
  assert (B2 : forall l, (0 < length l <= 2)%nat -> Forall (fun x => 0 <= x < 65536) l -> write_value v = Ok (flat_map (le_bytes 2) l) ->
     exists emb w, Ok (or2 l) = Ok emb /\ write_value v = Ok w /\ le_bytes 4 emb = w ++ repeat 0 (4 - length w)).
  { intros l H1 H2 H3. do 2 eexists. split; [reflexivity|]. split; [exact H3|]. rewrite (flat_map_length_const _ 2) by (intros; apply le_bytes_length).
    rewrite or2_exact by assumption. do 2 f_equal. lia. }
  destruct v; cbn [vcount vsize venc plain_inline] in *.
  - now apply B.
  - rewrite ascii_nul_ok by assumption. cbn [bind]. apply B; [rewrite ascii_count_length; lia| |exact W].
    clear - Hok. induction Hok as [|s ss [Hs _] _ IH]; [constructor|]. cbn [flat_map].
    rewrite !Forall_app. repeat split; [exact Hs| |exact IH]. repeat constructor; unfold urange; lia.
  - apply B2; [lia|exact Hok|exact W].
  - destruct l as [|x [|y l]]; cbn [length] in *; try lia. exists (wrap_u32 x), (le_bytes 4 x). split; [reflexivity|].
    split; [cbn [write_value flat_map]; now rewrite app_nil_r|]. unfold wrap_u32. rewrite (le_bytes_mod 4), le_bytes_length. cbn [Nat.sub repeat]. now rewrite app_nil_r.
  - destruct l; cbn [length] in *; lia.
  - apply B; [lia| |].
    + clear - Hw Hok. induction l; [constructor|]. inversion Hw; inversion Hok; subst.
      constructor; [unfold urange, srange in *; change (2 ^ (8 - 1)) with 128 in *; lia|auto].
    + cbn [write_value]. rewrite flat_le1, map_mod_bytes; [reflexivity|].
      clear - Hw Hok. induction l; [constructor|]. inversion Hw; inversion Hok; subst.
      constructor; [unfold urange, srange in *; change (2 ^ (8 - 1)) with 128 in *; lia|auto].
  - now apply B.
  - apply B2; [lia| |exact W].
    clear - Hw Hok. induction l; [constructor|]. inversion Hw; inversion Hok; subst.
    constructor; [unfold urange, srange in *; change (2 ^ (16 - 1)) with 32768 in *; lia|auto].
  - destruct l as [|x [|y l]]; cbn [length] in *; try lia. exists (wrap_u32 x), (le_bytes 4 x). split; [reflexivity|].
    split; [cbn [write_value flat_map]; now rewrite app_nil_r|]. unfold wrap_u32. rewrite (le_bytes_mod 4), le_bytes_length. cbn [Nat.sub repeat]. now rewrite app_nil_r.
  - destruct l; cbn [length] in *; lia.
  - easy.
  - destruct l; cbn [length] in *; lia.
  - destruct Hok. now apply B.
Qed.

(** ** Directories *)
Lemma pad4_app buf : exists z, pad4 buf = buf ++ z.
Proof. unfold pad4. destruct (_ =? 0); [exists []; now rewrite app_nil_r|eauto]. Qed.
Lemma tpos_small buf : Z.of_nat (length buf) < 2 ^ 32 -> tpos buf = Z.of_nat (length buf).
Proof. intros. unfold tpos, wrap_u32. apply Z.mod_small. lia. Qed.
Lemma pad4_aligned buf : Z.of_nat (length (pad4 buf)) mod 4 = 0.
Proof.
  unfold pad4. set (t := tpos buf). assert (T : t mod 4 = Z.of_nat (length buf) mod 4).
  { unfold t, tpos, wrap_u32. symmetry. apply (Znumtheory.Zmod_div_mod 4 (2 ^ 32)); [lia|lia|exists 1073741824; reflexivity]. }
  pose proof (Z.mod_pos_bound t 4). destruct (Z.eqb_spec (t mod 4) 0) as [E|E]; [lia|].
  rewrite app_length, repeat_length, Nat2Z.inj_add, Z2Nat.id by lia. rewrite T.
  rewrite <- Z.add_mod_idemp_l by lia.
  replace (Z.of_nat (length buf) mod 4 + (4 - Z.of_nat (length buf) mod 4)) with 4 by lia. reflexivity.
Qed.

(** what the field of an entry must look like *)
Definition field_ok (file : list Z) (lo emb : Z) (v : value) : Prop :=
  (vsize v <= 4)%nat /\ (exists pad, le_bytes 4 emb = venc LE v ++ pad)
  \/ (4 < vsize v)%nat /\ 0 <= emb < 2 ^ 32 /\ lo <= emb /\ at_ file emb (venc LE v).
Lemma build_values_ok : forall es buf, Forall (fun x => writable (snd x)) es ->
  exists embs more, build_values es buf = Ok (embs, buf ++ more) /\ length embs = length es /\
    (Z.of_nat (length (buf ++ more)) < 2 ^ 32 ->
     forall i tag v, nth_error es i = Some (tag, v) -> field_ok (buf ++ more) (Z.of_nat (length buf)) (nth i embs 0) v).
Proof.
  induction es as [|[t v] es IH]; intros buf H.
  - exists [], []. cbn [build_values]. rewrite app_nil_r. split; [reflexivity|]. split; [reflexivity|]. intros _ [|i] ? ? E; discriminate.
  - apply Forall_cons_iff in H. destruct H as [Hv H]. cbn [snd] in Hv. cbn [build_values].
    destruct (4 <? vsize v)%nat eqn:S.
    + apply Nat.ltb_lt in S. rewrite write_value_ok by apply Hv. cbn [bind].
      destruct (pad4_app buf) as [z P].
      destruct (IH (pad4 buf ++ venc LE v) H) as (embs & more & E & L & F). rewrite E. cbn [bind].
      exists (tpos (pad4 buf) :: embs), (z ++ venc LE v ++ more). rewrite P, <- !app_assoc. split; [reflexivity|].
      split; [cbn [length]; lia|]. rewrite P, <- !app_assoc in F. intros B i tag w Hi.
      destruct i as [|i]; cbn [nth_error nth] in *.
      * injection Hi as -> ->. right. rewrite tpos_small by (rewrite !app_length in *; lia).
        split; [exact S|]. split; [rewrite !app_length in *; lia|]. split; [rewrite app_length; lia|].
        rewrite app_assoc. apply at_mid.
      * specialize (F B i tag w Hi). destruct F as [F|(F1 & F2 & F3 & F4)]; [now left|]. right.
        split; [exact F1|]. split; [exact F2|]. split; [|exact F4]. rewrite !app_length in F3. lia.
    + apply Nat.ltb_ge in S. destruct Hv as (Hok & Hc & Hw).
      replace (vcount v =? 0)%nat with false by (symmetry; apply Nat.eqb_neq; lia). cbn [negb assert_ bind].
      destruct (embed_prefix v) as (emb & pad & -> & Ep); [exact (conj Hok (conj Hc Hw))|exact S|]. cbn [bind].
      destruct (IH buf H) as (embs & more & E & L & F). rewrite E. cbn [bind].
      exists (emb :: embs), more. split; [reflexivity|]. split; [cbn [length]; lia|]. intros B i tag w Hi.
      destruct i as [|i]; cbn [nth_error nth] in *; [|now apply (F B i tag w)].
      injection Hi as -> ->. left. eauto.
Qed.

Definition keeps (lo : Z) (f f' : list Z) : Prop := forall p b, lo <= p -> at_ f p b -> at_ f' p b.

Lemma at_sub file p a b c : at_ file p (a ++ b ++ c) -> at_ file (p + Z.of_nat (length a)) b.
Proof. intros H. apply at_app in H. destruct H as [_ H]. apply at_app in H. apply H. Qed.

Lemma records_at (entries : list (Z * value)) embs i tag v :
  length embs = length entries -> nth_error entries i = Some (tag, v) ->
  exists a c, flat_map (fun '((tag, v), emb) => dir_record tag v emb) (combine entries embs) = a ++ dir_record tag v (nth i embs 0) ++ c
    /\ length a = (12 * i)%nat.
Proof.
  revert entries embs. induction i as [|i IH]; intros [|[t w] es] [|emb embs] L H; try discriminate; cbn [nth_error combine flat_map nth length] in *.
  - injection H as -> ->. exists [], (flat_map (fun '((tag, v), emb) => dir_record tag v emb) (combine es embs)). split; reflexivity.
  - destruct (IH es embs) as (a & c & E & La); [lia|exact H|]. rewrite E.
    exists (dir_record t w emb ++ a), c. rewrite <- app_assoc. split; [reflexivity|].
    rewrite app_length. unfold dir_record. rewrite !app_length, !le_bytes_length. lia.
Qed.
Lemma records_length (entries : list (Z * value)) embs : length embs = length entries ->
  length (flat_map (fun '((tag, v), emb) => dir_record tag v emb) (combine entries embs)) = (12 * length entries)%nat.
Proof.
  revert embs. induction entries as [|[t v] es IH]; intros [|e embs] L; try discriminate; [reflexivity|].
  cbn [combine flat_map length] in *. rewrite app_length, IH by lia. unfold dir_record. rewrite !app_length, !le_bytes_length. lia.
Qed.

Lemma dir_build_ok entries next buf :
  entries <> [] -> (length entries <= 4096)%nat -> Forall (fun x => urange 16 (fst x) /\ writable (snd x)) entries -> urange 32 next ->
  exists off more, dir_build entries next buf = Ok (off, buf ++ more) /\
    (Z.of_nat (length (buf ++ more)) < 2 ^ 32 ->
     Z.of_nat (length buf) <= off /\ off mod 4 = 0 /\
     forall file, keeps (Z.of_nat (length buf)) (buf ++ more) file -> dir_at LE file 0 0 off entries next).
Proof.
  intros Hne Hlen Hall Hnext. unfold dir_build.
  replace (length entries =? 0)%nat with false by (symmetry; apply Nat.eqb_neq; destruct entries; [easy|cbn; lia]). cbn [check negb bind].
  assert (Hw : Forall (fun x : Z * value => writable (snd x)) entries) by (eapply Forall_impl; [|exact Hall]; now intros ? []).
  destruct (build_values_ok entries buf Hw) as (embs & m1 & E & L & F). rewrite E. cbn [bind].
  destruct (pad4_app (buf ++ m1)) as [z P].
  set (recs := flat_map (fun '((tag, v), emb) => dir_record tag v emb) (combine entries embs)).
  set (body := le_bytes 2 (Z.of_nat (length entries)) ++ recs ++ le_bytes 4 next).
  exists (tpos (pad4 (buf ++ m1))), (m1 ++ z ++ body).
  split; [rewrite P, <- !app_assoc; reflexivity|]. intros B.
  assert (OFF : tpos (pad4 (buf ++ m1)) = Z.of_nat (length (buf ++ m1 ++ z))).
  { rewrite P, <- app_assoc. apply tpos_small. rewrite !app_length in *. lia. }
  split; [rewrite OFF, !app_length; lia|]. split; [rewrite tpos_small; [apply pad4_aligned|rewrite P, !app_length in *; lia]|].
  intros file K. rewrite OFF. set (off := Z.of_nat (length (buf ++ m1 ++ z))).
  assert (BODY : at_ file off body).
  { apply K; [unfold off; rewrite !app_length; lia|].
    replace (buf ++ m1 ++ z ++ body) with ((buf ++ m1 ++ z) ++ body) by now rewrite <- !app_assoc. apply at_end. }
  assert (LR : length recs = (12 * length entries)%nat) by (apply records_length; exact L).
  assert (LB : length body = (2 + 12 * length entries + 4)%nat) by (unfold body; rewrite !app_length, !le_bytes_length, LR; lia).
  assert (BO : off + Z.of_nat (length body) < 2 ^ 32).
  { unfold off. rewrite !app_length in *. lia. }
  unfold dir_at. rewrite !Z.add_0_l.
  split; [lia|]. split; [unfold off; lia|]. split; [lia|]. split; [exact Hlen|].
  pose proof BODY as B'. unfold body in B'. apply at_app in B'. destruct B' as [B1 B'].
  apply at_app in B'. destruct B' as [B2 B3]. rewrite le_bytes_length in B2, B3. rewrite LR in B3.
  split; [exact B1|]. split; [|split; [exact Hnext|]].
  2:{ replace (off + 2 + 12 * Z.of_nat (length entries)) with (off + Z.of_nat 2 + Z.of_nat (12 * length entries)) by lia. exact B3. }
  intros i tag v Hi. unfold record_at.
  rewrite Forall_forall in Hall. destruct (Hall (tag, v)) as [Ht Hv]; [eapply nth_error_In; exact Hi|]. cbn [fst snd] in *.
  split; [exact Ht|]. split; [apply Hv|].
  destruct (records_at entries embs i tag v L Hi) as (a & c & ER & La). fold recs in ER.
  rewrite ER in B2. apply at_sub in B2. unfold dir_record in B2. rewrite La in B2.
  replace (off + Z.of_nat 2 + Z.of_nat (12 * i)) with (off + 2 + 12 * Z.of_nat i) in B2 by lia.
  change (enc LE) with le_bytes.
  replace (le_bytes 2 tag ++ le_bytes 2 (vtype v) ++ le_bytes 4 (Z.of_nat (vcount v)) ++ le_bytes 4 (nth i embs 0))
    with ((le_bytes 2 tag ++ le_bytes 2 (vtype v) ++ le_bytes 4 (Z.of_nat (vcount v))) ++ le_bytes 4 (nth i embs 0)) in B2 by now rewrite <- !app_assoc.
  apply at_app in B2. destruct B2 as [R1 R2]. split; [exact R1|].
  rewrite !app_length, !le_bytes_length in R2. change (Z.of_nat (2 + (2 + 4))) with 8 in R2.
  destruct (F ltac:(rewrite !app_length in *; lia) i tag v Hi) as [[S [pad Ep]]|(S & Er & El & Ea)].
  - left. split; [exact S|]. exists pad. rewrite <- Ep. split; [apply le_bytes_length|exact R2].
  - right. split; [exact S|]. exists (nth i embs 0). split; [exact Er|]. split; [exact R2|].
    cbv zeta. rewrite Z.add_0_r, Z.mod_small by exact Er. rewrite Z.add_0_l.
    pose proof (at_len _ _ _ Ea) as [_ LE]. rewrite venc_length in LE.
    split; [rewrite !app_length in *; lia|]. split; [lia|]. apply K; [exact El|].
    replace (buf ++ m1 ++ z ++ body) with ((buf ++ m1) ++ z ++ body) by now rewrite <- !app_assoc. now apply at_more.
Qed.
