(** Proofs about the embedded original raw file. *)
From Coq Require Import List ZArith Bool Lia.
From Verif Require Import Base BaseLemmas Bits Tiff TiffSpec TiffBytes Original.
Import ListNotations.
Open Scope Z_scope.

Local Opaque le_bytes enc dec.

Lemma BLOCK_pos : 0 < BLOCK. Proof. reflexivity. Qed.
Lemma BLOCK_nat : (0 < Z.to_nat BLOCK)%nat. Proof. pose proof BLOCK_pos. lia. Qed.

Section Bl.
  Local Opaque BLOCK.
  Lemma blocks_ok : forall fuel data, (length data < fuel)%nat ->
    concat (blocks fuel data) = data /\
    Forall (fun b => b <> [] /\ Z.of_nat (length b) <= BLOCK) (blocks fuel data) /\
    Z.of_nat (length (blocks fuel data)) = div_ceil (Z.of_nat (length data)) BLOCK.
  Proof.
    pose proof BLOCK_pos as Bp. pose proof BLOCK_nat as Bn.
    induction fuel as [|fuel IH]; intros data Hf; [lia|].
    cbn [blocks]. destruct data as [|d data].
    - rewrite firstn_nil. cbn. split; [reflexivity|]. split; [constructor|].
      unfold div_ceil. rewrite Z.div_small; lia.
    - set (B := Z.to_nat BLOCK) in *. assert (HB : Z.of_nat B = BLOCK) by (unfold B; lia). clearbody B.
      assert (Hne : firstn B (d :: data) <> []) by (destruct B; [lia|discriminate]).
      destruct (firstn B (d :: data)) as [|x t] eqn:E; [congruence|]. rewrite <- E in Hne |- *. clear x t E.
      destruct (IH (skipn B (d :: data))) as (H1 & H2 & H3).
      { rewrite skipn_length. cbn [length] in *. lia. }
      cbn [concat length]. split; [rewrite H1; apply firstn_skipn|]. split.
      + constructor; [|exact H2]. split; [exact Hne|]. rewrite firstn_length. lia.
      + rewrite Nat2Z.inj_succ, H3, skipn_length. unfold div_ceil.
        change (S (length data)) with (length (d :: data)). remember (length (d :: data)) as m eqn:Em. set (n := Z.of_nat m). assert (1 <= n) by (unfold n; rewrite Em; cbn [length]; lia).
        destruct (Z.le_gt_cases n BLOCK).
        * replace (Z.of_nat (m - B)) with 0 by lia.
          rewrite (Z.div_small (0 + BLOCK - 1)) by lia.
          apply Z.div_unique with (n - 1); [left; lia|]. change (Z.of_nat m) with n. lia.
        * replace (Z.of_nat (m - B)) with (n - BLOCK) by lia.
          replace (n - BLOCK + BLOCK - 1) with (n + BLOCK - 1 + (-1) * BLOCK) by lia.
          rewrite Z.div_add by lia. lia.
  Qed.
End Bl.

Lemma read_index_at file : forall l p, Forall (urange 32) l -> at_ file p (flat_map (enc BE 4) l) -> read_index file p (length l) = Ok l.
Proof.
  induction l as [|a l IH]; intros p Hl H; [reflexivity|]. cbn [flat_map length read_index] in *.
  inversion Hl as [|? ? A B]; subst. apply at_app in H as [H1 H2]. rewrite enc_length in H2. change (Z.of_nat 4) with 4 in H2.
  rewrite (rd_u32_at BE file p a) by assumption. cbn [bind]. rewrite IH by assumption. reflexivity.
Qed.

Lemma ends_ok : forall cs at0, 0 <= at0 -> at0 + Z.of_nat (length (concat cs)) < 2 ^ 32 ->
  exists es, ends at0 cs = Ok es /\ length es = length cs /\ Forall (urange 32) es.
Proof.
  induction cs as [|c cs IH]; intros at0 H0 H; [exists []; repeat split; constructor|].
  cbn [concat] in H. rewrite app_length, Nat2Z.inj_add in H. cbn [ends]. unfold wrap_u32.
  rewrite Z.mod_small by lia.
  replace (2 ^ 32 <=? at0 + Z.of_nat (length c)) with false by (symmetry; apply Z.leb_gt; lia).
  destruct (IH (at0 + Z.of_nat (length c))) as (es & -> & L & R); try lia. cbn [bind].
  eexists. split; [reflexivity|]. cbn [length]. split; [now rewrite L|]. constructor; [unfold urange; lia|exact R].
Qed.

Lemma read_chunks_at file : forall cs at0 es p, 0 <= at0 -> at0 + Z.of_nat (length (concat cs)) < 2 ^ 32 ->
  ends at0 cs = Ok es -> at_ file p (concat cs) -> read_chunks file p at0 es = Ok cs.
Proof.
  induction cs as [|c cs IH]; intros at0 es p H0 H E A; cbn [ends] in E.
  - injection E as <-. reflexivity.
  - cbn [concat] in *. rewrite app_length, Nat2Z.inj_add in H. unfold wrap_u32 in E. rewrite Z.mod_small in E by lia.
    destruct (2 ^ 32 <=? at0 + Z.of_nat (length c)); [discriminate|].
    destruct (ends (at0 + Z.of_nat (length c)) cs) as [es'| |] eqn:E'; cbn [bind] in E; [|discriminate..].
    injection E as <-. cbn [read_chunks]. apply at_app in A as [A1 A2].
    replace (at0 + Z.of_nat (length c) <? at0) with false by (symmetry; apply Z.ltb_ge; lia).
    replace (at0 + Z.of_nat (length c) - at0) with (Z.of_nat (length c)) by lia.
    rewrite rd_at by assumption. cbn [bind]. rewrite IH with (es := es') by (auto; lia). reflexivity.
Qed.

Section Lib.
  Variable comp decomp : list Z -> option (list Z).
  Variable md5 : list Z -> list Z.
  Definition inverse : Prop := forall b c, comp b = Some c -> decomp c = Some b.
  Definition never_fails : Prop := forall b, b <> [] -> Z.of_nat (length b) <= 65536 -> comp b <> None.

  Lemma unpack_ok : forall bs out t, inverse -> Forall (fun b => comp b <> None) bs ->
    length (keep_ok (map comp bs)) = length bs /\
    exists t', unpack decomp (keep_ok (map comp bs)) out t = Ok (out ++ concat bs, t').
  Proof.
    intros bs out t Hi. revert out t. induction bs as [|b bs IH]; intros out t Hb.
    - cbn. split; [reflexivity|]. exists t. now rewrite app_nil_r.
    - inversion Hb as [|? ? B1 B2]; subst. cbn [map]. unfold keep_ok in *. cbn [flat_map].
      destruct (comp b) as [c|] eqn:Ec; [|congruence]. destruct (IH (out ++ b) (length b) B2) as [L [t' E]].
      cbn [app length unpack concat]. split; [now rewrite L|]. rewrite (Hi _ _ Ec). exists t'. rewrite E. now rewrite <- app_assoc.
  Qed.

  (** size of the written structure before the seven trailing empty forks *)
  Definition structure_size (o : original) : Z :=
    4 + (Z.of_nat (length (o_chunks o)) + 1) * 4 + Z.of_nat (length (concat (o_chunks o))).

  Lemma restore : forall file pos pre post, inverse -> never_fails -> (pos <= length file)%nat ->
    Z.of_nat (length file - pos) < 2 ^ 32 ->
    exists o, compress comp md5 file pos = Ok o /\ o_digest o = Some (md5 (skipn pos file)) /\
      (structure_size o < 2 ^ 32 ->
       exists bytes, write_to_stream o = Ok bytes /\
       exists o', orig_new (pre ++ bytes ++ post) (Z.of_nat (length pre)) (o_digest o) = Ok o' /\
       exists total, decompress decomp md5 o' true = Ok (skipn pos file, total)).
  Proof.
    intros file pos pre post Hi Hn Hp Hl. unfold compress. rewrite usub_ok by lia. cbn [bind].
    replace (2 ^ 32 <=? Z.of_nat (length file - pos)) with false by (symmetry; apply Z.leb_gt; lia).
    set (data := skipn pos file). assert (Ld : length data = (length file - pos)%nat) by apply skipn_length.
    destruct (blocks_ok (S (length data)) data) as (Bc & Bf & Bn); [lia|].
    set (bs := blocks _ data) in *.
    eexists. split; [reflexivity|]. cbn [o_digest]. split; [now rewrite Bc|].
    destruct (unpack_ok bs [] 0 Hi) as [Lk [t' Eu]].
    { eapply Forall_impl; [|exact Bf]. intros b [Hb1 Hb2]. apply Hn; auto. }
    set (cs := keep_ok (map comp bs)) in *. unfold structure_size. cbn [o_chunks]. intros Hs.
    unfold write_to_stream. cbn [o_chunks o_size].
    set (start := 4 + (Z.of_nat (length cs) + 1) * 4) in *.
    assert (Hst : wrap_u32 start = start) by (unfold wrap_u32; apply Z.mod_small; lia). rewrite Hst.
    destruct (ends_ok cs start) as (es & Ee & Le & Re); [lia|lia|]. rewrite Ee. cbn [bind].
    eexists. split; [reflexivity|]. clearbody cs.
    set (n := Z.of_nat (length file - pos)) in *.
    match goal with |- context [orig_new ?f _ _] => set (F := f) end.
    assert (A : at_ F (Z.of_nat (length pre)) (enc BE 4 n ++ flat_map (enc BE 4) (start :: es) ++ concat cs)).
    { exists pre, (flat_map (enc BE 4) (repeat 0 7) ++ post). unfold F. cbn [flat_map]. split; [|reflexivity].
      rewrite <- !app_assoc. reflexivity. }
    clearbody F. apply at_app in A as [A1 A]. apply at_app in A as [A2 A3].
    rewrite enc_length in A2, A3. change (Z.of_nat 4) with 4 in *.
    rewrite (flat_map_length_const _ 4) in A3 by (intros; apply enc_length).
    unfold orig_new. rewrite (rd_u32_at BE F _ n) by (auto; unfold urange; lia). cbn [bind].
    replace (Z.to_nat (div_ceil n BLOCK + 1)) with (length (start :: es)).
    2:{ cbn [length]. rewrite Le, Lk. unfold n. rewrite <- Ld, <- Bn. lia. }
    rewrite (read_index_at F (start :: es)); [|constructor; [unfold urange; lia|exact Re]|exact A2]. cbn [bind].
    rewrite (read_chunks_at F cs start es); [|lia|lia|exact Ee|].
    2:{ replace (Z.of_nat (length pre) + start) with (Z.of_nat (length pre) + 4 + Z.of_nat (length (start :: es) * 4)); [exact A3|].
        cbn [length]. unfold start. lia. }
    cbn [bind]. eexists. split; [reflexivity|]. unfold decompress. cbn [o_chunks o_digest]. rewrite Eu. cbn [bind app].
    rewrite Bc. destruct (list_eq_dec Z.eq_dec (md5 data) (md5 data)) as [_|C]; [|congruence]. cbn. now exists t'.
  Qed.

  Lemma verified : forall o out total, decompress decomp md5 o true = Ok (out, total) -> o_digest o = Some (md5 out).
  Proof.
    intros o out total. unfold decompress. destruct (unpack decomp (o_chunks o) [] 0) as [[u t]| |]; cbn [bind]; [|discriminate..].
    destruct (o_digest o) as [d|]; [|discriminate].
    destruct (list_eq_dec Z.eq_dec d (md5 u)) as [->|C]; cbn; [|discriminate]. intros [= <- <-]. reflexivity.
  Qed.

  (** the reader never panics *)
  Lemma read_index_np file : forall n p, read_index file p n <> Panic.
  Proof.
    induction n; intros p; cbn [read_index]; [discriminate|]. unfold rd_u32.
    pose proof (rd_not_panic file p 4). destruct (rd file p 4); cbn [bind]; try congruence.
    specialize (IHn (p + 4)). destruct (read_index file (p + 4) n); cbn [bind]; congruence.
  Qed.
  Lemma read_chunks_np file : forall es p a, read_chunks file p a es <> Panic.
  Proof.
    induction es as [|e es IH]; intros p a; cbn [read_chunks]; [discriminate|]. destruct (e <? a); [discriminate|].
    pose proof (rd_not_panic file p (e - a)). destruct (rd file p (e - a)); cbn [bind]; try congruence.
    specialize (IH (p + (e - a)) e). destruct (read_chunks file (p + (e - a)) e es); cbn [bind]; congruence.
  Qed.
  Lemma reader_np : forall file start digest, orig_new file start digest <> Panic.
  Proof.
    intros. unfold orig_new, rd_u32. pose proof (rd_not_panic file start 4). destruct (rd file start 4); cbn [bind]; try congruence.
    pose proof (read_index_np file (Z.to_nat (div_ceil (dec BE a) BLOCK + 1)) (start + 4)) as H1.
    destruct (read_index _ _ _) as [[|o es]| |]; cbn [bind]; try congruence.
    pose proof (read_chunks_np file es (start + o) o). destruct (read_chunks _ _ _ _); cbn [bind]; congruence.
  Qed.
End Lib.

Lemma c13_restores : forall (comp decomp : list Z -> option (list Z)) (md5 : list Z -> list Z) file pos pre post,
  (forall b c, comp b = Some c -> decomp c = Some b) ->
  (forall b, b <> [] -> Z.of_nat (length b) <= 65536 -> comp b <> None) ->
  (pos <= length file)%nat -> Z.of_nat (length file - pos) < 2 ^ 32 ->
  exists o, compress comp md5 file pos = Ok o /\ o_digest o = Some (md5 (skipn pos file)) /\
    (4 + (Z.of_nat (length (o_chunks o)) + 1) * 4 + Z.of_nat (length (concat (o_chunks o))) < 2 ^ 32 ->
     exists bytes, write_to_stream o = Ok bytes /\
     exists o', orig_new (pre ++ bytes ++ post) (Z.of_nat (length pre)) (o_digest o) = Ok o' /\
     exists total, decompress decomp md5 o' true = Ok (skipn pos file, total)).
Proof. intros comp decomp md5. exact (restore comp decomp md5). Qed.

Lemma c13_total : exists (decomp : list Z -> option (list Z)) (md5 : list Z -> list Z) o out total,
  decompress decomp md5 o true = Ok (out, total) /\ total <> length out.
Proof. exists (@Some _), (fun l => l), (mk_original 2 [[1]; [2]] (Some [1; 2])), [1; 2], 1%nat. split; [reflexivity|discriminate]. Qed.

Lemma c13_dropped : exists (comp decomp : list Z -> option (list Z)) (md5 : list Z -> list Z) file o bytes,
  (forall b c, comp b = Some c -> decomp c = Some b) /\
  compress comp md5 file 0 = Ok o /\ write_to_stream o = Ok bytes /\ orig_new bytes 0 (o_digest o) = Err.
Proof.
  exists (fun _ => None), (fun _ => None), (fun l => l), [1].
  eexists. eexists. split; [discriminate|]. split; [reflexivity|]. split; reflexivity.
Qed.
