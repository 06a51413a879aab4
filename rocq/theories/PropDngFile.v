(** C59: a picture converted to DNG is read back from the bytes of the file. *)
From Coq Require Import List ZArith Lia Bool Permutation.
From Verif Require Import Base Par Tiff TiffSpec Geom DngMeta Cfa CfaProofs DngFile DngFileSpec DngFileTiff DngFileRead DngFileTop.
Import ListNotations.
Open Scope Z_scope.

(** for all samples, settings and metadata the conversion succeeds, and the
    decoder finds the picture in the file: whatever the order of the hash map with
    the sub directories ([order]) and of the parallel loop ([sched]) *)
Theorem C59_roundtrip : forall p m img,
  image_ok img -> params_ok p img -> cfa_aligned p img -> meta_ok m -> d_photo img <> PBlack ->
  exists file, convert p m img = Ok file /\ (Z.of_nat (length file) < 2 ^ 32 -> forall lost fuel,
    exists i, parse_file (S fuel) lost file 0 0 0 None [] = Some (Ok [i]) /\
      forall order bad, Permutation order (i_sub i) ->
        exists x, raw_start bad file [(i, order)] = Some (Ok x) /\
          (exists sched, ended (prun 0 sched (l_state (fst x)))) /\
          forall sched, ended (prun 0 sched (l_state (fst x))) ->
            exists out, raw_finish sched x = Ok out /\ same_image p bad img out).
Proof. exact file_roundtrip. Qed.
Print Assumptions C59_roundtrip.

(** monochrome pictures are written but never read: the decoder asks for a
    colour filter array *)
Theorem C59_monochrome_refuted : forall p m img,
  image_ok img -> params_ok p img -> meta_ok m -> d_photo img = PBlack ->
  exists file, convert p m img = Ok file /\ (Z.of_nat (length file) < 2 ^ 32 -> forall lost fuel,
    exists i, parse_file (S fuel) lost file 0 0 0 None [] = Some (Ok [i]) /\
      forall order bad, Permutation order (i_sub i) -> raw_start bad file [(i, order)] = Some Err).
Proof. exact file_monochrome. Qed.
Print Assumptions C59_monochrome_refuted.

(** demosaiced pictures with two or four planes stop the converter when colour
    tags are written *)
Theorem C59_planes_refuted : forall p m img, d_photo img = PLinear -> (1 < d_cpp img)%nat -> d_cpp img <> 3%nat -> convert p m img = Panic.
Proof. exact planes_panic. Qed.
Print Assumptions C59_planes_refuted.

(** one white level stands for all planes of the picture *)
Theorem C59_one_white_level : forall es bits cpp n x, urange 16 (Z.of_nat n) -> (1 <= n)%nat -> tag es 277 = Some (VShort [Z.of_nat n]) ->
  ((tag es 50717 = Some (VShort [x]) /\ urange 16 x) \/ (tag es 50717 = Some (VLong [x]) /\ urange 32 x)) ->
  get_white es bits cpp = Ok (repeat x n).
Proof.
  intros es bits cpp n x Hn H1 H2 H3. unfold get_white, fetch. rewrite H2. cbn [bind].
  assert (F : forall m y, 0 <= y < m -> (if (0 <=? y) && (y <? m) then y else 0) = y).
  { intros m y Hy. destruct (Z.leb_spec 0 y); [|lia]. destruct (Z.ltb_spec y m); [reflexivity|lia]. }
  assert (S : fsize (VShort [Z.of_nat n]) 0 = n). { unfold fsize, force. cbn [nth]. rewrite F by (unfold urange in Hn; lia). apply Nat2Z.id. }
  rewrite S. assert (R : (if (1 <? n)%nat then repeat x n else [x]) = repeat x n) by (destruct (Nat.ltb_spec 1 n); [reflexivity|]; now replace n with 1%nat by lia).
  destruct H3 as [[-> Hx]|[-> Hx]]; cbn [vcount length seq map]; unfold f32, force; cbn [nth]; rewrite F by (unfold urange in Hx; lia); now rewrite R.
Qed.
Print Assumptions C59_one_white_level.

(** the hypotheses hold for a Bayer picture with preview, thumbnail and metadata,
    in both compressions; the uncompressed file is computed *)
Definition ex_cfa : cfa := match cfa_new [82; 71; 71; 66] with Ok c => c | _ => mk_cfa [] 0 0 [] end.
Definition ex_img : dimg :=
  mk_dimg 6 4 1 14 (map (fun k => 700 * Z.of_nat k) (seq 0 24)) (PCfa ex_cfa [0; 1; 2]) [15000]
    (mk_black [(512, 1); (513, 1); (514, 1); (515, 1)] 2 2 1) (Some (mk_rect 1 1 4 2)) (Some (mk_rect 2 1 2 2))
    [mk_rect 0 0 1 4] [(1, 1); (1, 1)] (1, 1).
Definition ex_params (lossless thumb : bool) : params := mk_params lossless CropBest 1 true thumb 65536 8 true.
Definition ex_meta : meta :=
  mk_meta [(1, 2); (1, 1); (2, 3)] [(21, [(1, 1); (-1, 2); (0, 1)])] [] [(50735, VAscii [[55]] [])] [] false
    (Some (2, 2, [255; 216; 255; 217], (1, 1, [1; 2; 3]))) [65] [66] 1
    (fun t => if t =? 33434 then Some (VRational [(1, 100)]) else None)
    (Some (fun t => if t =? 0 then Some (VByte [2; 2; 0; 0]) else None))
    None (Some [60; 62]) (Some ([1; 2], [67], None)) None [68] [69].
Lemma ex_writable v : value_ok v -> (0 < vcount v)%nat -> match v with VAscii ss _ => exists s, ss = [s] /\ is_utf8 s = true | VSByte _ | VSShort _ | VFloat _ => False | _ => True end -> writable v.
Proof. intros A B C. split; [exact A|]. split; [exact B|]. destruct v; try exact I; try contradiction; exact C. Qed.
Ltac wr := apply ex_writable; [repeat constructor; cbn; unfold urange, srange; try lia|cbn; lia|try exact I; eexists; split; reflexivity].
Opaque cfa_new.
Example C59_example : image_ok ex_img /\ meta_ok ex_meta /\ d_photo ex_img <> PBlack /\
  forall lossless thumb, params_ok (ex_params lossless thumb) ex_img /\ cfa_aligned (ex_params lossless thumb) ex_img /\
    match convert (ex_params false thumb) ex_meta ex_img with Ok file => Z.of_nat (length file) < 2 ^ 32 | _ => False end.
Proof.
  split; [|split; [|split]].
  - constructor.
    + cbn; lia.
    + cbn; lia.
    + reflexivity.
    + apply Forall_forall. intros x Hx. cbn in Hx. unfold is_u16. lia.
    + split; [reflexivity|]. split; [apply (cfa_new_wf [82; 71; 71; 66]); [vm_compute; reflexivity|discriminate]|]. split; [vm_compute; tauto|wr].
    + split; [reflexivity|]. repeat constructor; unfold urange; lia.
    + cbn. repeat split; repeat constructor; unfold urange; cbn; lia.
    + intros a [= <-]. unfold inside. cbn. lia.
    + intros c [= <-]. unfold inside. cbn. lia.
    + split; [repeat constructor; unfold inside; cbn; lia|cbn; lia].
    + split; [wr|split; unfold urange; cbn; lia].
  - constructor.
    + intros _. wr.
    + constructor; [|constructor]. split; [unfold urange; cbn; lia|wr].
    + split; [|cbn; lia]. cbn. constructor; [|constructor]. split; [unfold urange; cbn; lia|]. split; [wr|]. cbn. lia.
    + cbn. unfold urange. lia.
    + repeat split; try (repeat constructor; cbn; unfold urange; try lia); try (cbn; lia); eexists; split; reflexivity.
    + unfold urange; cbn; lia.
    + intros t v. cbn. destruct (t =? 33434); [intros [= <-]; wr|discriminate].
    + intros t v. destruct (t =? 0); [intros [= <-]; wr|discriminate].
    + exact I.
    + cbn. wr.
    + cbn. split; [wr|]. split; [wr|exact I].
    + exact I.
  - discriminate.
  - intros lossless thumb. split; [|split].
    + destruct lossless; cbn; [|lia]. split; [lia|]. split; [lia|]. intros _. apply Forall_forall. intros x Hx. cbn in Hx. change (2 ^ Z.of_nat 14) with 16384. lia.
    + vm_compute. auto.
    + destruct thumb; vm_compute; reflexivity.
Qed.
