(** Small subsampled, Hasselblad and Leaf pictures for the examples. *)
From Coq Require Import List ZArith Lia Bool.
From Coq Require Import ZifyBool ZifyNat.
From Verif Require Import Base BaseLemmas Pumps LjpegDec LjpegAnySpec LjpegAny LjpegAnyHead LjpegAnyTop LjpegYuv LjpegLeaf LjpegYuvSpec PefSpec LjpegYuvFin.
Import ListNotations.
Open Scope Z_scope.

(** three components of one table: 0 codes the category 0, 10 the category 3 *)
Definition yuv_dec (v : Z) (rows prec pt : nat) (t : hufft) (buf : list Z) : ljdec :=
  mk_ld buf (mk_sof 2 rows 3 prec [mk_jc 0 0 2 v; mk_jc 1 0 1 1; mk_jc 2 0 1 1] false) 1 pt [t; ht_empty; ht_empty; ht_empty].
Definition demo_tabs : list (list nat * list nat) := [demo_tab; demo_tab; demo_tab].
Lemma demo_hv_small k : (k < length (sizes_of demo_bits))%nat -> (nth k demo_hv 0 <= 16)%nat.
Proof. intros Hk. change (length (sizes_of demo_bits)) with 2%nat in Hk. destruct k as [|[|k]]; cbn; lia. Qed.
Lemma yuv_usable v rows prec pt t buf bug : ht_new demo_bits demo_hv bug = Ok t -> usable bug (yuv_dec v rows prec pt t buf) demo_tabs.
Proof.
  intros Et. split; [reflexivity|]. intros c Hc. change (length demo_tabs) with 3%nat in Hc.
  destruct c as [|[|[|c]]]; [| | |lia].
  - exists (mk_jc 0 0 2 v), t, demo_bits, demo_hv. do 4 (split; [auto; reflexivity|]). exact demo_hv_small.
  - exists (mk_jc 1 0 1 1), t, demo_bits, demo_hv. do 4 (split; [auto; reflexivity|]). exact demo_hv_small.
  - exists (mk_jc 2 0 1 1), t, demo_bits, demo_hv. do 4 (split; [auto; reflexivity|]). exact demo_hv_small.
Qed.
(** +5, 0, -5, 0 *)
Definition demo_planes_422 : planes := mk_planes (fun _ _ => 517) (fun _ _ => 507) (fun _ _ => 512).
Lemma demo_422 : exists t, ht_new demo_bits demo_hv false = Ok t /\ usable false (yuv_dec 1 1 10 0 t [170; 64]) demo_tabs /\
  ljdec_decode_full (yuv_dec 1 1 10 0 t [170; 64]) [7; 7; 7; 7; 7; 7] 0 6 6 1 = Ok [517; 507; 512; 517; 507; 512].
Proof.
  destruct (demo_table false) as [t Et]. exists t. split; [exact Et|]. pose proof (yuv_usable 1 1 10 0 t [170; 64] false Et) as U. split; [exact U|].
  change (ljdec_decode_full (yuv_dec 1 1 10 0 t [170; 64]) [7; 7; 7; 7; 7; 7] 0 6 (6 * 1) 1 = Ok [517; 507; 512; 517; 507; 512]).
  destruct (top_422 false (yuv_dec 1 1 10 0 t [170; 64]) demo_tabs 1 1 demo_planes_422 [7; 7; 7; 7; 7; 7] 0 6 U eq_refl) as [-> _]; auto; try reflexivity; try (cbn; lia).
  - exists (mk_jc 0 0 2 1). repeat split.
  - split; intros; cbn [pl_y pl_cb pl_cr demo_planes_422]; lia.
  - repeat constructor; unfold is_byte; lia.
  - intros r c Hr Hc. replace r with 0%nat by lia. replace c with 0%nat by lia. repeat split; reflexivity.
Qed.
(** rows of blocks with +5, 0, 0, -5, 0, 0: the last luma sample is predicted along the chain *)
Definition demo_planes_420 : planes := mk_planes (fun r c => if (r =? 1)%nat && (c =? 1)%nat then 512 else 517) (fun _ _ => 512) (fun _ _ => 512).
Lemma demo_420 : exists t, ht_new demo_bits demo_hv false = Ok t /\ usable false (yuv_dec 2 2 10 0 t [169; 32]) demo_tabs /\
  ljdec_decode_full (yuv_dec 2 2 10 0 t [169; 32]) (repeat 7 12) 0 6 6 2 = Ok [517; 512; 512; 517; 512; 512; 517; 512; 512; 512; 512; 512] /\
  ljdec_decode_sony (yuv_dec 2 2 10 0 t [169; 32]) (repeat 7 12) 0 6 6 2 = Ok [517; 512; 512; 517; 512; 512; 517; 512; 512; 512; 512; 512].
Proof.
  destruct (demo_table false) as [t Et]. exists t. split; [exact Et|]. pose proof (yuv_usable 2 2 10 0 t [169; 32] false Et) as U. split; [exact U|]. split.
  - change (ljdec_decode_full (yuv_dec 2 2 10 0 t [169; 32]) (repeat 7 12) 0 6 (6 * 1) (2 * 1) = Ok [517; 512; 512; 517; 512; 512; 517; 512; 512; 512; 512; 512]).
    rewrite (top_420 false (yuv_dec 2 2 10 0 t [169; 32]) demo_tabs 1 1 demo_planes_420 (repeat 7 12) 0 6 U eq_refl); auto; try reflexivity; try (cbn; lia).
    + exists (mk_jc 0 0 2 2). repeat split.
    + split; intros; cbn [pl_y pl_cb pl_cr demo_planes_420]; try destruct (_ && _)%bool; lia.
    + repeat constructor; unfold is_byte; lia.
    + intros r c Hr Hc. replace r with 0%nat by lia. replace c with 0%nat by lia. repeat split; reflexivity.
  - change (ljdec_decode_sony (yuv_dec 2 2 10 0 t [169; 32]) (repeat 7 12) 0 6 (6 * 1) (2 * 1) = Ok [517; 512; 512; 517; 512; 512; 517; 512; 512; 512; 512; 512]).
    rewrite (top_sony false (yuv_dec 2 2 10 0 t [169; 32]) demo_tabs 1 1 demo_planes_420 (repeat 7 12) 0 6 U eq_refl); auto; try reflexivity; try (cbn; lia).
    + exists (mk_jc 0 0 2 2). repeat split.
    + split; intros; cbn [pl_y pl_cb pl_cr demo_planes_420]; try destruct (_ && _)%bool; lia.
    + repeat constructor; unfold is_byte; lia.
    + intros r c Hr Hc. replace r with 0%nat by lia. replace c with 0%nat by lia. repeat split; reflexivity.
Qed.
(** a point transform of 7 leaves a middle of 4, and the first difference is -5 *)
Lemma demo_negative : exists t, ht_new demo_bits demo_hv false = Ok t /\ usable false (yuv_dec 1 1 10 7 t [144; 0]) demo_tabs /\
  ljdec_decode_full (yuv_dec 1 1 10 7 t [144; 0]) [7; 7; 7; 7; 7; 7] 0 6 6 1 = Panic.
Proof.
  destruct (demo_table false) as [t Et]. exists t. split; [exact Et|]. pose proof (yuv_usable 1 1 10 7 t [144; 0] false Et) as U. split; [exact U|].
  apply (negative_422 false _ demo_tabs 1); auto; try reflexivity; try (cbn; lia).
  - exists (mk_jc 0 0 2 1). repeat split.
  - repeat constructor; unfold is_byte; lia.
Qed.
(** a table with a code for each category up to 15 *)
Definition wide_bits : list nat := [0; 0; 0; 0; 15; 1; 0; 0; 0; 0; 0; 0; 0; 0; 0; 0; 0]%nat.
Definition wide_hv : list nat := seq 0 16 ++ repeat 0%nat 240.
Lemma wide_table bug : exists t, ht_new wide_bits wide_hv bug = Ok t.
Proof.
  apply ht_new_total; [now apply Nat.leb_le|now apply Nat.leb_le|now apply Z.leb_le|]. intros k Hk. change (length (sizes_of wide_bits)) with 16%nat in Hk.
  do 16 (destruct k; [apply Nat.leb_le; reflexivity|]). lia.
Qed.
Lemma wide_covers : covers (sizes_of wide_bits) wide_hv 15.
Proof. intros cat Hc. do 16 (destruct cat; [vm_compute; discriminate|]). lia. Qed.
(** Hasselblad: +5 and -5 *)
Definition hass_dec (t : hufft) (buf : list Z) : ljdec := mk_ld buf (mk_sof 2 1 1 16 [mk_jc 0 0 1 1] false) 8 0 [t; ht_empty; ht_empty; ht_empty].
Lemma demo_hass : exists t, ht_new demo_bits demo_hv false = Ok t /\ usable false (hass_dec t [0; 0; 128; 170; 0; 0; 0; 0]) [demo_tab] /\
  ljdec_decode_full (hass_dec t [0; 0; 128; 170; 0; 0; 0; 0]) [7; 7] 0 2 2 1 = Ok [32773; 32763].
Proof.
  destruct (demo_table false) as [t Et]. exists t. split; [exact Et|].
  assert (U : usable false (hass_dec t [0; 0; 128; 170; 0; 0; 0; 0]) [demo_tab]).
  { split; [reflexivity|]. intros c Hc. assert (c = 0)%nat by (cbn in Hc; lia). subst c. exists (mk_jc 0 0 1 1), t, demo_bits, demo_hv. do 4 (split; [auto; reflexivity|]). exact demo_hv_small. }
  split; [exact U|]. change (ljdec_decode_full (hass_dec t [0; 0; 128; 170; 0; 0; 0; 0]) [7; 7] 0 2 (2 * 1) 1 = Ok [32773; 32763]). rewrite (top_hass false _ demo_tab 1 1 [7; 7] 0 2 U); auto; try reflexivity; try (cbn; lia).
  - exists (mk_jc 0 0 1 1). repeat split.
  - repeat constructor; unfold is_byte; lia.
  - intros i Hi. replace i with 0%nat by lia. apply Nat.leb_le. reflexivity.
Qed.
(** Leaf: nine rows of two samples; +5 at the start, then -5 in the ninth row *)
Definition leaf_file : list Z :=
  [255; 216; 255; 195; 0; 14; 10; 0; 9; 0; 2; 2; 0; 17; 0; 1; 17; 0;
   255; 196; 0; 21; 0; 1; 1; 0; 0; 0; 0; 0; 0; 0; 0; 0; 0; 0; 0; 0; 0; 0; 3;
   255; 218; 0; 10; 2; 7; 0; 7; 0; 1; 0; 0] ++ leaf_data [168; 0; 0] [(208, [72])] [].
Definition leaf_demo (r c : nat) : Z :=
  if (r <? 8)%nat then (if (c =? 0)%nat then 517 else 512) else (if (c =? 0)%nat then 512 else 507).
Definition leaf_dec (t : hufft) : ljdec :=
  mk_ld (leaf_data [168; 0; 0] [(208, [72])] []) (mk_sof 2 9 2 10 [mk_jc 0 0 1 1; mk_jc 1 0 1 1] true) 1 0 [t; ht_empty; ht_empty; ht_empty].
Lemma leaf_file_new t : ht_new demo_bits demo_hv true = Ok t -> ljdec_new_full leaf_file true true = Ok (leaf_dec t).
Proof.
  intros Et.
  eapply (hl_new leaf_file true true) with (slots := [mk_dht true demo_bits demo_hv; dht_empty; dht_empty; dht_empty]) (s2 := mk_bstream leaf_file 53).
  - reflexivity.
  - vm_compute. reflexivity.
  - cbn [build_dhts dh_init dh_bits dh_huffval]. rewrite Et. reflexivity.
  - cbn. lia.
  - now apply Nat.leb_le.
Qed.
Definition leaf_check (n : nat) : bool :=
  let r := (n / 2)%nat in let c := (n mod 2)%nat in
  leaf_demo r c =? (leaf_pred 512 leaf_demo r c + diff_no true [demo_tab; demo_tab] (byte_bits (leaf_strip [168; 0; 0] [(208, [72])] (r / 8))) (r mod 8 * 2 + c)%nat) mod 65536.
Lemma leaf_demo_picture : leaf_picture 512 (fun k i => diff_no true [demo_tab; demo_tab] (byte_bits (leaf_strip [168; 0; 0] [(208, [72])] k)) i) 2 9 leaf_demo.
Proof.
  assert (A : forallb leaf_check (seq 0 18) = true) by (vm_compute; reflexivity).
  intros r c Hr Hc. rewrite forallb_forall in A. specialize (A (r * 2 + c)%nat). rewrite in_seq in A. specialize (A ltac:(lia)). unfold leaf_check in A.
  replace ((r * 2 + c) / 2)%nat with r in A by (rewrite Nat.div_add_l, Nat.div_small by lia; lia).
  replace ((r * 2 + c) mod 2)%nat with c in A by (rewrite Nat.add_comm, Nat.mod_add by lia; symmetry; apply Nat.mod_small; lia).
  apply Z.eqb_eq in A. exact A.
Qed.
Lemma demo_leaf :
  mos_do_decode leaf_file false 2 9 = Ok [517; 512; 517; 512; 517; 512; 517; 512; 517; 512; 517; 512; 517; 512; 517; 512; 512; 507] /\
  mos_do_decode leaf_file true 2 9 = Ok [517; 512; 517; 512; 517; 512; 517; 512; 512; 507; 517; 512; 517; 512; 517; 512; 517; 512].
Proof.
  destruct (demo_table true) as [t Et]. change (mos_do_decode leaf_file false (2 * 1) 9 = Ok [517; 512; 517; 512; 517; 512; 517; 512; 517; 512; 517; 512; 517; 512; 517; 512; 512; 507] /\
    mos_do_decode leaf_file true (2 * 1) 9 = Ok [517; 512; 517; 512; 517; 512; 517; 512; 512; 507; 517; 512; 517; 512; 517; 512; 517; 512]).
  assert (U : usable true (leaf_dec t) [demo_tab; demo_tab]).
  { split; [reflexivity|]. intros c Hc. cbn [length] in Hc. destruct c as [|[|c]]; [| |lia].
    - exists (mk_jc 0 0 1 1), t, demo_bits, demo_hv. do 4 (split; [auto; reflexivity|]). exact demo_hv_small.
    - exists (mk_jc 1 0 1 1), t, demo_bits, demo_hv. do 4 (split; [auto; reflexivity|]). exact demo_hv_small. }
  destruct (top_leaf leaf_file (leaf_dec t) [demo_tab; demo_tab] 1 9 leaf_demo [168; 0; 0] [(208, [72])] [] (leaf_file_new t Et) U) as [-> ->]; try (cbn; lia); try reflexivity.
  - apply Forall_forall. intros b Hb. assert (X : forallb (fun b => (0 <=? b) && (b <? 256)) (ld_buffer (leaf_dec t)) = true) by reflexivity. rewrite forallb_forall in X. specialize (X b Hb). unfold is_byte. lia.
  - constructor; [|constructor]. unfold separator, is_byte. cbn [fst]. lia.
  - exact leaf_demo_picture.
  - split; reflexivity.
Qed.
