(** LJPEG decoding of arbitrary input: main results and counterexamples. *)
From Coq Require Import List ZArith Lia Bool.
From Coq Require Import ZifyBool ZifyNat.
From Verif Require Import Base BaseLemmas Pumps PumpProofs LjpegDec LjpegAnySpec LjpegAny LjpegAnyScan LjpegAnyHead.
Import ListNotations.
Open Scope Z_scope.

Lemma get_nth_error {A} (l : list A) n a : nth_error l n = Some a -> get l n = Ok a.
Proof. unfold get. now intros ->. Qed.
Lemma usable_tables bug d tabs : usable bug d tabs -> forall c, (c < length tabs)%nat -> exists t, htable d c = Ok t /\ ht_dng_bug t = bug /\
   atable t (fst (nth c tabs ([], []))) (snd (nth c tabs ([], []))).
Proof.
  intros [L H] c Hc. destruct (H c Hc) as (jc & t & bits & hv & E1 & E2 & E3 & E4 & E5). exists t. unfold htable.
  rewrite (get_nth_error _ _ _ E1). cbn [bind]. rewrite (get_nth_error _ _ _ E2). rewrite E4. cbn [fst snd].
  destruct (ht_new_inv _ _ _ _ E3 E5). auto.
Qed.

Lemma any_scan : forall bug d tabs out0 x sw wp h, 
  usable bug d tabs -> (1 <= length tabs)%nat -> (1 <= ld_pred d <= 7)%nat -> (ld_pt d < sof_precision (ld_sof d))%nat ->
  (exists c0, nth_error (sof_comps (ld_sof d)) 0 = Some c0 /\ jc_super_h c0 = 1 /\ jc_super_v c0 = 1) ->
  Forall is_byte (ld_buffer d) -> no_lone_ff (ld_buffer d) ->
  (1 <= wp <= sof_width (ld_sof d))%nat -> (1 <= h <= sof_height (ld_sof d))%nat -> (wp * length tabs <= sw)%nat ->
  ((h - 1) * sw + x + wp * length tabs <= length out0)%nat ->
  exists out, ljdec_decode d out0 x sw (wp * length tabs) h = Ok out /\ length out = length out0 /\
    (forall r c, (r < h)%nat -> (c < wp * length tabs)%nat ->
       nth (r * sw + x + c) out 0
       = (predicted (ld_pred d) (length tabs) (2 ^ Z.of_nat (sof_precision (ld_sof d) - ld_pt d - 1)) (fun r c => nth (r * sw + x + c) out 0) r c
          + diff_no bug tabs (byte_bits (unstuff (ld_buffer d))) (r * (sof_width (ld_sof d) * length tabs) + c)) mod 65536) /\
    (forall j, (forall r c, (r < h)%nat -> (c < wp * length tabs)%nat -> j <> (r * sw + x + c)%nat) -> nth j out 0 = nth j out0 0).
Proof.
  intros bug d tabs out0 x sw wp h HU HC HP HT (c0 & E0 & EH & EV) HB HF HW HH HS HO.
  destruct (decode_any bug d tabs HC HP HT (usable_tables _ _ _ HU) ltac:(symmetry; apply HU) HB HF out0 x sw wp h HW HH HS HO) as (out & E & L & A & B).
  exists out. split.
  - unfold ljdec_decode. rewrite (get_nth_error _ _ _ E0). cbn [bind]. rewrite EH, EV. cbn [Z.eqb Pos.eqb andb].
    replace ((1 <=? ld_pred d) && (ld_pred d <=? 7))%nat with true by lia. exact E.
  - split; [auto|]. split; [exact A|]. intros j Hj. apply B. intros (r & c & Hr & Hc & E'). now apply (Hj r c).
Qed.

(** ** Building a decoder without computing the decode cache *)
Lemma hl_new src bug csfix s1 sof pred pt slots s2 dhts :
  get_next_marker (mk_bstream src 0) false = Ok (216, s1) -> header_loop (S (length src)) (sof_empty csfix) (repeat dht_empty 4) s1 = Ok (sof, pred, pt, slots, s2) ->
  build_dhts slots bug = Ok dhts -> (1 <= length (sof_comps sof))%nat -> (b_pos s2 <= length src)%nat ->
  ljdec_new_full src bug csfix = Ok (mk_ld (skipn (b_pos s2) src) sof pred pt dhts).
Proof.
  intros E1 E2 E3 E4 E5. unfold ljdec_new_full. rewrite E1. cbn [bind]. change (check (216 =? 216)) with (Ok tt). cbn [bind]. rewrite E2. cbn [bind]. rewrite E3. cbn [bind].
  destruct (sof_comps sof) as [|c0 cs] eqn:Ec; [cbn in E4; lia|]. cbn [get nth_error bind].
  rewrite slice_ok by lia. cbn [bind]. rewrite firstn_all2 by (rewrite skipn_length; lia). reflexivity.
Qed.

Definition demo_bits : list nat := [0; 1; 1; 0; 0; 0; 0; 0; 0; 0; 0; 0; 0; 0; 0; 0; 0]%nat.
Definition demo_hv : list nat := [0; 3]%nat ++ repeat 0%nat 254.
Definition demo_tab : list nat * list nat := (sizes_of demo_bits, demo_hv).
Lemma demo_table bug : exists t, ht_new demo_bits demo_hv bug = Ok t.
Proof. apply ht_new_total; [now apply Nat.leb_le|now apply Nat.leb_le|now apply Z.leb_le|]. intros k Hk. change (length (sizes_of demo_bits)) with 2%nat in Hk. destruct k as [|[|k]]; cbn; lia. Qed.

Lemma any_file_new : exists t, ht_new demo_bits demo_hv false = Ok t /\
  ljdec_new any_file = Ok (mk_ld [85; 39; 255; 217] (mk_sof 2 2 1 10 [mk_jc 0 0 1 1] false) 1 0 [t; ht_empty; ht_empty; ht_empty]).
Proof.
  destruct (demo_table false) as [t Et]. exists t. split; [auto|]. unfold ljdec_new.
  eapply (hl_new any_file false false) with (slots := [mk_dht true demo_bits demo_hv; dht_empty; dht_empty; dht_empty]) (s2 := mk_bstream any_file 48).
  - reflexivity.
  - vm_compute. reflexivity.
  - cbn [build_dhts dh_init dh_bits dh_huffval]. rewrite Et. reflexivity.
  - cbn. lia.
  - now apply Nat.leb_le.
Qed.
Lemma any_file_usable t : ht_new demo_bits demo_hv false = Ok t ->
  usable false (mk_ld [85; 39; 255; 217] (mk_sof 2 2 1 10 [mk_jc 0 0 1 1] false) 1 0 [t; ht_empty; ht_empty; ht_empty]) [demo_tab].
Proof.
  intros Et. split; [reflexivity|]. intros c Hc. cbn in Hc. assert (c = 0%nat) by lia. subst c. exists (mk_jc 0 0 1 1), t, demo_bits, demo_hv.
  split; [reflexivity|]. split; [reflexivity|]. split; [auto|]. split; [reflexivity|].
  intros k Hk. change (length (sizes_of demo_bits)) with 2%nat in Hk. destruct k as [|[|k]]; cbn; lia.
Qed.

(** ** Counterexamples *)
Lemma trunc_panics : ljdec_new [255; 216; 255] = Panic /\ ljdec_new [255; 216] = Panic /\ ljdec_new [255; 216; 255; 195; 0] = Panic.
Proof. repeat split; vm_compute; reflexivity. Qed.
Lemma no_dht_panics : exists d, ljdec_new no_dht = Ok d /\ ljdec_decode d [0] 0 1 1 1 = Panic.
Proof. exists (mk_ld [0; 0] (mk_sof 1 1 1 10 [mk_jc 0 0 1 1] false) 1 0 [ht_empty; ht_empty; ht_empty; ht_empty]). split; vm_compute; reflexivity. Qed.
Lemma category_panics : ljdec_new (one_code 40) = Panic.
Proof. vm_compute. reflexivity. Qed.
Lemma kraft_panics : ljdec_new three_codes = Panic.
Proof. vm_compute. reflexivity. Qed.
Lemma pt_panics d out x sw w h : (sof_precision (ld_sof d) <= ld_pt d)%nat -> (w <= sof_width (ld_sof d) * length (sof_comps (ld_sof d)))%nat -> (h <= sof_height (ld_sof d))%nat ->
  decode_ljpeg d out x sw w h = Panic.
Proof.
  intros HP HW HH. unfold decode_ljpeg, ljdec_ncomp. replace (_ || _) with false by (symmetry; apply orb_false_intro; lia). cbn [negb check bind].
  unfold usub. destruct (Nat.leb_spec (ld_pt d) (sof_precision (ld_sof d))); [|reflexivity]. cbn [bind].
  replace (sof_precision (ld_sof d) - ld_pt d)%nat with 0%nat by lia. reflexivity.
Qed.
Lemma lone_panics d t out x sw w h : ld_buffer d = [255] -> htable d 0 = Ok t -> (ld_pt d < sof_precision (ld_sof d))%nat ->
  (w <= sof_width (ld_sof d) * length (sof_comps (ld_sof d)))%nat -> (h <= sof_height (ld_sof d))%nat ->
  decode_ljpeg d out x sw w h = Panic.
Proof.
  intros HB HT HP HW HH. unfold decode_ljpeg, ljdec_ncomp. replace (_ || _) with false by (symmetry; apply orb_false_intro; lia). cbn [negb check bind].
  rewrite usub_ok by lia. cbn [bind]. rewrite usub_ok by lia. cbn [bind].
  assert (1 <= length (sof_comps (ld_sof d)))%nat. { unfold htable in HT. destruct (sof_comps (ld_sof d)); [discriminate|cbn; lia]. }
  destruct (length (sof_comps (ld_sof d))) as [|n] eqn:En; [lia|]. cbn [seq for_each]. rewrite HT, HB. reflexivity.
Qed.

Lemma two_sofs_new : exists t, ht_new demo_bits demo_hv false = Ok t /\
  ljdec_new two_sofs = Ok (mk_ld [85; 39; 255; 217] (mk_sof 1 1 1 10 [mk_jc 0 0 1 1; mk_jc 1 0 1 1] false) 1 0 [t; ht_empty; ht_empty; ht_empty]).
Proof.
  destruct (demo_table false) as [t Et]. exists t. split; [auto|]. unfold ljdec_new.
  eapply (hl_new two_sofs false false) with (slots := [mk_dht true demo_bits demo_hv; dht_empty; dht_empty; dht_empty]) (s2 := mk_bstream two_sofs 61).
  - reflexivity.
  - vm_compute. reflexivity.
  - cbn [build_dhts dh_init dh_bits dh_huffval]. rewrite Et. reflexivity.
  - cbn. lia.
  - now apply Nat.leb_le.
Qed.
Lemma two_sofs_panics : ljpeg_decompress two_sofs 0 1 1 1 = Panic.
Proof.
  destruct two_sofs_new as (t & Et & E). unfold ljpeg_decompress. rewrite E. cbn [bind].
  unfold ljdec_decode, ljdec_width, ljdec_height. cbn [ld_sof sof_comps sof_width sof_height sof_cps get nth_error bind jc_super_h jc_super_v Z.eqb Pos.eqb andb ld_pred Nat.leb].
  destruct (ht_new_inv _ _ _ _ Et) as [A _]. { intros k Hk. change (length (sizes_of demo_bits)) with 2%nat in Hk. destruct k as [|[|k]]; cbn; lia. }
  assert (R0 : jpeg_rep 32 (jpump_new [85; 39; 255; 217]) (byte_bits (unstuff [85; 39; 255; 217]))).
  { apply jpeg_new_rep; [repeat constructor; unfold is_byte; lia|cbn; auto]. }
  destruct (huff_decode_any jpeg_ops jpeg_rep jpeg_refines t _ _ 32 _ _ A (Nat.le_refl _) R0) as (p1 & E1 & R1).
  destruct (huff_decode_any jpeg_ops jpeg_rep jpeg_refines t _ _ 32 _ _ A (Nat.le_refl _) R1) as (p2 & E2 & _).
  unfold decode_ljpeg, ljdec_ncomp. cbn [ld_sof sof_comps sof_width sof_height sof_cps length Nat.mul Nat.add Nat.ltb Nat.leb orb negb check bind sof_precision ld_pt seq for_each ld_buffer].
  change (usub 10 0) with (@Ok nat 10%nat). cbn [bind]. change (usub 10 1) with (@Ok nat 9%nat). cbn [bind]. cbn [htable ld_sof sof_comps ld_dhts get nth_error bind jc_tbl].
  rewrite E1. cbn [bind]. cbn [put]. cbn [repeat length Nat.ltb Nat.leb bind]. unfold put at 1. cbn [length Nat.ltb Nat.leb bind]. rewrite E2. cbn [bind].
  match goal with |- context [put ?o ?i ?v] => destruct (put o i v) eqn:P end.
  - apply put_inv in P as [P _]. rewrite ?upd_list_length in P. cbn in P. lia.
  - unfold put in P. destruct (_ <? _)%nat; discriminate.
  - reflexivity.
Qed.

Lemma any_frame : forall d out0 x sw w h out, ljdec_decode d out0 x sw w h = Ok out ->
  length out = length out0 /\ (forall j, ~ in_frame (length (sof_comps (ld_sof d))) sw x w h j -> nth j out 0 = nth j out0 0) /\
  (Forall is_u16 out0 -> Forall is_u16 out).
Proof.
  intros d out0 x sw w h out H. unfold ljdec_decode in H. apply bind_ok in H as (c0 & _ & H). destruct (_ && _); [|discriminate]. destruct (_ && _); [|discriminate].
  exact (decode_framed d out0 x sw w h out H).
Qed.
Lemma any_terminates : forall src csfix s n, Forall is_byte src -> b_buf s = src -> (length src < n)%nat ->
  header_loop n (sof_empty csfix) (repeat dht_empty 4) s = header_loop (S (length src)) (sof_empty csfix) (repeat dht_empty 4) s /\
  skip_to_marker_loop n s = skip_to_marker_loop (S (length src)) s.
Proof. intros src csfix s n F E H. split; [now apply header_total|]. apply skip_fuel; rewrite E; lia. Qed.
Lemma any_dht_terminates : forall len slots s n, Forall is_byte (b_buf s) -> 0 <= len -> (Z.to_nat len < n)%nat ->
  parse_dht_loop n len slots s = parse_dht_loop (S (Z.to_nat len)) len slots s.
Proof. intros len slots s n F L H. apply dht_fuel; [exact F|auto|lia|lia]. Qed.
Lemma demo_diffs : forall i, (i < 4)%nat -> diff_no false [demo_tab] (byte_bits (unstuff [85; 39; 255; 217])) i = nth i [0; 5; 0; -5] 0.
Proof. intros [|[|[|[|i]]]] H; [vm_compute; reflexivity..|lia]. Qed.
Lemma demo_vals out : length out = 6%nat -> nth 2 out 0 = 7 -> nth 5 out 0 = 7 ->
  (forall r c, (r < 2)%nat -> (c < 2)%nat -> nth (r * 3 + 0 + c) out 0 = (predicted 1 1 512 (fun r c => nth (r * 3 + 0 + c) out 0) r c + nth (r * 2 + c) [0; 5; 0; -5] 0) mod 65536) ->
  out = [512; 517; 7; 512; 507; 7].
Proof.
  intros L B0 B1 A. destruct out as [|a [|b [|c [|e [|f [|g [|]]]]]]]; try discriminate L. cbn in B0, B1. subst c g.
  assert (L0 : (0 < 2)%nat) by auto. assert (L1 : (1 < 2)%nat) by auto.
  pose proof (A 0%nat 0%nat L0 L0) as A0. pose proof (A 0%nat 1%nat L0 L1) as A1. pose proof (A 1%nat 0%nat L1 L0) as A2. pose proof (A 1%nat 1%nat L1 L1) as A3. clear A.
  cbn in A0. subst a. cbn in A1. subst b. cbn in A2. subst e. cbn in A3. subst f. reflexivity.
Qed.
Lemma range_new src d : Forall is_byte src -> ljdec_new src = Ok d -> in_range d.
Proof. intros F E. now apply (header_range src false false d). Qed.
Lemma any_demo : exists d out, ljdec_new any_file = Ok d /\ in_range d /\ ljdec_decode d [7; 7; 7; 7; 7; 7] 0 3 2 2 = Ok out /\ out = [512; 517; 7; 512; 507; 7].
Proof.
  destruct any_file_new as (t & Et & E). set (d := mk_ld _ _ _ _ _) in E. pose proof (any_file_usable t Et) as U. fold d in U.
  destruct (any_scan false d [demo_tab] [7; 7; 7; 7; 7; 7] 0 3 2 2 U) as (out & ED & L & A & B);
    [cbn; lia|cbn; lia|cbn; lia|exists (mk_jc 0 0 1 1); auto|repeat constructor; unfold is_byte; lia|cbn; auto|cbn; lia|cbn; lia|cbn; lia|cbn; lia|].
  change (length [demo_tab]) with 1%nat in ED, A, B. rewrite Nat.mul_1_r in ED, A, B.
  exists d, out. split; [exact E|]. split.
  { apply (range_new any_file d); [|exact E]. repeat constructor; unfold is_byte; lia. }
  split; [exact ED|]. apply demo_vals; [exact L| | |].
  - apply B. clear. intros. lia.
  - apply B. clear. intros. lia.
  - intros r c Hr Hc. rewrite A by auto. change (sof_width (ld_sof d)) with 2%nat. change (ld_buffer d) with [85; 39; 255; 217].
    rewrite demo_diffs by lia. reflexivity.
Qed.
