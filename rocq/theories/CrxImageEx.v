(** Images for the examples of C49. *)
From Coq Require Import List ZArith Bool Lia.
From Verif Require Import Base BaseLemmas Crx CrxSpec Idwt IdwtSpec CrxImage CrxImageSpec CrxEnc.
Import ListNotations.
Open Scope Z_scope.

Definition samples_b (l : list (list Z)) : bool := forallb (forallb (fun v => (- 2 ^ 19 <=? v) && (v <? 2 ^ 19))) l.
Lemma samples_b_ok l : samples_b l = true -> Forall (Forall sample_ok) l.
Proof.
  unfold samples_b. rewrite forallb_forall. intros H. rewrite Forall_forall. intros r Hr. specialize (H r Hr). rewrite forallb_forall in H.
  rewrite Forall_forall. intros v Hv. specialize (H v Hv). rewrite andb_true_iff, Z.leb_le, Z.ltb_lt in H. exact H.
Qed.

Lemma samples_bb l : forallb samples_b l = true -> Forall (Forall (Forall sample_ok)) l.
Proof. rewrite forallb_forall. intros H. rewrite Forall_forall. intros b Hb. apply samples_b_ok, H, Hb. Qed.

(** Two tiles of 6 columns, one level, colour transformed, no loss. *)
Definition ex_desc : image_desc := mk_desc false false 1 12 6 6 8 true.
Definition ex_planes (t k : nat) : plane := fun i j => (i * 3 + j * 5 + Z.of_nat t + Z.of_nat k) mod 7 - 3.

Lemma ex_desc_ok : desc_ok ex_desc.
Proof. unfold desc_ok, ex_desc; cbn. repeat split; try lia. intros [|[|t]]; cbn; lia. Qed.

Lemma ex_bound t k i j : Z.abs (ex_planes t k i j) <= 2 ^ 18.
Proof. unfold ex_planes. pose proof (Z.mod_pos_bound (i * 3 + j * 5 + Z.of_nat t + Z.of_nat k) 7 ltac:(lia)). lia. Qed.

Lemma ex_storable : storable ex_desc ex_planes.
Proof.
  intros t k Ht Hk. change (tiles_across ex_desc) with 2%nat in Ht.
  do 2 (destruct t as [|t]; [do 4 (destruct k as [|k]; [split; [apply samples_bb; vm_compute; reflexivity|vm_compute; reflexivity]|]); lia|]); lia.
Qed.

(** One tile with a QP table: every step is 2. *)
Definition qp_desc : image_desc := mk_desc true true 1 6 6 6 12 false.
Definition qp_planes (t k : nat) : plane := fun i j => 64 * ((i + 2 * j + Z.of_nat k) mod 3 - 1).
Definition qp_values : list (list Z) := [[10]; [11]].
Definition qp_plane (P : plane) : cplane :=
  mk_cplane false (map (fun l => mk_cband (pack (band_code false None [] 0 0 (map (map (fun v => v / 2)) l))) 0 0 0 8) (stored_lines qp_desc 0 P)).
Definition qp_tile : ctile :=
  mk_ctile (pack (qp_code None 0 (map (map (fun q => q - 4)) qp_values))) [] (map (fun k => qp_plane (qp_planes 0 k)) (seq 0 4)).
Definition qp_box : cmp1 := mk_cmp1 0x200 6 6 6 8 12 4 0 1 (zlen (header true true [qp_tile] ++ [0; 0; 1])) 12.

Lemma qp_desc_ok : desc_ok qp_desc.
Proof. unfold desc_ok, qp_desc; cbn. repeat split; try lia. intros [|t]; cbn; lia. Qed.

Lemma qp_describes : describes qp_desc (zlen (header true true [qp_tile] ++ [0; 0; 1])) qp_box.
Proof. unfold describes. repeat split; try reflexivity; try discriminate; cbn; try lia. Qed.

Lemma qp_bound t k i j : Z.abs (qp_planes t k i j) <= 2 ^ 18.
Proof. unfold qp_planes. pose proof (Z.mod_pos_bound (i + 2 * j + Z.of_nat k) 3 ltac:(lia)). lia. Qed.

Definition dequantized_b (f : nat -> nat -> Z) (coeffs lines : list (list Z)) : bool :=
  (length coeffs =? length lines)%nat &&
  forallb (fun r => (length (nth r coeffs []) =? length (nth r lines []))%nat &&
    forallb (fun c => nth c (nth r lines []) 0 =? nth c (nth r coeffs []) 0 * f r c) (seq 0 (length (nth r lines [])))) (seq 0 (length lines)).
Lemma dequantized_b_ok f coeffs lines : dequantized_b f coeffs lines = true -> dequantized f coeffs lines.
Proof.
  unfold dequantized_b. rewrite andb_true_iff, Nat.eqb_eq, forallb_forall. intros (E & H). split; [exact E|].
  intros r Hr. specialize (H r ltac:(apply in_seq; lia)). rewrite andb_true_iff, Nat.eqb_eq, forallb_forall in H. destruct H as (E1 & H). split; [exact E1|].
  intros c Hc. apply Z.eqb_eq. apply H. apply in_seq. lia.
Qed.
Lemma qp_plane_coded k : (k < 4)%nat -> plane_coded qp_desc 0 qp_values (qp_plane (qp_planes 0 k)) (qp_planes 0 k).
Proof.
  intros Hk. unfold plane_coded. change (i_levels qp_desc =? 0)%nat with false. cbv zeta. split.
  - unfold qp_plane. cbn [cp_bands]. rewrite map_length. apply stored_length.
  - intros i b Hb. unfold qp_plane in Hb. cbn [cp_bands] in Hb. rewrite nth_error_map in Hb.
    destruct (nth_error (stored_lines qp_desc 0 (qp_planes 0 k)) i) as [l|] eqn:E; [|discriminate]. cbn [option_map] in Hb. injection Hb as <-.
    assert (i < 4)%nat as Hi. { change 4%nat with (3 * i_levels qp_desc + 1)%nat. rewrite <- (stored_length qp_desc 0 (qp_planes 0 k)). apply nth_error_Some. congruence. }
    exists (map (map (fun v => v / 2)) l). apply (nth_error_nth _ _ []) in E.
    split; [split|split; [|split]].
    + apply samples_b_ok. rewrite <- E. clear -Hk Hi. do 4 (destruct k as [|k]; [do 4 (destruct i as [|i]; [vm_compute; reflexivity|]); lia|]). lia.
    + cbn [cb_bytes cb_unused qp_plane cp_pred andb]. change (Z.to_nat 0) with 0%nat. rewrite Nat.sub_0_r, firstn_all. apply pack_bits.
    + apply dequantized_b_ok. unfold stored_lines in E. rewrite E. rewrite <- E. clear -Hk Hi.
      do 4 (destruct k as [|k]; [do 4 (destruct i as [|i]; [vm_compute; reflexivity|]); lia|]). lia.
    + intros r c. unfold factor. change (i_qp qp_desc) with true. cbv zeta. lia.
    + intros _ H. discriminate H.
Qed.

Lemma qp_image_coded : image_coded qp_desc (fun _ => qp_values) qp_planes [qp_tile].
Proof.
  split; [reflexivity|]. intros [|t] T HT; [|destruct t; discriminate]. injection HT as <-. split; [|split].
  - split; [reflexivity|]. split; [vm_compute; reflexivity|]. split; [vm_compute; reflexivity|]. split; [|discriminate].
    cbn [qp_tile ct_planes]. rewrite Forall_forall. intros p Hp. apply in_map_iff in Hp. destruct Hp as (k & <- & Hk). apply in_seq in Hk.
    rewrite Forall_forall. intros b Hb. cbn [qp_plane cp_bands] in Hb. apply in_map_iff in Hb. destruct Hb as (l & <- & Hl).
    assert (length (band_code false None [] 0 0 (map (map (fun v => (v / 2)%Z)) l)) < 1000)%nat as HL.
    { apply Nat.ltb_lt. revert l Hl. refine (proj1 (forallb_forall (fun l => (length (band_code false None [] 0 0 (map (map (fun v => (v / 2)%Z)) l)) <? 1000)%nat) _) _). clear -Hk. do 4 (destruct k as [|k]; [vm_compute; reflexivity|]). lia. }
    unfold band_ok. cbn [cb_bytes cb_unused cb_q cb_mult cb_base]. unfold zlen. rewrite pack_length.
    pose proof (Nat.div_le_upper_bound (length (band_code false None [] 0 0 (map (map (fun v => v / 2)) l))) 64 1000 ltac:(lia) ltac:(lia)).
    repeat split; lia.
  - intros _. split.
    + split; [reflexivity|]. unfold qp_values. repeat constructor; lia.
    + cbn [qp_tile ct_qp]. apply pack_bits.
  - intros k p Hp. cbn [qp_tile ct_planes] in Hp.
    assert (k < 4)%nat as Hk by (apply (nth_error_Some (map (fun k => qp_plane (qp_planes 0 k)) (seq 0 4)) k); congruence).
    apply (nth_error_nth _ _ (qp_plane (qp_planes 0 0))) in Hp. rewrite nth_map_seq in Hp by exact Hk. subst p. apply qp_plane_coded. exact Hk.
Qed.
