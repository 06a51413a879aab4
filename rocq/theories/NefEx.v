(** Small NEF images. *)
From Coq Require Import List ZArith Lia Bool.
From Coq Require Import ZifyBool ZifyNat.
From Verif Require Import Base BitsSpec LjpegAnySpec CrxImageSpec PefSpec Pef NefSpec NefTop.
Import ListNotations.
Open Scope Z_scope.

(** ** A lossless 12 bit file *)
Definition ll_meta : list Z := [70; 48; 0; 100; 0; 101; 0; 200; 0; 201; 0; 0].
Definition ll_picture (r c : nat) : Z := nth c (nth r [[100; 199; 90; 4095]; [101; 0; 117; 300]] []) 0.
Definition ll_data : list Z := stored (encode_picture 2 (head_init true ll_meta) ll_picture 4 2) [1; 2; 3; 4].
Lemma ll_head : head_ok true ll_meta 12.
Proof.
  unfold head_ok. assert (I : interpolated true ll_meta 12 = false) by reflexivity. assert (T : tabulated true ll_meta 12 = false) by (unfold tabulated; rewrite I; reflexivity).
  split; [repeat constructor; unfold is_byte; lia|]. split; [cbn; lia|]. split; [cbn; lia|]. split; [discriminate|]. rewrite I, T. split; [discriminate|]. intros [|]; discriminate.
Qed.
Lemma ll_within : picture_within ll_picture 4 2 4096 /\ diffs_within (head_init true ll_meta) ll_picture 4 2 12.
Proof.
  split; intros r c Hr Hc.
  - assert (E : forallb (fun r => forallb (fun c => (0 <=? ll_picture r c) && (ll_picture r c <? 4096)) (seq 0 4)) (seq 0 2) = true) by reflexivity.
    rewrite forallb_forall in E. specialize (E r ltac:(apply in_seq; lia)). rewrite forallb_forall in E. specialize (E c ltac:(apply in_seq; lia)). lia.
  - change (2 ^ Z.of_nat 12) with 4096. assert (E : forallb (fun r => forallb (fun c => Z.abs (ll_picture r c - lane_pred (head_init true ll_meta) ll_picture r c) <? 4096) (seq 0 4)) (seq 0 2) = true) by reflexivity.
    rewrite forallb_forall in E. specialize (E r ltac:(apply in_seq; lia)). rewrite forallb_forall in E. specialize (E c ltac:(apply in_seq; lia)). lia.
Qed.
Lemma ll_decoded : nef_decode ll_data ll_meta true 4 2 12 = Ok (map (fun i => lossless_out 12 (ll_picture (i / 4)%nat (i mod 4)%nat) (noise (peekv 24 (byte_bits ll_data)) i)) (seq 0 8)).
Proof.
  apply (nef_lossless true ll_meta 12 4 2 ll_picture [1; 2; 3; 4] ll_head); auto.
  - repeat constructor; unfold is_byte; lia.
  - cbn; lia.
  - apply ll_within.
  - apply ll_within.
Qed.

Lemma ll_example : firstn 10 ll_data = [247; 9; 127; 249; 199; 180; 216; 135; 101; 128] /\
  samples ll_picture 4 2 = [100; 199; 90; 4095; 101; 0; 117; 300] /\
  nef_decode ll_data ll_meta true 4 2 12 = Ok [99; 198; 89; 4095; 100; 0; 116; 299].
Proof. rewrite ll_decoded. split; [vm_compute; reflexivity|]. split; [reflexivity|]. vm_compute. reflexivity. Qed.
(** the lossless file is not decoded to the stored picture *)
Lemma ll_refuted : exists big meta bps w h s tail, head_ok big meta bps /\ version0 meta = 70 /\ bps = 12%nat /\
  Forall is_byte tail /\ (4 <= length tail)%nat /\ (w mod 2 = 0)%nat /\ (0 < w)%nat /\ Z.of_nat (w + h) <= 65000 /\
  picture_within s w h (2 ^ Z.of_nat bps) /\ diffs_within (head_init big meta) s w h bps /\
  exists out, nef_decode (stored (encode_picture (head_code meta bps) (head_init big meta) s w h) tail) meta big w h bps = Ok out /\ out <> samples s w h.
Proof.
  exists true, ll_meta, 12%nat, 4%nat, 2%nat, ll_picture, [1; 2; 3; 4].
  split; [exact ll_head|]. split; [reflexivity|]. split; [reflexivity|]. split; [repeat constructor; unfold is_byte; lia|]. split; [cbn; lia|]. split; [reflexivity|]. split; [lia|]. split; [now apply Z.leb_le|].
  split; [apply ll_within|]. split; [apply ll_within|]. exists [99; 198; 89; 4095; 100; 0; 116; 299]. split; [apply ll_example|]. discriminate.
Qed.

(** ** A lossy file with an interpolated curve and a split row *)
Definition lossy_meta : list Z := [68; 32; 20; 0; 21; 0; 30; 0; 31; 0; 3; 0; 0; 0; 60; 0; 200; 0] ++ repeat 0 544 ++ [1; 0].
Definition lossy_syms : list (nat * Z) := [(4%nat, 3); (4%nat, 0); (5%nat, 20); (4%nat, 3)].
Definition lossy_picture (r c : nat) : Z := nth c (nth r [[23; 27]; [41; -26]] []) 0.
Definition lossy_data : list Z := stored (symbols_bits (row_code false lossy_meta 6) 2 lossy_syms) [0; 0; 0; 0].
Definition lossy_points : list Z := head_curve false lossy_meta 6.
Lemma lossy_head : head_ok false lossy_meta 6.
Proof.
  split; [apply Forall_forall; intros x Hx; unfold lossy_meta in Hx; apply in_app_iff in Hx as [Hx|Hx]; [|apply in_app_iff in Hx as [Hx|Hx]; [apply repeat_spec in Hx; subst; unfold is_byte; lia|]]; cbn [In] in Hx; unfold is_byte; intuition lia|].
  assert (L : length lossy_meta = 564%nat) by reflexivity. rewrite L. split; [cbn; lia|]. split; [cbn; lia|]. split; [discriminate|]. split; [lia|]. intros _. cbn. lia.
Qed.
Definition lut_check (t : list Z) : bool :=
  forallb (fun v => (0 <=? v) && (v <? 65536)) t &&
  forallb (fun i => (0 <=? step_of t i) && (step_of t i <? 65534) && ((nth i t 0 =? 0) || ((step_of t i + 2) / 4 <=? nth i t 0)) &&
    (nth i t 0 - (step_of t i + 2) / 4 + (step_of t i * 2047 + 1024) / 4096 <? 65536)) (seq 0 (length t)).
Lemma lut_check_ok t : lut_check t = true -> lut_ok t.
Proof.
  unfold lut_check. rewrite andb_true_iff. intros [A B]. rewrite forallb_forall in A, B. split.
  - apply Forall_forall. intros x Hx. specialize (A x Hx). unfold is_u16. lia.
  - intros i Hi. specialize (B i ltac:(apply in_seq; lia)). rewrite !andb_true_iff in B. destruct B as [[[B1 B2] B3] B4].
    rewrite orb_true_iff in B3. split; [lia|]. split; [|lia]. intros N. destruct B3 as [B3|B3]; [lia|]. apply Z.leb_le in B3. exact B3.
Qed.
Lemma lossy_curve : curve_for (head_bits lossy_meta 6) lossy_points.
Proof.
  assert (L : length lossy_points = 64%nat) by (vm_compute; reflexivity). split; [rewrite L; cbn; lia|].
  apply lut_check_ok. vm_compute. reflexivity.
Qed.
Lemma lossy_example : head_ok false lossy_meta 6 /\ curve_for (head_bits lossy_meta 6) lossy_points /\ head_split false lossy_meta 6 = 1%nat /\
  (nth 23 lossy_points 0, nth 27 lossy_points 0, nth 41 lossy_points 0, nth 0 lossy_points 0) = (43, 50, 99, 0) /\
  nef_decode lossy_data lossy_meta false 2 2 6 = Ok [43; 49; 98; 0].
Proof.
  split; [exact lossy_head|]. split; [exact lossy_curve|]. split; [reflexivity|]. split; [vm_compute; reflexivity|].
  pose proof (nef_symbols false lossy_meta 6 lossy_syms [0; 0; 0; 0] 2 2 lossy_picture lossy_head lossy_curve) as H. cbv zeta in H. unfold lossy_data. rewrite H; clear H.
  - vm_compute. reflexivity.
  - repeat constructor; unfold is_byte; lia.
  - cbn; lia.
  - reflexivity.
  - lia.
  - now apply Z.leb_le.
  - reflexivity.
  - intros i Hi. do 4 (destruct i; [vm_compute; repeat split; try discriminate; try lia|]). cbn in Hi; lia.
  - intros r c Hr Hc. destruct r as [|[|r]], c as [|[|c]]; try lia; vm_compute; reflexivity.
Qed.
