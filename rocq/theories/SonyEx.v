(** Small ARW images. *)
From Coq Require Import List ZArith Lia Bool.
From Coq Require Import ZifyBool ZifyNat.
From Verif Require Import Base BitsSpec CrxImageSpec PefSpec NefSpec Sony SonySpec SonyArw1 SonyArw2 SonyTop.
Import ListNotations.
Open Scope Z_scope.

Definition a1_picture (r c : nat) : Z := nth c (nth r [[100; 7; 65535]; [101; 0; 42]; [90; 300; 41]; [0; 4095; 9]] []) 0.
Definition a1_data : list Z := stored (arw1_encode a1_picture 3 4) [1; 2; 3; 4].
Lemma a1_within : picture_within a1_picture 3 4 65536.
Proof.
  intros r c Hr Hc. assert (E : forallb (fun r => forallb (fun c => (0 <=? a1_picture r c) && (a1_picture r c <? 65536)) (seq 0 3)) (seq 0 4) = true) by reflexivity.
  rewrite forallb_forall in E. specialize (E r ltac:(apply in_seq; lia)). rewrite forallb_forall in E. specialize (E c ltac:(apply in_seq; lia)). lia.
Qed.
Lemma a1_example : firstn 8 a1_data = [0; 3; 255; 254; 0; 4; 0; 167] /\ arw1_decode a1_data 3 4 = Ok [100; 7; 65535; 101; 0; 42; 90; 300; 41; 0; 4095; 9].
Proof.
  split; [reflexivity|]. unfold a1_data. rewrite arw1_roundtrip; [reflexivity|reflexivity|lia|exact a1_within| |cbn; lia]. repeat constructor; unfold is_byte; lia.
Qed.

Definition a2_row : list Z := [5; 700; 10; 701; 15; 702; 20; 703; 25; 704; 30; 705; 35; 706; 40; 707; 45; 1500; 50; 709; 55; 710; 60; 711; 65; 712; 70; 713; 75; 714; 2047; 715].
Definition a2_picture (r c : nat) : Z := nth c a2_row 0 - Z.of_nat r.
Definition a2_data : list Z := arw2_encode a2_picture 32 2.
Lemma a2_within r c : (r < 2)%nat -> (c < 32)%nat -> 0 <= a2_picture r c < 2048.
Proof.
  intros Hr Hc. assert (E : forallb (fun r => forallb (fun c => (0 <=? a2_picture r c) && (a2_picture r c <? 2048)) (seq 0 32)) (seq 0 2) = true) by reflexivity.
  rewrite forallb_forall in E. specialize (E r ltac:(apply in_seq; lia)). rewrite forallb_forall in E. specialize (E c ltac:(apply in_seq; lia)). lia.
Qed.
Definition a2_values (r : nat) : list Z := map (fun c => quantized (block_of a2_picture r (block_no c)) (block_ix c)) (seq 0 32).
Lemma a2_example :
  nth 1 (a2_values 0) 0 = 700 /\
  nth 14 (a2_values 0) 0 = 37 /\ a2_picture 0 14 = 40.
Proof. split; [reflexivity|]. split; reflexivity. Qed.
Lemma a2_decoded : exists lut, sony_curve [8000; 10400; 12900; 14100] = Ok lut /\
  arw2_decode lut a2_data 32 2 =
    Ok (flat_map (fun r => map (fun c => dithered (sony_table 8000 10400 12900 14100) (Z.to_nat (2 * quantized (block_of a2_picture r (block_no c)) (block_ix c)))
      (noise (row_seed a2_picture r) (16 * block_no c + block_ix c))) (seq 0 32)) (seq 0 2)).
Proof.
  assert (K : knot_of 8000 = 2000 /\ knot_of 10400 = 2600 /\ knot_of 12900 = 3225 /\ knot_of 14100 = 3525) by (repeat split; reflexivity). destruct K as (K1 & K2 & K3 & K4).
  pose proof (arw2_file a2_picture 32 2 [] 8000 10400 12900 14100) as H. rewrite app_nil_r in H. rewrite K1, K2, K3, K4 in H. apply H; try lia; [apply Forall_nil|exact a2_within].
Qed.
(** columns after the last whole stretch of 32 stay 0 *)
Lemma arw2_leftover curve V w c : (32 * (w / 32) <= c)%nat -> (c < w)%nat -> nth c (arw2_line curve V w) 0 = 0.
Proof.
  intros H Hc. unfold arw2_line. rewrite BaseLemmas.nth_map_seq by auto. cbn [plus]. replace (c <? 32 * (w / 32))%nat with false by lia. reflexivity.
Qed.
(** a block whose extremes are in the wrong order *)
Lemma crossed_example lut : arw2_decode lut ([0; 8; 0; 0] ++ repeat 0 28) 32 1 = Panic.
Proof.
  apply arw2_crossed; [|cbn; lia|lia|lia|vm_compute; reflexivity].
  apply Forall_app. split; [repeat constructor; unfold is_byte; lia|]. apply Forall_forall. intros x Hx. apply repeat_spec in Hx. subst. unfold is_byte. lia.
Qed.
Lemma odd_example : exists out, arw1_decode (repeat 0 40) 1 3 = Ok out /\ out <> [] /\ nth 1 out 1 = 0.
Proof. eexists. split; [vm_compute; reflexivity|]. split; [discriminate|reflexivity]. Qed.
