(** Panasonic: examples. *)
From Coq Require Import List ZArith Lia Bool.
From Verif Require Import Base PanaSpec.
Import ListNotations.
Open Scope Z_scope.

Definition pana_picture (i : nat) : Z := 600 + Z.of_nat (5 * (i mod 7)).
Lemma pana_range i : 600 <= pana_picture i <= 630.
Proof. unfold pana_picture. pose proof (Nat.mod_upper_bound i 7 ltac:(lia)). lia. Qed.
Lemma pana_packed bps i : bps = 12%nat \/ bps = 14%nat -> 0 <= pana_picture i < 2 ^ Z.of_nat bps.
Proof. intros [-> | ->]; pose proof (pana_range i); split; lia. Qed.
Lemma pana_six bps n : bps = 12%nat \/ bps = 14%nat -> packets_are (v6_smooth bps) (v6_per bps) n pana_picture.
Proof.
  intros H p Hp. split; [|split; [|split]].
  - intros i Hi. pose proof (pana_range (p * v6_per bps + i)). lia.
  - pose proof (pana_range (p * v6_per bps + 0)). destruct H as [-> | ->]; lia.
  - pose proof (pana_range (p * v6_per bps + 1)). destruct H as [-> | ->]; lia.
  - intros i Hi. pose proof (pana_range (p * v6_per bps + i)). pose proof (pana_range (p * v6_per bps + (i - 2))).
    assert (E : v6_zero bps = 128 \/ v6_zero bps = 512) by (destruct H as [-> | ->]; auto). lia.
Qed.
Lemma pana_four n : packets_are v4_smooth 14 n pana_picture.
Proof.
  intros p Hp. pose proof (pana_range (p * 14 + 0)). pose proof (pana_range (p * 14 + 1)). repeat split; try lia. intros i Hi.
  pose proof (pana_range (p * 14 + i)). pose proof (pana_range (p * 14 + (i - 2))). unfold v4_code.
  destruct (Z.eqb_spec (pana_picture (p * 14 + i)) (pana_picture (p * 14 + (i - 2)))) as [E|E]; [now left|right].
  replace (pana_picture (p * 14 + (i - 2)) <? 128) with false by lia. lia.
Qed.
