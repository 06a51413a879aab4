(** PEF images of odd width are never decoded. *)
From Coq Require Import List ZArith Lia Bool.
From Coq Require Import ZifyBool ZifyNat.
From Verif Require Import Base BaseLemmas Pumps LjpegDec LjpegDecode Crx PefSpec Pef.
Import ListNotations.
Open Scope Z_scope.

(** an invariant of the states reached by a loop that ends *)
Lemma for_each_ok_inv {A St} (I : St -> Prop) (f : A -> St -> res St) l s s' :
  (forall a s s', In a l -> I s -> f a s = Ok s' -> I s') -> I s -> for_each l f s = Ok s' -> I s'.
Proof.
  revert s. induction l as [|a l IH]; intros s H HI E; cbn [for_each] in E; [congruence|].
  apply bind_ok in E as (s1 & E1 & E2). apply (IH s1); auto; [intros; eapply H; eauto; now right|]. eapply H; eauto. now left.
Qed.
Lemma put_len {A} (l : list A) i x l' : put l i x = Ok l' -> length l' = length l /\ (i < length l)%nat.
Proof. intros H. apply put_inv in H as [A1 A2]. split; [subst; apply upd_list_length|auto]. Qed.

Lemma for_each_ok_in {A St} (I : St -> Prop) (f : A -> St -> res St) l s s' a :
  (forall a s s', In a l -> I s -> f a s = Ok s' -> I s') -> I s -> for_each l f s = Ok s' -> In a l ->
  exists s1 s2, I s1 /\ f a s1 = Ok s2.
Proof.
  revert s. induction l as [|b l IH]; intros s H HI E Ha; [destruct Ha|]. cbn [for_each] in E.
  apply bind_ok in E as (s1 & E1 & E2). destruct Ha as [->|Ha]; [eauto|].
  apply (IH s1); auto; [intros; eapply H; eauto; now right|]. eapply H; eauto. now left.
Qed.

Definition oks {A} (P : A -> Prop) (r : res A) : Prop := forall a, r = Ok a -> P a.
Lemma oks_bind {A B} (P : B -> Prop) (e : res A) (f : A -> res B) : (forall a, e = Ok a -> oks P (f a)) -> oks P (bind e f).
Proof. intros H b E. apply bind_ok in E as (a & E1 & E2). exact (H a E1 b E2). Qed.
Lemma oks_ok {A} (P : A -> Prop) a : P a -> oks P (Ok a).
Proof. intros H b E. congruence. Qed.
Ltac ostep := apply oks_bind; let x := fresh "x" in let E := fresh "E" in intros x E; repeat (match goal with y : (_ * _)%type |- _ => destruct y end); cbn beta iota.

Section Odd.
  Variable t : hufft.
  Variables w h : nat.
  Let total := (w * h)%nat.

  Definition inner (row col : nat) (st : Z * Z * wpump * list Z) : res (Z * Z * wpump * list Z) :=
    let '(l1, l2, pump, out) := st in
      do (d1, pump) <- huff_decode msb_ops t pump;
      do l1 <- i32 (l1 + d1);
      do (d2, pump) <- huff_decode msb_ops t pump;
      do l2 <- i32 (l2 + d2);
      do out <- put out (row * w + col + 0) (wrap_u16 l1);
      do out <- put out (row * w + col + 1) (wrap_u16 l2);
      Ok (l1, l2, pump, out).
  Lemma inner_ok row col st : length (snd st) = total -> oks (fun st' => length (snd st') = total /\ (row * w + col + 1 < total)%nat) (inner row col st).
  Proof.
    destruct st as [[[l1 l2] pm] o]. intros L. cbn [snd] in L. unfold inner. do 6 ostep. apply oks_ok. cbn [snd].
    apply put_len in E3 as [A1 A2]. apply put_len in E4 as [B1 B2]. lia.
  Qed.
  Definition one_row (row : nat) (st : list Z * list Z * wpump * list Z) : res (list Z * list Z * wpump * list Z) :=
    let '(up1, up2, pump, out) := st in
    do (d1, pump) <- huff_decode msb_ops t pump;
    do u1 <- get up1 (row mod 2);
    do l1 <- i32 (u1 + d1);
    do up1 <- put up1 (row mod 2) l1;
    do (d2, pump) <- huff_decode msb_ops t pump;
    do u2 <- get up2 (row mod 2);
    do l2 <- i32 (u2 + d2);
    do up2 <- put up2 (row mod 2) l2;
    do out <- put out (row * w + 0) (wrap_u16 l1);
    do out <- put out (row * w + 1) (wrap_u16 l2);
    do (_, _, pump, out) <- for_each (step_range 2 w 2) (inner row) (l1, l2, pump, out);
    Ok (up1, up2, pump, out).
  Lemma one_row_ok row st : length (snd st) = total ->
    oks (fun st' => length (snd st') = total /\ (row * w + 1 < total)%nat /\ forall col, In col (step_range 2 w 2) -> (row * w + col + 1 < total)%nat) (one_row row st).
  Proof.
    destruct st as [[[u1 u2] pm] o]. intros L. cbn [snd] in L. unfold one_row. do 11 ostep. apply oks_ok. cbn [snd].
    apply put_len in E7 as [A1 A2]. apply put_len in E8 as [B1 B2].
    assert (ST : forall a s s', In a (step_range 2 w 2) -> length (snd s) = total -> inner row a s = Ok s' -> length (snd s') = total).
    { intros a s s' _ HL EI. exact (proj1 (inner_ok row a s HL s' EI)). }
    split; [|split; [lia|]].
    - match type of E9 with for_each _ _ ?S0 = Ok ?S1 => apply (for_each_ok_inv (fun s => length (snd s) = total) (inner row) (step_range 2 w 2) S0 S1 ST) end; [cbn [snd]; lia|exact E9].
    - intros col Hc. match type of E9 with for_each _ _ ?S0 = Ok ?S1 =>
        destruct (for_each_ok_in (fun s => length (snd s) = total) (inner row) (step_range 2 w 2) S0 S1 col ST ltac:(cbn [snd]; lia) E9 Hc) as (s1 & s2 & HL & EI) end.
      exact (proj2 (inner_ok row col s1 HL s2 EI)).
  Qed.
  Lemma rows_odd src out : (w mod 2 = 1)%nat -> (0 < h)%nat -> pef_rows t src w h <> Ok out.
  Proof.
    intros Ho Hh H.
    change (pef_rows t src w h) with (do (_, _, _, out) <- for_each (seq 0 h) one_row ([0; 0], [0; 0], wpump_new src, repeat 0 (w * h)); Ok out) in H.
    apply bind_ok in H as (st & E & _).
    destruct (for_each_ok_in (fun s => length (snd s) = total) one_row (seq 0 h) ([0; 0], [0; 0], wpump_new src, repeat 0 (w * h)) st (h - 1)%nat (fun a s s' _ HL E => proj1 (one_row_ok a s HL s' E)) ltac:(cbn [snd]; apply repeat_length) E) as (s1 & s2 & HL & E1).
    { apply in_seq. lia. }
    destruct (one_row_ok (h - 1) s1 HL s2 E1) as (_ & P1 & P2). unfold total in *.
    assert (EW : (w * h = (h - 1) * w + w)%nat) by (replace h with (S (h - 1)) at 1 by lia; lia).
    pose proof (Nat.div_mod w 2 ltac:(lia)) as DM. rewrite Ho in DM.
    destruct (Nat.eq_dec w 1) as [->|N]; [lia|].
    specialize (P2 (w - 1)%nat). cbv beta in P2. assert (In (w - 1)%nat (step_range 2 w 2)); [|specialize (P2 H); lia].
    unfold step_range. apply in_map_iff. exists ((w - 3) / 2)%nat.
    replace (w - 3)%nat with (0 + (w / 2 - 1) * 2)%nat by lia. replace (w - 2 + (2 - 1))%nat with (0 + (w / 2) * 2)%nat by lia. rewrite !Nat.div_add by lia.
    change (0 / 2)%nat with 0%nat. cbn [plus]. split; [lia|]. apply in_seq. lia.
  Qed.
End Odd.

Theorem pef_odd_width src huff w h out : (w mod 2 = 1)%nat -> (0 < h)%nat -> pef_decode src huff w h <> Ok out.
Proof.
  intros Ho Hh H. unfold pef_decode in H. apply bind_ok in H as ([bits hv] & _ & H). apply bind_ok in H as (t & _ & H).
  exact (rows_odd t w h src out Ho Hh H).
Qed.
