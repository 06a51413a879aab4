(** CR2: chunks of three rows, whole pictures and their colours. *)
From Coq Require Import List ZArith Lia Bool.
From Coq Require Import ZifyBool ZifyNat.
From Verif Require Import Base BaseLemmas LjpegDec Crx Pef PefSpec LjpegYuvProofs Cr2 Cr2Spec Cr2Proofs Cr2Chroma.
Import ListNotations.
Open Scope nat_scope.

Definition hor (sh w : nat) (img : list Z) (j : nat) : Z := if sh =? 2 then haf w img j else nth j img 0%Z.
Definition vcell (sv w h j : nat) : bool := (sv =? 2) && negb (j mod 3 =? 0) && (j / (3 * w) mod 3 =? 1) && (j / (3 * w) + 1 <? h).
Definition ver (sh sv w h : nat) (img : list Z) (j : nat) : Z :=
  if vcell sv w h j then mean (hor sh w img (j - 3 * w)) (hor sh w img (j + 3 * w)) else hor sh w img j.

Lemma row_of w q y : y < 3 * w -> (q * (3 * w) + y) / (3 * w) = q.
Proof. intros. rewrite Nat.add_comm, Nat.div_add by lia. rewrite Nat.div_small by lia. lia. Qed.
Lemma third q t : t < 3 -> (3 * q + t) mod 3 = t.
Proof. intros. rewrite Nat.add_comm, Nat.mul_comm, Nat.mod_add by lia. now apply Nat.mod_small. Qed.
Lemma in_rows w k rows base : 0 < w -> base = 3 * k * (3 * w) ->
  forall j, base <= j -> j < base + rows * (3 * w) -> exists q y, q < rows /\ y < 3 * w /\ j = base + q * (3 * w) + y /\ j / (3 * w) = 3 * k + q.
Proof.
  intros Hw Eb j A B. exists ((j - base) / (3 * w)), ((j - base) mod (3 * w)). pose proof (Nat.div_mod (j - base) (3 * w) ltac:(lia)) as D. pose proof (Nat.mod_upper_bound (j - base) (3 * w) ltac:(lia)) as U.
  assert (Q : (j - base) / (3 * w) < rows) by (apply Nat.div_lt_upper_bound; lia). set (q := (j - base) / (3 * w)) in *. set (y := (j - base) mod (3 * w)) in *. clearbody q y.
  repeat split; auto; [lia|]. replace j with ((3 * k + q) * (3 * w) + y) by lia. now apply row_of.
Qed.
Lemma chunk_ok sh sv w h k img : 0 < w -> 3 * k < h -> length img = 3 * w * h -> u16s img ->
  exists img', interpolate_chunk sh sv (3 * w) (k * (3 * w * 3)) (Nat.min (3 * w * 3) (3 * w * h - k * (3 * w * 3))) img = Ok img' /\ length img' = length img /\
    forall j, nth j img' 0%Z = if (k * (3 * w * 3) <=? j) && (j <? (k + 1) * (3 * w * 3)) && (j <? 3 * w * h) then ver sh sv w h img j else nth j img 0%Z.
Proof.
  intros Hw Hk HL HU. set (rows := Nat.min 3 (h - 3 * k)).
  assert (EL : Nat.min (3 * w * 3) (3 * w * h - k * (3 * w * 3)) = rows * (3 * w)).
  { unfold rows. replace (3 * w * h - k * (3 * w * 3)) with ((h - 3 * k) * (3 * w)) by (rewrite Nat.mul_sub_distr_r; f_equal; lia).
    replace (3 * w * 3) with (3 * (3 * w)) by lia. apply Nat.mul_min_distr_r. }
  rewrite EL. set (base := k * (3 * w * 3)).
  assert (Hb : base mod (3 * w) = 0) by (unfold base; replace (k * (3 * w * 3)) with (k * 3 * (3 * w)) by lia; apply Nat.mod_mul; lia).
  assert (Hb3 : base mod 3 = 0) by (unfold base; replace (k * (3 * w * 3)) with (k * (3 * w) * 3) by lia; apply Nat.mod_mul; lia).
  assert (Eb : base = 3 * k * (3 * w)) by (unfold base; lia).
  assert (HB : base + rows * (3 * w) <= length img).
  { rewrite HL, Eb. rewrite <- Nat.mul_add_distr_r. rewrite (Nat.mul_comm (3 * w)). apply Nat.mul_le_mono_r. unfold rows. lia. }
  assert (Hin : forall j, ((base <=? j) && (j <? (k + 1) * (3 * w * 3)) && (j <? 3 * w * h)) = ((base <=? j) && (j <? base + rows * (3 * w)))).
  { intros j. assert (base + rows * (3 * w) = Nat.min ((k + 1) * (3 * w * 3)) (3 * w * h)) as ->; [|lia].
    rewrite Eb. replace ((k + 1) * (3 * w * 3)) with ((3 * k + 3) * (3 * w)) by lia. rewrite (Nat.mul_comm (3 * w) h), Nat.mul_min_distr_r, <- Nat.mul_add_distr_r. f_equal. unfold rows. lia. }
  assert (Hrows : rows <= 3 /\ (rows = 3 -> 3 * k + 3 <= h) /\ (rows <> 3 -> h = 3 * k + rows)) by (unfold rows; lia). destruct Hrows as (Hr0 & Hr3 & Hr4).
  clearbody rows base. unfold interpolate_chunk.
  replace (rows * (3 * w) mod (3 * w) =? 0) with true by (rewrite Nat.mod_mul by lia; reflexivity). cbn [assert_ bind]. rewrite Nat.div_mul by lia.
  assert (exists i1, (if sh =? 2 then rows_of w base (rows * (3 * w)) rows img else Ok img) = Ok i1 /\ length i1 = length img /\
    forall j, nth j i1 0%Z = if (base <=? j) && (j <? base + rows * (3 * w)) then hor sh w img j else nth j img 0%Z) as (i1 & E1 & L1 & H1).
  { unfold hor. destruct (sh =? 2); [now apply rows_ok|]. exists img. split; [auto|]. split; [auto|]. intros j. destruct (_ && _); reflexivity. }
  unfold rows_of in E1. rewrite E1. cbn [bind]. clear E1.
  assert (U1 : u16s i1) by (intros i; rewrite H1; destruct (_ && _); [unfold hor; destruct (sh =? 2); [now apply haf_u16|apply HU]|apply HU]).
  pose proof (in_rows w k rows base Hw Eb) as RW.
  destruct ((sv =? 2) && (rows * (3 * w) =? 3 * w * 3)) eqn:V.
  - apply andb_true_iff in V as [V1 V2]. assert (R3 : rows = 3) by nia. clear V2. subst rows.
    destruct (middle_ok w base i1 Hb3) as (i2 & E2 & L2 & H2); [lia|auto|]. unfold middle_of in E2.
    replace (3 * (3 * w)) with (3 * w * 3) by lia. rewrite E2. exists i2. split; [reflexivity|]. split; [lia|].
    intros j. rewrite Hin, H2. unfold ver, vcell. rewrite V1. cbn [andb].
    destruct ((base <=? j) && (j <? base + 3 * (3 * w))) eqn:X.
    + destruct (RW j) as (q & y & Hq & Hy & Ej & Er); [lia|lia|]. rewrite Er. rewrite third by lia. assert (h3 : 3 * k + 3 <= h) by (apply Hr3; reflexivity).
      destruct (Nat.eqb_spec q 1) as [->|N].
      * clear Hb Hb3 HB Eb Er HU HL Hk. replace (3 * k + 1 + 1 <? h) with true by (clear - h3; lia). rewrite !andb_true_r.
        replace ((base + 3 * w <=? j) && (j <? base + 3 * w + 3 * w)) with true by lia. cbn [andb]. destruct (negb (j mod 3 =? 0)); rewrite !H1.
        { replace ((base <=? j - 3 * w) && (j - 3 * w <? base + 3 * (3 * w))) with true by lia. replace ((base <=? j + 3 * w) && (j + 3 * w <? base + 3 * (3 * w))) with true by lia. reflexivity. }
        { rewrite X. reflexivity. }
      * replace ((base + 3 * w <=? j) && (j <? base + 3 * w + 3 * w)) with false by (destruct q as [|[|[|q]]]; lia). cbn [andb]. rewrite andb_false_r. cbn [andb]. rewrite H1, X. reflexivity.
    + replace ((base + 3 * w <=? j) && (j <? base + 3 * w + 3 * w)) with false by lia. cbn [andb]. rewrite H1, X. reflexivity.
  - exists i1. split; [reflexivity|]. split; [auto|]. intros j. rewrite Hin, H1. destruct ((base <=? j) && (j <? base + rows * (3 * w))) eqn:X; [|reflexivity].
    unfold ver. replace (vcell sv w h j) with false; [reflexivity|]. symmetry. unfold vcell. destruct (sv =? 2); [|reflexivity]. cbn [andb] in V |- *.
    destruct (RW j) as (q & y & Hq & Hy & Ej & Er); [lia|lia|]. rewrite Er, third by (clear - Hq Hr0; lia). assert (rows <> 3) by (intros e; rewrite e in V; lia).
    destruct (Nat.eqb_spec q 1) as [e|]; [|now rewrite andb_false_r]. replace (3 * k + q + 1 <? h) with false by (clear - Hr4 H Hq e Hr0; lia). apply andb_false_r.
Qed.
Lemma ver_same sh sv w h k img im j : 0 < w -> (forall i, k * (3 * w * 3) <= i -> i < (k + 1) * (3 * w * 3) -> i < 3 * w * h -> nth i im 0%Z = nth i img 0%Z) ->
  k * (3 * w * 3) <= j -> j < (k + 1) * (3 * w * 3) -> j < 3 * w * h -> ver sh sv w h im j = ver sh sv w h img j.
Proof.
  intros Hw H A B C.
  assert (HS : forall i, k * (3 * w * 3) <= i -> i < (k + 1) * (3 * w * 3) -> i < 3 * w * h -> hor sh w im i = hor sh w img i).
  { intros i Ai Bi Ci. unfold hor. destruct (sh =? 2); [|apply H; auto]. pose proof (Nat.div_mod i (3 * w) ltac:(lia)) as D. pose proof (Nat.mod_upper_bound i (3 * w) ltac:(lia)) as U.
    set (q := i / (3 * w)) in *. apply (haf_same w (q * (3 * w))); [auto|apply Nat.mod_mul; lia|lia|lia|].
    assert (Q1 : 3 * k <= q) by (apply Nat.div_le_lower_bound; lia). assert (Q2 : q < 3 * k + 3) by (apply Nat.div_lt_upper_bound; lia). assert (Q3 : q < h) by (apply Nat.div_lt_upper_bound; lia).
    intros i' Hi'. apply H; nia. }
  unfold ver. destruct (vcell sv w h j) eqn:V; [|now apply HS]. unfold vcell in V. rewrite !andb_true_iff in V. destruct V as (((_ & _) & V) & V2).
  pose proof (Nat.div_mod j (3 * w) ltac:(lia)) as D. pose proof (Nat.mod_upper_bound j (3 * w) ltac:(lia)) as U. set (q := j / (3 * w)) in *.
  assert (Q1 : 3 * k <= q) by (apply Nat.div_le_lower_bound; lia). assert (Q2 : q < 3 * k + 3) by (apply Nat.div_lt_upper_bound; lia).
  assert (Q : q = 3 * k + 1). { apply Nat.eqb_eq in V. assert (q = 3 * k + (q - 3 * k)) as E by lia. rewrite E, third in V by lia. lia. }
  rewrite Q in *. apply Nat.ltb_lt in V2. assert ((3 * k + 3) * (3 * w) <= 3 * w * h) by (rewrite (Nat.mul_comm (3 * w) h); apply Nat.mul_le_mono_r; lia).
  rewrite !HS by nia. reflexivity.
Qed.
Lemma chunks n m : 0 < m -> n <= (n + m - 1) / m * m /\ forall k, k < (n + m - 1) / m -> k * m < n.
Proof.
  intros Hm. pose proof (Nat.div_mod (n + m - 1) m ltac:(lia)) as D. pose proof (Nat.mod_upper_bound (n + m - 1) m ltac:(lia)) as U. set (q := (n + m - 1) / m) in *. split; [lia|].
  intros k Hk. assert ((k + 1) * m <= q * m) by (apply Nat.mul_le_mono_r; lia). lia.
Qed.
Lemma interpolate_any sh sv w h img : 0 < w -> length img = 3 * w * h -> u16s img ->
  exists img', interpolate_yuv sh sv (3 * w) img = Ok img' /\ length img' = length img /\ forall j, j < 3 * w * h -> nth j img' 0%Z = ver sh sv w h img j.
Proof.
  intros Hw HL HU. unfold interpolate_yuv. destruct ((sh =? 1) && (sv =? 1)) eqn:S1.
  { exists img. split; [auto|]. split; [auto|]. intros j _. unfold ver, vcell, hor. replace (sv =? 2) with false by lia. replace (sh =? 2) with false by lia. reflexivity. }
  replace (3 * w * 3 =? 0) with false by lia. cbn [negb assert_ bind]. rewrite HL. destruct (chunks (3 * w * h) (3 * w * 3)) as [C1 C2]; [lia|]. set (nc := (3 * w * h + 3 * w * 3 - 1) / (3 * w * 3)) in *.
  match goal with |- context [for_each (seq 0 nc) ?F img] => destruct (for_each_seq_inv F (fun k im => length im = length img /\
    forall j, nth j im 0%Z = if (j <? k * (3 * w * 3)) && (j <? 3 * w * h) then ver sh sv w h img j else nth j img 0%Z) 0 nc img) as (o & E & L & H) end.
  - split; [auto|]. intros j. replace (j <? 0 * (3 * w * 3)) with false by lia. reflexivity.
  - intros k im Hk [L H]. specialize (C2 k ltac:(lia)). assert (Hk3 : 3 * k < h) by nia.
    assert (HV : forall j, j < 3 * w * h -> (0 <= ver sh sv w h img j < 65536)%Z).
    { intros j _. assert (HH : forall i, (0 <= hor sh w img i < 65536)%Z) by (intros i; unfold hor; destruct (sh =? 2); [now apply haf_u16|apply HU]).
      unfold ver. destruct (vcell sv w h j); [apply mean_range|]; apply HH. }
    destruct (chunk_ok sh sv w h k im Hw Hk3 ltac:(lia)) as (o & E & L' & H').
    + intros i. rewrite H. destruct ((i <? k * (3 * w * 3)) && (i <? 3 * w * h)) eqn:X; [apply HV; lia|apply HU].
    + exists o. split; [exact E|]. split; [lia|]. intros j. rewrite H'. replace (k + 1) with (S k) by lia.
      destruct ((k * (3 * w * 3) <=? j) && (j <? S k * (3 * w * 3)) && (j <? 3 * w * h)) eqn:X.
      * replace ((j <? S k * (3 * w * 3)) && (j <? 3 * w * h)) with true by lia. apply (ver_same sh sv w h k); auto; try lia.
        intros i A B C. rewrite H. replace (i <? k * (3 * w * 3)) with false by lia. reflexivity.
      * rewrite H. destruct (Nat.ltb_spec j (3 * w * h)); [|now rewrite !andb_false_r]. rewrite !andb_true_r in *.
        replace (j <? S k * (3 * w * 3)) with (j <? k * (3 * w * 3)); [reflexivity|]. cbn [mult] in *. lia.
  - exists o. split; [exact E|]. split; [lia|]. intros j Hj. rewrite H. replace ((j <? (0 + nc) * (3 * w * 3)) && (j <? 3 * w * h)) with true by lia. reflexivity.
Qed.
