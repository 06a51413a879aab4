From Coq Require Import List ZArith Bool Lia.
From Verif Require Import Base RawSource Crw CrwSpec.
Import ListNotations.
Open Scope Z_scope.

Section Code.
Context {S : Type} (leaf : bool -> S -> res (Z * S)) (bits : Z -> S -> res (Z * S)).

Lemma diffs_S n i buf s : crw_diffs leaf bits (Datatypes.S n) i buf s =
    if (64 <=? i)%nat then Ok (buf, s) else
    do (lf, s) <- leaf (0 <? i)%nat s;
    if (lf =? 0) && negb (i =? 0)%nat then Ok (buf, s)
    else if lf =? 0xff then crw_diffs leaf bits n (i + 1) buf s
    else
      let i := (i + Z.to_nat (Z.shiftr lf 4))%nat in
      let len := Z.land lf 15 in
      if len =? 0 then crw_diffs leaf bits n (i + 1) buf s
      else
        do (d, s) <- bits len s;
        let diff := if Z.land d (2 ^ (len - 1)) =? 0 then d - (2 ^ len - 1) else d in
        crw_diffs leaf bits n (i + 1) (if (i <? 64)%nat then set_nth buf i diff else buf) s.
Proof. reflexivity. Qed.
Lemma later_eq i : (0 <? i)%nat = later i.
Proof. unfold later. destruct i; reflexivity. Qed.
Lemma set_at pre r k v : set_nth (pre ++ repeat 0 (r + 1 + k)) (length pre + r) v = (pre ++ repeat 0 r ++ [v]) ++ repeat 0 k.
Proof.
  unfold set_nth. rewrite repeat_app, repeat_app.
  replace (pre ++ (repeat 0 r ++ repeat 0 1) ++ repeat 0 k) with ((pre ++ repeat 0 r) ++ 0 :: repeat 0 k) by (cbn [repeat]; rewrite <- !app_assoc; reflexivity).
  assert (L : length (pre ++ repeat 0 r) = (length pre + r)%nat) by (now rewrite app_length, repeat_length).
  rewrite <- L. rewrite firstn_app, Nat.sub_diag, firstn_all, firstn_O, app_nil_r.
  replace (Datatypes.S (length (pre ++ repeat 0 r))) with (length ((pre ++ repeat 0 r) ++ [0])) by (rewrite app_length; cbn; lia).
  replace ((pre ++ repeat 0 r) ++ 0 :: repeat 0 k) with (((pre ++ repeat 0 r) ++ [0]) ++ repeat 0 k) by (rewrite <- app_assoc; reflexivity).
  rewrite skipn_app, Nat.sub_diag, skipn_all. cbn [app skipn]. rewrite <- !app_assoc. reflexivity.
Qed.
(** sign extension *)
Lemma extend len v : 1 <= len -> 2 ^ (len - 1) <= Z.abs v < 2 ^ len ->
  let d := if 0 <? v then v else v + 2 ^ len - 1 in (if Z.land d (2 ^ (len - 1)) =? 0 then d - (2 ^ len - 1) else d) = v.
Proof.
  intros L R d. assert (E : 2 ^ len = 2 * 2 ^ (len - 1)) by (rewrite <- Z.pow_succ_r by lia; f_equal; lia). assert (P : 0 < 2 ^ (len - 1)) by lia.
  assert (B : forall x, 0 <= x < 2 ^ len -> Z.testbit x (len - 1) = (2 ^ (len - 1) <=? x)).
  { intros x Hx. rewrite Z.testbit_odd, Z.shiftr_div_pow2 by lia. destruct (Z.leb_spec (2 ^ (len - 1)) x).
    - replace (x / 2 ^ (len - 1)) with 1; [reflexivity|]. apply (Z.div_unique x (2 ^ (len - 1)) 1 (x - 2 ^ (len - 1))); lia.
    - rewrite Z.div_small by lia. reflexivity. }
  assert (LZ : forall x, Z.land x (2 ^ (len - 1)) = if Z.testbit x (len - 1) then 2 ^ (len - 1) else 0).
  { intros x. apply Z.bits_inj'. intros n Hn. rewrite Z.land_spec. destruct (Z.eq_dec n (len - 1)) as [->|N].
    - rewrite Z.pow2_bits_true by lia. rewrite andb_true_r. destruct (Z.testbit x (len - 1)); [now rewrite Z.pow2_bits_true by lia|now rewrite Z.bits_0].
    - rewrite Z.pow2_bits_false by lia. rewrite andb_false_r. destruct (Z.testbit x (len - 1)); [now rewrite Z.pow2_bits_false by lia|now rewrite Z.bits_0]. }
  rewrite LZ. unfold d. destruct (Z.ltb_spec 0 v).
  - rewrite B by lia. destruct (Z.leb_spec (2 ^ (len - 1)) v); [|lia]. destruct (Z.eqb_spec (2 ^ (len - 1)) 0); lia.
  - rewrite B by lia. destruct (Z.leb_spec (2 ^ (len - 1)) (v + 2 ^ len - 1)); [lia|]. rewrite Z.eqb_refl. lia.
Qed.
Lemma split_leaf r len : (r <= 15)%nat -> 0 <= len <= 15 -> Z.to_nat (Z.shiftr (16 * Z.of_nat r + len) 4) = r /\ Z.land (16 * Z.of_nat r + len) 15 = len.
Proof.
  intros R L. split.
  - rewrite Z.shiftr_div_pow2 by lia. change (2 ^ 4) with 16. replace ((16 * Z.of_nat r + len) / 16) with (Z.of_nat r); [lia|]. apply (Z.div_unique _ 16 _ len); lia.
  - change 15 with (Z.ones 4). rewrite Z.land_ones by lia. change (2 ^ 4) with 16. symmetry. apply (Z.mod_unique _ 16 (Z.of_nat r) len); lia.
Qed.

Lemma feed_leaf_inv s b v l s' : feed leaf bits s (TLeaf b v :: l) s' -> exists s1, leaf b s = Ok (v, s1) /\ feed leaf bits s1 l s'.
Proof. intros F. inversion F; subst. eauto. Qed.
Lemma feed_bits_inv s n v l s' : feed leaf bits s (TBits n v :: l) s' -> exists s1, bits n s = Ok (v, s1) /\ feed leaf bits s1 l s'.
Proof. intros F. inversion F; subst. eauto. Qed.
Lemma codes_len i d l : codes i d l -> (i + length d = 64)%nat.
Proof. induction 1; cbn [length]; rewrite ?app_length, ?repeat_length; cbn [length]; lia. Qed.
Lemma diffs_ok i d l : codes i d l -> forall pre n s s', length pre = i -> (64 - i <= n)%nat -> feed leaf bits s l s' ->
  crw_diffs leaf bits n i (pre ++ repeat 0 (length d)) s = Ok (pre ++ d, s').
Proof.
  induction 1 as [|i Hi|i d l C IH Hi|i r d l C IH Hi Hr Hz|i r len v d l C IH Hi Hr Hl Hx Hv]; intros pre n s s' LP HN F.
  - inversion F; subst. destruct n; [reflexivity|]. rewrite diffs_S. reflexivity.
  - apply feed_leaf_inv in F. destruct F as (s1 & E & F'). subst i. inversion F'; subst. destruct n as [|n]; [lia|]. rewrite diffs_S. rewrite repeat_length.
    destruct (Nat.leb_spec 64 (length pre)); [lia|]. destruct (Nat.ltb_spec 0 (length pre)); [|lia]. rewrite E. cbn [bind]. destruct (Nat.eqb_spec (length pre) 0); [lia|]. reflexivity.
  - apply feed_leaf_inv in F. destruct F as (s1 & E & F'). subst i. destruct n as [|n]; [lia|]. rewrite diffs_S. destruct (Nat.leb_spec 64 (length pre)); [lia|].
    rewrite later_eq, E. cbn [bind]. change (255 =? 0) with false. change (255 =? 255) with true. cbn [andb].
    replace (pre ++ repeat 0 (length (0 :: d))) with ((pre ++ [0]) ++ repeat 0 (length d)) by (rewrite <- app_assoc; reflexivity).
    rewrite (IH (pre ++ [0]) n s1 s') by (rewrite ?app_length; cbn [length]; (lia || exact F')). now rewrite <- app_assoc.
  - apply feed_leaf_inv in F. destruct F as (s1 & E & F'). subst i. destruct n as [|n]; [lia|]. rewrite diffs_S. destruct (Nat.leb_spec 64 (length pre)); [lia|].
    destruct (split_leaf r 0 Hr ltac:(lia)) as (E1 & E2). rewrite Z.add_0_r in E1, E2. remember (16 * Z.of_nat r) as lf eqn:LF.
    rewrite later_eq, E. cbn [bind].
    replace ((lf =? 0) && negb (length pre =? 0)%nat) with false by (symmetry; apply andb_false_iff; destruct (Z.eqb_spec lf 0); [right; destruct (Nat.eqb_spec (length pre) 0); [reflexivity|lia]|now left]).
    destruct (Z.eqb_spec lf 255); [lia|]. cbv beta iota zeta. rewrite E1, E2. rewrite Z.eqb_refl.
    replace (pre ++ repeat 0 (length (repeat 0 (r + 1) ++ d))) with ((pre ++ repeat 0 (r + 1)) ++ repeat 0 (length d)) by (rewrite app_length, repeat_length, (repeat_app 0 (r + 1)), <- app_assoc; reflexivity).
    rewrite (IH (pre ++ repeat 0 (r + 1)) n s1 s') by (rewrite ?app_length, ?repeat_length; (lia || exact F')). now rewrite <- app_assoc.
  - apply feed_leaf_inv in F. destruct F as (s1 & E & F'). apply feed_bits_inv in F'. destruct F' as (s2 & E' & F''). subst i. destruct n as [|n]; [lia|]. rewrite diffs_S. destruct (Nat.leb_spec 64 (length pre)); [lia|].
    destruct (split_leaf r len Hr ltac:(lia)) as (E1 & E2). remember (16 * Z.of_nat r + len) as lf eqn:LF. rewrite later_eq, E. cbn [bind].
    destruct (Z.eqb_spec lf 0); [lia|]. cbn [andb]. destruct (Z.eqb_spec lf 255); [exfalso; apply Hx; lia|]. cbv beta iota zeta. rewrite E1, E2.
    destruct (Z.eqb_spec len 0); [lia|]. rewrite E'. cbn [bind]. rewrite (extend len v ltac:(lia) Hv). destruct (Nat.ltb_spec (length pre + r) 64); [|lia].
    replace (length (repeat 0 r ++ v :: d)) with (r + 1 + length d)%nat by (rewrite app_length, repeat_length; cbn [length]; lia). rewrite set_at.
    rewrite (IH (pre ++ repeat 0 r ++ [v]) n s2 s') by (rewrite ?app_length, ?repeat_length; cbn [length]; (lia || exact F'')). now rewrite <- !app_assoc.
Qed.

(** the pixels *)
Definition base_ok (w : nat) (px : nat -> Z) (n : nat) (base : Z * Z) : Prop := (n mod w <> 0)%nat ->
  (if Nat.odd n then snd base else fst base) = pred w px n /\ (if Nat.odd n then fst base else snd base) = px (n - 1)%nat.
Lemma next_col w n : (0 < w)%nat -> ((n + 1) mod w <> 0)%nat -> ((n + 1) mod w = n mod w + 1)%nat.
Proof.
  intros W H. destruct (Nat.eq_dec (n mod w + 1) w) as [E|E].
  - exfalso. apply H. rewrite (Nat.div_mod n w) by lia. replace (w * (n / w) + n mod w + 1)%nat with ((n / w + 1) * w)%nat by lia. apply Nat.mod_mul. lia.
  - pose proof (Nat.mod_upper_bound n w ltac:(lia)). rewrite (Nat.div_mod n w) at 1 by lia. replace (w * (n / w) + n mod w + 1)%nat with ((n mod w + 1) + (n / w) * w)%nat by lia.
    rewrite Nat.mod_add by lia. apply Nat.mod_small. lia.
Qed.
Lemma px_S w n i base x d : crw_px w n i base (x :: d) =
    (let '(b0, b1) := if (n mod w =? 0)%nat then (512, 512) else base in
    do b <- i32 ((if Nat.odd i then b1 else b0) + x);
    do (l, base) <- crw_px w (n + 1) (i + 1) (if Nat.odd i then (b0, b) else (b, b1)) d;
    Ok (b mod 2 ^ 16 :: l, base)).
Proof. reflexivity. Qed.
Lemma px_ok w px : (0 < w)%nat -> (forall n, 0 <= px n < 2 ^ 16) -> forall k n i base, Nat.odd i = Nat.odd n -> base_ok w px n base ->
  exists base', crw_px w n i base (map (diff w px) (seq n k)) = Ok (map px (seq n k), base') /\ base_ok w px (n + k) base'.
Proof.
  intros W U. induction k as [|k IH]; intros n i base O B; [exists base; cbn; rewrite Nat.add_0_r; now split|].
  cbn [seq map]. rewrite px_S. set (bb := if (n mod w =? 0)%nat then (512, 512) else base).
  assert (B' : (if Nat.odd i then snd bb else fst bb) = pred w px n /\ ((n mod w <> 0)%nat -> (if Nat.odd i then fst bb else snd bb) = px (n - 1)%nat) /\ ((n mod w = 0)%nat -> (if Nat.odd i then fst bb else snd bb) = 512)).
  { unfold bb. rewrite O. destruct (Nat.eqb_spec (n mod w) 0) as [Z0|Z0].
    - split; [|split; [lia|]]. + unfold pred. rewrite Z0. destruct (Nat.odd n); reflexivity. + destruct (Nat.odd n); reflexivity.
    - destruct (B Z0) as (B1 & B2). split; [exact B1|]. split; [intros _; exact B2|lia]. }
  destruct bb as [b0 b1]. cbn [fst snd] in B'. destruct B' as (B1 & B2 & B3). rewrite B1. unfold diff at 1. replace (pred w px n + (px n - pred w px n)) with (px n) by lia.
  unfold i32. pose proof (U n). destruct (Z.leb_spec (- 2 ^ 31) (px n)); [|lia]. destruct (Z.ltb_spec (px n) (2 ^ 31)); [|lia]. cbn [andb bind].
  destruct (IH (n + 1)%nat (i + 1)%nat (if Nat.odd i then (b0, px n) else (px n, b1))) as (base' & E & BK).
  - rewrite !Nat.add_1_r, !Nat.odd_succ, <- !Nat.negb_odd. now rewrite O.
  - intros NZ. pose proof (next_col w n W NZ) as NC. rewrite Nat.add_1_r in *. rewrite Nat.odd_succ, <- Nat.negb_odd, <- O. replace (Datatypes.S n - 1)%nat with n by lia.
    assert (PR : (if Nat.odd i then b0 else b1) = pred w px (Datatypes.S n)).
    { unfold pred. rewrite NC. destruct (Nat.ltb_spec (n mod w + 1) 2); [apply B3; lia|]. replace (Datatypes.S n - 2)%nat with (n - 1)%nat by lia. apply B2. lia. }
    destruct (Nat.odd i); cbn [negb fst snd] in *; now split.
  - exists base'. rewrite Nat.add_1_r in *. rewrite E. cbn [bind]. rewrite Z.mod_small by (pose proof (U n); lia). split; [reflexivity|]. now replace (n + Datatypes.S k)%nat with (Datatypes.S n + k)%nat by lia.
Qed.

Lemma feed_app s l1 : forall l2 s2, feed leaf bits s (l1 ++ l2) s2 -> exists s1, feed leaf bits s l1 s1 /\ feed leaf bits s1 l2 s2.
Proof.
  revert s. induction l1 as [|t l1 IH]; intros s l2 s2 F; [exists s; split; [constructor|exact F]|]. cbn [app] in F. inversion F as [|? s1 ? ? ? ? E F'|? s1 ? ? ? ? E F']; subst;
    destruct (IH _ _ _ F') as (s3 & F1 & F2); exists s3; (split; [econstructor; eassumption|exact F2]).
Qed.
Lemma blocks_ok w px : (0 < w)%nat -> (forall n, 0 <= px n < 2 ^ 16) -> forall toks nb b s s' base, (forall k, (b <= k < b + nb)%nat -> codes 0 (coded w px k) (toks k)) ->
  feed leaf bits s (flat_map toks (seq b nb)) s' -> base_ok w px (64 * b) base ->
  crw_blocks leaf bits nb w (64 * b) (match b with O => 0 | Datatypes.S b => diff w px (64 * b) end) base s = Ok (map px (seq (64 * b) (64 * nb))).
Proof.
  intros W U toks. induction nb as [|nb IH]; intros b s s' base C F B; [rewrite Nat.mul_0_r; reflexivity|].
  cbn [seq flat_map] in F. destruct (feed_app _ _ _ _ F) as (s1 & F1 & F2). cbn [crw_blocks].
  assert (C0 : codes 0 (coded w px b) (toks b)) by (apply C; lia). pose proof (codes_len _ _ _ C0) as CL.
  pose proof (diffs_ok 0 (coded w px b) (toks b) C0 [] 64 s s1 eq_refl ltac:(lia) F1) as D. replace (length (coded w px b)) with 64%nat in D by lia. cbn [app] in D. rewrite D. cbn [bind]. unfold coded at 1.
  set (prev := match b with O => 0 | Datatypes.S b => diff w px (64 * b) end). replace (diff w px (64 * b) - prev + prev) with (diff w px (64 * b)) by lia.
  assert (R : - 2 ^ 31 <= diff w px (64 * b) < 2 ^ 31) by (unfold diff, pred; pose proof (U (64 * b)%nat); pose proof (U (64 * b - 2)%nat); destruct (_ <? 2)%nat; lia).
  unfold i32 at 1. destruct (Z.leb_spec (- 2 ^ 31) (diff w px (64 * b))); [|lia]. destruct (Z.ltb_spec (diff w px (64 * b)) (2 ^ 31)); [|lia]. cbn [andb bind].
  destruct (px_ok w px W U 64 (64 * b)%nat 0%nat base) as (base' & E & B'); [rewrite Nat.odd_mul; reflexivity|exact B|].
  replace (diff w px (64 * b) :: map (diff w px) (seq (64 * b + 1) 63)) with (map (diff w px) (seq (64 * b) 64)) by (rewrite (Nat.add_1_r (64 * b)); reflexivity). rewrite E. cbn [bind].
  replace (64 * b + 64)%nat with (64 * Datatypes.S b)%nat in * by lia. rewrite (IH (Datatypes.S b) s1 s' base') by ((intros k Hk; apply C; lia) || assumption). cbn [bind].
  f_equal. rewrite <- map_app, <- (Nat.mul_1_r 64) at 1. replace (64 * Datatypes.S nb)%nat with (64 + 64 * nb)%nat by lia. rewrite seq_app. f_equal. f_equal. f_equal. lia.
Qed.
End Code.
