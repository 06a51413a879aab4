From Coq Require Import List ZArith Bool Lia.
From Verif Require Import Base RawSource Crw CrwSpec CrwProofs.
Import ListNotations.
Open Scope Z_scope.

Lemma join v k c : 0 <= v < 2 ^ 16 -> 0 <= k -> (c / 2 ^ k) mod 4 = v mod 4 -> Z.lor ((v / 4 * 4) mod 2 ^ 16) (Z.land (Z.shiftr c k) 3) = v.
Proof.
  intros V K E. assert (D := Z.div_mod v 4 ltac:(lia)). pose proof (Z.mod_pos_bound v 4 ltac:(lia)). rewrite Z.mod_small by lia.
  change 3 with (Z.ones 2). rewrite Z.land_ones, Z.shiftr_div_pow2 by lia. change (2 ^ 2) with 4. rewrite E.
  assert (N : Z.land (v / 4 * 4) (v mod 4) = 0).
  { apply Z.bits_inj'. intros n Hn. rewrite Z.land_spec, Z.bits_0. change (v / 4 * 4) with (v / 4 * 2 ^ 2). destruct (Z.ltb_spec n 2).
    - rewrite Z.mul_pow2_bits_low by lia. reflexivity.
    - change (v mod 4) with (v mod 2 ^ 2). rewrite Z.mod_pow2_bits_high by lia. apply andb_false_r. }
  rewrite <- Z.lxor_lor by exact N. rewrite <- Z.add_nocarry_lxor by exact N. lia.
Qed.
Lemma low_bits a b c d : 0 <= a < 4 -> 0 <= b < 4 -> 0 <= c < 4 -> 0 <= d < 4 -> let x := a + 4 * b + 16 * c + 64 * d in
  (x / 2 ^ 0) mod 4 = a /\ (x / 2 ^ 2) mod 4 = b /\ (x / 2 ^ 4) mod 4 = c /\ (x / 2 ^ 6) mod 4 = d.
Proof.
  intros A B C D x. change (2 ^ 0) with 1. change (2 ^ 2) with 4. change (2 ^ 4) with 16. change (2 ^ 6) with 64. unfold x.
  repeat split; Z.to_euclidean_division_equations; lia.
Qed.
Lemma low_S w c low o0 o1 o2 o3 out : crw_low w (c :: low) (o0 :: o1 :: o2 :: o3 :: out) =
      (let f o k := let v := Z.lor ((o * 4) mod 2 ^ 16) (Z.land (Z.shiftr c k) 3) in if (w =? 2672)%nat && (v <? 512) then v + 2 else v in
      do rest <- crw_low w low out;
      Ok (f o0 0 :: f o1 2 :: f o2 4 :: f o3 6 :: rest)).
Proof. reflexivity. Qed.
Lemma low_ok w pic : (forall n, 0 <= pic n < 2 ^ 16) -> forall k n rest,
  crw_low w (map (low_byte pic) (seq n k) ++ rest) (map (fun n => pic n / 4) (seq (4 * n) (4 * k))) = Ok (map (fun n => shown w (pic n)) (seq (4 * n) (4 * k))).
Proof.
  intros U. induction k as [|k IH]; intros n rest; [rewrite Nat.mul_0_r; reflexivity|].
  replace (4 * S k)%nat with (S (S (S (S (4 * k))))) by lia. cbn [seq map app]. replace (S (S (S (S (4 * n))))) with (4 * S n)%nat by lia. rewrite low_S, IH. cbn [bind]. cbv zeta.
  assert (B : forall m, 0 <= pic m mod 4 < 4) by (intros; apply Z.mod_pos_bound; lia).
  destruct (low_bits _ _ _ _ (B (4 * n)%nat) (B (4 * n + 1)%nat) (B (4 * n + 2)%nat) (B (4 * n + 3)%nat)) as (L0 & L1 & L2 & L3). fold (low_byte pic n) in L0, L1, L2, L3.
  replace (S (4 * n)) with (4 * n + 1)%nat by lia. replace (S (4 * n + 1)) with (4 * n + 2)%nat by lia. replace (S (4 * n + 2)) with (4 * n + 3)%nat by lia.
  rewrite (join _ 0 _ (U (4 * n)%nat) ltac:(lia) L0), (join _ 2 _ (U (4 * n + 1)%nat) ltac:(lia) L1), (join _ 4 _ (U (4 * n + 2)%nat) ltac:(lia) L2), (join _ 6 _ (U (4 * n + 3)%nat) ltac:(lia) L3). reflexivity.
Qed.

Section Pic.
Context {S : Type} (leaf : bool -> S -> res (Z * S)) (bits : Z -> S -> res (Z * S)) (pump : list Z -> S).
Lemma high_ok file w h nb px toks s' : (0 < w)%nat -> (w * h = 64 * nb)%nat -> (forall n, 0 <= px n < 2 ^ 16) -> (540 <= length file)%nat ->
  (forall k, (k < nb)%nat -> codes 0 (coded w px k) (toks k)) -> feed leaf bits (pump (skipn 540 file)) (flat_map toks (seq 0 nb)) s' ->
  crw_decode leaf bits pump file false w h = Ok (map px (seq 0 (w * h))).
Proof.
  intros W N U L C F. unfold crw_decode, subview_until_eof. destruct (Z.leb_spec (540 + 0) (Z.of_nat (length file))); [|lia]. cbn [bind]. change (Z.to_nat (540 + 0)) with 540%nat.
  rewrite N. rewrite (Nat.mul_comm 64 nb), Nat.div_mul, Nat.mod_mul by lia. rewrite (Nat.mul_comm nb 64).
  rewrite (blocks_ok leaf bits w px W U toks nb 0 _ s' (0, 0)) by ((intros k Hk; apply C; lia) || exact F || (intros X; exfalso; apply X; apply Nat.mod_0_l; lia)). cbn [bind repeat]. now rewrite app_nil_r.
Qed.
Lemma low_high_ok file w h nb pic toks rest s' : (0 < w)%nat -> (w * h = 64 * nb)%nat -> (forall n, 0 <= pic n < 2 ^ 16) -> (540 + 16 * nb <= length file)%nat ->
  skipn 26 file = map (low_byte pic) (seq 0 (16 * nb)) ++ rest ->
  (forall k, (k < nb)%nat -> codes 0 (coded w (fun n => pic n / 4) k) (toks k)) -> feed leaf bits (pump (skipn (540 + 16 * nb) file)) (flat_map toks (seq 0 nb)) s' ->
  crw_decode leaf bits pump file true w h = Ok (map (fun n => shown w (pic n)) (seq 0 (w * h))).
Proof.
  intros W N U L LB C F. unfold crw_decode, subview_until_eof. replace (h * w / 4)%nat with (16 * nb)%nat by (rewrite (Nat.mul_comm h w), N; apply (Nat.div_unique _ 4 _ 0); lia).
  destruct (Z.leb_spec (540 + Z.of_nat (16 * nb)) (Z.of_nat (length file))); [|lia]. cbn [bind]. replace (Z.to_nat (540 + Z.of_nat (16 * nb))) with (540 + 16 * nb)%nat by lia.
  rewrite N. rewrite (Nat.mul_comm 64 nb), Nat.div_mul, Nat.mod_mul by lia. rewrite (Nat.mul_comm nb 64).
  rewrite (blocks_ok leaf bits w (fun n => pic n / 4) W) with (toks := toks) (nb := nb) (b := 0%nat) (s' := s') (base := (0, 0));
    [|intros n; pose proof (U n); Z.to_euclidean_division_equations; lia|intros k Hk; apply C; lia|exact F|intros X; exfalso; apply X; apply Nat.mod_0_l; lia].
  cbn [bind repeat]. rewrite app_nil_r, LB. replace (64 * nb)%nat with (4 * (16 * nb))%nat by lia. exact (low_ok w pic U (16 * nb) 0 rest).
Qed.
Lemma small_zero file w h : (w * h < 64)%nat -> (540 <= length file)%nat -> crw_decode leaf bits pump file false w h = Ok (repeat 0 (w * h)).
Proof.
  intros N L. unfold crw_decode, subview_until_eof. destruct (Z.leb_spec (540 + 0) (Z.of_nat (length file))); [|lia]. cbn [bind]. rewrite Nat.div_small, Nat.mod_small by lia. reflexivity.
Qed.
End Pic.
