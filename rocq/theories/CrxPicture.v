(** Proofs: the picture made from the planes. *)
From Coq Require Import List ZArith Bool Lia.
From Verif Require Import Base BaseLemmas Crx CrxSpec CrxLL Idwt IdwtSpec CrxImage CrxImageSpec CrxHdr CrxGeom CrxTiles.
Import ListNotations.
Open Scope Z_scope.

(** ** Samples *)

Lemma constrain16_ok v n : 1 <= n <= 16 -> constrain16 v (2 ^ n - 1) = Z.max 0 (Z.min (2 ^ n - 1) v).
Proof.
  intros H. assert (1 <= 2 ^ n <= 2 ^ 16) as B.
  { split; [change 1 with (2 ^ 0); apply Z.pow_le_mono_r; lia|apply Z.pow_le_mono_r; lia]. }
  unfold constrain16, wrap_u16. rewrite Z.mod_small by lia. lia.
Qed.

Lemma shl1_ok n : 0 <= n <= 16 -> shl1 n = Ok (2 ^ n).
Proof.
  intros H. unfold shl1. destruct (Z.leb_spec 0 n), (Z.ltb_spec n 32); try lia. cbn [andb]. f_equal.
  assert (1 <= 2 ^ n <= 2 ^ 16) as B.
  { split; [change 1 with (2 ^ 0); apply Z.pow_le_mono_r; lia|apply Z.pow_le_mono_r; lia]. }
  unfold wrap_i32. rewrite Z.mod_small by lia. lia.
Qed.

Lemma wrap_i32_small v : - 2 ^ 31 <= v < 2 ^ 31 -> wrap_i32 v = v.
Proof. intros. unfold wrap_i32. rewrite Z.mod_small by lia. lia. Qed.

Lemma u8_ok n : 0 <= n < 256 -> u8 n = Ok n.
Proof. intros. unfold u8. destruct (Z.leb_spec 0 n), (Z.ltb_spec n 256); try lia. reflexivity. Qed.

Lemma land_m2 x : Z.land x (-2) = 2 * (x / 2).
Proof.
  change (-2) with (Z.lnot (Z.ones 1)). rewrite <- Z.ldiff_land, Z.ldiff_ones_r by lia.
  rewrite Z.shiftr_div_pow2, Z.shiftl_mul_pow2 by lia. change (2 ^ 1) with 2. lia.
Qed.

Definition four (f : nat -> Z) : Z * Z * Z * Z := (f 0%nat, f 1%nat, f 2%nat, f 3%nat).

Lemma convert0_ok d v : 1 <= i_depth d <= 16 -> i_mix d = false -> (forall k, Z.abs (v k) <= 2 ^ 18) ->
  convert0 (2 ^ (i_depth d - 1)) (2 ^ i_depth d - 1) (four v) = Ok (four (block d v)).
Proof.
  intros D M B. unfold convert0, four.
  assert (1 <= 2 ^ (i_depth d - 1) <= 2 ^ 15) as B1.
  { split; [change 1 with (2 ^ 0); apply Z.pow_le_mono_r; lia|apply Z.pow_le_mono_r; lia]. }
  pose proof (B 0%nat). pose proof (B 1%nat). pose proof (B 2%nat). pose proof (B 3%nat).
  rewrite !i32_ok by lia. cbn [bind]. rewrite !constrain16_ok by lia. unfold block, clamp. rewrite M. reflexivity.
Qed.

Lemma convert3_ok d v : 1 <= i_depth d <= 16 -> i_mix d = true -> (forall k, Z.abs (v k) <= 2 ^ 18) ->
  convert3 (wrap_i32 (2 ^ (i_depth d - 1) * 1024)) (2 ^ i_depth d - 1) (four v) = Ok (four (block d v)).
Proof.
  intros D M B. unfold convert3, four.
  assert (1 <= 2 ^ (i_depth d - 1) <= 2 ^ 15) as B1.
  { split; [change 1 with (2 ^ 0); apply Z.pow_le_mono_r; lia|apply Z.pow_le_mono_r; lia]. }
  pose proof (B 0%nat). pose proof (B 1%nat). pose proof (B 2%nat). pose proof (B 3%nat).
  unfold block, clamp. rewrite M. cbv zeta.
  set (m := 2 ^ (i_depth d - 1)) in *. set (v0 := v 0%nat) in *. set (v1 := v 1%nat) in *. set (v2 := v 2%nat) in *. set (v3 := v 3%nat) in *.
  clearbody v0 v1 v2 v3 m.
  rewrite (wrap_i32_small (v0 * 1024)) by lia. rewrite (wrap_i32_small (m * 1024)) by lia.
  rewrite (i32_ok (m * 1024 + v0 * 1024)) by lia. cbn [bind].
  rewrite (i32_ok (168 * v1)) by lia. cbn [bind]. rewrite (i32_ok (m * 1024 + v0 * 1024 - 168 * v1)) by lia. cbn [bind].
  rewrite (i32_ok (585 * v3)) by lia. cbn [bind]. set (gr := m * 1024 + v0 * 1024 - 168 * v1 - 585 * v3).
  assert (Z.abs gr <= 2 ^ 30) as BG by (unfold gr; lia).
  rewrite (i32_ok gr) by lia. cbn [bind]. rewrite (i32_ok (Z.abs gr)) by lia. cbn [bind]. rewrite (i32_ok (Z.abs gr + 512)) by lia. cbn [bind].
  rewrite Z.shiftr_div_pow2 by lia. change (2 ^ 9) with 512. rewrite land_m2.
  rewrite Z.div_div by lia. change (512 * 2) with 1024.
  replace (if gr <? 0 then - (2 * ((Z.abs gr + 512) / 1024)) else 2 * ((Z.abs gr + 512) / 1024)) with (2 * round1024 gr).
  2:{ unfold round1024. destruct (Z.ltb_spec gr 0).
      - rewrite Z.abs_neq by lia. lia.
      - rewrite Z.abs_eq by lia. lia. }
  replace ((m + v0) * 1024 - 168 * v1 - 585 * v3) with gr by (unfold gr; lia).
  assert (Z.abs (round1024 gr) <= 2 ^ 21) as BR.
  { unfold round1024. destruct (Z.ltb_spec gr 0).
    - assert (0 <= (- gr + 512) / 1024 <= 2 ^ 21); [|lia]. split; [apply Z.div_pos; lia|apply Z.div_le_upper_bound; lia].
    - assert (0 <= (gr + 512) / 1024 <= 2 ^ 21); [|lia]. split; [apply Z.div_pos; lia|apply Z.div_le_upper_bound; lia]. }
  set (g := round1024 gr) in *. clearbody g.
  rewrite (i32_ok (1510 * v3)) by lia. cbn [bind]. rewrite (i32_ok (m * 1024 + v0 * 1024 + 1510 * v3)) by lia. cbn [bind].
  rewrite (i32_ok (m * 1024 + v0 * 1024 + 1510 * v3 + 512)) by lia. cbn [bind].
  rewrite (i32_ok (v2 + 2 * g)) by lia. cbn [bind]. rewrite (i32_ok (v2 + 2 * g + 1)) by lia. cbn [bind].
  rewrite (i32_ok (2 * g - v2)) by lia. cbn [bind]. rewrite (i32_ok (2 * g - v2 + 1)) by lia. cbn [bind].
  rewrite (i32_ok (1927 * v1)) by lia. cbn [bind]. rewrite (i32_ok (m * 1024 + v0 * 1024 + 1927 * v1)) by lia. cbn [bind].
  rewrite (i32_ok (m * 1024 + v0 * 1024 + 1927 * v1 + 512)) by lia. cbn [bind].
  rewrite !constrain16_ok by lia. rewrite !Z.shiftr_div_pow2 by lia. change (2 ^ 10) with 1024. change (2 ^ 1) with 2.
  replace (v2 + 2 * g + 1) with (g * 2 + (v2 + 1)) by lia. replace (2 * g - v2 + 1) with (g * 2 + (1 - v2)) by lia.
  rewrite !Z.div_add_l by lia.
  replace (m * 1024 + v0 * 1024) with ((m + v0) * 1024) by lia. reflexivity.
Qed.

(** ** A row of the planes *)

Lemma zip4_map {A B} (f0 f1 f2 f3 : A -> B) l : zip4 (map f0 l) (map f1 l) (map f2 l) (map f3 l) = map (fun x => (f0 x, f1 x, f2 x, f3 x)) l.
Proof. induction l; cbn; [reflexivity|now rewrite IHl]. Qed.

Lemma mapi_map {A B C} (g : A -> B) (f : nat -> B -> res C) (h : A -> C) l : (forall j x, In x l -> f j (g x) = Ok (h x)) ->
  forall i, mapi f i (map g l) = Ok (map h l).
Proof.
  induction l as [|x l IH]; intros H i; cbn [map mapi]; [reflexivity|].
  rewrite (H i x) by (left; reflexivity). cbn [bind]. rewrite IH by (intros; apply H; right; auto). reflexivity.
Qed.

Lemma convert_line_ok d c (v : nat -> nat -> Z) n : 1 <= i_depth d <= 16 -> (forall k x, Z.abs (v k x) <= 2 ^ 18) ->
  convert_line (codec_of d c) (map (v 0%nat) (seq 0 n)) (map (v 1%nat) (seq 0 n)) (map (v 2%nat) (seq 0 n)) (map (v 3%nat) (seq 0 n))
  = Ok (map (fun x => four (block d (fun k => v k x))) (seq 0 n)).
Proof.
  intros D B. unfold convert_line, codec_of. cbn [k_enc k_median].
  assert (1 <= 2 ^ i_depth d <= 2 ^ 16) as B1.
  { split; [change 1 with (2 ^ 0); apply Z.pow_le_mono_r; lia|apply Z.pow_le_mono_r; lia]. }
  rewrite zip4_map. destruct (i_mix d) eqn:M; cbn [Z.eqb Pos.eqb];
    rewrite u8_ok by lia; cbn [bind]; rewrite (shl1_ok (i_depth d - 1)) by lia; cbn [bind];
    rewrite (shl1_ok (i_depth d)) by lia; cbn [bind]; rewrite i32_ok by lia; cbn [bind];
    apply mapi_map; intros _ x _.
  - apply (convert3_ok d (fun k => v k x)); auto.
  - apply (convert0_ok d (fun k => v k x)); auto.
Qed.

(** ** The frame *)

Definition shows (d : image_desc) (cfa : list Z) (f : nat -> nat -> Z) : Prop :=
  length cfa = (i_w d * i_h d)%nat /\ forall y x, (y < i_h d)%nat -> (x < i_w d)%nat -> nth (y * i_w d + x) cfa 0 = f y x.

Lemma flat_lt y x W H : (y < H)%nat -> (x < W)%nat -> (y * W + x < W * H)%nat.
Proof. intros. assert (y * W + W <= H * W)%nat by (replace (y * W + W)%nat with (S y * W)%nat by lia; apply Nat.mul_le_mono_r; lia). lia. Qed.
Lemma flat_inj y x y' x' W : (x < W)%nat -> (x' < W)%nat -> (y * W + x = y' * W + x')%nat -> y = y' /\ x = x'.
Proof.
  intros Hx Hx' E. assert (y = y') as ->.
  { assert ((y * W + x) / W = (y' * W + x') / W)%nat as E1 by now rewrite E.
    rewrite !Nat.div_add_l, !Nat.div_small in E1 by lia. lia. }
  lia.
Qed.

Lemma shows_put d cfa f y x v : shows d cfa f -> (y < i_h d)%nat -> (x < i_w d)%nat ->
  exists cfa', put cfa (y * i_w d + x) v = Ok cfa' /\
    shows d cfa' (fun y' x' => if (y' =? y)%nat && (x' =? x)%nat then v else f y' x').
Proof.
  intros (L & F) Hy Hx. pose proof (flat_lt y x _ _ Hy Hx).
  rewrite put_ok by lia. eexists. split; [reflexivity|]. split; [now rewrite upd_list_length|].
  intros y' x' Hy' Hx'.
  destruct (Nat.eqb_spec y' y) as [->|N]; [destruct (Nat.eqb_spec x' x) as [->|N]|]; cbn [andb].
  - apply nth_upd_eq. lia.
  - rewrite nth_upd_neq by lia. auto.
  - rewrite nth_upd_neq; [auto|]. intros E. apply flat_inj in E; lia.
Qed.

Lemma shows_ext d cfa f g : shows d cfa f -> (forall y x, (y < i_h d)%nat -> (x < i_w d)%nat -> f y x = g y x) -> shows d cfa g.
Proof. intros (L & F) E. split; [exact L|]. intros. rewrite F, E by auto. reflexivity. Qed.

Lemma plane_w_bounds d t : (1 <= i_tw d)%nat -> (2 * plane_w d t <= i_tw d /\ t * i_tw d + 2 * plane_w d t <= Nat.max (i_w d) (t * i_tw d))%nat.
Proof.
  intros H. unfold plane_w. pose proof (Nat.mul_div_le (Nat.min (i_tw d) (i_w d - t * i_tw d)) 2 ltac:(lia)). lia.
Qed.

(** A sample is set by plane [k] and row [r] of tile [t]. *)
Definition written (d : image_desc) (t r k n y x : nat) : bool :=
  (y =? r * 2 + k / 2)%nat && (t * i_tw d <=? x)%nat && ((x - t * i_tw d) mod 2 =? k mod 2)%nat && ((x - t * i_tw d) / 2 <? n)%nat.

Lemma integrate_ok d c t k r cfa f g : (1 <= i_tw d)%nat -> (t < tiles_across d)%nat -> (k < 4)%nat -> (1 <= i_w d)%nat ->
  (r < plane_h d)%nat -> (1 <= plane_w d t)%nat -> shows d cfa f ->
  exists cfa', integrate_cfa (codec_of d c) (plane_w d t) t k r (map g (seq 0 (plane_w d t))) cfa = Ok cfa' /\
    shows d cfa' (fun y x => if written d t r k (plane_w d t) y x then g ((x - t * i_tw d) / 2)%nat else f y x).
Proof.
  intros TW Ht Hk W Hr Pw SH. unfold integrate_cfa. rewrite map_length, seq_length.
  destruct (Nat.eqb_spec (plane_w d t) 0); [lia|]. cbn [negb assert_ bind].
  pose proof (plane_w_bounds d t TW) as (B1 & B2).
  assert (2 * plane_h d <= i_h d)%nat as BH by (unfold plane_h; apply Nat.mul_div_le; lia).
  pose proof SH as (SL & _). rewrite SL.
  assert (i_w d * i_h d <> 0)%nat by (apply Nat.neq_mul_0; lia).
  destruct (Nat.eqb_spec (i_w d * i_h d) 0); [lia|]. cbn [negb assert_ bind]. unfold codec_of. cbn [k_cols k_tw k_w].
  rewrite Nat.div_small, Nat.mod_small by exact Ht.
  assert (k / 2 < 2)%nat as K2 by (apply Nat.div_lt_upper_bound; lia).
  pose proof (Nat.mod_upper_bound k 2 ltac:(lia)) as K1.
  destruct (for_each_seq_inv (fun i cfa => do v <- get (map g (seq 0 (plane_w d t))) i;
       put cfa ((0 * i_tw d + r * 2 + k / 2) * i_w d + (t * i_tw d + i * 2 + k mod 2)) v)
     (fun n cfa => shows d cfa (fun y x => if written d t r k n y x then g ((x - t * i_tw d) / 2)%nat else f y x)) 0 (plane_w d t) cfa) as (cfa' & E & S'); [| |exists cfa'; split; [exact E|exact S']].
  - apply (shows_ext _ _ _ _ SH). intros y x _ _. unfold written. rewrite Nat.ltb_irrefl || idtac.
    replace ((x - t * i_tw d) / 2 <? 0)%nat with false by reflexivity. now rewrite andb_false_r.
  - intros i s Hi Hs. rewrite (get_ok _ _ 0) by (rewrite map_length, seq_length; lia). cbn [bind].
    rewrite nth_map_seq by lia.
    destruct (shows_put d s _ (0 * i_tw d + r * 2 + k / 2) (t * i_tw d + i * 2 + k mod 2) (g i) Hs ltac:(lia) ltac:(lia)) as (s' & E & S').
    exists s'. split; [exact E|]. apply (shows_ext _ _ _ _ S'). intros y x _ _. unfold written.
    replace (0 * i_tw d + r * 2 + k / 2)%nat with (r * 2 + k / 2)%nat by lia.
    destruct (Nat.eqb_spec y (r * 2 + k / 2)); cbn [andb]; [|reflexivity].
    destruct (Nat.eqb_spec x (t * i_tw d + i * 2 + k mod 2)) as [->|N]; cbn [andb].
    + replace (t * i_tw d + i * 2 + k mod 2 - t * i_tw d)%nat with (k mod 2 + i * 2)%nat by lia.
      rewrite Nat.mod_add, Nat.div_add, Nat.mod_mod, (Nat.div_small (k mod 2)) by lia.
      rewrite Nat.eqb_refl. destruct (Nat.leb_spec (t * i_tw d) (t * i_tw d + i * 2 + k mod 2)); [|lia].
      destruct (Nat.ltb_spec (0 + i) (S i)); [|lia]. reflexivity.
    + destruct (Nat.leb_spec (t * i_tw d) x); cbn [andb]; [|reflexivity].
      destruct (Nat.eqb_spec ((x - t * i_tw d) mod 2) (k mod 2)) as [E2|E2]; cbn [andb]; [|reflexivity].
      pose proof (Nat.div_mod (x - t * i_tw d) 2 ltac:(lia)).
      destruct (Nat.ltb_spec ((x - t * i_tw d) / 2) i), (Nat.ltb_spec ((x - t * i_tw d) / 2) (S i)); try lia; reflexivity.
Qed.

(** ** Rows, tiles *)

Definition tile_planes (d : image_desc) (P : nat -> nat -> plane) (t : nat) : list (list (list Z)) :=
  map (fun k => image (P t k) (plane_w d t) (plane_h d)) (seq 0 4).

Definition partly (d : image_desc) (P : nat -> nat -> plane) (t r y x : nat) : Z :=
  if (x / i_tw d <? t)%nat || ((x / i_tw d =? t)%nat && (y / 2 <? r)%nat) then picture_at d P y x else 0.

Section Tile.
  Variables (d : image_desc) (c : cmp1) (P : nat -> nat -> plane) (t : nat).
  Hypothesis D : 1 <= i_depth d <= 16.
  Hypothesis TW : (1 <= i_tw d)%nat.
  Hypothesis W : (1 <= i_w d)%nat.
  Hypothesis Ht : (t < tiles_across d)%nat.
  Hypothesis Pw : (1 <= plane_w d t)%nat.
  Hypothesis B : forall k i j, Z.abs (P t k i j) <= 2 ^ 18.

  Lemma put_row_ok cfa r : (r < plane_h d)%nat -> shows d cfa (partly d P t r) ->
    exists cfa', put_row (codec_of d c) (plane_w d t) t cfa r
      (map (fun x => P t 0%nat (Z.of_nat r) (Z.of_nat x)) (seq 0 (plane_w d t)), map (fun x => P t 1%nat (Z.of_nat r) (Z.of_nat x)) (seq 0 (plane_w d t)),
       map (fun x => P t 2%nat (Z.of_nat r) (Z.of_nat x)) (seq 0 (plane_w d t)), map (fun x => P t 3%nat (Z.of_nat r) (Z.of_nat x)) (seq 0 (plane_w d t))) = Ok cfa' /\
      shows d cfa' (partly d P t (S r)).
  Proof.
    intros Hr SH. unfold put_row.
    rewrite (convert_line_ok d c (fun k x => P t k (Z.of_nat r) (Z.of_nat x))) by auto. cbn [bind].
    rewrite !map_map. unfold four.
    set (blk := fun k x => block d (fun k => P t k (Z.of_nat r) (Z.of_nat x)) k).
    destruct (integrate_ok d c t 0 r cfa _ (blk 0%nat) TW Ht ltac:(lia) W Hr Pw SH) as (c0 & E0 & S0).
    destruct (integrate_ok d c t 1 r c0 _ (blk 1%nat) TW Ht ltac:(lia) W Hr Pw S0) as (c1 & E1 & S1).
    destruct (integrate_ok d c t 2 r c1 _ (blk 2%nat) TW Ht ltac:(lia) W Hr Pw S1) as (c2 & E2 & S2).
    destruct (integrate_ok d c t 3 r c2 _ (blk 3%nat) TW Ht ltac:(lia) W Hr Pw S2) as (c3 & E3 & S3).
    exists c3. split.
    { unfold blk in E0, E1, E2, E3. rewrite E0. cbn [bind]. rewrite E1. cbn [bind]. rewrite E2. cbn [bind]. exact E3. }
    apply (shows_ext _ _ _ _ S3). intros y x Hy Hx. unfold partly, written.
    change (3 / 2)%nat with 1%nat. change (2 / 2)%nat with 1%nat. change (1 / 2)%nat with 0%nat. change (0 / 2)%nat with 0%nat.
    change (3 mod 2)%nat with 1%nat. change (2 mod 2)%nat with 0%nat. change (1 mod 2)%nat with 1%nat. change (0 mod 2)%nat with 0%nat.
    pose proof (plane_w_bounds d t TW) as (B1 & _).
    pose proof (Nat.div_mod x (i_tw d) ltac:(lia)) as X. pose proof (Nat.mod_upper_bound x (i_tw d) ltac:(lia)) as X1.
    pose proof (Nat.div_mod y 2 ltac:(lia)) as Y. pose proof (Nat.mod_upper_bound y 2 ltac:(lia)) as Y1.
    set (q := (x / i_tw d)%nat) in *. set (m := (x mod i_tw d)%nat) in *.
    destruct (Nat.leb_spec (t * i_tw d) x) as [Hle|Hgt].
    2:{ rewrite !andb_false_r. cbn [andb].
        destruct (Nat.ltb_spec q t); cbn [orb]; [reflexivity|].
        assert (t * i_tw d <= q * i_tw d)%nat by (apply Nat.mul_le_mono_r; lia). lia. }
    rewrite !andb_true_r.
    destruct (Nat.eq_dec q t) as [Eq|Nq].
    - assert (x - t * i_tw d = m)%nat as -> by (rewrite <- Eq; lia).
      rewrite Eq, Nat.ltb_irrefl, Nat.eqb_refl. cbn [orb andb].
      pose proof (Nat.mod_upper_bound m 2 ltac:(lia)) as M1.
      unfold picture_at. fold q m. rewrite Eq.
      destruct (Nat.ltb_spec (m / 2) (plane_w d t)) as [Hm|Hm].
      2:{ rewrite !andb_false_r. cbn [andb]. destruct (y / 2 <? r)%nat, (y / 2 <? S r)%nat; reflexivity. }
      rewrite !andb_true_r. cbn [andb].
      destruct (Nat.eq_dec (y / 2) r) as [Er|Nr].
      + rewrite Er. destruct (Nat.ltb_spec r (S r)); [|lia]. destruct (Nat.ltb_spec r (plane_h d)); [|lia].
        assert (y mod 2 = 0 \/ y mod 2 = 1)%nat as [Ey|Ey] by lia; assert (m mod 2 = 0 \/ m mod 2 = 1)%nat as [Em|Em] by lia; rewrite Ey, Em;
        destruct (Nat.eqb_spec y (r * 2 + 1)), (Nat.eqb_spec y (r * 2 + 0)); try lia; reflexivity.
      + destruct (Nat.eqb_spec y (r * 2 + 1)); [exfalso; apply Nr; symmetry; apply Nat.div_unique with 1%nat; lia|].
        destruct (Nat.eqb_spec y (r * 2 + 0)); [exfalso; apply Nr; symmetry; apply Nat.div_unique with 0%nat; lia|]. cbn [andb].
        destruct (Nat.ltb_spec (y / 2) r), (Nat.ltb_spec (y / 2) (S r)); try lia; reflexivity.
    - assert (t < q)%nat as Hq.
      { destruct (Nat.lt_ge_cases t q); [assumption|]. assert (S q * i_tw d <= t * i_tw d)%nat by (apply Nat.mul_le_mono_r; lia). lia. }
      assert (plane_w d t <= (x - t * i_tw d) / 2)%nat as Hge.
      { apply Nat.div_le_lower_bound; [lia|]. assert (S t * i_tw d <= q * i_tw d)%nat by (apply Nat.mul_le_mono_r; lia). lia. }
      destruct (Nat.ltb_spec ((x - t * i_tw d) / 2) (plane_w d t)); [lia|]. rewrite !andb_false_r.
      destruct (Nat.ltb_spec q t); [lia|]. destruct (Nat.eqb_spec q t); [lia|]. reflexivity.
  Qed.

  Lemma put_rows_ok n : forall r cfa, (r + n = plane_h d)%nat -> shows d cfa (partly d P t r) ->
    exists cfa', put_rows (codec_of d c) (plane_w d t) t r
      (map (fun r => (line (P t 0%nat (Z.of_nat r)) 0 (plane_w d t), line (P t 1%nat (Z.of_nat r)) 0 (plane_w d t),
                      line (P t 2%nat (Z.of_nat r)) 0 (plane_w d t), line (P t 3%nat (Z.of_nat r)) 0 (plane_w d t))) (seq r n)) cfa = Ok cfa' /\
      shows d cfa' (partly d P t (plane_h d)).
  Proof.
    induction n as [|n IH]; intros r cfa Hr SH; cbn [seq map put_rows].
    - exists cfa. split; [reflexivity|]. now replace (plane_h d) with r by lia.
    - destruct (put_row_ok cfa r ltac:(lia) SH) as (c1 & E1 & S1).
      replace (put_row _ _ _ _ _ _) with (Ok c1).
      cbn [bind]. apply IH; [lia|exact S1].
  Qed.

  Lemma put_tile_ok cfa : shows d cfa (partly d P t 0) ->
    exists cfa', put_tile (codec_of d c) (plane_w d t) t (tile_planes d P t) cfa = Ok cfa' /\ shows d cfa' (partly d P (S t) 0).
  Proof.
    intros SH. unfold put_tile, tile_planes. cbn [seq map]. unfold image. rewrite zip4_map.
    destruct (put_rows_ok (plane_h d) 0 cfa eq_refl SH) as (c1 & E1 & S1).
    exists c1. split; [exact E1|]. apply (shows_ext _ _ _ _ S1). intros y x Hy Hx. unfold partly.
    change (y / 2 <? 0)%nat with false. rewrite andb_false_r, orb_false_r.
    destruct (Nat.ltb_spec (x / i_tw d) t), (Nat.ltb_spec (x / i_tw d) (S t)); try lia; cbn [orb]; try reflexivity.
    - destruct (Nat.eqb_spec (x / i_tw d) t); [|lia]. cbn [andb].
      destruct (Nat.ltb_spec (y / 2) (plane_h d)) as [Hy2|Hy2]; [reflexivity|].
      unfold picture_at. destruct (Nat.ltb_spec (y / 2) (plane_h d)); [lia|]. now rewrite andb_false_r.
    - destruct (Nat.eqb_spec (x / i_tw d) t); [lia|]. reflexivity.
  Qed.
End Tile.

Lemma put_tiles_ok d c P : 1 <= i_depth d <= 16 -> (1 <= i_tw d)%nat -> (1 <= i_w d)%nat ->
  (forall t, (t < tiles_across d)%nat -> (1 <= plane_w d t)%nat) -> (forall t k i j, Z.abs (P t k i j) <= 2 ^ 18) ->
  put_tiles (codec_of d c) 0 (map (fun t => (plane_w d t, tile_planes d P t)) (seq 0 (tiles_across d))) (repeat 0 (i_w d * i_h d)) = Ok (picture d P).
Proof.
  intros D TW W PW B.
  assert (forall n t cfa, (t + n = tiles_across d)%nat -> shows d cfa (partly d P t 0) ->
    exists cfa', put_tiles (codec_of d c) t (map (fun t => (plane_w d t, tile_planes d P t)) (seq t n)) cfa = Ok cfa' /\ shows d cfa' (partly d P (tiles_across d) 0)) as H.
  { induction n as [|n IH]; intros t cfa Ht SH; cbn [seq map put_tiles].
    - exists cfa. split; [reflexivity|]. now replace (tiles_across d) with t by lia.
    - destruct (put_tile_ok d c P t D TW W ltac:(lia) (PW t ltac:(lia)) (B t) cfa SH) as (c1 & E1 & S1).
      rewrite E1. cbn [bind]. apply IH; [lia|exact S1]. }
  destruct (H (tiles_across d) 0%nat (repeat 0 (i_w d * i_h d)) eq_refl) as (cfa' & E & (L & F)).
  { split; [apply repeat_length|]. intros y x Hy Hx. rewrite nth_repeat_lt by (apply flat_lt; auto).
    unfold partly. change (x / i_tw d <? 0)%nat with false. change (y / 2 <? 0)%nat with false. now rewrite andb_false_r. }
  rewrite E. f_equal. unfold picture. apply (nth_ext_len _ _ 0).
  - rewrite L, map_length, seq_length. reflexivity.
  - intros i Hi. rewrite L in Hi. rewrite nth_map_seq by exact Hi.
    pose proof (Nat.div_mod i (i_w d) ltac:(lia)) as DM. pose proof (Nat.mod_upper_bound i (i_w d) ltac:(lia)) as M.
    assert (i / i_w d < i_h d)%nat as Y by (apply Nat.div_lt_upper_bound; lia).
    replace i with (i / i_w d * i_w d + i mod i_w d)%nat at 1 by lia. rewrite F by auto.
    unfold partly. pose proof (across_bounds d W TW) as (A1 & A2 & A3).
    destruct (Nat.ltb_spec (i mod i_w d / i_tw d) (tiles_across d)) as [|G]; [reflexivity|].
    exfalso. apply (Nat.lt_irrefl (tiles_across d)). apply (Nat.le_lt_trans _ _ _ G). apply Nat.div_lt_upper_bound; lia.
Qed.
