(** Proofs: sizes of tiles and bands. *)
From Coq Require Import List ZArith Bool Lia.
From Verif Require Import Base BaseLemmas Crx CrxLL Idwt CrxImage CrxSpec IdwtSpec CrxImageSpec CrxHdr.
Import ListNotations.
Open Scope Z_scope.

Lemma mapi_ok {A B} (f : nat -> A -> res B) (g : nat -> A -> B) l : forall i,
  (forall j x, nth_error l j = Some x -> f (i + j)%nat x = Ok (g (i + j)%nat x)) ->
  mapi f i l = Ok (map (fun '(j, x) => g j x) (combine (seq i (length l)) l)).
Proof.
  induction l as [|x l IH]; intros i H; [reflexivity|]. cbn [mapi length seq combine map].
  pose proof (H 0%nat x eq_refl) as H0. rewrite Nat.add_0_r in H0. rewrite H0. cbn [bind].
  rewrite (IH (S i)); [reflexivity|]. intros j y Hj. replace (S i + j)%nat with (i + S j)%nat by lia. apply H. exact Hj.
Qed.
Lemma mapi_map {A B} (f : nat -> A -> res B) (g : A -> B) l i :
  (forall j x, nth_error l j = Some x -> f (i + j)%nat x = Ok (g x)) -> mapi f i l = Ok (map g l).
Proof.
  intros H. rewrite (mapi_ok f (fun _ => g)) by exact H. f_equal. clear H. revert i.
  induction l as [|x l IH]; intros i; [reflexivity|]. cbn. now rewrite IH.
Qed.

(** ** Extra columns *)

Lemma ex_coef_table L r l : (1 <= L <= 3)%nat -> (r < 8)%nat -> (l < L)%nat ->
  get EX_COEF (48 * (L - 1) + 6 * r + 2 * l) = Ok (fst (nth l (nth r (nth (L - 1) extra_columns []) []) (0, 0)%nat)) /\
  get EX_COEF (48 * (L - 1) + 6 * r + (2 * l + 1)) = Ok (snd (nth l (nth r (nth (L - 1) extra_columns []) []) (0, 0)%nat)).
Proof.
  intros HL Hr Hl.
  assert (forall P : nat -> Prop, P 0%nat -> P 1%nat -> P 2%nat -> P 3%nat -> P 4%nat -> P 5%nat -> P 6%nat -> P 7%nat -> P r) as Cr.
  { intros P. do 8 (destruct r as [|r]; [auto|]). lia. }
  destruct L as [|[|[|[|L]]]]; try lia; (destruct l as [|[|[|l]]]; try lia); apply Cr; split; reflexivity.
Qed.

Lemma ex_ok nb L w l : (1 <= L <= 3)%nat -> (l < L)%nat ->
  ex_coef nb L w (2 * l) = Ok (fst (extra nb L w l)) /\ ex_coef nb L w (2 * l + 1) = Ok (snd (extra nb L w l)).
Proof.
  intros HL Hl. unfold ex_coef, extra. destruct nb; [|split; reflexivity].
  apply ex_coef_table; auto. apply Nat.mod_upper_bound. lia.
Qed.

(** ** Bands of a plane *)

Definition place (version : Z) (left right : bool) (L w h : nat) (i : nat) (b : subband) : subband :=
  let l := band_level L i in
  let ex := extra right L w l in
  let c0 := if left then 1%nat else 0%nat in
  if (i =? 0)%nat then setup_idx version (low_cols right L w l) (halved h L) L 0 (snd ex) 0 0 b
  else if (i mod 3 =? 1)%nat then setup_idx version (high_cols left right L w l) (halved h (S l)) (S l) c0 (fst ex) 0 0 b
  else if (i mod 3 =? 2)%nat then setup_idx version (low_cols right L w l) (halved h l / 2) (S l) 0 (snd ex) 0 0 b
  else setup_idx version (high_cols left right L w l) (halved h l / 2) (S l) c0 (fst ex) 0 0 b.

Definition nosub : subband := mk_sub 0 false 0 0 0 0 0 0 0 0 0 0 0 0.

Lemma upd_band_ok i f bs : (i < length bs)%nat -> upd_band i f bs = Ok (upd_list bs i (f (nth i bs nosub))).
Proof. intros H. unfold upd_band. rewrite (get_ok _ _ nosub) by exact H. cbn [bind]. now rewrite put_ok. Qed.

Lemma odd_half a : ((a mod 2 + a) / 2 = (a + 1) / 2)%nat.
Proof.
  pose proof (Nat.div_mod a 2 ltac:(lia)) as H. pose proof (Nat.mod_upper_bound a 2 ltac:(lia)) as H1.
  assert (a mod 2 = 0 \/ a mod 2 = 1)%nat as [E|E] by lia; rewrite E in *.
  - replace (a + 1)%nat with (1 + a / 2 * 2)%nat by lia. rewrite Nat.div_add by lia.
    replace (0 + a)%nat with (a / 2 * 2)%nat at 1 by lia. rewrite Nat.div_mul by lia. reflexivity.
  - replace (1 + a)%nat with (a + 1)%nat by lia. reflexivity.
Qed.
Lemma half_floor a : ((a + 1) / 2 - a mod 2 = a / 2)%nat.
Proof.
  pose proof (Nat.div_mod a 2 ltac:(lia)) as H. pose proof (Nat.mod_upper_bound a 2 ltac:(lia)) as H1.
  assert (a mod 2 = 0 \/ a mod 2 = 1)%nat as [E|E] by lia; rewrite E in *.
  - replace (a + 1)%nat with (1 + a / 2 * 2)%nat by lia. rewrite Nat.div_add by lia. cbn [Nat.div Nat.divmod fst]. lia.
  - replace (a + 1)%nat with (0 + (a / 2 + 1) * 2)%nat by lia. rewrite Nat.div_add by lia. cbn [Nat.div Nat.divmod fst]. lia.
Qed.
Lemma half_ge a : (a mod 2 <= (a + 1) / 2)%nat.
Proof.
  pose proof (half_floor a). pose proof (Nat.mod_upper_bound a 2 ltac:(lia)).
  destruct (Nat.eq_dec a 0) as [->|N]; [cbn; lia|]. assert (1 <= (a + 1) / 2)%nat; [|lia].
  apply Nat.div_le_lower_bound; lia.
Qed.

Section Plane.
  Variables (c : codec) (t : tileh) (left right : bool).
  Let L := k_levels c. Let w := ti_pw t. Let h := ti_ph t. Let version := k_version c.
  Hypothesis HL : (L <= 3)%nat.
  Hypothesis Hnb : ti_nb t = mk_nbrs false false left right.
  Variable bs0 : list subband.
  Hypothesis Hlen : length bs0 = (3 * L + 1)%nat.

  Definition at_level (k : nat) (s : list subband * nat * nat) : Prop :=
    let '(bs, bw, bh) := s in
    length bs = length bs0 /\ bw = halved w k /\ bh = halved h k /\
    forall i, (i < length bs0)%nat ->
      nth i bs nosub = if (0 <? i)%nat && (band_level L i <? k)%nat then place version left right L w h i (nth i bs0 nosub) else nth i bs0 nosub.

  Lemma level_div i k : (k < L)%nat -> (3 * (L - k) - 2 <= i <= 3 * (L - k))%nat -> band_level L i = k.
  Proof.
    intros Hk Hi. unfold band_level.
    assert ((i - 1) / 3 = L - k - 1)%nat as ->; [|lia].
    symmetry. apply Nat.div_unique with (i - 1 - 3 * (L - k - 1))%nat; lia.
  Qed.
  Lemma level_other i k : (0 < i)%nat -> (k < L)%nat -> (i < 3 * L + 1)%nat -> ~ (3 * (L - k) - 2 <= i <= 3 * (L - k))%nat -> band_level L i <> k.
  Proof.
    intros H0 Hk Hi Hn E. apply Hn. unfold band_level in E.
    pose proof (Nat.div_mod (i - 1) 3 ltac:(lia)). pose proof (Nat.mod_upper_bound (i - 1) 3 ltac:(lia)). lia.
  Qed.

  Lemma level_step k s : (k < L)%nat -> at_level k s -> exists s', level_bands c t k s = Ok s' /\ at_level (S k) s'.
  Proof.
    intros Hk. destruct s as [[bs bw] bh]. intros (Hl & -> & -> & Hn).
    unfold level_bands. rewrite Hnb. cbn [n_right n_bottom n_left n_top]. fold L w h version.
    destruct (ex_ok right L w k ltac:(lia) Hk) as [E0 E1]. rewrite E0, E1. cbn [bind].
    destruct (ex_ok false L h k ltac:(lia) Hk) as [E2 E3]. rewrite E2, E3. cbn [bind extra fst snd].
    set (i := ((L - k) * 3)%nat).
    rewrite upd_band_ok by (unfold i; lia). cbn [bind].
    rewrite upd_band_ok by (rewrite upd_list_length; unfold i; lia). cbn [bind].
    rewrite upd_band_ok by (rewrite !upd_list_length; unfold i; lia). cbn [bind].
    eexists; split; [reflexivity|]. unfold at_level. rewrite !upd_list_length.
    split; [exact Hl|]. rewrite !odd_half. split; [reflexivity|]. split; [reflexivity|].
    intros j Hj.
    assert (i <> (i - 1)%nat /\ i <> (i - 2)%nat /\ (i - 1)%nat <> (i - 2)%nat /\ (i < length bs)%nat) as (N1 & N2 & N3 & N4) by (unfold i; lia).
    assert (i mod 3 = 0 /\ (i - 1) mod 3 = 2 /\ (i - 2) mod 3 = 1)%nat as (M0 & M1 & M2).
    { unfold i. split; [apply Nat.mod_mul; lia|].
      split; symmetry; apply Nat.mod_unique with (L - k - 1)%nat; lia. }
    assert (forall j, (j = i \/ j = i - 1 \/ j = i - 2)%nat -> band_level L j = k) as Hlev.
    { intros x Hx. apply level_div; [exact Hk|unfold i in Hx; lia]. }
    assert (forall j, (j = i \/ j = i - 1 \/ j = i - 2)%nat -> nth j bs nosub = nth j bs0 nosub) as Hold.
    { intros x Hx. rewrite Hn by (unfold i in Hx; lia). rewrite (Hlev x Hx). rewrite Nat.ltb_irrefl, andb_false_r. reflexivity. }
    pose proof (half_floor (halved w k)) as Fw. pose proof (half_floor (halved h k)) as Fh.
    pose proof (half_ge (halved w k)) as Gw. pose proof (half_ge (halved h k)) as Gh.
    assert (high_cols left right L w k = (halved w k + 1) / 2 + (fst (extra right L w k) + (if left then 1 else 0)) - halved w k mod 2)%nat as EH.
    { unfold high_cols. destruct left; lia. }
    assert (low_cols right L w k = (halved w k + 1) / 2 + snd (extra right L w k))%nat as EL by reflexivity.
    assert (halved h k / 2 = (halved h k + 1) / 2 + (0 + 0) - halved h k mod 2)%nat as EHh by lia.
    destruct (Nat.eq_dec j (i - 2)) as [->|J2].
    { rewrite nth_upd_eq by (rewrite !upd_list_length; lia). rewrite !nth_upd_neq by lia. rewrite Hold by auto.
      assert (0 < i - 2)%nat as P by (unfold i; lia). apply Nat.ltb_lt in P. rewrite P, Hlev by auto.
      replace (k <? S k)%nat with true by (symmetry; apply Nat.ltb_lt; lia). cbn [andb].
      unfold place. apply Nat.ltb_lt in P. destruct (Nat.eqb_spec (i - 2) 0); [lia|]. rewrite Hlev, M2 by auto. cbn [Nat.eqb].
      rewrite EH. cbn [halved]. rewrite Nat.add_0_r. replace (k + 1)%nat with (S k) by lia. reflexivity. }
    rewrite nth_upd_neq by auto.
    destruct (Nat.eq_dec j (i - 1)) as [->|J1].
    { rewrite nth_upd_eq by (rewrite !upd_list_length; lia). rewrite !nth_upd_neq by lia. rewrite Hold by auto.
      assert (0 < i - 1)%nat as P by (unfold i; lia). apply Nat.ltb_lt in P. rewrite P, Hlev by auto.
      replace (k <? S k)%nat with true by (symmetry; apply Nat.ltb_lt; lia). cbn [andb].
      unfold place. apply Nat.ltb_lt in P. destruct (Nat.eqb_spec (i - 1) 0); [lia|]. rewrite Hlev, M1 by auto. cbn [Nat.eqb].
      rewrite EL, EHh. replace (k + 1)%nat with (S k) by lia. reflexivity. }
    rewrite nth_upd_neq by auto.
    destruct (Nat.eq_dec j i) as [->|J0].
    { rewrite nth_upd_eq by lia. rewrite Hold by auto.
      assert (0 < i)%nat as P by (unfold i; lia). apply Nat.ltb_lt in P. rewrite P, Hlev by auto.
      replace (k <? S k)%nat with true by (symmetry; apply Nat.ltb_lt; lia). cbn [andb].
      unfold place. apply Nat.ltb_lt in P. destruct (Nat.eqb_spec i 0); [lia|]. rewrite Hlev, M0 by auto. cbn [Nat.eqb].
      rewrite EH, EHh. replace (k + 1)%nat with (S k) by lia. reflexivity. }
    rewrite nth_upd_neq by auto. rewrite Hn by exact Hj.
    destruct (Nat.ltb_spec 0 j); [|reflexivity]. cbn [andb].
    pose proof (level_other j k ltac:(lia) Hk ltac:(lia) ltac:(unfold i in *; lia)).
    destruct (Nat.ltb_spec (band_level L j) k), (Nat.ltb_spec (band_level L j) (S k)); try lia; reflexivity.
  Qed.

  Lemma process_bands_ok : (1 <= L)%nat -> exists bs, process_bands c t bs0 = Ok bs /\ length bs = length bs0 /\
    forall i, (i < length bs0)%nat -> nth i bs nosub = place version left right L w h i (nth i bs0 nosub).
  Proof.
    intros HL1. unfold process_bands. fold L w h. destruct (Nat.eqb_spec L 0); [lia|].
    pose proof (Nat.mod_upper_bound w 8 ltac:(lia)). pose proof (Nat.mod_upper_bound h 8 ltac:(lia)).
    change (length EX_COEF) with 144%nat.
    rewrite (proj2 (Nat.leb_le _ _)) by lia. rewrite (proj2 (Nat.leb_le (48 * (L - 1) + 6 * (h mod 8)) 144)) by lia. cbn [assert_ bind].
    destruct (for_each_seq_inv (level_bands c t) (fun k s => at_level k s) 0 L (bs0, w, h)) as (s & E & Hs).
    { cbn. repeat split; auto. intros i Hi. rewrite andb_false_r. reflexivity. }
    { intros k s Hk Hs. apply level_step; [lia|exact Hs]. }
    rewrite E. cbn [bind]. destruct s as [[bs bw] bh]. cbn [Nat.add] in Hs. destruct Hs as (Hl & -> & -> & Hn).
    rewrite Hnb. cbn [n_right n_bottom].
    destruct (ex_ok right L w (L - 1) ltac:(lia) ltac:(lia)) as [_ E1].
    replace (2 * L - 1)%nat with (2 * (L - 1) + 1)%nat by lia. rewrite E1. cbn [bind].
    destruct (ex_ok false L h (L - 1) ltac:(lia) ltac:(lia)) as [_ E3]. rewrite E3. cbn [bind extra snd].
    rewrite upd_band_ok by lia. eexists; split; [reflexivity|]. rewrite upd_list_length. split; [exact Hl|].
    intros i Hi. destruct (Nat.eq_dec i 0) as [->|N].
    - rewrite nth_upd_eq by lia. rewrite Hn by lia. cbn [Nat.ltb Nat.leb andb]. unfold place. cbn [Nat.eqb].
      assert (band_level L 0 = L - 1)%nat as -> by (unfold band_level; cbn; lia).
      f_equal. unfold low_cols. replace (S (L - 1)) with L by lia. lia.
    - rewrite nth_upd_neq by auto. rewrite Hn by exact Hi. destruct (Nat.ltb_spec 0 i); [|lia]. cbn [andb].
      destruct (Nat.ltb_spec (band_level L i) L); [reflexivity|]. unfold band_level in *. lia.
  Qed.
End Plane.
