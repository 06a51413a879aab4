(** Samsung, second format: table, decoder, round trip. *)
From Coq Require Import List ZArith Lia Bool.
From Coq Require Import ZifyBool ZifyNat.
From Verif Require Import Base BaseLemmas Pumps PumpProofs PumpSeq LjpegEnc LjpegDec HuffTree HuffCanon HuffBuild HuffDec LjpegAnySpec Crx CrxLL CrxImageSpec PefSpec Lanes PefRows Srw SrwSpec.
Import ListNotations.
Open Scope Z_scope.

(** ** Table *)
Lemma fill_entry (e : nat * nat) cnt : forall n pre rest, length pre = n -> (cnt <= length rest)%nat ->
  for_each (seq n cnt) (fun _ '(n, tbl) => do tbl <- put tbl n e; Ok ((n + 1)%nat, tbl)) (n, pre ++ rest) =
    Ok ((n + cnt)%nat, pre ++ repeat e cnt ++ skipn cnt rest).
Proof.
  induction cnt; intros n pre rest HL HR; cbn [seq for_each repeat skipn app]; [now rewrite Nat.add_0_r|].
  destruct rest as [|x rest]; [cbn in HR; lia|]. rewrite put_ok by (rewrite app_length; cbn [length]; lia). cbn [bind].
  assert (E : upd_list (pre ++ x :: rest) n e = (pre ++ [e]) ++ rest).
  { apply (nth_ext_len _ _ (0, 0)%nat); [rewrite upd_list_length, !app_length; cbn [length]; lia|]. intros i Hi. rewrite upd_list_length, app_length in Hi. cbn [length] in Hi.
    destruct (Nat.eq_dec i n) as [->|N].
    - rewrite nth_upd_eq by (rewrite app_length; cbn [length]; lia). rewrite <- app_assoc, app_nth2 by lia. now rewrite HL, Nat.sub_diag.
    - rewrite nth_upd_neq by auto. rewrite <- app_assoc. destruct (Nat.lt_ge_cases i n); [now rewrite !app_nth1 by lia|].
      rewrite !app_nth2 by lia. destruct (i - length pre)%nat eqn:D; [lia|]. reflexivity. }
  rewrite E. replace (n + 1)%nat with (S n) by lia. rewrite IHcnt; [|rewrite app_length; cbn [length]; lia|cbn [length] in HR; lia].
  rewrite <- app_assoc. cbn [app]. f_equal. f_equal. lia.
Qed.
Lemma for_each_ignore {A B S} (f : S -> res S) (l : list A) (l' : list B) s : length l = length l' -> for_each l (fun _ => f) s = for_each l' (fun _ => f) s.
Proof. revert l' s. induction l; intros [|b l'] s H; cbn in H; try lia; [reflexivity|]. cbn [for_each]. destruct (f s); cbn [bind]; try reflexivity. apply IHl. lia. Qed.
Definition spread (es : list (nat * nat)) : list (nat * nat) := flat_map (fun e => repeat e (2 ^ (10 - fst e))) es.
Lemma fill_all es : forall n pre rest, length pre = n -> (length (spread es) <= length rest)%nat ->
  for_each es (fun e '(n, tbl) =>
    for_each (seq 0 (2 ^ (10 - fst e))) (fun _ '(n, tbl) => do tbl <- put tbl n e; Ok ((n + 1)%nat, tbl)) (n, tbl)) (n, pre ++ rest) =
    Ok ((n + length (spread es))%nat, pre ++ spread es ++ skipn (length (spread es)) rest).
Proof.
  induction es as [|e es IH]; intros n pre rest HL HR; [cbn; now rewrite Nat.add_0_r|]. cbn [for_each].
  unfold spread in HR |- *. cbn [flat_map] in HR |- *. fold (spread es) in HR |- *. rewrite app_length, repeat_length in HR |- *.
  rewrite (for_each_ignore _ (seq 0 (2 ^ (10 - fst e))) (seq n (2 ^ (10 - fst e)))) by now rewrite !seq_length.
  rewrite fill_entry by (auto; lia). cbn [bind]. rewrite app_assoc. rewrite IH.
  - rewrite <- !app_assoc. rewrite skipn_skipn.
    replace (n + 2 ^ (10 - fst e) + length (spread es))%nat with (n + (2 ^ (10 - fst e) + length (spread es)))%nat by lia. reflexivity.
  - rewrite app_length, repeat_length. lia.
  - rewrite skipn_length. lia.
Qed.
Lemma srw2_table_ok : srw2_table = Ok (spread srw2_tab).
Proof.
  unfold srw2_table. assert (L : length (spread srw2_tab) = 1024%nat) by reflexivity.
  pose proof (fill_all srw2_tab 0 [] (repeat (0, 0)%nat 1024) eq_refl) as F. rewrite repeat_length, L in F. specialize (F (le_n _)). cbn [app] in F.
  rewrite F. cbn [bind]. rewrite skipn_all2 by (rewrite repeat_length; lia). now rewrite app_nil_r.
Qed.
Lemma spread_code : forallb (fun c => match find (fun '(n, v, _) => Z.of_nat c / 2 ^ Z.of_nat (10 - n) =? v) srw2_code with
  | Some (n, _, cat) => let e := nth c (spread srw2_tab) (0, 0)%nat in (fst e =? n)%nat && (snd e =? cat)%nat | None => false end) (seq 0 1024) = true.
Proof. reflexivity. Qed.
Lemma code_lengths : forallb (fun '(n, _, cat) => (n <=? 10) && (cat <=? 13))%nat srw2_code = true.
Proof. reflexivity. Qed.
Lemma find_ext {A} (f g : A -> bool) l : (forall x, In x l -> f x = g x) -> find f l = find g l.
Proof. induction l; intros H; cbn; auto. rewrite H by now left. destruct (g a); auto. apply IHl. intros; apply H; now right. Qed.
(** the code found in the data and the table agree *)
Lemma srw2_lookup l : exists n v cat, find (fun '(n, v, _) => peekv n l =? v) srw2_code = Some (n, v, cat) /\
  get (spread srw2_tab) (Z.to_nat (peekv 10 l)) = Ok (n, cat) /\ (n <= 10)%nat /\ (cat <= 13)%nat.
Proof.
  pose proof (peekv_range 10 l) as R. change (2 ^ Z.of_nat 10) with 1024 in R. pose proof spread_code as C. rewrite forallb_forall in C.
  specialize (C (Z.to_nat (peekv 10 l)) ltac:(apply in_seq; lia)). rewrite Z2Nat.id in C by lia.
  rewrite (find_ext _ (fun '(n, v, _) => peekv n l =? v)) in C.
  - destruct (find _ srw2_code) as [[[n v] cat]|] eqn:E; [|discriminate]. exists n, v, cat. split; [reflexivity|].
    apply andb_prop in C as [C1 C2]. apply Nat.eqb_eq in C1. apply Nat.eqb_eq in C2.
    assert (L : length (spread srw2_tab) = 1024%nat) by reflexivity. rewrite (get_ok _ _ (0, 0)%nat) by lia. split.
    + f_equal. destruct (nth _ (spread srw2_tab) _) as [x y]. cbn [fst snd] in *. now subst.
    + apply find_some in E as [E _]. pose proof code_lengths as CL. rewrite forallb_forall in CL. specialize (CL _ E). cbn in CL. lia.
  - intros [[n v] cat] Hin. pose proof code_lengths as CL. rewrite forallb_forall in CL. specialize (CL _ Hin). cbv beta iota in CL.
    f_equal. replace 10%nat with (n + (10 - n))%nat at 1 by lia. rewrite peekv_plus. pose proof (peekv_range (10 - n) (skipn n l)).
    rewrite Z.div_add_l by lia. rewrite Z.div_small by lia. lia.
Qed.

(** ** One difference *)
Lemma srw2_diff_ok k p l : msb_rep k p l -> (32 <= k)%nat ->
  exists p', srw2_diff (spread srw2_tab) p = Ok (fst (srw2_next l), p') /\ (exists n, (n <= 23)%nat /\ snd (srw2_next l) = skipn n l /\ msb_rep (k - n) p' (skipn n l)) /\
    Z.abs (fst (srw2_next l)) < 8192.
Proof.
  intros R K. unfold srw2_diff. destruct (pr_peek msb_refines k p l 10 R ltac:(lia) ltac:(lia)) as (p1 & E1 & R1 & C1). rewrite E1. cbn [bind].
  destruct (srw2_lookup l) as (n & v & cat & EF & EG & Bn & Bc). rewrite EG. cbn [bind fst snd].
  destruct (C1 n Bn) as (p2 & E2 & R2). rewrite E2. cbn [bind].
  destruct (pr_get _ _ msb_refines (k - n) p2 (skipn n l) cat R2 ltac:(lia) ltac:(lia)) as (p3 & E3 & R3). rewrite E3. cbn [bind].
  assert (EN : srw2_next l = (difference cat (peekv cat (skipn n l)), skipn (n + cat) l)) by (unfold srw2_next; now rewrite EF). rewrite EN. cbn [fst snd].
  pose proof (peekv_range cat (skipn n l)) as PR. set (x := peekv cat (skipn n l)) in *. exists p3.
  assert (ED : (if negb (cat =? 0)%nat && negb (Z.testbit x (Z.of_nat (cat - 1))) then x - (2 ^ Z.of_nat cat - 1) else x) = difference cat x /\ Z.abs (difference cat x) < 8192).
  { unfold difference. destruct (Nat.eqb_spec cat 0) as [->|N]; cbn [negb andb]; [change (2 ^ Z.of_nat 0) with 1 in PR; lia|].
    replace (cat =? 16)%nat with false by lia. assert (PC : 2 ^ Z.of_nat cat = 2 * 2 ^ Z.of_nat (cat - 1)).
    { replace cat with (S (cat - 1)) at 1 by lia. rewrite Nat2Z.inj_succ, Z.pow_succ_r by lia. reflexivity. }
    assert (P0 : 0 < 2 ^ Z.of_nat (cat - 1)) by (apply Z.pow_pos_nonneg; lia). assert (PB : 2 ^ Z.of_nat cat <= 8192) by (change 8192 with (2 ^ Z.of_nat 13); apply Z.pow_le_mono_r; lia).
    rewrite Z.testbit_eqb by lia. destruct (Z.ltb_spec x (2 ^ Z.of_nat (cat - 1))) as [L|L].
    - rewrite Z.div_small by lia. change (0 mod 2 =? 1) with false. cbn [negb andb]. lia.
    - replace (x / 2 ^ Z.of_nat (cat - 1)) with 1 by (apply (Z.div_unique _ _ 1 (x - 2 ^ Z.of_nat (cat - 1))); lia). change (1 mod 2 =? 1) with true. cbn [negb andb]. lia. }
  destruct ED as [ED EB]. split; [|split; [|exact EB]].
  - destruct (negb (cat =? 0)%nat && negb (Z.testbit x (Z.of_nat (cat - 1)))); now rewrite <- ED.
  - exists (n + cat)%nat. split; [lia|]. split; [reflexivity|]. rewrite skipn_skipn in R3. replace (k - (n + cat))%nat with (k - n - cat)%nat by lia. exact R3.
Qed.

(** ** The decoder *)
Section Two.
  Variables (w h : nat) (l0 : list bool).
  Definition nx2 : nat -> list bool -> Z * list bool := fun _ => srw2_next.
  Hypothesis HD : data_for nx2 l0 (w * h).
  Variable s : nat -> nat -> Z.
  Hypothesis HS : lane_picture zero_init (diff_at nx2 l0) w h s.
  Hypothesis HB : Z.of_nat (w + h) <= 65000.
  Definition at2 (i : nat) (p : wpump) : Prop := msb_rep (length (bits_after nx2 l0 i)) p (bits_after nx2 l0 i).
  Lemma next2 i p : (i < w * h)%nat -> at2 i p -> exists p', srw2_diff (spread srw2_tab) p = Ok (diff_at nx2 l0 i, p') /\ at2 (S i) p'.
  Proof.
    intros Hi R. destruct (srw2_diff_ok _ p _ R (HD i Hi)) as (p' & E & (n & Hn & EN & RN) & _). exists p'. split; [exact E|].
    unfold at2. change (bits_after nx2 l0 (S i)) with (snd (srw2_next (bits_after nx2 l0 i))). rewrite EN, skipn_length. exact RN.
  Qed.
  Lemma diff2_size i : (i < w * h)%nat -> Z.abs (diff_at nx2 l0 i) < 8192.
  Proof.
    intros Hi. assert (R : exists n v cat, find (fun '(n, v, _) => peekv n (bits_after nx2 l0 i) =? v) srw2_code = Some (n, v, cat) /\ (cat <= 13)%nat).
    { destruct (srw2_lookup (bits_after nx2 l0 i)) as (n & v & cat & E & _ & _ & B). eauto 10. }
    destruct R as (n & v & cat & E & B). change (diff_at nx2 l0 i) with (fst (srw2_next (bits_after nx2 l0 i))). unfold srw2_next. rewrite E. cbn [fst].
    pose proof (peekv_range cat (skipn n (bits_after nx2 l0 i))) as PR. unfold difference. destruct (Nat.eqb_spec cat 0); [lia|]. replace (cat =? 16)%nat with false by lia.
    assert (PB : 2 ^ Z.of_nat cat <= 8192) by (change 8192 with (2 ^ Z.of_nat 13); apply Z.pow_le_mono_r; lia). destruct (_ <? _); lia.
  Qed.
  Lemma step2 r c : (r < h)%nat -> (c < w)%nat -> i32 (lane_pred zero_init s r c + diff_at nx2 l0 (r * w + c)) = Ok (s r c).
  Proof.
    intros Hr Hc. rewrite <- HS by auto. apply i32_ok. apply (picture_i32 zero_init (diff_at nx2 l0) w h s); auto.
    - intros; unfold zero_init; lia.
    - intros i Hi. pose proof (diff2_size i Hi). lia.
  Qed.
  Definition F2 (j : nat) : Z := wrap_u16 (s (j / w)%nat (j mod w)%nat).
  Lemma F2_at r c : (c < w)%nat -> F2 (r * w + c) = wrap_u16 (s r c).
  Proof.
    intros Hc. unfold F2. replace (r * w + c)%nat with (c + r * w)%nat by lia. rewrite Nat.div_add, Nat.mod_add by lia.
    now rewrite Nat.div_small, Nat.mod_small by auto.
  Qed.
  Definition col_of (k : nat) (vpred : list (list Z)) : list Z := map (fun v => nth k v 0) vpred.
  Definition vok (r c : nat) (vpred : list (list Z)) : Prop := length vpred = 2%nat /\ (forall v, In v vpred -> length v = 2%nat) /\
    forall k, (k < 2)%nat -> (k < w)%nat -> ups zero_init s (if (k <? c)%nat then S r else r) k (col_of k vpred).
  Definition hok (r c : nat) (hpred : list Z) : Prop := length hpred = 2%nat /\ forall j, (j < c)%nat -> (c <= j + 2)%nat -> nth (j mod 2) hpred 0 = s r j.
  Lemma col_of_upd k vpred q v : (q < length vpred)%nat -> col_of k (upd_list vpred q v) = upd_list (col_of k vpred) q (nth k v 0).
  Proof.
    intros Hq. unfold col_of. apply (nth_ext_len _ _ 0); [rewrite map_length, !upd_list_length, map_length; reflexivity|].
    intros i Hi. rewrite map_length, upd_list_length in Hi. rewrite (nth_indep _ 0 (nth k (@nil Z) 0)) by (rewrite map_length, upd_list_length; auto). rewrite (map_nth (fun v => nth k v 0)).
    destruct (Nat.eq_dec i q) as [->|N].
    - rewrite !nth_upd_eq by (rewrite ?map_length; auto). reflexivity.
    - rewrite !nth_upd_neq by auto. rewrite (nth_indep (map _ _) 0 (nth k (@nil Z) 0)) by (rewrite map_length; auto). now rewrite (map_nth (fun v => nth k v 0)).
  Qed.
  Lemma col_same k vpred q v : (q < length vpred)%nat -> nth k v 0 = nth k (nth q vpred []) 0 -> upd_list (col_of k vpred) q (nth k v 0) = col_of k vpred.
  Proof.
    intros Hq E. rewrite E. unfold col_of. apply (nth_ext_len _ _ 0); [rewrite upd_list_length; reflexivity|]. intros i Hi. rewrite upd_list_length, map_length in Hi.
    destruct (Nat.eq_dec i q) as [->|N].
    - rewrite nth_upd_eq by (rewrite map_length; auto). rewrite (nth_indep (map _ vpred) 0 (nth k (@nil Z) 0)) by (rewrite map_length; auto). now rewrite (map_nth (fun v => nth k v 0)).
    - rewrite nth_upd_neq by auto. reflexivity.
  Qed.

  Lemma srw2_rows src : Forall is_byte src -> l0 = byte_bits src -> srw2_decode src w h = Ok (map F2 (seq 0 (w * h))).
  Proof.
    intros HBy El. unfold srw2_decode. rewrite srw2_table_ok. cbn [bind].
    match goal with |- context [for_each (seq 0 h) ?G ?S0] =>
      destruct (for_each_seq_inv G (fun r '(vp, hp, p, out) => vok r 0 vp /\ length hp = 2%nat /\ at2 (r * w) p /\ filled F2 (w * h) (r * w) out) 0 h S0)
        as (st & E & I) end.
    - split; [|split; [|split]].
      + split; [reflexivity|]. split; [intros v [<-|[<-|[]]]; reflexivity|]. intros k Hk Hkw. cbn [Nat.ltb Nat.leb]. split; [reflexivity|].
        intros q Hq. unfold above, zero_init. destruct k as [|[|k]], q as [|[|q]]; try lia; reflexivity.
      + reflexivity.
      + unfold at2. cbn [Nat.mul bits_after]. rewrite El. apply msb_new_rep; auto. rewrite byte_bits_length. lia.
      + split; [now rewrite repeat_length|]. lia.
    - intros r [[[vp hp] p] out] Hr (V & HL & R & O).
      assert (Brow : (S r * w <= h * w)%nat) by (apply Nat.mul_le_mono_r; lia). cbn [Nat.mul] in Brow.
      match goal with |- context [for_each (seq 0 w) ?G ?S0] =>
        destruct (for_each_seq_inv G (fun c '(vp, hp, p, out) => vok r c vp /\ hok r c hp /\ at2 (r * w + c) p /\ filled F2 (w * h) (r * w + c) out) 0 w S0)
          as (st & E & I) end.
      + rewrite Nat.add_0_r. split; auto. split; auto. split; auto. intros; lia.
      + clear vp hp p out V HL R O. intros c [[[vp hp] p] out] Hc ((V1 & V2 & V3) & (H1 & H2) & R & O). assert (Hcw : (c < w)%nat) by lia. clear Hc.
        destruct (next2 (r * w + c) p) as (p1 & E1 & R1); [lia|auto|]. rewrite E1. cbn [bind]. pose proof (step2 r c ltac:(lia) Hcw) as ST. unfold lane_pred in ST.
        pose proof (Nat.mod_upper_bound r 2 ltac:(lia)) as Br. pose proof (Nat.mod_upper_bound c 2 ltac:(lia)) as Bc.
        match goal with |- context [bind ?e (fun '(vpred, hpred) => _)] =>
          assert (ST2 : exists vp' hp', e = Ok (vp', hp') /\ vok r (S c) vp' /\ hok r (S c) hp') end.
        { destruct (Nat.ltb_spec c 2) as [L|L].
          - replace (2 <=? c)%nat with false in ST by lia. rewrite (get_ok vp _ []) by lia. cbn [bind].
            assert (LV : length (nth (r mod 2) vp []) = 2%nat) by (apply V2, nth_In; lia).
            rewrite (get_ok (nth (r mod 2) vp []) c 0) by lia. cbn [bind].
            assert (XV : nth c (nth (r mod 2) vp []) 0 = above zero_init s r c).
            { destruct (V3 c L Hcw) as [_ X]. rewrite Nat.ltb_irrefl in X. specialize (X (r mod 2)%nat Br). rewrite Nat.eqb_refl in X. unfold col_of in X.
              rewrite (nth_indep _ 0 (nth c (@nil Z) 0)) in X by (rewrite map_length; lia). rewrite (map_nth (fun v => nth c v 0)) in X. exact X. }
            unfold above in XV. rewrite XV, ST. cbn [bind]. repeat (rewrite put_ok by lia; cbn [bind]).
            eexists _, _. split; [reflexivity|]. split.
            + split; [now rewrite upd_list_length|]. split.
              * intros v Hv. apply In_nth with (d := []) in Hv as (i & Hi & <-). rewrite upd_list_length in Hi. destruct (Nat.eq_dec i (r mod 2)) as [->|N].
                -- rewrite nth_upd_eq by auto. now rewrite upd_list_length.
                -- rewrite nth_upd_neq by auto. apply V2, nth_In. auto.
              * intros k Hk Hkw. rewrite col_of_upd by lia. destruct (Nat.eq_dec k c) as [->|N].
                -- rewrite nth_upd_eq by lia. replace (c <? S c)%nat with true by lia.
                   pose proof (V3 c L Hcw) as U. rewrite Nat.ltb_irrefl in U. destruct (ups_put _ _ _ _ _ (s r c) U eq_refl) as (up' & EU & U').
                   rewrite put_ok in EU by (unfold col_of; rewrite map_length; lia). injection EU as <-. exact U'.
                -- rewrite nth_upd_neq by auto. replace (k <? S c)%nat with (k <? c)%nat by lia. rewrite col_same by (auto; lia). apply V3; auto.
            + split; [now rewrite upd_list_length|]. intros j Hj1 Hj2. destruct (Nat.eq_dec j c) as [->|N].
              * rewrite (Nat.mod_small c 2) by lia. now rewrite nth_upd_eq by lia.
              * rewrite (Nat.mod_small j 2) by lia. rewrite nth_upd_neq by lia. pose proof (H2 j ltac:(lia) ltac:(lia)) as X. rewrite (Nat.mod_small j 2) in X by lia. exact X.
          - replace (2 <=? c)%nat with true in ST by lia. rewrite (get_ok hp _ 0) by lia. cbn [bind].
            assert (PM : ((c - 2) mod 2 = c mod 2)%nat) by (replace c with (c - 2 + 1 * 2)%nat at 2 by lia; now rewrite Nat.mod_add by lia).
            replace (nth (c mod 2) hp 0) with (s r (c - 2)%nat) by (rewrite <- PM; symmetry; apply H2; lia). rewrite ST. cbn [bind]. rewrite put_ok by lia. cbn [bind]. eexists _, _. split; [reflexivity|]. split.
            + split; auto. split; auto. intros k Hk Hkw. replace (k <? S c)%nat with true by lia. pose proof (V3 k Hk Hkw) as U. replace (k <? c)%nat with true in U by lia. exact U.
            + split; [now rewrite upd_list_length|]. intros j Hj1 Hj2. destruct (Nat.eq_dec j c) as [->|N].
              * now rewrite nth_upd_eq by lia.
              * replace j with (c - 1)%nat by lia. assert (PN : ((c - 1) mod 2 <> c mod 2)%nat).
                { pose proof (Nat.div_mod c 2 ltac:(lia)). pose proof (Nat.div_mod (c - 1) 2 ltac:(lia)). intros X. rewrite X in *. lia. }
                rewrite nth_upd_neq by auto. apply H2; lia. }
        destruct ST2 as (vp' & hp' & E2 & V' & H'). rewrite E2. cbn [bind]. pose proof H' as [HL' HH']. rewrite (get_ok hp' _ 0) by lia. cbn [bind].
        rewrite HH' by lia. destruct (filled_put F2 (w * h) (r * w + c) out (wrap_u16 (s r c)) O) as (o & EO & O'); [lia|now rewrite F2_at|]. rewrite EO. cbn [bind].
        eexists. split; [reflexivity|]. replace (r * w + S c)%nat with (S (r * w + c)) by lia. auto.
      + exists st. split; [exact E|]. destruct st as [[[vp' hp'] p'] o']. cbn [plus] in I. destruct I as ((V1 & V2 & V3) & (H1 & _) & R' & O').
        replace (S r * w)%nat with (r * w + w)%nat by lia. split; [|auto]. split; auto. split; auto. intros k Hk Hkw. pose proof (V3 k Hk Hkw) as U.
        replace (k <? w)%nat with true in U by lia. replace (k <? 0)%nat with false by lia. exact U.
    - rewrite E. cbn [bind]. destruct st as [[[vp hp] p] o]. destruct I as (_ & _ & _ & Of). cbn [bind]. f_equal. apply filled_all.
      replace (w * h)%nat with ((0 + h) * w)%nat at 2 by lia. exact Of.
  Qed.
End Two.

Theorem srw2_any src w h : Forall is_byte src -> Z.of_nat (w + h) <= 65000 -> data_for (fun _ => srw2_next) (byte_bits src) (w * h) ->
  exists s, lane_picture zero_init (diff_at (fun _ => srw2_next) (byte_bits src)) w h s /\
    srw2_decode src w h = Ok (samples (fun r c => s r c mod 65536) w h).
Proof.
  intros HBy HB HD. exists (picture zero_init (diff_at nx2 (byte_bits src)) w). split; [apply picture_exists|].
  rewrite (srw2_rows w h (byte_bits src) HD (picture zero_init (diff_at nx2 (byte_bits src)) w)); auto. apply picture_exists.
Qed.

(** ** Round trip *)
Lemma peek_prefix n m l : (n <= m)%nat -> peekv n l = peekv m l / 2 ^ Z.of_nat (m - n).
Proof.
  intros H. replace m with (n + (m - n))%nat at 1 by lia. rewrite peekv_plus. pose proof (peekv_range (m - n) (skipn n l)).
  rewrite Z.div_add_l by lia. rewrite Z.div_small by lia. lia.
Qed.
Definition clash (a b : nat * Z * nat) : bool :=
  let '(n, v, c) := a in let '(m, u, d) := b in
  (if (n <=? m)%nat then u / 2 ^ Z.of_nat (m - n) =? v else v / 2 ^ Z.of_nat (n - m) =? u) && negb (c =? d)%nat.
Lemma no_clash : forallb (fun a => forallb (fun b => negb (clash a b)) srw2_code) srw2_code = true.
Proof. reflexivity. Qed.
Lemma code_unique : forallb (fun a => forallb (fun b => let '(n, v, c) := a in let '(m, u, d) := b in negb (c =? d)%nat || ((n =? m)%nat && (v =? u))) srw2_code) srw2_code = true.
Proof. reflexivity. Qed.
Lemma srw2_word n v cat rest : In (n, v, cat) srw2_code -> find (fun '(n, v, _) => peekv n (bits_of n v ++ rest) =? v) [(n, v, cat)] <> None ->
  find (fun '(m, u, _) => peekv m (bits_of n v ++ rest) =? u) srw2_code = Some (n, v, cat).
Proof.
  intros Hin HN. cbn [find] in HN. destruct (Z.eqb_spec (peekv n (bits_of n v ++ rest)) v) as [E|]; [|congruence]. clear HN.
  destruct (srw2_lookup (bits_of n v ++ rest)) as (m & u & d & EF & _). rewrite EF. apply find_some in EF as [Hm Em]. apply Z.eqb_eq in Em.
  pose proof no_clash as NC. rewrite forallb_forall in NC. specialize (NC _ Hm). rewrite forallb_forall in NC. specialize (NC _ Hin). unfold clash in NC.
  pose proof code_unique as CU. rewrite forallb_forall in CU. specialize (CU _ Hm). rewrite forallb_forall in CU. specialize (CU _ Hin). cbv beta iota in CU.
  assert (X : (if (m <=? n)%nat then v / 2 ^ Z.of_nat (n - m) =? u else u / 2 ^ Z.of_nat (m - n) =? v) = true).
  { destruct (Nat.leb_spec m n) as [L|L]; apply Z.eqb_eq.
    - transitivity (peekv n (bits_of n v ++ rest) / 2 ^ Z.of_nat (n - m)); [now rewrite E|]. rewrite <- Em. symmetry. apply peek_prefix. auto.
    - rewrite <- Em. transitivity (peekv n (bits_of n v ++ rest)); [symmetry; apply peek_prefix; lia|exact E]. }
  rewrite X in NC. destruct (Nat.eqb_spec d cat) as [->|]; [|discriminate]. cbn [negb orb] in CU. f_equal. f_equal. f_equal; lia.
Qed.
Lemma code_values : forallb (fun '(n, v, _) => (0 <=? v) && (v <? 2 ^ Z.of_nat n)) srw2_code = true.
Proof. reflexivity. Qed.
Lemma srw2_encoded d rest : Z.abs d < 8192 -> srw2_next (srw2_bits d ++ rest) = (d, rest).
Proof.
  intros H. assert (C : (category d <= 13)%nat) by (apply category_bound; exact H).
  assert (EF : exists n v, find (fun '(_, _, cat) => (cat =? category d)%nat) srw2_code = Some (n, v, category d)).
  { generalize (category d) C. clear. intros c C. do 14 (destruct c as [|c]; [eexists _, _; reflexivity|]). lia. }
  destruct EF as (n & v & EF). pose proof EF as EI. apply find_some in EI as [EI _]. unfold srw2_bits. rewrite EF.
  pose proof code_values as CV. rewrite forallb_forall in CV. specialize (CV _ EI). cbv beta iota in CV.
  assert (EP : peekv n (bits_of n v ++ magnitude d ++ rest) = v) by (apply peekv_bits_of; lia).
  unfold srw2_next. rewrite <- app_assoc. rewrite (srw2_word n v (category d) (magnitude d ++ rest) EI) by (cbn [find]; rewrite EP, Z.eqb_refl; discriminate).
  rewrite <- skipn_skipn. rewrite skipn_app, bits_of_length, Nat.sub_diag, skipn_all2 by (rewrite bits_of_length; lia). cbn [skipn app].
  rewrite difference_magnitude by lia. f_equal. rewrite skipn_app, magnitude_length, Nat.sub_diag, skipn_all2 by (rewrite magnitude_length; lia). reflexivity.
Qed.
Theorem srw2_roundtrip w h s tail : Z.of_nat (w + h) <= 65000 -> picture_within s w h 8192 -> Forall is_byte tail -> (4 <= length tail)%nat ->
  srw2_decode (stored (srw2_encode s w h) tail) w h = Ok (samples s w h).
Proof.
  intros HB HP Ht Lt. destruct (stored_bits (srw2_encode s w h) tail Lt Ht) as (rest & EB & LR).
  set (ds := lane_diffs zero_init s w h) in *.
  assert (DB : diffs_within zero_init s w h 13).
  { intros r c Hr Hc. pose proof (HP r c Hr Hc) as A. change (2 ^ Z.of_nat 13) with 8192. unfold lane_pred.
    destruct (Nat.leb_spec 2 c); [pose proof (HP r (c - 2)%nat Hr ltac:(lia)); lia|].
    destruct (Nat.leb_spec 2 r); [pose proof (HP (r - 2)%nat c ltac:(lia) Hc); lia|]. unfold zero_init. lia. }
  assert (Enc : forall d r, In d ds -> srw2_next (srw2_bits d ++ r) = (d, r)).
  { intros d r Hd. apply srw2_encoded. apply In_nth with (d := 0) in Hd as (i & Hi & <-). unfold ds in *. rewrite lane_diffs_length in Hi. unfold lane_diffs. rewrite nth_map_seq by auto. cbn [plus].
    apply DB; [apply Nat.div_lt_upper_bound; lia|apply Nat.mod_upper_bound; lia]. }
  assert (EE : srw2_encode s w h = concat (map srw2_bits ds)) by reflexivity. rewrite EE in EB.
  assert (BY : Forall is_byte (stored (srw2_encode s w h) tail)) by (unfold stored; apply Forall_app; split; auto; apply pack_bytes). rewrite EE in *.
  destruct (srw2_any (stored (concat (map srw2_bits ds)) tail) w h BY HB) as (s' & LP & E).
  - rewrite EB. replace (w * h)%nat with (length ds) by (unfold ds; apply lane_diffs_length). apply (seq_data srw2_next srw2_bits rest ds Enc LR).
  - rewrite E. f_equal. unfold samples. apply map_ext_in. intros i Hi. apply in_seq in Hi.
    assert (B1 : (i / w < h)%nat) by (apply Nat.div_lt_upper_bound; lia). assert (B2 : (i mod w < w)%nat) by (apply Nat.mod_upper_bound; lia).
    rewrite (lane_unique zero_init (diff_at (fun _ => srw2_next) (byte_bits (stored (concat (map srw2_bits ds)) tail))) w h s' s LP) with (n := S (i / w + i mod w)); auto.
    + apply Z.mod_small. pose proof (HP _ _ B1 B2). lia.
    + apply lane_diffs_picture. intros j Hj. rewrite EB. apply (seq_diff srw2_next srw2_bits rest ds Enc). unfold ds. now rewrite lane_diffs_length.
Qed.
