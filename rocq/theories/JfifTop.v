(** JPEG segments: results about the found data and about the end of the loop. *)
From Coq Require Import List ZArith Lia Bool.
From Verif Require Import Base Tiff TiffSpec TiffBytes Bmff BmffProofs Jfif JfifSpec JfifProofs.
Import ListNotations.
Open Scope Z_scope.

Lemma shown_exif_ifd tiff_at off segs out : shown tiff_at off segs out ->
  match exif_ifd out with
  | Some i => exists l t r, segs = l ++ JExif t :: r /\ Forall (fun s => match s with JExif _ => False | _ => True end) l /\
      tiff_at (off + Z.of_nat (length (flat_map jenc l)) + 10) = Some (Ok i)
  | None => Forall (fun s => match s with JExif _ => False | _ => True end) segs
  end.
Proof.
  induction 1; cbn [exif_ifd]; try (destruct (exif_ifd out) as [j|];
    [destruct IHshown as (l & t' & r & -> & A & B); eexists (_ :: l), t', r; split; [reflexivity|]; split; [constructor; [exact I|exact A]|];
     cbn [flat_map]; rewrite app_length, Nat2Z.inj_add, Z.add_assoc; exact B
    |constructor; [exact I|exact IHshown]]).
  - constructor.
  - exists [], t, segs. split; [reflexivity|]. split; [constructor|]. cbn [flat_map length]. now rewrite Z.add_0_r.
Qed.
Lemma shown_xpacket tiff_at off segs out : shown tiff_at off segs out ->
  match xpacket out with
  | Some x => exists l r, segs = l ++ JXmp x :: r /\ Forall (fun s => match s with JXmp _ => False | _ => True end) l
  | None => Forall (fun s => match s with JXmp _ => False | _ => True end) segs
  end.
Proof.
  induction 1; cbn [xpacket]; try (destruct (xpacket out) as [j|];
    [destruct IHshown as (l & r & -> & A); eexists (_ :: l), r; split; [reflexivity|constructor; [exact I|exact A]]
    |constructor; [exact I|exact IHshown]]).
  - constructor.
  - exists [], segs. split; [reflexivity|constructor].
Qed.

(** The loop never ends on a segment that is cut off *)
Section Cut.
Variable exif : list Z -> Z -> option (res ifd).
Variable file : list Z.
Notation len := (Z.of_nat (length file)).

Lemma loop_at_end fuel : forall pos q segs, len < q + 2 -> jfif_loop exif file fuel pos 0xFFE1 q segs = None.
Proof.
  induction fuel as [|fuel IH]; intros pos q segs H; [reflexivity|]. rewrite loop_S. cbn zeta.
  change (0xFFE1 =? 0xFFD8) with false. change (0xFFE1 =? 0xFFD9) with false. change (0xFFE1 =? 0xFFE0) with false. change (0xFFE1 =? 0xFFE1) with true. cbn iota.
  unfold app1_read at 1, app1_need at 1. rewrite rd_fail by lia. apply IH. lia.
Qed.
Lemma loop_cut fuel pos q l segs : at_ file q l -> q + Z.of_nat (length l) = len -> cut_app1 l -> jfif_loop exif file fuel pos 0xFFE1 q segs = None.
Proof.
  intros H E [C|(n & rest & -> & Hn & C)]; [apply loop_at_end; lia|].
  destruct fuel as [|fuel]; [reflexivity|]. rewrite loop_S. cbn zeta.
  change (0xFFE1 =? 0xFFD8) with false. change (0xFFE1 =? 0xFFD9) with false. change (0xFFE1 =? 0xFFE0) with false. change (0xFFE1 =? 0xFFE1) with true. cbn iota.
  rewrite app_length, enc_length in E. apply at_app in H. destruct H as [H _].
  unfold app1_read at 1, app1_need at 1. rewrite (rd_at_n _ _ _ _ H) by reflexivity. cbn zeta. rewrite dec16 by lia.
  destruct (Z.leb_spec 6 n) as [_|?]; [|lia]. unfold app1_need. rewrite rd_fail by lia. apply loop_at_end. lia.
Qed.
End Cut.

Lemma parse_cut exif segs cut out fuel : Forall jseg_ok segs -> cut_app1 cut ->
  let file := [0xFF; 0xD8] ++ flat_map jenc segs ++ [0xFF; 0xE1] ++ cut in
  Z.of_nat (length file) < 2 ^ 32 -> shown (exif file) 2 segs out -> jfif_parse exif file fuel = None.
Proof.
  intros Hs Hc file HL Sh.
  assert (H0 : at_ file 0 [0xFF; 0xD8]) by (exists [], (flat_map jenc segs ++ [0xFF; 0xE1] ++ cut); split; reflexivity).
  assert (H1 : at_ file 2 (flat_map jenc segs ++ [0xFF; 0xE1])) by (exists [0xFF; 0xD8], cut; split; [unfold file; now rewrite <- !app_assoc|reflexivity]).
  assert (H2 : at_ file (2 + Z.of_nat (length (flat_map jenc segs)) + 2) cut).
  { exists ([0xFF; 0xD8] ++ flat_map jenc segs ++ [0xFF; 0xE1]), []. split; [unfold file; now rewrite <- !app_assoc, app_nil_r|]. rewrite !app_length. cbn [length]. lia. }
  assert (Mono : forall k, jfif_parse exif file (length segs + 1 + k) = None).
  { intros k. unfold jfif_parse. rewrite (u16_at file 0 0xFFD8) by (unfold urange; lia || exact H0). cbn [obind].
    replace (length segs + 1 + k)%nat with (S (length segs + k)) by lia. rewrite loop_S. cbn zeta. change (0xFFD8 =? 0xFFD8) with true. cbn iota. cbn [negb andb]. change (0xFFD8 =? 0xFFD9) with false. cbn iota. cbn [app].
    destruct (segs_ok exif file HL segs 2 k [SSoi 0] 0xE1 out Hs) as (sm & A & B & C); [unfold is_marker; lia|discriminate|exact H1|exact Sh|].
    rewrite (u16_at file 2 (0xFF00 + sm)) by (unfold is_marker in B; unfold urange; try lia; rewrite marker_enc by lia; exact A).
    rewrite C. change (0xFF00 + 0xE1) with 0xFFE1. apply (loop_cut exif file k _ _ cut); [exact H2| |exact Hc].
    unfold file. rewrite !app_length. cbn [length]. lia. }
  destruct (le_lt_dec (length segs + 1) fuel) as [G|G].
  - replace fuel with (length segs + 1 + (fuel - (length segs + 1)))%nat by lia. apply Mono.
  - (* less fuel gives less *)
    assert (Less : forall f pos sym q acc, jfif_loop exif file (S f) pos sym q acc = None -> jfif_loop exif file f pos sym q acc = None).
    { clear. induction f as [|f IH]; intros pos sym q acc H; [reflexivity|]. rewrite loop_S in H |- *. cbn zeta in *.
      repeat match goal with
      | H : context [match ?x with _ => _ end] |- _ => destruct x; cbn [obind] in *; try discriminate; try reflexivity; auto
      end. }
    assert (Less' : forall f, jfif_parse exif file (S f) = None -> jfif_parse exif file f = None).
    { intros f. unfold jfif_parse. destruct (rd_u16 BE file 0); cbn [obind]; auto. }
    assert (D : forall k f, jfif_parse exif file (k + f) = None -> jfif_parse exif file f = None).
    { induction k as [|k IH]; intros f H; [exact H|]. apply IH, Less', H. }
    apply (D (length segs + 1 - fuel)%nat). replace (length segs + 1 - fuel + fuel)%nat with (length segs + 1 + 0)%nat by lia. apply Mono.
Qed.

(** Without an APP1 marker the loop ends *)
Section Ends.
Variable exif : list Z -> Z -> option (res ifd).
Variable file : list Z.
Hypothesis Hb : Forall (urange 8) file.
Hypothesis Hno : forall p, ~ at_ file p [0xFF; 0xE1].
Notation len := (Z.of_nat (length file)).

Lemma rd_at_inv p n b : 0 <= p -> 0 <= n -> rd file p n = Ok b -> at_ file p b /\ Z.of_nat (length b) = n.
Proof.
  intros Hp Hn H. unfold rd in H. destruct (Z.leb_spec (p + n) len) as [L|]; [|discriminate]. injection H as <-. split.
  - exists (firstn (Z.to_nat p) file), (skipn (Z.to_nat n) (skipn (Z.to_nat p) file)). split; [now rewrite firstn_skipn, firstn_skipn|]. rewrite firstn_length_le by lia. lia.
  - rewrite firstn_length_le; [lia|]. rewrite skipn_length. lia.
Qed.
Lemma u16_range p v : 0 <= p -> rd_u16 BE file p = Ok v -> 0 <= v /\ p + 2 <= len /\ v <> 0xFFE1.
Proof.
  intros Hp H. unfold rd_u16 in H. destruct (rd file p 2) as [b| |] eqn:E; try discriminate. cbn [bind] in H. injection H as <-.
  destruct (rd_at_inv p 2 b Hp ltac:(lia) E) as [A L]. assert (B : Forall (urange 8) b).
  { destruct A as (x & y & F & _). rewrite F in Hb. apply Forall_app in Hb. destruct Hb as [_ C]. apply Forall_app in C. apply C. }
  pose proof (dec_range BE b B) as R. split; [lia|]. split; [pose proof (at_len _ _ _ A); lia|]. intros C. apply (Hno p).
  rewrite <- (enc_dec BE b B) in A. rewrite C in A. replace (length b) with 2%nat in A by lia. exact A.
Qed.
Lemma scan_pos : forall rest prev n k, 0 <= n -> (prev = 255 -> 1 <= n) -> sos_scan rest prev n = Ok k -> 0 <= k.
Proof.
  induction rest as [|v rest IH]; intros prev n k Hn Hp H; cbn [sos_scan] in H; [discriminate|].
  destruct (_ && _); [eapply IH; [| |exact H]; lia|]. destruct (Z.eqb_spec prev 255) as [E|E].
  - injection H as <-. specialize (Hp E). lia.
  - eapply IH; [| |exact H]; lia.
Qed.
Lemma Ok_inj {A} (a b : A) : Ok a = Ok b -> a = b.
Proof. now intros [= ->]. Qed.
Lemma app0_pos q a : 0 <= q -> app0_read file q = Ok a -> q <= snd a.
Proof.
  unfold app0_read. intros Hq H. destruct (rd_u16 BE file q) as [l| |]; try discriminate. cbn [bind] in H. destruct (l <? 5); [discriminate|].
  destruct (rd file (q + 2) 5) as [m| |]; try discriminate. cbn [bind] in H. destruct (negb _); [discriminate|].
  destruct (rd file (q + 7) 9) as [f| |]; try discriminate. cbn [bind] in H. destruct (256 <=? _); [discriminate|].
  destruct (Z.ltb_spec 0 (nth 7 f 0 * nth 8 f 0)) as [P|P].
  - destruct (_ || _); [discriminate|]. destruct (rd file (q + 16) _) as [t| |]; try discriminate. cbn [bind] in H. apply Ok_inj in H. rewrite <- H. cbn [snd]. rewrite <- (Z.mul_assoc 3). lia.
  - injection H as <-. cbn [snd]. lia.
Qed.
Lemma loop_ends fuel : forall pos sym q segs, 0 <= q -> sym <> 0xFFE1 -> len - q < Z.of_nat fuel -> (1 <= fuel)%nat ->
  jfif_loop exif file fuel pos sym q segs <> None.
Proof.
  induction fuel as [|fuel IH]; intros pos sym q segs Hq Hs Hf H1; [lia|]. rewrite loop_S. cbn zeta.
  assert (N : forall (b1 : bool) s q', q <= q' ->
    (if b1 then Some Err else
        match rd_u16 BE file q' with
        | Ok sym => jfif_loop exif file fuel q' sym (q' + 2) (segs ++ [s])
        | _ => Some (Ok (segs ++ [s]))
        end) <> None).
  { intros b1 s q' Hq'. destruct b1; [discriminate|].
    destruct (rd_u16 BE file q') as [v| |] eqn:E; try discriminate. apply u16_range in E; [|lia]. apply IH; lia. }
  destruct (sym =? 65496); [destruct (sym =? 65497); [destruct (_ && _); discriminate|apply N; lia]|]. destruct (sym =? 65497); [destruct (_ && _); discriminate|].
  destruct (sym =? 65504).
  { destruct (app0_read file q) as [[[[l f] t] q']| |] eqn:E; cbn [obind]; try discriminate. apply app0_pos in E; [|lia]. cbn [snd] in E. apply N. lia. }
  destruct (Z.eqb_spec sym 65505) as [C|_]; [contradiction|].
  destruct (sym =? 65498).
  { destruct (sos_scan _ 0 0) as [n| |] eqn:E; cbn [obind]; try discriminate. apply scan_pos in E; [|lia|discriminate]. apply N. lia. }
  destruct (rd_u16 BE file q) as [v| |] eqn:E; cbn [obind]; try discriminate. apply u16_range in E; [|lia]. apply N. lia.
Qed.
Lemma parse_ends_jfif fuel : (length file <= fuel)%nat -> jfif_parse exif file fuel <> None.
Proof.
  intros Hf. unfold jfif_parse. destruct (rd_u16 BE file 0) as [v| |] eqn:E; cbn [obind]; try discriminate. apply u16_range in E; [|lia]. apply loop_ends; lia.
Qed.
End Ends.

(** The chain of directories is bounded, so the TIFF reader ends *)
Lemma root_chain_ends fuel : forall lost e file base corr subs next chain, (12 - length chain <= fuel)%nat -> (length chain <= 11)%nat ->
  root_chain fuel lost e file base corr subs 10 next chain <> None.
Proof.
  induction fuel as [|fuel IH]; intros lost e file base corr subs next chain Hf Hc; cbn [root_chain]; destruct (next =? 0); try discriminate; [lia|].
  destruct (ifd_new _ _ _ _ _ _ _) as [i| |]; try discriminate. destruct (_ =? 0)%nat; [discriminate|].
  destruct ((10 <? length (chain ++ [i])) && (0 <? 10))%nat eqn:B; [discriminate|].
  rewrite app_length in B. cbn [length] in B. change (0 <? 10)%nat with true in B. rewrite andb_true_r in B. apply Nat.ltb_ge in B.
  apply IH; rewrite app_length; cbn [length]; lia.
Qed.
Lemma exif_root_ends lost file base : exif_root lost file base <> None.
Proof.
  unfold exif_root, new_root. destruct (_ <=? _); [discriminate|]. destruct (parse_header file _) as [[[e m] n]| |]; try discriminate.
  destruct (negb _); [discriminate|]. destruct (n =? 0); [discriminate|]. destruct (ifd_new _ _ _ _ _ _ _) as [root| |]; try discriminate.
  destruct (_ =? 0)%nat; [discriminate|].
  destruct (root_chain _ _ _ _ _ _ _ _ _ _) as [[c| |]|] eqn:E; try discriminate. exfalso. revert E. apply root_chain_ends; cbn [length]; lia.
Qed.

(** What is accepted starts with the marker SOI. *)
Lemma loop_soi exif file sym : sym <> 0xFFD8 -> forall fuel pos q segs, jfif_loop exif file fuel pos sym q [] <> Some (Ok segs).
Proof.
  intros N. induction fuel as [|fuel IH]; intros pos q segs; [discriminate|]. rewrite loop_S. cbn [app].
  apply Z.eqb_neq in N. rewrite N. cbn [negb andb].
  destruct (sym =? 0xFFD9); [discriminate|]. destruct (sym =? 0xFFE0); [destruct (app0_read file q) as [[[[? ?] ?] ?]| |]; discriminate|].
  destruct (sym =? 0xFFE1); [destruct (app1_read exif file q); try discriminate; apply IH|].
  destruct (sym =? 0xFFDA); [destruct (sos_scan _ 0 0); discriminate|]. destruct (rd_u16 BE file q); discriminate.
Qed.
Lemma parse_soi exif file fuel segs : Forall (urange 8) file -> jfif_parse exif file fuel = Some (Ok segs) -> at_ file 0 [0xFF; 0xD8].
Proof.
  intros U H. unfold jfif_parse in H. destruct (rd_u16 BE file 0) as [sym| |] eqn:E; [|discriminate|discriminate]. cbn [obind] in H.
  destruct (Z.eq_dec sym 0xFFD8) as [->|N]; [|now apply loop_soi in H].
  unfold rd_u16 in E. destruct (rd file 0 2) as [b| |] eqn:R; [|discriminate|discriminate]. cbn [bind] in E. apply Ok_inj in E.
  apply rd_inv in R; [|lia|lia]. destruct R as [A L]. assert (UB : Forall (urange 8) b).
  { destruct A as (pre & post & -> & _). apply Forall_app in U. destruct U as [_ U]. apply Forall_app in U. apply U. }
  pose proof (enc_dec BE b UB) as X. rewrite E in X. replace (length b) with 2%nat in X by lia. rewrite <- X in A. exact A.
Qed.
