From Coq Require Import String Ascii List ZArith Bool Lia.
From Verif Require Import Base Tiff TiffSpec TiffBytes DngFile Bmff BmffProofs Choose ChooseSpec.
Import ListNotations.
Open Scope Z_scope.
Close Scope string_scope.

(** ** Byte strings *)
Lemma bytes_at_spec file p sig : 0 <= p -> bytes_at file p sig = true <-> at_ file p sig.
Proof.
  intros Hp. unfold bytes_at. split.
  - destruct (rd file p (Z.of_nat (length sig))) as [b| |] eqn:E; [|discriminate|discriminate]. intros H. apply bytes_eqb_spec in H. subst b.
    now apply rd_inv in E; [|lia|lia].
  - intros H. rewrite (rd_at _ _ _ H). now apply bytes_eqb_spec.
Qed.
Lemma at_nth file p b i : at_ file p b -> (i < length b)%nat -> nth (Z.to_nat p + i) file 0 = nth i b 0.
Proof.
  intros (pre & post & -> & <-) Hi. rewrite Nat2Z.id, app_nth2 by lia. replace (length pre + i - length pre)%nat with i by lia. now apply app_nth1.
Qed.
Lemma bytes_at_false file p sig i : 0 <= p -> (i < length sig)%nat -> nth (Z.to_nat p + i) file 0 <> nth i sig 0 -> bytes_at file p sig = false.
Proof.
  intros Hp Hi H. destruct (bytes_at file p sig) eqn:E; [|reflexivity]. apply bytes_at_spec in E; [|exact Hp]. exfalso. apply H. now apply at_nth.
Qed.

(** ** Text *)
Definition whiteb (c : Z) : bool :=
  ((9 <=? c) && (c <=? 13)) || (c =? 0x20) || (c =? 0x85) || (c =? 0xA0) || (c =? 0x1680) || ((0x2000 <=? c) && (c <=? 0x200A)) ||
  (c =? 0x2028) || (c =? 0x2029) || (c =? 0x202F) || (c =? 0x205F) || (c =? 0x3000).
Lemma whiteb_spec c : whiteb c = true <-> white c.
Proof. unfold whiteb, white. rewrite !orb_true_iff, !andb_true_iff, !Z.eqb_eq, !Z.leb_le. lia. Qed.

Definition ws1 (c : Z) : bool := ((9 <=? c) && (c <=? 13)) || (c =? 32).
Definition ws2 (b c : Z) : bool := (b =? 0xC2) && ((c =? 0x85) || (c =? 0xA0)).
Definition ws3 (a b c : Z) : bool :=
  ((a =? 0xE1) && (b =? 0x9A) && (c =? 0x80))
  || ((a =? 0xE2) && (b =? 0x80) && (((0x80 <=? c) && (c <=? 0x8A)) || (c =? 0xA8) || (c =? 0xA9) || (c =? 0xAF)))
  || ((a =? 0xE2) && (b =? 0x81) && (c =? 0x9F))
  || ((a =? 0xE3) && (b =? 0x80) && (c =? 0x80)).
Lemma trim_S c r : trim_rev (c :: r) =
  if ws1 c then trim_rev r else
  match r with
  | b :: r2 => if ws2 b c then trim_rev r2 else match r2 with a :: r3 => if ws3 a b c then trim_rev r3 else c :: r | [] => c :: r end
  | [] => c :: r
  end.
Proof. destruct r as [|b [|a r]]; reflexivity. Qed.
Ltac norm := apply eq_true_iff_eq; unfold ws1, ws2, ws3, whiteb; rewrite ?orb_true_iff, ?andb_true_iff, ?orb_true_iff, ?andb_true_iff, ?Z.eqb_eq, ?Z.leb_le.
Ltac isfalse := apply not_true_iff_false; unfold ws1, ws2, ws3, whiteb; rewrite ?orb_true_iff, ?andb_true_iff, ?orb_true_iff, ?andb_true_iff, ?Z.eqb_eq, ?Z.leb_le.

Lemma trim_one c rest : scalar c -> trim_rev (rev (utf8_of c) ++ rest) = if whiteb c then trim_rev rest else rev (utf8_of c) ++ rest.
Proof.
  intros Hc. unfold scalar in Hc. unfold utf8_of. destruct (Z.ltb_spec c 0x80) as [H1|H1].
  { cbn [rev app]. rewrite trim_S. replace (ws1 c) with (whiteb c) by (norm; lia). destruct (whiteb c); [reflexivity|].
    destruct rest as [|b [|a r]]; [reflexivity| |]; replace (ws2 b c) with false by (symmetry; isfalse; lia); [reflexivity|].
    replace (ws3 a b c) with false by (symmetry; isfalse; lia). reflexivity. }
  pose proof (Z.div_mod c 64 ltac:(lia)) as D1. pose proof (Z.mod_pos_bound c 64 ltac:(lia)) as D2.
  set (l := c mod 64) in *. set (h := c / 64) in *. destruct (Z.ltb_spec c 0x800) as [H2|H2].
  { cbn [rev app]. rewrite trim_S. replace (ws1 (0x80 + l)) with false by (symmetry; isfalse; lia). cbv iota.
    replace (ws2 (0xC0 + h) (0x80 + l)) with (whiteb c) by (norm; lia). destruct (whiteb c); [reflexivity|].
    destruct rest as [|a r]; [reflexivity|]. replace (ws3 a (0xC0 + h) (0x80 + l)) with false by (symmetry; isfalse; lia). reflexivity. }
  assert (E4 : c / 4096 = h / 64) by (unfold h; rewrite Z.div_div by lia; reflexivity). rewrite E4.
  pose proof (Z.div_mod h 64 ltac:(lia)) as D3. pose proof (Z.mod_pos_bound h 64 ltac:(lia)) as D4.
  set (m := h mod 64) in *. set (g := h / 64) in *. destruct (Z.ltb_spec c 0x10000) as [H3|H3].
  { cbn [rev app]. rewrite trim_S. replace (ws1 (0x80 + l)) with false by (symmetry; isfalse; lia). cbv iota.
    replace (ws2 (0x80 + m) (0x80 + l)) with false by (symmetry; isfalse; lia). cbv iota.
    replace (ws3 (0xE0 + g) (0x80 + m) (0x80 + l)) with (whiteb c) by (norm; lia). destruct (whiteb c); reflexivity. }
  pose proof (Z.mod_pos_bound g 64 ltac:(lia)) as D5.
  cbn [rev app]. rewrite trim_S. replace (ws1 (0x80 + l)) with false by (symmetry; isfalse; lia). cbv iota.
  replace (ws2 (0x80 + m) (0x80 + l)) with false by (symmetry; isfalse; lia). cbv iota.
  replace (ws3 (0x80 + g mod 64) (0x80 + m) (0x80 + l)) with false by (symmetry; isfalse; lia).
  replace (whiteb c) with false by (symmetry; isfalse; lia). reflexivity.
Qed.
Lemma white_scalar c : white c -> scalar c.
Proof. unfold white, scalar. lia. Qed.
Lemma utf8_text_app a b : utf8_text (a ++ b) = utf8_text a ++ utf8_text b.
Proof. apply flat_map_app. Qed.
Lemma trim_white ws : Forall white ws -> forall s, trim_rev (rev (s ++ utf8_text ws)) = trim_rev (rev s).
Proof.
  induction 1 as [|c ws Hc _ IH]; intros s; [cbn; now rewrite app_nil_r|].
  change (utf8_text (c :: ws)) with (utf8_of c ++ utf8_text ws). rewrite app_assoc, IH, rev_app_distr, trim_one by now apply white_scalar.
  apply whiteb_spec in Hc. now rewrite Hc.
Qed.
Lemma trim_text cs ws : Forall scalar cs -> Forall white ws -> (cs = [] \/ ~ white (last cs 0)) -> trim_end (utf8_text (cs ++ ws)) = utf8_text cs.
Proof.
  intros Hs Hw Hl. unfold trim_end. rewrite utf8_text_app, trim_white by exact Hw.
  destruct (rev cs) as [|c cs'] eqn:E.
  - assert (cs = []) as -> by (destruct cs; [reflexivity|]; cbn in E; destruct (rev cs); discriminate). reflexivity.
  - assert (EC : cs = rev cs' ++ [c]) by (rewrite <- (rev_involutive cs), E; reflexivity). subst cs. clear E.
    destruct Hl as [Hl|Hl]; [destruct (rev cs'); discriminate|]. rewrite last_last in Hl.
    apply Forall_app in Hs. destruct Hs as [_ Hs]. inversion Hs as [|? ? Hc _]; subst.
    rewrite utf8_text_app. cbn [utf8_text flat_map]. rewrite app_nil_r, rev_app_distr, trim_one by exact Hc.
    destruct (whiteb c) eqn:W; [apply whiteb_spec in W; contradiction|]. rewrite rev_app_distr, !rev_involutive. reflexivity.
Qed.
Lemma ascii_text (s : list Z) : Forall (fun c => 0 <= c < 128) s -> utf8_text s = s.
Proof. induction 1 as [|c s H _ IH]; [reflexivity|]. cbn [utf8_text flat_map]. unfold utf8_text in IH. rewrite IH. unfold utf8_of. destruct (Z.ltb_spec c 0x80); [reflexivity|lia]. Qed.
Lemma trim_named s name : named s name -> Forall (fun c => 0 <= c < 128) name -> ~ white (last name 0) -> trim_end s = name.
Proof.
  intros (ws & -> & Hw) Ha Hl. rewrite <- (ascii_text name Ha) at 1. rewrite <- utf8_text_app, trim_text; [now apply ascii_text| |exact Hw|now right].
  eapply Forall_impl; [|exact Ha]. intros c Hc. unfold scalar. cbn beta in Hc. lia.
Qed.
