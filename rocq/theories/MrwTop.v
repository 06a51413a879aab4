From Coq Require Import List ZArith Bool Lia.
From Verif Require Import Base Par Decomp Packed PackedProofs PropPacked Tiff TiffSpec TiffBytes RawSource Mrw MrwSpec MrwProofs.
Import ListNotations.
Open Scope Z_scope.

Lemma mfile_data blocks data : subview_until_eof (mfile blocks data) (8 + Z.of_nat (length (flat_map menc blocks))) = Ok data.
Proof.
  unfold subview_until_eof. set (n := length (flat_map menc blocks)).
  assert (E : mfile blocks data = ([0; 77; 82; 77] ++ enc BE 4 (Z.of_nat n) ++ flat_map menc blocks) ++ data) by (unfold mfile; fold n; now rewrite <- !app_assoc).
  assert (L : length ([0; 77; 82; 77] ++ enc BE 4 (Z.of_nat n) ++ flat_map menc blocks) = (8 + n)%nat) by (rewrite !app_length, enc_length; unfold n; cbn [length]; lia).
  rewrite E, app_length, L. destruct (Z.leb_spec (8 + Z.of_nat n) (Z.of_nat (8 + n + length data))); [|lia].
  replace (Z.to_nat (8 + Z.of_nat n)) with (length ([0; 77; 82; 77] ++ enc BE 4 (Z.of_nat n) ++ flat_map menc blocks)) by lia.
  rewrite skipn_app, Nat.sub_diag, skipn_all. reflexivity.
Qed.

Lemma mrw_picture blocks z data fuel before v h w img size rest : Forall mblock_ok (blocks ++ [z]) -> (12 < length (mcontent z))%nat ->
  Z.of_nat (length (flat_map menc (blocks ++ [z]))) < 2 ^ 32 - 8 -> (length blocks < fuel)%nat ->
  last_of is_prd (blocks ++ [z]) before (MPrd v (Z.of_nat h) (Z.of_nat w) img size rest) -> Forall is_byte data -> (0 < w)%nat ->
  (if (size =? 12)%Z then w mod 2 = 0 /\ h * w * 12 <= 8 * length data else h * w * 2 <= length data)%nat ->
  exists off s, mrw_parse fuel (mfile (blocks ++ [z]) data) = Some (Ok (off, s)) /\
    delivers (mrw_raw (mfile (blocks ++ [z]) data) off s) w h
      (fun r c => if size =? 12 then field_msb (stream data) (12 * (r * w + c)) 12 else field_msb (stream data) (16 * (r * w + c) + 4) 12).
Proof.
  intros OK HZ HB HF HP D W C. destruct (mrw_facts blocks z data fuel OK HZ HB HF) as (s & E & P & _ & _).
  exists (8 + Z.of_nat (length (flat_map menc (blocks ++ [z])))), s. split; [exact E|].
  unfold mrw_raw. rewrite mfile_data. cbn [bind]. destruct (P _ _ _ _ _ _ _ HP) as (-> & -> & ->). rewrite !Nat2Z.id.
    destruct (size =? 12). { destruct C. now apply C06_12be. } now apply C06_12be_unpacked.
Qed.
