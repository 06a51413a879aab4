(** The directory of the raw image as a whole. *)
From Coq Require Import List ZArith Lia Bool.
From Verif Require Import Base BaseLemmas Par Packed Bits Tiff TiffSpec TiffBytes TiffRead TiffWrite TiffSafe TiffTop
  RawSource RawSourceProofs Geom Tiles DngImage TilesTop Strips StripsSpec StripsProofs DngMeta DngMetaProofs Cfa CfaProofs
  DngFile DngFileSpec DngFileTiff DngFileRaw.
Import ListNotations.
Open Scope Z_scope.

Lemma u16_65536 x : 0 <= x < 65536 -> urange 16 x.
Proof. intros. unfold urange. change (2 ^ 16) with 65536. lia. Qed.

Lemma geom_dir_ok g : urange 32 (Z.of_nat (g_width g)) -> urange 32 (Z.of_nat (g_height g)) -> opt_range2 (g_origin g) -> opt_range2 (g_size g) ->
  (exists t l b r, g_active g = Some (t, l, b, r) /\ urange 16 t /\ urange 16 l /\ urange 16 b /\ urange 16 r) ->
  Forall wtag (geom_dir g) /\ (length (geom_dir g) <= 5)%nat /\ (forall k v, In (k, v) (geom_dir g) -> In k [256; 257; 50829; 50719; 50720]) /\
  last_value 256 (geom_dir g) = Some (VLong [Z.of_nat (g_width g)]) /\
  last_value 257 (geom_dir g) = Some (VLong [Z.of_nat (g_height g)]) /\
  (forall es, (forall t, In t [50829; 50719; 50720] -> tag es t = last_value t (geom_dir g)) -> geom_of es (g_width g) (g_height g) = g).
Proof.
  intros Hw Hh Ho Hs (t & l & b & r & Ea & Rt & Rl & Rb & Rr). destruct g as [w h a o s]. cbn [g_width g_height g_active g_origin g_size] in *. subst a.
  unfold geom_dir. cbn [g_width g_height g_active g_origin g_size].
  unfold wrap_u32. rewrite !Z.mod_small by (unfold urange in *; lia).
  assert (P2 : forall t x y, urange 16 t -> urange 16 x -> urange 16 y -> wtag (t, VShort [x; y])).
  { intros. apply wtag_mk; [assumption|]. apply wv_short; [discriminate|cbn [length]; lia|constructor; [assumption|constructor; [assumption|constructor]]]. }
  assert (P4 : wtag (50829, VShort [t; l; b; r])).
  { apply wtag_mk; [apply u16_65536; lia|]. apply wv_short; [discriminate|cbn [length]; lia|]. repeat (apply Forall_cons; [assumption|]). constructor. }
  split; [|split; [|split; [|split; [|split]]]].
  - apply Forall_app. split; [constructor; [apply w_long1; [apply u16_65536; lia|assumption]|constructor; [apply w_long1; [apply u16_65536; lia|assumption]|constructor]]|].
    apply Forall_app. split; [constructor; [apply P4|constructor]|]. apply Forall_app. split.
    + destruct o as [[x y]|]; [|constructor]. destruct Ho. constructor; [|constructor]. apply P2; [apply u16_65536; lia|assumption..].
    + destruct s as [[x y]|]; [|constructor]. destruct Hs. constructor; [|constructor]. apply P2; [apply u16_65536; lia|assumption..].
  - destruct o as [[? ?]|], s as [[? ?]|]; cbn; lia.
  - intros k v Hin. destruct o as [[? ?]|], s as [[? ?]|]; cbn [app] in Hin; repeat (destruct Hin as [[= <- _]|Hin]; [apply inb; reflexivity|]); destruct Hin.
  - destruct o as [[? ?]|], s as [[? ?]|]; reflexivity.
  - destruct o as [[? ?]|], s as [[? ?]|]; reflexivity.
  - intros es H. unfold geom_of. rewrite !H by (apply inb; reflexivity).
    assert (FS : forall l i, urange 16 (nth i l 0) -> Z.of_nat (fsize (VShort l) i) = nth i l 0).
    { intros l0 i R. rewrite fsize_short by exact R. unfold urange in R. lia. }
    assert (E1 : last_value 50829 ([(256, VLong [Z.of_nat w]); (257, VLong [Z.of_nat h])] ++ [(50829, VShort [t; l; b; r])]
       ++ match o with Some (x, y) => [(50719, VShort [x; y])] | None => [] end ++ match s with Some (w, h) => [(50720, VShort [w; h])] | None => [] end)
       = Some (VShort [t; l; b; r])) by (destruct o as [[? ?]|], s as [[? ?]|]; reflexivity).
    assert (E2 : last_value 50719 ([(256, VLong [Z.of_nat w]); (257, VLong [Z.of_nat h])] ++ [(50829, VShort [t; l; b; r])]
       ++ match o with Some (x, y) => [(50719, VShort [x; y])] | None => [] end ++ match s with Some (w, h) => [(50720, VShort [w; h])] | None => [] end)
       = match o with Some (x, y) => Some (VShort [x; y]) | None => None end) by (destruct o as [[? ?]|], s as [[? ?]|]; reflexivity).
    assert (E3 : last_value 50720 ([(256, VLong [Z.of_nat w]); (257, VLong [Z.of_nat h])] ++ [(50829, VShort [t; l; b; r])]
       ++ match o with Some (x, y) => [(50719, VShort [x; y])] | None => [] end ++ match s with Some (w, h) => [(50720, VShort [w; h])] | None => [] end)
       = match s with Some (x, y) => Some (VShort [x; y]) | None => None end) by (destruct o as [[? ?]|], s as [[? ?]|]; reflexivity).
    rewrite E1, E2, E3. rewrite !FS by assumption. cbn [nth]. f_equal.
    + destruct o as [[x y]|]; [|reflexivity]. destruct Ho. now rewrite !FS by assumption.
    + destruct s as [[x y]|]; [|reflexivity]. destruct Hs. now rewrite !FS by assumption.
Qed.

(** the colour filter array *)
Lemma cfa_vals c ax ay pat : wf c -> cfa_write c ax ay = Ok pat ->
  Forall (fun x => 0 <= x < 6) pat /\ length pat = (c_h c * c_w c)%nat /\ (0 < length pat <= 2304)%nat /\ (c_w c <= 48 /\ c_h c <= 48)%nat.
Proof.
  intros W. unfold cfa_write. destruct (cfa_valid c); cbn [assert_ bind]; [|discriminate].
  destruct (cfa_shift_ok c ax ay W) as (s & Es & Ws & Hw & Hh & _). rewrite Es. cbn [bind]. intros [= <-].
  destruct (wf_w s Ws) as [w1 w2], (wf_h s Ws) as [h1 h2].
  assert (Hw48 : (c_w s <= 48)%nat) by (apply fits_le, (wf_w s Ws)).
  assert (Hh48 : (c_h s <= 48)%nat) by (apply fits_le, (wf_h s Ws)).
  rewrite flat_pattern_map by lia. rewrite map_length, seq_length. split; [|rewrite <- Hw, <- Hh; repeat split; auto; nia].
  apply Forall_forall. intros x Hx. apply in_map_iff in Hx. destruct Hx as (i & <- & _). pose proof (wf_col s Ws (pos (c_w s) i)) as C.
  unfold color_ok in C. lia.
Qed.

Definition photo_code (ph : dphoto) : Z := match ph with PBlack => 1 | PCfa _ _ => 32803 | PLinear => 34892 end.
Lemma photo_ok img ax ay : image_ok img ->
  (match d_photo img with PCfa c _ => (2 * ax) mod c_w c = 0 /\ (2 * ay) mod c_h c = 0 | _ => True end)%nat ->
  exists d, photo_dir img ax ay = Ok d /\ Forall wtag d /\ (length d <= 5)%nat /\ (forall k v, In (k, v) d -> In k [33421; 33422; 262; 50710; 50711]) /\
    last_value 262 d = Some (VShort [photo_code (d_photo img)]) /\
    match d_photo img with
    | PCfa c _ => exists pat c', last_value 33422 d = Some (VByte pat) /\ Forall (fun x => 0 <= x < 6) pat /\ cfa_read pat (Some (ax, ay)) = Ok c' /\
        c_w c' = c_w c /\ c_h c' = c_h c /\ (forall r q, color_at c' r q = color_at c r q)
    | _ => last_value 33422 d = None
    end.
Proof.
  intros HI HA. pose proof (io_photo img HI) as HP. unfold photo_dir. destruct (d_photo img) as [|c colors|] eqn:E.
  - rewrite HP. cbn [Nat.eqb assert_ bind]. eexists. split; [reflexivity|]. split; [|split; [cbn; lia|split; [|split; reflexivity]]].
    + constructor; [|constructor]. apply w_short1; apply u16_65536; lia.
    + intros k v [[= <- _]|[]]. apply inb. reflexivity.
  - destruct HP as (HC & W & HU & HB). destruct (write_read c ax ay W) as (pat & c' & Ew & Er & Hw & Hh & HC'); [apply HA..|].
    assert (HV : cfa_valid c = true).
    { unfold cfa_valid. destruct (wf_w c W), (wf_h c W). destruct (Nat.eqb_spec (c_w c) 0), (Nat.eqb_spec (c_h c) 0); auto; lia. }
    rewrite HV, HC. cbn [Nat.eqb assert_ bind]. rewrite Ew. cbn [bind].
    destruct (cfa_vals c ax ay pat W Ew) as (VP & LP & LP2 & W48 & H48).
    eexists. split; [reflexivity|]. split; [|split; [cbn; lia|split; [|split; [reflexivity|exists pat, c'; split; [reflexivity|auto 8]]]]].
    + rewrite !Z.mod_small by lia. constructor; [|constructor; [|constructor; [|constructor; [|constructor; [|constructor]]]]].
      * apply wtag_mk; [apply u16_65536; lia|]. apply wv_short; [discriminate|cbn [length]; lia|]. constructor; [apply u16_65536; lia|constructor; [apply u16_65536; lia|constructor]].
      * apply wtag_mk; [apply u16_65536; lia|]. apply wv_byte; [apply nonempty_len; lia|lia|]. eapply Forall_impl; [|exact VP]. intros x Hx. cbn beta in Hx. unfold urange. lia.
      * apply w_short1; apply u16_65536; lia.
      * apply wtag_mk; [apply u16_65536; lia|exact HB].
      * apply w_short1; apply u16_65536; lia.
    + intros k v Hin. repeat (destruct Hin as [[= <- _]|Hin]; [apply inb; reflexivity|]). destruct Hin.
  - eexists. split; [reflexivity|]. split; [|split; [cbn; lia|split; [|split; reflexivity]]].
    + constructor; [|constructor]. apply w_short1; apply u16_65536; lia.
    + intros k v [[= <- _]|[]]. apply inb. reflexivity.
Qed.

(** ** What the reader makes of the directory *)
(** the layout tags without the file type and the pointers *)
Definition picture_tags : list Z :=
  [256; 257; 258; 259; 262; 273; 277; 278; 279; 322; 323; 324; 325; 339; 33422;
   50712; 50713; 50714; 50717; 50719; 50720; 50829; 50975; 52547].
Definition raw_reads (p : params) (bad : bool) (img : dimg) (file : list Z) (L : Z -> option value) : Prop :=
  forall chain i, get_raw_ifd chain = Ok i -> (forall t, In t picture_tags -> tag (i_entries i) t = L t) ->
  match d_photo img with
  | PBlack => raw_start bad file chain = Some Err
  | _ => exists x, raw_start bad file chain = Some (Ok x) /\ (exists sched, ended (prun 0 sched (l_state (fst x)))) /\
      forall sched, ended (prun 0 sched (l_state (fst x))) -> exists out, raw_finish sched x = Ok out /\ same_image p bad img out
  end.

Lemma in_dec_none t (d : dir) keys : (forall k v, In (k, v) d -> In k keys) -> existsb (Z.eqb t) keys = false -> last_value t d = None.
Proof.
  intros H E. apply last_value_none. intros k v Hin ->. apply H in Hin.
  assert (existsb (Z.eqb t) keys = true) by (apply existsb_exists; exists t; split; [exact Hin|apply Z.eqb_refl]). congruence.
Qed.

Lemma raw_dir_ok p img buf : image_ok img -> params_ok p img -> cfa_aligned p img ->
  exists tags more, raw_dir p img buf = Ok (tags, buf ++ more) /\ Forall wtag tags /\ (length tags <= 40)%nat /\
    last_value 259 tags = Some (VShort [if p_lossless p then 7 else 1]) /\
    (forall t, In t [254; 330; 34665; 34675; 34853] -> last_value t tags = None) /\
    (forall file lo bad, keeps lo (buf ++ more) file -> lo <= Z.of_nat (length buf) -> (length (buf ++ more) <= length file)%nat ->
       Z.of_nat (length file) < 2 ^ 32 -> raw_reads p bad img file (fun t => last_value t tags)).
Proof.
  intros HI HP HA. pose proof (cpp_range img HI) as Hc. pose proof (io_w img HI) as Hw. pose proof (io_h img HI) as Hh.
  set (area := kept_area (p_mode p) (d_active img) (d_w img) (d_h img)) in *.
  assert (EA : write_area (p_mode p) img = area) by (unfold area, write_area, kept_area, or_full; destruct (p_mode p), (d_active img); reflexivity).
  destruct (geom_roundtrip (p_mode p) (d_w img) (d_h img) (d_active img) (d_crop img)) as (g & EG & RG);
    [unfold small; lia|unfold small; lia|apply (io_active img HI)|apply (io_crop img HI)|].
  destruct (write_geom_inv _ _ _ _ _ _ EG) as (Gw & Gh & Go & Gs & bb & rr & Ga & Rb & Rr). fold area in Ga.
  assert (INA : inside area (d_w img) (d_h img)).
  { unfold area, kept_area. destruct (d_active img) as [a|] eqn:E; [pose proof (io_active img HI a E)|]; destruct (p_mode p); auto; split; cbn; lia. }
  destruct INA as [IA1 IA2].
  rewrite !as_u16_small in Ga by (unfold small; lia).
  destruct (geom_dir_ok g) as (GW & GL & GI & G256 & G257 & GR); [rewrite Gw; unfold urange; lia|rewrite Gh; unfold urange; lia|exact Go|exact Gs|
    do 4 eexists; split; [exact Ga|]; repeat split; try apply Rb; try apply Rr; unfold urange; lia|].
  rewrite Gw, Gh in *.
  destruct (io_black img HI) as (BW & BC & Bw & Bh & BL & BN).
  destruct (black_shift_ok (d_black img) (r_x area) (r_y area) BW) as (s & Es & Ws & Hsw & Hsh & Hsc & HV).
  assert (Ls : Z.of_nat (length (b_levels s)) < 2 ^ 32 /\ b_levels s <> [] /\ Forall u32_pair (b_levels s)).
  { destruct Ws as (W1 & W2 & W3 & W4). destruct BW as (X1 & X2 & X3 & X4).
    split; [rewrite W4, Hsw, Hsh, Hsc, <- X4; exact BN|]. split; [apply nonempty_len; rewrite W4; apply Nat.mul_pos_pos; [apply Nat.mul_pos_pos|]; lia|].
    apply Forall_forall. intros x Hx. apply (In_nth _ _ x) in Hx. destruct Hx as (i & Hi & <-). rewrite W4 in Hi.
    assert (Ei : exists r q ch, (r < b_h s /\ q < b_w s /\ ch < b_cpp s /\ i = r * b_w s * b_cpp s + q * b_cpp s + ch)%nat).
    { set (k := (i / b_cpp s)%nat). exists (k / b_w s)%nat, (k mod b_w s)%nat, (i mod b_cpp s)%nat.
      pose proof (Nat.div_mod i (b_cpp s) ltac:(lia)). pose proof (Nat.mod_upper_bound i (b_cpp s) ltac:(lia)).
      pose proof (Nat.div_mod k (b_w s) ltac:(lia)). pose proof (Nat.mod_upper_bound k (b_w s) ltac:(lia)).
      assert (k < b_w s * b_h s)%nat by (unfold k; apply Nat.div_lt_upper_bound; [lia|]; nia).
      split; [apply Nat.div_lt_upper_bound; lia|]. split; [assumption|]. split; [assumption|]. fold k in H. rewrite H at 1.
      rewrite H1 at 1. nia. }
    destruct Ei as (r & q & ch & Hr & Hq & Hch & ->).
    specialize (HV r q ch x ltac:(congruence)). unfold black_at in HV at 1. rewrite (Nat.mod_small r), (Nat.mod_small q) in HV by lia. rewrite HV.
    unfold black_at. rewrite Forall_forall in BL. apply BL. apply nth_In. rewrite X4.
    pose proof (Nat.mod_upper_bound (r + r_y area) (b_h (d_black img)) ltac:(lia)) as Q1.
    pose proof (Nat.mod_upper_bound (q + r_x area) (b_w (d_black img)) ltac:(lia)) as Q2.
    assert (Q3 : ((r + r_y area) mod b_h (d_black img) * b_w (d_black img) + (q + r_x area) mod b_w (d_black img) < b_w (d_black img) * b_h (d_black img))%nat) by nia.
    rewrite Hsc in Hch. nia. }
  destruct Ls as (Ls1 & Ls2 & Ls3).
  destruct (masked_ok img HI) as (masked & EM & MW & ML & MI).
  destruct (photo_ok img (r_x area) (r_y area) HI) as (photo & EP & PW & PL & PI & P262 & P334).
  { unfold cfa_aligned in HA. fold area in HA. destruct (d_photo img); auto. }
  destruct (data_ok p img buf HI HP) as (data & more & ED & DW & DL & D259 & D258 & DI & DR).
  destruct (io_white img HI) as (WL & WR). destruct (io_scale img HI) as (SC & SQ).
  unfold raw_dir. rewrite EG. cbn [bind]. rewrite EA, WL, Nat.eqb_refl. cbn [assert_ bind]. unfold black_write. rewrite Es. cbn [bind].
  rewrite EM. cbn [bind]. rewrite EP. cbn [bind]. rewrite ED. cbn [bind].
  eexists _, more. split; [reflexivity|]. rewrite Hsw, Hsh, !Z.mod_small by lia.
  set (mid := [(284, VShort [1]); (50718, VRational (d_scale img)); (50780, VRational [d_quality img]); (50717, white_value (d_white img));
      (50713, VShort [Z.of_nat (b_h (d_black img)); Z.of_nat (b_w (d_black img))]); (50714, black_value (b_levels s))]).
  set (cnt := [(277, VShort [Z.of_nat (d_cpp img)])]).
  assert (MIDW : Forall wtag mid).
  { unfold mid. constructor; [apply w_short1; apply u16_65536; lia|]. constructor; [apply wtag_mk; [apply u16_65536; lia|exact SC]|].
    constructor; [apply wtag_mk; [apply u16_65536; lia|]; apply wv_rational; [discriminate|cbn [length]; lia|repeat constructor; apply SQ]|].
    constructor; [apply wtag_mk; [apply u16_65536; lia|]; apply white_writable; [apply nonempty_len; lia|lia|exact WR]|].
    constructor; [apply wtag_mk; [apply u16_65536; lia|]; apply wv_short; [discriminate|cbn [length]; lia|constructor; [apply u16_65536; lia|constructor; [apply u16_65536; lia|constructor]]]|].
    constructor; [apply wtag_mk; [apply u16_65536; lia|]; now apply black_writable|constructor]. }
  split. { rewrite !Forall_app. repeat split; auto. unfold cnt. constructor; [apply w_short1; apply u16_65536; lia|constructor]. }
  split. { rewrite !app_length. unfold mid, cnt. cbn [length]. lia. }
  assert (LV : forall t, last_value t (geom_dir g ++ mid ++ masked ++ cnt ++ photo ++ data) =
     match last_value t data with Some v => Some v | None => match last_value t photo with Some v => Some v | None =>
       match last_value t cnt with Some v => Some v | None => match last_value t masked with Some v => Some v | None =>
       match last_value t mid with Some v => Some v | None => last_value t (geom_dir g) end end end end end).
  { intros t. rewrite !last_value_app. destruct (last_value t data); [reflexivity|]. destruct (last_value t photo); [reflexivity|].
    destruct (last_value t cnt); [reflexivity|]. destruct (last_value t masked); [reflexivity|]. reflexivity. }
  assert (ML2 : forall t, t <> 50830 -> last_value t masked = None).
  { intros t Ht. apply last_value_none. intros k v Hin ->. apply MI in Hin. congruence. }
  assert (DN : forall t, existsb (Z.eqb t) data_tags = false -> last_value t data = None) by (intros; eapply in_dec_none; eauto).
  assert (PN : forall t, existsb (Z.eqb t) [33421; 33422; 262; 50710; 50711] = false -> last_value t photo = None) by (intros; eapply in_dec_none; eauto).
  assert (GN : forall t, existsb (Z.eqb t) [256; 257; 50829; 50719; 50720] = false -> last_value t (geom_dir g) = None) by (intros; eapply in_dec_none; eauto).
  split. { rewrite LV, D259. reflexivity. }
  split.
  { intros t Ht. rewrite LV. cbn [In] in Ht.
    repeat (destruct Ht as [<-|Ht]; [rewrite DN, PN, ML2, GN by (reflexivity || discriminate); reflexivity|]). destruct Ht. }
  intros file lo bad K Hlo HLf Bf chain i EI HT.
  set (es := i_entries i) in *. set (tags := geom_dir g ++ mid ++ masked ++ cnt ++ photo ++ data) in *.
  assert (T : forall t v, existsb (Z.eqb t) picture_tags = true -> last_value t tags = v -> tag es t = v).
  { intros t v H1 <-. apply HT. now apply inb. }
  assert (T256 : tag es 256 = Some (VLong [Z.of_nat (d_w img)])) by (apply T; [reflexivity|]; rewrite LV, DN, PN, ML2 by (reflexivity || discriminate); exact G256).
  assert (T257 : tag es 257 = Some (VLong [Z.of_nat (d_h img)])) by (apply T; [reflexivity|]; rewrite LV, DN, PN, ML2 by (reflexivity || discriminate); exact G257).
  assert (T277 : tag es 277 = Some (VShort [Z.of_nat (d_cpp img)])) by (apply T; [reflexivity|]; rewrite LV, DN, PN by (reflexivity || discriminate); reflexivity).
  assert (T258 : tag es 258 = Some (VShort (repeat (Z.of_nat (bits_of p img)) (d_cpp img)))) by (apply T; [reflexivity|]; rewrite LV, D258; reflexivity).
  assert (T262 : tag es 262 = Some (VShort [photo_code (d_photo img)])) by (apply T; [reflexivity|]; rewrite LV, DN, P262 by (reflexivity || discriminate); reflexivity).
  assert (T50717 : tag es 50717 = Some (white_value (d_white img))) by (apply T; [reflexivity|]; rewrite LV, DN, PN, ML2 by (reflexivity || discriminate); reflexivity).
  assert (T50713 : tag es 50713 = Some (VShort [Z.of_nat (b_h (d_black img)); Z.of_nat (b_w (d_black img))])) by (apply T; [reflexivity|]; rewrite LV, DN, PN, ML2 by (reflexivity || discriminate); reflexivity).
  assert (T50714 : tag es 50714 = Some (black_value (b_levels s))) by (apply T; [reflexivity|]; rewrite LV, DN, PN, ML2 by (reflexivity || discriminate); reflexivity).
  assert (TN : forall t, existsb (Z.eqb t) [50712; 50975; 52547] = true -> tag es t = None).
  { intros t Ht. apply inb in Ht. cbn [In] in Ht.
    repeat (destruct Ht as [<-|Ht]; [apply T; [reflexivity|]; rewrite LV, DN, PN, ML2, GN by (reflexivity || discriminate); reflexivity|]). destruct Ht. }
  assert (GEO : geom_of es (d_w img) (d_h img) = g).
  { apply GR. intros t Ht. cbn [In] in Ht.
    repeat (destruct Ht as [<-|Ht]; [apply T; [reflexivity|]; rewrite LV, DN, PN, ML2 by (reflexivity || discriminate); reflexivity|]). destruct Ht. }
  assert (T33422 : tag es 33422 = last_value 33422 photo).
  { apply T; [reflexivity|]. rewrite LV, DN, ML2, GN by (reflexivity || discriminate). destruct (last_value 33422 photo); reflexivity. }
  assert (FA : exists a, tag es 50829 = Some a /\ fsize a 0 = r_y area /\ fsize a 1 = r_x area).
  { pose proof GEO as X. apply (f_equal g_active) in X. rewrite Ga in X. unfold geom_of in X. cbn [g_active] in X.
    destruct (tag es 50829) as [a|]; [|discriminate]. exists a. injection X as X1 X2 _ _. split; [reflexivity|]. lia. }
  destruct FA as (aa & T50829 & FA0 & FA1).
  assert (FW : fsize (VLong [Z.of_nat (d_w img)]) 0 = d_w img) by (rewrite fsize_long by (unfold urange; lia); lia).
  assert (FH : fsize (VLong [Z.of_nat (d_h img)]) 0 = d_h img) by (rewrite fsize_long by (unfold urange; lia); lia).
  assert (FC : fsize (VShort [Z.of_nat (d_cpp img)]) 0 = d_cpp img) by (rewrite fsize_short by (apply u16_65536; cbn; lia); cbn [nth]; lia).
  assert (FP : f32 (VShort [photo_code (d_photo img)]) 0 = photo_code (d_photo img)).
  { unfold f32. rewrite force_short; [reflexivity| |lia]. destruct (d_photo img); apply u16_65536; cbn; lia. }
  assert (GB : get_black es = Ok (Some s)).
  { unfold get_black. rewrite T277, T50714, T50713, FC. destruct (black_reads (b_levels s)) as (v & -> & Ev). rewrite Ev. cbn [bind].
    rewrite !Nat2Z.id. unfold black_new. destruct Ws as (_ & _ & _ & W4).
    rewrite W4, Hsw, Hsh, Hsc, BC, Nat.eqb_refl. cbn [assert_ bind]. rewrite <- BC, <- Hsw, <- Hsh, <- Hsc. now destruct s. }
  assert (GW2 : forall bits, get_white es bits (d_cpp img) = Ok (d_white img)).
  { intros bits. unfold get_white, fetch. rewrite T277, T50717. cbn [bind]. rewrite FC.
    rewrite (force_list (white_value (d_white img)) (d_white img)).
    - destruct (d_white img) as [|x [|y l]]; [reflexivity| |reflexivity]. cbn [length] in WL. rewrite <- WL. reflexivity.
    - exact WR.
    - destruct (white_value_cases (d_white img)) as (v & -> & [[-> _]| ->]); auto. }
  assert (BITS : fsize (VShort (repeat (Z.of_nat (bits_of p img)) (d_cpp img))) 0 = bits_of p img).
  { rewrite fsize_short; rewrite nth_repeat0 by lia; [lia|]. apply u16_65536. unfold bits_of, params_ok in *. destruct (p_lossless p); lia. }
  assert (FT : frame_tags img es) by (constructor; [exact T256|exact T257|exact T277|]; intros t Ht; apply TN; cbn [In] in Ht; repeat (destruct Ht as [<-|Ht]; [reflexivity|]); destruct Ht).
  destruct (DR file lo K Hlo HLf Bf es) as (l & EL & ENDS & FIN); [|exact FT|].
  { intros t Ht. unfold data_tags in Ht. cbn [In] in Ht.
    repeat (destruct Ht as [<-|Ht]; [apply T; [reflexivity|]; rewrite LV, PN, ML2, GN by (reflexivity || discriminate);
      match goal with |- context [last_value ?t data] => destruct (last_value t data); reflexivity end|]). destruct Ht. }
  unfold raw_start. rewrite EI. cbn [bind]. fold es. unfold fetch. rewrite T256, T257, T277, T258. cbn [bind]. rewrite FW, FH, FC, BITS, GEO, RG. cbn [bind].
  rewrite T262. cbn [bind]. rewrite FP.
  set (zero := mk_black (repeat (0, 1) (d_cpp img)) 1 1 (d_cpp img)).
  assert (SAME : forall photo', match d_photo img with
    | PBlack => False
    | PCfa c _ => exists c', photo' = OCfa c' /\ c_w c' = c_w c /\ c_h c' = c_h c /\ forall r q, color_at c' r q = color_at c r q
    | PLinear => photo' = OLinear
    end -> forall geom, geom = (match p_mode p with
      | CropNone => (Some (mk_rect 0 0 (d_w img) (d_h img)), None)
      | CropActive => (Some (or_full (d_active img) (d_w img) (d_h img)), Some (or_full (d_active img) (d_w img) (d_h img)))
      | CropBest => (Some (or_full (d_active img) (d_w img) (d_h img)), Some (match d_crop img with Some c => c | None => or_full (d_active img) (d_w img) (d_h img) end))
      end) ->
    same_image p bad img (mk_oimg (d_w img) (d_h img) (d_cpp img) (bits_of p img) (d_data img) photo' (d_white img) (if bad then zero else s) (fst geom) (snd geom))).
  { intros photo' Hph geom ->. constructor; cbn [o_w o_h o_cpp o_bps o_data o_photo o_white o_black o_active o_crop]; auto.
    - cbv zeta. fold area. split; [destruct bad; cbn; congruence|]. intros row col ch d Hch. destruct bad.
      + unfold black_at, zero. cbn [b_h b_w b_cpp b_levels]. rewrite !Nat.mod_1_r. cbn [Nat.mul Nat.add].
        rewrite (nth_indep _ d (0, 1)) by (rewrite repeat_length; exact Hch). apply nth_repeat.
      + apply HV. lia.
    - cbv zeta. fold area. unfold area, kept_area, or_full. destruct (p_mode p), (d_active img); reflexivity. }
  assert (NB : has es 50712 = false) by (unfold has; now rewrite TN).
  destruct (d_photo img) as [|c colors|] eqn:EPH; cbn [photo_code].
  - change (1 =? 34892) with false. cbv iota. unfold get_cfa, fetch. rewrite T33422, P334. reflexivity.
  - change (32803 =? 34892) with false. cbv iota. destruct P334 as (pat & c' & LP & RP & ER & Cw & Ch & CC).
    unfold get_cfa, fetch. rewrite T33422, LP. cbn [bind].
    rewrite (force_list (VByte pat) pat); [|eapply Forall_impl; [|exact RP]; intros x Hx; cbn beta in *; lia|now left].
    rewrite T50829, FA0, FA1, ER. cbn [bind]. rewrite GB, GW2. cbn [bind].
    change (32803 =? 1) with false. change (32803 =? 32803) with true. cbv iota. cbn [bind]. rewrite EL, NB.
    eexists. split; [reflexivity|]. cbn [fst]. split; [exact ENDS|]. intros sched Hs. unfold raw_finish. cbn [fst snd]. rewrite (FIN sched Hs). cbn [bind].
    eexists. split; [reflexivity|]. apply SAME; [|reflexivity]. exists c'. auto.
  - change (34892 =? 34892) with true. cbv iota. cbn [bind]. rewrite GB, GW2. cbn [bind].
    change (34892 =? 1) with false. change (34892 =? 32803) with false. cbv iota. cbn [bind]. rewrite EL, NB.
    eexists. split; [reflexivity|]. cbn [fst]. split; [exact ENDS|]. intros sched Hs. unfold raw_finish. cbn [fst snd]. rewrite (FIN sched Hs). cbn [bind].
    eexists. split; [reflexivity|]. apply SAME; [reflexivity|reflexivity].
Qed.
