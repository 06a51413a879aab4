(** The directory of the raw image: what the writer puts in and what the reader
    makes of it. *)
From Coq Require Import List ZArith Lia Bool.
From Verif Require Import Base BaseLemmas Par Packed Bits Tiff TiffSpec TiffBytes TiffRead TiffWrite TiffSafe TiffTop
  RawSource RawSourceProofs Geom Tiles DngImage TilesTop Strips StripsSpec StripsProofs DngMeta DngMetaProofs Cfa CfaProofs
  DngFile DngFileSpec DngFileTiff.
Import ListNotations.
Open Scope Z_scope.

Lemma wv_short l : l <> [] -> Z.of_nat (length l) < 2 ^ 32 -> Forall (urange 16) l -> writable (VShort l).
Proof. intros H1 H2 H3. split; [split; [exact H3|exact H2]|]. cbn. split; [destruct l; [easy|cbn; lia]|exact I]. Qed.
Lemma wv_long l : l <> [] -> Z.of_nat (length l) < 2 ^ 32 -> Forall (urange 32) l -> writable (VLong l).
Proof. intros H1 H2 H3. split; [split; [exact H3|exact H2]|]. cbn. split; [destruct l; [easy|cbn; lia]|exact I]. Qed.
Lemma wv_byte l : l <> [] -> Z.of_nat (length l) < 2 ^ 32 -> Forall (urange 8) l -> writable (VByte l).
Proof. intros H1 H2 H3. split; [split; [exact H3|exact H2]|]. cbn. split; [destruct l; [easy|cbn; lia]|exact I]. Qed.
Lemma wv_rational l : l <> [] -> Z.of_nat (length l) < 2 ^ 32 -> Forall u32_pair l -> writable (VRational l).
Proof. intros H1 H2 H3. split; [split; [exact H3|exact H2]|]. cbn. split; [destruct l; [easy|cbn; lia]|exact I]. Qed.

Lemma force_in max l i : (i < length l)%nat -> Forall (fun x => 0 <= x < max) l ->
  (force max (VByte l) i = nth i l 0 /\ force max (VShort l) i = nth i l 0 /\ force max (VLong l) i = nth i l 0).
Proof.
  intros Hi H. rewrite Forall_forall in H. pose proof (H _ (nth_In l 0 Hi)) as B. cbn [force].
  replace (0 <=? nth i l 0) with true by (symmetry; apply Z.leb_le; lia).
  replace (nth i l 0 <? max) with true by (symmetry; apply Z.ltb_lt; lia). auto.
Qed.
Lemma forall_le {A} (P Q : A -> Prop) l : (forall x, P x -> Q x) -> Forall P l -> Forall Q l.
Proof. intros H. apply Forall_impl. exact H. Qed.
Lemma map_nth_seq {A} (l : list A) d : map (fun i => nth i l d) (seq 0 (length l)) = l.
Proof.
  induction l as [|a l IH]; [reflexivity|]. cbn [length seq map]. f_equal. rewrite <- seq_shift, map_map. exact IH.
Qed.
Lemma force_list v l : Forall (fun x => 0 <= x < 2 ^ 32) l -> (v = VByte l \/ v = VShort l \/ v = VLong l) ->
  map (f32 v) (seq 0 (vcount v)) = l.
Proof.
  intros H Hv. assert (E : vcount v = length l) by (destruct Hv as [->|[->| ->]]; reflexivity). rewrite E.
  rewrite <- (map_nth_seq l 0) at 2. apply map_ext_in. intros i Hi. apply in_seq in Hi.
  destruct (force_in (2 ^ 32) l i ltac:(lia) H) as (F1 & F2 & F3). unfold f32. destruct Hv as [->|[->| ->]]; assumption.
Qed.

(** geometry *)
Lemma u16_add_inv a b c : 0 <= a -> 0 <= b -> u16_add a b = Ok c -> urange 16 c.
Proof. unfold u16_add. destruct (Z.ltb_spec (a + b) (2 ^ 16)); [|discriminate]. intros ? ? [= <-]. unfold urange. lia. Qed.
Lemma as_u16_range n : urange 16 (as_u16 n).
Proof. unfold urange, as_u16. apply Z.mod_pos_bound. lia. Qed.
Definition opt_range2 (o : option (Z * Z)) : Prop := match o with Some (a, b) => urange 16 a /\ urange 16 b | None => True end.
Lemma write_geom_inv mode w h active crop g : write_geom mode w h active crop = Ok g ->
  g_width g = w /\ g_height g = h /\ opt_range2 (g_origin g) /\ opt_range2 (g_size g) /\
  exists b r, g_active g = Some (as_u16 (r_y (kept_area mode active w h)), as_u16 (r_x (kept_area mode active w h)), b, r) /\ urange 16 b /\ urange 16 r.
Proof.
  unfold write_geom. cbv zeta.
  replace (match mode with CropNone => mk_rect 0 0 w h | _ => match active with Some a => a | None => mk_rect 0 0 w h end end)
    with (kept_area mode active w h) by (destruct mode, active; reflexivity).
  set (area := kept_area mode active w h).
  destruct (_ <=? w)%nat; cbn [assert_ bind]; [|discriminate]. destruct (_ <=? h)%nat; cbn [assert_ bind]; [|discriminate].
  unfold rect_to_dng_area. destruct (u16_add (as_u16 (r_y area)) (as_u16 (r_h area))) as [b| |] eqn:E1; cbn [bind]; try discriminate.
  destruct (u16_add (as_u16 (r_x area)) (as_u16 (r_w area))) as [r| |] eqn:E2; cbn [bind]; try discriminate.
  pose proof (as_u16_range (r_y area)) as [R1 _]. pose proof (as_u16_range (r_h area)) as [R2 _].
  pose proof (as_u16_range (r_x area)) as [R3 _]. pose proof (as_u16_range (r_w area)) as [R4 _].
  apply u16_add_inv in E1; [|assumption..]. apply u16_add_inv in E2; [|assumption..].
  assert (PC : forall c, (do _ <- assert_ (r_x area <=? r_x c)%nat; do _ <- assert_ (r_y area <=? r_y c)%nat;
     do ox <- usub (r_x c) (r_x area); do oy <- usub (r_y c) (r_y area);
     Ok (mk_geom w h (Some (as_u16 (r_y area), as_u16 (r_x area), b, r)) (Some (as_u16 ox, as_u16 oy)) (Some (as_u16 (r_w c), as_u16 (r_h c))))) = Ok g ->
     g_width g = w /\ g_height g = h /\ opt_range2 (g_origin g) /\ opt_range2 (g_size g) /\
     exists b0 r0, g_active g = Some (as_u16 (r_y area), as_u16 (r_x area), b0, r0) /\ urange 16 b0 /\ urange 16 r0).
  { intros c. destruct (_ <=? _)%nat; cbn [assert_ bind]; [|discriminate]. destruct (_ <=? _)%nat; cbn [assert_ bind]; [|discriminate].
    destruct (usub _ _); cbn [bind]; try discriminate. destruct (usub _ _); cbn [bind]; try discriminate.
    intros [= <-]. cbn. repeat split; try apply as_u16_range. exists b, r. auto. }
  destruct mode; [apply PC|apply PC|]. intros [= <-]. cbn. repeat split. exists b, r. auto.
Qed.

(** masked areas *)
Lemma masked_ok img : image_ok img -> exists d, masked_dir (d_areas img) = Ok d /\ Forall wtag d /\ (length d <= 1)%nat /\
  forall t v, In (t, v) d -> t = 50830.
Proof.
  intros H. destruct (io_areas img H) as [HA HL]. pose proof (io_w img H). pose proof (io_h img H).
  assert (G : forall areas acc, Forall (fun r => inside r (d_w img) (d_h img)) areas -> Forall (urange 16) acc ->
    exists l, for_each areas (fun r acc => do (t, l, b, rt) <- rect_to_dng_area r; Ok (acc ++ [t; l; b; rt])) acc = Ok l /\
      Forall (urange 16) l /\ length l = (length acc + 4 * length areas)%nat).
  { induction areas as [|r areas IH]; intros acc Ha Hacc; cbn [for_each].
    - exists acc. split; [reflexivity|]. split; [exact Hacc|cbn; lia].
    - apply Forall_cons_iff in Ha. destruct Ha as [Hr Ha]. rewrite (dng_area_ok r (d_w img) (d_h img)) by (unfold small; auto; lia).
      cbn [bind]. destruct Hr. destruct (IH (acc ++ [Z.of_nat (r_y r); Z.of_nat (r_x r); Z.of_nat (r_y r + r_h r); Z.of_nat (r_x r + r_w r)]) Ha) as (l & E & F & L).
      + apply Forall_app. split; [exact Hacc|]. repeat constructor; unfold urange; lia.
      + exists l. split; [exact E|]. split; [exact F|]. rewrite L, app_length. cbn. lia. }
  unfold masked_dir. destruct (d_areas img) as [|r areas] eqn:E.
  - exists []. split; [reflexivity|]. split; [constructor|]. split; [cbn; lia|intros ? ? []].
  - destruct (G (r :: areas) [] HA (Forall_nil _)) as (l & El & Fl & Ll). rewrite El. cbn [bind]. eexists. split; [reflexivity|].
    split; [|split; [cbn; lia|intros ? ? [[= <- _]|[]]; reflexivity]]. constructor; [|constructor]. split; [unfold urange; cbn; lia|].
    apply wv_short; [destruct l; cbn in *; [lia|discriminate]| |exact Fl]. cbn [length] in *. lia.
Qed.

(** levels *)
Lemma white_value_cases l : exists v, white_value l = v /\ ((v = VShort l /\ Forall (fun x => x <= 65535) l) \/ v = VLong l).
Proof.
  unfold white_value. destruct (forallb (fun x => x <=? 65535) l) eqn:E; eexists; (split; [reflexivity|]); [left|now right].
  split; [reflexivity|]. rewrite forallb_forall in E. apply Forall_forall. intros x Hx. now apply Z.leb_le, E.
Qed.
Lemma white_writable l : l <> [] -> Z.of_nat (length l) < 2 ^ 32 -> Forall (urange 32) l -> writable (white_value l).
Proof.
  intros H1 H2 H3. destruct (white_value_cases l) as (v & -> & [[-> H4]| ->]); [|now apply wv_long].
  apply wv_short; auto. rewrite Forall_forall in *. intros x Hx. specialize (H3 x Hx). specialize (H4 x Hx). unfold urange in *. change (2 ^ 16) with 65536. cbn beta in *. lia.
Qed.
Lemma black_writable l : l <> [] -> Z.of_nat (length l) < 2 ^ 32 -> Forall u32_pair l -> writable (black_value l).
Proof.
  intros H1 H2 H3. unfold black_value. destruct (forallb _ l); [|now apply wv_rational].
  apply white_writable; [destruct l; [easy|discriminate]|rewrite map_length; exact H2|].
  rewrite Forall_forall in *. intros x Hx. apply in_map_iff in Hx. destruct Hx as (y & <- & Hy). now apply H3.
Qed.
Lemma black_reads l : exists v, black_value l = v /\
  match v with VShort l | VLong l => Ok (map (fun x => (x, 1)) l) | VRational l => Ok l | _ => Err end = Ok l.
Proof.
  unfold black_value. destruct (forallb (fun x => snd x =? 1) l) eqn:E.
  - assert (M : map (fun x => (x, 1)) (map fst l) = l).
    { rewrite map_map. rewrite <- (map_id l) at 2. apply map_ext_in. intros [a b] Hx. rewrite forallb_forall in E.
      specialize (E _ Hx). apply Z.eqb_eq in E. cbn in *. now subst. }
    destruct (white_value_cases (map fst l)) as (v & -> & [[-> _]| ->]); eexists; (split; [reflexivity|]); cbv iota; now rewrite M.
  - eexists. split; reflexivity.
Qed.

(** tiles and strips *)
Lemma put_tiles tiles : forall offs sizes buf,
  exists offs' more, fold_left (fun st t => put_tile t st) tiles (offs, sizes, buf)
      = (offs ++ offs', sizes ++ map (fun t => wrap_u32 (Z.of_nat (length t))) tiles, buf ++ more) /\
    length offs' = length tiles /\ Forall (urange 32) offs' /\
    (forall file lo, keeps lo (buf ++ more) file -> lo <= Z.of_nat (length buf) -> Z.of_nat (length (buf ++ more)) < 2 ^ 32 ->
       Forall2 (at_ file) offs' tiles) /\ Forall (fun t => (length t <= length more)%nat) tiles.
Proof.
  induction tiles as [|t tiles IH]; intros offs sizes buf; cbn [fold_left map].
  - exists [], []. rewrite !app_nil_r. repeat split; auto.
  - unfold put_tile at 2. destruct (data_step buf t) as (m1 & E1 & R1 & A1).
    destruct (write_data buf t) as [o b] eqn:E. cbn [fst snd] in *. subst b.
    assert (Lt : (length t <= length m1)%nat).
    { unfold write_data in E. injection E as _ E. destruct (pad4_app buf) as [z P]. rewrite P, <- app_assoc in E.
      apply app_inv_head in E. subst m1. rewrite app_length. lia. }
    destruct (IH (offs ++ [o]) (sizes ++ [wrap_u32 (Z.of_nat (length t))]) (buf ++ m1)) as (offs' & m2 & E2 & L & R & A & LT).
    exists (o :: offs'), (m1 ++ m2). rewrite E2, <- !app_assoc. cbn [app]. split; [reflexivity|]. split; [cbn; lia|]. split; [now constructor|]. split.
    + intros file lo K Hlo B. constructor.
      * apply (A1 file lo); [|exact Hlo|rewrite !app_length in *; lia]. intros p b Hp Hb. apply K; [exact Hp|]. rewrite app_assoc. now apply at_more.
      * apply (A file lo); [rewrite <- app_assoc; exact K|rewrite app_length; lia|rewrite <- app_assoc; exact B].
    + constructor; [rewrite app_length; lia|]. eapply Forall_impl; [|exact LT]. intros. cbn beta in *. rewrite app_length. lia.
Qed.
Lemma tile_views_at file : Z.of_nat (length file) < 2 ^ 32 -> forall offs tiles, Forall (urange 32) offs -> Forall2 (at_ file) offs tiles ->
  tile_views file offs (map (fun t => wrap_u32 (Z.of_nat (length t))) tiles) = Ok tiles.
Proof.
  intros HL. induction offs as [|o offs IH]; intros tiles R F; inversion F as [|? t ? ts A F']; subst; cbn [tile_views map]; [reflexivity|].
  apply Forall_cons_iff in R. destruct R as [R1 R]. destruct R1 as [R1 R2].
  assert (Lt : Z.of_nat (length t) < 2 ^ 32). { destruct A as (pre & post & E & _). subst file. rewrite !app_length in HL. lia. }
  unfold wrap_u32. rewrite Z.mod_small by lia.
  assert (S : subview file o (Z.of_nat (length t)) = Ok t) by (apply subview_ok; [lia|lia|lia|split; [exact A|reflexivity]]).
  rewrite S. cbn [bind]. fold wrap_u32. rewrite IH by assumption. reflexivity.
Qed.
Lemma put_strip_inv lw strips : forall os ss rs buf os' ss' rs' buf',
  for_each strips (put_strip lw) (os, ss, rs, buf) = Ok (os', ss', rs', buf') ->
  Forall (urange 32) os -> Forall (urange 32) ss -> Forall (urange 32) rs ->
  Forall (urange 32) os' /\ Forall (urange 32) ss' /\ Forall (urange 32) rs' /\
  (length os' = length os + length strips /\ length ss' = length ss + length strips /\ length rs' = length rs + length strips)%nat.
Proof.
  induction strips as [|s strips IH]; intros os ss rs buf os' ss' rs' buf' E H1 H2 H3; cbn [for_each length] in *.
  - injection E as <- <- <- <-. repeat split; auto; lia.
  - unfold put_strip at 1 in E. unfold write_data_u16, write_data in E. cbv zeta beta iota in E.
    destruct (lw =? 0)%nat; cbn [bind] in E; [discriminate|].
    assert (W : forall x, urange 32 (wrap_u32 x)) by (intros; unfold urange, wrap_u32; apply Z.mod_pos_bound; lia).
    apply IH in E; [|apply Forall_app; split; [assumption|repeat constructor; apply W]..].
    rewrite !app_length in E. cbn [length] in E. destruct E as (? & ? & ? & ? & ? & ?). repeat split; auto; lia.
Qed.

Lemma last_value_app t (a b : dir) : last_value t (a ++ b) = match last_value t b with Some v => Some v | None => last_value t a end.
Proof.
  induction a as [|[k v] a IH]; cbn [app last_value]; [now destruct (last_value t b)|]. rewrite IH. now destruct (last_value t b).
Qed.
Lemma last_value_none t (a : dir) : (forall k v, In (k, v) a -> k <> t) -> last_value t a = None.
Proof.
  induction a as [|[k v] a IH]; intros H; cbn [last_value]; [reflexivity|]. rewrite IH by (intros; eapply H; right; eassumption).
  destruct (Z.eqb_spec t k) as [->|]; [|reflexivity]. exfalso. eapply H; [now left|reflexivity].
Qed.

Lemma fsize_long x l : urange 32 x -> fsize (VLong (x :: l)) 0 = Z.to_nat x.
Proof.
  intros [H1 H2]. unfold fsize, force. cbn [nth]. replace (0 <=? x) with true by (symmetry; apply Z.leb_le; lia).
  replace (x <? 2 ^ 64) with true by (symmetry; apply Z.ltb_lt; lia). reflexivity.
Qed.
Lemma fsize_short i l : urange 16 (nth i l 0) -> fsize (VShort l) i = Z.to_nat (nth i l 0).
Proof.
  intros [H1 H2]. unfold fsize, force. replace (0 <=? nth i l 0) with true by (symmetry; apply Z.leb_le; lia).
  replace (nth i l 0 <? 2 ^ 64) with true by (symmetry; apply Z.ltb_lt; lia). reflexivity.
Qed.
Lemma force_short max l i : urange 16 (nth i l 0) -> 2 ^ 16 <= max -> force max (VShort l) i = nth i l 0.
Proof.
  intros [H1 H2] H. unfold force. replace (0 <=? nth i l 0) with true by (symmetry; apply Z.leb_le; lia).
  replace (nth i l 0 <? max) with true by (symmetry; apply Z.ltb_lt; lia). reflexivity.
Qed.

Definition data_tags : list Z := [259; 258; 339; 324; 325; 322; 323; 273; 279; 278].
(** the tags around the sample data as a reader needs them *)
Record frame_tags (img : dimg) (es : entries) : Prop := mk_frame {
  ft_w : tag es 256 = Some (VLong [Z.of_nat (d_w img)]);
  ft_h : tag es 257 = Some (VLong [Z.of_nat (d_h img)]);
  ft_c : tag es 277 = Some (VShort [Z.of_nat (d_cpp img)]);
  ft_none : forall t, In t [50712; 50975; 52547] -> tag es t = None }.
Definition bits_of (p : params) (img : dimg) : nat := if p_lossless p then d_bps img else 16.

Lemma cpp_range img : image_ok img -> (1 <= d_cpp img <= 3)%nat.
Proof. intros H. pose proof (io_photo img H). destruct (d_photo img); [lia|destruct H0; lia|lia]. Qed.
Lemma repeat_u16 x n : urange 16 x -> Forall (urange 16) (repeat x n).
Proof. intros H. apply Forall_forall. intros y Hy. apply repeat_spec in Hy. now subst. Qed.
Lemma wtag_mk t v : urange 16 t -> writable v -> wtag (t, v).
Proof. now split. Qed.
Lemma nonempty_len {A} (l : list A) : (0 < length l)%nat -> l <> [].
Proof. destruct l; cbn; [lia|discriminate]. Qed.
Lemma w_short1 t x : urange 16 t -> urange 16 x -> wtag (t, VShort [x]).
Proof. intros. apply wtag_mk; [assumption|]. apply wv_short; [discriminate|cbn [length]; lia|now constructor]. Qed.
Lemma w_long1 t x : urange 16 t -> urange 32 x -> wtag (t, VLong [x]).
Proof. intros. apply wtag_mk; [assumption|]. apply wv_long; [discriminate|cbn [length]; lia|now constructor]. Qed.
Lemma w_rep t x n : urange 16 t -> urange 16 x -> (1 <= n <= 3)%nat -> wtag (t, VShort (repeat x n)).
Proof.
  intros. apply wtag_mk; [assumption|]. apply wv_short; [apply nonempty_len|..]; rewrite ?repeat_length; [lia|lia|now apply repeat_u16].
Qed.
Lemma inb t l : existsb (Z.eqb t) l = true -> In t l.
Proof. intros H. apply existsb_exists in H. destruct H as (x & Hx & E). apply Z.eqb_eq in E. now subst. Qed.
Lemma nth_repeat0 (x : Z) n : (0 < n)%nat -> nth 0 (repeat x n) 0 = x.
Proof. destruct n; [lia|reflexivity]. Qed.

Lemma data_ok p img buf : image_ok img -> params_ok p img ->
  exists data more, data_dir p img buf = Ok (data, buf ++ more) /\ Forall wtag data /\ (length data <= 7)%nat /\
    last_value 259 data = Some (VShort [if p_lossless p then 7 else 1]) /\
    last_value 258 data = Some (VShort (repeat (Z.of_nat (bits_of p img)) (d_cpp img))) /\
    (forall k v, In (k, v) data -> In k data_tags) /\
    (forall file lo, keeps lo (buf ++ more) file -> lo <= Z.of_nat (length buf) -> (length (buf ++ more) <= length file)%nat ->
       Z.of_nat (length file) < 2 ^ 32 ->
     forall es, (forall t, In t data_tags -> tag es t = last_value t data) -> frame_tags img es ->
     exists l, plain_start file es = Some (Ok l) /\ (exists sched, ended (prun 0 sched (l_state l))) /\
       forall sched, ended (prun 0 sched (l_state l)) -> plain_finish sched l = Ok (d_data img)).
Proof.
  intros HI HP. pose proof (cpp_range img HI) as Hc. pose proof (io_w img HI) as Hw. pose proof (io_h img HI) as Hh.
  pose proof (io_len img HI) as HL. pose proof (io_data img HI) as HU. unfold data_dir, params_ok, bits_of in *.
  assert (Z16 : forall x, 0 <= x < 65536 -> urange 16 x) by (intros; unfold urange; change (2 ^ 16) with 65536; lia).
  assert (W32 : forall x, urange 32 (wrap_u32 x)) by (intros; unfold urange, wrap_u32; apply Z.mod_pos_bound; lia).
  destruct (p_lossless p).
  - destruct HP as (Hpx & Hb & Hd).
    destruct (image_roundtrip (p_dbg p) (d_data img) (d_w img) (d_h img) (d_cpp img) (d_bps img) (photo_kind (d_photo img)) (p_predictor p))
      as (tiles & E & LT & (sched0 & E0) & RT); try assumption; try lia.
    { pose proof (io_photo img HI). destruct (d_photo img); cbn [photo_kind]; lia. }
    rewrite E. cbn [bind]. destruct (put_tiles tiles [] [] buf) as (offs & more & ET & LO & RO & AT & LS). rewrite ET. cbn [app].
    assert (NT : (0 < length tiles)%nat).
    { rewrite LT. apply Nat.mul_pos_pos; apply Nat.div_str_pos; lia. }
    assert (N32 : Z.of_nat (length tiles) < 2 ^ 32).
    { rewrite LT. rewrite Nat2Z.inj_mul, !Nat2Z.inj_div. 
      assert (forall n, Z.of_nat n < 65536 -> 0 <= Z.of_nat (n + 255) / Z.of_nat 256 <= 256).
      { intros n Hn. split; [apply Z.div_pos; lia|]. apply Z.lt_succ_r. apply Z.div_lt_upper_bound; lia. }
      pose proof (H (d_w img) ltac:(lia)). pose proof (H (d_h img) ltac:(lia)). nia. }
    eexists _, more. split; [reflexivity|]. rewrite Z.mod_small by lia. split; [|split; [cbn; lia|]].
    { constructor; [apply w_short1; [apply Z16; lia|apply Z16; lia]|]. constructor; [apply w_rep; [apply Z16; lia|apply Z16; lia|lia]|].
      constructor; [apply w_rep; [apply Z16; lia|apply Z16; lia|lia]|].
      constructor; [apply wtag_mk; [apply Z16; lia|apply wv_long; [apply nonempty_len; lia|lia|exact RO]]|].
      constructor; [apply wtag_mk; [apply Z16; lia|apply wv_long; [apply nonempty_len; rewrite map_length; lia|rewrite map_length; lia|]]|].
      { apply Forall_forall. intros x Hx. apply in_map_iff in Hx. destruct Hx as (t & <- & _). apply W32. }
      constructor; [apply w_short1; [apply Z16; lia|apply Z16; lia]|]. constructor; [apply w_short1; [apply Z16; lia|apply Z16; lia]|constructor]. }
    split; [reflexivity|]. split; [reflexivity|]. split.
    { intros k v Hin. repeat (destruct Hin as [[= <- _]|Hin]; [apply inb; reflexivity|]). destruct Hin. }
    intros file lo K Hlo HLf Bf es HT HF.
    assert (T : forall t v, In t data_tags -> last_value t ([(259, VShort [7]); (258, VShort (repeat (Z.of_nat (d_bps img)) (d_cpp img))); (339, VShort (repeat 1 (d_cpp img))); (324, VLong offs); (325, VLong (map (fun t => wrap_u32 (Z.of_nat (length t))) tiles)); (322, VShort [256]); (323, VShort [256])]) = v -> tag es t = v).
    { intros t v Hin <-. now apply HT. }
    unfold plain_start. rewrite (ft_w _ _ HF), (ft_h _ _ HF), (ft_c _ _ HF).
    rewrite (T 258 (Some (VShort (repeat (Z.of_nat (d_bps img)) (d_cpp img))))) by (reflexivity || (apply inb; reflexivity)).
    rewrite (T 339 (Some (VShort (repeat 1 (d_cpp img))))) by (reflexivity || (apply inb; reflexivity)).
    rewrite (T 259 (Some (VShort [7]))) by (reflexivity || (apply inb; reflexivity)).
    unfold has. rewrite !(ft_none _ _ HF) by (apply inb; reflexivity).
    rewrite (T 273 None) by (reflexivity || (apply inb; reflexivity)).
    unfold long_list. rewrite (T 324 (Some (VLong offs))) by (reflexivity || (apply inb; reflexivity)).
    rewrite (T 325 (Some (VLong (map (fun t => wrap_u32 (Z.of_nat (length t))) tiles)))) by (reflexivity || (apply inb; reflexivity)).
    unfold fetch. rewrite (T 322 (Some (VShort [256]))) by (reflexivity || (apply inb; reflexivity)).
    rewrite (T 323 (Some (VShort [256]))) by (reflexivity || (apply inb; reflexivity)).
    unfold f16, f32. rewrite !force_short; [|rewrite ?nth_repeat0 by lia; try (apply Z16; cbn; lia); lia..].
    rewrite !nth_repeat0 by lia. change (1 =? 1) with true. cbn [andb negb]. change (nth 0 [7] 0) with 7. change (7 =? 7) with true. cbn [negb orb].
    replace (Z.of_nat (d_bps img) =? 8) with false by (symmetry; apply Z.eqb_neq; lia). cbn [andb bind].
    assert (F2 : Forall2 (at_ file) offs tiles) by (apply (AT file lo); [exact K|exact Hlo|lia]).
    rewrite (tile_views_at file Bf offs tiles RO F2). cbn [bind].
    rewrite !fsize_long by (unfold urange; lia). rewrite !fsize_short by (apply Z16; cbn; lia). cbn [nth]. rewrite !Nat2Z.id.
    change (Z.to_nat 256) with 256%nat.
    pose proof (RT _ E0) as R0. unfold read_ljpeg in R0.
    destruct (read_ljpeg_init tiles (d_w img) (d_h img) (d_cpp img) 256 256) as [[[dw dh] s0]| |] eqn:EI; cbn [bind] in R0; try discriminate.
    cbn [bind]. eexists. split; [reflexivity|]. cbn [l_state]. unfold read_ljpeg_ends in E0, RT. rewrite EI in E0, RT. split; [eauto|].
    intros sched Es. specialize (RT sched Es). unfold read_ljpeg in RT. rewrite EI in RT. cbn [bind] in RT. exact RT.
  - destruct (strips_roundtrip (p_threshold p) (p_rps p) buf (d_w img) (d_h img) (d_cpp img) (d_data img)) as (offs & sizes & rows & body & E & _ & RT);
      try assumption; try lia.
    rewrite E. cbn [bind].
    assert (INV : Forall (urange 32) offs /\ Forall (urange 32) sizes /\ Forall (urange 32) rows /\
      (0 < length offs)%nat /\ (length sizes = length offs)%nat /\ (length rows = length offs)%nat /\ Z.of_nat (length offs) < 2 ^ 32).
    { unfold put_raw_uncompressed, slice_chunks in E.
      set (c := (rows_per_strip (p_threshold p) (p_rps p) (d_h img) * d_w img * d_cpp img)%nat) in *.
      destruct (Nat.eqb_spec c 0) as [|Hc0]; cbn [bind] in E; [discriminate|].
      apply put_strip_inv in E; [|constructor..]. destruct E as (E1 & E2 & E3 & E4 & E5 & E6). cbn [length] in *.
      rewrite map_length, seq_length in E4, E5, E6. repeat split; auto; try congruence.
      - rewrite E4. cbn [Nat.add]. apply Nat.div_str_pos. rewrite HL. pose proof (Nat.mul_pos_pos (d_h img) (d_w img) ltac:(lia) ltac:(lia)).
        pose proof (Nat.mul_pos_pos (d_h img * d_w img) (d_cpp img) ltac:(lia) ltac:(lia)). lia.
      - rewrite E4. cbn [Nat.add].
        assert (Hcc : (d_w img * d_cpp img <= c)%nat). { unfold c in *. destruct (rows_per_strip _ _ _); [lia|]. nia. }
        assert ((length (d_data img) + c - 1) / c <= d_h img)%nat.
        { apply Nat.lt_succ_r. apply Nat.div_lt_upper_bound; [lia|]. rewrite HL.
          assert (d_h img * d_w img * d_cpp img <= c * d_h img)%nat by nia. lia. }
        lia. }
    destruct INV as (RO & RS & RR & NO & LS & LR & N32).
    eexists _, body. split; [reflexivity|]. split; [|split; [cbn; lia|]].
    { constructor; [apply w_short1; [apply Z16; lia|apply Z16; lia]|]. constructor; [apply w_rep; [apply Z16; lia|apply Z16; lia|lia]|].
      constructor; [apply w_rep; [apply Z16; lia|apply Z16; lia|lia]|].
      constructor; [apply wtag_mk; [apply Z16; lia|apply wv_long; [apply nonempty_len; lia|lia|exact RO]]|].
      constructor; [apply wtag_mk; [apply Z16; lia|apply wv_long; [apply nonempty_len; lia|lia|exact RS]]|].
      constructor; [apply wtag_mk; [apply Z16; lia|apply wv_long; [apply nonempty_len; lia|lia|exact RR]]|constructor]. }
    split; [reflexivity|]. split; [reflexivity|]. split.
    { intros k v Hin. repeat (destruct Hin as [[= <- _]|Hin]; [apply inb; reflexivity|]). destruct Hin. }
    intros file lo K Hlo HLf Bf es HT HF.
    assert (T : forall t v, In t data_tags -> last_value t ([(259, VShort [1]); (339, VShort (repeat 1 (d_cpp img))); (258, VShort (repeat 16 (d_cpp img))); (273, VLong offs); (279, VLong sizes); (278, VLong rows)]) = v -> tag es t = v).
    { intros t v Hin <-. now apply HT. }
    unfold plain_start. rewrite (ft_w _ _ HF), (ft_h _ _ HF), (ft_c _ _ HF).
    rewrite (T 258 (Some (VShort (repeat 16 (d_cpp img))))) by (reflexivity || (apply inb; reflexivity)).
    rewrite (T 339 (Some (VShort (repeat 1 (d_cpp img))))) by (reflexivity || (apply inb; reflexivity)).
    rewrite (T 259 (Some (VShort [1]))) by (reflexivity || (apply inb; reflexivity)).
    unfold has. rewrite !(ft_none _ _ HF) by (apply inb; reflexivity).
    unfold long_list. rewrite (T 273 (Some (VLong offs))) by (reflexivity || (apply inb; reflexivity)).
    rewrite (T 279 (Some (VLong sizes))) by (reflexivity || (apply inb; reflexivity)).
    rewrite (T 278 (Some (VLong rows))) by (reflexivity || (apply inb; reflexivity)).
    unfold f16, f32. rewrite !force_short; [|rewrite ?nth_repeat0 by lia; try (apply Z16; cbn; lia); lia..].
    rewrite !nth_repeat0 by lia. change (1 =? 1) with true. cbn [andb negb]. change (nth 0 [1] 0) with 1. change (1 =? 1) with true. cbn [negb orb bind].
    assert (A : at_ file (Z.of_nat (length buf)) body). { apply K; [exact Hlo|]. apply at_end. }
    destruct A as (pre & ext & Ef & Lp).
    assert (Er : fsize (VLong rows) 0 = Z.to_nat (nth 0 rows 0)).
    { destruct rows as [|r rows]; [cbn in *; lia|]. apply fsize_long. now apply Forall_cons_iff in RR. }
    rewrite Er. rewrite !fsize_long by (unfold urange; lia). rewrite !fsize_short by (apply Z16; cbn; lia). cbn [nth]. rewrite !Nat2Z.id.
    change (Z.to_nat 16) with 16%nat.
    destruct (RT pre ext) as (s0 & ES & RD); [lia|rewrite <- Ef; exact Bf|]. rewrite <- Ef in ES. rewrite ES. cbn [bind].
    eexists. split; [reflexivity|]. cbn [l_state]. split.
    { apply (ended_exists 0 _ s0 (Nat.le_refl _)). }
    intros sched Es. unfold plain_finish. cbn [l_state l_dw l_dh l_w l_h]. rewrite (RD sched Es). unfold into_crop. cbn [px_w px_h].
    rewrite !Nat.eqb_refl. reflexivity.
Qed.
