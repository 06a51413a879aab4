From Coq Require Import List ZArith Bool Lia.
From Verif Require Import Base Tiff TiffSpec TiffBytes Mrw MrwSpec.
Import ListNotations.
Open Scope Z_scope.

Lemma be_at_ok file p n v : 0 <= v < 2 ^ (8 * Z.of_nat n) -> at_ file p (enc BE n v) -> be_at file p (Z.of_nat n) = Ok v.
Proof. intros Hv A. unfold be_at. pose proof (rd_at _ _ _ A) as R. rewrite enc_length in R. rewrite R. now rewrite dec_enc. Qed.
Lemma be4 file p v : urange 32 v -> at_ file p (enc BE 4 v) -> be_at file p 4 = Ok v.
Proof. intros Hv A. exact (be_at_ok file p 4 v Hv A). Qed.
Lemma be2 file p v : urange 16 v -> at_ file p (enc BE 2 v) -> be_at file p 2 = Ok v.
Proof. intros Hv A. exact (be_at_ok file p 2 v Hv A). Qed.
Lemma be1 file p v : urange 8 v -> at_ file p [v] -> be_at file p 1 = Ok v.
Proof.
  intros Hv A. unfold be_at. rewrite (rd_at file p [v] A : rd file p 1 = _). unfold dec. cbn [rev app from_le]. f_equal. lia.
Qed.
Lemma loop_S fuel file d pos s : mrw_loop (S fuel) file d pos s =
  if pos + 20 <? d then
      match (do tag <- be_at file pos 4;
             do len <- be_at file (pos + 4) 4;
             do s <- mrw_block file tag pos s;
             if len + 8 <? 2 ^ 32 then Ok (s, pos + (len + 8)) else Panic) with
      | Ok (s, pos) => mrw_loop fuel file d pos s
      | Err => Some Err
      | Panic => Some Panic
      end
  else Some (Ok s).
Proof. reflexivity. Qed.

(** what a block changes *)
Definition apply1 (pos : Z) (s : mrw) (b : mblock) : mrw :=
  match b with
  | MPrd _ h w _ size _ => mk_mrw h w (size =? 12) (m_wb s) (m_tiff s)
  | MWbg _ a b c d _ => mk_mrw (m_h s) (m_w s) (m_packed s) [a; b; c; d] (m_tiff s)
  | MTtw _ => mk_mrw (m_h s) (m_w s) (m_packed s) (m_wb s) (pos + 8)
  | MOther _ _ => s
  end.
Fixpoint apply_all (pos : Z) (s : mrw) (l : list mblock) : mrw :=
  match l with [] => s | b :: l => apply_all (pos + Z.of_nat (length (menc b))) (apply1 pos s b) l end.

Lemma name_len b : length (mname b) = 4%nat.
Proof. destruct b; reflexivity. Qed.
Lemma menc_len b : Z.of_nat (length (menc b)) = 8 + Z.of_nat (length (mcontent b)).
Proof. unfold menc. rewrite !app_length, name_len, enc_length. lia. Qed.
Definition name_z (b : mblock) : Z :=
  match b with MPrd _ _ _ _ _ _ => 0x505244 | MWbg _ _ _ _ _ _ => 0x574247 | MTtw _ => 0x545457 | MOther n _ => n end.
Lemma name_enc b : mname b = enc BE 4 (name_z b).
Proof. destruct b; reflexivity. Qed.

Lemma block_ok file pos s b : mblock_ok b -> at_ file pos (menc b) -> mrw_block file (name_z b) pos s = Ok (apply1 pos s b).
Proof.
  intros (HL & H) A. unfold menc in A. apply at_app in A. destruct A as [_ A]. rewrite name_len in A. apply at_app in A. destruct A as [_ A]. rewrite enc_length in A.
  unfold mrw_block. destruct b as [v h w img size rest|pre a b c d rest|t|n c]; cbn [name_z mcontent] in *.
  - destruct H as (L1 & U1 & U2 & L2 & U3). change (0x505244 =? 0x505244) with true. cbv iota.
    apply at_app in A. destruct A as [_ A]. rewrite L1 in A. apply at_app in A. destruct A as [A1 A]. rewrite enc_length in A.
    apply at_app in A. destruct A as [A2 A]. rewrite enc_length in A. apply at_app in A. destruct A as [_ A]. rewrite L2 in A. apply at_app in A. destruct A as [A3 _].
    rewrite (be2 file (pos + 16) h U1) by (replace (pos + 16) with (pos + Z.of_nat 4 + Z.of_nat 4 + Z.of_nat 8) by lia; exact A1). cbn [bind].
    rewrite (be2 file (pos + 18) w U2) by (replace (pos + 18) with (pos + Z.of_nat 4 + Z.of_nat 4 + Z.of_nat 8 + Z.of_nat 2) by lia; exact A2). cbn [bind].
    rewrite (be1 file (pos + 24) size U3) by (replace (pos + 24) with (pos + Z.of_nat 4 + Z.of_nat 4 + Z.of_nat 8 + Z.of_nat 2 + Z.of_nat 2 + Z.of_nat 4) by lia; exact A3). reflexivity.
  - destruct H as (L1 & U1 & U2 & U3 & U4). change (0x574247 =? 0x505244) with false. change (0x574247 =? 0x574247) with true. cbv iota.
    apply at_app in A. destruct A as [_ A]. rewrite L1 in A. apply at_app in A. destruct A as [A1 A]. rewrite enc_length in A.
    apply at_app in A. destruct A as [A2 A]. rewrite enc_length in A. apply at_app in A. destruct A as [A3 A]. rewrite enc_length in A. apply at_app in A. destruct A as [A4 _].
    rewrite (be2 file (pos + 12) a U1) by (replace (pos + 12) with (pos + Z.of_nat 4 + Z.of_nat 4 + Z.of_nat 4) by lia; exact A1). cbn [bind].
    rewrite (be2 file (pos + 14) b U2) by (replace (pos + 14) with (pos + Z.of_nat 4 + Z.of_nat 4 + Z.of_nat 4 + Z.of_nat 2) by lia; exact A2). cbn [bind].
    rewrite (be2 file (pos + 16) c U3) by (replace (pos + 16) with (pos + Z.of_nat 4 + Z.of_nat 4 + Z.of_nat 4 + Z.of_nat 2 + Z.of_nat 2) by lia; exact A3). cbn [bind].
    rewrite (be2 file (pos + 18) d U4) by (replace (pos + 18) with (pos + Z.of_nat 4 + Z.of_nat 4 + Z.of_nat 4 + Z.of_nat 2 + Z.of_nat 2 + Z.of_nat 2) by lia; exact A4). reflexivity.
  - reflexivity.
  - destruct H as (U & N1 & N2 & N3). apply Z.eqb_neq in N1, N2, N3. rewrite N1, N2, N3. reflexivity.
Qed.
Lemma name_range b : mblock_ok b -> urange 32 (name_z b).
Proof. intros (_ & H). destruct b; cbn [name_z]; [unfold urange; lia|unfold urange; lia|unfold urange; lia|apply H]. Qed.

Lemma blocks_ok file d : forall l z pos s fuel, Forall mblock_ok (l ++ [z]) -> (12 < length (mcontent z))%nat ->
  at_ file pos (flat_map menc (l ++ [z])) -> d = pos + Z.of_nat (length (flat_map menc (l ++ [z]))) -> (length l < fuel)%nat ->
  mrw_loop fuel file d pos s = Some (Ok (apply_all pos s (l ++ [z]))).
Proof.
  assert (STEP : forall b pos s fuel tail, mblock_ok b -> at_ file pos (menc b) -> d = pos + Z.of_nat (length (menc b)) + tail -> 12 < Z.of_nat (length (mcontent b)) + tail ->
    mrw_loop (S fuel) file d pos s = mrw_loop fuel file d (pos + Z.of_nat (length (menc b))) (apply1 pos s b)).
  { intros b pos s fuel tail OK A D T. rewrite loop_S. rewrite menc_len in *. destruct (Z.ltb_spec (pos + 20) d); [|lia].
    pose proof A as A'. unfold menc in A'. rewrite name_enc in A'. apply at_app in A'. destruct A' as [A1 A']. rewrite enc_length in A'. apply at_app in A'. destruct A' as [A2 _].
    rewrite (be4 file pos (name_z b) (name_range b OK) A1). cbn [bind]. pose proof OK as (HL & _).
    rewrite (be4 file (pos + 4) (Z.of_nat (length (mcontent b)))) by (exact A2 || (unfold urange; lia)). cbn [bind].
    rewrite (block_ok file pos s b OK A). cbn [bind]. destruct (Z.ltb_spec (Z.of_nat (length (mcontent b)) + 8) (2 ^ 32)); [|lia]. f_equal. lia. }
  induction l as [|b l IH]; intros z pos s fuel OK HZ A D F.
  - cbn [app flat_map] in *. rewrite app_nil_r in *. inversion OK; subst. destruct fuel as [|fuel]; [lia|].
    rewrite (STEP z pos s fuel 0) by (assumption || lia). cbn [apply_all]. destruct fuel; cbn [mrw_loop]; destruct (Z.ltb_spec (pos + Z.of_nat (length (menc z)) + 20) (pos + Z.of_nat (length (menc z)))); lia || reflexivity.
  - cbn [app flat_map apply_all] in *. inversion OK as [|? ? O1 O2]; subst. apply at_app in A. destruct A as [A1 A2]. rewrite app_length in *.
    assert (LZ : Z.of_nat (length (flat_map menc (l ++ [z]))) >= 8 + Z.of_nat (length (mcontent z))).
    { rewrite flat_map_app, app_length. cbn [flat_map]. rewrite app_nil_r. pose proof (menc_len z). lia. }
    destruct fuel as [|fuel]; [lia|]. rewrite (STEP b pos s fuel (Z.of_nat (length (flat_map menc (l ++ [z]))))) by (assumption || lia).
    cbn [length] in F. apply IH; try assumption; lia.
Qed.

(** the last block of a kind decides *)
Lemma apply_app a : forall b pos s, apply_all pos s (a ++ b) = apply_all (pos + Z.of_nat (length (flat_map menc a))) (apply_all pos s a) b.
Proof.
  induction a as [|x a IH]; intros b pos s; [cbn [app flat_map apply_all length]; f_equal; lia|]. cbn [app flat_map apply_all]. rewrite IH, app_length. f_equal. lia.
Qed.
Lemma keep_prd l : Forall (fun x => ~ is_prd x) l -> forall pos s, m_h (apply_all pos s l) = m_h s /\ m_w (apply_all pos s l) = m_w s /\ m_packed (apply_all pos s l) = m_packed s.
Proof. induction 1 as [|x l H _ IH]; intros pos s; [now repeat split|]. cbn [apply_all]. destruct (IH (pos + Z.of_nat (length (menc x))) (apply1 pos s x)) as (-> & -> & ->). destruct x; cbn in *; tauto. Qed.
Lemma keep_wbg l : Forall (fun x => ~ is_wbg x) l -> forall pos s, m_wb (apply_all pos s l) = m_wb s.
Proof. induction 1 as [|x l H _ IH]; intros pos s; [reflexivity|]. cbn [apply_all]. rewrite IH. destruct x; cbn in *; tauto. Qed.
Lemma keep_ttw l : Forall (fun x => ~ is_ttw x) l -> forall pos s, m_tiff (apply_all pos s l) = m_tiff s.
Proof. induction 1 as [|x l H _ IH]; intros pos s; [reflexivity|]. cbn [apply_all]. rewrite IH. destruct x; cbn in *; tauto. Qed.

Lemma mfile_parse blocks z data fuel : Forall mblock_ok (blocks ++ [z]) -> (12 < length (mcontent z))%nat ->
  Z.of_nat (length (flat_map menc (blocks ++ [z]))) < 2 ^ 32 - 8 -> (length blocks < fuel)%nat ->
  mrw_parse fuel (mfile (blocks ++ [z]) data) = Some (Ok (8 + Z.of_nat (length (flat_map menc (blocks ++ [z]))), apply_all 8 mrw_init (blocks ++ [z]))).
Proof.
  intros OK HZ HB HF. set (l := blocks ++ [z]) in *. set (n := Z.of_nat (length (flat_map menc l))) in *.
  assert (A : at_ (mfile l data) 0 ([0; 77; 82; 77] ++ enc BE 4 n ++ flat_map menc l)).
  { exists [], data. split; [|reflexivity]. unfold mfile. fold n. now rewrite <- !app_assoc. }
  apply at_app in A. destruct A as [_ A]. apply at_app in A. destruct A as [A1 A2]. rewrite enc_length in A2.
  unfold mrw_parse. rewrite (be4 _ 4 n) by (exact A1 || (unfold urange, n in *; lia)).
  destruct (Z.ltb_spec (n + 8) (2 ^ 32)); [|lia]. unfold l in *.
  rewrite (blocks_ok _ (n + 8) blocks z 8 mrw_init fuel OK HZ) by (exact A2 || exact HF || (unfold n; lia)). do 3 f_equal. lia.
Qed.

Lemma mrw_facts blocks z data fuel : Forall mblock_ok (blocks ++ [z]) -> (12 < length (mcontent z))%nat ->
  Z.of_nat (length (flat_map menc (blocks ++ [z]))) < 2 ^ 32 - 8 -> (length blocks < fuel)%nat ->
  exists s, mrw_parse fuel (mfile (blocks ++ [z]) data) = Some (Ok (8 + Z.of_nat (length (flat_map menc (blocks ++ [z]))), s)) /\
    (forall before v h w img size rest, last_of is_prd (blocks ++ [z]) before (MPrd v h w img size rest) -> m_h s = h /\ m_w s = w /\ m_packed s = (size =? 12)) /\
    (forall before pre a b c d rest, last_of is_wbg (blocks ++ [z]) before (MWbg pre a b c d rest) -> m_wb s = [a; b; c; d]) /\
    (forall before t, last_of is_ttw (blocks ++ [z]) before (MTtw t) ->
       m_tiff s = 16 + Z.of_nat (length (flat_map menc before)) /\ at_ (mfile (blocks ++ [z]) data) (m_tiff s) t).
Proof.
  intros OK HZ HB HF. eexists. split; [now apply mfile_parse|]. set (l := blocks ++ [z]) in *. split; [|split].
  - intros before v h w img size rest (after & -> & _ & N). rewrite apply_app. cbn [apply_all]. apply (keep_prd after N).
  - intros before pre a b c d rest (after & -> & _ & N). rewrite apply_app. cbn [apply_all]. now rewrite (keep_wbg after N).
  - intros before t (after & -> & _ & N). rewrite apply_app. cbn [apply_all]. rewrite (keep_ttw after N). cbn [apply1 m_tiff]. split; [lia|].
    set (n := Z.of_nat (length (flat_map menc (before ++ MTtw t :: after)))).
    exists ([0; 77; 82; 77] ++ enc BE 4 n ++ flat_map menc before ++ mname (MTtw t) ++ enc BE 4 (Z.of_nat (length t))), (flat_map menc after ++ data). split.
    + unfold mfile. fold n. rewrite flat_map_app. cbn [flat_map]. unfold menc at 2. cbn [mcontent]. now rewrite <- !app_assoc.
    + rewrite !app_length, name_len, !enc_length. cbn [length]. lia.
Qed.

(** ** The loop ends *)
Lemma be_at_inv file p n v : be_at file p n = Ok v -> p + n <= Z.of_nat (length file).
Proof. unfold be_at, rd. destruct (Z.leb_spec (p + n) (Z.of_nat (length file))); [trivial|discriminate]. Qed.
Lemma be_at_pos file p n v : Forall (urange 8) file -> be_at file p n = Ok v -> 0 <= v.
Proof.
  intros U. unfold be_at, rd. destruct (p + n <=? _); [|discriminate]. intros [= <-].
  set (b := firstn _ _). assert (F : Forall (urange 8) b).
  { apply Forall_forall. intros x Hx. unfold b in Hx. assert (H2 : In x (skipn (Z.to_nat p) file)) by (rewrite <- (firstn_skipn (Z.to_nat n)); apply in_app_iff; now left).
    assert (H3 : In x file) by (rewrite <- (firstn_skipn (Z.to_nat p) file); apply in_app_iff; now right). rewrite Forall_forall in U. now apply U. }
  apply (dec_range BE b F).
Qed.
Lemma loop_ends file d : Forall (urange 8) file -> forall fuel pos s, Z.of_nat (length file) < pos + Z.of_nat fuel -> (0 < fuel)%nat -> mrw_loop fuel file d pos s <> None.
Proof.
  intros U. induction fuel as [|fuel IH]; intros pos s H1 H2; [lia|]. rewrite loop_S. destruct (pos + 20 <? d); [|discriminate].
  destruct (be_at file pos 4) as [tag| |] eqn:E1; [|discriminate|discriminate]. cbn [bind].
  destruct (be_at file (pos + 4) 4) as [len| |] eqn:E2; [|discriminate|discriminate]. cbn [bind].
  destruct (mrw_block file tag pos s) as [s'| |]; [|discriminate|discriminate]. cbn [bind]. pose proof (be_at_pos _ _ _ _ U E2) as P.
  pose proof (be_at_inv _ _ _ _ E2) as I. destruct (len + 8 <? 2 ^ 32); [|discriminate].
  apply IH; lia.
Qed.
Lemma parse_ends file fuel : Forall (urange 8) file -> (length file < fuel)%nat -> mrw_parse fuel file <> None.
Proof.
  intros U H. unfold mrw_parse. destruct (be_at file 4 4) as [n| |]; [|discriminate|discriminate]. destruct (n + 8 <? 2 ^ 32); [|discriminate].
  pose proof (loop_ends file (n + 8) U fuel 8 mrw_init ltac:(lia) ltac:(lia)) as X. destruct (mrw_loop fuel file (n + 8) 8 mrw_init) as [[| |]|]; (discriminate || contradiction).
Qed.
