(** Colour conversion of pixels. *)
From Coq Require Import List ZArith Lia Bool QArith Qcanon Field.
From Coq Require Import ZifyBool ZifyNat.
From Verif Require Import Base BaseLemmas Demosaic DemosaicSpec Color ColorSpec LevelsProofs ColorProofs.
Import ListNotations.
Open Scope nat_scope.

Section Gen.
Context {F : Type}.
Variable o : fops F.

Lemma nth_map_seq' {A} (f : nat -> A) n i d : i < n -> nth i (map f (seq 0 n)) d = f i.
Proof.
  intros H. rewrite nth_indep with (d' := f 0) by (rewrite map_length, seq_length; lia).
  now rewrite (map_nth f (seq 0 n) 0), seq_nth by lia.
Qed.

(** ** Choice of the matrix *)
Lemma find_first_spec (find : illuminant -> option (list F)) l : 
  match find_first find l with
  | Some (i, m) => find i = Some m /\ exists l1 l2, l = l1 ++ i :: l2 /\ forall j, In j l1 -> find j = None
  | None => forall j, In j l -> find j = None
  end.
Proof.
  induction l as [|i l IH]; cbn [find_first]; [intros j []|].
  destruct (find i) as [m|] eqn:E.
  - split; [exact E|]. exists [], l. split; [reflexivity|]. intros j [].
  - destruct (find_first find l) as [[i' m']|].
    + destruct IH as (E' & l1 & l2 & -> & HN). split; [exact E'|]. exists (i :: l1), l2. split; [reflexivity|].
      intros j [<-|HJ]; auto.
    + intros j [<-|HJ]; auto.
Qed.

Section X.
Variable tri : illuminant -> list F.
Variables brad bradi : list (list F).
Notation x2c := (xyz2cam_of o tri brad bradi).

Lemma mat_eq n m f g : (forall i j, i < n -> j < m -> f i j = g i j) -> mat n m f = mat (F := F) n m g.
Proof.
  intros H. unfold mat. apply map_ext_in. intros i Hi. apply in_seq in Hi.
  apply map_ext_in. intros j Hj. apply in_seq in Hj. apply H; lia.
Qed.

Lemma xyz2cam_d65 find m : find D65 = Some m ->
  x2c find = if (length m mod 3 =? 0) && (length m / 3 <=? 4)
             then Ok (mat 4 3 (fun i j => if i <? length m / 3 then nth (i * 3 + j) m (f_nat o 0) else f_nat o 0)) else Panic.
Proof.
  intros E. unfold xyz2cam_of, preferred. cbn [find_first]. rewrite E. cbn [illuminant_eqb bind].
  destruct (length m mod 3 =? 0); cbn [assert_ bind andb]; reflexivity.
Qed.

Lemma find_first_app find l1 i l2 m : (forall j, In j l1 -> find j = None) -> find i = Some m ->
  find_first (F := F) find (l1 ++ i :: l2) = Some (i, m).
Proof.
  intros HN E. induction l1 as [|j l1 IH]; cbn [app find_first]; [now rewrite E|].
  rewrite (HN j) by now left. apply IH. intros k Hk. apply HN. now right.
Qed.

Lemma xyz2cam_other find illu m l1 l2 : preferred = l1 ++ illu :: l2 -> l1 <> [] ->
  (forall j, In j l1 -> find j = None) -> find illu = Some m ->
  (length m <> 9 -> x2c find = Panic) /\
  (length m = 9 -> exists a, adaption_matrix o tri brad bradi illu D65 = Ok a /\
     x2c find = Ok (mat 4 3 (fun i j => if i <? 3
        then mij o (multiply o 3 3 3 (mat 3 3 (fun i j => nth (i * 3 + j) m (f_nat o 0))) a) i j else f_nat o 0))).
Proof.
  intros EP HN1 HN EF. unfold xyz2cam_of. rewrite EP, (find_first_app find l1 illu l2 m HN EF).
  assert (ND : illuminant_eqb illu D65 = false /\ has_white illu = true).
  { assert (In illu preferred /\ illu <> D65) as [HI HD].
    { split; [rewrite EP; apply in_or_app; right; now left|]. intros ->.
      destruct l1 as [|i l1]; [congruence|]. cbn [app] in EP. injection EP as _ EP.
      assert (HI : In D65 (l1 ++ D65 :: l2)) by (apply in_or_app; right; now left). rewrite <- EP in HI.
      cbn in HI. intuition discriminate. }
    cbn in HI. destruct HI as [<-|HI]; [congruence|]. intuition (subst; reflexivity). }
  destruct ND as [-> HW]. split.
  - intros HL. apply Nat.eqb_neq in HL. now rewrite HL.
  - intros HL. unfold adapt_bradford, adaption_matrix. rewrite HW. cbn [andb has_white bind].
    eexists. split; [reflexivity|]. rewrite HL. cbn [Nat.eqb]. unfold transform_1d. rewrite HL. cbn [Nat.eqb Nat.mul Nat.add bind].
    set (P := multiply o 3 3 3 _ _).
    assert (LP : length (concat P) = 9) by reflexivity. rewrite LP. replace (9 mod 3 =? 0) with true by reflexivity. cbn [assert_ bind]. replace (9 / 3 <=? 4) with true by reflexivity.
    reflexivity.
Qed.

Lemma xyz2cam_none find : (forall j, In j preferred -> find j = None) ->
  x2c find = Ok (mat 4 3 (fun i j => if i =? j then f_nat o 1 else f_nat o 0)).
Proof.
  intros HN. unfold xyz2cam_of. pose proof (find_first_spec find preferred) as HF.
  destruct (find_first find preferred) as [[i m]|].
  - destruct HF as (E & l1 & l2 & EP & _). rewrite HN in E; [discriminate|]. rewrite EP. apply in_or_app. right. now left.
  - reflexivity.
Qed.
End X.
End Gen.

Open Scope Qc_scope.

(** ** normalize *)

Lemma qeq_abs (x : Qc) : f_eq qops (f_abs qops x) q0 = true <-> x = 0.
Proof.
  rewrite q_nat0. cbn [f_eq f_abs qops]. destruct (Qclt_le_dec x 0) as [L|L].
  - destruct (Qc_eq_dec (- x) 0) as [E|E]; (split; [intros H; try discriminate|intros ->]).
    + rewrite <- (Qcopp_involutive x), E. ring.
    + now apply Qlt_irrefl in L.
    + now apply Qlt_irrefl in L.
  - destruct (Qc_eq_dec x 0); (split; [intros H; try discriminate; auto|intros; congruence]).
Qed.

Lemma normalize_ok mm a i : (i < mm)%nat ->
  let s := qm a i 0 + qm a i 1 + qm a i 2 in
  (s <> 0 -> (forall j, (j < 3)%nat -> qm (normalize qops 3 mm a) i j = qm a i j / s) /\
             qm (normalize qops 3 mm a) i 0 + qm (normalize qops 3 mm a) i 1 + qm (normalize qops 3 mm a) i 2 = 1) /\
  (s = 0 -> forall j, (j < 3)%nat -> qm (normalize qops 3 mm a) i j = 0).
Proof.
  intros Hi s.
  assert (EM : forall j, (j < 3)%nat -> qm (normalize qops 3 mm a) i j = if f_eq qops (f_abs qops s) q0 then 0 else qm a i j / s).
  { intros j Hj. unfold normalize. unfold mij at 1. rewrite nth_map_seq' by auto. cbv zeta.
    rewrite (fsum3 (qm a i)). fold s. destruct (f_eq qops (f_abs qops s) q0).
    - destruct j as [|[|[|]]]; try lia; cbn; now apply Qc_is_canon.
    - destruct j as [|[|[|]]]; try lia; reflexivity. }
  split.
  - intros HS. destruct (f_eq qops (f_abs qops s) q0) eqn:E; [apply qeq_abs in E; congruence|].
    split; [exact EM|]. rewrite !EM by lia. unfold s in *. now field.
  - intros HS. apply qeq_abs in HS. rewrite HS in EM. exact EM.
Qed.

(** ** clip *)
Section Clip.
Variable fsqrt : Qc -> Qc.
Notation clip := (clip_norm_avg qops fsqrt qmax).

Lemma qmax_l a b : a <= qmax a b.
Proof. unfold qmax. destruct (Qclt_le_dec a b); [now apply Qclt_le_weak|apply Qcle_refl]. Qed.
Lemma qmax_r a b : b <= qmax a b.
Proof. unfold qmax. destruct (Qclt_le_dec a b); [apply Qcle_refl|assumption]. Qed.

Lemma fold_max_ge l : forall a, a <= fold_left qmax l a /\ forall x, In x l -> x <= fold_left qmax l a.
Proof.
  induction l as [|y l IH]; intros a; cbn; [split; [apply Qcle_refl|intros x []]|].
  destruct (IH (qmax a y)) as (H1 & H2). split.
  - eapply Qcle_trans; [apply qmax_l|exact H1].
  - intros x [<-|H]; [eapply Qcle_trans; [apply qmax_r|exact H1]|auto].
Qed.

Lemma fold_max_le l b : forall a, a <= b -> (forall x, In x l -> x <= b) -> fold_left qmax l a <= b.
Proof.
  induction l as [|y l IH]; intros a Ha Hl; cbn; [exact Ha|]. apply IH; [|intros; apply Hl; now right].
  unfold qmax. destruct (Qclt_le_dec a y); [apply Hl; now left|exact Ha].
Qed.

Lemma clip_neg_id p : (forall x, In x p -> 0 <= x) -> clip_negative qops p = p.
Proof.
  intros H. unfold clip_negative. rewrite <- (map_id p) at 2. apply map_ext_in. intros x Hx.
  rewrite q_nat0. cbn [f_lt qops]. destruct (Qclt_le_dec x 0) as [L|L]; [|reflexivity].
  exfalso. apply (Qcle_not_lt 0 x); auto.
Qed.

Lemma clip_id p : (forall x, In x p -> 0 <= x <= 1) -> clip p = p.
Proof.
  intros H. unfold clip_norm_avg. rewrite clip_neg_id by (intros x Hx; now apply H).
  destruct p as [|a p]; [reflexivity|]. rewrite q_nat1. cbn [f_lt qops].
  destruct (Qclt_le_dec 1 (fold_left qmax p a)) as [L|L]; [|reflexivity].
  exfalso. apply (Qcle_not_lt (fold_left qmax p a) 1); [|exact L].
  apply fold_max_le; [apply H; now left|]. intros x Hx. apply H. now right.
Qed.

Lemma clip_length p : length (clip p) = length p.
Proof.
  unfold clip_norm_avg, clip_negative. destruct p as [|a p]; [reflexivity|]. cbn [map].
  destruct (f_lt qops _ _); cbn [length]; now rewrite ?map_length.
Qed.

Lemma clip_neg_nonneg p x : In x (clip_negative qops p) -> 0 <= x.
Proof.
  unfold clip_negative. intros H. apply in_map_iff in H as (y & <- & _). rewrite q_nat0. cbn [f_lt qops].
  destruct (Qclt_le_dec y 0); [apply Qcle_refl|assumption].
Qed.

Lemma two_pos : 0 < f_nat qops 2. Proof. reflexivity. Qed.

Lemma clip_nonneg p : (forall x, 0 <= fsqrt x) -> 0 < fsqrt (f_nat qops (length p)) -> forall x, In x (clip p) -> 0 <= x.
Proof.
  intros HS HN x HI. unfold clip_norm_avg in HI. pose proof (clip_neg_nonneg p) as HP.
  destruct (clip_negative qops p) as [|a l] eqn:EP; [destruct HI|].
  assert (EL : length (a :: l) = length p) by (rewrite <- EP; unfold clip_negative; now rewrite map_length).
  rewrite q_nat1 in HI. cbn [f_lt qops] in HI. destruct (Qclt_le_dec 1 (fold_left qmax l a)) as [L|L]; [|now apply HP].
  rewrite EL in HI. apply in_map_iff in HI as (y & <- & HI). apply in_map_iff in HI as (v & <- & HI).
  cbn [f_div f_add qops]. apply qdiv_nonneg; [|exact two_pos].
  replace 0 with (0 + 0) by ring. apply Qcplus_le_compat.
  - apply qdiv_nonneg; [now apply HP|]. eapply Qclt_trans; [|exact L]. reflexivity.
  - now apply qdiv_nonneg.
Qed.

(** a bright grey stays far above one *)
Lemma clip_bright : fsqrt (dec5 30000000) = dec5 1000000 * fsqrt (dec5 300000) -> fsqrt (dec5 300000) <> 0 ->
  clip [dec5 1000000; dec5 1000000; dec5 1000000] = [dec5 550000; dec5 550000; dec5 550000].
Proof.
  intros E N. unfold clip_norm_avg. rewrite clip_neg_id.
  2: { intros x Hx. cbn in Hx. intuition (subst; discriminate). }
  cbn [fold_left]. replace (qmax (qmax _ _) _) with (dec5 1000000) by reflexivity.
  replace (f_lt qops (f_nat qops 1) (dec5 1000000)) with true by reflexivity.
  cbn [map length]. replace (fsum qops _) with (dec5 30000000) by (now apply Qc_is_canon).
  replace (f_nat qops 3) with (dec5 300000) by (now apply Qc_is_canon).
  rewrite E. cbn [f_div f_add qops].
  replace (dec5 1000000 * fsqrt (dec5 300000) / fsqrt (dec5 300000)) with (dec5 1000000) by (now field).
  replace ((dec5 1000000 / dec5 1000000 + dec5 1000000) / f_nat qops 2) with (dec5 550000) by (now apply Qc_is_canon).
  reflexivity.
Qed.
End Clip.

(** ** Pixels *)
Section Pixel.
Variable fsqrt : Qc -> Qc.
Notation map_pixel := (map_pixel qops fsqrt qmax).

Lemma q3 (x : nat -> Qc) i : (i < 3)%nat -> unit_entry i 0 * x 0%nat + unit_entry i 1 * x 1%nat + unit_entry i 2 * x 2%nat = x i.
Proof. intros H. destruct i as [|[|[|]]]; try lia; unfold unit_entry; cbn [Nat.eqb]; ring. Qed.

Lemma qsum_first (nch : nat) (f : nat -> Qc) : (nch <= 4)%nat -> (forall k, (nch <= k < 4)%nat -> f k = 0) -> qsum 4 f = qsum nch f.
Proof.
  intros H HZ.
  assert (G : forall d, (nch + d <= 4)%nat -> qsum (nch + d) f = qsum nch f).
  { induction d as [|d IH]; intros Hd; [now rewrite Nat.add_0_r|].
    rewrite Nat.add_succ_r, qsum_S, IH, HZ by lia. ring. }
  replace 4%nat with (nch + (4 - nch))%nat by lia. apply G. lia.
Qed.

(** The camera response to a colour is turned back into the colour. *)
Lemma pixel_roundtrip nch cam wb pix (x : nat -> Qc) : independent qops 4 cam -> nch = 3%nat \/ nch = 4%nat ->
  (forall k, (nch <= k < 4)%nat -> response qops cam k x = 0) ->
  (forall k, (k < nch)%nat -> nth k pix 0 * nth k wb 0 = response qops cam k x) ->
  (forall i, (i < 3)%nat -> 0 <= x i <= 1) ->
  map_pixel nch (pseudo_inverse qops 4 cam) wb pix = [x 0%nat; x 1%nat; x 2%nat].
Proof.
  intros HI HN HZ HP HX.
  assert (E : forall i, (i < 3)%nat -> qsum nch (fun k => qm (pseudo_inverse qops 4 cam) i k * response qops cam k x) = x i).
  { intros i Hi. rewrite <- qsum_first with (nch := nch).
    - rewrite <- (q3 x i Hi). rewrite <- !(pinv_left 4 cam HI) by lia.
      unfold response. cbn [f_add f_mul qops].
      replace (qsum 4 (fun j => qm (pseudo_inverse qops 4 cam) i j * qm cam j 0) * x 0%nat)
        with (x 0%nat * qsum 4 (fun j => qm (pseudo_inverse qops 4 cam) i j * qm cam j 0)) by ring.
      replace (qsum 4 (fun j => qm (pseudo_inverse qops 4 cam) i j * qm cam j 1) * x 1%nat)
        with (x 1%nat * qsum 4 (fun j => qm (pseudo_inverse qops 4 cam) i j * qm cam j 1)) by ring.
      replace (qsum 4 (fun j => qm (pseudo_inverse qops 4 cam) i j * qm cam j 2) * x 2%nat)
        with (x 2%nat * qsum 4 (fun j => qm (pseudo_inverse qops 4 cam) i j * qm cam j 2)) by ring.
      rewrite <- !qsum_mul, <- !qsum_add. apply qsum_ext. intros k _. ring.
    - lia.
    - intros k Hk. rewrite HZ by auto. ring. }
  unfold Color.map_pixel.
  replace (map (fun i => apply_row qops (nth i (pseudo_inverse qops 4 cam) []) nch _) (seq 0 3)) with [x 0%nat; x 1%nat; x 2%nat].
  - apply clip_id. intros y Hy. cbn in Hy. destruct Hy as [<-|[<-|[<-|[]]]]; apply HX; lia.
  - symmetry. cbn [map seq]. unfold apply_row. fold (qm (pseudo_inverse qops 4 cam)).
    destruct HN as [-> | ->]; cbn [seq map nth fold_left]; rewrite <- !E by lia; unfold qsum;
      cbn [seq map fold_left f_add f_mul qops]; rewrite <- !HP by lia; cbn [nth]; rewrite !q_nat0; unfold mij; rewrite !q_nat0;
      f_equal; [ring|f_equal; [ring|f_equal; ring]|ring|f_equal; [ring|f_equal; ring]].
Qed.

(** the matrix for development: rows of the product with the sRGB matrix *)
Lemma cam_row srgb x2c i : (i < 4)%nat ->
  let row j := qm x2c i 0 * qm srgb 0 j + qm x2c i 1 * qm srgb 1 j + qm x2c i 2 * qm srgb 2 j in
  let s := row 0%nat + row 1%nat + row 2%nat in
  forall g, response qops (cam_matrix qops srgb x2c) i (fun _ => g) = if Qc_eq_dec s 0 then 0 else g.
Proof.
  intros Hi row s g. unfold cam_matrix, response. cbn [f_add f_mul qops].
  destruct (normalize_ok 4 (multiply qops 4 3 3 x2c srgb) i Hi) as (N1 & N2).
  assert (ER : forall j, (j < 3)%nat -> qm (multiply qops 4 3 3 x2c srgb) i j = row j).
  { intros j Hj. unfold multiply. rewrite mij_mat by auto. now rewrite fsum3. }
  rewrite !ER in N1, N2 by lia. fold s in N1, N2.
  destruct (Qc_eq_dec s 0) as [E|E].
  - rewrite !N2 by auto. ring.
  - destruct (N1 E) as (_ & SN). transitivity ((qm (normalize qops 3 4 (multiply qops 4 3 3 x2c srgb)) i 0 + qm (normalize qops 3 4 (multiply qops 4 3 3 x2c srgb)) i 1 + qm (normalize qops 3 4 (multiply qops 4 3 3 x2c srgb)) i 2) * g); [ring|].
    rewrite SN. ring.
Qed.

(** White balanced grey stays grey. *)
Lemma pixel_neutral1 nch srgb x2c wb pix g : independent qops 4 (cam_matrix qops srgb x2c) -> nch = 3%nat \/ nch = 4%nat ->
  let row i j := qm x2c i 0 * qm srgb 0 j + qm x2c i 1 * qm srgb 1 j + qm x2c i 2 * qm srgb 2 j in
  (forall i, (i < nch)%nat -> row i 0%nat + row i 1%nat + row i 2%nat <> 0) ->
  (forall i, (nch <= i < 4)%nat -> row i 0%nat + row i 1%nat + row i 2%nat = 0) ->
  (forall k, (k < nch)%nat -> nth k pix 0 * nth k wb 0 = g) -> 0 <= g <= 1 ->
  map_pixel nch (pseudo_inverse qops 4 (cam_matrix qops srgb x2c)) wb pix = [g; g; g].
Proof.
  intros HI HN row HR HZ HP HG.
  apply (pixel_roundtrip nch (cam_matrix qops srgb x2c) wb pix (fun _ => g)); auto.
  - intros k Hk. rewrite (cam_row srgb x2c k ltac:(lia) g). cbv zeta. fold (row k).
    destruct (Qc_eq_dec _ 0) as [E|E]; [reflexivity|]. exfalso. apply E. exact (HZ k Hk).
  - intros k Hk. rewrite (cam_row srgb x2c k ltac:(lia) g). cbv zeta.
    destruct (Qc_eq_dec _ 0) as [E|E]; [|now apply HP]. exfalso. apply (HR k Hk). exact E.
Qed.
End Pixel.

(** ** Bradford adaption *)

Lemma row1_nth m v i : (i < 3)%nat ->
  nth i (multiply_row1 qops m v) q0 = qm m i 0 * nth 0 v q0 + qm m i 1 * nth 1 v q0 + qm m i 2 * nth 2 v q0.
Proof. intros H. unfold multiply_row1. now rewrite nth_map_seq' by auto. Qed.

(** the source white becomes bradi * brad * destination white *)
Lemma adaption_white tri brad bradi src dst : has_white src = true -> has_white dst = true ->
  (forall i, (i < 3)%nat -> nth i (multiply_row1 qops brad (tri src)) q0 <> 0) ->
  exists a, adaption_matrix qops tri brad bradi src dst = Ok a /\
    multiply_row1 qops a (tri src) = multiply_row1 qops bradi (multiply_row1 qops brad (tri dst)).
Proof.
  intros H1 H2 HN. unfold adaption_matrix. rewrite H1, H2. cbn [andb]. eexists. split; [reflexivity|].
  set (s := multiply_row1 qops brad (tri src)) in *. set (d := multiply_row1 qops brad (tri dst)).
  clearbody d. unfold multiply_row1 at 1 2. apply map_ext_in. intros i Hi. apply in_seq in Hi.
  pose proof (HN 0%nat ltac:(lia)) as N0. pose proof (HN 1%nat ltac:(lia)) as N1. pose proof (HN 2%nat ltac:(lia)) as N2.
  unfold s in N0, N1, N2. rewrite row1_nth in N0, N1, N2 by lia.
  unfold multiply. rewrite !mij_mat by lia. rewrite !fsum3. rewrite !mij_mat by lia. rewrite !fsum3. rewrite !mij_mat by lia.
  cbn [Nat.eqb f_add f_mul f_div qops]. unfold s. rewrite !row1_nth by lia.
  rewrite !q_nat0 in *. field. auto.
Qed.

Lemma bradford_white src dst : has_white src = true -> has_white dst = true ->
  exists a, adaption_matrix qops white bradford bradford_inv src dst = Ok a /\
    forall i, (i < 3)%nat -> close (dec7 10) (nth i (multiply_row1 qops a (white src)) q0) (nth i (white dst) q0).
Proof.
  intros H1 H2. destruct (adaption_white white bradford bradford_inv src dst H1 H2) as (a & E & R).
  - intros i Hi. destruct src; try discriminate H1; destruct i as [|[|[|]]]; try lia; vm_compute; discriminate.
  - exists a. split; [exact E|]. rewrite R. clear. intros i Hi.
    destruct dst; destruct i as [|[|[|]]]; try lia; split; vm_compute; discriminate.
Qed.

(** an adapted matrix should give the same response to the new white *)
Lemma bradford_direction : ~ (forall src m a, has_white src = true ->
  adapt_bradford qops white bradford bradford_inv src D65 m = Ok a ->
  forall i, (i < 3)%nat -> close (dec5 1000) (nth i (multiply_row1 qops a (white D65)) q0) (nth i (multiply_row1 qops m (white src)) q0)).
Proof.
  intros H. specialize (H IllA [[1; 0; 0]; [0; 1; 0]; [0; 0; 1]] _ eq_refl eq_refl 2%nat ltac:(lia)).
  destruct H as [_ H]. vm_compute in H. now apply H.
Qed.

Lemma pixel_neutral_px fsqrt nch srgb x2c wb pix g : independent qops 4 (cam_matrix qops srgb x2c) -> nch = 3%nat \/ nch = 4%nat ->
  (forall i, (i < nch)%nat -> primary x2c srgb i 0 + primary x2c srgb i 1 + primary x2c srgb i 2 <> 0) ->
  (forall i, (nch <= i < 4)%nat -> primary x2c srgb i 0 + primary x2c srgb i 1 + primary x2c srgb i 2 = 0) ->
  (forall k, (k < nch)%nat -> nth k pix 0 * nth k wb 0 = g) -> 0 <= g <= 1 ->
  map_pixel qops fsqrt qmax nch (pseudo_inverse qops 4 (cam_matrix qops srgb x2c)) wb pix = [g; g; g].
Proof.
  intros HI HN H1 H2 HP HG. unfold primary in *.
  assert (Q : forall m i j, qm m i j = nth j (nth i m []) 0) by (intros; unfold mij; now rewrite q_nat0).
  apply (pixel_neutral1 fsqrt nch srgb x2c wb pix g HI HN); auto; intros i Hi; rewrite !Q; auto.
Qed.

Lemma pixel_neutral' fsqrt nch srgb x2c wb pix g : independent qops 4 (cam_matrix qops srgb x2c) -> nch = 3%nat \/ nch = 4%nat ->
  (forall i, (i < nch)%nat -> primary x2c srgb i 0 + primary x2c srgb i 1 + primary x2c srgb i 2 <> 0) ->
  (forall i, (nch <= i < 4)%nat -> primary x2c srgb i 0 + primary x2c srgb i 1 + primary x2c srgb i 2 = 0) ->
  (forall k, (k < nch)%nat -> nth k pix 0 * nth k wb 0 = g) -> 0 <= g <= 1 ->
  map_to_rgb qops fsqrt qmax srgb nch wb x2c [pix] = [[g; g; g]].
Proof. intros. unfold map_to_rgb. cbn [map]. f_equal. now apply pixel_neutral_px. Qed.

Lemma map_to_rgb_pointwise F (o : fops F) fsqrt fmax srgb nch wb x2c src :
  map_to_rgb o fsqrt fmax srgb nch wb x2c src = concat (map (fun p => map_to_rgb o fsqrt fmax srgb nch wb x2c [p]) src).
Proof. unfold map_to_rgb. induction src as [|p src IH]; [reflexivity|]. cbn [map concat app]. f_equal. exact IH. Qed.
