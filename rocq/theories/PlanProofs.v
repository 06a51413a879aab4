(** Proofs about batch planning and directory scans. *)
From Coq Require Import Ascii String List ZArith Bool Lia FinFun.
From Verif Require Import Base BaseLemmas Ftp FtpProofs FtpClient Plan PlanSpec.
Import ListNotations.
Open Scope Z_scope.

(** ** paths *)
Lemma name_eqb_eq a b : name_eqb a b = true <-> a = b.
Proof. unfold name_eqb, bytes_eqb. destruct (list_eq_dec Z.eq_dec a b); split; congruence. Qed.
Lemma comp_eqb_eq a b : comp_eqb a b = true <-> a = b.
Proof.
  destruct a as [| |a], b as [| |b]; cbn; try (split; congruence). rewrite name_eqb_eq. split; congruence.
Qed.
Lemma comps_eqb_eq a : forall b, comps_eqb a b = true <-> a = b.
Proof.
  induction a as [|x a IH]; intros [|y b]; cbn; try (split; congruence).
  rewrite andb_true_iff, comp_eqb_eq, IH. split; [intros [-> ->]; reflexivity|intros E; injection E; auto].
Qed.
Lemma pth_eqb_eq p q : pth_eqb p q = true <-> p = q.
Proof.
  destruct p as [r c], q as [r' c']. unfold pth_eqb; cbn. rewrite andb_true_iff, eqb_true_iff, comps_eqb_eq.
  split; [intros [-> ->]; reflexivity|intros E; injection E; auto].
Qed.
Lemma claimed_in p l : existsb (pth_eqb p) l = true <-> In p l.
Proof.
  rewrite existsb_exists. split; [intros (q & I & E); apply pth_eqb_eq in E; now subst|intros I; exists p; split; [exact I|now apply pth_eqb_eq]].
Qed.
Lemma pth_dec (p q : pth) : {p = q} + {p <> q}.
Proof. destruct (pth_eqb p q) eqn:E; [left; now apply pth_eqb_eq|right; intros H; apply pth_eqb_eq in H; congruence]. Qed.

Lemma file_name_inv p n : pfile_name p = Some n -> exists d, comps p = d ++ [Normal n].
Proof.
  unfold pfile_name. destruct (rev (comps p)) as [|[| |m] r] eqn:E; try discriminate. intros [= ->].
  exists (rev r). rewrite <- (rev_involutive (comps p)), E. reflexivity.
Qed.
Lemma file_name_app b d n : pfile_name (mkP b (d ++ [Normal n])) = Some n.
Proof. unfold pfile_name; cbn. now rewrite rev_app_distr. Qed.
Lemma pth_eta p : p = mkP (rooted p) (comps p). Proof. now destruct p. Qed.
Lemma with_name_one b d m n : with_name (mkP b (d ++ [Normal m])) (one n) = mkP b (d ++ [Normal n]).
Proof. unfold with_name. rewrite file_name_app. unfold ppop, pjoin, one; cbn. now rewrite removelast_last. Qed.

(** ** stems *)
Lemma last_dot_none n : last_dot n = None <-> ~ In 46 n.
Proof.
  induction n as [|b n IH]; cbn; [tauto|]. destruct (last_dot n) as [[x y]|].
  - split; [discriminate|]. intros H. destruct IH as [_ IH]. assert (F : Some (x, y) = None) by (apply IH; tauto). discriminate.
  - destruct IH as [IH _]. specialize (IH eq_refl). destruct (b =? 46) eqn:E.
    + apply Z.eqb_eq in E. split; [discriminate|intros H; tauto].
    + apply Z.eqb_neq in E. split; [intros _ [H|H]; congruence|reflexivity].
Qed.
Lemma last_dot_some n : forall x y, last_dot n = Some (x, y) -> n = x ++ [46] ++ y /\ ~ In 46 y.
Proof.
  induction n as [|b n IH]; cbn; intros x y; [discriminate|]. destruct (last_dot n) as [[x' y']|] eqn:E.
  - intros [= <- <-]. destruct (IH _ _ eq_refl) as [-> H]. auto.
  - destruct (b =? 46) eqn:F; [|discriminate]. intros [= <- <-]. apply Z.eqb_eq in F. subst.
    split; [reflexivity|now apply last_dot_none].
Qed.
Lemma last_dot_app x y : ~ In 46 y -> last_dot (x ++ [46] ++ y) = Some (x, y).
Proof.
  intros H. induction x as [|b x IH]; cbn [app last_dot].
  - apply last_dot_none in H. rewrite H. reflexivity.
  - cbn [app] in IH. rewrite IH. reflexivity.
Qed.
Lemma stem_of_is n : stem_is n (stem_of n).
Proof.
  unfold stem_of. destruct (last_dot n) as [[[|b x] y]|] eqn:E.
  - right. split; [reflexivity|]. intros a e -> H. rewrite (last_dot_app a e H) in E. congruence.
  - left. destruct (last_dot_some _ _ _ E) as [-> H]. exists y. split; [reflexivity|split; [discriminate|exact H]].
  - right. split; [reflexivity|]. intros a e -> H. rewrite (last_dot_app a e H) in E. discriminate.
Qed.
Lemma stem_set s e : s <> [] -> ~ In 46 e -> stem_of (s ++ 46 :: e) = s.
Proof. intros H E. unfold stem_of. change (46 :: e) with ([46] ++ e). rewrite last_dot_app by exact E. destruct s; congruence. Qed.
Lemma stem_nonempty n : n <> [] -> stem_of n <> [].
Proof. unfold stem_of. destruct (last_dot n) as [[[|b x] y]|]; congruence. Qed.

(** ** decimal text *)
Lemma value_app_digit s d : value (s ++ [48 + d]) = value s * 10 + d.
Proof. unfold value. rewrite fold_left_app. cbn [fold_left]. lia. Qed.
Lemma value_zeros k s : value (repeat 48 k ++ s) = value s.
Proof.
  unfold value. rewrite fold_left_app. assert (E : fold_left (fun a b => a * 10 + (b - 48)) (repeat 48 k) 0 = 0) by (induction k; [reflexivity|exact IHk]).
  now rewrite E.
Qed.
Lemma dec_spec fuel : forall n, 0 <= n < Z.of_nat fuel -> Forall (fun b => 48 <= b <= 57) (dec fuel n) /\ dec fuel n <> [] /\ value (dec fuel n) = n.
Proof.
  induction fuel as [|k IH]; intros n H; [lia|]. cbn [dec]. destruct (n <? 10) eqn:E.
  - apply Z.ltb_lt in E. split; [constructor; [lia|constructor]|split; [discriminate|unfold value; cbn [fold_left]; lia]].
  - apply Z.ltb_ge in E. assert (D : 0 <= n / 10 < Z.of_nat k).
    { split; [apply Z.div_pos; lia|]. apply Z.div_lt_upper_bound; lia. }
    destruct (IH _ D) as (A & B & C). pose proof (Z.mod_pos_bound n 10 ltac:(lia)). split.
    + apply Forall_app. split; [exact A|constructor; [lia|constructor]].
    + split; [intros X; apply app_eq_nil in X as [_ X]; discriminate|].
      rewrite value_app_digit, C. pose proof (Z.div_mod n 10 ltac:(lia)). lia.
Qed.
Lemma show_decimal n : decimal n (show n).
Proof. apply dec_spec. lia. Qed.
Lemma show4_decimal n : decimal n (show4 n).
Proof.
  destruct (show_decimal n) as (A & B & C). unfold show4. split; [|split].
  - apply Forall_app. split; [|exact A]. apply Forall_forall. intros x H. apply repeat_spec in H. lia.
  - intros X. apply app_eq_nil in X as [_ X]. contradiction.
  - now rewrite value_zeros.
Qed.
Lemma decimal_inj n m s : decimal n s -> decimal m s -> n = m.
Proof. intros (_ & _ & A) (_ & _ & B). lia. Qed.
Lemma decimal_no n s : decimal n s -> ~ In 95 s.
Proof. intros (A & _) I. rewrite Forall_forall in A. specialize (A _ I). cbn in A. lia. Qed.

(** ** frame names *)
Lemma split_us a b c d : ~ In 95 a -> ~ In 95 c -> a ++ [95] ++ b = c ++ [95] ++ d -> a = c /\ b = d.
Proof.
  revert c. induction a as [|x a IH]; intros [|y c] A C E; cbn in E.
  - injection E as <-. auto.
  - injection E as <- _. exfalso. apply C. now left.
  - injection E as -> _. exfalso. apply A. now left.
  - injection E as <- E. destruct (IH c) as [-> ->]; [intros I; apply A; now right|intros I; apply C; now right|exact E|auto].
Qed.
Lemma frame_stem_inj multi stem k i k' i' : frame_stem multi stem k i = frame_stem multi stem k' i' -> k = k' /\ (multi = true -> i = i').
Proof.
  unfold frame_stem. pose proof (show_decimal k) as Dk. pose proof (show_decimal k') as Dk'.
  pose proof (show4_decimal i) as Di. pose proof (show4_decimal i') as Di'.
  destruct multi.
  - destruct k as [|k], k' as [|k']; intros E; apply app_inv_head in E.
    + injection E as E. split; [reflexivity|]. intros _. rewrite E in Di. eapply decimal_inj; eauto.
    + exfalso. injection E as E. apply (decimal_no _ _ Di). rewrite E. apply in_or_app. right. now left.
    + exfalso. injection E as E. apply (decimal_no _ _ Di'). rewrite <- E. apply in_or_app. right. now left.
    + injection E as E. apply (split_us _ _ _ _) in E as [E1 E2]; [|now apply decimal_no with (S k)|now apply decimal_no with (S k')].
      split; [rewrite E1 in Dk; eapply decimal_inj; eauto|]. intros _. rewrite E2 in Di. eapply decimal_inj; eauto.
  - destruct k as [|k], k' as [|k']; intros E; (split; [|discriminate]).
    + reflexivity.
    + exfalso. rewrite <- (app_nil_r stem) in E at 1. apply app_inv_head in E. discriminate.
    + exfalso. rewrite <- (app_nil_r stem) in E at 2. apply app_inv_head in E. discriminate.
    + apply app_inv_head in E. injection E as E. rewrite E in Dk. eapply decimal_inj; eauto.
Qed.

Section Cands.
Variable b : bool.
Variable d : list comp.
Variable m : name.
Variable multi : bool.
Variable stem : bytes.
Variable count : nat.
Hypothesis H1 : multi = false -> (count <= 1)%nat.
Let out := mkP b (d ++ [Normal m]).

Lemma resolve_frame_eq k i : resolve_frame out multi stem k i = mkP b (d ++ [Normal (frame_stem multi stem k i ++ str ".dng")]).
Proof. apply with_name_one. Qed.
Lemma resolve_frame_inj k i k' i' : resolve_frame out multi stem k i = resolve_frame out multi stem k' i' -> k = k' /\ (multi = true -> i = i').
Proof.
  rewrite !resolve_frame_eq. intros E. injection E as E. apply app_inv_head in E. injection E as E. apply app_inv_tail in E.
  now apply frame_stem_inj in E.
Qed.
Lemma candidates_nodup k : NoDup (candidates out multi stem count k).
Proof.
  unfold candidates. destruct multi eqn:M.
  - apply FinFun.Injective_map_NoDup; [|apply seq_NoDup]. intros x y E.
    pose proof (resolve_frame_inj k x k y) as I. rewrite M in I. destruct (I E) as [_ I']. now apply I'.
  - specialize (H1 eq_refl). destruct count as [|[|c]]; cbn; [constructor|constructor; [intros []|constructor]|lia].
Qed.

(** every claimed path blocks at most one suffix *)
Definition blocked claimed k := exists p, In p (candidates out multi stem count k) /\ In p claimed.
Lemma free_test claimed k : existsb (fun p => existsb (pth_eqb p) claimed) (candidates out multi stem count k) = true <-> blocked claimed k.
Proof.
  rewrite existsb_exists. split; intros (p & I & E); exists p; (split; [exact I|]); now apply claimed_in.
Qed.
Lemma find_free_some claimed fuel : forall k outs, find_free fuel claimed (candidates out multi stem count) k = Some outs ->
  exists k', (k <= k')%nat /\ outs = candidates out multi stem count k' /\ ~ blocked claimed k' /\ forall j, (k <= j < k')%nat -> blocked claimed j.
Proof.
  induction fuel as [|fuel IH]; cbn; intros k outs E; [discriminate|].
  destruct (existsb _ (candidates out multi stem count k)) eqn:B.
  - destruct (IH _ _ E) as (k' & A1 & A2 & A3 & A4). exists k'. split; [lia|split; [exact A2|split; [exact A3|]]].
    intros j Hj. destruct (Nat.eq_dec j k) as [->|N]; [now apply free_test|apply A4; lia].
  - injection E as <-. exists k. split; [lia|split; [reflexivity|split; [|lia]]]. intros X. apply free_test in X. congruence.
Qed.
Lemma find_free_none claimed fuel : forall k, find_free fuel claimed (candidates out multi stem count) k = None -> forall j, (k <= j < k + fuel)%nat -> blocked claimed j.
Proof.
  induction fuel as [|fuel IH]; cbn; intros k E j Hj; [lia|].
  destruct (existsb _ (candidates out multi stem count k)) eqn:B; [|discriminate].
  destruct (Nat.eq_dec j k) as [->|N]; [now apply free_test|apply (IH _ E); lia].
Qed.
(** pigeonhole *)
Lemma blocked_bound n : forall claimed, (forall j, (j < n)%nat -> blocked claimed j) -> (n <= length claimed)%nat.
Proof.
  intros claimed H.
  assert (P : exists ps, length ps = n /\ NoDup ps /\ incl ps claimed /\ forall p, In p ps -> exists j i, (j < n)%nat /\ p = resolve_frame out multi stem j i).
  { induction n as [|n IH].
    - exists []. repeat split; [constructor|intros x []|intros p []].
    - destruct IH as (ps & L & ND & I & S0); [intros j Hj; apply H; lia|].
      destruct (H n ltac:(lia)) as (p & Ip & Ic). unfold candidates in Ip. apply in_map_iff in Ip as (i & E & _).
      exists (p :: ps). split; [cbn; lia|]. split; [|split].
      + constructor; [|exact ND]. intros X. destruct (S0 p X) as (j & i' & Hj & E'). rewrite <- E in E'.
        apply resolve_frame_inj in E' as [E' _]. lia.
      + intros x [<-|X]; [exact Ic|now apply I].
      + intros q [<-|X]; [exists n, i; split; [lia|congruence]|]. destruct (S0 q X) as (j & i' & Hj & E'). exists j, i'. split; [lia|exact E']. }
  destruct P as (ps & L & ND & I & _). rewrite <- L. now apply NoDup_incl_length.
Qed.
Lemma find_free_total claimed : exists outs, find_free (S (length claimed)) claimed (candidates out multi stem count) 0 = Some outs.
Proof.
  destruct (find_free _ _ _ _) as [outs|] eqn:E; [now exists outs|]. exfalso.
  pose proof (find_free_none _ _ _ E) as B. assert (L : (S (length claimed) <= length claimed)%nat); [|lia].
  apply blocked_bound. intros j Hj. apply B. lia.
Qed.
End Cands.

(** ** one entry *)
Definition multi_of (sel : selection) (count : nat) : bool := match sel with All => (1 <? count)%nat | Index _ => false end.
Definition count_of (sel : selection) (pr : probe) : option nat := match sel with All => images pr | Index _ => Some 1%nat end.

Lemma output_base_spec e pr p : output_base e pr = Ok p <-> base_of e pr p.
Proof.
  unfold output_base, base_of. destruct (dest_dir pr).
  - destruct (pfile_name (src e)) as [n|].
    + split; [intros [= <-]; exists n; split; [reflexivity|]; unfold pjoin, one; cbn; reflexivity|].
      intros (n' & [= <-] & ->). reflexivity.
    + split; [discriminate|intros (n & F & _); discriminate].
  - split; [intros [= <-]; reflexivity|intros ->; reflexivity].
Qed.
Lemma name_not_dots : ~ In 46 (str "dng").
Proof. cbn. intros [H|[H|[H|[]]]]; discriminate. Qed.

(** after the extension is set the path still has the same directory and stem *)
Lemma set_dng_spec base b d n out : base = mkP b (d ++ [Normal n]) -> n <> [] ->
  (if match pfile_name base with Some n => match ext_of n with Some x => is_dng x | None => false end | None => false end then Ok base
   else match set_ext base (str "dng") with Some o => Ok o | None => Err end) = Ok out ->
  exists m, out = mkP b (d ++ [Normal m]) /\ stem_of m = stem_of n.
Proof.
  intros -> N. rewrite file_name_app. destruct (match ext_of n with Some x => is_dng x | None => false end).
  - intros [= <-]. now exists n.
  - unfold set_ext. rewrite file_name_app. cbn [rooted comps]. rewrite removelast_last. intros [= <-].
    exists (stem_of n ++ 46 :: str "dng"). split; [reflexivity|]. apply stem_set; [now apply stem_nonempty|apply name_not_dots].
Qed.

Lemma combine_fst {A} (l : list A) : forall a, map fst (combine (seq a (length l)) l) = seq a (length l).
Proof. induction l as [|x l IH]; intros a; cbn; [reflexivity|]. now rewrite IH. Qed.
Lemma combine_snd {A} (l : list A) : forall a, map snd (combine (seq a (length l)) l) = l.
Proof. induction l as [|x l IH]; intros a; cbn; [reflexivity|]. now rewrite IH. Qed.

Section One.
Variable lossy : name -> name.
Variable sel : selection.

(** names are not empty: components of a path never are *)
Definition named (e : file_map) (pr : probe) : Prop := forall p n, base_of e pr p -> pfile_name p = Some n -> n <> [].

Lemma convert_jobs_spec e pr claimed js claimed' : named e pr -> convert_jobs lossy sel e pr claimed = Ok (js, claimed') ->
  exists b d n count k outs,
    base_of e pr (mkP b (d ++ [Normal n])) /\ count_of sel pr = Some (S count) /\
    outs = map (fun i => mkP b (d ++ [Normal (frame_stem (multi_of sel (S count)) (lossy (stem_of n)) k i ++ str ".dng")])) (seq 0 (S count)) /\
    map j_output js = outs /\ map (fun j => (j_input j, j_index j)) js = wanted sel (e, pr) /\ claimed' = outs ++ claimed /\
    NoDup outs /\ (forall p, In p outs -> ~ In p claimed) /\
    forall j, (j < k)%nat -> exists i, (i < S count)%nat /\ In (mkP b (d ++ [Normal (frame_stem (multi_of sel (S count)) (lossy (stem_of n)) j i ++ str ".dng")])) claimed.
Proof.
  intros NM. unfold convert_jobs. fold (count_of sel pr). change (batch_count sel pr) with (count_of sel pr).
  destruct (count_of sel pr) as [count|] eqn:EC; [|discriminate]. fold (multi_of sel count).
  destruct (output_base e pr) as [base| |] eqn:EB; try discriminate. cbn [bind]. apply output_base_spec in EB.
  match goal with |- bind ?r _ = _ -> _ => destruct r as [out| |] eqn:EO end; try discriminate. cbn [bind].
  assert (NB : exists n, pfile_name base = Some n).
  { destruct (pfile_name base) as [n|] eqn:EN; [now exists n|]. unfold set_ext in EO. rewrite EN in EO. discriminate. }
  destruct NB as [n EN]. pose proof (NM base n EB EN) as NE. destruct (file_name_inv _ _ EN) as [d ED].
  destruct (set_dng_spec base (rooted base) d n out) as (m & -> & ST); [rewrite <- ED; apply pth_eta|exact NE|exact EO|].
  rewrite file_name_app, ST. set (b := rooted base) in *. set (stem := lossy (stem_of n)) in *.
  assert (H1 : multi_of sel count = false -> (count <= 1)%nat).
  { unfold multi_of, count_of in *. destruct sel; [intros H; apply Nat.ltb_ge in H; exact H|]. injection EC as <-. lia. }
  destruct (find_free _ _ _ 0) as [outs|] eqn:FF; [|discriminate].
  destruct (find_free_some _ _ _ _ _ _ H1 _ _ _ _ FF) as (k & _ & EO2 & NB & BL).
  destruct (get outs 0) as [f0| |] eqn:G; try discriminate. cbn [bind].
  destruct (mkdir_ok pr); [|discriminate]. cbn [check bind]. intros [= <- <-].
  apply get_inv with (d := mkP false []) in G as [G _].
  assert (LO : length outs = count) by (rewrite EO2; unfold candidates; now rewrite map_length, seq_length).
  destruct count as [|count]; [lia|].
  assert (OE : outs = map (fun i => mkP b (d ++ [Normal (frame_stem (multi_of sel (S count)) stem k i ++ str ".dng")])) (seq 0 (S count))).
  { rewrite EO2. unfold candidates. apply map_ext. intros i. apply resolve_frame_eq. }
  exists b, d, n, count, k, outs. split; [rewrite <- ED; unfold b; now rewrite <- pth_eta|]. split; [reflexivity|]. split; [exact OE|].
  split; [|split; [|split; [reflexivity|split; [|split]]]].
  - rewrite map_map. cbn. rewrite <- (combine_snd outs 0) at 3. apply map_ext. reflexivity.
  - rewrite map_map. cbn [j_input j_index]. unfold wanted. cbn [fst snd]. rewrite LO.
    assert (E : map (fun x : nat * pth => (src e, frame_index sel (fst x))) (combine (seq 0 (S count)) outs) = map (fun i => (src e, frame_index sel i)) (seq 0 (S count))).
    { rewrite <- LO. rewrite <- (combine_fst outs 0) at 2. now rewrite map_map. }
    rewrite E. unfold count_of in EC. destruct sel as [|k0]; [now rewrite EC|]. injection EC as <-. reflexivity.
  - rewrite EO2. apply candidates_nodup. exact H1.
  - intros p I1 I2. apply NB. exists p. split; [now rewrite <- EO2|exact I2].
  - intros j Hj. destruct (BL j ltac:(lia)) as (p & I1 & I2). unfold candidates in I1. apply in_map_iff in I1 as (i & <- & Hi).
    apply in_seq in Hi. exists i. split; [lia|]. rewrite resolve_frame_eq in I2. exact I2.
Qed.

Lemma convert_jobs_total e pr claimed : named e pr -> plannable sel (e, pr) -> exists r, convert_jobs lossy sel e pr claimed = Ok r.
Proof.
  intros NM (C & MK & base & n & B & EN). cbn [fst snd] in *. unfold convert_jobs. change (batch_count sel pr) with (count_of sel pr).
  assert (EC : exists c, count_of sel pr = Some (S c)).
  { unfold count_of. destruct sel; [now apply C|now exists 0%nat]. }
  destruct EC as [c EC]. rewrite EC. apply output_base_spec in B as EB. rewrite EB. cbn [bind].
  match goal with |- exists r, bind ?x _ = _ => destruct x as [out| |] eqn:EO end.
  2,3: exfalso; unfold set_ext in EO; rewrite EN in EO; destruct (match ext_of n with Some x => is_dng x | None => false end); discriminate.
  cbn [bind]. destruct (file_name_inv _ _ EN) as [d ED].
  destruct (set_dng_spec base (rooted base) d n out) as (m & -> & ST); [rewrite <- ED; apply pth_eta|now apply (NM base n)|exact EO|].
  rewrite file_name_app, ST.
  assert (H1 : match sel with All => (1 <? S c)%nat | Index _ => false end = false -> (S c <= 1)%nat).
  { intros H. destruct sel; [apply Nat.ltb_ge in H; exact H|]. injection EC as <-. lia. }
  destruct (find_free_total (rooted base) d m _ (lossy (stem_of n)) (S c) H1 claimed) as [outs FF].
  rewrite FF. destruct (find_free_some _ _ _ _ _ _ H1 _ _ _ _ FF) as (k & _ & EO2 & _). rewrite EO2. unfold candidates.
  cbn [seq map get nth_error bind]. rewrite MK. cbn [check bind]. eexists. reflexivity.
Qed.

(** ** all entries *)
Lemma convert_plan_spec es : forall claimed js, Forall (fun ep => named (fst ep) (snd ep)) es -> convert_plan lossy sel es claimed = Ok js ->
  NoDup (map j_output js) /\ (forall p, In p (map j_output js) -> ~ In p claimed) /\
  map (fun j => (j_input j, j_index j)) js = flat_map (wanted sel) es.
Proof.
  induction es as [|[e pr] es IH]; intros claimed js N; cbn [convert_plan].
  - intros [= <-]. cbn. split; [constructor|split; [intros p []|reflexivity]].
  - inversion N as [|? ? N1 N2]; subst. cbn [fst snd] in N1.
    destruct (convert_jobs lossy sel e pr claimed) as [[js1 cl]| |] eqn:E1; try discriminate. cbn [bind].
    destruct (convert_plan lossy sel es cl) as [rest| |] eqn:E2; try discriminate. cbn [bind]. intros [= <-].
    destruct (convert_jobs_spec e pr claimed js1 cl N1 E1) as (b & d & n & c & k & outs & _ & _ & _ & O & W & -> & ND & DJ & _).
    destruct (IH _ _ N2 E2) as (A1 & A2 & A3). rewrite !map_app, O. split; [|split].
    + clear - ND A1 A2. induction outs as [|o outs IH]; cbn; [exact A1|]. inversion ND; subst. constructor.
      * intros I. apply in_app_or in I as [I|I]; [contradiction|]. apply (A2 o I). now left.
      * apply IH; [assumption|]. intros p I X. apply (A2 p I). now right.
    + intros p I X. apply in_app_or in I as [I|I]; [now apply (DJ p I)|]. apply (A2 p I). apply in_or_app. now right.
    + cbn [flat_map]. now rewrite W, A3.
Qed.
Lemma convert_plan_total es : forall claimed, Forall (fun ep => named (fst ep) (snd ep)) es -> Forall (plannable sel) es ->
  exists js, convert_plan lossy sel es claimed = Ok js.
Proof.
  induction es as [|[e pr] es IH]; intros claimed N P; cbn [convert_plan]; [now exists []|].
  inversion N; subst. inversion P; subst. destruct (convert_jobs_total e pr claimed) as [[js cl] E]; auto. rewrite E. cbn [bind].
  destruct (IH cl) as [rest R]; auto. rewrite R. cbn [bind]. eexists. reflexivity.
Qed.
End One.
