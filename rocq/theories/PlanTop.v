(** Main results about batch planning and directory scans. *)
From Coq Require Import Ascii String List ZArith Bool Lia FinFun.
From Verif Require Import Base BaseLemmas Ftp FtpProofs FtpClient Plan PlanSpec PlanProofs.
Import ListNotations.
Open Scope Z_scope.

Lemma real_named ep : real_entry ep -> named (fst ep) (snd ep).
Proof.
  intros [R1 R2] p n B E. apply file_name_inv in E as [d E]. unfold base_of in B. destruct (dest_dir (snd ep)).
  - destruct B as (m & F & ->). cbn [comps] in E. apply app_inj_tail in E as [_ [= ->]]. apply file_name_inv in F as [d' F].
    apply R1. rewrite F. apply in_or_app. right. now left.
  - subst p. apply R2. rewrite E. apply in_or_app. right. now left.
Qed.
Lemma all_named es : Forall real_entry es -> Forall (fun ep => named (fst ep) (snd ep)) es.
Proof. apply Forall_impl. exact real_named. Qed.

Lemma distinct lossy sel es js : Forall real_entry es -> convert_plan lossy sel es [] = Ok js -> NoDup (map j_output js).
Proof. intros R E. now destruct (convert_plan_spec lossy sel es [] js (all_named _ R) E). Qed.
Lemma complete lossy sel es js : Forall real_entry es -> convert_plan lossy sel es [] = Ok js ->
  map (fun j => (j_input j, j_index j)) js = flat_map (wanted sel) es.
Proof. intros R E. now destruct (convert_plan_spec lossy sel es [] js (all_named _ R) E) as (_ & _ & H). Qed.
Lemma total lossy sel es : Forall real_entry es -> Forall (plannable sel) es -> exists js, convert_plan lossy sel es [] = Ok js.
Proof. intros R P. apply convert_plan_total; [now apply all_named|exact P]. Qed.

Lemma show4_length n : (4 <= length (show4 n))%nat.
Proof. unfold show4. rewrite app_length, repeat_length. lia. Qed.
Lemma frame_tag multi stem k i : exists t, tag_text multi k i t /\ frame_stem multi stem k i = stem ++ t.
Proof.
  exists ((if (k =? 0)%nat then [] else [95] ++ show k) ++ (if multi then [95] ++ show4 i else [])). split.
  - exists (show k), (show4 i). split; [apply show_decimal|split; [apply show4_decimal|split; [apply show4_length|reflexivity]]].
  - unfold frame_stem. destruct multi, k; cbn [Nat.eqb app]; rewrite ?app_nil_r, ?app_assoc; reflexivity.
Qed.
Lemma plan_app lossy sel a : forall b cl js, convert_plan lossy sel (a ++ b) cl = Ok js ->
  exists ja jb cl', js = ja ++ jb /\ convert_plan lossy sel a cl = Ok ja /\ convert_plan lossy sel b cl' = Ok jb /\
    (Forall (fun ep => named (fst ep) (snd ep)) a -> forall p, In p cl' <-> In p (map j_output ja) \/ In p cl).
Proof.
  induction a as [|[e pr] a IH]; intros b cl js; cbn [app convert_plan].
  - intros E. exists [], js, cl. repeat split; auto. intros [[]|H0]; exact H0.
  - destruct (convert_jobs lossy sel e pr cl) as [[j1 cl1]| |] eqn:E1; try discriminate. cbn [bind].
    destruct (convert_plan lossy sel (a ++ b) cl1) as [r| |] eqn:E2; try discriminate. cbn [bind]. intros [= <-].
    destruct (IH _ _ _ E2) as (ja & jb & cl' & -> & A & B & C). exists (j1 ++ ja), jb, cl'. rewrite A. cbn [bind].
    split; [now rewrite app_assoc|split; [reflexivity|split; [exact B|]]].
    intros N. inversion N as [|? ? N1 N2]; subst. intros p. rewrite (C N2 p).
    destruct (convert_jobs_spec lossy sel e pr cl j1 cl1 N1 E1) as (? & ? & ? & ? & ? & outs & _ & _ & _ & O & _ & -> & _).
    rewrite map_app, O, !in_app_iff. tauto.
Qed.
Lemma names lossy sel before e pr after js : Forall real_entry (before ++ (e, pr) :: after) ->
  convert_plan lossy sel (before ++ (e, pr) :: after) [] = Ok js ->
  exists j1 j2 j3 b d n s k, js = j1 ++ j2 ++ j3 /\ convert_plan lossy sel before [] = Ok j1 /\
    base_of e pr (in_dir b d n) /\ stem_is n s /\
    let multi := (1 <? length j2)%nat in
    (forall i j, nth_error j2 i = Some j -> exists t, tag_text multi k i t /\ j_output j = in_dir b d (lossy s ++ t ++ str ".dng")) /\
    (forall k', (k' < k)%nat -> exists i t, (i < length j2)%nat /\ tag_text multi k' i t /\ In (in_dir b d (lossy s ++ t ++ str ".dng")) (map j_output j1)).
Proof.
  intros R E. destruct (plan_app _ _ _ _ _ _ E) as (j1 & jb & cl & -> & A & B & C).
  apply all_named in R. apply Forall_app in R as [R1 R2]. inversion R2 as [|? ? R3 R4]; subst. cbn [fst snd] in R3.
  cbn [convert_plan] in B. destruct (convert_jobs lossy sel e pr cl) as [[j2 cl2]| |] eqn:E2; try discriminate. cbn [bind] in B.
  destruct (convert_plan lossy sel after cl2) as [j3| |]; try discriminate. cbn [bind] in B. injection B as <-.
  destruct (convert_jobs_spec _ _ _ _ _ _ _ R3 E2) as (b & d & n & c & k & outs & BO & CO & OE & O & W & _ & _ & _ & LOW).
  exists j1, j2, j3, b, d, n, (stem_of n), k. split; [reflexivity|split; [exact A|split; [exact BO|split; [apply stem_of_is|]]]].
  assert (LJ : length j2 = S c) by (rewrite <- (map_length j_output), O, OE, map_length, seq_length; reflexivity).
  assert (M : multi_of sel (S c) = (1 <? S c)%nat).
  { unfold multi_of, count_of in *. destruct sel; [reflexivity|]. injection CO as <-. reflexivity. }
  cbn zeta. rewrite LJ, M in *. split.
  - intros i j Hj. assert (Hi : (i < S c)%nat) by (rewrite <- LJ; apply nth_error_Some; congruence).
    assert (Ho : nth_error (map j_output j2) i = Some (j_output j)) by (apply map_nth_error; exact Hj).
    rewrite O, OE in Ho. rewrite (map_nth_error _ i (seq 0 (S c)) (d := i)) in Ho.
    + injection Ho as <-. destruct (frame_tag (1 <? S c)%nat (lossy (stem_of n)) k i) as (t & T & ->). exists t. split; [exact T|].
      unfold in_dir. now rewrite <- app_assoc.
    + rewrite (nth_error_nth' _ 0%nat) by (rewrite seq_length; exact Hi). now rewrite seq_nth.
  - intros k' Hk. destruct (LOW k' Hk) as (i & Hi & I). destruct (frame_tag (1 <? S c)%nat (lossy (stem_of n)) k' i) as (t & T & F).
    rewrite F in I. apply (C R1) in I as [I|[]]. exists i, t. split; [exact Hi|split; [exact T|]]. unfold in_dir. now rewrite app_assoc.
Qed.

(** ** scans *)
Section ScanProofs.
Variable filter : place -> bool.
Variable recursive : bool.
Notation scan := (scan filter recursive).
Notation scan_dir := (scan_dir filter recursive).

Lemma scan_TDir at_ l : scan at_ (TDir l) = if recursive then scan_dir at_ l else Ok [].
Proof.
  cbn [Plan.scan]. destruct recursive; [|reflexivity]. induction l as [|[n t] l IH]; [reflexivity|]. cbn [Plan.scan_dir]. rewrite IH. reflexivity.
Qed.

(** what is below [t]: itself at the empty path, or below its entries *)
Definition below (t : tree) (rel : place) (u : tree) : Prop :=
  (rel = [] /\ u = t) \/ exists l, t = TDir l /\ found l rel u.
Lemma found_split l rel u : found l rel u <-> exists n t rel', In (n, t) l /\ rel = n :: rel' /\ below t rel' u.
Proof.
  split.
  - intros F. destruct F as [l n t I|l n l' rel t I F]; [exists n, t, []; repeat split; auto; now left|].
    exists n, (TDir l'), rel. split; [exact I|split; [reflexivity|]]. right. now exists l'.
  - intros (n & t & rel' & I & -> & [[-> ->]|(l' & -> & F)]); [now apply found_here|now apply found_below with l'].
Qed.

Fixpoint tsize (t : tree) : nat := match t with TDir l => S ((fix go l := match l with [] => O | (_, t) :: l => tsize t + go l end) l) | _ => 1 end%nat.
Definition lsize (l : list (name * tree)) : nat := fold_right (fun x s => tsize (snd x) + s)%nat O l.
Lemma tsize_dir l : tsize (TDir l) = S (lsize l).
Proof. cbn. f_equal. induction l as [|[n t] l IH]; [reflexivity|]. cbn. now rewrite IH. Qed.
Lemma tsize_pos t : (1 <= tsize t)%nat. Proof. destruct t; cbn; lia. Qed.

(** results of a scan: accepted files, each once *)
Lemma scan_main : forall k, (forall t at_, (tsize t <= k)%nat -> forall ps, scan at_ t = Ok ps ->
   (forall p, In p ps <-> exists rel, p = at_ ++ rel /\ below t rel TFile /\ (recursive = true \/ rel = []) /\ filter p = true) /\
   (proper t -> NoDup ps) /\ ~ (exists rel, below t rel Broken /\ (recursive = true \/ rel = []))) /\
  (forall l at_, (lsize l <= k)%nat -> forall ps, scan_dir at_ l = Ok ps ->
   (forall p, In p ps <-> exists rel, p = at_ ++ rel /\ found l rel TFile /\ visited recursive rel /\ filter p = true) /\
   (NoDup (map fst l) -> (forall n t, In (n, t) l -> proper t) -> NoDup ps) /\ ~ (exists rel, found l rel Broken /\ visited recursive rel)).
Proof.
  induction k as [|k [IHt IHl]].
  - split; [intros t at_ H; pose proof (tsize_pos t); lia|]. intros l at_ H ps. destruct l as [|[n t] l].
    + cbn. intros [= <-]. split; [|split].
      * intros p; split; [intros []|intros (rel & _ & F & _); apply found_split in F as (? & ? & ? & [] & _)].
      * intros _ _. constructor.
      * intros (rel & F & _). apply found_split in F as (? & ? & ? & [] & _).
    + cbn in H. pose proof (tsize_pos t). lia.
  - assert (T : forall t at_, (tsize t <= S k)%nat -> forall ps, scan at_ t = Ok ps ->
      (forall p, In p ps <-> exists rel, p = at_ ++ rel /\ below t rel TFile /\ (recursive = true \/ rel = []) /\ filter p = true) /\
      (proper t -> NoDup ps) /\ ~ (exists rel, below t rel Broken /\ (recursive = true \/ rel = []))).
    { intros t at_ H ps. destruct t as [|l| |].
      - cbn. intros [= <-]. split; [|split].
        + intros p. split.
          * destruct (filter at_) eqn:F; [|intros []]. intros [<-|[]]. exists []. rewrite app_nil_r. repeat split; auto. now left.
          * intros (rel & -> & [[-> _]|(l & E & _)] & _ & F); [|discriminate]. rewrite app_nil_r in *. rewrite F. now left.
        + intros _. destruct (filter at_); [constructor; [intros []|constructor]|constructor].
        + intros (rel & [[_ E]|(l & E & _)] & _); discriminate.
      - rewrite scan_TDir. rewrite tsize_dir in H. destruct recursive eqn:R.
        + intros E. destruct (IHl l at_ ltac:(lia) ps E) as (A & B & C). split; [|split].
          * intros p. rewrite A. split; intros (rel & -> & F & V & G); exists rel; repeat split; auto.
            -- right. now exists l.
            -- destruct F as [[_ X]|(l' & [= <-] & F)]; [discriminate|exact F].
            -- now left.
          * intros P. inversion P; subst. now apply B.
          * intros (rel & [[_ X]|(l' & [= <-] & F)] & _); [discriminate|]. apply C. exists rel. split; [exact F|now left].
        + intros [= <-]. split; [|split].
          * intros p. split; [intros []|]. intros (rel & _ & [[_ X]|(l' & [= <-] & F)] & [V| ->] & _); try discriminate.
            apply found_split in F as (? & ? & ? & _ & X & _). discriminate.
          * intros _. constructor.
          * intros (rel & [[_ X]|(l' & [= <-] & F)] & [V| ->]); try discriminate. apply found_split in F as (? & ? & ? & _ & X & _). discriminate.
      - cbn. intros [= <-]. split; [|split].
        + intros p. split; [intros []|intros (rel & _ & [[_ X]|(l & X & _)] & _); discriminate].
        + intros _. constructor.
        + intros (rel & [[_ X]|(l & X & _)] & _); discriminate.
      - discriminate. }
    split; [exact T|]. intros l at_. induction l as [|[n t] l IHl2]; intros H ps.
    + cbn. intros [= <-]. split; [|split].
      * intros p; split; [intros []|intros (rel & _ & F & _); apply found_split in F as (? & ? & ? & [] & _)].
      * intros _ _. constructor.
      * intros (rel & F & _). apply found_split in F as (? & ? & ? & [] & _).
    + cbn [lsize fold_right snd] in H. fold (lsize l) in H. cbn [Plan.scan_dir].
      destruct (scan (at_ ++ [n]) t) as [a| |] eqn:E1; try discriminate. cbn [bind].
      destruct (scan_dir at_ l) as [b| |] eqn:E2; try discriminate. cbn [bind]. intros [= <-].
      destruct (T t (at_ ++ [n]) ltac:(lia) a E1) as (A1 & A2 & A3).
      destruct (IHl2 ltac:(lia) b eq_refl) as (B1 & B2 & B3).
      assert (VV : forall rel, (recursive = true \/ rel = []) <-> visited recursive (n :: rel)).
      { intros rel. unfold visited. cbn. split; intros [V|V]; auto; [subst; auto|]. right. destruct rel; [reflexivity|discriminate]. }
      split; [|split].
      * intros p. rewrite in_app_iff, A1, B1. split.
        -- intros [(rel & -> & F & V & G)|(rel & -> & F & V & G)].
           ++ exists (n :: rel). split; [now rewrite <- app_assoc|]. split; [|split; [now apply VV|exact G]].
              apply found_split. exists n, t, rel. split; [now left|auto].
           ++ exists rel. repeat split; auto. apply found_split in F as (m & u & r & I & X & Y). apply found_split. exists m, u, r. split; [now right|auto].
        -- intros (rel & -> & F & V & G). apply found_split in F as (m & u & r & [[= <- <-]|I] & -> & Y).
           ++ left. exists r. split; [now rewrite <- app_assoc|]. split; [exact Y|split; [now apply VV|exact G]].
           ++ right. exists (m :: r). repeat split; auto. apply found_split. exists m, u, r. auto.
      * intros ND P. cbn [map fst] in ND. inversion ND as [|? ? N1 N2]; subst. assert (NA : NoDup a) by (apply A2, (P n t); now left).
        assert (NB : NoDup b) by (apply B2; [exact N2|intros m u I; apply (P m u); now right]).
        assert (DJ : forall p, In p a -> ~ In p b).
        { intros p I1 I2. apply A1 in I1 as (r1 & -> & _). apply B1 in I2 as (r2 & E & F & _).
          apply found_split in F as (m & u & r & I & -> & _). rewrite <- app_assoc in E. apply app_inv_head in E. injection E as <- _.
          apply N1. apply in_map_iff. exists (n, u). auto. }
        clear - NA NB DJ. induction a as [|x a IH]; cbn; [exact NB|]. inversion NA; subst. constructor.
        -- intros I. apply in_app_or in I as [I|I]; [contradiction|]. apply (DJ x); [now left|exact I].
        -- apply IH; [assumption|]. intros p I. apply DJ. now right.
      * intros (rel & F & V). apply found_split in F as (m & u & r & [[= <- <-]|I] & -> & Y).
        -- apply A3. exists r. split; [exact Y|now apply VV].
        -- apply B3. exists (m :: r). split; [|exact V]. apply found_split. exists m, u, r. auto.
Qed.

(** a scan only fails at a node that cannot be inspected *)
Lemma scan_total : forall k, (forall t at_, (tsize t <= k)%nat -> ~ (exists rel, below t rel Broken /\ (recursive = true \/ rel = [])) -> exists ps, scan at_ t = Ok ps) /\
  (forall l at_, (lsize l <= k)%nat -> ~ (exists rel, found l rel Broken /\ visited recursive rel) -> exists ps, scan_dir at_ l = Ok ps).
Proof.
  induction k as [|k [IHt IHl]].
  - split; [intros t at_ H; pose proof (tsize_pos t); lia|]. intros [|[n t] l] at_ H _; [now exists []|]. cbn in H. pose proof (tsize_pos t). lia.
  - assert (T : forall t at_, (tsize t <= S k)%nat -> ~ (exists rel, below t rel Broken /\ (recursive = true \/ rel = [])) -> exists ps, scan at_ t = Ok ps).
    { intros t at_ H N. destruct t as [|l| |]; try (eexists; reflexivity).
      - rewrite scan_TDir. rewrite tsize_dir in H. destruct recursive eqn:R; [|eexists; reflexivity]. apply IHl; [lia|].
        intros (rel & F & _). apply N. exists rel. split; [right; now exists l|now left].
      - exfalso. apply N. exists []. split; [left; auto|now right]. }
    split; [exact T|]. intros l at_. induction l as [|[n t] l IHl2]; intros H N; [now exists []|].
    cbn [lsize fold_right snd] in H. fold (lsize l) in H. cbn [Plan.scan_dir].
    destruct (T t (at_ ++ [n])) as [a Ea]; [lia| |].
    + intros (rel & B & V). apply N. exists (n :: rel). split; [apply found_split; exists n, t, rel; split; [now left|auto]|].
      unfold visited. cbn. destruct V as [V| ->]; auto.
    + rewrite Ea. cbn [bind]. destruct IHl2 as [b Eb]; [lia| |rewrite Eb; cbn [bind]; eexists; reflexivity].
      intros (rel & F & V). apply N. exists rel. split; [|exact V]. apply found_split in F as (m & u & r & I & X & Y). apply found_split.
      exists m, u, r. split; [now right|auto].
Qed.
End ScanProofs.

Lemma strip_prefix_app a b : strip_prefix a (a ++ b) = Some b.
Proof. induction a as [|x a IH]; cbn; [reflexivity|]. assert (E : name_eqb x x = true) by now apply name_eqb_eq. now rewrite E. Qed.
Lemma mapping_eq from to rel : make_mapping from to (from ++ rel) = Ok (mkF (at_root (from ++ rel)) (at_root (to ++ rel))).
Proof.
  unfold make_mapping. rewrite strip_prefix_app. unfold pjoin, at_root; cbn [rooted comps]. rewrite (map_app Normal to rel).
  destruct rel; reflexivity.
Qed.
Lemma map_mapping from to rels : map_res (make_mapping from to) (map (app from) rels) = Ok (map (fun rel => mkF (at_root (from ++ rel)) (at_root (to ++ rel))) rels).
Proof. induction rels as [|r rels IH]; cbn [map map_res]; [reflexivity|]. rewrite mapping_eq. cbn [bind]. rewrite IH. reflexivity. Qed.
Lemma all_prefixed (from : place) ps : (forall p, In p ps -> exists rel, p = from ++ rel) -> exists rels, ps = map (app from) rels.
Proof.
  induction ps as [|p ps IH]; intros H; [now exists []|]. destruct (H p) as [r ->]; [now left|]. destruct IH as [rs ->]; [intros q I; apply H; now right|].
  now exists (r :: rs).
Qed.
Lemma at_root_inj p q : at_root p = at_root q -> p = q.
Proof. unfold at_root. intros [= E]. revert q E. induction p as [|x p IH]; intros [|y q] E; try discriminate; [reflexivity|]. cbn in E. injection E as -> E. now rewrite (IH q E). Qed.

Lemma scan_lists filter recursive from to l ms : file_list filter recursive from to l = Ok ms ->
  (forall m, In m ms <-> exists rel, found l rel TFile /\ visited recursive rel /\ filter (from ++ rel) = true /\
     m = mkF (at_root (from ++ rel)) (at_root (to ++ rel))) /\
  (proper (TDir l) -> NoDup (map src ms) /\ NoDup (map dest ms)) /\
  ~ (exists rel, found l rel Broken /\ visited recursive rel).
Proof.
  unfold file_list. destruct (scan_dir filter recursive from l) as [ps| |] eqn:E; try discriminate. cbn [bind]. intros M.
  destruct (proj2 (scan_main filter recursive (lsize l)) l from (le_n _) ps E) as (A & B & C).
  destruct (all_prefixed from ps) as [rels ->]; [intros p I; apply A in I as (rel & -> & _); now exists rel|].
  rewrite map_mapping in M. injection M as <-. split; [|split; [|exact C]].
  - intros m. rewrite in_map_iff. split.
    + intros (rel & <- & I). assert (J : In (from ++ rel) (map (app from) rels)) by (apply in_map; exact I).
      apply A in J as (r & EQ & F & V & G). apply app_inv_head in EQ. subst r. exists rel. auto.
    + intros (rel & F & V & G & ->). exists rel. split; [reflexivity|].
      assert (J : In (from ++ rel) (map (app from) rels)) by (apply A; exists rel; auto).
      apply in_map_iff in J as (r & EQ & I). apply app_inv_head in EQ. now subst.
  - intros P. inversion P as [| | |? N1 N2]; subst. specialize (B N1 N2). apply NoDup_map_inv in B. rewrite !map_map. cbn [src dest].
    split; (apply Injective_map_NoDup; [|exact B]); intros x y EQ; apply at_root_inj in EQ; now apply app_inv_head in EQ.
Qed.
Lemma scan_succeeds filter recursive from to l : ~ (exists rel, found l rel Broken /\ visited recursive rel) -> exists ms, file_list filter recursive from to l = Ok ms.
Proof.
  intros N. destruct (proj2 (scan_total filter recursive (lsize l)) l from (le_n _) N) as [ps E]. unfold file_list. rewrite E. cbn [bind].
  destruct (proj2 (scan_main filter recursive (lsize l)) l from (le_n _) ps E) as (A & _).
  destruct (all_prefixed from ps) as [rels ->]; [intros p I; apply A in I as (rel & -> & _); now exists rel|].
  rewrite map_mapping. eexists. reflexivity.
Qed.

(** ** process_raw *)
Lemma stem_unique n s : stem_is n s -> s = stem_of n.
Proof.
  unfold stem_of. intros [(e & -> & S & E)|[-> H]].
  - rewrite last_dot_app by exact E. destruct s; [contradiction|reflexivity].
  - destruct (last_dot s) as [[[|b x] y]|] eqn:L; try reflexivity. destruct (last_dot_some _ _ _ L) as [-> Y]. specialize (H _ _ eq_refl Y). discriminate.
Qed.
Lemma develop_one lossy k e pr js b d n : base_of e pr (in_dir b d n) -> develop_jobs lossy (Index k) e pr = Ok js ->
  map j_output js = [in_dir b d (stem_of n ++ str ".tif")] .
Proof.
  intros B. unfold develop_jobs. cbn [batch_count seq map_res]. apply output_base_spec in B. rewrite B. cbn [bind].
  unfold set_ext, in_dir. rewrite file_name_app. cbn [rooted comps]. rewrite removelast_last.
  destruct (pparent _); [|discriminate]. destruct (mkdir_ok pr); [|discriminate]. cbn [check bind]. intros [= <-]. reflexivity.
Qed.
Lemma develop_distinct lossy k es keys : forall js,
  Forall2 (fun ep key => exists b d n s, base_of (fst ep) (snd ep) (in_dir b d n) /\ stem_is n s /\ key = in_dir b d s) es keys ->
  NoDup keys -> develop_plan lossy (Index k) es = Ok js ->
  NoDup (map j_output js) /\ length js = length es.
Proof.
  intros js F N E.
  assert (X : map j_output js = map (fun p => mkP (rooted p) (removelast (comps p) ++ [Normal (match pfile_name p with Some n => n | None => [] end ++ str ".tif")])) keys).
  { revert js E N. induction F as [|[e pr] key es keys (b & d & n & s & B & S & ->) F IH]; intros js E N; cbn [develop_plan] in E.
    - injection E as <-. reflexivity.
    - destruct (develop_jobs lossy (Index k) e pr) as [j1| |] eqn:E1; try discriminate. cbn [bind] in E.
      destruct (develop_plan lossy (Index k) es) as [r| |] eqn:E2; try discriminate. cbn [bind] in E. injection E as <-.
      inversion N; subst. rewrite map_app, (IH _ eq_refl) by assumption. cbn [fst snd] in B. rewrite (develop_one _ _ _ _ _ _ _ _ B E1).
      apply stem_unique in S. subst s. cbn [map app]. unfold in_dir at 2 3 4. cbn [rooted comps]. rewrite removelast_last.
      fold (in_dir b d (stem_of n)). unfold in_dir at 2. rewrite file_name_app. reflexivity. }
  split.
  - rewrite X. assert (K : Forall (fun p => exists b d s, p = in_dir b d s) keys) by (clear - F; induction F as [|? ? ? ? (b & d & n & s & _ & _ & ->)]; constructor; eauto).
    clear - K N. induction keys as [|p keys IH]; cbn [map]; [constructor|]. inversion N; subst. inversion K as [|? ? (b & d & s & ->) K2]; subst.
    constructor; [|now apply IH]. intros I. apply in_map_iff in I as (q & EQ & I). rewrite Forall_forall in K2. destruct (K2 q I) as (b' & d' & s' & ->).
    unfold in_dir in EQ. rewrite !file_name_app in EQ. cbn [rooted comps] in EQ. rewrite !removelast_last in EQ. injection EQ as -> EQ.
    apply app_inj_tail in EQ as [-> EQ]. injection EQ as EQ. apply app_inv_tail in EQ. subst. contradiction.
  - assert (L : length (map j_output js) = length keys) by (rewrite X, map_length; reflexivity). rewrite map_length in L. rewrite L.
    clear - F. induction F; cbn; congruence.
Qed.

(** ** extract *)
Lemma extract_inside dest is_dir use_orig orig n : components orig = one n ->
  is_dir = true -> extract_output dest is_dir use_orig orig = mkP (rooted dest) (comps dest ++ [Normal n]).
Proof. intros E ->. unfold extract_output. rewrite E. reflexivity. Qed.
Lemma extract_sibling b d m orig n : components orig = one n ->
  extract_output (in_dir b d m) false true orig = in_dir b d n.
Proof. intros E. unfold extract_output. rewrite E. apply with_name_one. Qed.
Lemma extract_absolute : exists orig, forall dest use_orig, extract_output dest true use_orig orig = at_root [str "etc"; str "passwd"].
Proof. exists (str "/etc/passwd"). reflexivity. Qed.
Lemma extract_parent : exists orig, forall dest use_orig, extract_output dest true use_orig orig = mkP (rooted dest) (comps dest ++ [ParentDir; Normal (str "x")]).
Proof. exists (str "../x"). reflexivity. Qed.

(** ** counterexamples *)
Lemma develop_collision : exists es, Forall real_entry es /\ NoDup (map (fun ep => src (fst ep)) es) /\
  outs (develop_plan (fun n => n) (Index 0) es) = [p_ "/out/a.tif"; p_ "/out/a.tif"].
Proof.
  exists [entry "/in/a.cr2" "/out"; entry "/in/a.nef" "/out"]. split; [|split; [|reflexivity]].
  - repeat constructor; intros n; cbn; intuition; subst; discriminate.
  - repeat constructor; cbn; intuition discriminate.
Qed.
Lemma order_matters : exists a b, 
  outs (convert_plan (fun n => n) (Index 0) [a; b] []) = [p_ "/out/a.dng"; p_ "/out/a_1.dng"] /\
  outs (convert_plan (fun n => n) (Index 0) [b; a] []) = [p_ "/out/a.dng"; p_ "/out/a_1.dng"] /\ src (fst a) <> src (fst b).
Proof. exists (entry "/in/a.cr2" "/out"), (entry "/in/a.nef" "/out"). repeat split; try reflexivity. discriminate. Qed.
Lemma no_images : forall lossy, exists e,
  convert_plan lossy All [(e, mkProbe (Some 0%nat) true true)] [] = Panic.
Proof. intros lossy. exists (mkF (p_ "/in/a.cr3") (p_ "/out")). reflexivity. Qed.
Lemma dangling : forall filter recursive from to, exists l, found l [str "a.cr2"] TFile /\
  file_list filter recursive from to l = Err.
Proof.
  intros. exists [(str "a.cr2", TFile); (str "b", Broken)]. split; [apply found_here; now left|].
  unfold file_list. cbn [scan_dir scan bind]. destruct (filter (from ++ [str "a.cr2"])); reflexivity.
Qed.
