(** Rely/guarantee proofs about conversion jobs. *)
From Coq Require Import Ascii String List ZArith Bool Lia.
From Verif Require Import Base BaseLemmas Ftp FtpClient Plan PlanProofs Jobs JobsSpec.
Import ListNotations.
Open Scope Z_scope.

Lemma set_name_eq f p v : set_name f p v p = v.
Proof. unfold set_name. assert (E : pth_eqb p p = true) by now apply pth_eqb_eq. now rewrite E. Qed.
Lemma set_name_neq f p v q : q <> p -> set_name f p v q = f q.
Proof. intros N. unfold set_name. destruct (pth_eqb q p) eqn:E; [apply pth_eqb_eq in E; contradiction|reflexivity]. Qed.
Lemma set_data_eq f i v : set_data f i v i = v. Proof. unfold set_data. now rewrite Nat.eqb_refl. Qed.
Lemma set_data_neq f i v j : j <> i -> set_data f i v j = f j.
Proof. intros N. unfold set_data. destruct (Nat.eqb_spec j i); [contradiction|reflexivity]. Qed.

(** ** a small rely/guarantee logic *)
Section RG.
Variable faults : bool.
Variables R G : disk_ -> disk_ -> Prop.
Variable Q : outcome -> disk_ -> Prop.
Fixpoint ok (p : proc) (d : disk_) : Prop :=
  forall d1, R d d1 ->
  match p with
  | Done r => Q r d1
  | Act a k => forall f ans d2, (f = true -> faults = true) -> exec a f d1 = (ans, d2) -> G d1 d2 /\ ok (k ans) d2
  end.
Hypothesis Rtrans : forall a b c, R a b -> R b c -> R a c.
Hypothesis Rrefl : forall a, R a a.
Lemma ok_stable p d d' : ok p d -> R d d' -> ok p d'.
Proof. intros H E. destruct p as [r|a k]; cbn in *; intros d1 E1; apply (H d1); now apply (Rtrans _ d'). Qed.
Lemma ok_step p d p' d' : ok p d -> pstep faults (p, d) (p', d') -> G d d' /\ ok p' d'.
Proof. intros H S. inversion S; subst. cbn in H. eapply (H d (Rrefl d)); eauto. Qed.
Lemma ok_done r d : ok (Done r) d -> Q r d.
Proof. intros H. exact (H d (Rrefl d)). Qed.
End RG.

Section Batch.
Variable faults : bool.
Variable d0 : disk_.
Variable P : pth -> Prop.

Definition frozen (d : disk_) : Prop := forall q, P q -> same d0 d q.
Definition inv (d : disk_) : Prop := wf_disk d /\ frozen d.
Definition no_new (d d' : disk_) : Prop := forall q i, names d' q = Some (Ino i) -> names d q = Some (Ino i) \/ (next d <= i)%nat.
Definition rely (out : pth) (d d' : disk_) : Prop := inv d ->
  inv d' /\ same d d' out /\ (next d <= next d')%nat /\ no_new d d'.
Definition guar (out : pth) (d d' : disk_) : Prop := inv d ->
  inv d' /\ (forall q, q <> out -> same d d' q) /\ (next d <= next d')%nat /\ no_new d d'.

Lemma rely_refl out d : rely out d d.
Proof. intros I. split; [exact I|]. split; [now split|]. split; [lia|]. intros q i H. now left. Qed.
Lemma rely_trans out a b c : rely out a b -> rely out b c -> rely out a c.
Proof.
  intros H K I. destruct (H I) as (I1 & [S1 S1'] & N1 & M1). destruct (K I1) as (I2 & [S2 S2'] & N2 & M2).
  split; [exact I2|]. split; [|split; [lia|]].
  - split; [congruence|]. intros i E. rewrite <- (S1' i E). apply S2'. congruence.
  - intros q i E. destruct (M2 q i E) as [E1|L]; [|right; lia]. apply M1. exact E1.
Qed.
Lemma guar_rely o o' d d' : o <> o' -> guar o d d' -> rely o' d d'.
Proof. intros N H I. destruct (H I) as (A & B & C & D). split; [exact A|]. split; [apply B; congruence|]. split; [exact C|exact D]. Qed.
Lemma guar_refl out d : guar out d d.
Proof. intros I. split; [exact I|]. split; [intros q _; now split|]. split; [lia|]. intros q i H. now left. Qed.

(** ** one job *)
Variable t : task.
Notation out := (t_output t).
Variable c0 : option bytes.
Hypothesis Hread : forall c d, c0 = Some c -> frozen d -> read d (t_input t) = Some c.
Hypothesis Hout : P out -> t_replace t = false /\ names d0 out <> None.

(** the job holds inode [i], which only its output names *)
Definition mine (i : nat) (d : disk_) : Prop := inv d /\ ~ P out /\ names d out = Some (Ino i) /\ forall q, names d q = Some (Ino i) -> q = out.
Definition post (r : outcome) (d : disk_) : Prop := inv d /\ forall c, c0 = Some c -> reported d0 t c r d /\
  (faults = false -> r <> JIo /\ (names d0 out <> None -> t_replace t = false -> r = JExists) /\ (r = JExists -> names d0 out <> None /\ t_replace t = false) /\
     forall l, r = JConv l -> l = false /\ snd (t_conv t c) = EFail).
Notation okp := (ok faults (rely out) (guar out) post).

Lemma mine_rely i d d' : mine i d -> rely out d d' -> mine i d' /\ data d' i = data d i.
Proof.
  intros (I & N & E & U) H. destruct (H I) as (I' & [S1 S2] & L & M). split; [|now apply S2].
  split; [exact I'|split; [exact N|split; [congruence|]]]. intros q Eq. destruct (M q i Eq) as [F|F]; [now apply U|].
  destruct I as [W _]. specialize (W out i E). lia.
Qed.
Lemma write_guar i d c : mine i d -> guar out d (mkD (names d) (set_data (data d) i c) (next d)) /\ mine i (mkD (names d) (set_data (data d) i c) (next d)).
Proof.
  intros (I & N & E & U).
  assert (I' : inv (mkD (names d) (set_data (data d) i c) (next d))).
  { destruct I as [W F]. split; [exact W|]. intros q Hq. destruct (F q Hq) as [F1 F2]. split; [exact F1|]. cbn. intros j Ej.
    rewrite set_data_neq; [now apply F2|]. intros ->. rewrite <- F1 in Ej. apply U in Ej. subst. contradiction. }
  split; [|split; [exact I'|split; [exact N|split; [exact E|exact U]]]].
  intros _. split; [exact I'|]. split; [|split; [cbn; lia|intros q j H; now left]].
  intros q Hq. split; [reflexivity|]. cbn. intros j Ej. apply set_data_neq. intros ->. apply U in Ej. contradiction.
Qed.
Lemma unlink_guar d : inv d -> ~ P out -> guar out d (mkD (set_name (names d) out None) (data d) (next d)) /\ inv (mkD (set_name (names d) out None) (data d) (next d)).
Proof.
  intros I N. assert (I' : inv (mkD (set_name (names d) out None) (data d) (next d))).
  { destruct I as [W F]. split.
    - intros p i. cbn. unfold set_name. destruct (pth_eqb p out); [discriminate|]. apply W.
    - intros q Hq. destruct (F q Hq) as [F1 F2]. split; [|exact F2]. cbn. rewrite set_name_neq; [exact F1|]. intros ->. contradiction. }
  split; [|exact I']. intros _. split; [exact I'|]. split; [|split; [cbn; lia|]].
  - intros q Hq. split; [cbn; now apply set_name_neq|reflexivity].
  - intros q i. cbn. unfold set_name. destruct (pth_eqb q out); [discriminate|]. intros H; now left.
Qed.
Lemma create_guar d : inv d -> names d out = None -> ~ P out ->
  let d' := mkD (set_name (names d) out (Some (Ino (next d)))) (set_data (data d) (next d) []) (S (next d)) in
  guar out d d' /\ mine (next d) d'.
Proof.
  intros I E N d'. assert (I' : inv d').
  { destruct I as [W F]. split.
    - intros p i. cbn. unfold set_name. destruct (pth_eqb p out); [intros [= <-]; lia|]. intros H. specialize (W _ _ H). lia.
    - intros q Hq. destruct (F q Hq) as [F1 F2]. assert (q <> out) by (intros ->; contradiction). split; cbn.
      + now rewrite set_name_neq.
      + intros j Ej. rewrite set_data_neq; [now apply F2|]. rewrite <- F1 in Ej. specialize (W _ _ Ej). lia. }
  split.
  - intros _. split; [exact I'|]. split; [|split; [cbn; lia|]].
    + intros q Hq. split; cbn; [now apply set_name_neq|]. intros j Ej. apply set_data_neq. destruct I as [W _]. specialize (W _ _ Ej). lia.
    + intros q i. cbn. unfold set_name. destruct (pth_eqb q out); [intros [= <-]; now right|]. intros H; now left.
  - split; [exact I'|]. split; [exact N|]. split; [cbn; apply set_name_eq|]. intros q. cbn. unfold set_name.
    destruct (pth_eqb q out) eqn:EQ; [intros _; now apply pth_eqb_eq|]. intros H. destruct I as [W _]. specialize (W _ _ H). lia.
Qed.

(** a process that does one operation without effect on the disk *)
Lemma ok_pure a k (Pre : disk_ -> Prop) d :
  Pre d -> (forall e e', Pre e -> rely out e e' -> Pre e') -> (forall e f, snd (exec a f e) = e) ->
  (forall e f, Pre e -> (f = true -> faults = true) -> okp (k (fst (exec a f e))) e) -> okp (Act a k) d.
Proof.
  intros H S E K d1 R1 f ans d2 Ff X. assert (H1 : Pre d1) by now apply (S d). pose proof (E d1 f) as E1. rewrite X in E1. cbn in E1. subst d2.
  split; [apply guar_refl|]. specialize (K d1 f H1 Ff). rewrite X in K. exact K.
Qed.
Lemma okp_done r d : (forall d', rely out d d' -> post r d') -> okp (Done r) d.
Proof. intros H d1 R1. now apply H. Qed.

Lemma cleanup_ok i d : mine i d -> (faults = false -> forall c, c0 = Some c -> snd (t_conv t c) = EFail /\ ~ (names d0 out <> None /\ t_replace t = false)) -> okp (cleanup out) d.
Proof.
  intros M X d1 R1 f ans d2 Ff E. destruct (mine_rely _ _ _ M R1) as [M1 _]. destruct M1 as (I & N & EN & U).
  cbn in E. rewrite EN in E. destruct f; injection E as <- <-.
  - split; [apply guar_refl|]. apply okp_done. intros d' R2. cbn. destruct (R2 I) as (I2 & _). split; [exact I2|].
    intros c Hc. split; [exact Logic.I|]. intros F. specialize (Ff eq_refl). congruence.
  - destruct (unlink_guar d1 I N) as [G1 I1]. split; [exact G1|]. apply okp_done. intros d' R2. cbn. destruct (R2 I1) as (I2 & [S2 _] & _).
    split; [exact I2|]. intros c Hc. split; [cbn; rewrite S2; cbn; apply set_name_eq|]. intros F. destruct (X F c Hc) as [X1 X2].
    split; [discriminate|split; [intros A B; exfalso; apply X2; auto|split; [discriminate|]]]. intros l [= <-]. auto.
Qed.
Lemma writes_ok i ws fail nxt : (forall d, mine i d -> faults = true -> okp fail d) -> (forall d, mine i d -> okp nxt d) -> forall d, mine i d -> okp (writes i ws fail nxt) d.
Proof.
  intros HF HN. induction ws as [|w ws IH]; intros d M; [now apply HN|].
  intros d1 R1 f ans d2 Ff E. destruct (mine_rely _ _ _ M R1) as [M1 _]. cbn in E. destruct f; injection E as <- <-.
  - split; [apply guar_refl|]. cbn. apply HF; [exact M1|now apply Ff].
  - destruct (write_guar i d1 w M1) as [G1 M2]. split; [exact G1|]. cbn. now apply IH.
Qed.

Lemma body_ok i d : mine i d -> (names d0 out = None \/ t_replace t = true) -> okp (raw2dng_body t i) d.
Proof.
  intros M0 NE. assert (NE' : ~ (names d0 out <> None /\ t_replace t = false)) by (intros [A B]; destruct NE; congruence).
  assert (ST : forall e e', mine i e -> rely out e e' -> mine i e') by (intros e e' A B; now destruct (mine_rely _ _ _ A B)).
  assert (DN : forall r d, mine i d -> (forall c, c0 = Some c -> forall e, mine i e -> data e i = data d i -> reported d0 t c r e) -> (faults = false -> (forall c, c0 = Some c -> r <> JIo /\ r <> JExists /\ forall l, r <> JConv l)) -> okp (Done r) d).
  { intros r e Me H1 H2. apply okp_done. intros e' Re. destruct (mine_rely _ _ _ Me Re) as [Me' De]. split; [exact (proj1 Me')|].
    intros c Hc. split; [now apply H1|]. intros F. destruct (H2 F c Hc) as (A & B & C). split; [exact A|]. split; [intros X Y; exfalso; apply NE'; auto|].
    split; [intros X; contradiction|]. intros l X. destruct (C l X). }
  unfold raw2dng_body. apply (ok_pure _ _ (mine i)); [exact M0|exact ST|reflexivity|]. intros e f Me Ff. cbn [exec fst]. destruct f; cbn [isYes negb].
  - apply DN; [exact Me|intros; exact Logic.I|]. intros F. specialize (Ff eq_refl). congruence.
  - clear Ff. apply (ok_pure _ _ (mine i)); [exact Me|exact ST|reflexivity|]. clear e Me. intros e f Me Ff. cbn [exec fst].
    fold (read e (t_input t)).
    destruct f.
    + apply (cleanup_ok i); [exact Me|]. intros F. specialize (Ff eq_refl). congruence.
    + assert (RD : forall c, c0 = Some c -> match follow (names e) 40 (t_input t) with Some (_, Some (Ino i)) => Content (data e i) | _ => Failed end = Content c).
      { intros c Hc. pose proof (Hread c e Hc (proj2 (proj1 Me))) as X. unfold read in X. destruct (follow (names e) 40 (t_input t)) as [[q [[j| |]|]]|]; try discriminate. congruence. }
      destruct (match follow (names e) 40 (t_input t) with Some (_, Some (Ino i)) => Content (data e i) | _ => Failed end) as [| | | | |cc] eqn:EC;
        try (apply (cleanup_ok i); [exact Me|intros _ c Hc; specialize (RD c Hc); congruence]).
      destruct (t_conv t cc) as [ws en] eqn:ECv. apply writes_ok; [| |exact Me].
      * intros e2 M2 F. apply (cleanup_ok i); [exact M2|]. intros F2. congruence.
      * intros e2 M2. destruct en as [final| |].
        -- intros d1 R1 f ans d2 Ff2 E. destruct (mine_rely _ _ _ M2 R1) as [M3 _]. cbn in E. destruct f; injection E as <- <-.
           ++ split; [apply guar_refl|]. cbn [isYes negb]. apply DN; [exact M3|intros; exact Logic.I|]. intros F. specialize (Ff2 eq_refl). congruence.
           ++ destruct (write_guar i d1 final M3) as [G1 M4]. split; [exact G1|]. cbn [isYes negb].
              assert (RP : forall d, mine i d -> data d i = final -> forall c, c0 = Some c -> forall e, mine i e -> data e i = data d i -> reported d0 t c JOk e).
              { intros d3 _ D3 c Hc e3 M5 D5. specialize (RD c Hc). injection RD as ->. exists ws, final. split; [exact ECv|].
                exists i. split; [exact (proj1 (proj2 (proj2 M5)))|congruence]. }
              assert (D4 : data (mkD (names d1) (set_data (data d1) i final) (next d1)) i = final) by (cbn; apply set_data_eq).
              destruct (t_mtime t).
              ** apply (ok_pure _ _ (fun e => mine i e /\ data e i = final)); [auto| |reflexivity|].
                 { intros a b [A B] C. destruct (mine_rely _ _ _ A C) as [A1 A2]. split; [exact A1|congruence]. }
                 intros e3 f [M5 D5] Ff3. cbn [exec fst]. destruct f; cbn [isYes].
                 --- apply DN; [exact M5|intros; exact Logic.I|]. intros F. specialize (Ff3 eq_refl). congruence.
                 --- apply DN; [exact M5|now apply RP|]. intros _ c _. split; [discriminate|split; [discriminate|intros l; discriminate]].
              ** apply DN; [exact M4|now apply RP|]. intros _ c _. split; [discriminate|split; [discriminate|intros l; discriminate]].
        -- apply (cleanup_ok i); [exact M2|]. intros _ c Hc. specialize (RD c Hc). injection RD as ->. rewrite ECv. auto.
        -- apply DN; [exact M2| |].
           ++ intros c Hc e3 _ _. specialize (RD c Hc). injection RD as ->. now exists ws.
           ++ intros _ c _. split; [discriminate|split; [discriminate|intros l; discriminate]].
Qed.

(** the state before the job touches anything *)
Definition fresh (d : disk_) : Prop := inv d /\ names d out = names d0 out.
Lemma fresh_rely d d' : fresh d -> rely out d d' -> fresh d'.
Proof. intros [I E] H. destruct (H I) as (I' & [S _] & _). split; [exact I'|congruence]. Qed.

Lemma create_ok d : (fresh d \/ (inv d /\ ~ P out /\ names d out = None /\ t_replace t = true)) ->
  (t_replace t = false \/ faults = true \/ names d out = None) ->
  okp (Act (ACreateNew out) (fun a => match a with Handle i => raw2dng_body t i | Exists_ => Done JExists | _ => Done JIo end)) d.
Proof.
  intros C NF d1 R1 f ans d2 Ff E.
  assert (C1 : inv d1 /\ names d1 out = names d out).
  { assert (I : inv d) by (destruct C as [[I _]|[I _]]; exact I). destruct (R1 I) as (I1 & [S _] & _). auto. }
  destruct C1 as [I1 S1]. cbn in E. destruct f; [injection E as <- <-|].
  - split; [apply guar_refl|]. apply okp_done. intros d' R2. destruct (R2 I1) as (I2 & _). split; [exact I2|]. intros c _. split; [exact I|].
    intros F. specialize (Ff eq_refl). congruence.
  - destruct (names d1 out) as [n|] eqn:EN; injection E as <- <-.
    + split; [apply guar_refl|]. destruct C as [[_ C]|(_ & _ & C & _)]; [|congruence]. apply okp_done. intros d' R2. destruct (R2 I1) as (I2 & [S2 _] & _).
      split; [exact I2|]. intros c _. split; [cbn; split; [congruence|rewrite S2, EN; congruence]|]. intros F. split; [discriminate|split; [reflexivity|split; [|discriminate]]].
      intros _. split; [congruence|]. destruct NF as [NF|[NF|NF]]; [exact NF|congruence|congruence].
    + assert (NP : ~ P out).
      { intros Hp. destruct C as [[_ C]|(_ & NP & _)]; [|contradiction]. destruct (Hout Hp) as [_ X]. congruence. }
      destruct (create_guar d1 I1 EN NP) as [G1 M1]. split; [exact G1|]. apply body_ok; [exact M1|].
      destruct C as [[_ C]|(_ & _ & _ & C)]; [left; congruence|now right].
Qed.

Lemma raw2dng_ok d : fresh d -> (faults = false -> has_name (t_input t) = true /\ (names d0 out = None \/ exists i, names d0 out = Some (Ino i))) -> okp (raw2dng t) d.
Proof.
  intros Fr NFH. unfold raw2dng. destruct (has_name (t_input t)) eqn:HN; cbn [negb].
  2:{ apply okp_done. intros d' R1. destruct (fresh_rely _ _ Fr R1) as [I _]. split; [exact I|]. intros c _. split; [exact Logic.I|]. intros F. destruct (NFH F). discriminate. }
  destruct (bool_dec (t_replace t) true) as [RP|RP]; [|apply not_true_is_false in RP]; rewrite RP.
  - apply (ok_pure _ _ fresh); [exact Fr|apply fresh_rely|reflexivity|]. clear d Fr. intros d f Fr Ff. cbn [exec fst].
    destruct (isYes (if f then No else match follow (names d) 40 out with Some (_, Some _) => Yes | _ => No end)) eqn:Y.
    + intros d1 R1 f2 ans d2 Ff2 E. pose proof (fresh_rely _ _ Fr R1) as [I1 S1]. cbn in E.
      assert (NP : ~ P out) by (intros Hp; destruct (Hout Hp); congruence).
      destruct f2.
      * injection E as <- <-. split; [apply guar_refl|]. cbn [isYes]. apply okp_done. intros d' R2. destruct (R2 I1) as (I2 & _). split; [exact I2|]. intros c _. split; [exact I|].
        intros F. specialize (Ff2 eq_refl). congruence.
      * assert (CASES : (ans = Yes /\ d2 = mkD (set_name (names d1) out None) (data d1) (next d1)) \/ (ans = Failed /\ d2 = d1 /\ (names d1 out = None \/ names d1 out = Some DDir))).
        { destruct (names d1 out) as [[j| |l]|]; injection E as <- <-; auto. }
        destruct CASES as [[-> ->]|(-> & -> & CD)].
        -- destruct (unlink_guar d1 I1 NP) as [G1 I2]. split; [exact G1|]. cbn [isYes]. apply create_ok.
           ++ right. split; [exact I2|split; [exact NP|split; [cbn; apply set_name_eq|exact RP]]].
           ++ right. right. cbn. apply set_name_eq.
        -- split; [apply guar_refl|]. cbn [isYes]. apply okp_done. intros d' R2. destruct (R2 I1) as (I2 & _). split; [exact I2|]. intros c _. split; [exact I|].
           intros F. exfalso. destruct (NFH F) as [_ NF]. destruct f; [discriminate|]. destruct NF as [NF|[i NF]].
           ++ rewrite S1 in CD. destruct Fr as [_ S]. rewrite NF in S. cbn in Y. rewrite S in Y. discriminate.
           ++ rewrite S1, NF in CD. destruct CD; discriminate.
    + apply create_ok; [now left|]. assert (FF : faults = true \/ faults = false) by (destruct faults; auto). destruct FF as [F|F]; [auto|]. right. right. destruct (NFH F) as [_ NF]. destruct Fr as [_ S].
      destruct f; [specialize (Ff eq_refl); congruence|]. cbn in Y. destruct NF as [NF|[i NF]]; [congruence|]. rewrite S, NF in Y. discriminate.
  - apply create_ok; [now left|auto].
Qed.
End Batch.
