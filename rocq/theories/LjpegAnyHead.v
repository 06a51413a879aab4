(** Header parsing and frame of the scan decoder, any input. *)
From Coq Require Import List ZArith Lia Bool.
From Coq Require Import ZifyBool ZifyNat.
From Verif Require Import Base BaseLemmas Pumps LjpegDec LjpegAnySpec LjpegAny.
Import ListNotations.
Open Scope Z_scope.

(** ** reads *)
Lemma u8_inv s v s' : bs_get_u8 s = Ok (v, s') -> b_buf s' = b_buf s /\ b_pos s' = (b_pos s + 1)%nat /\ (b_pos s < length (b_buf s))%nat /\
  (Forall is_byte (b_buf s) -> is_byte v).
Proof.
  unfold bs_get_u8. intros H. apply bind_ok in H as (a & Ha & H). injection H as -> <-. cbn.
  destruct (get_inv _ _ _ 0 Ha) as [L E]. repeat split; auto. 1,2: rewrite Forall_forall in *; subst v; apply H, nth_In; auto.
Qed.
Lemma u16_inv s v s' : bs_get_u16 s = Ok (v, s') -> b_buf s' = b_buf s /\ b_pos s' = (b_pos s + 2)%nat /\ (b_pos s + 1 < length (b_buf s))%nat /\
  (Forall is_byte (b_buf s) -> 0 <= v <= 65535).
Proof.
  unfold bs_get_u16. intros H. apply bind_ok in H as (a & Ha & H). apply bind_ok in H as (b & Hb & H). injection H as <- <-. cbn.
  destruct (get_inv _ _ _ 0 Ha) as [L E]. destruct (get_inv _ _ _ 0 Hb) as [L' E']. split; [auto|]. split; [auto|]. split; [auto|].
  intros F. rewrite Forall_forall in F. pose proof (F a ltac:(subst a; apply nth_In; auto)). pose proof (F b ltac:(subst b; apply nth_In; auto)). unfold is_byte in *. lia.
Qed.
Lemma check_inv b u : check b = Ok u -> b = true. Proof. destruct b; [auto|discriminate]. Qed.
Lemma assert_inv b u : assert_ b = Ok u -> b = true. Proof. destruct b; [auto|discriminate]. Qed.
Ltac chk H C := let u := fresh "u" in apply bind_ok in H; destruct H as (u & C & H).

(** [moves src s s'] : the stream stays on [src] and advances *)
Definition moves (s s' : bstream) : Prop := b_buf s' = b_buf s /\ (b_pos s <= b_pos s')%nat.
Lemma moves_trans a b c : moves a b -> moves b c -> moves a c.
Proof. unfold moves. intros [A B] [C D]. split; [congruence|lia]. Qed.
Lemma u8_moves s v s' : bs_get_u8 s = Ok (v, s') -> moves s s'.
Proof. intros H. apply u8_inv in H. unfold moves. intuition lia. Qed.
Lemma u16_moves s v s' : bs_get_u16 s = Ok (v, s') -> moves s s'.
Proof. intros H. apply u16_inv in H. unfold moves. intuition lia. Qed.
Lemma moves_refl s : moves s s. Proof. split; auto. Qed.

Definition bytes_of (s : bstream) : Prop := Forall is_byte (b_buf s).
Lemma bytes_moves s s' : moves s s' -> bytes_of s -> bytes_of s'.
Proof. unfold bytes_of. now intros [-> _]. Qed.

Ltac get1 H v s B :=
  let E := fresh "E" in let M := fresh "M" in let I := fresh "I" in
  apply bind_ok in H; destruct H as ([v s] & E & H);
  first [ pose proof (u8_moves _ _ _ E) as M; apply u8_inv in E; destruct E as (_ & _ & _ & I); specialize (I B)
        | pose proof (u16_moves _ _ _ E) as M; apply u16_inv in E; destruct E as (_ & _ & _ & I); specialize (I B) ].

Lemma sof_comps_inv n : forall s cs s', parse_sof_comps n s = Ok (cs, s') -> moves s s' /\ length cs = n /\ Forall (fun c => jc_tbl c = 0%nat) cs.
Proof.
  induction n as [|n IH]; cbn [parse_sof_comps]; intros s cs s' H; [injection H as <- <-; split; [apply moves_refl|auto]|].
  apply bind_ok in H as ([a s1] & E1 & H). apply u8_moves in E1. apply bind_ok in H as ([b s2] & E2 & H). apply u8_moves in E2.
  apply bind_ok in H as ([c s3] & E3 & H). apply u8_moves in E3. apply bind_ok in H as ([r s4] & E4 & H). apply IH in E4 as (M & L & F).
  injection H as <- <-. split; [eauto 6 using moves_trans|]. cbn. split; [lia|]. constructor; auto.
Qed.

Definition sof_ok (sof : sofinfo) : Prop :=
  Z.of_nat (sof_width sof) <= 65535 /\ Z.of_nat (sof_height sof) <= 65535 /\ Forall (fun c => jc_tbl c <= 3)%nat (sof_comps sof) /\
  (sof_width sof = 0%nat \/ (sof_precision sof <= 16)%nat /\ (1 <= sof_cps sof <= 4)%nat /\ (sof_cps sof <= length (sof_comps sof))%nat).

Lemma parse_sof_inv sof s sof' s' : bytes_of s -> sof_ok sof -> parse_sof sof s = Ok (sof', s') -> moves s s' /\ sof_ok sof'.
Proof.
  intros B K H. unfold parse_sof in H.
  apply bind_ok in H as ([hl s1] & E1 & H). pose proof (u16_moves _ _ _ E1) as M1. pose proof (bytes_moves _ _ M1 B) as B1. apply u16_inv in E1 as (_ & _ & _ & I1).
  apply bind_ok in H as ([pr s2] & E2 & H). pose proof (u8_moves _ _ _ E2) as M2. pose proof (bytes_moves _ _ M2 B1) as B2. apply u8_inv in E2 as (_ & _ & _ & I2).
  apply bind_ok in H as ([h s3] & E3 & H). pose proof (u16_moves _ _ _ E3) as M3. pose proof (bytes_moves _ _ M3 B2) as B3. apply u16_inv in E3 as (_ & _ & _ & I3).
  apply bind_ok in H as ([w s4] & E4 & H). pose proof (u16_moves _ _ _ E4) as M4. pose proof (bytes_moves _ _ M4 B3) as B4. apply u16_inv in E4 as (_ & _ & _ & I4).
  apply bind_ok in H as ([cps s5] & E5 & H). pose proof (u8_moves _ _ _ E5) as M5. pose proof (bytes_moves _ _ M5 B4) as B5. apply u8_inv in E5 as (_ & _ & _ & I5).
  chk H C1. apply check_inv in C1. chk H C2. apply check_inv in C2.
  chk H C3. apply check_inv in C3. apply bind_ok in H as ([cs s6] & E6 & H). apply sof_comps_inv in E6 as (M6 & L6 & F6).
  injection H as <- <-. split; [eauto 12 using moves_trans|]. specialize (I1 B). specialize (I2 B1). specialize (I3 B2). specialize (I4 B3). specialize (I5 B4).
  destruct K as (_ & _ & K & _). unfold sof_ok, is_byte in *. cbn. split; [lia|]. split; [lia|]. split.
  - apply Forall_app. split; auto. eapply Forall_impl; [|exact F6]. cbn. lia.
  - right. rewrite app_length. lia.
Qed.

Lemma set_dc_inv cs id td : forall cs', set_dc_tbl cs id td = Some cs' -> (td <= 3)%nat -> Forall (fun c => jc_tbl c <= 3)%nat cs ->
  length cs' = length cs /\ Forall (fun c => jc_tbl c <= 3)%nat cs'.
Proof.
  induction cs as [|c cs IH]; cbn [set_dc_tbl]; [discriminate|]. intros cs' H T F. inversion F; subst. destruct (jc_id c =? id).
  - injection H as <-. cbn. split; auto.
  - destruct (set_dc_tbl cs id td) as [t|]; [|discriminate]. injection H as <-. destruct (IH t eq_refl T) as [L G]; auto. cbn. split; auto.
Qed.
Lemma sos_comps_inv n : forall i cf cs s cs' s', parse_sos_comps n i cf cs s = Ok (cs', s') -> Forall (fun c => jc_tbl c <= 3)%nat cs ->
  moves s s' /\ length cs' = length cs /\ Forall (fun c => jc_tbl c <= 3)%nat cs'.
Proof.
  induction n as [|n IH]; cbn [parse_sos_comps]; intros i cf cs s cs' s' H F; [injection H as <- <-; split; [apply moves_refl|auto]|].
  apply bind_ok in H as ([a s1] & E1 & H). apply u8_moves in E1. chk H C1. apply bind_ok in H as ([b s2] & E2 & H). apply u8_moves in E2.
  chk H C2. apply check_inv in C2. match type of H with match ?m with _ => _ end = _ => destruct m as [t|] eqn:S; [|discriminate] end.
  apply set_dc_inv in S as [L G]; auto; [|lia]. apply IH in H as (M & L2 & G2); auto. split; [eauto using moves_trans|]. split; [lia|auto].
Qed.
Lemma parse_sos_inv sof s sof' pred pt s' : bytes_of s -> sof_ok sof -> parse_sos sof s = Ok (sof', pred, pt, s') ->
  moves s s' /\ sof_ok sof' /\ (1 <= sof_width sof')%nat /\ (pred <= 255)%nat /\ (pt <= 15)%nat /\ sof_precision sof' = sof_precision sof /\ sof_width sof' = sof_width sof.
Proof.
  intros B K H. unfold parse_sos in H. chk H C0. apply check_inv in C0.
  apply bind_ok in H as ([hl s1] & E1 & H). pose proof (u16_moves _ _ _ E1) as M1. pose proof (bytes_moves _ _ M1 B) as B1.
  apply bind_ok in H as ([n s2] & E2 & H). pose proof (u8_moves _ _ _ E2) as M2. pose proof (bytes_moves _ _ M2 B1) as B2.
  chk H C1. apply check_inv in C1. apply bind_ok in H as ([cs s3] & E3 & H).
  destruct K as (K1 & K2 & K3 & K4). apply sos_comps_inv in E3 as (M3 & L3 & F3); auto. pose proof (bytes_moves _ _ M3 B2) as B3.
  apply bind_ok in H as ([pr s4] & E4 & H). pose proof (u8_moves _ _ _ E4) as M4. pose proof (bytes_moves _ _ M4 B3) as B4. apply u8_inv in E4 as (_ & _ & _ & I4). specialize (I4 B3).
  apply bind_ok in H as ([x s5] & E5 & H). pose proof (u8_moves _ _ _ E5) as M5. pose proof (bytes_moves _ _ M5 B4) as B5.
  apply bind_ok in H as ([p s6] & E6 & H). pose proof (u8_moves _ _ _ E6) as M6. apply u8_inv in E6 as (_ & _ & _ & I6). specialize (I6 B5).
  injection H as <- <- <- <-. unfold is_byte in *. split; [eauto 12 using moves_trans|].
  assert (P : 0 <= Z.land p 15 <= 15) by (pose proof (Z.land_ones p 4 ltac:(lia)) as Q; change (Z.ones 4) with 15 in Q; rewrite Q; pose proof (Z.mod_pos_bound p (2 ^ 4)); lia).
  unfold sof_ok. cbn. rewrite L3. split; [auto|]. lia.
Qed.

Definition slot_ok (s : dhtslot) : Prop :=
  length (dh_bits s) = 17%nat /\ length (dh_huffval s) = 256%nat /\ Forall (fun v => v <= 255)%nat (dh_bits s) /\ Forall (fun v => v <= 255)%nat (dh_huffval s).
Lemma slot_empty : slot_ok dht_empty.
Proof.
  unfold slot_ok, dht_empty. cbn [dh_bits dh_huffval]. rewrite !repeat_length. split; [reflexivity|]. split; [reflexivity|].
  split; apply Forall_forall; intros x Hx; apply repeat_spec in Hx; subst; apply Nat.le_0_l.
Qed.
Lemma slots_empty : Forall slot_ok (repeat dht_empty 4).
Proof. apply Forall_forall. intros x Hx. apply repeat_spec in Hx. subst. apply slot_empty. Qed.
Lemma read_bytes_inv n : forall s l s', bytes_of s -> read_bytes n s = Ok (l, s') -> moves s s' /\ length l = n /\ Forall is_byte l.
Proof.
  induction n as [|n IH]; cbn [read_bytes]; intros s l s' B H; [injection H as <- <-; split; [apply moves_refl|auto]|].
  apply bind_ok in H as ([a s1] & E1 & H). pose proof (u8_moves _ _ _ E1) as M1. pose proof (bytes_moves _ _ M1 B) as B1. apply u8_inv in E1 as (_ & _ & _ & I1).
  apply bind_ok in H as ([r s2] & E2 & H). apply IH in E2 as (M2 & L & F); auto. injection H as <- <-. split; [eauto using moves_trans|]. cbn. split; [lia|auto].
Qed.
Lemma Forall_upd {A} (P : A -> Prop) l i a : Forall P l -> P a -> Forall P (upd_list l i a).
Proof. intros F. revert i. induction F; intros [|i] Ha; cbn; constructor; auto. Qed.
Lemma Forall_skipn_ {A} (P : A -> Prop) n l : Forall P l -> Forall P (skipn n l).
Proof. revert n. induction l; intros [|n] F; cbn; auto. inversion F; auto. Qed.
Lemma sum_acc l : forall a, fold_left Z.add l a = a + fold_left Z.add l 0.
Proof. induction l as [|x l IH]; intros a; cbn [fold_left]; [lia|]. rewrite IH, (IH (0 + x)). lia. Qed.
Lemma sum_nonneg l : Forall is_byte l -> 0 <= fold_left Z.add l 0.
Proof. induction 1 as [|x l H F IH]; cbn [fold_left]; [lia|]. rewrite sum_acc. unfold is_byte in H. lia. Qed.
Lemma dht_loop_inv fuel : forall len slots s slots' s', bytes_of s -> Forall slot_ok slots -> parse_dht_loop fuel len slots s = Ok (slots', s') ->
  moves s s' /\ length slots' = length slots /\ Forall slot_ok slots'.
Proof.
  induction fuel as [|fuel IH]; cbn [parse_dht_loop]; intros len slots s slots' s' B F H; [discriminate|].
  destruct (len <=? 0); [injection H as <- <-; split; [apply moves_refl|auto]|].
  apply bind_ok in H as ([b s1] & E1 & H). pose proof (u8_moves _ _ _ E1) as M1. pose proof (bytes_moves _ _ M1 B) as B1.
  chk H C1. chk H C2.
  apply bind_ok in H as ([counts s2] & E2 & H). apply read_bytes_inv in E2 as (M2 & L2 & F2); auto. pose proof (bytes_moves _ _ M2 B1) as B2.
  chk H C3. apply check_inv in C3. chk H C4.
  apply bind_ok in H as ([vals s3] & E3 & H). apply read_bytes_inv in E3 as (M3 & L3 & F3); auto. pose proof (bytes_moves _ _ M3 B2) as B3.
  apply bind_ok in H as (old & G & H). apply bind_ok in H as (sl & P & H). apply put_inv in P as [PL ->].
  assert (O : slot_ok old). { destruct (get_inv _ _ _ dht_empty G) as [GL GE]. rewrite Forall_forall in F. apply F. rewrite <- GE. now apply nth_In. }
  pose proof (sum_nonneg _ F2) as N. set (acc := fold_left Z.add counts 0) in *.
  assert (FB : forall l, Forall is_byte l -> Forall (fun v => v <= 255)%nat (map Z.to_nat l)).
  { intros l Fl. apply Forall_map. eapply Forall_impl; [|exact Fl]. unfold is_byte. cbn. intros. lia. }
  apply IH in H as (M & L & FF); auto.
  - split; [eauto 7 using moves_trans|]. rewrite upd_list_length in L. auto.
  - apply Forall_upd; auto. destruct O as (O1 & O2 & O3 & O4). unfold slot_ok. cbn. rewrite app_length, !map_length, skipn_length, L2, L3, O2. split; [auto|]. split; [lia|].
    split; [constructor; [lia|auto]|]. apply Forall_app. split; auto. now apply Forall_skipn_.
Qed.
Lemma dht_inv slots s slots' s' : bytes_of s -> Forall slot_ok slots -> parse_dht slots s = Ok (slots', s') ->
  moves s s' /\ length slots' = length slots /\ Forall slot_ok slots'.
Proof.
  intros B F H. unfold parse_dht in H. apply bind_ok in H as ([l s1] & E1 & H). pose proof (u16_moves _ _ _ E1) as M1. pose proof (bytes_moves _ _ M1 B) as B1.
  chk H C. apply dht_loop_inv in H as (M & L & G); auto. split; [eauto using moves_trans|auto].
Qed.

Lemma skip_loop_inv fuel : forall s s', skip_to_marker_loop fuel s = Ok s' -> b_buf s' = b_buf s /\ (b_pos s < b_pos s' /\ b_pos s < length (b_buf s))%nat.
Proof.
  induction fuel as [|fuel IH]; cbn [skip_to_marker_loop]; intros s s' H; [discriminate|].
  apply bind_ok in H as (a & Ha & H). destruct (get_inv _ _ _ 0 Ha) as [L _]. apply bind_ok in H as (m & _ & H).
  destruct m; [injection H as <-; cbn; split; [auto|lia]|]. cbn zeta in H. destruct (_ <=? _)%nat; [discriminate|]. apply IH in H. cbn in H. intuition lia.
Qed.
Lemma marker_inv s m s' : get_next_marker s true = Ok (m, s') -> b_buf s' = b_buf s /\ (b_pos s + 2 <= b_pos s' /\ b_pos s < length (b_buf s))%nat.
Proof.
  unfold get_next_marker. cbn [negb]. intros H. apply bind_ok in H as (s1 & E & H). apply skip_loop_inv in E as (A & B & C). apply u8_inv in H as (D & F & _).
  split; [congruence|]. lia.
Qed.

Lemma header_inv fuel : forall sof slots s sof' pred pt slots' s', bytes_of s -> sof_ok sof -> Forall slot_ok slots ->
  (sof_width sof = 0%nat \/ (10 <= sof_precision sof)%nat) ->
  header_loop fuel sof slots s = Ok (sof', pred, pt, slots', s') ->
  moves s s' /\ sof_ok sof' /\ (1 <= sof_width sof')%nat /\ (10 <= sof_precision sof')%nat /\ (pred <= 255)%nat /\ (pt <= 15)%nat /\
  length slots' = length slots /\ Forall slot_ok slots'.
Proof.
  induction fuel as [|fuel IH]; cbn [header_loop]; intros sof slots s sof' pred pt slots' s' B K F W H; [discriminate|].
  apply bind_ok in H as ([m s1] & E & H). apply marker_inv in E as (E & P & _). assert (M1 : moves s s1) by (split; [auto|lia]). pose proof (bytes_moves _ _ M1 B) as B1.
  destruct (m =? 195).
  { apply bind_ok in H as ([sf s2] & E2 & H). apply parse_sof_inv in E2 as [M2 K2]; auto. chk H C. apply check_inv in C.
    apply IH in H; eauto using bytes_moves; [|right; lia]. destruct H as (M & H). split; [eauto using moves_trans|auto]. }
  destruct (m =? 196).
  { apply bind_ok in H as ([sl s2] & E2 & H). apply dht_inv in E2 as (M2 & L2 & F2); auto.
    apply IH in H; eauto using bytes_moves. destruct H as (M & H). split; [eauto using moves_trans|]. now rewrite <- L2. }
  destruct (m =? 218).
  { apply bind_ok in H as ([[[sf p] q] s2] & E2 & H). apply parse_sos_inv in E2; auto. destruct E2 as (M2 & K2 & W2 & A & C & D & G).
    injection H as <- <- <- <- <-. split; [eauto using moves_trans|]. split; [auto|]. split; [auto|]. split; [destruct W; lia|auto]. }
  destruct (_ || _); [discriminate|]. apply IH in H; eauto using bytes_moves. destruct H as (M & H). split; [eauto using moves_trans|auto].
Qed.

Lemma build_inv slots bug : forall dhts, Forall slot_ok slots -> build_dhts slots bug = Ok dhts ->
  length dhts = length slots /\ Forall (fun t => t = ht_empty \/ exists bits hv, dht_table bug t bits hv) dhts.
Proof.
  induction slots as [|s slots IH]; cbn [build_dhts]; intros dhts F H; [injection H as <-; auto|]. inversion F as [|? ? (A & B & C & D) F']; subst.
  apply bind_ok in H as (h & Eh & H). apply bind_ok in H as (r & Er & H). injection H as <-. destruct (IH r F' Er) as [L G]. cbn. split; [auto|]. constructor; auto.
  destruct (dh_init s); [|injection Eh as <-; auto]. right. exists (dh_bits s), (dh_huffval s). unfold dht_table. pose proof (ht_new_kraft _ _ _ _ Eh). auto 7.
Qed.

Lemma header_range src bug csfix d : Forall is_byte src -> ljdec_new_full src bug csfix = Ok d ->
  in_range d /\ Forall (fun t => t = ht_empty \/ exists bits hv, dht_table bug t bits hv) (ld_dhts d) /\ exists n, ld_buffer d = skipn n src.
Proof.
  intros F H. unfold ljdec_new_full in H. apply bind_ok in H as ([m s1] & E1 & H).
  assert (M1 : b_buf s1 = src).
  { unfold get_next_marker in E1. cbn [negb] in E1. apply bind_ok in E1 as ([f s0] & E0 & E1). (let C := fresh in chk E1 C). apply bind_ok in E1 as ([k s2] & E2 & E1).
    (let C := fresh in chk E1 C). injection E1 as <- <-. apply u8_inv in E0 as (A & _). apply u8_inv in E2 as (B & _). rewrite B, A. reflexivity. }
  (let C := fresh in chk H C). apply bind_ok in H as ([[[[sof pred] pt] slots] s2] & E2 & H).
  apply header_inv in E2.
  - destruct E2 as (M & (K1 & K2 & K3 & K4) & W & P & Hp & Ht & L & FS). apply bind_ok in H as (dhts & E3 & H). apply build_inv in E3 as [LD FD]; auto.
    apply bind_ok in H as (c0 & G & H). apply bind_ok in H as (buf & S & H). injection H as <-. cbn.
    apply slice_inv in S as [SL ->]. split; [|split; [auto|]].
    + unfold in_range. cbn. rewrite repeat_length in L. destruct K4 as [K4|(K4 & K5 & K6)]; [lia|]. repeat split; auto; lia.
    + exists (b_pos s2). rewrite firstn_all2; [reflexivity|]. rewrite skipn_length. lia.
  - unfold bytes_of. now rewrite M1.
  - unfold sof_ok. cbn. repeat split; auto; lia.
  - apply slots_empty.
  - left. reflexivity.
Qed.

(** ** termination: more fuel makes no difference *)
Lemma skip_fuel f1 : forall f2 s, (length (b_buf s) - b_pos s < f1)%nat -> (length (b_buf s) - b_pos s < f2)%nat -> skip_to_marker_loop f1 s = skip_to_marker_loop f2 s.
Proof.
  induction f1 as [|f1 IH]; intros [|f2] s H1 H2; try lia. cbn [skip_to_marker_loop].
  destruct (get (b_buf s) (b_pos s)) as [a| |] eqn:G; cbn [bind]; auto. destruct (get_inv _ _ _ 0 G) as [L _].
  match goal with |- bind ?m _ = _ => destruct m as [k| |] end; cbn [bind]; auto. destruct k; auto. cbn [b_buf b_pos].
  destruct (_ <=? _)%nat eqn:E; auto. apply IH; cbn [b_buf b_pos]; lia.
Qed.
Lemma dht_fuel f1 : forall f2 len slots s, bytes_of s -> len < Z.of_nat f1 -> len < Z.of_nat f2 -> parse_dht_loop f1 len slots s = parse_dht_loop f2 len slots s.
Proof.
  induction f1 as [|f1 IH]; intros [|f2] len slots s B H1 H2.
  - reflexivity.
  - cbn [parse_dht_loop]. destruct (Z.leb_spec len 0); [|lia]. Abort.
Lemma dht_fuel f1 : forall f2 len slots s, bytes_of s -> 0 <= len -> len < Z.of_nat f1 -> len < Z.of_nat f2 -> parse_dht_loop f1 len slots s = parse_dht_loop f2 len slots s.
Proof.
  induction f1 as [|f1 IH]; intros [|f2] len slots s B H0 H1 H2; try lia. cbn [parse_dht_loop].
  destruct (len <=? 0); auto.
  destruct (bs_get_u8 s) as [[b s1]| |] eqn:E1; cbn [bind]; auto. pose proof (bytes_moves _ _ (u8_moves _ _ _ E1) B) as B1.
  destruct (check _); cbn [bind]; auto. destruct (check _); cbn [bind]; auto.
  destruct (read_bytes 16 s1) as [[counts s2]| |] eqn:E2; cbn [bind]; auto. apply read_bytes_inv in E2 as (M2 & L2 & F2); auto.
  pose proof (sum_nonneg _ F2) as N. set (acc := fold_left Z.add counts 0) in *.
  destruct (check _); cbn [bind]; auto. destruct (check (negb _)) eqn:C4; cbn [bind]; auto. apply check_inv in C4.
  destruct (read_bytes (Z.to_nat acc) s2) as [[vals s3]| |] eqn:E3; cbn [bind]; auto. apply read_bytes_inv in E3 as (M3 & _); [|eauto using bytes_moves].
  destruct (get slots _); cbn [bind]; auto. destruct (put slots _ _); cbn [bind]; auto. apply IH; eauto 6 using bytes_moves; lia.
Qed.
Lemma header_fuel f1 : forall f2 sof slots s, (length (b_buf s) - b_pos s < f1)%nat -> (length (b_buf s) - b_pos s < f2)%nat ->
  bytes_of s -> Forall slot_ok slots -> sof_ok sof -> header_loop f1 sof slots s = header_loop f2 sof slots s.
Proof.
  induction f1 as [|f1 IH]; intros [|f2] sof slots s H1 H2 B F K; try lia. cbn [header_loop].
  destruct (get_next_marker s true) as [[m s1]| |] eqn:E; cbn [bind]; auto. apply marker_inv in E as (E & P & Q).
  assert (M1 : moves s s1) by (split; [auto|lia]). pose proof (bytes_moves _ _ M1 B) as B1.
  assert (G : forall sof slots s2, moves s1 s2 -> Forall slot_ok slots -> sof_ok sof -> header_loop f1 sof slots s2 = header_loop f2 sof slots s2).
  { intros sf sl s2 M2 F2 K2. pose proof (bytes_moves _ _ M2 B1). destruct M2 as [X Y]. apply IH; auto; rewrite X, E; lia. }
  destruct (m =? 195).
  { destruct (parse_sof sof s1) as [[sf s2]| |] eqn:E2; cbn [bind]; auto. apply parse_sof_inv in E2 as [M2 K2]; auto. destruct (check _); cbn [bind]; auto. }
  destruct (m =? 196).
  { destruct (parse_dht slots s1) as [[sl s2]| |] eqn:E2; cbn [bind]; auto. apply dht_inv in E2 as (M2 & L2 & F2); auto. }
  destruct (m =? 218); auto. destruct (_ || _); auto. apply G; auto. apply moves_refl.
Qed.
Lemma header_total src csfix s1 n : Forall is_byte src -> b_buf s1 = src -> (length src < n)%nat ->
  header_loop n (sof_empty csfix) (repeat dht_empty 4) s1 = header_loop (S (length src)) (sof_empty csfix) (repeat dht_empty 4) s1.
Proof.
  intros F E H. apply header_fuel; try (rewrite E; lia); [unfold bytes_of; now rewrite E| |].
  - apply slots_empty.
  - unfold sof_ok. cbn. repeat split; auto; lia.
Qed.

(** ** the frame *)
Lemma for_each_ok {A S} (I : S -> Prop) (f : A -> S -> res S) l : forall s s', for_each l f s = Ok s' -> I s ->
  (forall a s s', In a l -> f a s = Ok s' -> I s -> I s') -> I s'.
Proof.
  induction l as [|a l IH]; cbn [for_each]; intros s s' H Hs Hf; [injection H as <-; auto|].
  apply bind_ok in H as (s1 & E & H). apply (IH s1); auto. { apply (Hf a s s1); auto. now left. } intros b t t' Hb. apply Hf. now right.
Qed.
Section Frame.
Variables (d : ljdec) (out0 : list Z) (x sw w h : nat).
Let n := length (sof_comps (ld_sof d)).
Definition framed (out : list Z) : Prop :=
  length out = length out0 /\ (forall j, ~ in_frame n sw x w h j -> nth j out 0 = nth j out0 0) /\ (Forall is_u16 out0 -> Forall is_u16 out).
Lemma framed_put out j v out' : framed out -> in_frame n sw x w h j -> put out j (wrap_u16 v) = Ok out' -> framed out'.
Proof.
  intros (L & A & U) J P. apply put_inv in P as [PL ->]. split; [now rewrite upd_list_length|]. split.
  - intros i Hi. rewrite nth_upd by auto. destruct (Nat.eqb_spec j i); [subst; contradiction|auto].
  - intros H. apply Forall_upd; auto. unfold is_u16, wrap_u16. change (2 ^ 16) with 65536. apply Z.mod_pos_bound. lia.
Qed.
Lemma decode_framed out : decode_ljpeg d out0 x sw w h = Ok out -> framed out.
Proof.
  intros H. unfold decode_ljpeg, ljdec_ncomp in H. fold n in H.
  chk H C. apply bind_ok in H as (pr & _ & H). apply bind_ok in H as (pr1 & _ & H). cbn zeta in H.
  apply bind_ok in H as (st & E & H). apply bind_ok in H as (sk & _ & H). apply bind_ok in H as ([o p] & E2 & H). injection H as <-.
  assert (F1 : framed (fst st)).
  { apply (for_each_ok (fun st => framed (fst st)) _ _ _ _ E); [split; cbn; auto|].
    intros c [o1 p1] [o2 p2] Hc Hs Ho. cbn [fst] in *. apply in_seq in Hc. apply bind_ok in Hs as (t & _ & Hs). apply bind_ok in Hs as ([df p'] & _ & Hs).
    apply bind_ok in Hs as (o' & P & Hs). injection Hs as <- <-. eapply framed_put; eauto. exists 0%nat, c. split; [lia|]. right. lia. }
  change o with (fst (o, p)). apply (for_each_ok (fun st => framed (fst st)) _ _ _ _ E2); [exact F1|].
  intros row st1 st2 Hr Hs Ho. apply in_seq in Hr. unfold decode_row, ljdec_ncomp in Hs. fold n in Hs. cbn zeta in Hs.
  apply bind_ok in Hs as ([o1 p1] & E3 & Hs). apply bind_ok in Hs as (p2 & _ & Hs). injection Hs as <-. cbn [fst].
  change o1 with (fst (o1, p1)). apply (for_each_ok (fun st => framed (fst st)) _ _ _ _ E3); [exact Ho|].
  intros col st3 st4 Hc H4 Ho4. apply (for_each_ok (fun st => framed (fst st)) _ _ _ _ H4); [exact Ho4|].
  intros c [o5 p5] [o6 p6] Hcc H6 Ho6. cbn [fst] in *. apply in_seq in Hcc. unfold decode_sample in H6.
  apply bind_ok in H6 as (pp & _ & H6). apply bind_ok in H6 as (t & _ & H6). apply bind_ok in H6 as ([df p'] & _ & H6).
  apply bind_ok in H6 as (o' & P & H6). injection H6 as <- <-. eapply framed_put; eauto.
  unfold step_range in Hc. apply in_map_iff in Hc as (i & Ec & Hi). apply in_seq in Hi.
  set (st0 := if (row =? 0)%nat then (x + n)%nat else x) in *.
  assert (N : (1 <= n)%nat) by lia.
  exists row, (col - x + c)%nat. assert (X : (x <= st0)%nat) by (unfold st0; destruct (row =? 0)%nat; lia). split; [lia|]. left. split; [lia|].
  assert (exists q, (st0 = x + q * n)%nat) as [q Eq] by (unfold st0; destruct (row =? 0)%nat; [exists 1%nat|exists 0%nat]; lia).
  replace (col - x)%nat with ((q + i) * n)%nat by lia.
  enough (q + i < (w + (n - 1)) / n)%nat by nia.
  destruct Hi as [_ Hi]. apply Nat.lt_le_trans with (q + (w + x - st0 + (n - 1)) / n)%nat; [lia|].
  destruct (Nat.le_gt_cases (q * n) w) as [Lq|Gq].
  - rewrite Nat.add_comm, <- Nat.div_add by lia. apply Nat.div_le_mono; lia.
  - replace (w + x - st0 + (n - 1))%nat with (n - 1)%nat in * by lia. rewrite (Nat.div_small (n - 1) n) in * by lia. lia.
Qed.
End Frame.
