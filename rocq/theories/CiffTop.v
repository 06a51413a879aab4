From Coq Require Import List ZArith Bool Lia.
From Verif Require Import Base Tiff TiffSpec TiffBytes Ciff CiffSpec CiffProofs.
Import ListNotations.
Open Scope Z_scope.

(** ** Every tree can be written *)
Fixpoint citem_ind2 (P : citem -> Prop) (HV : forall t d, P (CVal t d)) (HI : forall t d, P (CInline t d))
    (HD : forall t items, Forall P items -> P (CDir t items)) (HB : forall t d items, P (CBad t d items)) (it : citem) : P it :=
  match it with
  | CVal t d => HV t d
  | CInline t d => HI t d
  | CDir t items => HD t items ((fix go l : Forall P l := match l with [] => Forall_nil P | x :: l => Forall_cons x (citem_ind2 P HV HI HD HB x) (go l) end) items)
  | CBad t d items => HB t d items
  end.

Definition written (it : citem) : Prop := citem_ok it -> forall file start off pos, 0 <= start -> 0 <= off -> off + Z.of_nat (length (value_bytes it)) < 2 ^ 32 ->
  at_ file (start + off) (value_bytes it) -> at_ file pos (record (length (value_bytes it)) off it) -> item_at file start pos it.

Lemma record_len n off it : citem_ok it -> length (record n off it) = 10%nat.
Proof. destruct it as [t d|t d|t its|t d its]; cbn [record citem_ok]; rewrite ?app_length, ?enc_length; [reflexivity| |reflexivity|contradiction]. intros (_ & _ & ->). reflexivity. Qed.
Lemma records_cons off it items : records value_bytes off (it :: items) = record (length (value_bytes it)) off it ++ records value_bytes (off + Z.of_nat (length (value_bytes it))) items.
Proof. reflexivity. Qed.
Lemma dir_bytes t items : value_bytes (CDir t items) =
  flat_map value_bytes items ++ enc LE 2 (Z.of_nat (length items)) ++ records value_bytes 0 items ++ enc LE 4 (Z.of_nat (length (flat_map value_bytes items))).
Proof. reflexivity. Qed.
Lemma all_ok items : fold_right and True (map citem_ok items) -> Forall citem_ok items.
Proof. induction items as [|it items IH]; intros H; constructor; cbn [map fold_right] in H; tauto. Qed.

Lemma items_written file start : 0 <= start -> forall items off pos, Forall written items -> Forall citem_ok items -> 0 <= off -> off + Z.of_nat (length (flat_map value_bytes items)) < 2 ^ 32 ->
  at_ file (start + off) (flat_map value_bytes items) -> at_ file pos (records value_bytes off items) -> items_at file start pos items.
Proof.
  intros S0. induction items as [|it items IH]; intros off pos W OK O0 L A R; [constructor|]. inversion W as [|? ? W1 W2]; subst. inversion OK as [|? ? K1 K2]; subst.
  rewrite records_cons in R. cbn [flat_map] in *. rewrite app_length in L. apply at_app in A. destruct A as [A1 A2]. apply at_app in R. destruct R as [R1 R2]. rewrite (record_len _ _ _ K1) in R2.
  constructor; [apply (W1 K1 file start off pos); try assumption; lia|]. apply (IH (off + Z.of_nat (length (value_bytes it)))); try assumption; try lia.
  now replace (start + (off + Z.of_nat (length (value_bytes it)))) with (start + off + Z.of_nat (length (value_bytes it))) by lia.
Qed.
Lemma heap_written file start t items : 0 <= start -> Forall written items -> Forall citem_ok items -> Z.of_nat (length items) < 2 ^ 16 ->
  Z.of_nat (length (value_bytes (CDir t items))) < 2 ^ 32 -> at_ file start (value_bytes (CDir t items)) ->
  heap_at file start (start + Z.of_nat (length (value_bytes (CDir t items)))) items.
Proof.
  intros S0 W OK LI L A. rewrite dir_bytes in *. set (vals := flat_map value_bytes items) in *. set (recs := records value_bytes 0 items) in *.
  apply at_app in A. destruct A as [A1 A]. apply at_app in A. destruct A as [A2 A]. rewrite enc_length in A. apply at_app in A. destruct A as [A3 A4].
  rewrite !app_length, !enc_length in L |- *.
  apply (heap file start _ (Z.of_nat (length vals)) items); try assumption; try lia.
  - unfold urange. lia.
  - now replace (start + Z.of_nat (length vals + (2 + (length recs + 4))) - 4) with (start + Z.of_nat (length vals) + Z.of_nat 2 + Z.of_nat (length recs)) by lia.
  - apply (items_written file start S0 items 0); try assumption; try lia; [unfold vals in L; lia|]. now rewrite Z.add_0_r.
Qed.
Lemma all_written it : written it.
Proof.
  induction it as [t d|t d|t items IH|t d items] using citem_ind2.
  - intros (U & N) file start off pos S0 O0 L A R. cbn [value_bytes record] in *. apply (item_val file start pos t off d); try assumption; unfold urange; lia.
  - intros (U & N & L8) file start off pos S0 O0 L A R. cbn [record] in R. now apply item_inline.
  - intros (U & D & LI & OK) file start off pos S0 O0 L A R. apply all_ok in OK. cbn [record] in R.
    pose proof (at_len _ _ _ A) as AL.
    apply (item_dir file start pos t off (Z.of_nat (length (value_bytes (CDir t items)))) items); try assumption; try (unfold urange; lia).
    apply (heap_written file (start + off) t items); try assumption; lia.
  - intros [].
Qed.
Lemma file_heap items : Forall citem_ok items -> Z.of_nat (length items) < 2 ^ 16 -> Z.of_nat (length (heap_bytes items)) < 2 ^ 32 ->
  at_ (crw_file items) 2 (enc LE 4 14) /\ heap_at (crw_file items) 14 (Z.of_nat (length (crw_file items))) items.
Proof.
  intros OK LI L. split; [exists [73; 73]; eexists; split; [unfold crw_file; reflexivity|reflexivity]|].
  replace (Z.of_nat (length (crw_file items))) with (14 + Z.of_nat (length (value_bytes (CDir 0 items)))) by (unfold crw_file, heap_bytes; rewrite !app_length, enc_length; cbn [length]; lia).
  apply heap_written; try assumption; try lia.
  - apply Forall_forall. intros it _. apply all_written.
  - exists ([73; 73] ++ enc LE 4 14 ++ [72; 69; 65; 80; 67; 67; 68; 82]), []. split; [unfold crw_file, heap_bytes; rewrite app_nil_r, <- !app_assoc; reflexivity|reflexivity].
Qed.
Lemma file_written items : Forall citem_ok items -> Z.of_nat (length items) < 2 ^ 16 -> Z.of_nat (length (heap_bytes items)) < 2 ^ 32 -> (height (CDir 0 items) <= 10)%nat ->
  exists d, ciff_file (crw_file items) = Ok d /\ (forall t, option_map c_data (ciff_find d t) = lookup t items) /\ ndirs d = idirs (CDir 0 items).
Proof. intros OK LI L H. destruct (file_heap items OK LI L) as (A & HA). apply (file_read _ 14 items); try assumption. unfold urange. lia. Qed.

(** ** A directory that is its own sub directory k times *)
Definition self_rec (k : nat) : list Z := enc LE 2 0x2807 ++ enc LE 4 (Z.of_nat (6 + 10 * k)) ++ enc LE 4 0.
Definition self_file (k : nat) : list Z :=
  [73; 73] ++ enc LE 4 14 ++ [72; 69; 65; 80; 67; 67; 68; 82] ++ enc LE 2 (Z.of_nat k) ++ concat (repeat (self_rec k) k) ++ enc LE 4 0.
Lemma recs_len k n : length (concat (repeat (self_rec k) n)) = (10 * n)%nat.
Proof. induction n as [|n IH]; [reflexivity|]. cbn [repeat concat]. rewrite app_length, IH. unfold self_rec. rewrite !app_length, !enc_length. lia. Qed.
Lemma self_len k : length (self_file k) = (20 + 10 * k)%nat.
Proof. unfold self_file. rewrite !app_length, recs_len, !enc_length. cbn [length]. lia. Qed.
Fixpoint self_dir (k left : nat) : cifd := CIfd [] (match left with O => [] | S l => repeat (self_dir k l) k end).

Lemma self_at k : at_ (self_file k) 2 (enc LE 4 14) /\ at_ (self_file k) 14 (enc LE 2 (Z.of_nat k)) /\
  at_ (self_file k) (Z.of_nat (length (self_file k)) - 4) (enc LE 4 0) /\ forall i, (i < k)%nat -> at_ (self_file k) (16 + Z.of_nat i * 10) (self_rec k).
Proof.
  assert (A : at_ (self_file k) 0 (self_file k)) by (exists [], []; split; [now rewrite app_nil_r|reflexivity]).
  unfold self_file in A at 2. apply at_app in A. destruct A as [_ A]. apply at_app in A. destruct A as [A1 A]. rewrite enc_length in A. apply at_app in A. destruct A as [_ A].
  apply at_app in A. destruct A as [A2 A]. rewrite enc_length in A. apply at_app in A. destruct A as [A3 A4]. rewrite recs_len in A4. cbn [length] in *.
  split; [exact A1|]. split; [exact A2|]. split.
  - rewrite self_len. replace (Z.of_nat (20 + 10 * k) - 4) with (0 + Z.of_nat 2 + Z.of_nat 4 + Z.of_nat 8 + Z.of_nat 2 + Z.of_nat (10 * k)) by lia. exact A4.
  - intros i Hi. replace k with (i + S (k - i - 1))%nat in A3 at 3 by lia. rewrite repeat_app, concat_app in A3. apply at_app in A3. destruct A3 as [_ A3]. rewrite recs_len in A3.
    cbn [repeat concat] in A3. apply at_app in A3. destruct A3 as [A3 _]. replace (16 + Z.of_nat i * 10) with (0 + Z.of_nat 2 + Z.of_nat 4 + Z.of_nat 8 + Z.of_nat 2 + Z.of_nat (10 * i)) by lia. exact A3.
Qed.
Lemma self_loop k left : Z.of_nat k < 2 ^ 16 -> (match left with O => True | S l => ciff_new l (self_file k) 14 (Z.of_nat (length (self_file k))) = Ok (self_dir k l) end) ->
  forall n i subs, (i + n = k)%nat ->
  ciff_loop (match left with O => None | S l => Some (ciff_new l (self_file k)) end) (self_file k) 14 16 n (Z.of_nat i) [] subs =
  Ok (CIfd [] (subs ++ match left with O => [] | S l => repeat (self_dir k l) n end)).
Proof.
  intros K IH. induction n as [|n IHn]; intros i subs E.
  - cbn [ciff_loop]. destruct left; cbn [repeat]; now rewrite app_nil_r.
  - rewrite loop_S. destruct (self_at k) as (_ & _ & _ & R). specialize (R i ltac:(lia)).
    assert (K' : Z.of_nat k < 65536) by lia.
    destruct (entry_dir (self_file k) 14 (16 + Z.of_nat i * 10) 0x2807 0 (Z.of_nat (6 + 10 * k))) as (data & ->); try (unfold urange; lia).
    { rewrite self_len. lia. } { exact R. }
    cbn [bind c_typ c_off c_size]. change ((Z.land 0x2807 0x3800 =? 0x2800) || (Z.land 0x2807 0x3800 =? 0x3000)) with true. cbv iota.
    replace (Z.of_nat i + 1) with (Z.of_nat (S i)) by lia. destruct left as [|l].
    + rewrite IHn by lia. reflexivity.
    + replace (14 + 0 + Z.of_nat (6 + 10 * k)) with (Z.of_nat (length (self_file k))) by (rewrite self_len; lia). change (14 + 0) with 14. rewrite IH, IHn by lia. cbn [repeat]. now rewrite <- app_assoc.
Qed.
Lemma self_new k : Z.of_nat k < 2 ^ 16 -> forall left, ciff_new left (self_file k) 14 (Z.of_nat (length (self_file k))) = Ok (self_dir k left).
Proof.
  intros K. assert (K' : Z.of_nat k < 65536) by lia.
  destruct (self_at k) as (_ & A2 & A3 & _). induction left as [|l IH]; rewrite new_eq; (destruct (Z.leb_spec 4 (Z.of_nat (length (self_file k)))); [|rewrite self_len in *; lia]); cbn [bind];
    rewrite (le4 _ _ 0) by (exact A3 || (unfold urange; lia)); cbn [bind]; change (14 + 0) with 14; rewrite (le2 _ _ (Z.of_nat k)) by (exact A2 || (unfold urange; lia)); cbn [bind]; rewrite Nat2Z.id; change (14 + 2) with 16.
  - exact (self_loop k 0 K I k 0%nat [] eq_refl).
  - exact (self_loop k (S l) K IH k 0%nat [] eq_refl).
Qed.
Lemma self_dirs k l : (k ^ l <= ndirs (self_dir k l))%nat.
Proof.
  induction l as [|l IH]; [cbn; lia|]. cbn [self_dir ndirs]. rewrite Nat.pow_succ_r'. enough (X : forall n, (n * k ^ l <= fold_right Nat.add 0 (map ndirs (repeat (self_dir k l) n)))%nat) by (specialize (X k); lia).
  induction n as [|n IHn]; [cbn; lia|]. cbn [repeat map fold_right]. lia.
Qed.
Lemma self_work k : Z.of_nat k < 2 ^ 16 -> exists d, ciff_file (self_file k) = Ok d /\ (k ^ 9 <= ndirs d)%nat.
Proof.
  intros K. exists (self_dir k 9). split; [|apply self_dirs]. unfold ciff_file. destruct (self_at k) as (A & _). rewrite (le4 _ _ 14) by (exact A || (unfold urange; lia)). cbn [bind]. now apply self_new.
Qed.
