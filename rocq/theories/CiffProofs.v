From Coq Require Import List ZArith Bool Lia.
From Verif Require Import Base Tiff TiffSpec TiffBytes Ciff CiffSpec.
Import ListNotations.
Open Scope Z_scope.

Lemma le_at_ok file p n v : 0 <= v < 2 ^ (8 * Z.of_nat n) -> at_ file p (enc LE n v) -> le_at file p (Z.of_nat n) = Ok v.
Proof. intros Hv A. unfold le_at. pose proof (rd_at _ _ _ A) as R. rewrite enc_length in R. rewrite R. now rewrite dec_enc. Qed.
Lemma le4 file p v : urange 32 v -> at_ file p (enc LE 4 v) -> le_at file p 4 = Ok v.
Proof. intros Hv A. exact (le_at_ok file p 4 v Hv A). Qed.
Lemma le2 file p v : urange 16 v -> at_ file p (enc LE 2 v) -> le_at file p 2 = Ok v.
Proof. intros Hv A. exact (le_at_ok file p 2 v Hv A). Qed.

(** the fields of the tag word *)
Lemma loc_val t : urange 14 t -> Z.land t 0xc000 = 0.
Proof.
  intros H. apply Z.bits_inj'. intros n Hn. rewrite Z.land_spec, Z.bits_0. destruct (Z.ltb_spec n 14).
  - replace (Z.testbit 0xc000 n) with false; [apply andb_false_r|]. symmetry. change 0xc000 with (3 * 2 ^ 14). apply Z.mul_pow2_bits_low. lia.
  - replace (Z.testbit t n) with false; [reflexivity|]. symmetry. rewrite <- (Z.mod_small t (2 ^ 14)) by exact H. apply Z.mod_pow2_bits_high. lia.
Qed.
Lemma tag_val t : urange 14 t -> Z.land t 0x3fff = t.
Proof. intros H. change 0x3fff with (Z.ones 14). rewrite Z.land_ones by lia. now apply Z.mod_small. Qed.
Lemma typ_val t : Z.land t 0x3800 = (t / 0x800) mod 8 * 0x800.
Proof.
  change 0x3800 with (Z.shiftl (Z.ones 3) 11). change 0x800 with (2 ^ 11). change 8 with (2 ^ 3). rewrite <- Z.shiftr_div_pow2, <- Z.land_ones, <- Z.shiftl_mul_pow2 by lia.
  apply Z.bits_inj'. intros n Hn. rewrite Z.land_spec. destruct (Z.ltb_spec n 11).
  - rewrite !Z.shiftl_spec_low by lia. apply andb_false_r.
  - rewrite !Z.shiftl_spec by lia. rewrite Z.land_spec, Z.shiftr_spec by lia. now replace (n - 11 + 11) with n by lia.
Qed.
Lemma inline_val t : urange 14 t -> Z.land (0x4000 + t) 0xc000 = 0x4000 /\ Z.land (0x4000 + t) 0x3fff = t /\ Z.land (0x4000 + t) 0x3800 = Z.land t 0x3800.
Proof.
  intros H. assert (E : 0x4000 + t = Z.lor 0x4000 t).
  { rewrite (Z.add_nocarry_lxor 0x4000 t).
    - rewrite Z.lxor_lor; [reflexivity|]. apply Z.bits_inj'. intros n Hn. rewrite Z.land_spec, Z.bits_0. destruct (Z.ltb_spec n 14).
      + change 0x4000 with (2 ^ 14). rewrite Z.pow2_bits_false by lia. reflexivity.
      + rewrite <- (Z.mod_small t (2 ^ 14)) by exact H. rewrite Z.mod_pow2_bits_high by lia. apply andb_false_r.
    - apply Z.bits_inj'. intros n Hn. rewrite Z.land_spec, Z.bits_0. destruct (Z.ltb_spec n 14).
      + change 0x4000 with (2 ^ 14). rewrite Z.pow2_bits_false by lia. reflexivity.
      + rewrite <- (Z.mod_small t (2 ^ 14)) by exact H. rewrite Z.mod_pow2_bits_high by lia. apply andb_false_r. }
  rewrite E, !Z.land_lor_distr_l, (loc_val t H), (tag_val t H). repeat split; reflexivity.
Qed.
Lemma dir_test t : ((Z.land t 0x3800 =? 0x2800) || (Z.land t 0x3800 =? 0x3000)) = true <-> dir_tag t.
Proof. rewrite typ_val, orb_true_iff, !Z.eqb_eq. unfold dir_tag. split; lia. Qed.

(** one record *)
Lemma tag16 t : urange 14 t -> urange 16 t.
Proof. unfold urange. lia. Qed.
Lemma entry_far file start pos tag off data : 0 <= start + off -> urange 14 tag -> urange 32 off -> Z.of_nat (length data) < 2 ^ 32 ->
  at_ file pos (enc LE 2 tag ++ enc LE 4 (Z.of_nat (length data)) ++ enc LE 4 off) -> at_ file (start + off) data ->
  ciff_entry file start pos = Ok (mk_centry tag (Z.land tag 0x3800) (Z.of_nat (length data)) (start + off) data).
Proof.
  intros P U1 U2 L A D. apply at_app in A. destruct A as [A1 A]. rewrite enc_length in A. apply at_app in A. destruct A as [A2 A3]. rewrite enc_length in A3.
  unfold ciff_entry. rewrite (le2 file pos tag (tag16 _ U1) A1). cbn [bind]. rewrite (loc_val tag U1). change (0 =? 0) with true. cbv iota.
  rewrite (le4 file (pos + 2) (Z.of_nat (length data))) by (exact A2 || (unfold urange; lia)). cbn [bind].
  rewrite (le4 file (pos + 6) off U2) by (replace (pos + 6) with (pos + Z.of_nat 2 + Z.of_nat 4) by lia; exact A3). cbn [bind].
  rewrite (Z.add_comm off start), (rd_at _ _ _ D). cbn [bind]. now rewrite (tag_val tag U1).
Qed.
Lemma entry_inline file start pos tag data : urange 14 tag -> length data = 8%nat -> at_ file pos (enc LE 2 (0x4000 + tag) ++ data) ->
  ciff_entry file start pos = Ok (mk_centry tag (Z.land tag 0x3800) 8 (pos + 2) data).
Proof.
  intros U L A. apply at_app in A. destruct A as [A1 A2]. rewrite enc_length in A2. destruct (inline_val tag U) as (V1 & V2 & V3).
  unfold ciff_entry. rewrite (le2 file pos (0x4000 + tag)) by (exact A1 || (unfold urange in *; lia)). cbn [bind]. rewrite V1, V2, V3.
  change (0x4000 =? 0) with false. change (0x4000 =? 0x4000) with true. cbn [bind].
  pose proof (rd_at _ _ _ A2) as R. rewrite L in R. change (Z.of_nat 2) with 2 in R. change (Z.of_nat 8) with 8 in R. rewrite R. reflexivity.
Qed.
Lemma at_slice file p n : 0 <= p -> 0 <= n -> p + n <= Z.of_nat (length file) -> exists data, Z.of_nat (length data) = n /\ at_ file p data.
Proof.
  intros H1 H2 H3. exists (firstn (Z.to_nat n) (skipn (Z.to_nat p) file)). split; [rewrite firstn_length, skipn_length; lia|].
  exists (firstn (Z.to_nat p) file), (skipn (Z.to_nat n) (skipn (Z.to_nat p) file)). split.
  - now rewrite !firstn_skipn.
  - rewrite firstn_length. lia.
Qed.
Lemma entry_dir file start pos tag off size : 0 <= start -> urange 14 tag -> urange 32 off -> urange 32 size -> start + off + size <= Z.of_nat (length file) ->
  at_ file pos (enc LE 2 tag ++ enc LE 4 size ++ enc LE 4 off) ->
  exists data, ciff_entry file start pos = Ok (mk_centry tag (Z.land tag 0x3800) size (start + off) data).
Proof.
  intros P U1 U2 U3 L A. unfold urange in U2, U3. destruct (at_slice file (start + off) size ltac:(lia) ltac:(lia) L) as (data & E & D). exists data. rewrite <- E in A |- *.
  apply entry_far; unfold urange; try assumption; lia.
Qed.

Lemma entry_bad file start pos p : 2 ^ 15 <= p < 2 ^ 16 -> at_ file pos (enc LE 2 p) -> ciff_entry file start pos = Err.
Proof.
  intros P A. unfold ciff_entry. rewrite (le2 file pos p) by (exact A || (unfold urange; lia)). cbn [bind].
  assert (B : Z.testbit (Z.land p 0xc000) 15 = true).
  { rewrite Z.land_spec. change (Z.testbit 0xc000 15) with true. rewrite andb_true_r. rewrite Z.testbit_true by lia. replace (p / 2 ^ 15) with 1 by (apply (Z.div_unique p (2 ^ 15) 1 (p - 2 ^ 15)); lia). reflexivity. }
  destruct (Z.eqb_spec (Z.land p 0xc000) 0) as [E|_]; [rewrite E in B; discriminate|].
  destruct (Z.eqb_spec (Z.land p 0xc000) 0x4000) as [E|_]; [rewrite E in B; discriminate|]. reflexivity.
Qed.
Lemma loop_S sub file start f k i es subs : ciff_loop sub file start f (S k) i es subs =
    (do e <- ciff_entry file start (f + i * 10);
    if (c_typ e =? 0x2800) || (c_typ e =? 0x3000) then
      match sub with
      | None => ciff_loop sub file start f k (i + 1) es subs
      | Some g =>
        match g (c_off e) (c_off e + c_size e) with
        | Ok d => ciff_loop sub file start f k (i + 1) es (subs ++ [d])
        | Err => ciff_loop sub file start f k (i + 1) ((c_tag e, e) :: es) subs
        | Panic => Panic
        end
      end
    else ciff_loop sub file start f k (i + 1) ((c_tag e, e) :: es) subs).
Proof. reflexivity. Qed.
Lemma new_eq left file start end_ : ciff_new left file start end_ =
  (do e4 <- (if 4 <=? end_ then Ok (end_ - 4) else Panic);
  do vs <- le_at file e4 4;
  do count <- le_at file (start + vs) 2;
  ciff_loop (match left with O => None | S l => Some (ciff_new l file) end) file start (start + vs + 2) (Z.to_nat count) 0 [] []).
Proof. destruct left; reflexivity. Qed.

(** what a value, a directory and a list of items give *)
Definition found (d : cifd) (t : Z) : option (list Z) := option_map c_data (ciff_find d t).
Definition got (t : Z) (es : list (Z * centry)) : option (list Z) := option_map c_data (map_get t es).
Lemma first_cons {A B} (f : A -> option B) x l : first f (x :: l) = match f x with Some v => Some v | None => first f l end.
Proof. reflexivity. Qed.
Lemma find_eq es subs t : found (CIfd es subs) t = match got t es with Some d => Some d | None => first (fun d => found d t) subs end.
Proof.
  unfold found, got. cbn [ciff_find]. destruct (map_get t es) as [e|]; [reflexivity|]. cbn [option_map].
  induction subs as [|d subs IH]; [reflexivity|]. rewrite first_cons. change (found d t) with (option_map c_data (ciff_find d t)). destruct (ciff_find d t); [reflexivity|exact IH].
Qed.
Lemma first_app {A B} (f : A -> option B) a b : first f (a ++ b) = match first f a with Some v => Some v | None => first f b end.
Proof. induction a as [|x a IH]; [reflexivity|]. cbn [app]. rewrite !first_cons. destruct (f x); [reflexivity|exact IH]. Qed.

(** the number of directories read *)
Fixpoint ndirs (d : cifd) : nat := match d with CIfd _ subs => S (fold_right Nat.add 0%nat (map ndirs subs)) end.
Fixpoint idirs (it : citem) : nat := match it with CDir _ items => S (fold_right Nat.add 0%nat (map idirs items)) | _ => 0%nat end.

Scheme heap_ind3 := Induction for heap_at Sort Prop
  with items_ind3 := Induction for items_at Sort Prop
  with item_ind3 := Induction for item_at Sort Prop
  with bad_ind3 := Induction for bad_heap_at Sort Prop.

Lemma fold_max_le l n : (fold_right Nat.max 0 l <= n)%nat -> Forall (fun x => x <= n)%nat l.
Proof. induction l as [|x l IH]; intros H; constructor; cbn [fold_right] in H; [lia|apply IH; lia]. Qed.

Combined Scheme read_ind from heap_ind3, items_ind3, item_ind3, bad_ind3.

Section Read.
Variable file : list Z.
Definition subdir (left : nat) := match left with O => None | S l => Some (ciff_new l file) end.
Definition Pheap (start end_ : Z) (items : list citem) : Prop := forall left, Forall (fun it => height it <= left)%nat items ->
  exists d, ciff_new left file start end_ = Ok d /\ (forall t, found d t = lookup t items) /\ ndirs d = S (fold_right Nat.add 0%nat (map idirs items)).
Definition Pitem (start pos : Z) (it : citem) : Prop := 0 <= start -> forall left f i es subs, pos = f + i * 10 -> (height it <= left)%nat ->
  match it with
  | CVal t d | CInline t d | CBad t d _ => exists e, c_data e = d /\ forall k, ciff_loop (subdir left) file start f (S k) i es subs = ciff_loop (subdir left) file start f k (i + 1) ((t, e) :: es) subs
  | CDir t items => exists d, (forall t, found d t = lookup t items) /\ ndirs d = idirs (CDir t items) /\
      forall k, ciff_loop (subdir left) file start f (S k) i es subs = ciff_loop (subdir left) file start f k (i + 1) es (subs ++ [d])
  end.
Definition Pbad (start end_ : Z) (items : list citem) : Prop := forall left, Forall (fun it => height it <= left)%nat items -> ciff_new left file start end_ = Err.
Definition Pitems (start pos : Z) (items : list citem) : Prop := 0 <= start -> forall left f i es subs, pos = f + i * 10 -> Forall (fun it => height it <= left)%nat items ->
  exists es' subs', (forall k, ciff_loop (subdir left) file start f (length items + k) i es subs = ciff_loop (subdir left) file start f k (i + Z.of_nat (length items)) (es' ++ es) (subs ++ subs')) /\
    (forall t, got t es' = own t items) /\ (forall t, first (fun d => found d t) subs' = first (look_in t) items) /\
    fold_right Nat.add 0%nat (map ndirs subs') = fold_right Nat.add 0%nat (map idirs items).

Lemma got_app t a b : got t (a ++ b) = match got t a with Some d => Some d | None => got t b end.
Proof. unfold got. induction a as [|[t' e] a IH]; [reflexivity|]. cbn [app map_get]. destruct (t' =? t); [reflexivity|exact IH]. Qed.

Lemma read_both : (forall start end_ items, heap_at file start end_ items -> Pheap start end_ items) /\ (forall start end_ items, bad_heap_at file start end_ items -> Pbad start end_ items).
Proof.
  enough (X : (forall s e i, heap_at file s e i -> Pheap s e i) /\ (forall s p i, items_at file s p i -> Pitems s p i) /\ (forall s p i, item_at file s p i -> Pitem s p i) /\ (forall s e i, bad_heap_at file s e i -> Pbad s e i)) by tauto.
  apply (read_ind file (fun s e i _ => Pheap s e i) (fun s p i _ => Pitems s p i) (fun s p i _ => Pitem s p i) (fun s e i _ => Pbad s e i)).
  - intros start end_ vs items S0 E4 UV LI A1 A2 _ IH left H. rewrite new_eq. destruct (Z.leb_spec 4 end_); [|lia]. cbn [bind].
    rewrite (le4 _ _ vs UV A1). cbn [bind]. rewrite (le2 _ _ (Z.of_nat (length items))) by (exact A2 || (unfold urange; lia)). cbn [bind]. rewrite Nat2Z.id.
    destruct (IH S0 left (start + vs + 2) 0 [] [] ltac:(lia) H) as (es & subs & E & G1 & G2 & G3). fold (subdir left). specialize (E 0%nat). rewrite Nat.add_0_r in E. rewrite E, app_nil_r. cbn [app ciff_loop]. eexists. split; [reflexivity|].
    split; [|cbn [ndirs]; now rewrite G3]. intros t. rewrite find_eq, G1, G2. reflexivity.
  - intros start pos S0 left f i es subs Hp H. exists [], []. split; [intros k; cbn [length app Nat.add Z.of_nat]; now rewrite app_nil_r, Z.add_0_r|now repeat split].
  - intros start pos it items _ IHit _ IH S0 left f i es subs Hp H. inversion H as [|? ? H1 H2]; subst. specialize (IHit S0 left f i es subs eq_refl H1). destruct it as [t d|t d|t its|t d its].
    + destruct IHit as (e & De & EQ). destruct (IH S0 left f (i + 1) ((t, e) :: es) subs ltac:(lia) H2) as (es' & subs' & E & G1 & G2 & G3).
      exists (es' ++ [(t, e)]), subs'. rewrite <- app_assoc. split.
      { intros k. cbn [length Nat.add]. rewrite EQ, E. cbn [app]. f_equal. lia. }
      split; [|now split]. intros t0. rewrite got_app, G1. cbn [own]. destruct (own t0 items); [reflexivity|].
      unfold got. cbn [map_get]. destruct (t =? t0); [cbn; now rewrite De|reflexivity].
    + destruct IHit as (e & De & EQ). destruct (IH S0 left f (i + 1) ((t, e) :: es) subs ltac:(lia) H2) as (es' & subs' & E & G1 & G2 & G3).
      exists (es' ++ [(t, e)]), subs'. rewrite <- app_assoc. split.
      { intros k. cbn [length Nat.add]. rewrite EQ, E. cbn [app]. f_equal. lia. }
      split; [|now split]. intros t0. rewrite got_app, G1. cbn [own]. destruct (own t0 items); [reflexivity|].
      unfold got. cbn [map_get]. destruct (t =? t0); [cbn; now rewrite De|reflexivity].
    + destruct IHit as (d & Fd & Nd & EQ). destruct (IH S0 left f (i + 1) es (subs ++ [d]) ltac:(lia) H2) as (es' & subs' & E & G1 & G2 & G3).
      exists es', (d :: subs'). split; [|split; [|split]].
      * intros k. cbn [length Nat.add]. rewrite EQ, E. rewrite <- app_assoc. cbn [app]. f_equal. lia.
      * intros t0. rewrite G1. cbn [own]. now destruct (own t0 items).
      * intros t0. rewrite !first_cons, Fd, G2. reflexivity.
      * cbn [map fold_right]. now rewrite Nd, G3.
    + destruct IHit as (e & De & EQ). destruct (IH S0 left f (i + 1) ((t, e) :: es) subs ltac:(lia) H2) as (es' & subs' & E & G1 & G2 & G3).
      exists (es' ++ [(t, e)]), subs'. rewrite <- app_assoc. split.
      { intros k. cbn [length Nat.add]. rewrite EQ, E. cbn [app]. f_equal. lia. }
      split; [|now split]. intros t0. rewrite got_app, G1. cbn [own]. destruct (own t0 items); [reflexivity|].
      unfold got. cbn [map_get]. destruct (t =? t0); [cbn; now rewrite De|reflexivity].
  - intros start pos tag off data U1 ND U2 L A D S0 left f i es subs Hp H. eexists (mk_centry _ _ _ _ _). split; [reflexivity|]. intros k. rewrite loop_S, <- Hp. unfold urange in U2.
    rewrite (entry_far file start pos tag off data) by (unfold urange; try assumption; lia). cbn [bind c_typ c_tag].
    destruct ((Z.land tag 0x3800 =? 0x2800) || (Z.land tag 0x3800 =? 0x3000)) eqn:E; [apply dir_test in E; contradiction|]. reflexivity.
  - intros start pos tag data U1 ND L A S0 left f i es subs Hp H. eexists (mk_centry _ _ _ _ _). split; [reflexivity|]. intros k. rewrite loop_S, <- Hp.
    rewrite (entry_inline file start pos tag data U1 L A). cbn [bind c_typ c_tag].
    destruct ((Z.land tag 0x3800 =? 0x2800) || (Z.land tag 0x3800 =? 0x3000)) eqn:E; [apply dir_test in E; contradiction|]. reflexivity.
  - intros start pos tag off size items U1 DT U2 U3 L A _ IH S0 left f i es subs Hp H. cbn [height] in H. destruct left as [|left]; [lia|].
    destruct (IH left) as (d & E & Fd & Nd). { apply (proj1 (Forall_map height (fun x => x <= left)%nat items)), fold_max_le. lia. }
    exists d. split; [exact Fd|]. split; [exact Nd|]. intros k. rewrite loop_S, <- Hp.
    destruct (entry_dir file start pos tag off size S0 U1 U2 U3 L A) as (data & ->). cbn [bind c_typ c_off c_size].
    apply dir_test in DT. rewrite DT. cbn [subdir]. rewrite E. reflexivity.
  - intros start pos tag off data items U1 DT U2 L A D _ IH S0 left f i es subs Hp H. cbn [height] in H. destruct left as [|left]; [lia|].
    assert (E : ciff_new left file (start + off) (start + off + Z.of_nat (length data)) = Err).
    { apply IH. apply (proj1 (Forall_map height (fun x => x <= left)%nat items)), fold_max_le. lia. }
    eexists (mk_centry _ _ _ _ _). split; [reflexivity|]. intros k. rewrite loop_S, <- Hp. unfold urange in U2.
    rewrite (entry_far file start pos tag off data) by (unfold urange; try assumption; lia). cbn [bind c_typ c_tag c_off c_size].
    apply dir_test in DT. rewrite DT. cbn [subdir]. rewrite E. reflexivity.
  - intros start end_ vs n p items S0 E4 UV LI A1 A2 _ IH P A3 left H. rewrite new_eq. destruct (Z.leb_spec 4 end_); [|lia]. cbn [bind].
    rewrite (le4 _ _ vs UV A1). cbn [bind]. rewrite (le2 _ _ n) by (exact A2 || (unfold urange; lia)). cbn [bind].
    destruct (IH S0 left (start + vs + 2) 0 [] [] ltac:(lia) H) as (es & subs & E & _). fold (subdir left).
    replace (Z.to_nat n) with (length items + S (Z.to_nat n - length items - 1))%nat by lia. rewrite E, loop_S, Z.add_0_l.
    rewrite (entry_bad file start _ p P) by (now replace (start + vs + 2 + Z.of_nat (length items) * 10) with (start + vs + 2 + 10 * Z.of_nat (length items)) by lia). reflexivity.
Qed.
Lemma read_all : forall start end_ items, heap_at file start end_ items -> Pheap start end_ items.
Proof. apply read_both. Qed.
End Read.

Lemma file_read file start items : urange 32 start -> at_ file 2 (enc LE 4 start) -> heap_at file start (Z.of_nat (length file)) items -> (height (CDir 0 items) <= 10)%nat ->
  exists d, ciff_file file = Ok d /\ (forall t, option_map c_data (ciff_find d t) = lookup t items) /\ ndirs d = idirs (CDir 0 items).
Proof.
  intros U A HA H. unfold ciff_file. rewrite (le4 _ _ start U A). cbn [bind]. apply (read_all file _ _ _ HA 9%nat). apply (proj1 (Forall_map height (fun x => x <= 9)%nat items)), fold_max_le. cbn [height] in H. lia.
Qed.

Lemma bad_file file start items : urange 32 start -> at_ file 2 (enc LE 4 start) -> bad_heap_at file start (Z.of_nat (length file)) items -> (height (CDir 0 items) <= 10)%nat ->
  ciff_file file = Err.
Proof.
  intros U A HA H. unfold ciff_file. rewrite (le4 _ _ start U A). cbn [bind]. apply (proj2 (read_both file) _ _ _ HA). apply (proj1 (Forall_map height (fun x => x <= 9)%nat items)), fold_max_le. cbn [height] in H. lia.
Qed.

(** ** What holds for every file *)
Definition good (file : list Z) (te : Z * centry) : Prop :=
  let '(t, e) := te in c_tag e = t /\ c_typ e = (t / 0x800) mod 8 * 0x800 /\ Z.of_nat (length (c_data e)) = c_size e /\ at_ file (c_off e) (c_data e).
Inductive good_dir (file : list Z) : cifd -> Prop := good_d es subs : Forall (good file) es -> Forall (good_dir file) subs -> good_dir file (CIfd es subs).

Lemma rd_some file p n b : 0 <= p -> 0 <= n -> rd file p n = Ok b -> Z.of_nat (length b) = n /\ at_ file p b.
Proof.
  intros P N. unfold rd. destruct (Z.leb_spec (p + n) (Z.of_nat (length file))); [|discriminate]. intros E. assert (E' : b = firstn (Z.to_nat n) (skipn (Z.to_nat p) file)) by congruence. subst b.
  split; [rewrite firstn_length, skipn_length; lia|]. exists (firstn (Z.to_nat p) file), (skipn (Z.to_nat n) (skipn (Z.to_nat p) file)). split; [now rewrite !firstn_skipn|rewrite firstn_length; lia].
Qed.
Lemma le_pos file p n v : Forall (urange 8) file -> le_at file p n = Ok v -> 0 <= v.
Proof.
  intros U. unfold le_at, rd. destruct (p + n <=? _); [|discriminate]. set (b := firstn _ _). intros E. assert (E' : v = dec LE b) by congruence. subst v.
  assert (F : Forall (urange 8) b).
  { apply Forall_forall. intros x Hx. unfold b in Hx. assert (H2 : In x (skipn (Z.to_nat p) file)) by (rewrite <- (firstn_skipn (Z.to_nat n)); apply in_app_iff; now left).
    assert (H3 : In x file) by (rewrite <- (firstn_skipn (Z.to_nat p) file); apply in_app_iff; now right). rewrite Forall_forall in U. now apply U. }
  apply (dec_range LE b F).
Qed.
Lemma entry_good file start pos e : Forall (urange 8) file -> 0 <= start -> 0 <= pos -> ciff_entry file start pos = Ok e -> good file (c_tag e, e) /\ 0 <= c_off e.
Proof.
  intros U S0 P0. unfold ciff_entry. destruct (le_at file pos 2) as [p| |] eqn:Ep; [|discriminate|discriminate]. cbn [bind].
  set (q := if Z.land p 0xc000 =? 0 then _ else _). assert (Q : forall size off, q = Ok (size, off) -> 0 <= size /\ 0 <= off).
  { intros size off. unfold q. destruct (_ =? 0).
    - destruct (le_at file (pos + 2) 4) as [a| |] eqn:E1; [|discriminate|discriminate]. cbn [bind]. destruct (le_at file (pos + 6) 4) as [b| |] eqn:E2; [|discriminate|discriminate]. cbn [bind].
      intros E. assert (size = a /\ off = b + start) by (split; congruence). pose proof (le_pos _ _ _ _ U E1). pose proof (le_pos _ _ _ _ U E2). lia.
    - destruct (_ =? 0x4000); [|discriminate]. intros E. assert (size = 8 /\ off = pos + 2) by (split; congruence). lia. }
  destruct q as [[size off]| |]; [|discriminate|discriminate]. destruct (Q size off eq_refl) as (Q1 & Q2). cbn [bind].
  destruct (rd file off size) as [b| |] eqn:R; [|discriminate|discriminate]. cbn [bind]. destruct (rd_some _ _ _ _ Q2 Q1 R) as (R1 & R2).
  intros E. assert (E' : e = mk_centry (Z.land p 0x3fff) (Z.land p 0x3800) size off b) by congruence. subst e. cbn [good c_tag c_typ c_size c_off c_data]. repeat split; try assumption.
  rewrite <- typ_val, <- Z.land_assoc. reflexivity.
Qed.
Lemma loop_good file sub start f : Forall (urange 8) file -> 0 <= start -> 0 <= f -> (forall g a b d, sub = Some g -> 0 <= a -> g a b = Ok d -> good_dir file d) ->
  forall k i es subs d, 0 <= i -> Forall (good file) es -> Forall (good_dir file) subs -> ciff_loop sub file start f k i es subs = Ok d -> good_dir file d.
Proof.
  intros U S0 F0 HS. induction k as [|k IH]; intros i es subs d I0 G1 G2 E; [cbn [ciff_loop] in E; assert (d = CIfd es subs) by congruence; subst; now constructor|].
  rewrite loop_S in E. destruct (ciff_entry file start (f + i * 10)) as [e| |] eqn:Ee; [|discriminate|discriminate]. cbn [bind] in E.
  destruct (entry_good file start (f + i * 10) e U S0 ltac:(lia) Ee) as (Ge & O).
  destruct ((c_typ e =? 0x2800) || (c_typ e =? 0x3000)); [|apply (IH (i + 1) ((c_tag e, e) :: es) subs d); try assumption; [lia|now constructor]].
  destruct sub as [g|]; [|apply (IH (i + 1) es subs d); try assumption; lia].
  destruct (g (c_off e) (c_off e + c_size e)) as [d'| |] eqn:Eg; [| |discriminate].
  - apply (IH (i + 1) es (subs ++ [d']) d); try assumption; [lia|]. apply Forall_app. split; [assumption|]. constructor; [|constructor]. exact (HS g _ _ _ eq_refl O Eg).
  - apply (IH (i + 1) ((c_tag e, e) :: es) subs d); try assumption; [lia|now constructor].
Qed.
Lemma new_good file : Forall (urange 8) file -> forall left start end_ d, 0 <= start -> ciff_new left file start end_ = Ok d -> good_dir file d.
Proof.
  intros U. induction left as [|l IH]; intros start end_ d S0 E; rewrite new_eq in E;
    (destruct (4 <=? end_); [|discriminate]); cbn [bind] in E; (destruct (le_at file (end_ - 4) 4) as [vs| |] eqn:E1; [|discriminate|discriminate]); cbn [bind] in E;
    (destruct (le_at file (start + vs) 2) as [n| |]; [|discriminate|discriminate]); cbn [bind] in E; pose proof (le_pos _ _ _ _ U E1).
  - apply (loop_good file None start (start + vs + 2) U S0 ltac:(lia)) in E; [exact E|discriminate|lia|constructor|constructor].
  - apply (loop_good file (Some (ciff_new l file)) start (start + vs + 2) U S0 ltac:(lia)) in E; [exact E| |lia|constructor|constructor].
    intros g a b d' Eg A0 Eq. assert (g = ciff_new l file) by congruence. subst g. now apply (IH a b).
Qed.
Lemma find_good file d t e : good_dir file d -> ciff_find d t = Some e -> good file (t, e).
Proof.
  revert d. fix F 1. intros [es subs] G. inversion G as [? ? G1 G2]; subst. clear G. cbn [ciff_find].
  destruct (map_get t es) as [x|] eqn:E.
  - intros E'. assert (x = e) by congruence. subst x. clear E'. induction G1 as [|[t' e'] es Ge _ IH]; [discriminate|]. cbn [map_get] in E. destruct (Z.eqb_spec t' t) as [->|]; [|now apply IH].
    assert (e' = e) by congruence. now subst.
  - clear E G1 es. revert G2. induction subs as [|d subs IH]; intros G2; [discriminate|]. destruct (ciff_find d t) as [x|] eqn:Ed.
    + intros E'. assert (x = e) by congruence. subst x. apply (F d); [|exact Ed]. now inversion G2.
    + apply IH. now inversion G2.
Qed.
Lemma entries_good file d t e : Forall (urange 8) file -> ciff_file file = Ok d -> ciff_find d t = Some e ->
  c_tag e = t /\ c_typ e = (t / 0x800) mod 8 * 0x800 /\ Z.of_nat (length (c_data e)) = c_size e /\ at_ file (c_off e) (c_data e).
Proof.
  intros U. unfold ciff_file. destruct (le_at file 2 4) as [s| |] eqn:E1; [|discriminate|discriminate]. cbn [bind]. intros E2 E3.
  apply (find_good file d t e); [|exact E3]. apply (new_good file U 9 s _ d (le_pos _ _ _ _ U E1) E2).
Qed.
