(** Proofs about the maker note ciphers. *)
From Coq Require Import List ZArith Bool Lia Znumtheory.
From Verif Require Import Base BaseLemmas Bits Tiff TiffSpec TiffBytes Crypt CryptSpec.
Import ListNotations.
Open Scope Z_scope.

(** ** Nikon *)
Lemma lxor_twice a b : Z.lxor (Z.lxor a b) b = a.
Proof. now rewrite Z.lxor_assoc, Z.lxor_nilpotent, Z.lxor_0_r. Qed.

Lemma nef_loop_inv ci ck : forall src cj out ck', ck' = ck -> nef_loop ci cj ck' src = Ok out -> nef_loop ci cj ck' out = Ok src.
Proof.
  intros src. revert ck. induction src as [|b src IH]; intros ck cj out ck' ->; cbn [nef_loop].
  - intros [= <-]. reflexivity.
  - destruct (2 ^ 32 <=? ci * ck) eqn:E1; [discriminate|].
    destruct (2 ^ 32 <=? cj + ci * ck) eqn:E2; [discriminate|].
    destruct (2 ^ 32 <=? ck + 1) eqn:E3; [discriminate|].
    destruct (nef_loop ci (cj + ci * ck) (ck + 1) src) as [o| |] eqn:E; cbn [bind]; [|discriminate..].
    intros [= <-]. cbn [nef_loop]. rewrite E1, E2, E3.
    rewrite (IH (ck + 1) _ _ _ eq_refl E). cbn [bind]. now rewrite lxor_twice.
Qed.

Definition tri (n : nat) : Z := Z.of_nat n * Z.of_nat (S n) / 2.
Lemma tri_S n : tri (S n) = tri n + Z.of_nat (S n).
Proof.
  unfold tri. replace (Z.of_nat (S n) * Z.of_nat (S (S n))) with (Z.of_nat n * Z.of_nat (S n) + Z.of_nat (S n) * 2) by lia.
  now rewrite Z.div_add by lia.
Qed.

Lemma nef_loop_spec : forall src ci cj ck out, nef_loop ci cj ck src = Ok out ->
  length out = length src /\
  forall i, (i < length src)%nat -> nth i out 0 = Z.lxor (nth i src 0) ((cj + ci * (ck * Z.of_nat (S i) + tri i)) mod 256).
Proof.
  induction src as [|b src IH]; intros ci cj ck out; cbn [nef_loop].
  - intros [= <-]. split; [reflexivity|]. cbn. lia.
  - destruct (2 ^ 32 <=? ci * ck); [discriminate|].
    destruct (2 ^ 32 <=? cj + ci * ck); [discriminate|].
    destruct (2 ^ 32 <=? ck + 1); [discriminate|].
    destruct (nef_loop ci (cj + ci * ck) (ck + 1) src) as [o| |] eqn:E; cbn [bind]; [|discriminate..].
    intros [= <-]. apply IH in E as [El En]. cbn [length]. split; [now rewrite El|].
    intros [|i] Hi; cbn [nth].
    + f_equal. unfold wrap_u8. change (2 ^ 8) with 256. f_equal. cbn [tri]. change (tri 0) with 0. lia.
    + rewrite En by lia. f_equal. f_equal. rewrite tri_S. lia.
Qed.

Lemma nef_loop_bound : forall src ci cj ck out, src <> [] -> nef_loop ci cj ck src = Ok out ->
  cj + ci * (ck * Z.of_nat (length src) + tri (length src - 1)) < 2 ^ 32.
Proof.
  induction src as [|b src IH]; intros ci cj ck out Hn; [congruence|]. cbn [nef_loop].
  destruct (2 ^ 32 <=? ci * ck); [discriminate|].
  destruct (Z.leb_spec (2 ^ 32) (cj + ci * ck)) as [|L]; [discriminate|].
  destruct (2 ^ 32 <=? ck + 1); [discriminate|].
  destruct (nef_loop ci (cj + ci * ck) (ck + 1) src) as [o| |] eqn:E; cbn [bind]; [|discriminate..].
  intros _. destruct src as [|c src].
  - cbn [length]. change (tri (1 - 1)) with 0. change (Z.of_nat 1) with 1. rewrite Z.mul_1_r, Z.add_0_r. exact L.
  - apply IH in E; [|congruence]. cbn [length] in *.
    replace (S (length src) - 1)%nat with (length src) in E by lia.
    replace (S (S (length src)) - 1)%nat with (S (length src)) by lia. rewrite tri_S.
    eapply Z.le_lt_trans; [|exact E]. apply Z.eq_le_incl. lia.
Qed.

Lemma nef_loop_total : forall src ci cj ck, 0 <= ci -> 0 <= cj -> 0 <= ck < 2 ^ 31 -> Z.of_nat (length src) < 2 ^ 31 ->
  ck + Z.of_nat (length src) < 2 ^ 31 ->
  cj + ci * (Z.of_nat (length src) * (ck + Z.of_nat (length src))) < 2 ^ 32 -> exists out, nef_loop ci cj ck src = Ok out.
Proof.
  induction src as [|b src IH]; intros ci cj ck Hci Hcj Hck Hl Hs H; cbn [nef_loop]; [eauto|].
  cbn [length] in *. set (n := Z.of_nat (length src)) in *. replace (Z.of_nat (S (length src))) with (n + 1) in * by lia.
  assert (Hn : 0 <= n) by lia.
  assert (P1 : 0 <= ci * ck) by (apply Z.mul_nonneg_nonneg; lia).
  assert (P2 : ci * ((n + 1) * (ck + (n + 1))) = ci * ck + ci * (n * (ck + 1 + n)) + ci * (n + 1)) by ring.
  assert (P3 : 0 <= ci * (n + 1)) by (apply Z.mul_nonneg_nonneg; lia).
  assert (P4 : 0 <= ci * (n * (ck + 1 + n))) by (repeat apply Z.mul_nonneg_nonneg; lia).
  replace (2 ^ 32 <=? ci * ck) with false by (symmetry; apply Z.leb_gt; lia).
  replace (2 ^ 32 <=? cj + ci * ck) with false by (symmetry; apply Z.leb_gt; lia).
  replace (2 ^ 32 <=? ck + 1) with false by (symmetry; apply Z.leb_gt; lia).
  destruct (IH ci (cj + ci * ck) (ck + 1)) as [o E]; try lia.
  rewrite E. cbn [bind]. eauto.
Qed.

Lemma nef_loop_not_err : forall src ci cj ck, nef_loop ci cj ck src <> Err.
Proof.
  induction src as [|b src IH]; intros; cbn [nef_loop]; [discriminate|].
  destruct (_ <=? _); [discriminate|]. destruct (_ <=? _); [discriminate|]. destruct (_ <=? _); [discriminate|].
  specialize (IH ci (cj + ci * ck) (ck + 1)). destruct (nef_loop _ _ _ _); cbn [bind]; congruence.
Qed.

Lemma land255 z : 0 <= Z.land z 255 < 256.
Proof. change 255 with (2 ^ Z.of_nat 8 - 1). rewrite land_ones'. change (2 ^ Z.of_nat 8) with 256. apply Z.mod_pos_bound. lia. Qed.

Definition table_ok (t : list Z) : bool := forallb (fun b => (0 <=? b) && (b <? 256)) t && (length t =? 256)%nat.
Lemma table_get t i : table_ok t = true -> exists v, get t (Z.to_nat (Z.land i 255)) = Ok v /\ 0 <= v < 256.
Proof.
  intros H. apply andb_prop in H as [H L]. apply Nat.eqb_eq in L. rewrite forallb_forall in H.
  pose proof (land255 i) as R. assert (Hi : (Z.to_nat (Z.land i 255) < length t)%nat) by (rewrite L; lia).
  exists (nth (Z.to_nat (Z.land i 255)) t 0). split; [now apply get_ok|].
  specialize (H _ (nth_In t 0 Hi)). apply andb_prop in H as [H1 H2]. apply Z.leb_le in H1. apply Z.ltb_lt in H2. lia.
Qed.
Lemma serialmap_ok : table_ok WB_SERIALMAP = true. Proof. reflexivity. Qed.
Lemma keymap_ok : table_ok WB_KEYMAP = true. Proof. reflexivity. Qed.

Lemma nef_decrypt_inv serial key start buf out : nef_decrypt serial key start buf = Ok out ->
  exists s k src, (start <= length buf)%nat /\ 0 <= s < 256 /\ 0 <= k < 256 /\ nef_loop s k 96 (skipn start buf) = Ok src /\
    out = firstn start buf ++ src /\
    (forall start' buf', (start' <= length buf')%nat ->
       nef_decrypt serial key start' buf' = do src <- nef_loop s k 96 (skipn start' buf'); Ok (firstn start' buf' ++ src)).
Proof.
  unfold nef_decrypt. destruct (nef_serial serial 0) as [n| |]; cbn [bind]; [|discriminate..].
  destruct (slice buf start (length buf)) as [src| |] eqn:Es; cbn [bind]; [|discriminate..].
  apply slice_inv in Es as [Hb ->].
  destruct (table_get _ n serialmap_ok) as (s & -> & Hs). cbn [bind].
  destruct (table_get _ (nef_keyno key) keymap_ok) as (k & -> & Hk). cbn [bind].
  assert (G : forall (b : list Z) st, (st <= length b)%nat -> firstn (length b - st) (skipn st b) = skipn st b).
  { intros b st Hb'. rewrite firstn_all2; [reflexivity|]. rewrite skipn_length. lia. }
  rewrite G by lia.
  destruct (nef_loop s k 96 (skipn start buf)) as [src| |] eqn:E; cbn [bind]; [|discriminate..].
  intros [= <-]. exists s, k, src. split; [lia|]. split; [exact Hs|]. split; [exact Hk|]. split; [exact E|]. split; [reflexivity|].
  intros st b Hb'. rewrite slice_ok by lia. cbn [bind]. now rewrite G.
Qed.

Lemma c29_nikon_involution : forall serial key start buf out,
  nef_decrypt serial key start buf = Ok out ->
  nef_decrypt serial key start out = Ok buf.
Proof.
  intros serial key start buf out H.
  apply nef_decrypt_inv in H as (s & k & src & Hl & _ & _ & E & -> & F).
  pose proof (nef_loop_spec _ _ _ _ _ E) as [El _].
  assert (Lf : length (firstn start buf) = start) by (rewrite firstn_length; lia).
  rewrite F by (rewrite app_length; lia).
  assert (Es : skipn start (firstn start buf ++ src) = src).
  { rewrite skipn_app, Lf, Nat.sub_diag. rewrite skipn_all2 by lia. reflexivity. }
  assert (Ef : firstn start (firstn start buf ++ src) = firstn start buf).
  { rewrite firstn_app, Lf, Nat.sub_diag. rewrite firstn_all2 by lia. cbn. apply app_nil_r. }
  rewrite Es, Ef. rewrite (nef_loop_inv s 96 _ _ _ _ eq_refl E). cbn [bind]. now rewrite firstn_skipn.
Qed.

Lemma c29_nikon_mask : forall serial key start buf out,
  nef_decrypt serial key start buf = Ok out ->
  length out = length buf /\ firstn start out = firstn start buf /\
  exists s k, In s WB_SERIALMAP /\ In k WB_KEYMAP /\
    (forall start' buf' out', nef_decrypt serial key start' buf' = Ok out' ->
       forall i, (start' + i < length buf')%nat -> nth (start' + i) out' 0 = Z.lxor (nth (start' + i) buf' 0) (nikon_mask s k i)).
Proof.
  intros serial key start buf out H. pose proof H as H0.
  apply nef_decrypt_inv in H as (s & k & src & Hl & _ & _ & E & -> & F).
  pose proof (nef_loop_spec _ _ _ _ _ E) as [El En].
  assert (Lf : length (firstn start buf) = start) by (rewrite firstn_length; lia).
  split; [rewrite app_length, Lf, El, skipn_length; lia|].
  split; [rewrite firstn_app, Lf, Nat.sub_diag; rewrite firstn_all2 by lia; cbn; apply app_nil_r|].
  unfold nef_decrypt in H0.
  destruct (nef_serial serial 0) as [n| |] eqn:En0; cbn [bind] in H0; [|discriminate..].
  destruct (slice buf start (length buf)); cbn [bind] in H0; [|discriminate..].
  destruct (get WB_SERIALMAP (Z.to_nat (Z.land n 255))) as [s'| |] eqn:Gs; cbn [bind] in H0; [|discriminate..].
  destruct (get WB_KEYMAP (Z.to_nat (Z.land (nef_keyno key) 255))) as [k'| |] eqn:Gk; cbn [bind] in H0; [|discriminate..].
  exists s', k'.
  split. { apply (get_inv _ _ _ 0) in Gs as [G1 <-]. now apply nth_In. }
  split. { apply (get_inv _ _ _ 0) in Gk as [G1 <-]. now apply nth_In. }
  clear H0. intros st b o Ho i Hi. unfold nef_decrypt in Ho. rewrite En0 in Ho. cbn [bind] in Ho.
  destruct (slice b st (length b)) as [src'| |] eqn:Es; cbn [bind] in Ho; [|discriminate..].
  rewrite Gs, Gk in Ho. cbn [bind] in Ho. apply slice_inv in Es as [Hb ->].
  destruct (nef_loop s' k' 96 _) as [o'| |] eqn:E'; cbn [bind] in Ho; [|discriminate..].
  injection Ho as <-. apply nef_loop_spec in E' as [El' En'].
  rewrite app_nth2; rewrite firstn_length; [|lia]. replace (st + i - Nat.min st (length b))%nat with i by lia.
  rewrite En' by (rewrite firstn_length, skipn_length; lia).
  rewrite nth_firstn by lia. rewrite nth_skipn. reflexivity.
Qed.

Lemma nef_serial_total : forall data n d, 0 <= n -> Forall is_byte data -> n < 10 ^ Z.of_nat d -> (d + length data <= 19)%nat ->
  exists r, nef_serial data n = Ok r.
Proof.
  induction data as [|b data IH]; intros n d Hn Hb Hd Hl; cbn [nef_serial]; [eauto|].
  destruct (b =? 0); [eauto|]. inversion Hb as [|? ? B1 B2]; subst.
  set (digit := if (48 <=? b) && (b <=? 57) then b - 48 else b mod 10).
  assert (Hdig : 0 <= digit <= 9).
  { unfold digit. unfold is_byte in B1. destruct ((48 <=? b) && (b <=? 57)) eqn:C.
    - apply andb_prop in C as [C1 C2]. apply Z.leb_le in C1. apply Z.leb_le in C2. lia.
    - pose proof (Z.mod_pos_bound b 10). lia. }
  clearbody digit. cbn [length] in Hl.
  assert (Hp : n * 10 + digit < 10 ^ Z.of_nat (S d)).
  { replace (Z.of_nat (S d)) with (1 + Z.of_nat d) by lia. rewrite Z.pow_add_r by lia. lia. }
  assert (Hq : 10 ^ Z.of_nat (S d) <= 10 ^ 19) by (apply Z.pow_le_mono_r; lia).
  assert (Hr : 10 ^ 19 < 2 ^ 64) by reflexivity.
  replace (n * 10 + digit <? 2 ^ 64) with true by (symmetry; apply Z.ltb_lt; lia).
  apply (IH _ (S d)); auto; lia.
Qed.

Lemma c29_nikon_total : forall serial key start buf,
  Forall is_byte serial -> (length serial <= 19)%nat ->
  (start <= length buf)%nat -> Z.of_nat (length buf) <= Z.of_nat start + 4000 ->
  exists out, nef_decrypt serial key start buf = Ok out.
Proof.
  intros serial key start buf Hs Hl Hst Hb. unfold nef_decrypt.
  destruct (nef_serial_total serial 0 0) as [n ->]; try assumption; try (cbn; lia). cbn [bind].
  rewrite slice_ok by lia. cbn [bind].
  destruct (table_get _ n serialmap_ok) as (s & -> & Hs'). cbn [bind].
  destruct (table_get _ (nef_keyno key) keymap_ok) as (k & -> & Hk'). cbn [bind].
  set (src := firstn _ _). assert (Lsrc : Z.of_nat (length src) <= 4000).
  { unfold src. rewrite firstn_length, skipn_length. lia. }
  clearbody src. destruct (nef_loop_total src s k 96) as [o ->]; try lia; [|cbn [bind]; eauto].
  set (n' := Z.of_nat (length src)) in *. assert (0 <= n') by lia.
  assert (n' * (96 + n') <= 4000 * 4096) by (apply Z.mul_le_mono_nonneg; lia).
  assert (0 <= n' * (96 + n')) by (apply Z.mul_nonneg_nonneg; lia).
  assert (s * (n' * (96 + n')) <= 255 * (4000 * 4096)) by (apply Z.mul_le_mono_nonneg; lia). lia.
Qed.

(** a long enough buffer overflows the 32 bit accumulator *)
Lemma nikon_long_n n : Z.of_nat n = 70000 -> nef_decrypt [] 0 0 (repeat 0 n) = Panic.
Proof.
  intros Hn. unfold nef_decrypt. cbn [nef_serial bind].
  rewrite slice_ok by lia. cbn [bind].
  change (get WB_SERIALMAP (Z.to_nat (Z.land 0 255))) with (Ok 193). cbn [bind].
  change (get WB_KEYMAP (Z.to_nat (Z.land (nef_keyno 0) 255))) with (Ok 167). cbn [bind].
  rewrite Nat.sub_0_r. change (skipn 0 (repeat 0 n)) with (repeat 0 n). rewrite firstn_all.
  destruct (nef_loop 193 167 96 (repeat 0 n)) as [o| |] eqn:E; cbn [bind]; [|now apply nef_loop_not_err in E|reflexivity].
  exfalso. apply nef_loop_bound in E.
  - rewrite repeat_length in E.
    assert (0 <= tri (n - 1)) by (apply Z.div_pos; lia).
    assert (Hp : 2 ^ 32 = 4294967296) by reflexivity. rewrite Hp in E. rewrite Hn in E.
    assert (T : tri (n - 1) = 69999 * 70000 / 2).
    { unfold tri. replace (S (n - 1)) with n by lia. replace (Z.of_nat (n - 1)) with 69999 by lia. now rewrite Hn. }
    rewrite T in E. vm_compute in E. discriminate E.
  - destruct n; [cbn in Hn; lia|discriminate].
Qed.
Lemma c29_nikon_long : exists serial key buf, Forall is_byte serial /\ Forall is_byte buf /\ nef_decrypt serial key 0 buf = Panic.
Proof.
  destruct (Z_of_nat_complete 70000) as [n Hn]; [lia|].
  exists [], 0, (repeat 0 n). split; [constructor|].
  split. { apply Forall_forall. intros x Hx. apply repeat_spec in Hx. subst x. unfold is_byte. lia. }
  now apply nikon_long_n.
Qed.
