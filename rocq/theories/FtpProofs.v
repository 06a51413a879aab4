(** Proofs about FTP command framing. *)
From Coq Require Import Ascii String List ZArith Bool Lia.
From Verif Require Import Base BaseLemmas Ftp FtpSpec.
Import ListNotations.
Open Scope Z_scope.

Lemma find_crlf_cons a t : find_crlf (a :: t) =
  match t with b :: _ => if (a =? 13) && (b =? 10) then Some O else option_map S (find_crlf t) | [] => None end.
Proof. destruct t; reflexivity. Qed.

Lemma find_none s : find_crlf s = None <-> crlf_free s.
Proof.
  induction s as [|a s IH].
  - split; [intros _ x y E; destruct x; discriminate|reflexivity].
  - rewrite find_crlf_cons. destruct s as [|b s].
    + split; [intros _ x y E; destruct x as [|? [|? ?]]; discriminate|reflexivity].
    + destruct (a =? 13) eqn:Ea; destruct (b =? 10) eqn:Eb; cbn [andb].
      1: { apply Z.eqb_eq in Ea, Eb. subst. split; [discriminate|]. intros F. destruct (F [] s eq_refl). }
      all: split; intros H.
      all: try (assert (F : crlf_free (b :: s)) by (apply IH; destruct (find_crlf (b :: s)); [discriminate|reflexivity])).
      all: try (intros [|x xs] y E; [injection E as E1 E2 E3; subst; cbn in *; lia|injection E as E1 E2; now apply (F xs y)]).
      all: assert (N : find_crlf (b :: s) = None) by (apply IH; intros x y E; apply (H (a :: x) y); now rewrite E); now rewrite N.
Qed.

Lemma find_line l t : crlf_free l -> find_crlf (l ++ 13 :: 10 :: t) = Some (length l).
Proof.
  induction l as [|a l IH]; intros F; [reflexivity|].
  cbn [app length]. rewrite find_crlf_cons.
  assert (F' : crlf_free l) by (intros x y E; apply (F (a :: x) y); now rewrite E).
  rewrite (IH F'). destruct l as [|b l].
  - cbn [app]. change (13 =? 10) with false. rewrite andb_false_r. reflexivity.
  - cbn [app]. destruct ((a =? 13) && (b =? 10)) eqn:E; [|reflexivity].
    apply andb_true_iff in E as [E1 E2]. apply Z.eqb_eq in E1, E2. subst. destruct (F [] l eq_refl).
Qed.

Lemma find_some s : forall i, find_crlf s = Some i -> exists l t, s = l ++ 13 :: 10 :: t /\ length l = i /\ crlf_free l.
Proof.
  induction s as [|a s IH]; intros i H; [discriminate|]. rewrite find_crlf_cons in H. destruct s as [|b s]; [discriminate|].
  destruct ((a =? 13) && (b =? 10)) eqn:E.
  - apply andb_true_iff in E as [E1 E2]. apply Z.eqb_eq in E1, E2. subst. injection H as <-. exists [], s.
    split; [reflexivity|]. split; [reflexivity|]. intros x y E. destruct x; discriminate.
  - destruct (find_crlf (b :: s)) as [j|] eqn:Ej; [|discriminate]. injection H as <-.
    destruct (IH j eq_refl) as (l & t & E1 & E2 & F). exists (a :: l), t. rewrite E1. split; [reflexivity|]. split; [cbn; lia|].
    intros x y Ex. destruct x as [|x0 x].
    + destruct l as [|l0 l]; [discriminate|]. cbn in Ex. injection Ex as -> -> _. cbn in E1. injection E1 as -> _. discriminate.
    + cbn in Ex. injection Ex as -> Ex. now apply (F x y).
Qed.

Lemma lines_exist : forall n s, (length s <= n)%nat -> exists ls rest, lines_of s ls rest.
Proof.
  induction n; intros s Hn; destruct (find_crlf s) as [i|] eqn:E.
  - destruct s; [discriminate|cbn in Hn; lia].
  - exists [], s. repeat split; [constructor|]. now apply find_none.
  - destruct (find_some s i E) as (l & t & -> & _ & F).
    destruct (IHn t) as (ls & rest & E1 & F1 & F2); [rewrite app_length in Hn; cbn in Hn; lia|].
    exists (l :: ls), rest. split; [|split; [now constructor|exact F2]].
    cbn [map concat]. rewrite <- !app_assoc. cbn [app]. now rewrite <- E1.
  - exists [], s. repeat split; [constructor|]. now apply find_none.
Qed.

Lemma lines_cons s l ls rest : lines_of s (l :: ls) rest -> exists t, s = l ++ 13 :: 10 :: t /\ crlf_free l /\ lines_of t ls rest.
Proof.
  intros (E & F & G). inversion F; subst. exists (concat (map (fun l => l ++ [13; 10]) ls) ++ rest). cbn [map concat].
  rewrite <- !app_assoc. split; [reflexivity|]. split; [assumption|]. split; [reflexivity|]. now split.
Qed.
Lemma lines_nil s rest : lines_of s [] rest -> s = rest /\ crlf_free s.
Proof. intros (E & _ & G). cbn in E. now subst. Qed.

Lemma app_inj_length {A} (a a' b b' : list A) : length a = length a' -> a ++ b = a' ++ b' -> a = a' /\ b = b'.
Proof.
  revert a'. induction a as [|x a IH]; intros [|x' a'] L E; cbn in L; try lia; [auto|].
  cbn in E. injection E as -> E. destruct (IH a' ltac:(lia) E) as [-> ->]. auto.
Qed.

Lemma lines_unique : forall ls s rest ls' rest', lines_of s ls rest -> lines_of s ls' rest' -> ls = ls' /\ rest = rest'.
Proof.
  induction ls as [|l ls IH]; intros s rest [|l' ls'] rest' H H'.
  - apply lines_nil in H as [<- _], H' as [<- _]. auto.
  - apply lines_nil in H as [<- F]. apply lines_cons in H' as (t & -> & _ & _). destruct (F l' t eq_refl).
  - apply lines_nil in H' as [<- F]. apply lines_cons in H as (t & -> & _ & _). destruct (F l t eq_refl).
  - apply lines_cons in H as (t & -> & F & H). apply lines_cons in H' as (t' & E & F' & H').
    pose proof (find_line l t F) as L. rewrite E, (find_line l' t' F') in L. injection L as L.
    assert (l = l' /\ 13 :: 10 :: t = 13 :: 10 :: t') as [<- Et].
    { apply app_inj_length; [lia|exact E]. }
    injection Et as <-. destruct (IH t rest ls' rest' H H') as [<- <-]. auto.
Qed.

(** commands of complete lines, with the verdict whether all were well-formed *)
Fixpoint commands (ls : list bytes) : list item * bool :=
  match ls with
  | [] => ([], true)
  | l :: ls => match command_new l with Some c => let '(is, b) := commands ls in (Cmd c :: is, b) | None => ([Bad], false) end
  end.

Lemma decode_line l t : crlf_free l -> decode (l ++ 13 :: 10 :: t) = (Line (command_new l), t).
Proof.
  intros F. unfold decode. rewrite (find_line l t F). f_equal.
  - now rewrite firstn_app, Nat.sub_diag, firstn_all, firstn_O, app_nil_r.
  - rewrite skipn_app, skipn_all, Nat.sub_diag. reflexivity.
Qed.

Lemma drain_ok : forall ls fuel s rest, (length s < fuel)%nat -> lines_of s ls rest ->
  drain fuel s = (fst (commands ls), if snd (commands ls) then Some rest else None).
Proof.
  induction ls as [|l ls IH]; intros fuel s rest Hf H.
  - apply lines_nil in H as [-> F]. destruct fuel; [lia|]. cbn. unfold decode. now rewrite (proj2 (find_none rest) F).
  - apply lines_cons in H as (t & -> & F & H). destruct fuel; [lia|]. cbn [drain].
    rewrite (decode_line l t F). cbn [commands]. destruct (command_new l); [|reflexivity].
    rewrite app_length in Hf. cbn [length] in Hf. rewrite (IH fuel t rest ltac:(lia) H).
    destruct (commands ls). reflexivity.
Qed.

Lemma recognised_app ls1 : forall ls2 rest, recognised (ls1 ++ ls2) rest =
  fst (commands ls1) ++ if snd (commands ls1) then recognised ls2 rest else [].
Proof.
  induction ls1 as [|l ls1 IH]; intros ls2 rest; [reflexivity|]. cbn [app recognised commands].
  destruct (command_new l); [|reflexivity]. rewrite IH. destruct (commands ls1). reflexivity.
Qed.

Lemma framed_ok : forall chunks buf ls rest, crlf_free buf -> lines_of (buf ++ concat chunks) ls rest ->
  framed buf chunks = recognised ls rest.
Proof.
  induction chunks as [|c chunks IH]; intros buf ls rest F H.
  - cbn [concat] in H. rewrite app_nil_r in H.
    destruct (lines_unique [] buf buf ls rest) as [<- <-]; [|exact H|reflexivity].
    split; [reflexivity|]. split; [constructor|exact F].
  - cbn [framed concat] in *. rewrite app_assoc in H.
    destruct (lines_exist _ (buf ++ c) (le_n _)) as (ls1 & rest1 & H1).
    rewrite (drain_ok ls1 _ _ rest1 (Nat.lt_succ_diag_r _) H1).
    destruct (lines_exist _ (rest1 ++ concat chunks) (le_n _)) as (ls2 & rest2 & H2).
    destruct (lines_unique ls (buf ++ c ++ concat chunks) rest (ls1 ++ ls2) rest2) as [-> ->].
    { rewrite app_assoc. exact H. }
    { destruct H1 as (E1 & F1 & G1), H2 as (E2 & F2 & G2). split; [|split; [now apply Forall_app|exact G2]].
      rewrite app_assoc, E1, <- app_assoc, E2, map_app, concat_app, <- app_assoc. reflexivity. }
    rewrite recognised_app. destruct (snd (commands ls1)).
    + f_equal. apply IH; [apply H1|exact H2].
    + reflexivity.
Qed.

Lemma framing chunks ls rest : lines_of (concat chunks) ls rest -> framed [] chunks = recognised ls rest.
Proof. intros H. apply framed_ok; [|exact H]. intros a b E. destruct a; discriminate. Qed.

Lemma framing_segmentation chunks chunks' : concat chunks = concat chunks' -> framed [] chunks = framed [] chunks'.
Proof.
  intros E. destruct (lines_exist _ (concat chunks) (le_n _)) as (ls & rest & H).
  rewrite (framing chunks ls rest H). rewrite E in H. now rewrite (framing chunks' ls rest H).
Qed.

Lemma lines_total s : exists ls rest, lines_of s ls rest /\ forall ls' rest', lines_of s ls' rest' -> ls' = ls /\ rest' = rest.
Proof.
  destruct (lines_exist _ s (le_n _)) as (ls & rest & H). exists ls, rest. split; [exact H|].
  intros ls' rest' H'. now apply (lines_unique ls' s).
Qed.

(** ** commands *)
Lemma split_blank_none w : ~ In 32 w -> split_blank w = (w, None).
Proof.
  induction w as [|b w IH]; intros H; [reflexivity|]. cbn. destruct (Z.eqb_spec b 32) as [->|_]; [destruct H; now left|].
  rewrite IH; [reflexivity|]. intros I. apply H. now right.
Qed.
Lemma split_blank_some w s : ~ In 32 w -> split_blank (w ++ 32 :: s) = (w, Some s).
Proof.
  induction w as [|b w IH]; intros H; [reflexivity|]. cbn. destruct (Z.eqb_spec b 32) as [->|_]; [destruct H; now left|].
  rewrite IH; [reflexivity|]. intros I. apply H. now right.
Qed.
Lemma upper_32 b : upper b = 32 -> b = 32.
Proof. unfold upper, inr. destruct (_ && _) eqn:E; [|auto]. apply andb_true_iff in E as [E1 E2]. lia. Qed.
Lemma no_blank w : ~ In 32 (map upper w) -> ~ In 32 w.
Proof. intros H I. apply H. change 32 with (upper 32). now apply in_map. Qed.
Lemma upper_idem b : upper (upper b) = upper b.
Proof.
  unfold upper at 2 3. destruct (inr 97 122 b) eqn:E; [|unfold upper; now rewrite E].
  unfold upper. unfold inr in *. apply andb_true_iff in E as [E1 E2].
  destruct (97 <=? b - 32) eqn:A; [|reflexivity]. apply Z.leb_le in A, E1, E2. lia.
Qed.

Lemma verb_case w d : ~ In 32 w -> command_new (w ++ d) = command_new (map upper w ++ d) \/ (exists x y, d = x :: y /\ x <> 32).
Proof.
  intros H.
  assert (H' : ~ In 32 (map upper w)).
  { intros I. apply in_map_iff in I as (b & E & I). apply upper_32 in E. now subst. }
  assert (I : map upper (map upper w) = map upper w) by (rewrite map_map; apply map_ext; intros; apply upper_idem).
  destruct d as [|x d].
  - left. rewrite !app_nil_r. unfold command_new. rewrite (split_blank_none w H), (split_blank_none _ H'), I. reflexivity.
  - destruct (Z.eq_dec x 32) as [->|N]; [|right; eauto]. left. unfold command_new.
    rewrite (split_blank_some w d H), (split_blank_some _ d H'), I. reflexivity.
Qed.

Lemma bytes_eqb_refl a : bytes_eqb a a = true.
Proof. unfold bytes_eqb. destruct (list_eq_dec Z.eq_dec a a); congruence. Qed.

Lemma verb_no_blank v w : ~ In 32 (str v) -> map upper w = str v -> ~ In 32 w.
Proof. intros H E. apply no_blank. now rewrite E. Qed.

Lemma path_verb v k w s : In (v, k) path_verbs -> map upper w = str v -> utf8 s = true ->
  command_new (w ++ 32 :: s) = Some (k (components s)).
Proof.
  intros Hin E U.
  assert (B : ~ In 32 w).
  { apply (verb_no_blank v); [|exact E]. cbn in Hin. intuition; match goal with H : _ = (v, k) |- _ => injection H as <- <- end; cbn in *; intuition discriminate. }
  unfold command_new. rewrite (split_blank_some w s B), E. unfold path_arg, utf8_arg. rewrite U.
  cbn in Hin. intuition; match goal with H : _ = (v, k) |- _ => injection H as <- <- end; reflexivity.
Qed.
Lemma text_verb v k w s : In (v, k) text_verbs -> map upper w = str v -> utf8 s = true ->
  command_new (w ++ 32 :: s) = Some (k s).
Proof.
  intros Hin E U.
  assert (B : ~ In 32 w).
  { apply (verb_no_blank v); [|exact E]. cbn in Hin. intuition; match goal with H : _ = (v, k) |- _ => injection H as <- <- end; cbn in *; intuition discriminate. }
  unfold command_new. rewrite (split_blank_some w s B), E. unfold path_arg, utf8_arg. rewrite U.
  cbn in Hin. intuition; match goal with H : _ = (v, k) |- _ => injection H as <- <- end; reflexivity.
Qed.
Lemma plain_verb v c w d : In (v, c) plain_verbs -> map upper w = str v -> (d = [] \/ exists s, d = 32 :: s) ->
  command_new (w ++ d) = Some c.
Proof.
  intros Hin E D.
  assert (B : ~ In 32 w).
  { apply (verb_no_blank v); [|exact E]. cbn in Hin. intuition; match goal with H : _ = (v, c) |- _ => injection H as <- <- end; cbn in *; intuition discriminate. }
  destruct D as [->|[s ->]]; unfold command_new.
  - rewrite app_nil_r, (split_blank_none w B), E.
    cbn in Hin. intuition; match goal with H : _ = (v, c) |- _ => injection H as <- <- end; reflexivity.
  - rewrite (split_blank_some w s B), E.
    cbn in Hin. intuition; match goal with H : _ = (v, c) |- _ => injection H as <- <- end; reflexivity.
Qed.

Lemma digits_range s : forall acc v, 0 <= acc <= 255 -> digits acc s = Some v -> 0 <= v <= 255.
Proof.
  induction s as [|b s IH]; intros acc v H E; cbn in E; [congruence|].
  destruct (inr 48 57 b) eqn:B; [|discriminate]. destruct (_ <=? 255) eqn:L; [|discriminate].
  apply andb_true_iff in B as [B1 B2]. apply Z.leb_le in L, B1, B2. refine (IH _ _ _ E). lia.
Qed.
Lemma u8_range s v : u8_from_str s = Some v -> 0 <= v <= 255.
Proof.
  unfold u8_from_str. destruct s as [|b [|c s]]; [discriminate| |].
  - apply digits_range. lia.
  - destruct (b =? 43); apply digits_range; lia.
Qed.
Lemma filter_map_in {A B} (f : A -> option B) l b : In b (filter_map f l) -> exists a, In a l /\ f a = Some b.
Proof.
  unfold filter_map. intros H. apply in_flat_map in H as (a & Ha & Hb). exists a. split; [exact Ha|].
  destruct (f a); [destruct Hb as [->|[]]; reflexivity|destruct Hb].
Qed.

Lemma option_map_port {A} (k : A -> command) o p : (forall a, k a <> Port p) -> option_map k o <> Some (Port p).
Proof. intros H. destruct o; cbn; intros E; [|discriminate]. injection E as E. now apply (H a). Qed.

Lemma port_range l p : command_new l = Some (Port p) -> 1024 < p <= 65535.
Proof.
  unfold command_new. destruct (split_blank l) as [word data]. intros H.
  repeat match type of H with
  | (if bytes_eqb ?w (str "PORT") then _ else _) = _ => destruct (bytes_eqb w (str "PORT")); [revert H|]
  | (if ?b then _ else _) = _ => destruct b; [first [discriminate|exfalso; revert H; apply option_map_port; discriminate
                                   |exfalso; destruct data as [[|? ?]|]; try discriminate; destruct (z =? 65); try discriminate; destruct (z =? 73); discriminate]|]
  | Some _ = _ => discriminate
  end.
  destruct data as [d|]; [|discriminate].
  set (f := fun w => if utf8 w then u8_from_str w else None).
  assert (R : forall x, In x (filter_map f (split_on 44 d)) -> 0 <= x <= 255).
  { intros x Hx. apply filter_map_in in Hx as (w & _ & Hw). unfold f in Hw. destruct (utf8 w); [|discriminate]. now apply u8_range in Hw. }
  destruct (filter_map f (split_on 44 d)) as [|a [|b [|c [|e [|hi [|lo [|]]]]]]]; try discriminate.
  destruct (Z.leb_spec (hi * 256 + lo) 1024); [discriminate|]. intros H'. injection H' as <-.
  assert (0 <= hi <= 255) by (apply R; cbn; tauto). assert (0 <= lo <= 255) by (apply R; cbn; tauto). lia.
Qed.

(** ** path components *)
Lemma split_on_ne c s : split_on c s <> [].
Proof. destruct s as [|b s]; cbn; [discriminate|]. destruct (split_on c s); [discriminate|]. destruct (b =? c); discriminate. Qed.
Lemma split_on_free c s : Forall (fun w => ~ In c w) (split_on c s).
Proof.
  induction s as [|b s IH]; cbn; [repeat constructor; auto|].
  destruct (split_on c s) as [|w ws] eqn:E; [now apply split_on_ne in E|].
  inversion IH as [|? ? Hw Hws]; subst. destruct (Z.eqb_spec b c) as [->|N].
  - constructor; [auto|]. now constructor.
  - constructor; [|exact Hws]. intros [->|I]; auto.
Qed.

Definition good_name (n : name) : Prop := n <> [] /\ ~ In 47 n /\ n <> str "." /\ n <> str "..".
Lemma bytes_eqb_neq a b : bytes_eqb a b = false -> a <> b.
Proof. unfold bytes_eqb. destruct (list_eq_dec Z.eq_dec a b); [discriminate|auto]. Qed.

Lemma components_names s n : In (Normal n) (comps (components s)) -> good_name n.
Proof.
  unfold components. cbn [comps]. intros H.
  assert (H' : In (Normal n) (map comp_of (filter (fun w => negb (bytes_eqb w [] || bytes_eqb w (str "."))) (split_on 47 s)))).
  { destruct (_ && _) in H; [destruct H as [H|H]; [discriminate|exact H]|exact H]. }
  clear H. apply in_map_iff in H' as (w & E & I). apply filter_In in I as [I K].
  apply negb_true_iff, orb_false_iff in K as [K1 K2].
  unfold comp_of in E. rewrite K2 in E. destruct (bytes_eqb w (str "..")) eqn:K3; [discriminate|]. injection E as <-.
  pose proof (split_on_free 47 s) as F. rewrite Forall_forall in F. specialize (F w I).
  repeat split; auto using bytes_eqb_neq.
Qed.

(** ** replies *)
Lemma crlf_free_app a b : ~ In 13 a -> crlf_free b -> crlf_free (a ++ b).
Proof.
  intros N F. induction a as [|x a IH]; [exact F|].
  assert (F' : crlf_free (a ++ b)) by (apply IH; intros I; apply N; now right).
  intros [|y u] v E; cbn in E; injection E as -> E.
  - apply N. now left.
  - now apply (F' u v).
Qed.

Lemma code3_digits code : 100 <= code <= 999 -> exists a b c, code3 code = [a; b; c] /\ 49 <= a <= 57 /\ 48 <= b <= 57 /\ 48 <= c <= 57.
Proof.
  intros H. unfold code3. do 3 eexists. split; [reflexivity|].
  assert (1 <= code / 100 <= 9) by (split; [apply Z.div_le_lower_bound; lia|apply Z.lt_succ_r, Z.div_lt_upper_bound; lia]).
  pose proof (Z.mod_pos_bound (code / 10) 10). pose proof (Z.mod_pos_bound code 10). lia.
Qed.

Definition guarded (l : bytes) : bytes := match l with b :: _ => if inr 48 57 b then 32 :: l else l | [] => l end.
Lemma reply_line_guarded l : reply_line l = guarded l ++ [13; 10].
Proof. destruct l as [|b l]; [reflexivity|]. cbn. destruct (inr 48 57 b); reflexivity. Qed.

Lemma reply_framing code message lines : 100 <= code <= 999 -> crlf_free message -> Forall crlf_free lines ->
  exists ls, lines_of (encode_answer code message lines) ls [] /\ reply_lines (code3 code) ls.
Proof.
  intros Hc Hm Hl. destruct (code3_digits code Hc) as (a & b & c & E & Ha & Hb & Hd).
  assert (N : forall p, Forall (fun x => x <> 13) p -> ~ In 13 ([a; b; c] ++ p)).
  { intros p Hp I. apply in_app_or in I as [I|I]; [cbn in I; lia|]. rewrite Forall_forall in Hp. now apply (Hp 13). }
  assert (F0 : crlf_free []) by (intros x y X; destruct x; discriminate).
  unfold encode_answer. rewrite E. destruct lines as [|l0 lines].
  - destruct message as [|m0 message].
    + exists [[a; b; c]]. split.
      * split; [reflexivity|]. split; [|exact F0]. constructor; [|constructor]. rewrite <- (app_nil_r [a; b; c]). apply crlf_free_app; [|exact F0].
        cbn. lia.
      * apply rl_single; [reflexivity|now left].
    + exists [[a; b; c] ++ [32] ++ m0 :: message]. split.
      * split; [cbn [map concat]; now rewrite !app_nil_r, <- !app_assoc|]. split; [|exact F0]. constructor; [|constructor].
        rewrite app_assoc. apply crlf_free_app; [|exact Hm]. apply N. repeat constructor. lia.
      * apply rl_single; [reflexivity|]. right. exists (m0 :: message). reflexivity.
  - set (mid := map guarded (l0 :: lines)).
    exists (([a; b; c] ++ str "- " ++ message) :: mid ++ [[a; b; c] ++ str " end"]). split.
    + split; [|split; [|exact F0]].
      * cbn [map concat]. rewrite map_app, concat_app. cbn [map concat]. rewrite !app_nil_r.
        assert (EM : concat (map (fun l => l ++ [13; 10]) mid) = flat_map reply_line (l0 :: lines)).
        { unfold mid. rewrite map_map, flat_map_concat_map. f_equal. apply map_ext. intros l. symmetry. apply reply_line_guarded. }
        unfold bytes in *. rewrite EM. rewrite <- !app_assoc. reflexivity.
      * constructor; [|apply Forall_app; split].
        -- rewrite app_assoc. apply crlf_free_app; [|exact Hm]. apply N. repeat constructor; cbn; lia.
        -- unfold mid. apply Forall_map. eapply Forall_impl; [|exact Hl]. intros l F. destruct l as [|x l]; [exact F|].
           cbn. destruct (inr 48 57 x); [|exact F]. apply (crlf_free_app [32]); [cbn; lia|exact F].
        -- constructor; [|constructor]. rewrite <- (app_nil_r (_ ++ _)). apply crlf_free_app; [|exact F0].
           apply N. repeat constructor; cbn; lia.
    + apply rl_multi; [reflexivity| | |].
      * exists (32 :: message). reflexivity.
      * exists (str "end"). reflexivity.
      * unfold mid. apply Forall_map, Forall_forall. intros l _ (r & Er). destruct l as [|x l]; cbn in Er; [discriminate|].
        destruct (inr 48 57 x) eqn:X; injection Er as E1 _; [lia|]. subst x.
        unfold inr in X. apply andb_false_iff in X as [X|X]; apply Z.leb_gt in X; lia.
Qed.
