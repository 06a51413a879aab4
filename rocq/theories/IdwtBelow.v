(** A tile with another one below is never decoded to the end. *)
From Coq Require Import List ZArith Lia Bool.
From Verif Require Import Base BaseLemmas Crx Idwt IdwtSpec.
Import ListNotations.
Open Scope Z_scope.

Section Below.
Variable B : Type.
Variable next : B -> res (list Z * B).
Variables top left right : bool.
Let tile := mk_nbrs top true left right.

Ltac bind_inv H :=
  match type of H with
  | bind ?e _ = Ok _ => let v := fresh "v" in let E := fresh "E" in destruct e as [v| |] eqn:E; [cbn [bind] in H|discriminate|discriminate]
  end.
Ltac pairs := repeat match goal with v : (_ * _)%type |- _ => destruct v end.

Definition counts (s : stk B) : option (nat * nat * nat) :=
  match s with LL _ => None | Lev t _ _ _ _ => Some (t_h t, t_line t, t_cur t) end.

Lemma decode_counts s s' : filter_decode B next tile s = Ok s' -> counts s' = counts s.
Proof.
  destruct s as [b|t b1 b2 b3 below]; cbn [filter_decode]; intros H; [now injection H as <-|].
  destruct (0 <? t_cur t)%nat; [now injection H as <-|].
  bind_inv H. cbn [n_bottom tile negb] in H. rewrite andb_false_r in H.
  set (load0 := match below with LL b => _ | _ => _ end) in H.
  assert (L : forall t' x, load0 = Ok (t', x) -> (t_h t', t_line t', t_cur t') = (t_h t, t_line t, t_cur t)).
  { unfold load0. intros t' x Hx. destruct below; bind_inv Hx; pairs; injection Hx as <- <-; reflexivity. }
  clearbody load0. destruct load0 as [[t' x]| |]; try discriminate. cbn [bind] in H.
  specialize (L _ _ eq_refl).
  bind_inv H; pairs; bind_inv H; pairs; bind_inv H; pairs. injection H as <-.
  cbn [counts set_b1 set_b2 set_b3 t_h t_line t_cur]. congruence.
Qed.

Lemma transform_counts s s' h l c : filter_transform B tile s = Ok s' -> counts s = Some (h, l, c) ->
  counts s' = Some (h, l, c) \/ c = 0%nat /\ (l + 3 < h)%nat /\ counts s' = Some (h, (l + 2)%nat, 2%nat).
Proof.
  intros H Hc. destruct s as [b|t b1 b2 b3 below]; [discriminate|]. cbn [counts] in Hc. injection Hc as <- <- <-.
  cbn [filter_transform] in H. destruct (Nat.ltb_spec 0 (t_cur t)); [injection H as <-; now left|].
  bind_inv H. cbn [n_bottom tile] in H. unfold usub in E. destruct (Nat.leb_spec 3 (t_h t)); [|discriminate]. injection E as <-.
  destruct (Nat.leb_spec (t_h t - 3) (t_line t)); [injection H as <-; now left|].
  set (load0 := match below with LL b => _ | _ => _ end) in H.
  assert (L : forall t' x, load0 = Ok (t', x) -> (t_h t', t_line t', t_cur t') = (t_h t, t_line t, t_cur t)).
  { unfold load0. intros t' x Hx. destruct below as [|u c1 c2 c3 below']; [injection Hx as <- <-; reflexivity|].
    bind_inv Hx. destruct v as [|u' d1 d2 d3 below'']; [discriminate|]. bind_inv Hx. pairs. injection Hx as <- <-. reflexivity. }
  clearbody load0. destruct load0 as [[t' x]| |]; try discriminate. cbn [bind] in H.
  specialize (L _ _ eq_refl). injection L as Lh Ll Lc.
  bind_inv H. bind_inv H. bind_inv H. injection H as <-. right. split; [lia|]. split; [lia|].
  cbn [counts produce set_ring set_lines t_h t_line t_cur].
  rewrite Lh, Ll, Lc. destruct (Nat.leb_spec (t_h t - 3) (t_line t)); [lia|]. cbn [andb]. do 3 f_equal; lia.
Qed.

Lemma lines_short h : (3 <= h)%nat -> forall n s l c rows, counts s = Some (h, l, c) -> (l + 1 < h)%nat -> (c <= l)%nat ->
  plane_lines B next tile n s = Ok rows -> (l - c + n + 1 < h)%nat.
Proof.
  intros Hh. induction n; intros s l c rows Hs Hl Hc H; [lia|].
  cbn [plane_lines] in H. unfold plane_line in H. bind_inv H. bind_inv E. bind_inv E.
  assert (C0 := decode_counts _ _ E0). rewrite Hs in C0.
  destruct v1 as [|t b1 b2 b3 below]; [discriminate|]. bind_inv E. pairs. injection E as <- <-.
  unfold getline in E2. bind_inv E2. bind_inv E2. bind_inv E2. injection E2 as <- <-.
  unfold usub in E4. destruct (Nat.leb_spec 1 (t_cur t)); [|discriminate]. injection E4 as <-.
  bind_inv H.
  destruct (transform_counts _ _ _ _ _ E1 C0) as [C1|(Z0 & Z1 & C1)]; cbn [counts] in C1; injection C1 as Q1 Q2 Q3.
  - apply IHn with (l := t_line t) (c := (t_cur t - 1)%nat) in E2; [lia|cbn; now rewrite Q1|lia|lia].
  - apply IHn with (l := t_line t) (c := (t_cur t - 1)%nat) in E2; [lia|cbn; now rewrite Q1|lia|lia].
Qed.

Lemma init_counts t b1 b2 b3 below s' h : filter_init B next tile (Lev t b1 b2 b3 below) = Ok s' -> (3 <= h)%nat ->
  counts (Lev t b1 b2 b3 below) = Some (h, 0%nat, 0%nat) ->
  exists l c, counts s' = Some (h, l, c) /\ (l + 1 < h)%nat /\ l = c.
Proof.
  intros H Hh Hc. cbn [counts] in Hc. injection Hc as T1 T2 T3. cbn [filter_init] in H.
  set (load0 := match below with LL b => _ | _ => _ end) in H.
  assert (L : forall t' x, load0 = Ok (t', x) -> (t_h t', t_line t', t_cur t') = (t_h t, t_line t, t_cur t)).
  { unfold load0. intros t' x Hx. destruct below as [|u c1 c2 c3 below']; [bind_inv Hx; pairs; injection Hx as <- <-; reflexivity|].
    bind_inv Hx. destruct v as [|u' d1 d2 d3 below'']; [discriminate|]. bind_inv Hx. pairs. injection Hx as <- <-. reflexivity. }
  clearbody load0. destruct load0 as [[t' x]| |]; try discriminate. cbn [bind] in H.
  specialize (L _ _ eq_refl). injection L as Lh Ll Lc. rewrite Lh, T1 in H.
  destruct (Nat.ltb_spec 1 h); [|lia].
  bind_inv H; pairs; bind_inv H; pairs; bind_inv H; pairs. cbn [n_top tile] in H.
  destruct (bool_dec top true) as [e|e]; [|apply not_true_is_false in e]; rewrite e in H.
  - bind_inv H. bind_inv H. bind_inv H; pairs. bind_inv H; pairs. bind_inv H. bind_inv H. injection H as <-.
    exists 0%nat, 0%nat. split; [cbn [counts set_b1 set_b2 set_b3 set_lines set_ring t_h t_line t_cur]; congruence|]. lia.
  - bind_inv H. bind_inv H. bind_inv H. bind_inv H.
    assert (C0 := decode_counts _ _ E5).
    cbn [counts set_b1 set_b2 set_b3 set_lines set_ring t_h t_line t_cur] in C0. rewrite Lh, Ll, Lc, T1, T2, T3 in C0.
    destruct (transform_counts _ _ _ _ _ H C0) as [C1|(Z0 & Z1 & C1)].
    + exists 0%nat, 0%nat. split; [exact C1|]. lia.
    + exists 2%nat, 2%nat. split; [exact C1|]. lia.
Qed.

Theorem below_never h w b1 b2 b3 below rows : (3 <= h)%nat ->
  plane_decode B next (mk_nbrs top true left right) h (Lev (wt_new h w) b1 b2 b3 below) <> Ok rows.
Proof.
  intros Hh H. unfold plane_decode in H. bind_inv H.
  destruct (init_counts _ _ _ _ _ _ h E Hh eq_refl) as (l & c & Hc & Hl & ->).
  pose proof (lines_short h Hh h v c c rows Hc ltac:(lia) ltac:(lia) H). lia.
Qed.
End Below.
