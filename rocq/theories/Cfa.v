(** Colour filter arrays (rawler/src/cfa.rs) and black levels
    (rawler/src/rawimage.rs), with the part of the DNG writer and reader that
    stores them (rawler/src/dng/writer.rs, rawler/src/decoders/dng.rs).

    Characters of a pattern name are their code points.  The [[u8; 48]; 48]
    array is one list of 48 * 48 cells, cell (row, col) at 48 * row + col, and
    nested loops over rows and columns are one loop over that index. *)
From Coq Require Import List ZArith Lia Bool.
From Verif Require Import Base.
Import ListNotations.
Open Scope nat_scope.

(** TryFrom<char> for CFAColor, cfa.rs:38-55; the [expect] in [CFA::new] turns
    the error into a panic *)
Definition color_of (c : Z) : res Z :=
  (if c =? 82 then Ok 0            (* R *)
   else if c =? 71 then Ok 1       (* G *)
   else if c =? 66 then Ok 2       (* B *)
   else if c =? 69 then Ok 3       (* E *)
   else if c =? 77 then Ok 4       (* M *)
   else if c =? 89 then Ok 5       (* Y *)
   else if c =? 67 then Ok 3       (* C *)
   else Panic)%Z.

(** struct CFA, cfa.rs:73-83 *)
Record cfa := mk_cfa { c_name : list Z; c_w : nat; c_h : nat; c_pat : list Z }.

(** width and height from the length of the name, cfa.rs:121-128; 16 means
    2 wide and 8 high *)
Definition cfa_dims (n : nat) : res (nat * nat) :=
  if n =? 0 then Ok (0, 0) else if n =? 4 then Ok (2, 2) else if n =? 36 then Ok (6, 6)
  else if n =? 16 then Ok (2, 8) else if n =? 144 then Ok (12, 12) else Panic.

(** CFA::new, cfa.rs:120-150 *)
Definition cfa_new (pat : list Z) : res cfa :=
  do d <- cfa_dims (length pat);
  let '(w, h) := d in
  let p0 := repeat 0%Z (48 * 48) in
  do p <- (if 0 <? w then
      do p1 <- for_each (seq 0 (length pat)) (fun i p =>
        do ch <- get pat i;
        do v <- color_of ch;
        put p (48 * (i / w) + i mod w) v) p0;
      for_each (seq 0 (48 * 48)) (fun k p =>
        do v <- get p (48 * ((k / 48) mod h) + (k mod 48) mod w);
        put p k v) p1
    else Ok p0);
  Ok (mk_cfa pat w h p).

(** map_colors, cfa.rs:154-165: the loop reads the array it is writing *)
Definition map_colors (f : nat -> nat -> Z -> Z) (c : cfa) : res cfa :=
  do p <- for_each (seq 0 (48 * 48)) (fun k p =>
    do v <- get p (48 * ((k / 48) mod c_h c) + (k mod 48) mod c_w c);
    put p k (f ((k / 48) mod c_h c) ((k mod 48) mod c_w c) v)) (c_pat c);
  Ok (mk_cfa (c_name c) (c_w c) (c_h c) p).

(** color_at, cfa.rs:169-171 *)
Definition color_at (c : cfa) (row col : nat) : Z :=
  nth (48 * ((row + 48) mod 48) + (col + 48) mod 48) (c_pat c) 0%Z.

(** flat_pattern, cfa.rs:181-190 *)
Definition flat_pattern (c : cfa) : list Z :=
  flat_map (fun r => map (fun q => nth (48 * r + q) (c_pat c) 0%Z) (seq 0 (c_w c))) (seq 0 (c_h c)).

(** colour to name character, cfa.rs:249-257 *)
Definition char_of (v : Z) : res Z :=
  (if v =? 0 then Ok 82 else if v =? 1 then Ok 71 else if v =? 2 then Ok 66
   else if v =? 3 then Ok 67 else if v =? 4 then Ok 77 else if v =? 5 then Ok 89 else Panic)%Z.

(** shift, cfa.rs:237-267 *)
Definition cfa_shift (c : cfa) (x y : nat) : res cfa :=
  let p := map (fun k => color_at c (k / 48 + y) (k mod 48 + x)) (seq 0 (48 * 48)) in
  do name <- for_each (seq 0 (c_h c * c_w c)) (fun i n =>
    do v <- get p (48 * (i / c_w c) + i mod c_w c);
    do ch <- char_of v;
    Ok (n ++ [ch])) [];
  Ok (mk_cfa name (c_w c) (c_h c) p).

(** new_from_tag, cfa.rs:94-108: one character for each tag value *)
Definition tag_char (v : Z) : Z :=
  (if v =? 0 then 82 else if v =? 1 then 71 else if v =? 2 then 66
   else if v =? 3 then 67 else if v =? 4 then 77 else if v =? 5 then 89 else 85)%Z.
Definition cfa_from_tag (vals : list Z) : res cfa := cfa_new (map tag_char vals).

(** is_valid, cfa.rs:280-282 *)
Definition cfa_valid (c : cfa) : bool := negb (c_w c =? 0) && negb (c_h c =? 0).

(** is_rgbe, cfa.rs:204-210 *)
Definition has_char (ch : Z) (n : list Z) : bool := existsb (Z.eqb ch) n.
Definition is_rgbe (c : cfa) : bool :=
  forallb (fun ch => has_char ch [82; 71; 66; 69]%Z) (c_name c) &&
  has_char 82 (c_name c) && has_char 71 (c_name c) && has_char 66 (c_name c) && has_char 69 (c_name c).

(** CFAPattern as written, dng/writer.rs:281-288: relative to the active area *)
Definition cfa_write (c : cfa) (ax ay : nat) : res (list Z) :=
  do _ <- assert_ (cfa_valid c);
  do s <- cfa_shift c ax ay;
  Ok (flat_pattern s).

(** get_cfa, decoders/dng.rs:349-362 *)
Definition cfa_read (vals : list Z) (area : option (nat * nat)) : res cfa :=
  do c <- cfa_from_tag vals;
  match area with
  | Some (ax, ay) => do _ <- assert_ (cfa_valid c); cfa_shift c (ax mod c_w c) (ay mod c_h c)
  | None => Ok c
  end.

(** ** Black levels.  [A] is the type of a level (Rational in the code). *)

Section Black.
Context {A : Type}.

(** struct BlackLevel, rawimage.rs:65-71 *)
Record black := mk_black { b_levels : list A; b_w : nat; b_h : nat; b_cpp : nat }.

(** BlackLevel::new, rawimage.rs:91-102 *)
Definition black_new (levels : list A) (w h cpp : nat) : res black :=
  do _ <- assert_ (length levels =? w * h * cpp);
  Ok (mk_black levels w h cpp).

(** slice assignment [l[a..a + len v].copy_from_slice(v)] *)
Definition blit (l : list A) (a : nat) (v : list A) : res (list A) :=
  if a + length v <=? length l then Ok (firstn a l ++ v ++ skipn (a + length v) l) else Panic.

(** shift, rawimage.rs:145-162 *)
Definition black_shift (b : black) (x y : nat) : res black :=
  if b_cpp b * b_w b * b_h b =? 1 then Ok b
  else
    let w := b_w b in let h := b_h b in let cpp := b_cpp b in
    do l <- for_each (seq 0 (h * w)) (fun k t =>
      let yn := k / w in let xn := k mod w in
      let ys := (yn + y) mod h in let xs := (xn + x) mod w in
      do v <- slice (b_levels b) (ys * w * cpp + xs * cpp) (ys * w * cpp + xs * cpp + cpp);
      blit t (yn * w * cpp + xn * cpp) v) (b_levels b);
    Ok (mk_black l w h cpp).

(** level of channel [ch] at a sensor position: the pattern repeats *)
Definition black_at (b : black) (row col ch : nat) (d : A) : A :=
  nth ((row mod b_h b) * b_w b * b_cpp b + (col mod b_w b) * b_cpp b + ch) (b_levels b) d.

(** BlackLevel and BlackLevelRepeatDim as written, dng/writer.rs:247-268, and
    read, decoders/dng.rs:309-334.  The choice of tag type keeps the values. *)
Definition black_write (b : black) (ax ay : nat) : res (list A * (nat * nat)) :=
  do s <- black_shift b ax ay;
  Ok (b_levels s, (b_h s, b_w s)).
Definition black_read (tag : list A * (nat * nat)) (cpp : nat) : res black :=
  black_new (fst tag) (snd (snd tag)) (fst (snd tag)) cpp.
End Black.
Arguments black : clear implicits.

(** ** Plane colours *)

(** plane_lookup_table, cfa.rs:327-333 *)
Definition plane_table (colors : list nat) : res (list Z) :=
  for_each (seq 0 (length colors)) (fun p t =>
    do c <- get colors p; put t c (Z.of_nat p)) (repeat 255%Z 256).

(** cfa_index, cfa.rs:340-349: first position of a colour *)
Fixpoint find_index (c : cfa) (color : Z) (ks : list nat) : res nat :=
  match ks with
  | [] => Panic
  | k :: ks => if (color_at c (k / c_w c) (k mod c_w c) =? color)%Z then Ok k else find_index c color ks
  end.
Definition cfa_index (c : cfa) (color : Z) : res nat := find_index c color (seq 0 (c_h c * c_w c)).
