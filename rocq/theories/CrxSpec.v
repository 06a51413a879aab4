(** Specification of the CRX band coding: an encoder written from the format
    description (run lengths of ITU T.87 A.7.1, adaptive Golomb-Rice codes with
    an escape, median edge prediction).  It works on the samples of a line and
    of the line above it and knows nothing of the decoder's buffers. *)
From Coq Require Import List ZArith Bool.
From Verif Require Import Base.
Import ListNotations.
Open Scope Z_scope.

(** Sign folded into bit 0: 0, -1, 1, -2, 2, … become 0, 1, 2, 3, 4, … *)
Definition fold_sign (x : Z) : Z := if 0 <=? x then 2 * x else - 2 * x - 1.

(** Golomb-Rice code with parameter [k]: the quotient by 2^k as that many zero
    bits, a one bit, then the [k] low bits; quotients of 41 and more are
    announced by 41 zeros and the value follows in 21 bits. *)
Definition rice_code (k : nat) (v : Z) : list bool :=
  if v / 2 ^ Z.of_nat k <? 41
  then repeat false (Z.to_nat (v / 2 ^ Z.of_nat k)) ++ true :: bits_of k v
  else repeat false 41 ++ true :: bits_of 21 v.

(** The parameter after value [v]: one or two up for large quotients, one down
    for values below half of 2^k. *)
Definition next_k (k : nat) (v : Z) : nat :=
  let q := v / 2 ^ Z.of_nat k in
  if 5 <? q then S (S k) else if 2 <? q then S k else if v <? 2 ^ Z.of_nat k / 2 then Nat.pred k else k.

(** Table J of T.87 A.2.1. *)
Definition T87_J : list nat :=
  [0; 0; 0; 0; 1; 1; 1; 1; 2; 2; 2; 2; 3; 3; 3; 3; 4; 4; 5; 5; 6; 6; 7; 7; 8; 9; 10; 11; 12; 13; 14; 15]%nat.

(** T.87 A.7.1.2: [rem] further samples of a run, [eol] when the run reaches
    the end of the line; the run index before and after. *)
Fixpoint run_code (fuel s rem : nat) (eol : bool) : list bool * nat :=
  match fuel with
  | O => ([], s)
  | S fuel =>
    let j := nth s T87_J 0%nat in
    if eol && (rem =? 0)%nat then ([], s)
    else if (2 ^ j <=? rem)%nat then
      let '(b, s') := run_code fuel (Nat.min (s + 1) 31) (rem - 2 ^ j) eol in (true :: b, s')
    else if eol then ([true], s)
    else (false :: bits_of j (Z.of_nat rem), (s - 1)%nat)
  end.

(** Number of leading elements equal to [a]. *)
Fixpoint run_length (a : Z) (l : list Z) : nat :=
  match l with [] => O | x :: t => if x =? a then S (run_length a t) else O end.

(** Median edge detection (T.87 A.4): the median of a, b and a + b - c. *)
Definition med3 (a b c : Z) : Z := Z.max (Z.min a b) (Z.min (Z.max a b) (a + b - c)).

(** What distinguishes the four kinds of lines: the value left of column [i],
    whether a run starts at column [i], the prediction, the prediction after a
    run, how much the codes after a run are lowered and the parameter [k]
    after coding [v] at column [i]. *)
Record kind := mk_kind {
  kd_left : nat -> Z; kd_run : nat -> bool; kd_pred : nat -> Z; kd_rpred : nat -> Z;
  kd_low : Z; kd_next : nat -> Z -> nat -> nat }.

(** Coding of the columns from [i] on: the bits, the parameter after each
    column (0 inside runs), the last parameter and the run index. *)
Fixpoint line_code (K : kind) (row : list Z) (fuel i k s : nat) : list bool * list nat * nat * nat :=
  match fuel with
  | O => ([], [], k, s)
  | S fuel =>
    let w := length row in
    let n := (w - i)%nat in
    if (n =? 0)%nat then ([], [], k, s)
    else if (1 <? n)%nat && kd_run K i then
      let r := run_length (kd_left K i) (skipn i row) in
      let '(rb, s1) := match r with
                       | O => ([false], s)
                       | S r' => let '(b, s1) := run_code (S r') s r' (r =? n)%nat in (true :: b, s1)
                       end in
      let j := (i + r)%nat in
      if (j =? w)%nat then (rb, repeat 0%nat r, k, s1)
      else
        let v := fold_sign (nth j row 0 - kd_rpred K j) - kd_low K in
        let k1 := kd_next K j v k in
        let '(b, ks, k2, s2) := line_code K row fuel (S j) k1 s1 in
        (rb ++ rice_code k v ++ b, repeat 0%nat r ++ k1 :: ks, k2, s2)
    else
      let v := fold_sign (nth i row 0 - kd_pred K i) in
      let k1 := kd_next K i v k in
      let '(b, ks, k2, s2) := line_code K row fuel (S i) k1 s in
      (rice_code k v ++ b, k1 :: ks, k2, s2)
  end.

(** LL band, first line: prediction by the left neighbour. *)
Definition kind_top (row : list Z) : kind :=
  let left i := match i with O => 0 | S i' => nth i' row 0 end in
  mk_kind left (fun i => left i =? 0) left (fun _ => 0) 0 (fun _ v k => Nat.min 15 (next_k k v)).

(** LL band, other lines: median edge prediction from the line above; the
    parameter also follows the next gradient of that line. *)
Definition kind_nontop (above row : list Z) : kind :=
  let up i := nth i above 0 in
  let left i := match i with O => up 0%nat | S i' => nth i' row 0 end in
  let pred i := match i with O => up 0%nat | S i' => med3 (left i) (up i) (up i') end in
  mk_kind left (fun i => (left i =? up i) && (left i =? up (S i))) pred up 0
    (fun i v k => Nat.min 15 (next_k k (if (S i <? length row)%nat then (v + 2 * Z.abs (up (S i) - up i)) / 2 else v))).

(** Other bands, first line: no prediction. *)
Definition kind_top_nr (row : list Z) : kind :=
  let left i := match i with O => 0 | S i' => nth i' row 0 end in
  mk_kind left (fun i => left i =? 0) (fun _ => 0) (fun _ => 0) 1 (fun _ v k => Nat.min 15 (next_k k v)).

(** Other bands, other lines: the parameter follows the one the line above
    had one column to the right. *)
Definition kind_nontop_nr (above : list Z) (ks : list nat) (row : list Z) : kind :=
  let up i := nth i above 0 in
  let left i := match i with O => 0 | S i' => nth i' row 0 end in
  mk_kind left (fun i => (left i =? 0) && (up i =? 0) && (up (S i) =? 0)) (fun _ => 0) (fun _ => 0) 1
    (fun i v k =>
       let k1 := next_k k v in
       if (S i <? length row)%nat then (if (k1 + 1 <? nth (S i) ks 0)%nat then S k1 else Nat.min 15 k1)
       else Nat.min 15 k1).

Definition line_kind (ll : bool) (above : option (list Z)) (ks : list nat) (row : list Z) : kind :=
  match above with
  | None => if ll then kind_top row else kind_top_nr row
  | Some up => if ll then kind_nontop up row else kind_nontop_nr up ks row
  end.

(** All lines of a band. *)
Fixpoint band_code (ll : bool) (above : option (list Z)) (ks : list nat) (k s : nat) (rows : list (list Z)) : list bool :=
  match rows with
  | [] => []
  | row :: t =>
    let '(b, ks1, k1, s1) := line_code (line_kind ll above ks row) row (length row) 0 k s in
    b ++ band_code ll (Some row) ks1 k1 s1 t
  end.

(** Samples the 21 bit escape can code. *)
Definition sample_ok (x : Z) : Prop := - 2 ^ 19 <= x < 2 ^ 19.
