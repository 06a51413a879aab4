(** Specification of Panasonic RW2 image data: packets of 16 bytes, read as
    numbers with 128 bits. *)
From Coq Require Import List ZArith Bool.
From Verif Require Import Base SonySpec.
Import ListNotations.
Open Scope Z_scope.

(** ** Packets *)

(** in the plain order packet [p] is 16 bytes at 16 p; in the split order each
    16 KiB holds its 1024 packets from 8184 on, continued at its start *)
Definition packet_home (split : bool) (p j : nat) : nat :=
  if split then Z.to_nat (16384 * (Z.of_nat p / 1024) + (16 * (Z.of_nat p mod 1024) + Z.of_nat j + 8184) mod 16384)
  else (16 * p + j)%nat.
Definition packet (split : bool) (buf : list Z) (p : nat) : list Z := map (fun j => nth (packet_home split p j) buf 0) (seq 0 16).
Definition packet_value (split : bool) (buf : list Z) (p : nat) : Z := le_value (packet split buf p).

(** packets are stored in whole stretches of 16 KiB, or one after the other *)
Definition stretch_bytes : nat := Z.to_nat 16384.
Definition packets_of (n per : nat) : nat := ((n + per - 1) / per)%nat.
Definition stretches (n : nat) : nat := ((n + 1023) / 1024)%nat.
(** byte [i] of stored packets with the values [V], split order *)
Definition split_byte (V : nat -> Z) (i : nat) : Z :=
  let b := Z.of_nat i / 16384 in
  let a := (Z.of_nat i - 8184) mod 16384 in
  bits_at (8 * Z.to_nat (a mod 16)) 8 (V (Z.to_nat (1024 * b + a / 16))).
Definition store_split (V : nat -> Z) (n : nat) : list Z := map (split_byte V) (seq 0 (stretches n * stretch_bytes)).
Definition store_plain (V : nat -> Z) (n : nat) : list Z := flat_map (fun p => le_bytes 16 (V p)) (seq 0 n).

(** ** Formats 5 and 7: samples of [bps] bits from the lowest bit on *)

Definition per_packet (bps : nat) : nat := if (bps =? 12)%nat then 10%nat else 9%nat.
Definition packed_sample (split : bool) (bps : nat) (buf : list Z) (i : nat) : Z :=
  bits_at (bps * (i mod per_packet bps)) bps (packet_value split buf (i / per_packet bps)).
(** the samples after the last full packet stay 0 *)
Definition packed_picture (split : bool) (bps : nat) (buf : list Z) (n : nat) : list Z :=
  map (fun i => if (i <? n / per_packet bps * per_packet bps)%nat then packed_sample split bps buf i else 0) (seq 0 n).
Definition packed_value (bps : nat) (s : nat -> Z) (p : nat) : Z :=
  le_fields (map (fun j => (bps, s (p * per_packet bps + j)%nat)) (seq 0 (per_packet bps))).

(** ** Format 6: fields from the highest bit on *)

Definition v6_widths (bps : nat) : list nat :=
  if (bps =? 14)%nat then [14; 14; 2; 10; 10; 10; 2; 10; 10; 10; 2; 10; 10; 10; 4]%nat
  else [12; 12; 2; 8; 8; 8; 2; 8; 8; 8; 2; 8; 8; 8; 2; 8; 8; 8]%nat.
Definition v6_per (bps : nat) : nat := if (bps =? 14)%nat then 11%nat else 14%nat.
Definition top_field (ws : list nat) (V : Z) (j : nat) : Z := bits_at (list_sum (skipn (S j) ws)) (nth j ws 0%nat) V.
(** the code of sample [i], and the scale of it: each three samples from the
    third on have one, given before them *)
Definition v6_code (bps : nat) (V : Z) (i : nat) : Z := top_field (v6_widths bps) V (i + (i + 1) / 3).
Definition v6_scale (bps : nat) (V : Z) (i : nat) : Z :=
  let b := top_field (v6_widths bps) V (4 * ((i - 2) / 3) + 2) in if b =? 3 then 4 else b.
Definition v6_zero (bps : nat) : Z := if (bps =? 14)%nat then 512 else 128.
(** sample [k] of parity [par]: itself as long as all before it in the packet
    are zero, then relative to the one before; [None] for zeros only *)
Definition v6_next (bps : nat) (V : Z) (i : nat) (x : option Z) : option Z :=
  match x with
  | None => if v6_code bps V i =? 0 then None else Some (v6_code bps V i)
  | Some last =>
    let scale := 2 ^ v6_scale bps V i in let zero := v6_zero bps * scale in
    Some (v6_code bps V i * scale + (if (v6_scale bps V i <? 4) && (zero <? last) then last - zero else 0))
  end.
Fixpoint v6_state (bps : nat) (V : Z) (par k : nat) : option Z :=
  match k with O => None | S k => v6_next bps V (2 * k + par) (v6_state bps V par k) end.
Definition from_option (x : option Z) : Z := match x with Some v => v | None => 0 end.
(** samples are stored 15 higher; those below 15 come out far too large *)
Definition v6_result (bps : nat) (v : Z) : Z := (v - 15) mod (if (bps =? 14)%nat then 65536 else 16384).
Definition v6_sample (bps : nat) (V : Z) (i : nat) : Z := v6_result bps (from_option (v6_state bps V (i mod 2) (S (i / 2)))).
Definition v6_picture (bps : nat) (buf : list Z) (n : nat) : list Z :=
  map (fun i => v6_sample bps (packet_value false buf (i / v6_per bps)) (i mod v6_per bps)) (seq 0 n).

(** encoder without scales, for pictures where that is enough *)
Definition be_fields (fs : list (nat * Z)) : Z := fold_left (fun a '(n, x) => a * 2 ^ Z.of_nat n + x) fs 0.
Definition v6_store (bps : nat) (x : nat -> Z) (i : nat) : Z :=
  if (i <? 2)%nat then x i + 15 else x i - x (i - 2)%nat + v6_zero bps.
(** field [j]: a scale, a code or the padding *)
Definition v6_put (bps : nat) (x : nat -> Z) (j : nat) : Z :=
  if (j mod 4 =? 2)%nat then 0 else if (j - (j + 1) / 4 <? v6_per bps)%nat then v6_store bps x (j - (j + 1) / 4) else 0.
Definition v6_value (bps : nat) (x : nat -> Z) : Z :=
  be_fields (map (fun j => (nth j (v6_widths bps) 0%nat, v6_put bps x j)) (seq 0 (length (v6_widths bps)))).
(** the samples of a packet differ little from those two before them and are not too dark *)
Definition v6_smooth (bps : nat) (x : nat -> Z) : Prop :=
  (forall i, (i < v6_per bps)%nat -> 0 <= x i) /\ x 0%nat + 15 < 2 ^ Z.of_nat bps /\ x 1%nat + 15 < 2 ^ Z.of_nat bps /\
  forall i, (2 <= i < v6_per bps)%nat ->
    v6_zero bps < x (i - 2)%nat + 15 /\ - v6_zero bps <= x i - x (i - 2)%nat < v6_zero bps.

(** ** Format 4: fields from the highest bit on, with places that vary *)

Section Four.
  (** [n] bits after the first [o] *)
  Variable field : nat -> nat -> Z.
  Definition v4_next (sh v j : Z) : Z :=
    if j =? 0 then v
    else let p := v - 128 * 2 ^ sh in (if (p <? 0) || (sh =? 4) then p mod 2 ^ sh else p) + j * 2 ^ sh.
  (** [n] samples from number [i] on, at bit [o]; [x] is the last sample of the
      same parity, [y] of the other, [None] for zeros only *)
  Fixpoint v4_values (n i o : nat) (sh : Z) (x y : option Z) : list Z :=
    match n with
    | O => []
    | S n =>
      let '(sh, o) := if (i mod 3 =? 2)%nat then (nth (Z.to_nat (field o 2)) [0; 1; 2; 4] 0, (o + 2)%nat) else (sh, o) in
      let '(x, o) := match x with
        | Some v => (Some (v4_next sh v (field o 8)), (o + 8)%nat)
        | None => if (field o 8 =? 0) && (i <? 12)%nat then (None, (o + 8)%nat) else (Some (16 * field o 8 + field (o + 8)%nat 4), (o + 12)%nat)
        end in
      from_option x :: v4_values n (S i) o sh y x
    end.
  Definition v4_samples : list Z := v4_values 14 0 0 0 None None.
End Four.
Definition v4_packet_samples (V : Z) : list Z := v4_samples (fun o n => bits_at (128 - o - n) n V).

(** encoder without scales *)
Definition v4_code (v x : Z) : Z := if x =? v then 0 else if v <? 128 then x else x - v + 128.
Definition v4_value (x : nat -> Z) : Z :=
  be_fields (flat_map (fun i =>
    if (i <? 2)%nat then [(8%nat, x i / 16); (4%nat, x i mod 16)]
    else (if (i mod 3 =? 2)%nat then [(2%nat, 0)] else []) ++ [(8%nat, v4_code (x (i - 2)%nat) (x i))]) (seq 0 14)).
Definition v4_smooth (x : nat -> Z) : Prop :=
  16 <= x 0%nat < 4096 /\ 16 <= x 1%nat < 4096 /\
  forall i, (2 <= i < 14)%nat -> x i = x (i - 2)%nat \/ 1 <= v4_code (x (i - 2)%nat) (x i) <= 255.
(** each packet of a picture of [n] samples, [per] to a packet *)
Definition packets_are (P : (nat -> Z) -> Prop) (per n : nat) (s : nat -> Z) : Prop :=
  forall p, (p < n / per)%nat -> P (fun i => s (p * per + i)%nat).
(** bytes that hold the packets, and one more *)
Definition holds_packets (split : bool) (n : nat) (buf : list Z) : Prop :=
  if split then (stretches n * stretch_bytes < length buf)%nat else (16 * n < length buf)%nat.
(** 16 KiB of zeros and a byte *)
Definition seam_bytes : list Z := repeat 0 (Z.to_nat 16384) ++ [255].
