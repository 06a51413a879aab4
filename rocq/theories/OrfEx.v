(** Concrete pictures for the Olympus theorems. *)
From Coq Require Import List ZArith Bool.
From Verif Require Import Base CrxImageSpec PefSpec Orf OrfSpec.
Import ListNotations.
Open Scope Z_scope.

(** five columns, three rows *)
Definition olympus_small (r c : nat) : Z :=
  nth (5 * r + c) [100; 2000; 130; 1900; 7; 101; 3000; 90; 32767; 8; 0; 1500; 140; 2100; 9] 0.
(** bright samples left of and above a sample whose upper left neighbour is black *)
Definition olympus_bright (r c : nat) : Z :=
  if ((r =? 2) && (c <? 2) || (r =? 0) && (2 <=? c))%nat then 50000 else 0.
