(** MRW files as the format describes them: blocks of a name, a length and a
    content, then the samples. *)
From Coq Require Import List ZArith.
From Verif Require Import Base Tiff TiffSpec.
Import ListNotations.
Open Scope Z_scope.

Inductive mblock :=
(** version, sensor height and width, four more bytes, data size, rest *)
| MPrd (version : list Z) (h w : Z) (img : list Z) (size : Z) (rest : list Z)
(** four bytes, four coefficients, rest *)
| MWbg (pre : list Z) (a b c d : Z) (rest : list Z)
| MTtw (tiff : list Z)
| MOther (name : Z) (content : list Z).

Definition mname (b : mblock) : list Z :=
  match b with MPrd _ _ _ _ _ _ => [0; 80; 82; 68] | MWbg _ _ _ _ _ _ => [0; 87; 66; 71] | MTtw _ => [0; 84; 84; 87] | MOther n _ => enc BE 4 n end.
Definition mcontent (b : mblock) : list Z :=
  match b with
  | MPrd v h w img size rest => v ++ enc BE 2 h ++ enc BE 2 w ++ img ++ [size] ++ rest
  | MWbg pre a b c d rest => pre ++ enc BE 2 a ++ enc BE 2 b ++ enc BE 2 c ++ enc BE 2 d ++ rest
  | MTtw t => t
  | MOther _ c => c
  end.
Definition mblock_ok (b : mblock) : Prop :=
  Z.of_nat (length (mcontent b)) < 2 ^ 32 - 8 /\
  match b with
  | MPrd v h w img size rest => length v = 8%nat /\ urange 16 h /\ urange 16 w /\ length img = 4%nat /\ urange 8 size
  | MWbg pre a b c d rest => length pre = 4%nat /\ urange 16 a /\ urange 16 b /\ urange 16 c /\ urange 16 d
  | MTtw _ => True
  | MOther n _ => urange 32 n /\ n <> 0x505244 /\ n <> 0x574247 /\ n <> 0x545457
  end.
Definition menc (b : mblock) : list Z := mname b ++ enc BE 4 (Z.of_nat (length (mcontent b))) ++ mcontent b.
Definition mfile (blocks : list mblock) (data : list Z) : list Z :=
  [0; 77; 82; 77] ++ enc BE 4 (Z.of_nat (length (flat_map menc blocks))) ++ flat_map menc blocks ++ data.

Definition is_prd (b : mblock) : Prop := match b with MPrd _ _ _ _ _ _ => True | _ => False end.
Definition is_wbg (b : mblock) : Prop := match b with MWbg _ _ _ _ _ _ => True | _ => False end.
Definition is_ttw (b : mblock) : Prop := match b with MTtw _ => True | _ => False end.
(** [b] is the last block of its kind, [before] the blocks before it *)
Definition last_of (kind : mblock -> Prop) (blocks before : list mblock) (b : mblock) : Prop :=
  exists after, blocks = before ++ b :: after /\ kind b /\ Forall (fun x => ~ kind x) after.
