(** C30: uncompressed strips survive write and read. *)
From Coq Require Import List ZArith Lia.
From Verif Require Import Base Par Packed Tiff TiffSpec Strips StripsSpec StripsProofs.
Import ListNotations.
Open Scope Z_scope.

(** Writing succeeds for every non-empty image and strip height.  As long as
    the finished file stays below 4 GiB, decoding the recorded strips gives the
    samples back, whatever replaces the bytes before the strips ([pre]) and
    whatever follows them ([ext]). *)
Theorem C30_strips_roundtrip : forall threshold rps buf w h cpp data,
  (0 < w)%nat -> (0 < h)%nat -> (0 < cpp)%nat -> (0 < rps)%nat -> length data = (w * h * cpp)%nat -> Forall is_u16 data ->
  exists offs sizes rows body,
    put_raw_uncompressed threshold rps buf w h cpp data = Ok (offs, sizes, rows, buf ++ body) /\
    (Z.of_nat (length (buf ++ body)) < 2 ^ 32 -> Forall (fun o => o mod 4 = 0 /\ Z.of_nat (length buf) <= o) offs) /\
    forall pre ext, length pre = length buf -> Z.of_nat (length (pre ++ body ++ ext)) < 2 ^ 32 ->
    yields (decode_strips (pre ++ body ++ ext) 0 offs sizes w h cpp (Z.to_nat (nth 0 rows 0)) 16 LittleE) data.
Proof. exact strips_roundtrip. Qed.
Print Assumptions C30_strips_roundtrip.

(** The strips may lie anywhere in the file: in any order, with gaps or back to back. *)
Theorem C30_any_placement : forall file offs w h cpp R strips last_,
  Z.of_nat (length file) < 2 ^ 32 -> (0 < w * cpp)%nat -> (0 < R)%nat ->
  Forall (fun s => length s = (R * (w * cpp))%nat) strips -> (0 < length last_ <= R * (w * cpp))%nat ->
  length (concat (strips ++ [last_])) = (w * cpp * h)%nat -> Forall (Forall is_u16) (strips ++ [last_]) ->
  Forall2 (strip_at file) offs (strips ++ [last_]) ->
  yields (decode_strips file 0 offs (map (fun c => 2 * Z.of_nat (length c)) (strips ++ [last_])) w h cpp R 16 LittleE)
    (concat (strips ++ [last_])).
Proof. exact any_placement. Qed.
Print Assumptions C30_any_placement.

(** Adjacent strips whose byte counts include spare bytes decode wrongly. *)
Theorem C30_padded_strips_refuted : exists file offs sizes,
  strip_at file (nth 0 offs 0) [1] /\ strip_at file (nth 1 offs 0) [2] /\ length offs = 2%nat /\ sizes = [4; 4] /\
  forall s0, decode_strips file 0 offs sizes 1 2 1 1 16 LittleE = Ok s0 ->
  forall sched, ended (prun 0 sched s0) -> result (prun 0 sched s0) <> Par.POk [1; 2].
Proof. exact padded_strips_refuted. Qed.
Print Assumptions C30_padded_strips_refuted.

(** An image without columns panics instead of writing no strips. *)
Theorem C30_empty_image_refuted : forall threshold rps buf h cpp,
  put_raw_uncompressed threshold rps buf 0 h cpp [] = Panic.
Proof. exact empty_image_refuted. Qed.
Print Assumptions C30_empty_image_refuted.

(** Three rows in strips of two rows (threshold 2), after an eight byte header. *)
Example C30_example :
  put_raw_uncompressed 2 2 (repeat 7 8) 1 3 1 [1; 515; 65535] =
    Ok ([8; 12], [4; 2], [2; 1], repeat 7 8 ++ [1; 0; 3; 2; 255; 255]).
Proof. vm_compute. reflexivity. Qed.
