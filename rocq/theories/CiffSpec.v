(** CIFF heaps as the format describes them: values, then a directory of
    records of ten bytes, then the length of the values in the last four bytes.
    Values and heaps may overlap and be in any order. *)
From Coq Require Import List ZArith.
From Verif Require Import Base Tiff TiffSpec.
Import ListNotations.
Open Scope Z_scope.

Inductive citem :=
| CVal (tag : Z) (data : list Z)       (** value in the heap *)
| CInline (tag : Z) (data : list Z)    (** value of 8 bytes in the record *)
| CDir (tag : Z) (items : list citem)  (** a heap in the heap *)
| CBad (tag : Z) (data : list Z) (items : list citem). (** a heap with a bad record after some items *)

(** bits 11 to 13 of the tag are the type: 5 and 6 are heaps *)
Definition dir_tag (tag : Z) : Prop := (tag / 0x800) mod 8 = 5 \/ (tag / 0x800) mod 8 = 6.

Inductive heap_at (file : list Z) : Z -> Z -> list citem -> Prop :=
| heap start end_ vs items : 0 <= start -> 4 <= end_ -> urange 32 vs -> Z.of_nat (length items) < 2 ^ 16 ->
    at_ file (end_ - 4) (enc LE 4 vs) -> at_ file (start + vs) (enc LE 2 (Z.of_nat (length items))) ->
    items_at file start (start + vs + 2) items -> heap_at file start end_ items
with items_at (file : list Z) : Z -> Z -> list citem -> Prop :=
| items_nil start pos : items_at file start pos []
| items_cons start pos it items : item_at file start pos it -> items_at file start (pos + 10) items -> items_at file start pos (it :: items)
with item_at (file : list Z) : Z -> Z -> citem -> Prop :=
| item_val start pos tag off data : urange 14 tag -> ~ dir_tag tag -> urange 32 off -> Z.of_nat (length data) < 2 ^ 32 ->
    at_ file pos (enc LE 2 tag ++ enc LE 4 (Z.of_nat (length data)) ++ enc LE 4 off) -> at_ file (start + off) data ->
    item_at file start pos (CVal tag data)
| item_inline start pos tag data : urange 14 tag -> ~ dir_tag tag -> length data = 8%nat ->
    at_ file pos (enc LE 2 (0x4000 + tag) ++ data) -> item_at file start pos (CInline tag data)
| item_dir start pos tag off size items : urange 14 tag -> dir_tag tag -> urange 32 off -> urange 32 size -> start + off + size <= Z.of_nat (length file) ->
    at_ file pos (enc LE 2 tag ++ enc LE 4 size ++ enc LE 4 off) -> heap_at file (start + off) (start + off + size) items ->
    item_at file start pos (CDir tag items)
| item_bad start pos tag off data items : urange 14 tag -> dir_tag tag -> urange 32 off -> Z.of_nat (length data) < 2 ^ 32 ->
    at_ file pos (enc LE 2 tag ++ enc LE 4 (Z.of_nat (length data)) ++ enc LE 4 off) -> at_ file (start + off) data ->
    bad_heap_at file (start + off) (start + off + Z.of_nat (length data)) items -> item_at file start pos (CBad tag data items)
(** a heap where the record after some items has the highest bit set: its place is not known *)
with bad_heap_at (file : list Z) : Z -> Z -> list citem -> Prop :=
| bad_heap start end_ vs n p items : 0 <= start -> 4 <= end_ -> urange 32 vs -> Z.of_nat (length items) < n < 2 ^ 16 ->
    at_ file (end_ - 4) (enc LE 4 vs) -> at_ file (start + vs) (enc LE 2 n) ->
    items_at file start (start + vs + 2) items -> 2 ^ 15 <= p < 2 ^ 16 ->
    at_ file (start + vs + 2 + 10 * Z.of_nat (length items)) (enc LE 2 p) -> bad_heap_at file start end_ items.

(** how deep heaps are nested *)
Fixpoint height (it : citem) : nat :=
  match it with CDir _ items | CBad _ _ items => S (fold_right Nat.max 0%nat (map height items)) | _ => 0%nat end.

(** the first result of a list *)
Definition first {A B} (f : A -> option B) := fix go (l : list A) : option B :=
  match l with [] => None | x :: l => match f x with Some v => Some v | None => go l end end.

(** a value, or a heap with a bad record as a value: the last one of that tag in the heap itself, else the first found in the heaps in it *)
Fixpoint own (t : Z) (items : list citem) : option (list Z) :=
  match items with
  | [] => None
  | it :: items =>
    match own t items with
    | Some d => Some d
    | None => match it with CVal t' d | CInline t' d | CBad t' d _ => if t' =? t then Some d else None | CDir _ _ => None end
    end
  end.
Fixpoint look_in (t : Z) (it : citem) : option (list Z) :=
  match it with
  | CDir _ items => match own t items with Some d => Some d | None => first (look_in t) items end
  | _ => None
  end.
Definition lookup (t : Z) (items : list citem) : option (list Z) :=
  match own t items with Some d => Some d | None => first (look_in t) items end.

(** A heap as a camera writes it: the values one after the other.  [n] is the
    length of the value, [cb] gives the bytes of a value. *)
Definition record (n : nat) (off : Z) (it : citem) : list Z :=
  match it with
  | CVal t d => enc LE 2 t ++ enc LE 4 (Z.of_nat (length d)) ++ enc LE 4 off
  | CInline t d => enc LE 2 (0x4000 + t) ++ d
  | CDir t _ | CBad t _ _ => enc LE 2 t ++ enc LE 4 (Z.of_nat n) ++ enc LE 4 off
  end.
Definition records (cb : citem -> list Z) := fix go (off : Z) (items : list citem) : list Z :=
  match items with [] => [] | it :: items => let n := length (cb it) in record n off it ++ go (off + Z.of_nat n) items end.
Fixpoint value_bytes (it : citem) : list Z :=
  match it with
  | CVal _ d | CBad _ d _ => d
  | CInline _ _ => []
  | CDir _ items =>
    let vals := flat_map value_bytes items in
    vals ++ enc LE 2 (Z.of_nat (length items)) ++ records value_bytes 0 items ++ enc LE 4 (Z.of_nat (length vals))
  end.
Definition heap_bytes (items : list citem) : list Z := value_bytes (CDir 0 items).
Fixpoint citem_ok (it : citem) : Prop :=
  match it with
  | CVal t d => urange 14 t /\ ~ dir_tag t
  | CInline t d => urange 14 t /\ ~ dir_tag t /\ length d = 8%nat
  | CDir t items => urange 14 t /\ dir_tag t /\ Z.of_nat (length items) < 2 ^ 16 /\ fold_right and True (map citem_ok items)
  | CBad _ _ _ => False (** not written *)
  end.
(** the file: II, the length of the header, HEAPCCDR, the heap *)
Definition crw_file (items : list citem) : list Z := [73; 73] ++ enc LE 4 14 ++ [72; 69; 65; 80; 67; 67; 68; 82] ++ heap_bytes items.
