(** Model of the lossless JPEG encoder rawler/src/ljpeg92.rs (and the part of
    rawler/src/bitarray.rs it uses). *)
From Coq Require Import List ZArith Bool.
From Verif Require Import Base.
Import ListNotations.
Open Scope Z_scope.

(** ** Magnitude classes *)

(** build_num_bits_tbl ljpeg92.rs:45-67, the loop [tmp >>= 1] counting bits.
    Table entry of [i] (0 for 0, else position of the highest bit + 1). *)
Fixpoint num_bits_loop (fuel : nat) (tmp : Z) (nbits : nat) : nat :=
  match fuel with
  | O => nbits
  | S f => let tmp' := Z.shiftr tmp 1 in
           if tmp' =? 0 then nbits else num_bits_loop f tmp' (S nbits)
  end.
Definition num_bits_tbl (i : Z) : nat := if i =? 0 then 0%nat else num_bits_loop 8 i 1.

(** lookup_ssss ljpeg92.rs:72-81 *)
Definition lookup_ssss (diff : Z) : nat :=
  let a := Z.abs diff in
  if 256 <=? a then (num_bits_tbl (Z.land (Z.shiftr a 8) 255) + 8)%nat
  else num_bits_tbl (Z.land a 255).

(** ** Huffman table construction *)

Definition CLASSES : nat := 17.

(** Fields freq, codesize, others of HuffTableBuilder, ljpeg92.rs:171-209 *)
Record hbuilder := mk_hb {
  hb_freq : list Z; hb_codesize : list nat; hb_others : list (option nat) }.

(** HuffTableBuilder::new ljpeg92.rs:222-230 *)
Definition hb_new (histogram : list Z) : hbuilder :=
  mk_hb (histogram ++ [1]) (repeat 0%nat 18) (repeat None 18).

Definition u64_max : Z := 2 ^ 64 - 1.

Definition opt_nat_eqb (a : option nat) (i : nat) : bool :=
  match a with Some j => (i =? j)%nat | None => false end.

(** The two search loops of gen_codesizes, ljpeg92.rs:243-248 (skip = None)
    and 250-255 (skip = v1). *)
Fixpoint find_min (i : nat) (freq : list Z) (skip : option nat) (best : Z) (v : option nat)
  : option nat :=
  match freq with
  | [] => v
  | f :: t =>
    if (0 <? f) && negb (opt_nat_eqb skip i) && (f <=? best)
    then find_min (S i) t skip f (Some i)
    else find_min (S i) t skip best v
  end.

(** Chain walk ljpeg92.rs:266-273 / 275-282: increments the code size of every
    symbol in the chain starting at [v]; returns the last symbol.  A chain
    visits each of the 18 slots at most once, so 18 steps of fuel suffice. *)
Fixpoint inc_chain (fuel : nat) (cs : list nat) (others : list (option nat)) (v : nat)
  : res (list nat * nat) :=
  match fuel with
  | O => Panic
  | S fuel' =>
    do c <- get cs v;
    do cs' <- put cs v (S c);
    do o <- get others v;
    match o with
    | Some w => inc_chain fuel' cs' others w
    | None => Ok (cs', v)
    end
  end.

(** One iteration of the merge, ljpeg92.rs:260-283 *)
Definition hb_merge (h : hbuilder) (v1 v2 : nat) : res hbuilder :=
  do f1 <- get (hb_freq h) v1;
  do f2 <- get (hb_freq h) v2;
  do _ <- assert_ (f1 + f2 <? 2 ^ 64);
  do fr1 <- put (hb_freq h) v1 (f1 + f2);
  do fr2 <- put fr1 v2 0;
  do (cs1, t1) <- inc_chain 18 (hb_codesize h) (hb_others h) v1;
  do ot <- put (hb_others h) t1 (Some v2);
  do (cs2, _) <- inc_chain 18 cs1 ot v2;
  Ok (mk_hb fr2 cs2 ot).

(** gen_codesizes ljpeg92.rs:233-293 *)
Fixpoint gen_codesizes (fuel : nat) (h : hbuilder) : res hbuilder :=
  match fuel with
  | O => Panic
  | S fuel' =>
    let v1 := find_min 0 (hb_freq h) None u64_max None in
    let v2 := find_min 0 (hb_freq h) v1 u64_max None in
    match v1, v2 with
    | Some a, Some b => do h' <- hb_merge h a b; gen_codesizes fuel' h'
    | _, _ => Ok h
    end
  end.

(** K.2 part of count_bits ljpeg92.rs:296-302; [bits] has 33 entries
    (ljpeg92.rs:224). *)
Definition count_codes (cs : list nat) : res (list nat) :=
  for_each (seq 0 18)
    (fun i bits =>
       do c <- get cs i;
       if (0 <? c)%nat then
         do b <- get bits c;
         put bits c (S b)
       else Ok bits)
    (repeat 0%nat 33).

(** [while bits[j] == 0 { j -= 1 }] ljpeg92.rs:405-407 and 417-419 *)
Fixpoint down_to_nonzero (bits : list nat) (j : nat) : res nat :=
  do b <- get bits j;
  if (b =? 0)%nat then
    match j with O => Panic | S j' => down_to_nonzero bits j' end
  else Ok j.

(** [bits[i] -= n] / [bits[i] += n] on u8 *)
Definition bsub (bits : list nat) (i n : nat) : res (list nat) :=
  do b <- get bits i; do d <- usub b n; put bits i d.
Definition badd (bits : list nat) (i n : nat) : res (list nat) :=
  do b <- get bits i;
  do _ <- assert_ (b + n <? 256)%nat;
  put bits i (b + n)%nat.

(** First loop of adjust_bits ljpeg92.rs:402-415 *)
Fixpoint limit_loop (fuel : nat) (bits : list nat) (i : nat) : res (list nat * nat) :=
  match fuel with
  | O => Panic
  | S fuel' =>
    if (16 <? i)%nat then
      do b <- get bits i;
      if (0 <? b)%nat then
        do j0 <- usub i 2;
        do j <- down_to_nonzero bits j0;
        do b1 <- bsub bits i 2;
        do b2 <- badd b1 (i - 1) 1;
        do b3 <- badd b2 (j + 1) 2;
        do b4 <- bsub b3 j 1;
        limit_loop fuel' b4 i
      else limit_loop fuel' bits (i - 1)
    else Ok (bits, i)
  end.

(** adjust_bits ljpeg92.rs:399-421.  At most 16 decrements of [i] and, with 18
    symbols, few length reductions; fuel 64. *)
Definition adjust_bits (bits : list nat) : res (list nat) :=
  do (bits1, i) <- limit_loop 64 bits 32;
  do j <- down_to_nonzero bits1 i;
  bsub bits1 j 1.

(** sort_input ljpeg92.rs:320-331.  [huffval : [Option<u8>; 17]] with its
    [None] tail is the list of its [Some] prefix. *)
Definition sort_input (cs : list nat) : list nat :=
  flat_map (fun i => filter (fun j => (nth j cs 0 =? i)%nat) (seq 0 17)) (seq 1 32).

(** gen_size_table ljpeg92.rs:334-349: [huffcode[..].bits] (18 entries). *)
Definition gen_size_table (bits : list nat) : res (list nat) :=
  let sizes := flat_map (fun i => repeat i (nth i bits 0%nat)) (seq 1 16) in
  if (17 <? length sizes)%nat then Panic
  else Ok (sizes ++ repeat 0%nat (18 - length sizes)).

(** gen_code_table ljpeg92.rs:352-376, inner loop 357-364 *)
Fixpoint assign_codes (fuel : nat) (hbits : list nat) (enc : list Z) (k : nat) (code : Z) (si : nat)
  : res (list Z * nat * Z) :=
  match fuel with
  | O => Panic
  | S fuel' =>
    do enc' <- put enc k code;
    do _ <- assert_ (code + 1 <? 65536);
    do b <- get hbits (k + 1);
    if (b =? si)%nat then assign_codes fuel' hbits enc' (k + 1) (code + 1) si
    else Ok (enc', (k + 1)%nat, code + 1)
  end.

(** ljpeg92.rs:368-374 *)
Fixpoint widen_code (fuel : nat) (target : nat) (code : Z) (si : nat) : res (Z * nat) :=
  match fuel with
  | O => Panic
  | S fuel' =>
    let code' := wrap_u16 (Z.shiftl code 1) in
    if (target =? S si)%nat then Ok (code', S si)
    else widen_code fuel' target code' (S si)
  end.

Fixpoint gen_code_loop (fuel : nat) (hbits : list nat) (enc : list Z) (k : nat) (code : Z) (si : nat)
  : res (list Z) :=
  match fuel with
  | O => Panic
  | S fuel' =>
    do (enc1, k1, code1) <- assign_codes 18 hbits enc k code si;
    do b <- get hbits k1;
    if (b =? 0)%nat then Ok enc1
    else
      do (code2, si2) <- widen_code 17 b code1 si;
      gen_code_loop fuel' hbits enc1 k1 code2 si2
  end.

Definition gen_code_table (hbits : list nat) : res (list Z) :=
  do si <- get hbits 0;
  gen_code_loop 18 hbits (repeat 0 18) 0 0 si.

(** order_codes ljpeg92.rs:379-385 *)
Fixpoint order_codes (i : nat) (huffval : list nat) (sym : list (option nat)) : res (list (option nat)) :=
  match huffval with
  | [] => Ok sym
  | s :: t => do sym' <- put sym s (Some i); order_codes (S i) t sym'
  end.

(** BitArray16 (bitarray.rs:16-20): storage is left aligned. *)
Record bitarray16 := mk_ba { ba_storage : Z; ba_nbits : nat }.
Definition ba_default : bitarray16 := mk_ba 0 0.

(** BitArray::from_lsb bitarray.rs:119-124; a shift by 16 would overflow. *)
Definition ba_from_lsb (nbits : nat) (value : Z) : res bitarray16 :=
  do s <- usub 16 nbits;
  do _ <- assert_ (s <? 16)%nat;
  Ok (mk_ba (wrap_u16 (Z.shiftl value (Z.of_nat s))) nbits).

(** BitArray::get_lsb bitarray.rs:111-113 *)
Definition ba_get_lsb (b : bitarray16) : res Z :=
  do s <- usub 16 (ba_nbits b);
  do _ <- assert_ (s <? 16)%nat;
  Ok (Z.shiftr (ba_storage b) (Z.of_nat s)).

(** Last loop of build ljpeg92.rs:434-440 *)
Definition fill_table (sym : list (option nat)) (hbits : list nat) (enc : list Z)
  : res (list bitarray16) :=
  for_each (seq 0 17)
    (fun s tbl =>
       do o <- get sym s;
       match o with
       | Some c =>
         do n <- get hbits c;
         do e <- get enc c;
         do ba <- ba_from_lsb n e;
         put tbl s ba
       | None => Ok tbl
       end)
    (repeat ba_default 17).

(** HuffTableBuilder::build ljpeg92.rs:424-461 (after new) *)
Definition build_table (histogram : list Z) : res (list bitarray16) :=
  do h <- gen_codesizes 19 (hb_new histogram);
  do bits0 <- count_codes (hb_codesize h);
  do bits <- adjust_bits bits0;
  let huffval := sort_input (hb_codesize h) in
  do hbits <- gen_size_table bits;
  do enc <- gen_code_table hbits;
  do sym <- order_codes 0 huffval (repeat None 17);
  fill_table sym hbits enc.

(** ** Bit stream writer *)

(** BitstreamJPEG ljpeg92.rs:505-514 *)
Record bwriter := mk_bw { bw_out : list Z; bw_next : Z; bw_used : nat }.
Definition bw_new : bwriter := mk_bw [] 0 0.

(** internal_flush ljpeg92.rs:541-550 *)
Definition bw_internal_flush (w : bwriter) : bwriter :=
  mk_bw (bw_out w ++ bw_next w :: (if bw_next w =? 255 then [0] else [])) 0 0.

(** write ljpeg92.rs:520-539; every iteration takes at least one bit. *)
Fixpoint bw_write_loop (fuel : nat) (bits : nat) (value : Z) (w : bwriter) : bwriter :=
  match fuel with
  | O => w
  | S fuel' =>
    if (bits =? 0)%nat then w else
    let w1 := if (bw_used w =? 8)%nat then bw_internal_flush w else w in
    let free := (8 - bw_used w1)%nat in
    let take := Nat.min bits free in
    let peek := wrap_u8 (Z.land (Z.shiftr value (Z.of_nat (bits - take)))
                                (Z.shiftl 1 (Z.of_nat take) - 1)) in
    let next := Z.lor (bw_next w1) (wrap_u8 (Z.shiftl peek (Z.of_nat (free - take)))) in
    bw_write_loop fuel' (bits - take) value (mk_bw (bw_out w1) next (bw_used w1 + take))
  end.
Definition bw_write (bits : nat) (value : Z) (w : bwriter) : bwriter :=
  bw_write_loop (S bits) bits value w.

(** flush ljpeg92.rs:552-557 *)
Definition bw_flush (w : bwriter) : bwriter :=
  if (0 <? bw_used w)%nat then bw_internal_flush w else w.

(** ** Compressor *)

(** LjpegCompressor ljpeg92.rs (struct) and the parameters of new. *)
Record ljparams := mk_lj {
  lj_image : list Z; lj_width : nat; lj_height : nat; lj_comps : nat;
  lj_depth : nat; lj_pred : nat; lj_pt : nat; lj_padding : nat }.

(** LjpegCompressor::new ljpeg92.rs:564-612 *)
Definition ljpeg_new (image : list Z) (width height comps depth pred pt padding : nat) : res ljparams :=
  do _ <- check ((1 <=? pred) && (pred <=? 7))%nat;
  do _ <- check (negb (length image <? height * ((width + padding) * comps))%nat);
  do _ <- check ((2 <=? depth) && (depth <=? 16))%nat;
  do _ <- check (Z.of_nat height <=? 65535);
  do _ <- check (Z.of_nat width <=? 65535);
  Ok (mk_lj image width height comps depth pred pt padding).

(** pred_x/pred_a/pred_b/pred_c ljpeg92.rs:915-945: sample at a slice index,
    shifted.  [get_unchecked] is modelled as a checked access, so that an
    out-of-bounds access shows up as [Panic]. *)
Definition samp (row : list Z) (pt : nat) (idx : nat) : res Z :=
  do v <- get row idx; Ok (Z.shiftr v (Z.of_nat pt)).

Definition samp_a (row : list Z) (pt ncomp idx : nat) : res Z :=
  do j <- usub idx ncomp; samp row pt j.

(** The predictor closures ljpeg92.rs:869-898 *)
Definition predict (px ncomp pt : nat) (prev curr : list Z) (idx : nat) : res Z :=
  match px with
  | 1%nat => samp_a curr pt ncomp idx
  | 2%nat => samp prev pt idx
  | 3%nat => samp_a prev pt ncomp idx
  | 4%nat => do ra <- samp_a curr pt ncomp idx; do rb <- samp prev pt idx;
             do rc <- samp_a prev pt ncomp idx; Ok (ra + rb - rc)
  | 5%nat => do ra <- samp_a curr pt ncomp idx; do rb <- samp prev pt idx;
             do rc <- samp_a prev pt ncomp idx; Ok (ra + Z.shiftr (rb - rc) 1)
  | 6%nat => do ra <- samp_a curr pt ncomp idx; do rb <- samp prev pt idx;
             do rc <- samp_a prev pt ncomp idx; Ok (rb + Z.shiftr (ra - rc) 1)
  | 7%nat => do ra <- samp_a curr pt ncomp idx; do rb <- samp prev pt idx;
             Ok (Z.shiftr (ra + rb) 1)
  | _ => Panic
  end.

(** ljpeg92_diff ljpeg92.rs:824-909.  [dbg] is the debug_assertions switch
    (the sample overflow check 840-846).  [first] is the pointer comparison
    of line 850.  Results are written into [diffs] in index order. *)
Definition ljpeg92_diff (dbg : bool) (ncomp px : nat) (first : bool)
    (row_prev row_curr : list Z) (linesize pt depth : nat) : res (list Z) :=
  let samplecnt := (linesize / ncomp * ncomp)%nat in
  do prev <- slice row_prev 0 samplecnt;
  do curr <- slice row_curr 0 samplecnt;
  do _ <- (if dbg then
      for_each curr (fun s _ =>
        do d <- usub depth pt;
        assert_ (Z.shiftr s (Z.of_nat pt) <=? wrap_u16 (2 ^ Z.of_nat d - 1))) tt
    else Ok tt);
  let set := fun (idx : nat) (p : res Z) (ds : list Z) =>
      do px_ <- p; do s <- samp curr pt idx; put ds idx (wrap_i16 (s - px_)) in
  let ds0 := repeat 0 linesize in
  do ds1 <- for_each (seq 0 ncomp)
     (fun c ds =>
        if first then
          do d <- usub depth pt; do d1 <- usub d 1;
          set c (Ok (2 ^ Z.of_nat d1)) ds
        else set c (samp prev pt c) ds) ds0;
  for_each (seq ncomp (samplecnt - ncomp))
     (fun idx ds =>
        if first then set idx (samp_a curr pt ncomp idx) ds
        else set idx (predict px ncomp pt prev curr idx) ds) ds1.

(** Row loop of scan_frequency ljpeg92.rs:665-684: the difference cache.
    The pointer test of ljpeg92_diff is [offset prev = offset curr]. *)
Definition scan_rows (dbg : bool) (p : ljparams) : res (list Z) :=
  let rowsize := (lj_width p * lj_comps p)%nat in
  let linesize := ((lj_width p + lj_padding p) * lj_comps p)%nat in
  do (_, _, cache) <- for_each (seq 0 (lj_height p))
    (fun row '(oprev, ocurr, cache) =>
       do _ <- assert_ ((1 <=? lj_comps p) && (lj_comps p <=? 4))%nat;
       do diffs <- ljpeg92_diff dbg (lj_comps p) (lj_pred p) (oprev =? ocurr)%nat
            (skipn oprev (lj_image p)) (skipn ocurr (lj_image p)) linesize (lj_pt p) (lj_depth p);
       do d <- slice diffs 0 rowsize;
       do _ <- assert_ (ocurr + linesize <=? length (lj_image p))%nat;
       Ok (ocurr, (ocurr + linesize)%nat, cache ++ d))
    (0%nat, 0%nat, []);
  Ok cache.

(** Histogram update ljpeg92.rs:676-680.  [i % components] of the row index
    equals that of the cache index because a row holds a whole number of
    pixels; the model uses the cache index. *)
Fixpoint count_hist (comps i : nat) (cache : list Z) (hs : list (list Z)) : res (list (list Z)) :=
  match cache with
  | [] => Ok hs
  | d :: t =>
    do h <- get hs (i mod comps);
    do c <- get h (lookup_ssss d);
    do h' <- put h (lookup_ssss d) (c + 1);
    do hs' <- put hs (i mod comps) h';
    count_hist comps (S i) t hs'
  end.

(** [for comp in .. { build_hufftable(comp) }] ljpeg92.rs:623-627, 697-713 *)
Fixpoint build_tables (hs : list (list Z)) : res (list (list bitarray16)) :=
  match hs with
  | [] => Ok []
  | h :: t => do tb <- build_table h; do r <- build_tables t; Ok (tb :: r)
  end.

Definition u16be (v : Z) : list Z := [wrap_u8 (Z.shiftr v 8); wrap_u8 v].

(** [codes.sort_by(|a, b| a.1.cmp(&b.1))] ljpeg92.rs:752-759: the stable sort
    is modelled by insertion sort; all entries compared have equal length, so
    BitArray::cmp (bitarray.rs:36-43) compares storages. *)
Fixpoint insert_code (x : nat * bitarray16) (l : list (nat * bitarray16)) : list (nat * bitarray16) :=
  match l with
  | [] => [x]
  | y :: t => if ba_storage (snd x) <=? ba_storage (snd y) then x :: y :: t else y :: insert_code x t
  end.
Fixpoint sort_codes (l : list (nat * bitarray16)) : list (nat * bitarray16) :=
  match l with [] => [] | x :: t => insert_code x (sort_codes t) end.

Definition codes_of_len (tbl : list bitarray16) (len : nat) : list (nat * bitarray16) :=
  filter (fun e => (ba_nbits (snd e) =? len)%nat) (combine (seq 0 (length tbl)) tbl).

(** One DHT segment ljpeg92.rs:733-765 *)
Definition dht_segment (comp : nat) (tbl : list bitarray16) : list Z :=
  let bit_sum := length (filter (fun b => negb (ba_nbits b =? 0)%nat) tbl) in
  [255; 196] ++ u16be (2 + (1 + 16) + Z.of_nat bit_sum) ++ [wrap_u8 (Z.of_nat comp)]
  ++ map (fun len => wrap_u8 (Z.of_nat (length (filter (fun b => (ba_nbits b =? len)%nat) tbl)))) (seq 1 16)
  ++ flat_map (fun len => map (fun e => Z.of_nat (fst e)) (sort_codes (codes_of_len tbl len))) (seq 1 16).

Fixpoint dht_segments (comp : nat) (tbls : list (list bitarray16)) : list Z :=
  match tbls with
  | [] => []
  | t :: r => dht_segment comp t ++ dht_segments (S comp) r
  end.

(** write_header ljpeg92.rs:716-780 *)
Definition write_header (dbg : bool) (p : ljparams) (tbls : list (list bitarray16)) : res (list Z) :=
  let n := Z.of_nat (lj_comps p) in
  do _ <- (if dbg then assert_ (lj_pt p <=? 15)%nat else Ok tt);
  Ok ([255; 216] ++ [255; 195]
  ++ u16be (2 + 6 + n * 3) ++ [Z.of_nat (lj_depth p)]
  ++ u16be (wrap_u16 (Z.of_nat (lj_height p))) ++ u16be (wrap_u16 (Z.of_nat (lj_width p)))
  ++ [wrap_u8 n] ++ flat_map (fun c => [wrap_u8 (Z.of_nat c); 17; 0]) (seq 0 (lj_comps p))
  ++ dht_segments 0 tbls
  ++ [255; 218] ++ u16be (6 + n * 2) ++ [wrap_u8 n]
  ++ flat_map (fun c => [wrap_u8 (Z.of_nat c); wrap_u8 (Z.shiftl (Z.of_nat c) 4)]) (seq 0 (lj_comps p))
  ++ [Z.of_nat (lj_pred p); 0; Z.land (Z.of_nat (lj_pt p)) 15]).

(** write_body ljpeg92.rs:789-815 *)
Fixpoint write_body_loop (dbg : bool) (comps i : nat) (cache : list Z) (tbls : list (list bitarray16))
    (w : bwriter) : res bwriter :=
  match cache with
  | [] => Ok w
  | d :: t =>
    let ssss := lookup_ssss d in
    do tbl <- get tbls (i mod comps);
    do enc <- get tbl ssss;
    do value <- ba_get_lsb enc;
    do _ <- (if dbg then assert_ (0 <? ba_nbits enc)%nat else Ok tt);
    let w1 := bw_write (ba_nbits enc) value w in
    do _ <- (if dbg then assert_ (ssss <=? 16)%nat else Ok tt);
    let w2 :=
      if negb (Z.land (Z.of_nat ssss) 15 =? 0) then
        let d' := if d <? 0 then d - 1 else d in
        bw_write ssss (Z.land d' (Z.shiftr 65535 (Z.of_nat (16 - ssss)))) w1
      else w1 in
    write_body_loop dbg comps (S i) t tbls w2
  end.

Definition write_body (dbg : bool) (comps : nat) (cache : list Z) (tbls : list (list bitarray16)) : res (list Z) :=
  do w <- write_body_loop dbg comps 0 cache tbls bw_new;
  Ok (bw_out (bw_flush w)).

(** encode ljpeg92.rs:620-633 and write_post 783-786 *)
Definition ljpeg_encode (dbg : bool) (p : ljparams) : res (list Z) :=
  do cache <- scan_rows dbg p;
  do hs <- count_hist (lj_comps p) 0 cache (repeat (repeat 0 17) (lj_comps p));
  do tbls <- build_tables hs;
  do hdr <- write_header dbg p tbls;
  do body <- write_body dbg (lj_comps p) cache tbls;
  Ok (hdr ++ body ++ [255; 217]).

(** Convenience: construct and encode. *)
Definition ljpeg_compress (dbg : bool) (image : list Z) (width height comps depth pred pt padding : nat)
  : res (list Z) :=
  do p <- ljpeg_new image width height comps depth pred pt padding;
  ljpeg_encode dbg p.
