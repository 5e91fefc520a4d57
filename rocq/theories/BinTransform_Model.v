(** Element-wise operations on binned operands: transform.h 251-279 and 488-527 with the [MultiIndex] of
    BinIndex_Model.v. An operand is a buffer and an offset next to the [operand] seen by the iterator; [fuel] bounds the
    number of rounds of the loop of a block. *)
From Verif Require Import Base Index_Model BinIndex_Model Transform_Model.

(** Buffer and offset of the data of an operand: for binned operands the buffer with the events, for dense operands
    the buffer of the elements. *)
Definition place : Type := (nat * Z)%type.
Definition pcells (pl : list place) (pos : list Z) : list cell :=
  map (fun p => (fst (fst p), snd (fst p) + snd p)) (combine pl pos).

(** transform.h 270-278, 517-525: [blocks] divide the range of bins. *)
Definition binned_programs {A} (c : list cell -> list (instr A)) (pl : list place) (fuel : nat) (s : bstate)
  (blocks : list (Z * Z)) : res (list (list (instr A))) :=
  mapM (fun b => do ps <- bi_block fuel s (fst b) (snd b); Ok (flat_map (fun p => c (pcells pl p)) ps)) blocks.

(** transform.h 251-279 *)
Definition binned_transform {A} (f : list A -> A) (pl : list place) (inner : list Z) (idx : nat) (sh : list Z)
  (ops : list operand) (fuel : nat) (blocks : list (Z * Z)) : res (list (list (instr A))) :=
  do s <- bi_make inner idx sh ops; binned_programs (call f) pl fuel s blocks.

(** multi_index.h 171-177 looks at the strides inside and outside the bins. transform.h 488-527. *)
Definition bi_has_stride_zero (s : bstate) : bool :=
  existsb (fun st => hd 0 st =? 0) (firstn (mi_ndim (bs_in s)) (mi_stride (bs_in s))
                                   ++ firstn (mi_ndim (bs_bins s)) (mi_stride (bs_bins s))).
Definition binned_in_place {A} (f : list A -> A) (pl : list place) (inner : list Z) (idx : nat) (sh : list Z)
  (ops : list operand) (fuel : nat) (size : Z) (blocks : list (Z * Z)) : res (list (list (instr A))) :=
  do s <- bi_make inner idx sh ops;
  if bi_has_stride_zero s
  then do ps <- bi_serial fuel s size; Ok [flat_map (fun p => call_in_place f (pcells pl p)) ps]
  else binned_programs (call_in_place f) pl fuel s blocks.
