(** Model of lib/dataset/bin.cpp 32-229: the mapping of the events of all input bins into the output buffer.
    An input bin is a position, a list of one index per dimension of [m_indices]; dimensions are given by their position in
    the dimensions of [m_indices]. [strat] is the vector [strategy] after [std::sort] (whose order of equal extents is not
    specified, so nothing is assumed about the order here). *)
From Verif Require Import Base Arr Subbin_Model BinKernel_Model Numeric_Model.

Fixpoint mapM {A B} (f : A -> res B) (l : list A) : res (list B) :=
  match l with [] => Ok [] | a :: l' => do b <- f a; do bs <- mapM f l'; Ok (b :: bs) end.
Fixpoint foldM {A B} (f : A -> B -> res A) (a : A) (l : list B) : res A :=
  match l with [] => Ok a | b :: l' => do a' <- f a b; foldM f a' l' end.

Notation pos := (list Z) (only parsing).

(** positions of the dimensions not in [strat], in row-major order; 0 in the dimensions of [strat] *)
Fixpoint rows (strat : list Z) (i : Z) (sh : list Z) : list pos :=
  match sh with
  | [] => [[]]
  | n :: sh' => if existsb (Z.eqb i) strat then map (cons 0) (rows strat (i + 1) sh')
                else flat_map (fun k => map (cons k) (rows strat (i + 1) sh')) (zseq 0 (Z.to_nat n))
  end.
(** row-major index of a position among [rows] *)
Fixpoint row_volume (strat : list Z) (i : Z) (sh : list Z) : Z :=
  match sh with [] => 1 | n :: sh' => if existsb (Z.eqb i) strat then row_volume strat (i + 1) sh' else n * row_volume strat (i + 1) sh' end.
Fixpoint row_index (strat : list Z) (i : Z) (sh : list Z) (p : pos) : Z :=
  match sh, p with
  | n :: sh', k :: p' => if existsb (Z.eqb i) strat then row_index strat (i + 1) sh' p' else k * row_volume strat (i + 1) sh' + row_index strat (i + 1) sh' p'
  | _, _ => 0
  end.
(** the position with 0 in the dimensions of [strat] *)
Fixpoint canon (strat : list Z) (i : Z) (p : pos) : pos :=
  match p with [] => [] | k :: p' => (if existsb (Z.eqb i) strat then 0 else k) :: canon strat (i + 1) p' end.

Section Mapper.
Context {A : Type}.
Variable sh : list Z.   (* shape of [m_indices] *)
Variable strat : list Z.

Section Build.
Variable ev : pos -> list (Z * A).    (* targets and values of the events of an input bin *)
Variable off nb : pos -> Z.           (* builder.offsets(), builder.nbin() *)

(** lib/variable/bin_detail.cpp 76-86 (the scan of all positions along [d]) *)
Definition along (d : Z) (sizes : pos -> res subbin) (p : pos) : res (list subbin) := mapM (fun k => sizes (zupd p d k)) (zseq 0 (Z.to_nat (znth 0 sh d))).
Definition scan_dim (d : Z) (sizes : pos -> res subbin) (p : pos) : res subbin :=
  do l <- along d sizes p; do l' <- sb_cumsum_exclusive_dim l; vget l' (znth 0 p d).
(** [sum(m_output_bin_sizes, dim)]: the accumulant starts as [SubbinSizes{}] *)
Definition sum_dim (d : Z) (sizes : pos -> res subbin) (p : pos) : res subbin :=
  do l <- along d sizes p; foldM sb_plus_equals (mksub 0 []) l.

(** 90-95 *)
Fixpoint strategy_loop (s : list Z) (offsets sizes : pos -> res subbin) : (pos -> res subbin) * (pos -> res subbin) :=
  match s with
  | [] => (offsets, sizes)
  | d :: s' => strategy_loop s' (fun p => do o <- offsets p; do c <- scan_dim d sizes p; sb_add_intersection o c) (sum_dim d sizes)
  end.

(** bin_detail.cpp [bin_sizes], 77-78, 90-101 *)
Definition sizes0 (p : pos) : res subbin := count_indices (ev p) (off p) (nb p).
Definition offsets0 (p : pos) : res subbin := do s <- sizes0 p; Ok (mksub (so s) (map (fun _ => 0) (ss s))).
Definition out_sizes : pos -> res subbin := snd (strategy_loop strat offsets0 sizes0).
Definition offsets (p : pos) : res subbin :=
  do o <- fst (strategy_loop strat offsets0 sizes0) p;
  do s <- out_sizes (canon strat 0 p);
  do c <- sb_cumsum_exclusive s;
  sb_add_intersection o c.

(** 102-109 *)
Fixpoint cumsum_inclusive (sum : Z) (l : list Z) : list Z := match l with [] => [] | x :: l' => (sum + x) :: cumsum_inclusive (sum + x) l' end.
Definition filtered : res (list Z) := mapM (fun q => do s <- out_sizes q; Ok (sb_sum s)) (rows strat 0 sh).
Definition total_size : res Z := do f <- filtered; Ok (last (cumsum_inclusive 0 f) 0).
Definition range_begin (p : pos) : res Z :=
  do f <- filtered;
  do e <- vget (cumsum_inclusive 0 f) (row_index strat 0 sh p);
  do n <- vget f (row_index strat 0 sh p);
  Ok (e - n).

(** 112-127 for one input bin: the writes into the output buffer *)
Definition writes (p : pos) : res (list (Z * A)) :=
  do o <- offsets p; do r <- range_begin p; do w <- map_kernel o (ev p);
  Ok (map (fun e => (r + fst e, snd e)) w).
(** 129-138: the sizes of the output bins, [volume] per outer position *)
Definition bin_sizes (volume : Z) : res (list Z) := do s <- mapM out_sizes (rows strat 0 sh); sb_flatten volume s.
End Build.
End Mapper.

(** writes into a buffer in some order *)
Fixpoint apply_writes {A} (buf : list A) (w : list (Z * A)) : res (list A) :=
  match w with [] => Ok buf | (x, a) :: w' => do b <- vset buf x a; apply_writes b w' end.

(** bins_from_sizes: consecutive slices of the buffer *)
Fixpoint bins_of_sizes {A} (buf : list A) (sizes : list Z) : list (list A) :=
  match sizes with [] => [] | n :: sizes' => firstn (Z.to_nat n) buf :: bins_of_sizes (skipn (Z.to_nat n) buf) sizes' end.

(** ** the mapper with two stages (bin.cpp 150-221) *)
(** 200-206: [floor_divide] and [%=] with a positive chunk size (see Numeric_Model) *)
Definition coarse_events {A} (chunk : Z) (ev : pos -> list (Z * A)) (p : pos) : list (Z * (Z * A)) := map (fun e => (fst e / chunk, (fst e mod chunk, snd e))) (ev p).
(** shape of [fine_indices]: the dimensions not in [strat], and InternalBinCoarse *)
Fixpoint outer_shape (strat : list Z) (i : Z) (sh : list Z) : list Z :=
  match sh with [] => [] | n :: sh' => if existsb (Z.eqb i) strat then outer_shape strat (i + 1) sh' else n :: outer_shape strat (i + 1) sh' end.
(** 212-213: the bins of the buffer of the first stage *)
Definition fine_events {A} (shape2 : list Z) (bins : list (list (Z * A))) (p : pos) : list (Z * A) := match vget bins (row_index [] 0 shape2 p) with Ok l => l | _ => [] end.
(** 175-182: flatten coarse and fine and slice to the volume of the target dimensions, for every outer position *)
Fixpoint slice_rows (n : nat) (width volume : Z) (l : list Z) : list Z :=
  match n with O => [] | S n' => firstn (Z.to_nat volume) l ++ slice_rows n' width volume (skipn (Z.to_nat width) l) end.
Definition chunk_size (volume : Z) : Z := Z.sqrt volume.
Definition n_coarse (volume : Z) : Z := volume / chunk_size volume + 1.
(** 41-49: the same window for all input bins *)
Definition use_two_stage (volume : Z) : bool := 16 * 1024 <? volume.
