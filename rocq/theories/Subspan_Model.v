(** Model of operations along one dimension of multi-dimensional data: lib/variable/subspan_view.cpp,
    lib/variable/include/scipp/variable/transform_subspan.h, [as_contiguous] (lib/variable/util.cpp), and the functions
    built from them: [histogram] of dense data (lib/dataset/histogram.cpp 25-92) and [rebin] (lib/variable/rebin.cpp).

    A variable is a view with the buffer it reads ([varr], Reshape_Model); the small variables of indices and of spans, which
    the code computes with ordinary element-wise operations, are given by their values at labelled indices ([darr], C10).
    Left out: units, dtypes and their promotion, variances (the kernels of C24 and C25 have any type of weights), masks
    (C24_masked) and the splitting of large one-dimensional tables for threading (C24_threads). *)
From Verif Require Import Base Map_Model Dims_Model View_Model View_Spec Accumulate_Model Cumsum_Model Reshape_Model
  Lookup_Model Numeric_Model Histogram_Model Rebin_Model SizedDict_Model Arr.

(** lib/variable/variable.cpp 175-177 *)
Definition var_stride (v : var) (dim : Dim) : res Z := do i <- dindex (v_dims v) dim; vget (v_strides v) i.

(** [copy]: a new variable with contiguous memory (C12). *)
Definition copy_of {A} (x : varr A) : varr A := mkva (copied (va_buf x) (va x)) (var_copy (va x)).

(** lib/variable/util.cpp 116-123 *)
Definition as_contiguous {A} (x : varr A) (dim : Dim) : res (varr A) :=
  do st <- var_stride (va x) dim;
  if st =? 1 then Ok x
  else
    do d1 <- merase Z.eqb (vdims x) dim;
    do n <- dat (vdims x) dim;
    do d2 <- add_inner d1 dim n;
    do y <- apply_op x (VwTranspose (labels d2));
    Ok (copy_of y).

(** subspan_view.cpp 68-72: exclusive cumulative sum (C37) of a broadcast scalar *)
Definition make_range (dim : Dim) (num stride : Z) : res (darr Z) :=
  do d <- add_inner mempty dim num;
  do l <- cumsum_dim Z.add Z.sub (fun x => x) 0 false 1 num 1 (repeat stride (Z.to_nat num));
  Ok (mkd d (fun ix => znth 0 l (ix dim))).

(** [operator+] for variables: element by element over the merged dimensions (C10). *)
Definition add_vars (a b : darr Z) : res (darr Z) :=
  do d <- dims_merge (dd a) (dd b); Ok (mkd d (fun ix => dv a ix + dv b ix)).

(** subspan_view.cpp 78-81 *)
Fixpoint start_loop (v : var) (dims : sizes) (ls : list Dim) (start : darr Z) : res (darr Z) :=
  match ls with
  | [] => Ok start
  | label :: ls' =>
    do stride <- var_stride v label;
    do n <- dat dims label;
    do r <- make_range label n stride;
    do start' <- add_vars start r;
    start_loop v dims ls' start'
  end.

(** subspan_view.cpp 74-83 *)
Definition make_indices (v : var) (dim : Dim) : res (darr (Z * Z)) :=
  do dims <- merase Z.eqb (v_dims v) dim;
  do start <- start_loop v dims (labels dims) (mkd mempty (fun _ => 0));
  do n <- dat (v_dims v) dim;
  Ok (mkd (dd start) (fun ix => (dv start ix, dv start ix + n))).

(** subspan_view.cpp 13-41, 57-66, 88-94. A span is the range of addresses from the first to behind the last element;
    [values().data()] includes the offset of the view (element_array_view.h 130). *)
Definition subspan_view (v : var) (dim : Dim) : res (darr (Z * Z)) :=
  do indices <- make_indices v dim;
  do stride <- var_stride v dim;
  if negb (stride =? 1) then Throw DimensionError
  else Ok (mkd (dd indices) (fun ix => (v_offset v + stride * fst (dv indices ix), v_offset v + stride * snd (dv indices ix)))).

(** What a kernel sees in a span. *)
Definition span_values {A} (buf : Z -> A) (s : Z * Z) : list A := map buf (zseq (fst s) (Z.to_nat (snd s - fst s))).
Definition span_rows {A} (x : varr A) (dim : Dim) : res (darr (list A)) :=
  do s <- subspan_view (va x) dim; Ok (mkd (dd s) (fun ix => span_values (va_buf x) (dv s ix))).

(** ** [transform_subspan] *)

(** An argument: a variable, or spans made by the caller. *)
Inductive arg (A : Type) := AVar (x : varr A) | ASpans (r : darr (list A)).
Arguments AVar {A}. Arguments ASpans {A}.
Definition arg_dims {A} (a : arg A) : sizes := match a with AVar x => vdims x | ASpans r => dd r end.
(** transform_subspan.h 13-16, 36 *)
Definition erased (d : sizes) (dim : Dim) : res sizes := if dcontains d dim then merase Z.eqb d dim else Ok d.
(** transform_subspan.h 18-22. Kernels take spans: an argument without the dimension, or spans of spans, have no matching
    type. *)
Definition arg_rows {A} (a : arg A) (dim : Dim) : res (darr (list A)) :=
  match a with
  | AVar x => if dcontains (vdims x) dim then span_rows x dim else Throw TypeError
  | ASpans r =>
    if dcontains (dd r) dim
    then do st <- var_stride (var_fresh (dd r)) dim; if negb (st =? 1) then Throw DimensionError else Throw TypeError
    else Ok r
  end.

Section Transform.
Context {A B C W : Type}.

(** A kernel fills the whole span of its output. *)
Definition write_row (buf : Z -> W) (s : Z * Z) (row : list W) : res (Z -> W) :=
  if zlen row =? snd s - fst s
  then Ok (fun a => if (fst s <=? a) && (a <? snd s) then znth (buf a) row (a - fst s) else buf a)
  else Ub.

(** The loop of [transform_data] over the elements of the span variables (C10, C14). [ks]: the order in which the elements
    are reached. Simplified: the kernels run one after the other; those that run at the same time write to different spans
    and read nothing that is written. *)
Fixpoint run_rows (spans : darr (Z * Z)) (op : lindex -> res (list W)) (ks : list Z) (buf : Z -> W) : res (Z -> W) :=
  match ks with
  | [] => Ok buf
  | k :: ks' =>
    let ix := index_of (dd spans) k in
    do row <- op ix;
    do buf' <- write_row buf (dv spans ix) row;
    run_rows spans op ks' buf'
  end.

(** transform_subspan.h 26-48. [junk]: the new buffer is not initialised. *)
Definition transform_subspan (dim : Dim) (size : Z) (op : list A -> list B -> list C -> res (list W))
    (a : arg A) (b : arg B) (c : arg C) (junk : Z -> W) (order : Z -> list Z) : res (varr W) :=
  do da <- erased (arg_dims a) dim; do db <- erased (arg_dims b) dim; do dc <- erased (arg_dims c) dim;
  do d1 <- dims_merge da db; do d2 <- dims_merge d1 dc;
  do d <- add_inner d2 dim size;
  do spans <- subspan_view (var_fresh d) dim;
  do ra <- arg_rows a dim; do rb <- arg_rows b dim; do rc <- arg_rows c dim;
  do buf <- run_rows spans (fun ix => op (dv ra ix) (dv rb ix) (dv rc ix)) (order (volume (dd spans))) junk;
  Ok (mkva buf (var_fresh d)).
End Transform.

(** ** Histogram of dense data *)
Section Histogram.
Context {C W : Type}.
(** histogram.h 59-80 for given edges and events (Histogram_Model.hist_int, hist_f64) *)
Variable kernel : list C -> list (C * W) -> res (list W).

(** histogram.h 64, 74: the loop runs over the coordinates, weights behind the end of their span would be read. Simplified:
    reported even if the coordinates concerned are outside of all bins. *)
Definition hist_row (coord : list C) (weights : list W) (edges : list C) : res (list W) :=
  if zlen coord <=? zlen weights then kernel edges (combine coord weights) else Ub.

(** sized_dict.cpp 184-199 *)
Definition coord_dim (array : sizes) (key : Dim) (d : sizes) : res Dim :=
  if ndim d =? 0 then Ok InvalidDim
  else if ndim d =? 1 then Ok (dims_inner d)
  else do e <- first_edge array d (labels d);
       match e with Some l => Ok l | None => if dcontains d key then Ok key else Ok InvalidDim end.
(** histogram.cpp 125-132 *)
Definition is_histogram (array : sizes) (dim : Dim) (coord : sizes) : res bool :=
  if dcontains array dim && dcontains coord dim
  then do n <- dat coord dim; do m <- dat array dim; Ok (n =? m + 1) else Ok false.
(** histogram.cpp 25-28, 47-92: [data] with the coord named after the dimension of the edges *)
Definition histogram (data : varr W) (coord edges : varr C) (junk : Z -> W) (order : Z -> list Z) : res (varr W) :=
  let dim := dims_inner (vdims edges) in
  do con_edges <- as_contiguous edges dim;
  do h <- is_histogram (vdims data) dim (vdims coord);
  if h : bool then Throw BinEdgeError
  else
    do event_dim <- coord_dim (vdims data) dim (vdims coord);
    do cont_data <- as_contiguous data event_dim;
    do cont_coord <- as_contiguous coord event_dim;
    do n <- dat (vdims con_edges) dim;
    do rc <- span_rows cont_coord event_dim;
    do rw <- span_rows cont_data event_dim;
    transform_subspan dim (n - 1) hist_row (ASpans rc) (ASpans rw) (AVar con_edges) junk order.
End Histogram.

(** ** Rebin *)
Section Rebin.
Context {T W : Type}.
Variable lt : T -> T -> bool.
Variable sub div : T -> T -> T.
Variable abs : T -> T.
Variable zero : W.
Variable add : W -> W -> W.
(** as in Rebin_Model *)
Variable scale scale' : W -> T -> W.

(** Element of a variable at an index. *)
Definition elem {A} (x : varr A) (ix : lindex) : A := va_buf x (vaddr (va x) ix).
Definition row_at {A} (x : varr A) (dim : Dim) (n : Z) (ix : lindex) : list A :=
  map (fun i => elem x (put ix dim i)) (zseq 0 (Z.to_nat n)).

(** util.cpp 60-84: every row along the dimension is in order *)
Definition allsorted (l : T -> T -> bool) (x : varr T) (dim : Dim) : res bool :=
  do d <- merase Z.eqb (vdims x) dim;
  do n <- dat (vdims x) dim;
  Ok (forallb (fun k => sorted_by l (row_at x dim n (index_of d k))) (zseq 0 (Z.to_nat (volume d)))).
Definition both_sorted (l : T -> T -> bool) (x y : varr T) (dim : Dim) : res bool :=
  do a <- allsorted l x dim; if a : bool then allsorted l y dim else Ok false.

(** rebin.cpp 34-44 on slices of several dimensions: element by element *)
Definition nd_add_from_bin (less : T -> T -> bool) (old : lindex -> W) (dim : Dim) (xold : list T) (acc : lindex -> W)
    (xn_low xn_high : T) (iold : Z) : res (lindex -> W) :=
  do xo_low <- vget xold iold; do xo_high <- vget xold (iold + 1);
  Ok (fun ix => add (acc ix) (scale' (old (put ix dim iold)) (fraction less sub div abs xn_low xn_high xo_low xo_high))).
(** rebin.cpp 45-59 *)
Definition nd_accumulate_bin (less : T -> T -> bool) (old : lindex -> W) (dim : Dim) (xold : list T) (oldSize : Z)
    (xn_low xn_high : T) : res (lindex -> W) :=
  do begin <- upper_bound (less xn_low) xold;
  do end_ <- upper_bound (less xn_high) xold;
  if (begin =? oldSize + 1) || (end_ =? 0) then Ok (fun _ => zero)
  else
    let begin := Z.max 0 (begin - 1) in
    do acc <- nd_add_from_bin less old dim xold (fun _ => zero) xn_low xn_high begin;
    let acc := if begin + 1 <? end_ - 1
               then fold_left (fun (a : lindex -> W) i ix => add (a ix) (old (put ix dim i)))
                              (zseq (begin + 1) (Z.to_nat (end_ - 1 - (begin + 1)))) acc
               else acc in
    if negb (begin =? end_ - 1) && (end_ <? oldSize + 1)
    then nd_add_from_bin less old dim xold acc xn_low xn_high (end_ - 1) else Ok acc.
(** rebin.cpp 60-69; the slices of the result, one for every new bin *)
Fixpoint nd_rebin_non_inner (less : T -> T -> bool) (old : lindex -> W) (dim : Dim) (xold : list T) (oldSize : Z) (xnew : list T) :
    res (list (lindex -> W)) :=
  match xnew with
  | a :: (b :: _) as xnew' =>
    do v <- nd_accumulate_bin less old dim xold oldSize a b;
    do r <- nd_rebin_non_inner less old dim xold oldSize xnew'; Ok (v :: r)
  | _ => Ok []
  end.

(** rebin.cpp 102-175 *)
Definition rebin_step (dim : Dim) (x : varr W) (old new : varr T) (junk : Z -> W) (order : Z -> list Z) : res (varr W) :=
  do e <- is_edges (vdims x) (vdims old) dim;
  if negb e then Throw BinEdgeError
  else
    do ascending <- both_sorted lt old new dim;
    let gt := fun a b => lt b a in
    do ok <- (if ascending : bool then Ok true else both_sorted gt old new dim);
    if negb ok then Throw BinEdgeError
    else
      let less := if ascending : bool then lt else gt in
      do oldEdges <- as_contiguous old dim;
      do newEdges <- as_contiguous new dim;
      do n <- dat (vdims newEdges) dim;
      do st <- var_stride (va x) dim;
      do rebinned <-
        (if st =? 1
         then transform_subspan dim (n - 1) (fun xnew data xold => rebin_inner less sub div abs zero add scale xnew data xold)
                (AVar newEdges) (AVar x) (AVar oldEdges) junk order
         else
           do d <- sizes_resize (vdims x) dim (n - 1);
           if 1 <? ndim (vdims newEdges) then Throw RuntimeError
           else
             do m <- dat (vdims x) dim;
             do ro <- span_rows oldEdges dim; do rn <- span_rows newEdges dim;
             do fs <- nd_rebin_non_inner less (elem x) dim (dv ro (fun _ => 0)) m (dv rn (fun _ => 0));
             Ok (mkva (fun a => let ix := index_of d a in znth (fun _ => zero) fs (ix dim) ix) (var_fresh d)));
      apply_op rebinned (VwTranspose (labels (vdims x))).
(** rebin.cpp 92-101 *)
Definition rebin_nd (dim : Dim) (x : varr W) (old new : varr T) (junk : Z -> W) (order : Z -> list Z) : res (varr W) :=
  do st <- var_stride (va x) dim;
  if negb (st =? 1) && (negb (ndim (vdims old) =? 1) || negb (ndim (vdims new) =? 1))
  then
    do x1 <- as_contiguous x dim;
    do r <- rebin_step dim x1 old new junk order;
    do t <- apply_op r (VwTranspose (labels (vdims x)));
    Ok (copy_of t)
  else rebin_step dim x old new junk order.
End Rebin.
