(** Model of the selection by conditions, index lists and Python slices, and of sorting: lib/dataset/extract.cpp,
    lib/dataset/sort.cpp, lib/python/bind_slice_methods.h.

    An object is seen along one dimension: a row is everything at one index of this dimension, of any shape and type. As in
    Bins_Model.v a buffer has data with this dimension, and coords, masks and attrs that have it or not. *)
From Coq Require Import Sorting.Permutation.
From Verif Require Import Base Map_Model Dims_Model Mapper_Model Cumsum_Model Bins_Model.

Section Extract.
Context {A : Type}.
(** equality of variables as in [core::expect::equals]: false for NaN *)
Variable eqb : A -> A -> bool.
(** uninitialized elements *)
Variable junk : A.

(** lib/variable/include/scipp/variable/bin_array_variable.tcc 65-87 with [sizes] not given, and bin_array_variable.cpp 26-29 for the total size:
    begin and end of the bins of the result. *)
Definition new_indices (indices : list (Z * Z)) : res (list (Z * Z) * Z) :=
  let sizes := map bin_size indices in
  do end_ <- cumsum Z.add Z.sub (fun x => x) 0 true sizes;
  let begin := map (fun x => fst x - snd x) (combine end_ sizes) in
  Ok (combine begin end_, match end_ with [] => 0 | _ => last end_ 0 end).

(** extract.cpp 38-42, lib/variable/operations.cpp 20-25, lib/variable/include/scipp/variable/bin_array_model.h 142-154:
    [copy] of a binned variable over a buffer. The indices are not checked. *)
Definition copy_ranges (indices : list (Z * Z)) (buf : buffer A) : res (list (Z * Z) * buffer A) :=
  do r <- new_indices indices;
  do out <- copy_buffer eqb buf (resize_default_init junk buf (snd r)) indices (fst r);
  Ok (fst r, out).

(** lib/dataset/util.cpp 189-201, lib/core/sizes.cpp 196-212 for objects with the dimension *)
Definition column_is_edges (n : Z) (c : column A) : bool := match c with Events l => zlen l =? n + 1 | Fixed _ => false end.
Definition strip_edges (n : Z) (items : list (Z * column A)) : list (Z * column A) :=
  filter (fun x => negb (column_is_edges n (snd x))) items.

(** extract.cpp 69-86 for dense data: variables (no items) and data arrays *)
Definition extract_ranges (indices : list (Z * Z)) (data : buffer A) : res (buffer A) :=
  do r <- copy_ranges indices (mkbuf (b_data data) (strip_edges (zlen (b_data data)) (b_items data)));
  Ok (snd r).

(** extract.cpp 69-86 for datasets of size [n]: coords, data, masks and attrs are columns with different names.
    lib/dataset/bins.cpp 93-109, 141-158; lib/dataset/util.cpp 203-210 *)
Definition extract_ranges_ds (indices : list (Z * Z)) (n : Z) (items : list (Z * column A)) : res (list (Z * column A)) :=
  let items := strip_edges n items in
  do r <- new_indices indices;
  let out := map (fun x => (fst x, resize_column junk (snd r) (snd x))) items in
  if matching_keys items out then copy_items eqb items out indices (fst r) else Throw RuntimeError.

(** ** Conditions *)
(** A condition: is the dtype bool, the dimensions, is its memory contiguous, the values. *)
Record condition := mkcond { k_bool : bool; k_dims : sizes; k_contiguous : bool; k_vals : list bool }.

(** [indices.back().second = i] *)
Definition set_back_end (l : list (Z * Z)) (i : Z) : res (list (Z * Z)) :=
  match rev l with [] => Ub | (b, _) :: r => Ok (rev ((b, i) :: r)) end.
(** extract.cpp 105-113; [k] steps left *)
Fixpoint edge_loop (values : list bool) (k : nat) (i : Z) (indices : list (Z * Z)) : res (list (Z * Z)) :=
  match k with
  | O => Ok indices
  | S k' =>
    do v <- vget values i;
    do same <- (if 0 <? i then do p <- vget values (i - 1); Ok (Bool.eqb p v) else Ok false);
    do indices' <- (if same then Ok indices
                    else if v then Ok (indices ++ [(i, zlen values)])
                    else if negb (i =? 0) then set_back_end indices i
                    else Ok indices);
    edge_loop values k' (i + 1) indices'
  end.
Definition ranges_of (values : list bool) : res (list (Z * Z)) := edge_loop values (length values) 0 [].

(** extract.cpp 89-118 for variables and data arrays; [along d]: the object seen along the dimension [d]. *)
Definition extract (dims : sizes) (along : Dim -> buffer A) (c : condition) : res (buffer A) :=
  if negb (k_bool c) then Throw TypeError
  else if negb (ndim (k_dims c) =? 1) then Throw DimensionError
  else
    do inc <- includes dims (k_dims c);
    if negb inc then Throw DimensionError
    else if negb (k_contiguous c) then Throw RuntimeError
    else
      do indices <- ranges_of (k_vals c);
      extract_ranges indices (along (dims_inner (k_dims c))).

(** ** Index lists *)
(** bind_slice_methods.h 221-228 *)
Definition make_slice (p s : Z) : res (Z * Z) :=
  let q := if p <? 0 then s + p else p in
  if (q <? 0) || (s <=? q) then Throw OutOfRange else Ok (q, q + 1).
(** 231-237: [std::minmax_element] *)
Definition check_range (indices : list Z) (size : Z) : res unit :=
  match indices with
  | [] => Ok tt
  | x :: l =>
    let lo := fold_left Z.min l x in
    let hi := fold_left Z.max l x in
    if (lo <? - size) || (size <=? hi) then Throw OutOfRange else Ok tt
  end.
(** 218-248 *)
Definition slice_by_list (dims : sizes) (along : Dim -> buffer A) (dim : Dim) (indices : list Z) : res (buffer A) :=
  do size <- dat dims dim;
  do _ <- check_range indices size;
  do ranges <- mapM (fun p => make_slice p size) indices;
  extract_ranges ranges (along dim).

(** ** Binned data *)
(** extract.cpp 58-86 for binned data: [bins] are the begin and end indices of the bins (of one variable with the dimension),
    [buf] is the buffer with the events. First the indices are selected, then the bins are copied. *)
Definition extract_bins (indices : list (Z * Z)) (bins : list (Z * Z)) (buf : buffer A) : res (list (Z * Z) * buffer A) :=
  do r <- new_indices indices;
  do sel <- copy_slices bins (repeat (0, 0) (Z.to_nat (snd r))) indices (fst r);
  copy_ranges sel buf.
End Extract.

(** ** Python slices *)
(** [PySlice_AdjustIndices] of CPython: start and stop (or [None]) for a sequence of length [n], and the number of elements.
    bind_slice_methods.h 41-53; the step is not zero (that is an error in Python). *)
Definition clip (n lo hi v : Z) : Z := if v <? 0 then Z.max lo (v + n) else Z.min hi v.
Definition adjust (n : Z) (start stop : option Z) (step : Z) : Z * Z * Z :=
  let lo := if step <? 0 then -1 else 0 in
  let hi := if step <? 0 then n - 1 else n in
  let s := match start with Some v => clip n lo hi v | None => if step <? 0 then hi else lo end in
  let e := match stop with Some v => clip n lo hi v | None => if step <? 0 then lo else hi end in
  let len := if step <? 0 then (if e <? s then (s - e - 1) / (- step) + 1 else 0) else (if s <? e then (e - s - 1) / step + 1 else 0) in
  (s, e, len).
Definition from_py_slice (dims : sizes) (dim : Dim) (start stop : option Z) (step : Z) : res slice :=
  do n <- dat dims dim;
  let '(s, e, len) := adjust n start stop step in
  let e := if len =? 0 then s else e in
  slice_range dim s e step.
(** bind_slice_methods.h 77-86 *)
Definition get_slice (dims : sizes) (dim : Dim) (i : Z) : res slice :=
  do n <- dat dims dim;
  if (i <? - n) || (n <=? i) then Throw OutOfRange else slice_point dim (if i <? 0 then n + i else i).

(** ** Sorting *)
Section Sort.
Context {K : Type}.
(** [less] of the values of the key; for floating-point keys see [nan_sensitive_less]. *)
Variable less : K -> K -> bool.
(** sort.cpp 14-19 *)
Definition nan_sensitive_less (is_nan : K -> bool) (a b : K) : bool := if is_nan b then negb (is_nan a) else less a b.
(** sort.cpp 34-43: what [parallel_sort] may return. It is unstable: any permutation of the pairs of key and index in which no pair is less than one before it. *)
Definition sorted_by (ascending : bool) (l : list (K * Z)) : Prop :=
  forall i j a b, (i < j)%nat -> nth_error l i = Some a -> nth_error l j = Some b ->
    (if ascending then less (fst b) (fst a) else less (fst a) (fst b)) = false.
Definition may_sort (ascending : bool) (key : list K) (out : list (K * Z)) : Prop :=
  Permutation out (combine key (zseq 0 (length key))) /\ sorted_by ascending out.
(** sort.cpp 45-53 *)
Definition sort_ranges (out : list (K * Z)) : list (Z * Z) := map (fun x => (snd x, snd x + 1)) out.
End Sort.
(** sort.cpp 62-84, for one of the possible results [out] of sorting the key with dimensions [key_dims] *)
Definition sort_array {A K} (eqb : A -> A -> bool) (junk : A) (dims : sizes) (along : Dim -> buffer A) (key_dims : sizes) (out : list (K * Z)) : res (buffer A) :=
  if negb (ndim key_dims =? 1) then Throw DimensionError
  else
    let dim := dims_inner key_dims in
    do n <- dat dims dim; do m <- dat key_dims dim;
    if negb (n =? m) then Throw DimensionError else extract_ranges eqb junk (sort_ranges out) (along dim).
(** sort.cpp 91-95; no check of the length of the key; [n]: the size of the dataset along the dimension of the key *)
Definition sort_ds {A K} (eqb : A -> A -> bool) (junk : A) (n : Z) (items : list (Z * column A)) (out : list (K * Z)) : res (list (Z * column A)) :=
  extract_ranges_ds eqb junk (sort_ranges out) n items.
