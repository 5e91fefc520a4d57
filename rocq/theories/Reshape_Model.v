(** Model of fold and flatten for data arrays and their metadata (lib/dataset/shape.cpp 171-301).

    A variable is a view (View_Model) with the buffer it reads; buffers never change here, except the new one filled by
    [flatten_bin_edge]. Units and dtypes are left out: all variables compared or copied below come from the same variable. *)
From Verif Require Import Base Map_Model Dims_Model View_Model View_Spec.

Record varr (A : Type) := mkva { va_buf : Z -> A; va : var }.
Arguments mkva {A}. Arguments va_buf {A}. Arguments va {A}.
Definition vdims {A} (x : varr A) : sizes := v_dims (va x).

(** A view operation (View_Model); [flatten] may have to copy (lib/variable/shape.cpp 126). *)
Definition apply_op {A} (x : varr A) (o : view_op) : res (varr A) :=
  do r <- view_step (va x) o;
  Ok (mkva (if fst r then copied (va_buf x) (va x) else va_buf x) (snd r)).

Section Reshape.
Context {A : Type} (eqb : A -> A -> bool) (junk : Z -> A).

(** shape.cpp 179-199; the loop over [from_labels] ... *)
Fixpoint add_missing (var_dims data_dims : sizes) (from : list Dim) (out : sizes) : res sizes :=
  match from with
  | [] => Ok out
  | l :: from' =>
    do out' <- (if dcontains out l then Ok out
                else do n <- (if dcontains var_dims l then dat var_dims l else dat data_dims l); add_inner out l n);
    add_missing var_dims data_dims from' out'
  end.
(** ... and the loop over the labels of the variable *)
Fixpoint broadcast_target (var_dims data_dims : sizes) (from ls : list Dim) (out : sizes) : res sizes :=
  match ls with
  | [] => Ok out
  | l :: ls' =>
    do out' <- (if mem l from then add_missing var_dims data_dims from out
                else do n <- dat var_dims l; add_inner out l n);
    broadcast_target var_dims data_dims from ls' out'
  end.
Definition maybe_broadcast (x : varr A) (from : list Dim) (data_dims : sizes) : res (varr A) :=
  do t <- broadcast_target (vdims x) data_dims from (labels (vdims x)) mempty;
  apply_op x (VwBroadcast t).

(** shape.cpp 202-210 *)
Definition fold_bin_edge (x : varr A) (from : Dim) (to : sizes) : res (varr A) :=
  do n <- dat (vdims x) from;
  do s <- slice_range from 0 (n - 1) 1;
  do x1 <- apply_op x (VwSlice s);
  do x2 <- apply_op x1 (VwFold from to);
  do x3 <- apply_op x2 VwConst;
  do m <- dat to (dims_inner to);
  do d <- sizes_resize (vdims x3) (dims_inner to) (m + 1);
  Ok (mkva (va_buf x3) (mkvar d (v_strides (va x3)) (v_offset (va x3)) (v_readonly (va x3)) (v_size (va x3)))).

(** All elements in row-major order, as the iterators give them (C03). *)
Definition row_major_elements (x : varr A) : list A := map (copied (va_buf x) (va x)) (zseq 0 (Z.to_nat (volume (vdims x)))).
Fixpoint all_equal (a b : list A) : bool :=
  match a, b with [], [] => true | x :: a', y :: b' => eqb x y && all_equal a' b' | _, _ => false end.
(** variable.cpp 128-146: [operator==] for variables of the same unit and dtype *)
Definition same_variable (x y : varr A) : bool :=
  dims_eqb (vdims x) (vdims y) && all_equal (row_major_elements x) (row_major_elements y).

(** [copy(src, dest)]: element by element, with [src] broadcast (C12). *)
Fixpoint write_all (buf : Z -> A) (dest : var) (src : varr A) (ks : list Z) : Z -> A :=
  match ks with
  | [] => buf
  | k :: ks' =>
    let ix := index_of (v_dims dest) k in
    write_all (fun a => if a =? vaddr dest ix then va_buf src (vaddr (va src) ix) else buf a) dest src ks'
  end.
Definition copy_to (buf : Z -> A) (dest : var) (src : varr A) : res (Z -> A) :=
  do ok <- includes (v_dims dest) (vdims src);
  if ok : bool then Ok (write_all buf dest src (zseq 0 (Z.to_nat (volume (v_dims dest))))) else Throw DimensionError.

(** shape.cpp 213-238; [None]: the invalid variable. [junk]: the uninitialized elements of [empty]. *)
Definition flatten_bin_edge (x : varr A) (from : list Dim) (to edge : Dim) : res (option (varr A)) :=
  do n <- dat (vdims x) edge;
  let data_shape := n - 1 in
  do s0 <- slice_point edge 0;
  do front <- apply_op x (VwSlice s0);
  do s1 <- slice_point edge data_shape;
  do back <- apply_op x (VwSlice s1);
  do front_flat <- apply_op front (VwFlatten (labels (vdims front)) to);
  do back_flat <- apply_op back (VwFlatten (labels (vdims back)) to);
  do s2 <- slice_range to 1 (volume (vdims front)) 1;
  do f <- apply_op front_flat (VwSlice s2);
  do s3 <- slice_range to 0 (volume (vdims back) - 1) 1;
  do b <- apply_op back_flat (VwSlice s3);
  if negb (same_variable f b) then Ok None
  else
    do s4 <- slice_range edge 0 data_shape 1;
    do x1 <- apply_op x (VwSlice s4);
    do bulk <- apply_op x1 (VwFlatten from to);
    do m <- dat (vdims bulk) to;
    do out_dims <- sizes_resize (vdims bulk) to (m + 1);
    let out := var_fresh out_dims in
    do s5 <- slice_range to 0 (m + 1 - 1) 1;
    do dest <- var_slice out s5;
    do buf1 <- copy_to junk dest bulk;
    do s6 <- slice_point to (volume (vdims back) - 1);
    do last <- apply_op back_flat (VwSlice s6);
    do s7 <- slice_point to (m + 1 - 1);
    do dest2 <- var_slice out s7;
    do buf2 <- copy_to buf1 dest2 last;
    Ok (Some (mkva buf2 out)).

(** shape.cpp 241-247 *)
Fixpoint bin_edge_in (var_dims array_dims : sizes) (from : list Dim) : res Dim :=
  match from with
  | [] => Ok InvalidDim
  | l :: from' => do e <- is_edges array_dims var_dims l; if e : bool then Ok l else bin_edge_in var_dims array_dims from'
  end.

(** shape.cpp 253-263: what [fold] does to the data and to each coord, mask and attribute. *)
Definition fold_item (array_dims : sizes) (from : Dim) (to : sizes) (x : varr A) : res (varr A) :=
  do e <- is_edges array_dims (vdims x) from;
  if e : bool then fold_bin_edge x from to
  else if dcontains (vdims x) from then apply_op x (VwFold from to)
  else Ok x.

(** shape.cpp 277-301: the same for [flatten]; [data]: whether it is the data itself. *)
Definition flatten_item (array_dims : sizes) (from : list Dim) (to : Dim) (data : bool) (x : varr A) : res (option (varr A)) :=
  do y <- (if data then Ok x else maybe_broadcast x from array_dims);
  do e <- bin_edge_in (vdims x) array_dims from;
  if negb (e =? InvalidDim) then flatten_bin_edge y from to e
  else if (ndim array_dims =? 0) || dcontains (vdims y) (hd InvalidDim from)
       then do r <- apply_op y (VwFlatten from to); Ok (Some r)
       else Ok (Some y).
End Reshape.
