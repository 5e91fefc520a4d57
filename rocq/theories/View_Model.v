(** Model of [Variable] as a view into a buffer (lib/variable/variable.cpp, lib/variable/shape.cpp): dimensions,
    strides, offset, read-only flag and the number of elements of the buffer. The contents of the buffer are the
    subject of later files. *)
From Verif Require Import Base Map_Model Dims_Model.

(** variable.h 165-169: [m_dims], [m_strides], [m_offset], [m_readonly]; [v_size] is [m_object->size()]. *)
Record var := mkvar { v_dims : sizes; v_strides : list Z; v_offset : Z; v_readonly : bool; v_size : Z }.

(** variable.cpp 41-47: a new variable owns a contiguous buffer of [dims.volume()] elements. *)
Definition var_fresh (d : sizes) : var := mkvar d (strides_of d) 0 false (volume d).

(** variable.cpp 185-204 *)
Definition var_slice (v : var) (s : slice) : res var :=
  do _ <- valid_slice (v_dims v) s;
  if slice_eqb s slice_default then Ok v
  else
    do i <- dindex (v_dims v) (s_dim s);
    do x <- vget (v_strides v) i;
    let off := v_offset v + s_begin s * x in
    if s_end s =? -1
    then do st <- verase (v_strides v) i;
         do d <- merase Z.eqb (v_dims v) (s_dim s);
         Ok (mkvar d st off (v_readonly v) (v_size v))
    else do d <- sizes_slice (v_dims v) s;
         do st <- vset (v_strides v) i (x * s_stride s);
         Ok (mkvar d st off (v_readonly v) (v_size v)).

(** variable.cpp 328-332 *)
Definition var_as_const (v : var) : var := mkvar (v_dims v) (v_strides v) (v_offset v) true (v_size v).

(** variable.cpp 243-245 *)
Fixpoint broadcast_strides (d : sizes) (st : list Z) (ls : list Dim) : res (list Z) :=
  match ls with
  | [] => Ok []
  | l :: ls' =>
    do x <- (if dcontains d l then do i <- dindex d l; vget st i else Ok 0);
    do r <- broadcast_strides d st ls';
    Ok (x :: r)
  end.
(** variable.cpp 238-247; [expect::includes] throws [DimensionError]. *)
Definition var_broadcast (v : var) (target : sizes) : res var :=
  do ok <- includes target (v_dims v);
  if negb ok then Throw DimensionError
  else
    let out := if volume target =? volume (v_dims v) then v else var_as_const v in
    do st <- broadcast_strides (v_dims v) (v_strides v) (labels target);
    Ok (mkvar target st (v_offset out) (v_readonly out) (v_size out)).

(** variable.cpp 253-260 *)
Fixpoint fold_strides (dim : Dim) (sub : list Z) (ls : list Dim) (st : list Z) : res (list Z) :=
  match ls, st with
  | [], _ => Ok []
  | l :: ls', x :: st' =>
    do r <- fold_strides dim sub ls' st';
    Ok ((if l =? dim then map (Z.mul x) sub else [x]) ++ r)
  | _ :: _, [] => Ub
  end.
(** variable.cpp 249-262 *)
Definition var_fold (v : var) (dim : Dim) (target : sizes) : res var :=
  do d <- dims_fold (v_dims v) dim target;
  do st <- fold_strides dim (strides_of target) (labels (v_dims v)) (v_strides v);
  Ok (mkvar d st (v_offset v) (v_readonly v) (v_size v)).

(** variable.cpp 264-269 *)
Definition var_transpose (v : var) (order : list Dim) : res var :=
  do st <- strides_transpose (v_strides v) (v_dims v) order;
  do d <- dims_transpose (v_dims v) order;
  Ok (mkvar d st (v_offset v) (v_readonly v) (v_size v)).

(** variable.cpp 275-281 *)
Definition var_rename (v : var) (names : list (Dim * Dim)) (fail_on_unknown : bool) : res var :=
  do d <- rename_dims (v_dims v) names fail_on_unknown;
  Ok (mkvar d (v_strides v) (v_offset v) (v_readonly v) (v_size v)).

(** shape.cpp 138-159 *)
Fixpoint check_squeeze (d : sizes) (ds : list Dim) : res unit :=
  match ds with
  | [] => Ok tt
  | x :: ds' => do n <- dat d x; if n =? 1 then check_squeeze d ds' else Throw DimensionError
  end.
Fixpoint length_1_dims (d : sizes) (ds : list Dim) : res (list Dim) :=
  match ds with
  | [] => Ok []
  | x :: ds' => do n <- dat d x; do r <- length_1_dims d ds'; Ok (if n =? 1 then x :: r else r)
  end.
Definition dims_for_squeezing (d : sizes) (sel : option (list Dim)) : res (list Dim) :=
  match sel with
  | Some ds => do _ <- check_squeeze d ds; Ok ds
  | None => length_1_dims d (m_keys d)
  end.
(** shape.cpp 161-168 *)
Fixpoint squeeze_loop (v : var) (ds : list Dim) : res var :=
  match ds with
  | [] => Ok v
  | d :: ds' => do s <- slice_point d 0; do v' <- var_slice v s; squeeze_loop v' ds'
  end.
Definition var_squeeze (v : var) (sel : option (list Dim)) : res var :=
  do ds <- dims_for_squeezing (v_dims v) sel; squeeze_loop v ds.

(** [std::search]: first position at which [sub] is a prefix of the rest. *)
Fixpoint is_prefix (sub l : list Z) : bool :=
  match sub, l with
  | [], _ => true
  | x :: sub', y :: l' => (x =? y) && is_prefix sub' l'
  | _ :: _, [] => false
  end.
Fixpoint search (l sub : list Z) : option nat :=
  if is_prefix sub l then Some O
  else match l with [] => None | _ :: l' => option_map S (search l' sub) end.

(** shape.cpp 119-130 starting with [out = (d, st)] and [size]; [None]: the data has to be copied first. *)
Fixpoint flatten_loop (to : Z) (to_dim : Dim) (size : Z) (d : sizes) (st : list Z) (from : list Dim) (back : Dim)
  : res (option (sizes * list Z)) :=
  match from with
  | [] => Ok (Some (d, st))
  | f :: from' =>
    do n <- vget (m_values d) to;
    let size := size * n in
    if f =? back
    then do d1 <- sizes_resize d f size;
         do d2 <- mreplace_key Z.eqb d1 f to_dim;
         flatten_loop to to_dim size d2 st from' back
    else do s0 <- vget st to;
         do n1 <- vget (m_values d) (to + 1);
         do s1 <- vget st (to + 1);
         if negb (s0 =? n1 * s1) then Ok None
         else do d1 <- merase Z.eqb d f;
              do st1 <- verase st to;
              flatten_loop to to_dim size d1 st1 from' back
  end.

(** shape.cpp 102-132 without the copy. *)
Definition flatten_view (v : var) (from : list Dim) (to_dim : Dim) : res (option var) :=
  match from with
  | [] => do d <- add_inner (v_dims v) to_dim 1;
          Ok (Some (mkvar d (v_strides v ++ [1]) (v_offset v) (v_readonly v) (v_size v)))
  | _ =>
    match search (labels (v_dims v)) from with
    | None => Throw DimensionError
    | Some i =>
      do r <- flatten_loop (Z.of_nat i) to_dim 1 (v_dims v) (v_strides v) from (last from InvalidDim);
      Ok (option_map (fun p => mkvar (fst p) (snd p) (v_offset v) (v_readonly v) (v_size v)) r)
    end
  end.

(** variable/creation: [copy] makes a contiguous variable of the same dimensions (its elements: C12). *)
Definition var_copy (v : var) : var := var_fresh (v_dims v).

(** shape.cpp 102-132. The flag tells whether the data was copied. A second failure to flatten would recurse
    forever; the theorems exclude it. *)
Definition var_flatten (v : var) (from : list Dim) (to_dim : Dim) : res (bool * var) :=
  do r <- flatten_view v from to_dim;
  match r with
  | Some v' => Ok (false, v')
  | None => do r' <- flatten_view (var_copy v) from to_dim;
            match r' with Some v' => Ok (true, v') | None => Ub end
  end.

(** variable.cpp 285-288 *)
Definition var_is_slice (v : var) : bool := negb (v_offset v =? 0) || negb (volume (v_dims v) =? v_size v).

(** variable.cpp 334-337, called by [data() &], [setUnit], [setVariances] and the in-place operations. *)
Definition expect_writable (v : var) : res unit := if v_readonly v then Throw ReadonlyError else Ok tt.

(** The view operations, for chains. *)
Inductive view_op :=
| VwSlice (s : slice) | VwBroadcast (target : sizes) | VwFold (dim : Dim) (target : sizes)
| VwTranspose (order : list Dim) | VwRename (names : list (Dim * Dim)) (fail_on_unknown : bool)
| VwSqueeze (sel : option (list Dim)) | VwFlatten (from : list Dim) (to : Dim) | VwConst.

(** Result and whether the data was copied to a new buffer. *)
Definition view_step (v : var) (o : view_op) : res (bool * var) :=
  let view r := do v' <- r; Ok (false, v') in
  match o with
  | VwSlice s => view (var_slice v s)
  | VwBroadcast t => view (var_broadcast v t)
  | VwFold d t => view (var_fold v d t)
  | VwTranspose l => view (var_transpose v l)
  | VwRename n f => view (var_rename v n f)
  | VwSqueeze s => view (var_squeeze v s)
  | VwFlatten f t => var_flatten v f t
  | VwConst => Ok (false, var_as_const v)
  end.
