(** Model of the combination of coords and attributes by binary operations (lib/dataset/sized_dict.cpp 424-467,
    lib/dataset/except.cpp 59-79, lib/dataset/templates/dataset_binary.cpp.in and dataset_inplace.cpp.in). *)
From Verif Require Import Base Map_Model Dims_Model View_Model SizedDict_Model Equality_Model.

(** sized_dict.cpp 430-432 *)
Fixpoint union_first (out : vmap Z item) (l : list (Z * item)) : res (vmap Z item) :=
  match l with
  | [] => Ok out
  | (k, it) :: l' => do out' <- (if i_aligned it then dinsert_or_assign Z.eqb out k it else Ok out); union_first out' l'
  end.

(** except.h [matching_coord]: throws unless [equals_nan] *)
Definition matching_coord (st : store) (a b : item) : res unit :=
  do r <- compare st true a b; if r : bool then Ok tt else Throw CoordMismatchError.

(** sized_dict.cpp 434-453 *)
Fixpoint union_second (st : store) (a : sdict) (out : vmap Z item) (l : list (Z * item)) : res (vmap Z item) :=
  match l with
  | [] => Ok out
  | (k, vb) :: l' =>
    do out' <- (if sd_contains a k
      then do va <- sd_at a k;
           if i_aligned va && i_aligned vb then do _ <- matching_coord st va vb; Ok out
           else if i_aligned vb then dinsert_or_assign Z.eqb out k vb
           else if negb (i_aligned va)
                then do r <- compare st true va vb; if r : bool then dinsert_or_assign Z.eqb out k vb else Ok out
                else Ok out
      else if i_aligned vb then dinsert_or_assign Z.eqb out k vb else Ok out);
    union_second st a out' l'
  end.
Definition union_ (st : store) (a b : sdict) : res (vmap Z item) :=
  do out <- union_first mempty (ditems (sd_items a)); union_second st a out (ditems (sd_items b)).

(** sized_dict.cpp 458-467 *)
Fixpoint intersect_loop (st : store) (b : sdict) (out : vmap Z item) (l : list (Z * item)) : res (vmap Z item) :=
  match l with
  | [] => Ok out
  | (k, it) :: l' =>
    do out' <- (if sd_contains b k
      then do vb <- sd_at b k; do r <- compare st true vb it; if r : bool then dinsert_or_assign Z.eqb out k it else Ok out
      else Ok out);
    intersect_loop st b out' l'
  end.
Definition intersection (st : store) (a b : sdict) : res (vmap Z item) := intersect_loop st b mempty (ditems (sd_items a)).

(** except.cpp 59-74 *)
Fixpoint superset_loop (st : store) (a : sdict) (l : list (Z * item)) : res unit :=
  match l with
  | [] => Ok tt
  | (k, vb) :: l' =>
    if negb (sd_contains a k)
    then if i_aligned vb then Throw CoordMismatchError else superset_loop st a l'
    else
      do va <- sd_at a k;
      if i_aligned va && i_aligned vb
      then do r <- compare st false va vb; if r : bool then superset_loop st a l' else Throw CoordMismatchError
      else superset_loop st a l'
  end.
Definition coords_are_superset (st : store) (a b : sdict) : res unit := superset_loop st a (ditems (sd_items b)).

(** dataset_binary.cpp.in 12-21, data_array.cpp 47-54: dimensions, coords and attributes of the result. The data have
    the merged dimensions of the operands (C12); their values and the masks (C31) are left out. *)
Definition binary_meta (st : store) (a b : darray) : res (sizes * sdict * sdict) :=
  do coords <- union_ st (da_coords a) (da_coords b);
  do attrs <- intersection st (da_attrs a) (da_attrs b);
  do dims <- dims_merge (i_dims (da_data a)) (i_dims (da_data b));
  do c <- sd_make dims coords false;
  do t <- sd_make dims attrs false;
  Ok (dims, c, t).
