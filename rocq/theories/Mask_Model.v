(** Model of masks: how binary operations combine them (lib/dataset/dataset.cpp 314-375) and how reductions apply them
    (lib/dataset/variable_reduction.cpp, lib/dataset/include/scipp/dataset/sized_dict.h 162-174,
    lib/dataset/dataset_operations_common.h 13-35, lib/templates/dataset_reduction.cpp.in).

    Masks and data are modelled by their values at labelled indices, as in Accumulate_Model; sharing of memory between
    masks is not part of this model. Data are dense. *)
From Verif Require Import Base Map_Model Dims_Model View_Model SizedDict_Model Accumulate_Model Float.
From Flocq Require Import BinarySingleNaN.

(** A mask: a variable, whether its dtype is [bool], its unit is none, and whether it is read-only. Values of other dtypes
    are not modelled. *)
Record mask := mkmask { k_arr : darr bool; k_bool : bool; k_none : bool; k_ro : bool }.
Definition k_dims (m : mask) : sizes := dd (k_arr m).
Definition mask_copy (m : mask) : mask := mkmask (k_arr m) (k_bool m) (k_none m) false.

(** lib/core/include/scipp/core/element/logical.h 13-30: [a | b] *)
Definition or_arr (d : sizes) (a b : mask) : darr bool := mkd d (fun ix => dv (k_arr a) ix || dv (k_arr b) ix).
Definition mask_or (a b : mask) : res mask :=
  if negb (k_bool a && k_bool b) then Throw TypeError
  else if negb (k_none a && k_none b) then Throw UnitError
  else do d <- dims_merge (k_dims a) (k_dims b); Ok (mkmask (or_arr d a b) true true false).

(** logical.h 34-43: [a |= b]; the output must have all dimensions of the operand (C12). *)
Definition mask_or_eq (a b : mask) : res mask :=
  if k_ro a then Throw RuntimeError
  else if negb (k_bool a && k_bool b) then Throw TypeError
  else if negb (k_none a && k_none b) then Throw UnitError
  else do inc <- includes (k_dims a) (k_dims b);
       if inc : bool then Ok (mkmask (or_arr (k_dims a) a b) true true false) else Throw DimensionError.

(** dataset.cpp 318-319 *)
Fixpoint or_first (out : vmap Z mask) (l : list (Z * mask)) : res (vmap Z mask) :=
  match l with
  | [] => Ok out
  | (k, m) :: l' => do out' <- dinsert_or_assign Z.eqb out k (mask_copy m); or_first out' l'
  end.
(** 320-337 *)
Fixpoint or_second (a out : vmap Z mask) (l : list (Z * mask)) : res (vmap Z mask) :=
  match l with
  | [] => Ok out
  | (k, m) :: l' =>
    do out' <- (if negb (mcontains Z.eqb a k) then dinsert_or_assign Z.eqb out k (mask_copy m)
      else
        do o <- mat Z.eqb NotFoundError out k;
        if negb (k_bool m) || negb (k_bool o) then Throw TypeError
        else if negb (k_none m) || negb (k_none o) then Throw UnitError
        else do inc <- includes (k_dims o) (k_dims m);
             do r <- (if inc : bool then mask_or_eq o m else mask_or o m);
             dinsert_or_assign Z.eqb out k r);
    or_second a out' l'
  end.
Definition union_or (a b : vmap Z mask) : res (vmap Z mask) :=
  do out <- or_first mempty (ditems a); or_second a out (ditems b).

(** The masks of a data array: [Masks], a dictionary with the sizes of the data. *)
Record masks := mkmasks { ms_sizes : sizes; ms_items : vmap Z mask; ms_ro : bool }.

(** sized_dict.cpp 220-250: [set] of a key that is not in the dictionary. *)
Definition masks_set (d : masks) (k : Z) (m : mask) : res masks :=
  if ms_ro d then Throw DataArrayError
  else
    do dims <- relax (ms_sizes d) (k_dims m) (labels (k_dims m));
    do ok <- includes (ms_sizes d) dims;
    if ok : bool then do it <- dinsert_or_assign Z.eqb (ms_items d) k m; Ok (mkmasks (ms_sizes d) it (ms_ro d))
    else Throw DimensionError.

(** [operator!=] for masks of the same dtype and unit *)
Definition mask_differs (a b : mask) : bool :=
  negb (dims_eqb (k_dims a) (k_dims b) && same_values Bool.eqb (k_arr a) (k_arr b)).

(** dataset.cpp 344-365 *)
Fixpoint check_in_place (d : masks) (l : list (Z * mask)) : res unit :=
  match l with
  | [] => Ok tt
  | (k, m) :: l' =>
    do _ <- (if negb (mcontains Z.eqb (ms_items d) k) then if ms_ro d then Throw NotFoundError else Ok tt
      else
        do o <- mat Z.eqb NotFoundError (ms_items d) k;
        do differs <- (if k_ro o then do u <- mask_or o m; Ok (mask_differs o u) else Ok false);
        if differs : bool then Throw DimensionError
        else if negb (k_bool m) || negb (k_bool o) then Throw TypeError
        else if negb (k_none m) || negb (k_none o) then Throw UnitError else Ok tt);
    check_in_place d l'
  end.
(** 367-374. The masks as they are after the call, and its outcome. *)
Fixpoint apply_in_place (d : masks) (l : list (Z * mask)) : masks * res unit :=
  match l with
  | [] => (d, Ok tt)
  | (k, m) :: l' =>
    let step := (if negb (mcontains Z.eqb (ms_items d) k) then masks_set d k (mask_copy m)
      else
        do o <- mat Z.eqb NotFoundError (ms_items d) k;
        if k_ro o then Ok d
        else do r <- mask_or_eq o m; do it <- dinsert_or_assign Z.eqb (ms_items d) k r;
             Ok (mkmasks (ms_sizes d) it (ms_ro d))) in
    match step with
    | Ok d' => apply_in_place d' l'
    | Throw e => (d, Throw e)
    | Ub => (d, Ub)
    end
  end.
Definition union_or_in_place (d : masks) (b : vmap Z mask) : masks * res unit :=
  match check_in_place d (ditems b) with
  | Ok _ => apply_in_place d (ditems b)
  | Throw e => (d, Throw e)
  | Ub => (d, Ub)
  end.

(** ** Reductions *)

(** sized_dict.h 168-174 *)
Fixpoint irreducible_loop (u : option mask) (dim : Dim) (l : list (Z * mask)) : res (option mask) :=
  match l with
  | [] => Ok u
  | (_, m) :: l' =>
    if dcontains (k_dims m) dim
    then do u' <- (match u with None => Ok (mask_copy m) | Some x => mask_or x m end); irreducible_loop (Some u') dim l'
    else irreducible_loop u dim l'
  end.
Definition irreducible_mask (l : list (Z * mask)) (dim : Dim) : res (option mask) := irreducible_loop None dim l.

(** lib/variable/util.cpp 111-114, element/util.h 135-148: [where(condition, x, y)] with a scalar [x]. *)
Definition where_ {A} (c : mask) (x : A) (y : darr A) : res (darr A) :=
  if negb (k_bool c) then Throw TypeError
  else if negb (k_none c) then Throw UnitError
  else do d0 <- dims_merge (k_dims c) mempty; do d <- dims_merge d0 (dd y);
       Ok (mkd d (fun ix => if dv (k_arr c) ix then x else dv y ix)).

Definition mask_transpose (m : mask) (ls : list Dim) : res mask :=
  do d <- dims_transpose (k_dims m) ls; Ok (mkmask (mkd d (dv (k_arr m))) (k_bool m) (k_none m) (k_ro m)).

(** lib/variable/reduction.cpp 26-47: [acc] is the function that accumulates into its first argument, such as [sum_into];
    [init] the value that [dense_special_like] fills the accumulator with. *)
Definition reduce_dim {A} (acc : darr A -> darr A -> res (darr A)) (init : A) (var : darr A) (dim : Dim) : res (darr A) :=
  do d <- (if dim =? InvalidDim then Ok (dd var) else merase Z.eqb (dd var) dim);
  acc (mkd d (fun _ => init)) var.

(** variable_reduction.cpp 20-31 *)
Definition reduce_masked {A} (acc : darr A -> darr A -> res (darr A)) (init fill : A) (var : darr A) (dim : Dim)
  (l : list (Z * mask)) : res (darr A) :=
  do u <- irreducible_mask l dim;
  match u with
  | None => reduce_dim acc init var dim
  | Some m =>
    do i <- dims_intersection (dd var) (k_dims m);
    do t <- mask_transpose m (labels i);
    do w <- where_ t fill var;
    reduce_dim acc init w dim
  end.

(** lib/variable/operations_common.h 21-29: [normalize_impl]; [norm x n] is [x * reciprocal(n)]. *)
Definition normalize_impl {A B} (norm : A -> Z -> B) (s : darr A) (count : darr Z) : res (darr B) :=
  do d <- dims_merge (dd s) (dd count); Ok (mkd d (fun ix => norm (dv s ix) (dv count ix))).

(** variable_reduction.cpp 74-81, reduction.cpp 108-110, 152-154. The count is a sum of integers. *)
Definition unmasked_count (m : mask) : darr Z := mkd (k_dims m) (fun ix => if dv (k_arr m) ix then 0 else 1).
Definition mean_masked {A B} (acc : darr A -> darr A -> res (darr A)) (accZ : darr Z -> darr Z -> res (darr Z)) (zero : A)
  (norm : A -> Z -> B) (var : darr A) (dim : Dim) (l : list (Z * mask)) : res (darr B) :=
  do u <- irreducible_mask l dim;
  match u with
  | None =>
    do n <- dat (dd var) dim;
    do s <- reduce_dim acc zero var dim;
    normalize_impl norm s (mkd mempty (fun _ => n))
  | Some m =>
    do count <- reduce_dim accZ 0 (unmasked_count m) dim;
    do w <- where_ m zero var;
    do s <- reduce_dim acc zero w dim;
    normalize_impl norm s count
  end.

(** dataset_operations_common.h 16-25: the masks that the result keeps. (Coords and attributes: likewise, but shared.) *)
Fixpoint copy_independent (dim : Dim) (out : vmap Z mask) (l : list (Z * mask)) : res (vmap Z mask) :=
  match l with
  | [] => Ok out
  | (k, m) :: l' =>
    do out' <- (if negb (dcontains (k_dims m) dim) then dinsert_or_assign Z.eqb out k (mask_copy m) else Ok out);
    copy_independent dim out' l'
  end.

(** dataset_reduction.cpp.in 21-28: reduction of a data array along a dimension (its data and masks). *)
Definition reduce_array {A} (acc : darr A -> darr A -> res (darr A)) (init fill : A) (a : darr A * vmap Z mask) (dim : Dim)
  : res (darr A * vmap Z mask) :=
  do ms <- copy_independent dim mempty (ditems (snd a));
  do r <- reduce_masked acc init fill (fst a) dim (ditems (snd a));
  Ok (r, ms).

(** operations_common.h 38-49, dataset_reduction.cpp.in 15-19: over all dimensions, the innermost first. [fuel] bounds the
    number of steps. *)
Fixpoint reduce_all_loop {A} (acc : darr A -> darr A -> res (darr A)) (init fill : A) (fuel : nat) (a : darr A * vmap Z mask)
  : res (darr A * vmap Z mask) :=
  match labels (dd (fst a)) with
  | [] => Ok a
  | _ :: _ =>
    match fuel with
    | O => Ub
    | S fuel' => do a' <- reduce_array acc init fill a (dims_inner (dd (fst a))); reduce_all_loop acc init fill fuel' a'
    end
  end.
Definition reduce_all {A} (acc : darr A -> darr A -> res (darr A)) (init fill : A) (a : darr A * vmap Z mask) :=
  reduce_all_loop acc init fill (length (labels (dd (fst a)))) a.

(** ** The operations on doubles
    lib/core/include/scipp/core/element/arithmetic.h 29-39, comparison.h 117-163, creation.h 49-59; reduction.cpp 56-106
    for the initial values, variable_reduction.cpp 34-72 for the fill values. *)
Definition f_zero : f64 := B754_zero false.
Definition f_max : f64 := f_make (2 ^ 53 - 1) 971.
Definition f_lowest : f64 := Bopp f_max.
(** [std::max(a, b)], [std::min(a, b)] *)
Definition std_max (a b : f64) : f64 := if fltb a b then b else a.
Definition std_min (a b : f64) : f64 := if fltb b a then b else a.
Definition nan_add_equals (a b : f64) : f64 :=
  let a := if is_nan a then f_zero else a in if is_nan b then a else fadd a b.
Definition max_equals (a b : f64) : f64 := if is_nan b then b else if is_nan a then a else std_max a b.
Definition min_equals (a b : f64) : f64 := if is_nan b then b else if is_nan a then a else std_min a b.
Definition nanmax_equals (a b : f64) : f64 :=
  let a := if is_nan a then b else a in if is_nan b then a else std_max a b.
Definition nanmin_equals (a b : f64) : f64 :=
  let a := if is_nan a then b else a in if is_nan b then a else std_min a b.

Inductive redop := RSum | RNansum | RMax | RNanmax | RMin | RNanmin.
Definition r_op (o : redop) : f64 -> f64 -> f64 :=
  match o with
  | RSum => fadd | RNansum => nan_add_equals | RMax => max_equals | RNanmax => nanmax_equals | RMin => min_equals
  | RNanmin => nanmin_equals
  end.
Definition r_init (o : redop) : f64 :=
  match o with RSum | RNansum => f_zero | RMax | RNanmax => f_lowest | RMin | RNanmin => f_max end.
Definition r_fill (o : redop) : f64 :=
  match o with RSum | RNansum => f_zero | RMax | RNanmax => f_lowest | RMin | RNanmin => f_max end.
