(** Model of comparisons of variables, dictionaries and data arrays: [operator==] and [equals_nan]
    (lib/variable/variable.cpp, lib/variable/include/scipp/variable/element_array_model.h, element_array_variable.tcc,
    lib/dataset/sized_dict.cpp, lib/dataset/data_array.cpp). Binned data are not part of this model. *)
From Flocq Require Import BinarySingleNaN.
From Verif Require Import Base Map_Model Dims_Model Index_Model View_Model Float SizedDict_Model.

(** Elements: floating-point numbers; integers, flags, times and strings (as numbers); vectors and matrices. *)
Inductive elem := EFlt (x : f64) | ENum (z : Z) | EVec (l : list f64).

Fixpoint list_by {A} (eqb : A -> A -> bool) (a b : list A) : bool := (* [std::equal] with four iterators *)
  match a, b with
  | [], [] => true
  | x :: a', y :: b' => eqb x y && list_by eqb a' b'
  | _, _ => false
  end.

(** [==] of elements *)
Definition elem_eqb (a b : elem) : bool :=
  match a, b with
  | EFlt x, EFlt y => Beqb x y
  | ENum m, ENum n => m =? n
  | EVec l, EVec k => list_by Beqb l k
  | _, _ => false
  end.
(** element_array_model.h 37-44: NaN is treated as equal to NaN, for floating-point numbers only. *)
Definition elem_eqb_nan (a b : elem) : bool :=
  match a, b with
  | EFlt x, EFlt y => (is_nan x && is_nan y) || Beqb x y
  | _, _ => elem_eqb a b
  end.
Definition elem_cmp (nan : bool) : elem -> elem -> bool := if nan then elem_eqb_nan else elem_eqb.

(** What [m_object] points to, and the memory as a function of the identity of the object. *)
Record buffer := mkbuf { b_unit : Z; b_dtype : Z; b_val : Z -> elem; b_var : option (Z -> elem) }.
Definition store : Type := Z -> buffer.

(** [values<T>()] or [variances<T>()]: all elements in the order of iteration. *)
Definition elements (f : Z -> elem) (v : var) : res (list elem) :=
  do ix <- vi_make (shape (v_dims v)) (v_strides v);
  do l <- vi_walk (Z.to_nat (volume (v_dims v))) ix (volume (v_dims v));
  Ok (map (fun a => f (v_offset v + a)) l).

(** element_array_model.h 25-35, 46-58 *)
Definition equals_impl (nan : bool) (f g : Z -> elem) (v w : var) : res bool :=
  do l <- elements f v; do k <- elements g w; Ok (list_by (elem_cmp nan) l k).

Definition has_var (b : buffer) : bool := match b_var b with Some _ => true | None => false end.

(** element_array_variable.tcc 104-121 *)
Definition equals_data (st : store) (nan : bool) (a b : item) : res bool :=
  do r <- equals_impl nan (b_val (st (i_obj a))) (b_val (st (i_obj b))) (i_var a) (i_var b);
  if r : bool then
    match b_var (st (i_obj a)), b_var (st (i_obj b)) with
    | None, _ => Ok true
    | Some f, Some g => equals_impl nan f g (i_var a) (i_var b)
    | Some _, None => Throw VariancesError
    end
  else Ok false.

(** variable.cpp 128-146, for valid variables *)
Definition compare (st : store) (nan : bool) (a b : item) : res bool :=
  if nan && is_same a b then Ok true
  else if negb (b_unit (st (i_obj a)) =? b_unit (st (i_obj b))) then Ok false
  else if negb (dims_eqb (i_dims a) (i_dims b)) then Ok false
  else if negb (b_dtype (st (i_obj a)) =? b_dtype (st (i_obj b))) then Ok false
  else if negb (Bool.eqb (has_var (st (i_obj a))) (has_var (st (i_obj b)))) then Ok false
  else if (volume (i_dims a) =? 0) && dims_eqb (i_dims a) (i_dims b) then Ok true
  else if dims_eqb (i_dims a) (i_dims b) then equals_data st nan a b else Ok false.

(** sized_dict.cpp 98-130: both comparisons of dictionaries *)
Fixpoint items_in (st : store) (nan : bool) (l : list (Z * item)) (other : sdict) : res bool :=
  match l with
  | [] => Ok true
  | (k, it) :: l' =>
    if negb (sd_contains other k) then Ok false
    else do o <- sd_at other k;
         do r <- compare st nan it o;
         if r && Bool.eqb (i_aligned it) (i_aligned o) then items_in st nan l' other else Ok false
  end.
Definition sd_compare (st : store) (nan : bool) (a b : sdict) : res bool :=
  if negb (msize (sd_items a) =? msize (sd_items b)) then Ok false
  else items_in st nan (ditems (sd_items a)) b.

(** data_array.cpp 89-113; the early test of [has_variances] (90-91) is repeated by the comparison of the data. *)
Definition da_compare (st : store) (nan : bool) (a b : darray) : res bool :=
  if negb nan && negb (Bool.eqb (has_var (st (i_obj (da_data a)))) (has_var (st (i_obj (da_data b))))) then Ok false
  else
    do c <- sd_compare st nan (da_coords a) (da_coords b);
    if negb c then Ok false else
    do m <- sd_compare st nan (da_masks a) (da_masks b);
    if negb m then Ok false else
    do t <- sd_compare st nan (da_attrs a) (da_attrs b);
    if negb t then Ok false else compare st nan (da_data a) (da_data b).
