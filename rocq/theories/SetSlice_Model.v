(** Model of the assignment to slices: lib/variable/variable.cpp 206-236, lib/dataset/sized_dict.cpp 301-334,
    lib/dataset/data_array.cpp 136-154 and lib/dataset/dataset.cpp 237-263.

    Dense data. Data, coords and masks are in memory and may share it. An element is a value with a variance, which is ignored for
    buffers without variances. dtype, unit and presence of variances of the buffers do not change here ([kind]): values are
    assigned between buffers of the same kind only. *)
From Verif Require Import Base Map_Model Dims_Model Dims_Spec View_Model Transform_Model Transform_Spec SizedDict_Model Equality_Model
  Union_Model Dataset_Model.

Definition element : Type := (elem * elem)%type.
Record info := mkinfo { n_type : Z; n_unit : Z; n_vars : bool }.
Definition i_buf (it : item) : nat := Z.to_nat (i_obj it).
Definition arr_of (it : item) : arr := mkarr (i_buf it) (i_var it).

Section Model.
Variable kind : Z -> info.
Variable blocks : sizes -> list (Z * Z).
Variable tmp : nat.                                                   (* buffer of temporary copies *)

(** The memory as comparisons see it. *)
Definition store_of (h : heap element) : store := fun o =>
  mkbuf (n_unit (kind o)) (n_type (kind o)) (fun i => fst (h (Z.to_nat o, i)))
    (if n_vars (kind o) then Some (fun i => snd (h (Z.to_nat o, i))) else None).

(** variable.cpp 206-230 *)
Definition validate_var (x : item) (s : slice) (y : item) : res unit :=
  do _ <- valid_slice (i_dims x) s;
  if negb (Bool.eqb (n_vars (kind (i_obj y))) (n_vars (kind (i_obj x)))) then Throw VariancesError
  else if negb (n_unit (kind (i_obj y)) =? n_unit (kind (i_obj x))) then Throw UnitError
  else if negb (n_type (kind (i_obj y)) =? n_type (kind (i_obj x))) then Throw TypeError
  else Ok tt.

(** element_array_model.h 136 [do_copy]: [a = b] *)
Definition assign (l : list element) : element := match l with _ :: b :: _ => b | _ => (ENum 0, ENum 0) end.

(** variable.cpp 232-236, operations.cpp 28-37, element_array_model.h 143-150. The unit is assigned, too: it is the same. *)
Definition set_var (h : heap element) (x : item) (s : slice) (y : item) (r : res unit) (h' : heap element) : Prop :=
  match (do _ <- validate_var x s y;
         do v <- var_slice (i_var x) s;
         transform_in_place assign h (mkarr (i_buf x) v) [arr_of y] tmp blocks) with
  | Ok (h1, ps) => r = Ok tt /\ may_end h1 ps h'
  | Throw e => r = Throw e /\ h' = h
  | Ub => r = Ub /\ h' = h
  end.

(** sized_dict.cpp 301-321. [l]: the items of the other dictionary. *)
Fixpoint validate_masks (h : heap element) (d : sdict) (s : slice) (l : list (Z * item)) : res unit :=
  match l with
  | [] => Ok tt
  | (k, y) :: l' =>
    if negb (sd_contains d k) then Throw NotFoundError
    else
      do x <- sd_at d k;
      do _ <- (if v_readonly (i_var x) || negb (dcontains (i_dims x) (s_dim s))
               then
                 do v <- (if dcontains (i_dims x) (s_dim s) then var_slice (i_var x) s else Ok (i_var x));
                 do eq <- compare (store_of h) false (with_var x v) y;
                 if negb eq then Throw DimensionError else Ok tt
               else Ok tt);
      validate_masks h d s l'
  end.
(** sized_dict.cpp 327-332 *)
Fixpoint write_masks (h : heap element) (d : sdict) (s : slice) (l : list (Z * item)) (r : res unit) (h' : heap element) : Prop :=
  match l with
  | [] => r = Ok tt /\ h' = h
  | (k, y) :: l' =>
    match (if sd_contains d k then do x <- sd_at d k; Ok (Some x) else Ok None) with
    | Ok (Some x) =>
      if negb (v_readonly (i_var x)) && dcontains (i_dims x) (s_dim s)
      then exists r1 h1, set_var h x s y r1 h1 /\
        match r1 with Ok _ => write_masks h1 d s l' r h' | e => r = e /\ h' = h1 end
      else write_masks h d s l' r h'
    | Ok None => write_masks h d s l' r h'
    | Throw e => r = Throw e /\ h' = h
    | Ub => r = Ub /\ h' = h
    end
  end.
(** sized_dict.cpp 323-334 *)
Definition set_masks (h : heap element) (d : sdict) (s : slice) (o : sdict) (r : res unit) (h' : heap element) : Prop :=
  match validate_masks h d s (ditems (sd_items o)) with
  | Ok _ => write_masks h d s (ditems (sd_items o)) r h'
  | e => r = e /\ h' = h
  end.

(** data_array.cpp 144-145 *)
Definition validate_start (h : heap element) (a : darray) (s : slice) (b : darray) : res unit :=
  do a' <- da_slice a s;
  do _ <- coords_are_superset (store_of h) (da_coords a') (da_coords b);
  validate_var (da_data a) s (da_data b).
(** data_array.cpp 136-140 *)
Definition validate_da (h : heap element) (a : darray) (s : slice) (b : darray) : res unit :=
  do _ <- validate_start h a s b; validate_masks h (da_masks a) s (ditems (sd_items (da_masks b))).
(** data_array.cpp 142-154 *)
Definition set_da (h : heap element) (a : darray) (s : slice) (b : darray) (r : res unit) (h' : heap element) : Prop :=
  match validate_start h a s b with
  | Ok _ => exists r1 h1, set_masks h (da_masks a) s (da_masks b) r1 h1 /\
      match r1 with Ok _ => set_var h1 (da_data a) s (da_data b) r h' | e => r = e /\ h' = h1 end
  | e => r = e /\ h' = h
  end.

(** A loop over data arrays, each with the value for its slice. *)
Fixpoint validate_all (h : heap element) (s : slice) (l : list (darray * darray)) : res unit :=
  match l with [] => Ok tt | (a, b) :: l' => do _ <- validate_da h a s b; validate_all h s l' end.
Fixpoint set_all (h : heap element) (s : slice) (l : list (darray * darray)) (r : res unit) (h' : heap element) : Prop :=
  match l with
  | [] => r = Ok tt /\ h' = h
  | (a, b) :: l' => exists r1 h1, set_da h a s b r1 h1 /\ match r1 with Ok _ => set_all h1 s l' r h' | e => r = e /\ h' = h1 end
  end.
Definition validated (h : heap element) (s : slice) (check : res unit) (l : list (darray * darray)) (r : res unit) (h' : heap element) : Prop :=
  match check with Ok _ => set_all h s l r h' | e => r = e /\ h' = h end.

(** [data.m_data.at(name)] for all items of the dataset, interleaved with the validation (dataset.cpp 240-241). *)
Fixpoint validate_named (h : heap element) (s : slice) (l : list (Z * darray)) (e : dset) : res unit :=
  match l with
  | [] => Ok tt
  | (n, a) :: l' => do b <- mat Z.eqb NotFoundError (ds_data e) n; do _ <- validate_da h a s b; validate_named h s l' e
  end.
Fixpoint named (l : list (Z * darray)) (e : dset) : list (darray * darray) :=
  match l with
  | [] => []
  | (n, a) :: l' => match mat Z.eqb NotFoundError (ds_data e) n with Ok b => (a, b) :: named l' e | _ => named l' e end
  end.
(** dataset.cpp 237-246 *)
Definition set_ds (h : heap element) (d : dset) (s : slice) (e : dset) : res unit -> heap element -> Prop :=
  validated h s (do d' <- ds_slice (store_of h) d s;
                 do _ <- coords_are_superset (store_of h) (ds_coords d') (ds_coords e);
                 validate_named h s (ditems (ds_data d)) e)
    (named (ditems (ds_data d)) e).
(** dataset.cpp 248-257: the items of [m_data] have no coords. *)
Definition set_ds_da (h : heap element) (d : dset) (s : slice) (b : darray) : res unit -> heap element -> Prop :=
  let l := map (fun na => (snd na, b)) (ditems (ds_data d)) in
  validated h s (do d' <- ds_slice (store_of h) d s;
                 do _ <- coords_are_superset (store_of h) (ds_coords d') (da_coords b);
                 validate_all h s l) l.
(** dataset.cpp 259-263: no validation of all items before the first is changed. *)
Fixpoint set_vars (h : heap element) (s : slice) (l : list darray) (y : item) (r : res unit) (h' : heap element) : Prop :=
  match l with
  | [] => r = Ok tt /\ h' = h
  | a :: l' => exists r1 h1, set_var h (da_data a) s y r1 h1 /\ match r1 with Ok _ => set_vars h1 s l' y r h' | e => r = e /\ h' = h1 end
  end.
Definition set_ds_var (h : heap element) (d : dset) (s : slice) (y : item) : res unit -> heap element -> Prop :=
  set_vars h s (map snd (ditems (ds_data d))) y.
End Model.
