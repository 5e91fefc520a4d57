(** Model of the concatenation of dense variables: lib/variable/shape.cpp 36-75.

    Elements, units and memory as in Transform_Model: a buffer has a unit; dtypes and variances are left out (all inputs have
    those of the first). Every input is copied by a transform in place (element_array_model.h 134-150), whose threads all end
    before the next one starts. *)
From Verif Require Import Base Map_Model Dims_Model Dims_Spec Index_Model View_Model View_Spec Transform_Model Transform_Spec.

(** shape.cpp 39-51: the dimensions of the result with extent 1 along [dim]. *)
Definition concat_dims (vars : list arr) (dim : Dim) : res sizes :=
  match vars with
  | [] => Throw InvalidArgument
  | front :: _ =>
    match find (fun a => dcontains (a_dims a) dim) vars with
    | None => dims_add (a_dims front) dim 1
    | Some a => sizes_resize (a_dims a) dim 1
    end
  end.

(** shape.cpp 52-61: the inputs with [dim], and the sum of their extents. *)
Fixpoint concat_parts (dims : sizes) (dim : Dim) (vars : list arr) : res (list arr * Z) :=
  match vars with
  | [] => Ok ([], 0)
  | a :: vars' =>
    do v <- (if dcontains (a_dims a) dim then Ok (a_var a) else var_broadcast (a_var a) dims);
    do n <- dat (v_dims v) dim;
    do r <- concat_parts dims dim vars';
    Ok (mkarr (a_buf a) v :: fst r, n + snd r)
  end.

(** shape.cpp 37-67: the uninitialized result in the new buffer [out], and the inputs. *)
Definition concat_start (vars : list arr) (dim : Dim) (out : nat) : res (arr * list arr) :=
  do dims <- concat_dims vars dim;
  do r <- concat_parts dims dim vars;
  do total <- sizes_resize dims dim (snd r);
  Ok (mkarr out (var_fresh total), fst r).

(** element_array_model.h 135-136: [a = copy(b)]. *)
Definition do_copy {A} (default : A) (l : list A) : A := nth 1 l default.

Section Copies.
Context {A : Type} (default : A) (unit : nat -> Z) (dim : Dim) (out : arr) (tmp : nat) (blocks : sizes -> list (Z * Z)).

(** transform.h 650-682 for [copy]: dimensions, unit ([u]: of the result so far), then the data. *)
Definition copy_into (h : heap A) (u : Z) (dest src : arr) : res (heap A * list (list (instr A)) * Z) :=
  do ok <- includes (a_dims dest) (a_dims src);
  if negb ok then Throw DimensionError
  else if negb (u =? unit (a_buf src)) && var_is_slice (a_var dest) then Throw UnitError
  else do r <- transform_in_place (do_copy default) h dest [src] tmp blocks; Ok (r, unit (a_buf src)).

(** shape.cpp 68-74: the inputs are copied one after the other. *)
Inductive copy_all : heap A -> Z -> Z -> list arr -> res (heap A * Z) -> Prop :=
| ca_nil h u offset : copy_all h u offset [] (Ok (h, u))
| ca_fail h u offset a l e n :
    dat (a_dims a) dim = Ok n ->
    (do s <- slice_range dim offset (offset + n) 1; do v <- var_slice (a_var out) s; copy_into h u (mkarr (a_buf out) v) a) = Throw e ->
    copy_all h u offset (a :: l) (Throw e)
| ca_step h u offset a l n h1 ps u' h' r :
    dat (a_dims a) dim = Ok n ->
    (do s <- slice_range dim offset (offset + n) 1; do v <- var_slice (a_var out) s; copy_into h u (mkarr (a_buf out) v) a) = Ok (h1, ps, u') ->
    may_end h1 ps h' -> copy_all h' u' (offset + n) l r ->
    copy_all h u offset (a :: l) r.
End Copies.

(** shape.cpp 36-75: the result with its unit, and the memory; which one depends on the order of the steps of the threads. *)
Inductive concat_run {A} (default : A) (unit : nat -> Z) (vars : list arr) (dim : Dim) (out tmp : nat) (blocks : sizes -> list (Z * Z)) (h : heap A)
  : res (arr * heap A * Z) -> Prop :=
| cr_throw e : concat_start vars dim out = Throw e -> concat_run default unit vars dim out tmp blocks h (Throw e)
| cr_fail o parts front e : concat_start vars dim out = Ok (o, parts) -> hd_error vars = Some front ->
    copy_all default unit dim o tmp blocks h (unit (a_buf front)) 0 parts (Throw e) ->
    concat_run default unit vars dim out tmp blocks h (Throw e)
| cr_ok o parts front h' u : concat_start vars dim out = Ok (o, parts) -> hd_error vars = Some front ->
    copy_all default unit dim o tmp blocks h (unit (a_buf front)) 0 parts (Ok (h', u)) ->
    concat_run default unit vars dim out tmp blocks h (Ok (o, h', u)).
