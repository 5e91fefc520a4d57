(** Model of slicing by label values (lib/variable/slice.cpp, lib/dataset/slice.cpp). *)
From Verif Require Import Base Map_Model Dims_Model View_Model View_Spec Reshape_Model.

(** A variable by value: the elements in row-major order, a number for the unit, and [is_total_orderable] of the dtype
    (lib/core/dtype.cpp 21-23). *)
Record lvar (A : Type) := mklv { l_dims : sizes; l_vals : list A; l_unit : Z; l_ord : bool }.
Arguments mklv {A}. Arguments l_dims {A}. Arguments l_vals {A}. Arguments l_unit {A}. Arguments l_ord {A}.

Section LabelSlice.
Context {A : Type} (leb eqb : A -> A -> bool).

(** lib/variable/util.cpp 60-84 for one dimension, lib/core/include/scipp/core/element/util.h 83-91; [up]: ascending. Less than two
    elements: sorted. *)
Fixpoint sortedb (up : bool) (l : list A) : bool :=
  match l with
  | x :: ((y :: _) as l') => (if up then leb x y else leb y x) && sortedb up l'
  | _ => true
  end.

(** slice.cpp 19-24: [sum] of a boolean variable counts the true elements. *)
Definition get_count (coord : lvar A) (v : A) (up : bool) : Z :=
  zlen (filter (fun c => if up then leb c v else leb v c) (l_vals coord)).

(** [std::clamp]; undefined if the bounds are reversed. *)
Definition clamp (v lo hi : Z) : res Z := if hi <? lo then Ub else Ok (if v <? lo then lo else if hi <? v then hi else v).

(** slice.cpp 26-32: the arguments of [clamp] are (0, i, size) *)
Definition get_index (coord : lvar A) (dim : Dim) (v : A) (up edges : bool) : res Z :=
  let i := get_count coord v (Bool.eqb edges up) in
  do n <- dat (l_dims coord) dim;
  clamp 0 (if edges then i - 1 else n - i) n.

(** slice.cpp 34-39 *)
Definition get_1d_coord (coord : lvar A) : res unit := if negb (ndim (l_dims coord) =? 1) then Throw DimensionError else Ok tt.
(** slice.cpp 41-52 *)
Definition get_coord (coord : lvar A) (dim : Dim) : res bool :=
  do _ <- get_1d_coord coord;
  do n <- dat (l_dims coord) dim;
  if n =? 1 then Ok true
  else
    let up := sortedb true (l_vals coord) in
    let down := sortedb false (l_vals coord) in
    if negb (xorb up down) then Throw RuntimeError else Ok up.

(** slice.cpp 54-82 *)
Definition expect_valid_dtype (x : lvar A) (range : bool) : res unit := if range && negb (l_ord x) then Throw TypeError else Ok tt.
Definition expect_valid_slice_value (coord value : lvar A) (range : bool) : res unit :=
  do _ <- (if dims_eqb mempty (l_dims value) then Ok tt else Throw DimensionError);
  do _ <- (if l_unit coord =? l_unit value then Ok tt else Throw UnitError);
  expect_valid_dtype value range.
(** The element of a scalar. *)
Definition scalar (value : lvar A) : res A := match l_vals value with x :: _ => Ok x | [] => Ub end.

(** [std::find] of the first true element *)
Fixpoint find_true (l : list bool) : Z := match l with [] => 0 | b :: l' => if b : bool then 0 else 1 + find_true l' end.

(** slice.cpp 85-103 *)
Definition params_value (dims : sizes) (coord value : lvar A) : res (Dim * Z) :=
  do _ <- expect_valid_slice_value coord value false;
  let dim := dims_inner (l_dims coord) in
  do n <- dat dims dim;
  do m <- dat (l_dims coord) dim;
  do v <- scalar value;
  if n + 1 =? m
  then do up <- get_coord coord dim; Ok (dim, get_count coord v up - 1)
  else
    do _ <- get_1d_coord coord;
    let eq := map (fun c => eqb c v) (l_vals coord) in
    if negb (zlen (filter (fun b => b) eq) =? 1) then Throw SliceError else Ok (dim, find_true eq).

(** slice.cpp 105-121; [None]: the invalid variable. *)
Definition check_opt (coord : lvar A) (v : option (lvar A)) : res unit :=
  match v with Some v => expect_valid_slice_value coord v true | None => Ok tt end.
Definition params_range (dims : sizes) (coord : lvar A) (begin end_ : option (lvar A)) : res (Dim * Z * Z) :=
  do _ <- check_opt coord begin;
  do _ <- check_opt coord end_;
  do _ <- expect_valid_dtype coord true;
  let dim := dims_inner (l_dims coord) in
  do up <- get_coord coord dim;
  do n <- dat dims dim;
  do m <- dat (l_dims coord) dim;
  let edges := n + 1 =? m in
  do first <- (match begin with Some b => do v <- scalar b; get_index coord dim v up edges | None => Ok 0 end);
  do last <- (match end_ with Some e => do v <- scalar e; get_index coord dim v up false | None => Ok n end);
  Ok (dim, first, Z.min n last).

(** lib/dataset/slice.cpp 14-40, for the data of the array; [get_coord] there fails with [DimensionError] if there is no coord
    with the name. *)
Definition slice_value {B} (x : varr B) (coord : option (lvar A)) (value : lvar A) : res (varr B) :=
  match coord with
  | None => Throw DimensionError
  | Some c => do p <- params_value (vdims x) c value; do s <- slice_point (fst p) (snd p); apply_op x (VwSlice s)
  end.
Definition slice_labels {B} (x : varr B) (coord : option (lvar A)) (begin end_ : option (lvar A)) : res (varr B) :=
  match coord with
  | None => Throw DimensionError
  | Some c => do p <- params_range (vdims x) c begin end_; do s <- slice_range (fst (fst p)) (snd (fst p)) (snd p) 1; apply_op x (VwSlice s)
  end.
End LabelSlice.
