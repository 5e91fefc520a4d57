(** Model of in-place arithmetic on datasets: lib/dataset/arithmetic.cpp 21-123, lib/templates/dataset_inplace.cpp.in,
    lib/variable/arithmetic.cpp 30-34, 68-121 and the dry run of lib/variable/include/scipp/variable/transform.h 474-736.

    Data and coords are in memory and may share it; masks are given by their values (Mask_Model), one dictionary per item.
    Data are dense. An element is a value with a variance, which is ignored for buffers without variances. The kernel is
    any function of elements. *)
From Verif Require Import Base Map_Model Dims_Model Dims_Spec View_Model Transform_Model Transform_Spec Variance_Model SizedDict_Model Equality_Model
  Union_Model Accumulate_Model Mask_Model.

Definition element : Type := (elem * elem)%type.

(** An operation [a op= b]: on elements and on units; for an operand with itself that has variances ([e_self],
    [e_self_unit]: [a * 2], [a * 0], [pow(a, 2)] or [pow(a, 0)]); the supported dtypes. *)
Record kernel := mkkernel { e_fun : list element -> element; e_self : element -> element; e_unit : bunit -> bunit -> res bunit; e_self_unit : bunit -> res bunit;
  e_types : Z -> Z -> bool }.

(** dtype and presence of variances of a buffer *)
Record bufkind := mkbk { k_dtype : Z; k_vars : bool }.

(** What changes: the elements, the units (of buffers) and the masks (of items). *)
Record dstate := mkst { s_heap : heap element; s_unit : nat -> bunit; s_masks : Z -> masks }.

(** An item of a dataset: name, data, coords (those of the dataset). *)
Record ditem := mkdi { d_name : Z; d_data : arr; d_coords : sdict }.

(** The right operand: a variable, or a data array with coords and masks. *)
Record rhs := mkrhs { r_data : arr; r_meta : option (sdict * vmap Z mask) }.

Section Kinds.
Variable kind : nat -> bufkind.
Variable blocks : sizes -> list (Z * Z).
Variable tmp : nat.                                                   (* buffer of a temporary copy *)

(** The memory as comparisons of coords see it. *)
Definition unit_code (u : bunit) : Z := match u with None => 1 | Some n => 2 * n end.
Definition store_of (s : dstate) : store := fun o =>
  let b := Z.to_nat o in
  mkbuf (unit_code (s_unit s b)) (k_dtype (kind b)) (fun i => fst (s_heap s (b, i)))
    (if k_vars (kind b) then Some (fun i => snd (s_heap s (b, i))) else None).

Definition operand_of (a : arr) : operand := mkop (a_var a) (k_vars (kind (a_buf a))) false.

(** transform.h 650-682 and 533-564 for two operands. The unit of the output. The order of the last checks is not
    significant. *)
Definition checks (op : kernel) (s : dstate) (out b : arr) : res bunit :=
  do _ <- transform_in_place_check false (operand_of out) [operand_of b];
  do u <- e_unit op (s_unit s (a_buf out)) (s_unit s (a_buf b));
  if negb (bunit_eqb (s_unit s (a_buf out)) u) && var_is_slice (a_var out) then Throw UnitError
  else if negb (e_types op (k_dtype (kind (a_buf out))) (k_dtype (kind (a_buf b)))) then Throw TypeError
  else if k_vars (kind (a_buf b)) && negb (k_vars (kind (a_buf out))) then Throw VariancesError
  else Ok u.

(** transform.h 725-736: all of the operation except for its effects. *)
Definition dry_run_data (op : kernel) (s : dstate) (out b : arr) : res unit :=
  do _ <- checks op s out b; do _ <- transform_in_place (e_fun op) (s_heap s) out [b] tmp blocks; Ok tt.

(** variable.cpp 292-296, arithmetic.cpp (variable) 30-34 *)
Definition same_view (a b : arr) : bool :=
  dims_eqb (a_dims a) (a_dims b) && list_eqb (v_strides (a_var a)) (v_strides (a_var b)) &&
  (v_offset (a_var a) =? v_offset (a_var b)) && (a_buf a =? a_buf b)%nat.
Definition correlated (a b : arr) : bool := k_vars (kind (a_buf a)) && k_vars (kind (a_buf b)) && same_view a b.

(** arithmetic.cpp (variable) 95-121: the unit of the output, the memory (with a temporary copy) and the threads to run.
    With itself: [a *= factor] or [pow(a, factor, a)] with a scalar factor, as an operation of one operand. *)
Definition start_data (op : kernel) (s : dstate) (out b : arr) : res (bunit * (heap element * list (list (instr element)))) :=
  if correlated out b
  then
    do u <- e_self_unit op (s_unit s (a_buf out));
    if negb (bunit_eqb (s_unit s (a_buf out)) u) && var_is_slice (a_var out) then Throw UnitError
    else do p <- transform_in_place (fun l => e_self op (hd (ENum 0, ENum 0) l)) (s_heap s) out [] tmp blocks; Ok (u, p)
  else
    do u <- checks op s out b;
    do p <- transform_in_place (e_fun op) (s_heap s) out [b] tmp blocks;
    Ok (u, p).
Definition set_unit (f : nat -> bunit) (b : nat) (u : bunit) : nat -> bunit := fun k => if (k =? b)%nat then u else f k.
Definition set_masks (f : Z -> masks) (n : Z) (m : masks) : Z -> masks := fun k => if k =? n then m else f k.

(** [a op= b] for variables: the state afterwards and the outcome, for all orders in which threads may run. *)
Inductive data_op (op : kernel) (s : dstate) (out b : arr) : dstate -> res unit -> Prop :=
| data_throw e : start_data op s out b = Throw e -> data_op op s out b s (Throw e)
| data_ub : start_data op s out b = Ub -> data_op op s out b s Ub
| data_ok u h ps h' : start_data op s out b = Ok (u, (h, ps)) -> may_end h ps h' ->
    data_op op s out b (mkst h' (set_unit (s_unit s) (a_buf out) u) (s_masks s)) (Ok tt).

(** arithmetic.cpp 21-31 *)
Definition dry_run_op (op : kernel) (s : dstate) (it : ditem) (b : rhs) : res unit :=
  do _ <- (match r_meta b with None => Ok tt | Some (c, _) => coords_are_superset (store_of s) (d_coords it) c end);
  dry_run_data op s (d_data it) (r_data b).

(** dataset_inplace.cpp.in 22-30 *)
Inductive item_op (op : kernel) (s : dstate) (it : ditem) (b : rhs) : dstate -> res unit -> Prop :=
| item_var s' r : r_meta b = None -> data_op op s (d_data it) (r_data b) s' r -> item_op op s it b s' r
| item_coords c m e : r_meta b = Some (c, m) -> coords_are_superset (store_of s) (d_coords it) c = Throw e -> item_op op s it b s (Throw e)
| item_coords_ub c m : r_meta b = Some (c, m) -> coords_are_superset (store_of s) (d_coords it) c = Ub -> item_op op s it b s Ub
| item_masks c m d r : r_meta b = Some (c, m) -> coords_are_superset (store_of s) (d_coords it) c = Ok tt ->
    union_or_in_place (s_masks s (d_name it)) m = (d, r) -> r <> Ok tt ->
    item_op op s it b (mkst (s_heap s) (s_unit s) (set_masks (s_masks s) (d_name it) d)) r
| item_data c m d s' r : r_meta b = Some (c, m) -> coords_are_superset (store_of s) (d_coords it) c = Ok tt ->
    union_or_in_place (s_masks s (d_name it)) m = (d, Ok tt) ->
    data_op op (mkst (s_heap s) (s_unit s) (set_masks (s_masks s) (d_name it) d)) (d_data it) (r_data b) s' r ->
    item_op op s it b s' r.

(** A loop over operations, until one throws. *)
Fixpoint dry_runs (op : kernel) (s : dstate) (l : list (ditem * rhs)) : res unit :=
  match l with
  | [] => Ok tt
  | (it, b) :: l' => do _ <- dry_run_op op s it b; dry_runs op s l'
  end.
Inductive item_ops (op : kernel) : dstate -> list (ditem * rhs) -> dstate -> res unit -> Prop :=
| ops_nil s : item_ops op s [] s (Ok tt)
| ops_cons s it b l s1 s' r : item_op op s it b s1 (Ok tt) -> item_ops op s1 l s' r -> item_ops op s ((it, b) :: l) s' r
| ops_stop s it b l s1 r : item_op op s it b s1 r -> r <> Ok tt -> item_ops op s ((it, b) :: l) s1 r.

Definition guarded (op : kernel) (s : dstate) (dry : res unit) (l : list (ditem * rhs)) (s' : dstate) (r : res unit) : Prop :=
  match dry with
  | Ok _ => item_ops op s l s' r
  | e => s' = s /\ r = e
  end.

(** arithmetic.cpp 46-82: [dataset op= b] for a variable or data array [b]. The item that shares its buffer with [b] comes
    last; if there are several, only the last of them is processed. *)
Definition have_common_underlying (it : ditem) (b : rhs) : bool := (a_buf (d_data it) =? a_buf (r_data b))%nat.
Definition delayed (items : list ditem) (b : rhs) : list ditem :=
  match rev (filter (fun it => have_common_underlying it b) items) with [] => [] | it :: _ => [it] end.
Definition apply_with_delay (op : kernel) (s : dstate) (items : list ditem) (b : rhs) : dstate -> res unit -> Prop :=
  guarded op s (dry_runs op s (map (fun it => (it, b)) items))
    (map (fun it => (it, b)) (filter (fun it => negb (have_common_underlying it b)) items ++ delayed items b)).

(** arithmetic.cpp 33-40: [dataset op= dataset]; the items of [b] with their names. [a[name]] throws if there is no such
    item. *)
Fixpoint find_item (items : list ditem) (n : Z) : res ditem :=
  match items with [] => Throw NotFoundError | it :: l => if d_name it =? n then Ok it else find_item l n end.
Fixpoint partners (items : list ditem) (b : list (Z * rhs)) : list (ditem * rhs) :=
  match b with
  | [] => []
  | (n, x) :: b' => match find_item items n with Ok it => (it, x) :: partners items b' | _ => partners items b' end
  end.
Fixpoint dry_apply (op : kernel) (s : dstate) (items : list ditem) (b : list (Z * rhs)) : res unit :=
  match b with
  | [] => Ok tt
  | (n, x) :: b' => do it <- find_item items n; do _ <- dry_run_op op s it x; dry_apply op s items b'
  end.
Definition apply (op : kernel) (s : dstate) (items : list ditem) (b : list (Z * rhs)) : dstate -> res unit -> Prop :=
  guarded op s (dry_apply op s items b) (partners items b).
End Kinds.
