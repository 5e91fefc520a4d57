(** Specification vocabulary for iteration over binned data. *)
From Verif Require Import Base Dims_Spec Index_Model Index_Spec BinIndex_Model.

(** Shape of the part of a buffer that belongs to a bin with [size] entries along the sliced dimension [idx]. *)
Definition event_shape (inner : list Z) (idx : nat) (size : Z) : list Z := firstn idx inner ++ size :: skipn (S idx) inner.

(** Position in operand [o] of event [i] (row-major) of bin [k] (row-major). A dense operand contributes the one
    element that corresponds to the bin. *)
Definition event_pos (inner : list Z) (idx : nat) (sh : list Z) (k i : Z) (o : operand) : Z :=
  match op_bins o with
  | None => address sh (op_strides o) k
  | Some (st, ix) =>
    match ix (address sh (op_strides o) k) with
    | Some (b, e) => nth idx st 0 * b + address (event_shape inner idx (e - b)) st i
    | None => 0
    end
  end.

(** Operand [o], if binned, has [size k] entries in bin [k]. *)
Definition has_sizes (sh : list Z) (size : Z -> Z) (o : operand) : Prop :=
  forall st ix, op_bins o = Some (st, ix) -> forall k, 0 <= k < vol sh ->
  exists b, ix (address sh (op_strides o) k) = Some (b, b + size k).

(** All events of bin [k], and of the bins from [b] up to, but not including, [e]. *)
Definition events (inner : list Z) (idx : nat) (sh : list Z) (ops : list operand) (size : Z -> Z) (k : Z) : list (list Z) :=
  map (fun i => map (event_pos inner idx sh k i) ops) (zseq 0 (Z.to_nat (vol (event_shape inner idx (size k))))).
Definition events_of (inner : list Z) (idx : nat) (sh : list Z) (ops : list operand) (size : Z -> Z) (b e : Z) : list (list Z) :=
  flat_map (events inner idx sh ops size) (zseq b (Z.to_nat (e - b))).

(** Well-formed operands of one binned operation: strides for every dimension of the bins and of the buffers; the
    buffers are not empty apart from the sliced dimension. *)
Definition operand_ok (inner sh : list Z) (o : operand) : Prop :=
  length (op_strides o) = length sh /\ forall st ix, op_bins o = Some (st, ix) -> length st = length inner.
Definition layout_ok (inner : list Z) (idx : nat) (sh : list Z) (ops : list operand) : Prop :=
  (idx < length inner)%nat /\ Forall (fun n => 0 < n) (event_shape inner idx 1) /\ nonneg sh /\
  Forall (operand_ok inner sh) ops /\ (exists o, In o ops /\ op_bins o <> None).

(** Flattening (see [flattening_safe]) of the bin dimensions, and of the buffer dimensions inside the sliced one. *)
Definition layout_safe (inner : list Z) (idx : nat) (sh : list Z) (ops : list operand) : Prop :=
  flattening_safe sh (map op_strides ops) /\
  flattening_safe (skipn idx inner) (map (fun o => skipn idx (inner_strides o)) ops).

(** A sequence of single increments. *)
Fixpoint increments (n : nat) (s : bstate) : res bstate :=
  match n with O => Ok s | S n' => do s' <- bi_increment s; increments n' s' end.

(** The iterator holds at most [NDIM_OP_MAX] dimensions; enough of them are free for all dimensions. *)
Definition fits (inner sh : list Z) : Prop :=
  (length inner + length sh <= NDIM_OP_MAX)%nat /\ (length inner < NDIM_OP_MAX)%nat.
