(** Specification vocabulary for fold and flatten. *)
From Verif Require Import Base Map_Model Dims_Model Dims_Spec View_Model View_Spec Reshape_Model.

Definition vshape {A} (x : varr A) : lshape := pairs (vdims x).
(** The element at a labelled index. *)
Definition val {A} (x : varr A) (ix : lindex) : A := va_buf x (vaddr (va x) ix).

(** Same dimensions in the same order, same elements. *)
Definition same_elements {A} (x y : varr A) : Prop :=
  vshape x = vshape y /\ forall ix, valid_at (vshape x) ix -> val x ix = val y ix.

(** The index at position [k] of all indices of [q] in row-major order; 0 for other labels. *)
Definition cell (q : lshape) (k : Z) : lindex := puts (fun _ => 0) (keys q) (index_at (extents q) k).
Definition next (ix : lindex) (k : Dim) : lindex := put ix k (ix k + 1).

(** The shape of bin edges along [k] for data of shape [q]. *)
Definition edge_shape (q : lshape) (k : Dim) : lshape := map (fun e => if fst e =? k then (k, snd e + 1) else e) q.

(** Bin edges along dimension [k] of an array of shape [parent]. *)
Definition edges_on (parent q : lshape) (k : Dim) : Prop := exists n, In (k, n + 1) q /\ In (k, n) parent.

(** The dimensions in front of the first of the dimensions [ls], and the dimensions following it that are not in [ls]. *)
Fixpoint before (ls : list Dim) (p : lshape) : lshape :=
  match p with [] => [] | e :: p' => if mem (fst e) ls then [] else e :: before ls p' end.
Fixpoint after (ls : list Dim) (p : lshape) : lshape :=
  match p with [] => [] | e :: p' => if mem (fst e) ls then filter (fun e => negb (mem (fst e) ls)) p' else after ls p' end.

(** Rows of edges along [e] over the indices of [q] in row-major order: the last edge of each row is the first edge of the next one. *)
Definition joinable {A} (eqb : A -> A -> bool) (x : varr A) (q : lshape) (e n : Z) : Prop :=
  forall r, 0 <= r < vol (extents q) - 1 -> eqb (val x (put (cell q (r + 1)) e 0)) (val x (put (cell q r) e n)) = true.
