(** Specification vocabulary for labelled shapes. A labelled shape is observed through its list of
    (label, extent) pairs, outermost first. *)
From Verif Require Import Base Map_Model Dims_Model.

(** The pairs a user sees when iterating labels and extents. *)
Definition pairs (d : sizes) : list (Dim * Z) := combine (m_keys d) (m_values d).

(** [d] has label [k] with extent [n]. *)
Definition has (d : sizes) (k : Dim) (n : Z) : Prop := In (k, n) (pairs d).
Definition has_label (d : sizes) (k : Dim) : Prop := exists n, has d k n.

(** Well-formed shapes: every label once, one extent per label, extents not negative, no invalid label. *)
Definition wf (d : sizes) : Prop :=
  NoDup (m_keys d) /\ length (m_values d) = length (m_keys d) /\
  Forall (fun n => 0 <= n) (m_values d) /\ ~ In InvalidDim (m_keys d).

(** Two shapes disagree on the extent of some common label. *)
Definition conflict (a b : sizes) : Prop := exists k m n, has a k m /\ has b k n /\ m <> n.

(** Restrict a list of labels to those of a shape / not of a shape. *)
Definition memb (d : sizes) (k : Dim) : bool := existsb (Z.eqb k) (m_keys d).
Definition only (d : sizes) (l : list Dim) : list Dim := filter (memb d) l.
Definition without (d : sizes) (l : list Dim) : list Dim := filter (fun k => negb (memb d k)) l.

(** Same labels with the same extents, order disregarded. *)
Definition same_extents (a b : sizes) : Prop := forall k n, has a k n <-> has b k n.

(** Number of elements. *)
Fixpoint vol (sh : list Z) : Z := match sh with [] => 1 | n :: sh' => n * vol sh' end.

(** Valid multi-dimensional index, outermost first. *)
Inductive valid_idx : list Z -> list Z -> Prop :=
| vi_nil : valid_idx [] []
| vi_cons n i sh is_ : 0 <= i < n -> valid_idx sh is_ -> valid_idx (n :: sh) (i :: is_).

(** Row-major position of an index, outermost dimension slowest. *)
Fixpoint position (sh is_ : list Z) : Z :=
  match sh, is_ with
  | _ :: sh', i :: is' => i * vol sh' + position sh' is'
  | _, _ => 0
  end.

(** The index at a given row-major position. *)
Fixpoint index_at (sh : list Z) (k : Z) : list Z :=
  match sh with
  | [] => []
  | _ :: sh' => (k / vol sh') :: index_at sh' (k mod vol sh')
  end.

(** Address of an index for given strides. *)
Fixpoint dot (st is_ : list Z) : Z :=
  match st, is_ with s :: st', i :: is' => s * i + dot st' is' | _, _ => 0 end.

(** What every mutating member of [Sizes]/[Dimensions] must do to the abstract ordered map. *)
From Verif Require Import Map_Spec.

Definition ceil_div (a b : Z) : Z := (a + b - 1) / b.

Definition sz_slice_point (s : omap Z Z) (d : Dim) (b : Z) : omap Z Z + exn :=
  match o_content s d with
  | Some x => if b <? x then inl (odel Z.eqb s d) else inr SliceError
  | None => inr SliceError
  end.

Definition sz_spec (s : omap Z Z) (o : sz_op) : omap Z Z + exn :=
  match o with
  | SzSet d n =>
    if (d =? InvalidDim) || (n <? 0) then inr DimensionError
    else match o_content s d with
         | Some x => if x =? n then inl s else inr DimensionError
         | None => inl (mkomap (o_order s ++ [d]) (oput Z.eqb s d n))
         end
  | SzResize d n =>
    if (n <? 0) || negb (ohas s d) then inr DimensionError else inl (mkomap (o_order s) (oput Z.eqb s d n))
  | SzErase d => sm_spec Z.eqb s (SmErase d)
  | SzReplace d d' => sm_spec Z.eqb s (SmReplaceKey d d')
  | SzClear => inl oempty
  | SzAdd d n => if (d =? InvalidDim) || (n <? 0) then inr DimensionError else sm_spec Z.eqb s (SmInsertLeft d n)
  | SzAddInner d n => if (d =? InvalidDim) || (n <? 0) then inr DimensionError else sm_spec Z.eqb s (SmInsertRight d n)
  | SzSliceRange d b e st =>
    if (b <? 0) || (st <=? 0) then inr SliceError
    else if e =? -1 then sz_slice_point s d b   (* end = -1 encodes a point slice *)
    else if e <? b then inr SliceError
    else match o_content s d with
         | Some x => if e <=? x then inl (mkomap (o_order s) (oput Z.eqb s d (ceil_div (e - b) st)))
                     else inr SliceError
         | None => inr SliceError
         end
  | SzSlicePoint d b => if b <? 0 then inr SliceError else sz_slice_point s d b
  end.

(** Simultaneous renaming of labels by a list of (from, to) pairs. *)
Fixpoint renamed (names : list (Dim * Dim)) (x : Dim) : Dim :=
  match names with
  | [] => x
  | (f, t) :: names' => if x =? f then t else renamed names' x
  end.

(** No pair renames to something that another pair renames away. *)
Definition chain_free (names : list (Dim * Dim)) : Prop :=
  NoDup (map fst names) /\
  forall f t f' t', In (f, t) names -> In (f', t') names -> t = f' -> f' = f.
