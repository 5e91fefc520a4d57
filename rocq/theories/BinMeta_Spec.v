(** Vocabulary for what [bin] does with dimensions, masks and metadata. *)
From Verif Require Import Base Map_Model Dims_Model Dims_Spec View_Model View_Spec SizedDict_Model SizedDict_Spec Accumulate_Model Mask_Model Mask_Spec
  BinMeta_Model.

(** The innermost dimension of bin edges or group labels, with its extent. *)
Definition inner (it : item) : Dim * Z := last (ishape it) (InvalidDim, 0).
Definition idim (it : item) : Dim := fst (inner it).
Definition named (d : Dim) (l : list item) : option item := find (fun it => idim it =? d) l.

(** An axis of the output before erased dimensions are removed. *)
Inductive axis := Erased (d : Dim) | Grouped (it : item) | Binned (it : item) | Kept (d : Dim) (n : Z).
Definition extent_of (a : axis) : Dim * Z :=
  match a with Erased d => (d, 1) | Grouped it => inner it | Binned it => (idim it, snd (inner it) - 1) | Kept d n => (d, n) end.
Definition action_of (a : axis) : list (kind * Dim * option item) :=
  match a with
  | Erased _ => []
  | Grouped it => [(KGroup, idim it, Some it)]
  | Binned it => [(KBin, idim it, Some it)]
  | Kept d _ => [(KExisting, d, None)]
  end.

(** What becomes of a dimension of the data at or inside the first dimension with new edges or groups. *)
Definition axis_of (edges groups : list item) (erase : list Dim) (e : Dim * Z) : list axis :=
  match named (fst e) groups with
  | Some g => [Grouped g]
  | None => match named (fst e) edges with
            | Some b => [Binned b]
            | None => if mem (fst e) erase then [] else [Kept (fst e) (snd e)]
            end
  end.
Definition given (edges groups : list item) (d : Dim) : bool := mem d (map idim edges) || mem d (map idim groups).
Fixpoint from_first (edges groups : list item) (p : list (Dim * Z)) : list (Dim * Z) :=
  match p with [] => [] | e :: p' => if given edges groups (fst e) then p else from_first edges groups p' end.
Definition is_new (p : list (Dim * Z)) (it : item) : bool := negb (mem (idim it) (keys p)).
(** The axes in the documented order: erased, existing, new groups, new edges. *)
Definition axes (p : list (Dim * Z)) (edges groups : list item) (erase : list Dim) : list axis :=
  map Erased erase ++ flat_map (axis_of edges groups erase) (from_first edges groups p) ++
  map Grouped (filter (is_new p) groups) ++ map Binned (filter (is_new p) edges).

(** Arguments of [bin]: variables with at least one dimension, edges with at least one entry. *)
Definition arg_ok (least : Z) (it : item) : Prop := item_ok it /\ ishape it <> [] /\ least <= snd (inner it).
(** A dimension that is kept inside a rebinned one has no coord, or a one-dimensional one. *)
Definition kept_1d (coords : list (Z * item)) (l : list axis) : Prop :=
  forall d n it, In (Kept d n) l -> In (d, it) coords -> length (ishape it) = 1%nat.
Definition compatible (p : list (Dim * Z)) (coords : list (Z * item)) (edges groups : list item) (erase : list Dim) : Prop :=
  NoDup (map idim edges) /\ NoDup (map idim groups) /\ NoDup (map (fun a => fst (extent_of a)) (axes p edges groups erase)) /\
  kept_1d coords (axes p edges groups erase).

(** Dimensions which the operation changes. *)
Definition changed (edges groups : list item) (erase : list Dim) (d : Dim) : Prop :=
  In d erase \/ In d (map idim edges) \/ In d (map idim groups).
(** The shape of the result. *)
Definition result_shape (p : list (Dim * Z)) (l : list axis) (erase : list Dim) : list (Dim * Z) :=
  filter (fun e => negb (mem (fst e) (map (fun a => fst (extent_of a)) l))) p ++
  filter (fun e => negb (mem (fst e) erase)) (map extent_of l).

(** Some mask that depends on one of the dimensions [dims] is set. *)
Definition hidden (l : list (Z * mask)) (dims : list Dim) (jx : Dim -> Z) : bool :=
  existsb (fun e => existsb (fun d => mem d (labels (k_dims (snd e)))) dims && dv (k_arr (snd e)) jx) l.

(** The item depends on a changed dimension or is an item of the events. *)
Definition outdated (edges groups : list item) (erase : list Dim) (buffer_dim : Dim) (it : item) : Prop :=
  exists d, In d (keys (ishape it)) /\ (changed edges groups erase d \/ d = buffer_dim).
Definition of_events (buffer_dim : Dim) (it : item) : Prop := In buffer_dim (keys (ishape it)).

(** The exact position of a value in a multi-dimensional array of bins: [l] lists extents and indices, outermost first; -1 if there
    is no bin in some dimension. *)
Fixpoint flat_index (acc : Z) (l : list (Z * Z)) : Z := match l with [] => acc | (n, b) :: l' => flat_index (acc * n + b) l' end.
Definition bin_index (l : list (Z * Z)) : Z := if existsb (fun a => snd a <? 0) l then -1 else flat_index 0 l.

(** The edges and groups that are used, in the order of the axes. *)
Definition binned_of (l : list axis) : list item := flat_map (fun a => match a with Binned it => [it] | _ => [] end) l.
Definition grouped_of (l : list axis) : list item := flat_map (fun a => match a with Grouped it => [it] | _ => [] end) l.
Definition used (l : list axis) : list item := binned_of l ++ grouped_of l.

(** Edges or groups that depend on more than one dimension: the others are unchanged dimensions of the data. *)
Definition outer_ok (p : list (Dim * Z)) (edges groups : list item) (erase : list Dim) (it : item) : Prop :=
  forall d n, In (d, n) (ishape it) -> d <> idim it -> In (d, n) p /\ ~ changed edges groups erase d.
Definition dict_ok (m : vmap Z item) : Prop :=
  NoDup (m_keys m) /\ length (m_values m) = length (m_keys m) /\ forall k it, In (k, it) (ditems m) -> item_ok it.

(** Entries of the output: [c] lists the coords of the input, [ev] those of the events. *)
Definition coord_entry (new : list item) (ev c : list (Z * item)) (bd : Dim) (old : item -> Prop) (k : Z) (it : item) : Prop :=
  (exists e, In e new /\ k = idim e /\ it = with_aligned e true) \/
  (~ In k (map idim new) /\ In (k, it) ev /\ ~ of_events bd it) \/
  (~ In k (map idim new) /\ (forall x, In (k, x) ev -> of_events bd x) /\ In (k, it) c /\ ~ old it).
(** Masks and attributes of the input (which are not [skip]ped) take precedence over those of the events. *)
Definition meta_entry (skip : Z -> Prop) (ev c : list (Z * item)) (bd : Dim) (old : item -> Prop) (k : Z) (it : item) : Prop :=
  (In (k, it) c /\ ~ old it /\ ~ skip k) \/
  ((forall x, In (k, x) c -> old x \/ skip k) /\ In (k, it) ev /\ ~ of_events bd it).
