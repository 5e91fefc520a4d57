(** Vocabulary for the concatenation of groups of bins. *)
From Verif Require Import Base Map_Model Dims_Model Dims_Spec View_Model View_Spec SizedDict_Model SizedDict_Spec BinMeta_Model BinMeta_Spec.
From Verif Require Arr Mapper_Model GroupBy_Spec.

(** The coord of dimension [d] is not one-dimensional and depends on the reduced dimension. *)
Definition unaligned (coords : list (Z * item)) (rdim d : Dim) : Prop :=
  exists c, In (d, c) coords /\ length (ishape c) <> 1%nat /\ In rdim (keys (ishape c)).
(** The dimension of the labels or edges (there is exactly one of them), and no other axis. *)
Definition opt {A} (o : option A) : list A := match o with Some x => [x] | None => [] end.
Inductive key_item (key : item) : option item -> option item -> Prop :=
| Key_edges : arg_ok 1 key -> length (ishape key) = 1%nat -> key_item key (Some key) None
| Key_groups : arg_ok 0 key -> length (ishape key) = 1%nat -> key_item key None (Some key).
Definition key_extent (key : item) (edges : option item) : Z := match edges with Some _ => snd (inner key) - 1 | None => snd (inner key) end.

(** No two axes have the same name: the label of the groups is not the reduced dimension, it is not a dimension of the data with a coord,
    and the coord of the reduced dimension is aligned. *)
Definition distinct_axes (p : list (Dim * Z)) (coords : list (Z * item)) (key : item) (rdim : Dim) : Prop :=
  idim key <> rdim /\ ~ (In (idim key) (keys p) /\ In (idim key) (map fst coords)) /\ ~ (In rdim (keys p) /\ unaligned coords rdim rdim).

(** Dimensions which the operation changes. *)
Definition concat_changed (p : list (Dim * Z)) (coords : list (Z * item)) (key : item) (rdim d : Dim) : Prop :=
  d = rdim \/ d = idim key \/ (In d (keys p) /\ unaligned coords rdim d).
Definition concat_outdated (p : list (Dim * Z)) (coords : list (Z * item)) (key : item) (rdim buffer_dim : Dim) (it : item) : Prop :=
  exists d, In d (keys (ishape it)) /\ (concat_changed p coords key rdim d \/ d = buffer_dim).

(** The coord of dimension [d] *)
Definition coord_named (coords : list (Z * item)) (d : Dim) : option item := option_map snd (find (fun e => fst e =? d) coords).
(** The dimensions of the result: dimensions without coord, the groups, dimensions with coord (length 1 if the coord is unaligned). *)
Definition unalignedb (rdim : Dim) (c : item) : bool := negb (Nat.eqb (length (ishape c)) 1) && mem rdim (keys (ishape c)).
Definition after_key (coords : list (Z * item)) (rdim : Dim) (e : Dim * Z) : list (Dim * Z) :=
  match coord_named coords (fst e) with
  | None => []
  | Some c => if fst e =? rdim then [] else [(fst e, if unalignedb rdim c then 1 else snd e)]
  end.
Definition concat_shape (p : list (Dim * Z)) (coords : list (Z * item)) (key : item) (edges : option item) (rdim : Dim) : list (Dim * Z) :=
  filter (fun e => negb (fst e =? rdim) && negb (fst e =? idim key) && negb (mem (fst e) (map fst coords))) p ++
  (idim key, key_extent key edges) :: flat_map (after_key coords rdim) p.
(** The coords that replace those of joined dimensions *)
Definition joined_coords (p : list (Dim * Z)) (coords : list (Z * item)) (joined : Dim -> item) (rdim : Dim) : list item :=
  flat_map (fun e => match coord_named coords (fst e) with Some c => if unalignedb rdim c then [joined (fst e)] else [] | None => [] end) p.

(** ** Events *)
(** The number of the group that contains a position, or -1 *)
Fixpoint group_of (i : Z) (groups : list (list (Z * Z))) (x : Z) : Z :=
  match groups with [] => -1 | g :: gs => if mem x (GroupBy_Spec.positions g) then i else group_of (i + 1) gs x end.
(** The row-major index of an output bin: the group, then the dimensions that are kept. *)
Definition concat_index (sh : list Z) (others : list (option Z)) (i : Z) (p : list Z) : Z :=
  if i =? -1 then -1 else fold_left (fun acc o => match o with Some d => acc * Arr.znth 0 sh d + Arr.znth 0 p d | None => acc end) others i.
