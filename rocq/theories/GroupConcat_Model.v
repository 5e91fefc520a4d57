(** Model of the concatenation of groups of bins: lib/dataset/groupby.cpp 111-126 ([GroupBy::concat]) and lib/dataset/bin.cpp 546-580
    ([groupby_concat_bins]), 431-435 ([join]).

    The builder, the dimensions, masks and metadata are those of BinMeta_Model; the events those of TargetBins_Model and Mapper_Model. *)
From Verif Require Import Base Map_Model Dims_Model View_Model SizedDict_Model Accumulate_Model Mask_Model BinMeta_Model.
From Verif Require Arr Mapper_Model TargetBins_Model.

(** ** Axes and metadata *)

(** bin.cpp 431-435; [edges] is [concat(std::vector{min(coord), max(coord)}, dim)]. [edges()] (394-402) lists the keys of [Bin] and [Join]
    alike, so both are [KBin] here. *)
Definition b_join (b : builder) (dim : Dim) (edges : item) : res builder :=
  do d <- add_inner (b_dims b) dim 1; Ok (mkb d (b_acts b ++ [(KBin, dim, Some edges)])).

(** 561-568: one dimension of the data. [joined dim] is the new coord of a dimension that is joined (its computation, 433, is not modelled). *)
Definition concat_dim (data : sizes) (meta : vmap Z item) (joined : Dim -> item) (rdim : Dim) (b : builder) (dim : Dim) : res builder :=
  if mcontains Z.eqb meta dim then
    do c <- mat Z.eqb NotFoundError meta dim;
    if negb (ndim (i_dims c) =? 1) && dcontains (i_dims c) rdim then b_join b dim (joined dim)
    else if negb (dim =? rdim) then do n <- dat data dim; b_existing b dim n
    else Ok b
  else Ok b.
Fixpoint concat_dims (data : sizes) (meta : vmap Z item) (joined : Dim -> item) (rdim : Dim) (b : builder) (ls : list Dim) : res builder :=
  match ls with [] => Ok b | d :: ls' => do b' <- concat_dim data meta joined rdim b d; concat_dims data meta joined rdim b' ls' end.

(** 554-568; [edges] and [groups] may be invalid variables *)
Definition concat_actions (data : sizes) (meta : vmap Z item) (joined : Dim -> item) (edges groups : option item) (rdim : Dim) : res builder :=
  do b0 <- (match edges with Some e => b_bin (mkb mempty []) e | None => Ok (mkb mempty []) end);
  do b1 <- (match groups with Some g => b_group b0 g | None => Ok b0 end);
  do b2 <- b_erase b1 rdim;
  concat_dims data meta joined rdim b2 (labels data).

(** 552-580 without the events; [array.meta()] is evaluated once, at the start. *)
Definition groupby_concat_bins (fresh : Z) (joined : Dim -> item) (array : darray) (u : buffer) (edges groups : option item) (rdim : Dim) : res darray :=
  do meta <- sd_merge_from (da_attrs array) (da_coords array);
  do b <- concat_actions (i_dims (da_data array)) (sd_items meta) joined edges groups rdim;
  do out <- out_dims (i_dims (da_data array)) (b_dims b) [rdim];
  add_metadata (mkitem fresh (var_fresh out) true true) u
    (sd_items (da_coords array)) (sd_items (da_masks array)) (sd_items (da_attrs array)) (b_edges b) (b_groups b) [rdim].

(** groupby.cpp 111-126 for a data array; [key] lists the labels of the groups or the bin edges. *)
Definition groupby_concat (fresh : Z) (joined : Dim -> item) (array : darray) (u : buffer) (key : item) (ngroups : Z) (rdim : Dim) : res darray :=
  if Dims_Model.volume (i_dims key) =? ngroups then groupby_concat_bins fresh joined array u None (Some key) rdim
  else groupby_concat_bins fresh joined array u (Some key) None rdim.

(** ** Events *)

(** The key of the groups for [groupby_concat_bins] *)
Inductive selection := Values (groups : list Z) | Edges (edges : list Z).
(** bin.cpp 561-568: what happens to another dimension of the data: [Some d] keeps dimension number [d], [None] joins. *)
Definition other_action {E} (sh : list Z) (o : option Z) : TargetBins_Model.action E :=
  match o with Some d => TargetBins_Model.Existing d (Arr.znth 0 sh d) | None => TargetBins_Model.Join end.
(** 308-310, 314-316, 371: the key is looked up in [array.meta()] by the name of the dimension of the labels or edges. [bin_coords] is empty,
    so [at] throws if it is not there; and binning is "dense" (342-369 are not reached). [meta] lists one-dimensional integer coords with the
    number of their dimension. *)
Definition concat_coord (meta : list (Dim * (Z * list Z))) (name : Dim) : res (Z * list Z) :=
  match find (fun e => fst e =? name) meta with Some e => Ok (snd e) | None => Throw OutOfRange end.
Definition key_action {E} (c : Z * list Z) (sel : selection) : TargetBins_Model.action E :=
  let key := fun (p : Mapper_Model.pos) (_ : E) => Arr.znth 0 (snd c) (Arr.znth 0 p (fst c)) in
  match sel with Values ks => TargetBins_Model.Group key ks | Edges es => TargetBins_Model.Bin key es None end.
(** 573: [builder.build] *)
Definition concat_targets {E} (bits : Z) (sh : list Z) (meta : list (Dim * (Z * list Z))) (name : Dim) (sel : selection) (others : list (option Z)) : res (@TargetBins_Model.state E) :=
  do c <- concat_coord meta name;
  TargetBins_Model.build bits sh (key_action c sel :: map (other_action sh) others).

(** core/element/bin.h 85-103 and 136-142 for keys of any type: [std::unordered_map] with [operator==] (and hashes that are equal for equal
    keys) *)
Section Map.
Context {K : Type} (eq : K -> K -> bool).
Fixpoint map_find (x : K) (current : Z) (groups : list K) (found : Z) : Z :=
  match groups with [] => found | g :: gs => map_find x (current + 1) gs (if eq g x then current else found) end.
End Map.
