(** Model of what [bin] does around the events: lib/dataset/bin.cpp 232-293, 295-299, 394-446 (axes, masks, metadata), 454-523,
    583-678 and lib/dataset/bins_util.h 13-28. The events themselves are in TargetBins_Model and Mapper_Model.

    Variables are items of SizedDict_Model (identity of the buffer and view); masks that hide events are those of Mask_Model. *)
From Verif Require Import Base Map_Model Dims_Model View_Model SizedDict_Model Accumulate_Model Mask_Model.

(** ** The axes of the output *)

(** bin.cpp 296: [AxisAction]; [Join] is only used by [groupby_concat_bins]. *)
Inductive kind := KGroup | KBin | KExisting.
(** [m_dims] and [m_actions] of [TargetBinBuilder] (441-444) *)
Record builder := mkb { b_dims : sizes; b_acts : list (kind * Dim * option item) }.

(** 414-418 *)
Definition b_group (b : builder) (groups : item) : res builder :=
  let dim := dims_inner (i_dims groups) in
  do n <- dat (i_dims groups) dim; do d <- add_inner (b_dims b) dim n; Ok (mkb d (b_acts b ++ [(KGroup, dim, Some groups)])).
(** 420-424 *)
Definition b_bin (b : builder) (edges : item) : res builder :=
  let dim := dims_inner (i_dims edges) in
  do n <- dat (i_dims edges) dim; do d <- add_inner (b_dims b) dim (n - 1); Ok (mkb d (b_acts b ++ [(KBin, dim, Some edges)])).
(** 426-429 *)
Definition b_existing (b : builder) (dim : Dim) (size : Z) : res builder :=
  do d <- add_inner (b_dims b) dim size; Ok (mkb d (b_acts b ++ [(KExisting, dim, None)])).
(** 438 *)
Definition b_erase (b : builder) (dim : Dim) : res builder := do d <- add_inner (b_dims b) dim 1; Ok (mkb d (b_acts b)).

(** 394-412 *)
Definition b_edges (b : builder) : list item := flat_map (fun a => match a with (KBin, _, Some it) => [it] | _ => [] end) (b_acts b).
Definition b_groups (b : builder) : list item := flat_map (fun a => match a with (KGroup, _, Some it) => [it] | _ => [] end) (b_acts b).

(** 464-469 *)
Fixpoint get_dims (dims : sizes) (l : list item) : res sizes :=
  match l with [] => Ok dims | c :: l' => do d <- add_inner dims (dims_inner (i_dims c)) 1; get_dims d l' end.

(** 460-462 *)
Fixpoint erase_all (b : builder) (l : list Dim) : res builder :=
  match l with [] => Ok b | d :: l' => do b' <- b_erase b d; erase_all b' l' end.

(** 477-494: one dimension of the data, and the new value of [rebin] *)
Definition visit_dim (data : sizes) (coords : vmap Z item) (edges groups : list item) (ed gd : sizes) (rebin : bool) (b : builder) (dim : Dim) : res builder :=
  if dcontains gd dim then do i <- dindex gd dim; do g <- vget groups i; b_group b g
  else if dcontains ed dim then do i <- dindex ed dim; do e <- vget edges i; b_bin b e
  else if rebin && negb (dcontains (b_dims b) dim) then
    do bad <- (if mcontains Z.eqb coords dim then do c <- mat Z.eqb NotFoundError coords dim; Ok (negb (ndim (i_dims c) =? 1)) else Ok false);
    if bad : bool then Throw DimensionError else do n <- dat data dim; b_existing b dim n
  else Ok b.
Fixpoint visit (data : sizes) (coords : vmap Z item) (edges groups : list item) (ed gd : sizes) (rebin : bool) (b : builder) (ls : list Dim) : res builder :=
  match ls with
  | [] => Ok b
  | dim :: ls' =>
    let rebin' := rebin || (dcontains ed dim || dcontains gd dim) in
    do b' <- visit_dim data coords edges groups ed gd rebin' b dim; visit data coords edges groups ed gd rebin' b' ls'
  end.

(** 495-500 *)
Fixpoint add_new (add : builder -> item -> res builder) (data : sizes) (b : builder) (l : list item) : res builder :=
  match l with
  | [] => Ok b
  | it :: l' => do b' <- (if dcontains data (dims_inner (i_dims it)) then Ok b else add b it); add_new add data b' l'
  end.

(** 454-502 *)
Definition axis_actions (data : sizes) (coords : vmap Z item) (edges groups : list item) (erase : list Dim) : res builder :=
  do b0 <- erase_all (mkb mempty []) erase;
  do ed <- get_dims mempty edges;
  do gd <- get_dims mempty groups;
  do b1 <- visit data coords edges groups ed gd false b0 (labels data);
  do b2 <- add_new b_group data b1 groups;
  add_new b_bin data b2 edges.

(** 81-95, 129-138, 262: the dimensions of the output: [m_output_bin_sizes] has the dimensions of the data that are not summed over;
    [merge] with those of the builder; [squeeze]. (The two-stage mapper, 173-182, yields the same dimensions.) *)
Fixpoint outer_loop (data bdims out : sizes) (ls : list Dim) : res sizes :=
  match ls with
  | [] => Ok out
  | d :: ls' => do out' <- (if dcontains bdims d then Ok out else do n <- dat data d; add_inner out d n); outer_loop data bdims out' ls'
  end.
Fixpoint squeeze_dims (d : sizes) (ds : list Dim) : res sizes :=
  match ds with [] => Ok d | x :: ds' => do d' <- merase Z.eqb d x; squeeze_dims d' ds' end.
Definition out_dims (data bdims : sizes) (erase : list Dim) : res sizes :=
  do outer <- outer_loop data bdims mempty (labels data);
  do m <- dims_merge outer bdims;
  do _ <- check_squeeze m erase; squeeze_dims m erase.

(** ** Masks *)

(** bins_util.h 13-28; [indices] are the ranges of the events of the bins. *)
Fixpoint hide_loop (data : sizes) (l : list (Z * mask)) (indices : darr (Z * Z)) (dims : list Dim) : res (darr (Z * Z)) :=
  match dims with
  | [] => Ok indices
  | dim :: dims' =>
    do m <- irreducible_mask l dim;
    do i <- (match m with
             | None => Ok indices
             | Some u => do x <- dims_intersection data (k_dims u); do t <- mask_transpose u (labels x); where_ t (0, 0) indices
             end);
    hide_loop data l i dims'
  end.
Definition hide_masked (indices : darr (Z * Z)) (l : list (Z * mask)) (dims : list Dim) : res (darr (Z * Z)) :=
  hide_loop (dd indices) l indices dims.

(** ** Metadata *)

(** The buffer of the binned data: its (inner) dimension and the metadata of the events. *)
Record buffer := mkbuf { u_dim : Dim; u_coords : vmap Z item; u_masks : vmap Z item; u_attrs : vmap Z item }.

Fixpoint insert_all (out : vmap Z item) (l : list (Z * item)) : res (vmap Z item) :=
  match l with [] => Ok out | (k, it) :: l' => do o <- dinsert_or_assign Z.eqb out k it; insert_all o l' end.

(** bin.cpp 232-244 *)
Definition extract_unbinned (dim : Dim) (m : vmap Z item) : res (vmap Z item) :=
  insert_all mempty (filter (fun e => negb (dcontains (i_dims (snd e)) dim)) (ditems m)).

(** 264-270; [dims] is the set at the time of the call *)
Definition rebinned (dims : list Dim) (buffer_dim : Dim) (d : sizes) : bool :=
  existsb (fun x => existsb (Z.eqb x) dims || dcontains d buffer_dim) (labels d).

(** 272-278 *)
Definition new_coords (l : list item) : list (Z * item) := map (fun it => (dims_inner (i_dims it), with_aligned it true)) l.

(** 283-285, 287-289 *)
Fixpoint keep_items (skip : vmap Z item) (drop : sizes -> bool) (out : vmap Z item) (l : list (Z * item)) : res (vmap Z item) :=
  match l with
  | [] => Ok out
  | (k, it) :: l' =>
    do o <- (if negb (drop (i_dims it)) && negb (mcontains Z.eqb skip k) then dinsert_or_assign Z.eqb out k it else Ok out);
    keep_items skip drop o l'
  end.
(** 279-281: coords that are in the output already are not replaced. *)
Fixpoint keep_coords (drop : sizes -> bool) (out : vmap Z item) (l : list (Z * item)) : res (vmap Z item) :=
  match l with
  | [] => Ok out
  | (k, it) :: l' =>
    do o <- (if negb (drop (i_dims it)) && negb (mcontains Z.eqb out k) then dinsert_or_assign Z.eqb out k it else Ok out);
    keep_coords drop o l'
  end.

(** 608-618: event coords used for grouping *)
Fixpoint drop_grouped (coords : vmap Z item) (groups : list item) : res (vmap Z item) :=
  match groups with
  | [] => Ok coords
  | g :: gs =>
    do c <- (if mcontains Z.eqb coords (dims_inner (i_dims g)) then do r <- dextract Z.eqb coords (dims_inner (i_dims g)); Ok (snd r) else Ok coords);
    drop_grouped c gs
  end.

(** 246-293; [data] is the result of [bins_from_sizes]. [copy(mask)] is the mask: sharing of memory is not part of this model. The
    data array is constructed from the dictionaries (data_array.cpp 47-54). *)
Definition add_metadata (data : item) (u : buffer) (coords masks attrs : vmap Z item) (edges groups : list item) (erase : list Dim) : res darray :=
  do c0 <- extract_unbinned (u_dim u) (u_coords u);
  do c1 <- insert_all c0 (new_coords (edges ++ groups));
  let drop := rebinned (erase ++ map (fun it => dims_inner (i_dims it)) (edges ++ groups)) (u_dim u) in
  do c <- keep_coords drop c1 (ditems coords);
  do m0 <- extract_unbinned (u_dim u) (u_masks u);
  do m <- keep_items mempty drop m0 (ditems masks);
  do a0 <- extract_unbinned (u_dim u) (u_attrs u);
  do a <- keep_items c drop a0 (ditems attrs);
  do dc <- sd_make (i_dims data) c false;
  do dm <- sd_make (i_dims data) m false;
  do da <- sd_make (i_dims data) a false;
  Ok (mkda data dc dm da false).

(** ** [bin] *)

(** bin.cpp 583-606. [sorted] is the outcome of [allsorted]. *)
Fixpoint check_edges (sorted : item -> bool) (edges : list item) : res unit :=
  match edges with
  | [] => Ok tt
  | e :: es =>
    do n <- dat (i_dims e) (dims_inner (i_dims e));
    if n <? 2 then Throw BinEdgeError else if negb (sorted e) then Throw BinEdgeError else check_edges sorted es
  end.
Definition validate_bin_args (buffer_ndim : Z) (sorted : item -> bool) (edges groups : list item) : res unit :=
  if buffer_ndim >? 1 then Throw BinnedDataError
  else match edges, groups with
       | [], [] => Throw InvalidArgument
       | _, _ => check_edges sorted edges
       end.

(** 622-632, 665-678 for binned data, without the events. The data array [array] holds the bins; [fresh] identifies the new data. *)
Definition bin_meta (fresh buffer_ndim : Z) (sorted : item -> bool) (array : darray) (u : buffer) (edges groups : list item) (erase : list Dim) : res darray :=
  do _ <- validate_bin_args buffer_ndim sorted edges groups;
  do meta <- sd_merge_from (da_attrs array) (da_coords array);
  do b <- axis_actions (i_dims (da_data array)) (sd_items meta) edges groups erase;
  do c <- drop_grouped (u_coords u) groups;
  do out <- out_dims (i_dims (da_data array)) (b_dims b) erase;
  add_metadata (mkitem fresh (var_fresh out) true true) (mkbuf (u_dim u) c (u_masks u) (u_attrs u))
    (sd_items (da_coords array)) (sd_items (da_masks array)) (sd_items (da_attrs array)) (b_edges b) (b_groups b) erase.

(** ** The type of the indices of the target bins *)

(** Conversion of a 64 bit integer to a signed integer with [bits] bits *)
Definition narrow (bits z : Z) : Z := (z + 2 ^ (bits - 1)) mod 2 ^ bits - 2 ^ (bits - 1).
(** 511-514: 32 bit if the number of output bins fits, for binned data *)
Definition bits_binned (volume : Z) : Z := if volume >? 2 ^ 31 - 1 then 64 else 32.
(** 638-641: for a table, the number of rows is used instead *)
Definition bits_table (rows : Z) : Z := if rows >? 2 ^ 31 - 1 then 64 else 32.
(** lib/core/include/scipp/core/element/bin.h 55-69, 71-83, 136-142: [index *= nbin; index += bin] with an index of type [int32_t] or
    [int64_t] and 64 bit [nbin] and [bin]; [bin] is -1 if there is none. *)
Definition push_index (bits index : Z) (a : Z * Z) : Z :=
  let '(nbin, bin) := a in
  if index =? -1 then -1 else if bin <? 0 then -1 else narrow bits (narrow bits (index * nbin) + bin).
Definition push_all (bits : Z) (l : list (Z * Z)) : Z := fold_left (push_index bits) l 0.
