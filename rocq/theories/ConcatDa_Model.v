(** Model of the concatenation of data arrays: lib/dataset/shape.cpp 20-128.

    Memory as in Concat_Model. A [world] adds the unit of every buffer and the number of the next new buffer; every
    concatenation of variables uses two new buffers (the second one is that of temporary copies). dtypes and variances are left
    out: elements are compared by [eqb] (== of elements) and [eqb_nan] (with NaN equal to NaN). When a call throws, the memory it
    has allocated cannot be reached any more, so that the world is left as it was before the call. *)
From Verif Require Import Base Map_Model Dims_Model Dims_Spec Index_Model View_Model View_Spec Transform_Model Transform_Spec Concat_Model SizedDict_Model.

Section ConcatDa.
Context {A : Type} (default : A) (eqb eqb_nan : A -> A -> bool) (blocks : sizes -> list (Z * Z)).

Record world := mkw { w_heap : heap A; w_unit : nat -> Z; w_next : nat }.
Definition arr_of (it : item) : arr := mkarr (Z.to_nat (i_obj it)) (i_var it).
Definition item_of (a : arr) : item := mkitem (Z.of_nat (a_buf a)) (a_var a) true false.

(** shape.cpp 21-27 *)
Fixpoint collect {X Y} (f : X -> res Y) (l : list X) : res (list Y) :=
  match l with
  | [] => Ok []
  | x :: l' => do y <- f x; do r <- collect f l'; Ok (y :: r)
  end.

(** lib/variable/variable.cpp 128-146, for valid variables of the same dtype, both with or both without variances. *)
Definition elements (w : world) (a : arr) : list A :=
  map (fun k => value_at (w_heap w) a (index_of (a_dims a) k)) (zseq 0 (Z.to_nat (volume (a_dims a)))).
Fixpoint all_equal (f : A -> A -> bool) (l r : list A) : bool :=
  match l, r with [], [] => true | x :: l', y :: r' => f x y && all_equal f l' r' | _, _ => false end.
Definition compare (f : A -> A -> bool) (w : world) (a b : arr) : bool :=
  (w_unit w (a_buf a) =? w_unit w (a_buf b)) && dims_eqb (a_dims a) (a_dims b) && all_equal f (elements w a) (elements w b).
Definition same_view (a b : arr) : bool :=
  dims_eqb (a_dims a) (a_dims b) && list_eqb (v_strides (a_var a)) (v_strides (a_var b)) &&
  (v_offset (a_var a) =? v_offset (a_var b)) && (a_buf a =? a_buf b)%nat.
Definition equals_nan (w : world) (a b : arr) : bool := same_view a b || compare eqb_nan w a b.

(** lib/variable/shape.cpp 36-75, see Concat_Model. *)
Definition cat (w : world) (l : list arr) (dim : Dim) (r : res arr) (w' : world) : Prop :=
  exists R, concat_run default (w_unit w) l dim (w_next w) (S (w_next w)) blocks (w_heap w) R /\
  match R with
  | Ok (o, h', u) => r = Ok o /\ w' = mkw h' (fun b => if (b =? w_next w)%nat then u else w_unit w b) (S (S (w_next w)))
  | Throw e => r = Throw e /\ w' = w
  | Ub => r = Ub /\ w' = w
  end.

(** shape.cpp 36-44: the rest of the loop, [back] is [tmp.back()]. [throw_mismatch_error] for variables throws a
    [VariableError]. *)
Fixpoint join_parts (w : world) (dim : Dim) (back : arr) (vars : list arr) : res (list arr) :=
  match vars with
  | [] => Ok []
  | a :: vars' =>
    do n <- dat (a_dims back) dim;
    do s <- slice_point dim (n - 1);
    do last <- var_slice (a_var back) s;
    do s0 <- slice_point dim 0;
    do first <- var_slice (a_var a) s0;
    if negb (compare eqb w (mkarr (a_buf back) last) (mkarr (a_buf a) first)) then Throw RuntimeError
    else
      do m <- dat (a_dims a) dim;
      do s1 <- slice_range dim 1 m 1;
      do v <- var_slice (a_var a) s1;
      do r <- join_parts w dim (mkarr (a_buf a) v) vars';
      Ok (mkarr (a_buf a) v :: r)
  end.
(** shape.cpp 33-46 *)
Definition join_edges (w : world) (vars : list arr) (dim : Dim) (r : res arr) (w' : world) : Prop :=
  match (match vars with [] => Ok [] | a :: l => do t <- join_parts w dim a l; Ok (a :: t) end) with
  | Ok tmp => cat w tmp dim r w'
  | Throw e => r = Throw e /\ w' = w
  | Ub => r = Ub /\ w' = w
  end.

(** sized_dict.cpp 184-199; keys of masks are names, not dimensions. *)
Definition dim_of_key (is_mask : bool) (d : sdict) (k : Z) : res Dim :=
  if is_mask
  then do it <- sd_at d k; Ok (if ndim (i_dims it) =? 1 then dims_inner (i_dims it) else InvalidDim)
  else dim_of d k.

(** shape.cpp 49-62: for which inputs the item is bin edges. *)
Definition edge_flags (maps : list sdict) (key : Z) (dim : Dim) : res (list bool) :=
  collect (fun m => do it <- sd_at m key; is_edges (sd_sizes m) (i_dims it) dim) maps.
Fixpoint adjacent_differ (l : list bool) : bool :=
  match l with
  | a :: ((b :: _) as l') => negb (Bool.eqb a b) || adjacent_differ l'
  | _ => false
  end.

(** shape.cpp 64-73 *)
Definition broadcast_along_dim (maps : list sdict) (key : Z) (dim : Dim) : res (list arr) :=
  collect (fun m =>
    do it <- sd_at m key;
    do n <- (if dcontains (sd_sizes m) dim then dat (sd_sizes m) dim else Ok 1);
    do t <- dims_merge (mkmap [dim] [n]) (i_dims it);
    do v <- var_broadcast (i_var it) t;
    Ok (mkarr (Z.to_nat (i_obj it)) v)) maps.

(** [copy(a_)]: a new buffer with the elements in order (see C42 for this in detail). *)
Definition copy_new (w : world) (a : arr) : arr * world :=
  (mkarr (w_next w) (var_fresh (a_dims a)),
   mkw (fun c => if (fst c =? w_next w)%nat then copied (fun k => w_heap w (a_buf a, k)) (a_var a) (snd c) else w_heap w c)
       (fun b => if (b =? w_next w)%nat then w_unit w (a_buf a) else w_unit w b) (S (w_next w))).

(** shape.cpp 81-108: one key; [a] is the first of the [maps]. *)
Definition finish (r : res arr) : res item := do o <- r; Ok (item_of o).
Definition concat_entry (is_mask : bool) (a : sdict) (maps : list sdict) (dim : Dim) (key : Z) (w : world) (r : res item) (w' : world) : Prop :=
  match (do its <- collect (fun m => sd_at m key) maps;
         do d <- dim_of_key is_mask a key;
         do fs <- edge_flags maps key dim;
         Ok (its, d, fs)) with
  | Throw e => r = Throw e /\ w' = w
  | Ub => r = Ub /\ w' = w
  | Ok (its, d, fs) =>
    if d =? dim then
      if adjacent_differ fs then r = Throw BinEdgeError /\ w' = w
      else if negb (forallb (fun b => b) fs) then exists o, cat w (map arr_of its) dim o w' /\ r = finish o
      else exists o, join_edges w (map arr_of its) dim o w' /\ r = finish o
    else
      match its with
      | [] => r = Ub /\ w' = w
      | front :: _ =>
        if existsb (fun it => dcontains (i_dims it) dim || negb (equals_nan w (arr_of it) (arr_of front))) its
        then match broadcast_along_dim maps key dim with
             | Ok l => exists o, cat w l dim o w' /\ r = finish o
             | Throw e => r = Throw e /\ w' = w
             | Ub => r = Ub /\ w' = w
             end
        else if is_mask then r = Ok (mkitem (Z.of_nat (w_next w)) (var_fresh (i_dims front)) (i_aligned front) (i_bins front)) /\ w' = snd (copy_new w (arr_of front))
        else r = Ok front /\ w' = w
      end
  end.

(** shape.cpp 75-110: all keys of the first input, in order. *)
Fixpoint concat_entries (is_mask : bool) (a : sdict) (maps : list sdict) (dim : Dim) (keys : list Z) (w : world) (r : res (list (Z * item))) (w' : world) : Prop :=
  match keys with
  | [] => r = Ok [] /\ w' = w
  | k :: keys' => exists x w1, concat_entry is_mask a maps dim k w x w1 /\
    match x with
    | Ok it => exists y, concat_entries is_mask a maps dim keys' w1 y w' /\ r = (do l <- y; Ok ((k, it) :: l))
    | Throw e => r = Throw e /\ w' = w1
    | Ub => r = Ub /\ w' = w1
    end
  end.
Definition concat_maps (is_mask : bool) (maps : list sdict) (dim : Dim) (w : world) (r : res (list (Z * item))) (w' : world) : Prop :=
  match maps with
  | [] => r = Throw InvalidArgument /\ w' = w
  | a :: _ => concat_entries is_mask a maps dim (m_keys (sd_items a)) w r w'
  end.

(** shape.cpp 119-122: coords become aligned; [coords] are those of the inputs. *)
Definition aligned_coords (coords : list sdict) (dim : Dim) (l : list (Z * item)) : list (Z * item) :=
  map (fun e => (fst e, with_aligned (snd e) ((fst e =? dim) || existsb (fun c => sd_contains c (fst e)) coords))) l.

(** shape.cpp 114-128 *)
Definition concat_da (das : list darray) (dim : Dim) (w : world) (r : res darray) (w' : world) : Prop :=
  exists x w1, cat w (map (fun a => arr_of (da_data a)) das) dim x w1 /\
  match x with
  | Throw e => r = Throw e | Ub => r = Ub
  | Ok data =>
    exists y w2, concat_maps true (map da_masks das) dim w1 y w2 /\
    match y with
    | Throw e => r = Throw e | Ub => r = Ub
    | Ok masks =>
      match sd_make (a_dims data) (mkmap (map fst masks) (map snd masks)) false with
      | Throw e => r = Throw e | Ub => r = Ub
      | Ok masks' =>
        exists z w3, concat_maps false (map da_coords das) dim w2 z w3 /\
        match z with
        | Throw e => r = Throw e | Ub => r = Ub
        | Ok coords =>
          match sd_set_all (mksd (a_dims data) mempty false) (aligned_coords (map da_coords das) dim coords) with
          | Throw e => r = Throw e | Ub => r = Ub
          | Ok coords' =>
            exists t, concat_maps false (map da_attrs das) dim w3 t w' /\
            r = (do attrs <- t;
                 do attrs' <- sd_set_all (mksd (a_dims data) mempty false) attrs;
                 Ok (mkda (item_of data) coords' masks' attrs' false))
          end
        end
      end
    end
  end.
End ConcatDa.
