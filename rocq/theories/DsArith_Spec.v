(** Vocabulary for in-place arithmetic on datasets. *)
From Verif Require Import Base Map_Model Dims_Model Dims_Spec View_Model View_Spec Index_Model Transform_Model Transform_Spec Variance_Model SizedDict_Model Equality_Model
  Union_Model Accumulate_Model Mask_Model DsArith_Model.

(** The value that element [ix] of the data must get, from the values before the operation. *)
Definition expected (kind : nat -> bufkind) (op : kernel) (s : dstate) (it : ditem) (b : rhs) (ix : Dim -> Z) : element :=
  if correlated kind (d_data it) (r_data b) then e_self op (value_at (s_heap s) (d_data it) ix)
  else e_fun op [value_at (s_heap s) (d_data it) ix; value_at (s_heap s) (r_data b) ix].

(** The item has been updated, relative to the state [s]: data, unit and masks. *)
Definition updated (kind : nat -> bufkind) (op : kernel) (s s' : dstate) (it : ditem) (b : rhs) : Prop :=
  (forall ix, inside (a_dims (d_data it)) ix -> value_at (s_heap s') (d_data it) ix = expected kind op s it b ix) /\
  e_unit op (s_unit s (a_buf (d_data it))) (s_unit s (a_buf (r_data b))) = Ok (s_unit s' (a_buf (d_data it))) /\
  match r_meta b with
  | None => s_masks s' (d_name it) = s_masks s (d_name it)
  | Some (_, m) => union_or_in_place (s_masks s (d_name it)) m = (s_masks s' (d_name it), Ok tt)
  end.

(** Nothing has changed except the elements, units and masks of the given items (and the temporary buffer). *)
Definition only_these (tmp : nat) (s s' : dstate) (l : list ditem) : Prop :=
  (forall c, (forall it, In it l -> ~ cell_of (d_data it) c) -> fst c <> tmp -> s_heap s' c = s_heap s c) /\
  (forall b, ~ In b (map (fun it => a_buf (d_data it)) l) -> s_unit s' b = s_unit s b) /\
  (forall n, ~ In n (map d_name l) -> s_masks s' n = s_masks s n).

(** [d] has a coord in buffer [b]. *)
Definition coord_buf (d : sdict) (b : nat) : Prop := exists k i, In (k, i) (ditems (sd_items d)) /\ Z.to_nat (i_obj i) = b.
Definition meta_coord_buf (x : rhs) (b : nat) : Prop := exists c m, r_meta x = Some (c, m) /\ coord_buf c b.

(** Operations that do not get into each other's way. *)
Record admissible (kind : nat -> bufkind) (tmp : nat) (op : kernel) (s : dstate) (l : list (ditem * rhs)) : Prop := {
  ad_views : forall it b, In (it, b) l -> wfv (a_var (d_data it)) /\ wfv (a_var (r_data b)) /\ distinct_elements (d_data it) /\
    (length (labels (a_dims (d_data it))) <= NDIM_OP_MAX)%nat;
  (** no operand that the overlap check gets wrong (C13) *)
  ad_alias : forall it b, In (it, b) l -> ~ hidden_alias (d_data it) (r_data b);
  ad_tmp : forall it b, In (it, b) l -> a_buf (d_data it) <> tmp /\ a_buf (r_data b) <> tmp;
  (** every item has a buffer and a name of its own *)
  ad_bufs : NoDup (map (fun p => a_buf (d_data (fst p))) l);
  ad_names : NoDup (map (fun p => d_name (fst p)) l);
  (** coords do not share memory with the data of items *)
  ad_coords : forall it b n, In (it, b) l -> coord_buf (d_coords it) n \/ meta_coord_buf b n ->
    n <> tmp /\ ~ In n (map (fun p => a_buf (d_data (fst p))) l);
  (** the masks can be combined (see C31) *)
  ad_masks : forall it b c m, In (it, b) l -> r_meta b = Some (c, m) -> exists d, union_or_in_place (s_masks s (d_name it)) m = (d, Ok tt);
  (** the unit of [a op= a] with variances is that of [a op= b] (see C16) *)
  ad_self : forall it b, In (it, b) l -> correlated kind (d_data it) (r_data b) = true ->
    let u := s_unit s (a_buf (d_data it)) in e_self_unit op u = e_unit op u u }.
