(** What sharing means: stores are labelled arrays, a variable refers to elements of one store. There are no strides, offsets,
    buffers or memory cells here. *)
From Verif Require Import Base Map_Model Dims_Model View_Model View_Spec Transform_Model Transform_Spec Sharing_Model.

Record store (E : Type) := mkstore { s_shape : list (Dim * Z); s_obj : object; s_at : (Dim -> Z) -> E }.
Arguments mkstore {E}. Arguments s_shape {E}. Arguments s_obj {E}. Arguments s_at {E}.
(** [r_elem ix] is the index in the store of the element with index [ix] of the variable. *)
Record ref := mkref { r_store : nat; r_shape : list (Dim * Z); r_elem : (Dim -> Z) -> (Dim -> Z); r_readonly : bool; r_aligned : bool }.
Record world (E : Type) := mkworld { w_stores : list (store E); w_refs : list ref }.
Arguments mkworld {E}. Arguments w_stores {E}. Arguments w_refs {E}.

Section Spec.
Context {E : Type}.
Notation world := (world E). Notation store := (store E).

Definition read (w : world) (x : ref) (ix : Dim -> Z) (e : E) : Prop :=
  exists t, nth_error (w_stores w) (r_store x) = Some t /\ e = s_at t (r_elem x ix).
Definition obj_of (w : world) (x : ref) (o : object) : Prop := exists t, nth_error (w_stores w) (r_store x) = Some t /\ o = s_obj t.

(** Both variables always show the same element at these indices. *)
Definition same_element (w : world) (x : ref) (ix : Dim -> Z) (y : ref) (iy : Dim -> Z) : Prop :=
  r_store x = r_store y /\ forall t, nth_error (w_stores w) (r_store x) = Some t -> same_at (s_shape t) (r_elem x ix) (r_elem y iy).

(** The elements of [x] get the values [val], all other elements of the store keep theirs. *)
Definition stored (t : store) (x : ref) (val : (Dim -> Z) -> E -> Prop) (o : object) (t' : store) : Prop :=
  s_shape t' = s_shape t /\ s_obj t' = o /\
  (forall ix y, valid_at (r_shape x) ix -> same_at (s_shape t) y (r_elem x ix) -> val ix (s_at t' y)) /\
  (forall y, valid_at (s_shape t) y -> (forall ix, valid_at (r_shape x) ix -> ~ same_at (s_shape t) y (r_elem x ix)) -> s_at t' y = s_at t y).
Definition written (w : world) (x : ref) (val : (Dim -> Z) -> E -> Prop) (o : object) (w' : world) : Prop :=
  exists t t', nth_error (w_stores w) (r_store x) = Some t /\ stored t x val o t' /\
  w' = mkworld (upd (w_stores w) (r_store x) t') (w_refs w).

(** The variable shows one and the same element at all its indices, and it is also an element of [x]. *)
Definition repeats_element_of (w : world) (y x : ref) : Prop :=
  exists ix, valid_at (r_shape x) ix /\ forall iy, valid_at (r_shape y) iy -> same_element w x ix y iy.
(** Plain assignment of elements. *)
Definition assigns (g : iop E) : Prop := forall a b, i_fun g a b = b.
(** The elements of [x] become [g] applied to the old values. Nothing is said about the values of [x] if the operand repeats a
    single element of [x], except for plain assignment. *)
Definition updated (g : iop E) (w : world) (x y : ref) (w' : world) : Prop :=
  exists ox oy u, obj_of w x ox /\ obj_of w y oy /\ i_unit g (o_unit ox) (o_unit oy) = Ok u /\
  i_types g (o_type ox) (o_type oy) = Ok tt /\ i_vars g (o_vars ox) (o_vars oy) = Ok tt /\ r_readonly x = false /\
  written w x (fun ix e => assigns g \/ ~ repeats_element_of w y x -> exists a b, read w x ix a /\ read w y ix b /\ e = i_fun g a b)
              (mkobj (o_type ox) u (o_vars ox)) w'.

(** A new store with the elements of [x], and a reference to it. *)
Definition copied_to_new (w : world) (x : ref) (elem : (Dim -> Z) -> (Dim -> Z)) (shape : list (Dim * Z)) (w' : world) : Prop :=
  exists t, s_shape t = r_shape x /\ obj_of w x (s_obj t) /\ (forall ix, valid_at (r_shape x) ix -> read w x ix (s_at t ix)) /\
  w' = mkworld (w_stores w ++ [t]) (w_refs w ++ [mkref (length (w_stores w)) shape elem false (r_aligned x)]).

Definition push (w : world) (x : ref) : world := mkworld (w_stores w) (w_refs w ++ [x]).
(** Whether the view repeats elements (and is therefore read-only). *)
Definition repeats (p : list (Dim * Z)) (o : view_op) : bool :=
  match o with VwBroadcast t => negb (Dims_Spec.vol (extents (Dims_Spec.pairs t)) =? Dims_Spec.vol (extents p)) | VwConst => true | _ => false end.

Definition sstep (w : world) (o : hop E) (w' : world) : Prop :=
  match o with
  | Make d ty un vs init => exists t, s_shape t = Dims_Spec.pairs d /\ s_obj t = mkobj ty un vs /\
      (forall ix, valid_at (Dims_Spec.pairs d) ix -> s_at t ix = init (Dims_Spec.position (extents (Dims_Spec.pairs d)) (map ix (keys (Dims_Spec.pairs d))))) /\
      w' = mkworld (w_stores w ++ [t]) (w_refs w ++ [mkref (length (w_stores w)) (Dims_Spec.pairs d) (fun ix => ix) false true])
  | Share i => exists x, nth_error (w_refs w) i = Some x /\ w' = push w x
  | View i o => exists x p', nth_error (w_refs w) i = Some x /\ view_dims (r_shape x) o = Some p' /\
      (w' = push w (mkref (r_store x) p' (fun ix => r_elem x (pull (r_shape x) o ix)) (r_readonly x || repeats (r_shape x) o) (r_aligned x)) \/
       (exists f t, o = VwFlatten f t) /\ copied_to_new w x (pull (r_shape x) o) p' w')
  | Copy i => exists x, nth_error (w_refs w) i = Some x /\ copied_to_new w x (fun ix => ix) (r_shape x) w'
  | CopyTo i j => exists x y, nth_error (w_refs w) i = Some x /\ nth_error (w_refs w) j = Some y /\ updated (copy_op E) w y x w'
  | SetSlice i p j => exists x y p', nth_error (w_refs w) i = Some x /\ nth_error (w_refs w) j = Some y /\ slice_dims (r_shape x) p = Some p' /\
      updated (copy_op E) w (mkref (r_store x) p' (fun ix => r_elem x (pull (r_shape x) (VwSlice p) ix)) (r_readonly x) (r_aligned x)) y w'
  | InPlace g i j => exists x y, nth_error (w_refs w) i = Some x /\ nth_error (w_refs w) j = Some y /\ updated g w x y w'
  | Poke i ix e => exists x ox, nth_error (w_refs w) i = Some x /\ r_readonly x = false /\ obj_of w x ox /\
      written w x (fun iy e' => (same_at (r_shape x) iy ix -> e' = e) /\ (~ same_at (r_shape x) iy ix -> read w x iy e')) ox w'
  | SetUnit i u => exists x t, nth_error (w_refs w) i = Some x /\ r_readonly x = false /\ nth_error (w_stores w) (r_store x) = Some t /\
      w' = mkworld (upd (w_stores w) (r_store x) (mkstore (s_shape t) (mkobj (o_type (s_obj t)) u (o_vars (s_obj t))) (s_at t))) (w_refs w)
  | DropVariances i => exists x t, nth_error (w_refs w) i = Some x /\ r_readonly x = false /\ nth_error (w_stores w) (r_store x) = Some t /\
      w' = mkworld (upd (w_stores w) (r_store x) (mkstore (s_shape t) (mkobj (o_type (s_obj t)) (o_unit (s_obj t)) false) (s_at t))) (w_refs w)
  | SetAligned i b => exists x, nth_error (w_refs w) i = Some x /\
      w' = mkworld (w_stores w) (upd (w_refs w) i (mkref (r_store x) (r_shape x) (r_elem x) (r_readonly x) b))
  | Assign i j => exists x y, nth_error (w_refs w) i = Some x /\ nth_error (w_refs w) j = Some y /\ w' = mkworld (w_stores w) (upd (w_refs w) i y)
  end.
(** Operations that fail change nothing. *)
Inductive sruns : world -> list (hop E * res unit) -> world -> Prop :=
| sruns_nil w : sruns w [] w
| sruns_fail w o e tr w' : sruns w tr w' -> sruns w ((o, Throw e) :: tr) w'
| sruns_ok w o w1 tr w' : sstep w o w1 -> sruns w1 tr w' -> sruns w ((o, Ok tt) :: tr) w'.

(** ** Which variables come from which, as far as the history tells *)
(** The variable an operation writes through. *)
Definition writes_through (o : hop E) : option nat :=
  match o with
  | CopyTo _ j => Some j
  | SetSlice i _ _ | InPlace _ i _ | Poke i _ _ | SetUnit i _ | DropVariances i => Some i
  | _ => None
  end.
(** The variable that is rebound. *)
Definition rebinds (o : hop E) : option nat := match o with Assign i _ => Some i | _ => None end.
(** Families: a new variable or a deep copy starts a new family, a shallow copy or view belongs to the family of its source.
    [fs]: the family of each variable; families are numbered. *)
Definition families (fs : list nat * nat) (o : hop E) (r : res unit) : list nat * nat :=
  match r, o with
  | Ok _, (Make _ _ _ _ _ | Copy _) => (fst fs ++ [snd fs], S (snd fs))
  | Ok _, (Share i | View i _) => (fst fs ++ [nth i (fst fs) 0%nat], snd fs)
  | Ok _, Assign i j => (upd (fst fs) i (nth j (fst fs) 0%nat), snd fs)
  | _, _ => fs
  end.
Definition families_after (fs : list nat * nat) (tr : list (hop E * res unit)) : list nat * nat :=
  fold_left (fun fs or => families fs (fst or) (snd or)) tr fs.
(** No operation writes through a variable of family [f]. *)
Fixpoint leaves_alone (fs : list nat * nat) (f : nat) (tr : list (hop E * res unit)) : Prop :=
  match tr with
  | [] => True
  | (o, r) :: tr' => (forall i, writes_through o = Some i -> nth_error (fst fs) i <> Some f) /\ leaves_alone (families fs o r) f tr'
  end.
Definition never_rebinds (i : nat) (tr : list (hop E * res unit)) : Prop := forall o r, In (o, r) tr -> rebinds o <> Some i.

(** ** What can be observed of variable number [i] *)
Definition shape_of (s : state E) (i : nat) (p : list (Dim * Z)) : Prop := exists x, nth_error (st_vars s) i = Some x /\ p = Dims_Spec.pairs (h_dims x).
Definition shows (s : state E) (i : nat) (ix : Dim -> Z) (e : E) : Prop :=
  exists x, nth_error (st_vars s) i = Some x /\ valid_at (Dims_Spec.pairs (h_dims x)) ix /\ e = value_at (st_heap s) (h_arr x) ix.
Definition has_object (s : state E) (i : nat) (o : object) : Prop :=
  exists x, nth_error (st_vars s) i = Some x /\ nth_error (st_objs s) (h_buf x) = Some o.
Definition writable (s : state E) (i : nat) : Prop := exists x, nth_error (st_vars s) i = Some x /\ v_readonly (h_var x) = false.
(** Nothing of variable [i] differs. *)
Definition same_variable (s : state E) (i : nat) (s' : state E) (i' : nat) : Prop :=
  (forall p, shape_of s i p <-> shape_of s' i' p) /\ (forall ix e, shows s i ix e <-> shows s' i' ix e) /\
  (forall o, has_object s i o <-> has_object s' i' o).
(** The state and the world show the same. *)
Definition agrees (s : state E) (w : world) : Prop :=
  length (st_vars s) = length (w_refs w) /\
  forall i x y, nth_error (st_vars s) i = Some x -> nth_error (w_refs w) i = Some y ->
  Dims_Spec.pairs (h_dims x) = r_shape y /\ v_readonly (h_var x) = r_readonly y /\ h_aligned x = r_aligned y /\
  (forall o, has_object s i o <-> obj_of w y o) /\
  forall ix, valid_at (r_shape y) ix -> read w y ix (value_at (st_heap s) (h_arr x) ix).
(** A state reached from nothing by a history. *)
Definition reached (tr : list (hop E * res unit)) (s : state E) : Prop := exists h, runs (empty_state h) tr s.
End Spec.
