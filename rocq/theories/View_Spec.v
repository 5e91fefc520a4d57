(** Specification vocabulary for views. A labelled shape is a list of (label, extent) pairs, an index gives a
    coordinate to every label. Nothing here refers to strides, offsets or to the model of the view operations. *)
From Verif Require Import Base Map_Model Dims_Model Dims_Spec View_Model.

Notation lshape := (list (Dim * Z)) (only parsing).
Notation lindex := (Dim -> Z) (only parsing).
Definition keys (p : lshape) : list Dim := map fst p.
Definition extents (p : lshape) : list Z := map snd p.

(** Index within the extents. *)
Definition valid_at (p : lshape) (ix : lindex) : Prop := forall k n, In (k, n) p -> 0 <= ix k < n.
Definition same_at (p : lshape) (ix ix' : lindex) : Prop := forall k, In k (keys p) -> ix k = ix' k.

(** Labels unique and valid, extents not negative. *)
Definition lwf (p : lshape) : Prop :=
  NoDup (keys p) /\ Forall (fun n => 0 <= n) (extents p) /\ ~ In InvalidDim (keys p).

Definition put (ix : lindex) (k : Dim) (x : Z) : lindex := fun j => if j =? k then x else ix j.
Fixpoint puts (ix : lindex) (ls : list Dim) (xs : list Z) : lindex :=
  match ls, xs with l :: ls', x :: xs' => put (puts ix ls' xs') l x | _, _ => ix end.

Definition mem (k : Dim) (ls : list Dim) : bool := existsb (Z.eqb k) ls.
Fixpoint extent (p : lshape) (k : Dim) : option Z :=
  match p with [] => None | (l, n) :: p' => if l =? k then Some n else extent p' k end.
Definition ext (p : lshape) (k : Dim) : Z := match extent p k with Some n => n | None => 0 end.

(** ** The shape each operation must produce ([None]: the operation must be rejected). *)
Definition slice_dims (p : lshape) (s : slice) : option lshape :=
  if slice_eqb s slice_default then Some p
  else match extent p (s_dim s) with
       | None => None
       | Some n =>
         if s_end s =? -1
         then if s_begin s <? n then Some (filter (fun e => negb (fst e =? s_dim s)) p) else None
         else if s_end s <=? n
              then Some (map (fun e => if fst e =? s_dim s
                                       then (fst e, ceil_div (s_end s - s_begin s) (s_stride s)) else e) p)
              else None
       end.

Definition broadcast_dims (p t : lshape) : option lshape :=
  if forallb (fun e => match extent t (fst e) with Some n => n =? snd e | None => false end) p then Some t else None.

Fixpoint no_dup (l : list Z) : bool := match l with [] => true | x :: l' => negb (mem x l') && no_dup l' end.

Definition fold_dims (p : lshape) (d : Dim) (t : lshape) : option lshape :=
  let r := flat_map (fun e => if fst e =? d then t else [e]) p in
  if mem d (keys p) && no_dup (keys r) && (vol (extents p) =? vol (extents r)) then Some r else None.

Definition transpose_dims (p : lshape) (order : list Dim) : option lshape :=
  match order with
  | [] => Some (rev p)
  | _ => if (zlen order =? zlen p) && no_dup order && forallb (fun k => mem k (keys p)) order
         then Some (map (fun k => (k, ext p k)) order) else None
  end.

Fixpoint rename_pairs (p : lshape) (names : list (Dim * Dim)) (fail_on_unknown : bool) : option lshape :=
  match names with
  | [] => Some p
  | (f, t) :: names' =>
    if mem f (keys p)
    then if negb (f =? t) && mem t (keys p) then None
         else rename_pairs (map (fun e => (if fst e =? f then t else fst e, snd e)) p) names' fail_on_unknown
    else if fail_on_unknown then None else rename_pairs p names' fail_on_unknown
  end.

Definition squeezed (p : lshape) (sel : option (list Dim)) : list Dim :=
  match sel with Some ds => ds | None => keys (filter (fun e => snd e =? 1) p) end.
Definition squeeze_dims (p : lshape) (sel : option (list Dim)) : option lshape :=
  let ds := squeezed p sel in
  if forallb (fun d => match extent p d with Some n => n =? 1 | None => false end) ds && no_dup ds
  then Some (filter (fun e => negb (mem (fst e) ds)) p) else None.

(** Replace the first block of pairs whose labels are [from]; [size]: product of their extents. *)
Fixpoint split_at_block (p : lshape) (from : list Dim) : option (lshape * lshape * lshape) :=
  if list_eqb (keys (firstn (length from) p)) from
  then Some ([], firstn (length from) p, skipn (length from) p)
  else match p with
       | [] => None
       | e :: p' => match split_at_block p' from with Some (a, b, c) => Some (e :: a, b, c) | None => None end
       end.
Definition flatten_pairs (p : lshape) (from : list Dim) (to : Dim) : option lshape :=
  match from with
  | [] => if mem to (keys p) || (to =? InvalidDim) then None else Some (p ++ [(to, 1)])
  | _ => match split_at_block p from with
         | None => None
         | Some (a, b, c) => if mem to (keys a ++ keys c) then None else Some (a ++ (to, vol (extents b)) :: c)
         end
  end.

Definition view_dims (p : lshape) (o : view_op) : option lshape :=
  match o with
  | VwSlice s => slice_dims p s
  | VwBroadcast t => broadcast_dims p (pairs t)
  | VwFold d t => fold_dims p d (pairs t)
  | VwTranspose l => transpose_dims p l
  | VwRename n f => rename_pairs p n f
  | VwSqueeze s => squeeze_dims p s
  | VwFlatten f t => flatten_pairs p f t
  | VwConst => Some p
  end.

(** ** Which element of the source an element of the result is. *)
Fixpoint pull_rename (names : list (Dim * Dim)) (ix : lindex) : lindex :=
  match names with
  | [] => ix
  | (f, t) :: names' => let ix' := pull_rename names' ix in put ix' f (ix' t)
  end.

Definition pull (p : lshape) (o : view_op) (ix : lindex) : lindex :=
  match o with
  | VwSlice s => if slice_eqb s slice_default then ix
                 else if s_end s =? -1 then put ix (s_dim s) (s_begin s)
                 else put ix (s_dim s) (s_begin s + s_stride s * ix (s_dim s))
  | VwBroadcast _ | VwTranspose _ | VwConst => ix
  | VwFold d t => put ix d (position (extents (pairs t)) (map ix (keys (pairs t))))
  | VwRename names _ => pull_rename names ix
  | VwSqueeze sel => fun k => if mem k (squeezed p sel) then 0 else ix k
  | VwFlatten from to => puts ix from (index_at (map (ext p) from) (ix to))
  end.

(** Chains. *)
Fixpoint chain_dims (p : lshape) (os : list view_op) : option lshape :=
  match os with
  | [] => Some p
  | o :: os' => match view_dims p o with Some p' => chain_dims p' os' | None => None end
  end.
Fixpoint pull_chain (p : lshape) (os : list view_op) (ix : lindex) : lindex :=
  match os with
  | [] => ix
  | o :: os' => match view_dims p o with Some p' => pull p o (pull_chain p' os' ix) | None => ix end
  end.

(** Arguments the API can be called with: slices come from the constructors of [Slice], target shapes are
    [Dimensions], labels are valid labels. *)
Definition slice_ok (s : slice) : Prop :=
  s = slice_default \/ (0 <= s_begin s /\ 0 < s_stride s /\ (s_end s = -1 \/ s_begin s <= s_end s)).
Definition op_ok (o : view_op) : Prop :=
  match o with
  | VwSlice s => slice_ok s
  | VwBroadcast t => wf t
  | VwFold _ t => wf t
  | VwRename names _ => ~ In InvalidDim (map snd names)
  | VwFlatten _ t => t <> InvalidDim
  | _ => True
  end.

(** ** Elements: address of a labelled index in the buffer of a view. *)
Definition vaddr (v : var) (ix : lindex) : Z := v_offset v + dot (v_strides v) (map ix (labels (v_dims v))).

(** A copy stores element [k] (in row-major order) of the copied view at position [k]. *)
Definition index_of (d : sizes) (k : Z) : lindex := puts (fun _ => 0) (labels d) (index_at (shape d) k).
Definition copied {A} (buf : Z -> A) (v : var) : Z -> A := fun k => buf (vaddr v (index_of (v_dims v) k)).

(** A chain of views over a buffer. *)
Fixpoint view_chain {A} (buf : Z -> A) (v : var) (os : list view_op) : res ((Z -> A) * var) :=
  match os with
  | [] => Ok (buf, v)
  | o :: os' => do r <- view_step v o;
                view_chain (if fst r then copied buf v else buf) (snd r) os'
  end.

(** Writing an element through a view: every write goes through [Variable::data() &]. *)
Definition write {A} (buf : Z -> A) (v : var) (ix : lindex) (x : A) : res (Z -> A) :=
  do _ <- expect_writable v; Ok (fun k => if k =? vaddr v ix then x else buf k).

(** ** Composition of slices. *)
Definition compose_slice (a b : slice) : slice :=
  mkslice (s_dim a) (s_begin a + s_begin b * s_stride a)
          (if s_end b =? -1 then -1 else s_begin a + (s_end b - 1) * s_stride a + 1)
          (s_stride a * s_stride b).

(** A well-formed view: well-formed labelled shape, one non-negative stride per label. *)
Definition wfv (v : var) : Prop :=
  wf (v_dims v) /\ length (v_strides v) = length (labels (v_dims v)) /\ Forall (fun s => 0 <= s) (v_strides v).

(** [v'] is reached from [v] by view operations that share the buffer. *)
Inductive view_of : var -> var -> Prop :=
| vo_self v : view_of v v
| vo_step v o v1 v2 : op_ok o -> view_step v o = Ok (false, v1) -> view_of v1 v2 -> view_of v v2.
