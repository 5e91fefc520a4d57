(** Model of reductions: [do_accumulate] (lib/variable/include/scipp/variable/accumulate.h 14-110) for dense variables and
    one input.

    Variables are modelled by their values at labelled indices; [reduce_data] stands for [transform_data] (see
    [C14_data_partial] for the memory, threads and loop order behind it). A chunk that is handled by a task is one step of
    the model and the tasks are executed in an arbitrary order: every task writes elements that no other task touches.
    The temporary copy against false sharing (37-43) does not change values and is left out. Binned inputs and several
    inputs are not part of this model. *)
From Verif Require Import Base Map_Model Dims_Model Dims_Spec View_Spec Transform_Model Transform_Spec Accumulate_Spec.

Record darr (A : Type) := mkd { dd : sizes; dv : (Dim -> Z) -> A }.
Arguments mkd {A} dd dv.
Arguments dd {A} d.
Arguments dv {A} d ix.

(** [in_place<false>::transform_data(types, op, name, out, other)] *)
Definition reduce_data {A} (f : A -> A -> A) (out other : darr A) : res (darr A) :=
  do m <- dims_merge (dd out) (dd other);
  Ok (mkd (dd out) (fun ix => fold_left (fun acc jx => f acc (dv other jx)) (agreeing m (dd out) ix) (dv out ix))).

(** [Variable::slice] with a range (C06). *)
Definition bump (d : Dim) (b : Z) (ix : Dim -> Z) : Dim -> Z := fun l => if l =? d then ix l + b else ix l.
Definition dslice {A} (a : darr A) (d : Dim) (b e : Z) : res (darr A) :=
  do s <- slice_range d b e 1; do m <- sizes_slice (dd a) s; Ok (mkd m (fun ix => dv a (bump d b ix))).
(** Writing to a range slice of [a]. *)
Definition dwrite {A} (a : darr A) (d : Dim) (b e : Z) (x : darr A) : darr A :=
  mkd (dd a) (fun ix => if (b <=? ix d) && (ix d <? e) then dv x (bump d (- b) ix) else dv a ix).

(** variable equality (all elements of variables of equal shape). *)
Definition same_values {A} (eqb : A -> A -> bool) (a b : darr A) : bool :=
  forallb (fun ix => eqb (dv a ix) (dv b ix)) (indices (dd a)).

(** accumulate.h 76-77 *)
Definition chunk_count (size : Z) : Z := Z.min 24 size.
Definition chunk_size (size : Z) : res Z :=
  if chunk_count size =? 0 then Ub else Ok (Z.quot (size + chunk_count size - 1) (chunk_count size)).
(** 96-97 *)
Definition chunk (size cs i : Z) : Z * Z := (Z.min (i * cs) size, Z.min ((i + 1) * cs) size).

(** 94-102, 39-41: task [i], which updates slice [i] of [v]. *)
Definition chunk_task {A} (f : A -> A -> A) (other : darr A) (outer : Dim) (size cs : Z) (v : Z -> darr A) (i : Z) : res (Z -> darr A) :=
  do s <- dslice other outer (fst (chunk size cs i)) (snd (chunk size cs i));
  do r <- reduce_data f (v i) s;
  Ok (fun j => if j =? i then r else v j).
Fixpoint run_tasks {S T} (task : S -> T -> res S) (s : S) (ts : list T) : res S :=
  match ts with [] => Ok s | t :: ts' => do s' <- task s t; run_tasks task s' ts' end.

(** 92-93, 103: [v] as one variable with the additional dimension [InternalAccumulate]. *)
Definition stack {A} (dim : Dim) (m : sizes) (v : Z -> darr A) : darr A := mkd m (fun ix => dv (v (ix dim)) ix).

(** 67-103 *)
Definition accumulate_chunks {A} (f : A -> A -> A) (eqb : A -> A -> bool) (internal : Dim) (var other : darr A) (order : Z -> list Z)
  : res (darr A) :=
  match labels (dd other) with
  | [] => Ub                                                                        (* [front()] of no labels *)
  | outer :: _ =>
    do size <- dat (dd other) outer;
    do cs <- chunk_size size;
    do v <- reduce_data f var var;
    if negb (same_values eqb var v) then reduce_data f var other
    else
      do m <- dims_merge (mkmap [internal] [chunk_count size]) (dd var);
      do v' <- run_tasks (chunk_task f other outer size cs) (fun _ => var) (order (chunk_count size));
      reduce_data f var (stack internal m v')
  end.

(** 50-59: tasks for blocks of the first dimension of the output. *)
Definition block_task {A} (f : A -> A -> A) (other : darr A) (dim : Dim) (var : darr A) (b : Z * Z) : res (darr A) :=
  do x <- dslice var dim (fst b) (snd b);
  do s <- dslice other dim (fst b) (snd b);
  do r <- reduce_data f x s;
  Ok (dwrite var dim (fst b) (snd b) r).
Definition accumulate_parallel {A} (f : A -> A -> A) (var other : darr A) (blocks : Z -> list (Z * Z)) : res (darr A) :=
  match labels (dd var) with
  | [] => Ub                                                                        (* [*begin()] of no labels *)
  | dim :: _ => do size <- dat (dd var) dim; run_tasks (block_task f other dim) var (blocks size)
  end.

(** 14-110. [small]: 16384, or 2 for binned inputs (24). [order], [blocks]: how tasks are scheduled. *)
Definition do_accumulate {A} (small : Z) (f : A -> A -> A) (eqb : A -> A -> bool) (internal : Dim) (var other : darr A)
  (order : Z -> list Z) (blocks : Z -> list (Z * Z)) : res (darr A) :=
  do inc <- includes (dd other) (dd var);
  if negb inc || (volume (dd other) <? small) then reduce_data f var other
  else match labels (dd other) with
  | [] => Ub
  | outer :: _ =>
    do limit <- (match labels (dd var) with
                 | [] => Ok true
                 | d0 :: _ => if dcontains (dd var) outer then Ok false else do n <- dat (dd var) d0; Ok (n <? 65536)
                 end);
    if limit : bool then accumulate_chunks f eqb internal var other order
    else accumulate_parallel f var other blocks
  end.
