(** Model of the element-wise operations on dense variables: [transform] (lib/variable/include/scipp/variable/
    transform.h 140-433) and [transform_in_place] (474-706), including memory, threads and schedules.

    Simplifications: an element is one memory cell, also if it consists of a value and a variance (both are read and
    written at the same index); units, dtype dispatch and variance flags are not part of this file; dispatch_inner_loop
    (226-249) picks loops that differ only in whether the strides are known at compile time; one thread of the model
    executes one block of the range, so that every assignment of blocks to worker threads is an interleaving of model
    threads. *)
From Verif Require Import Base Map_Model Dims_Model Dims_Spec Index_Model View_Model View_Spec.

(** ** Memory, instructions, threads *)

(** A cell: buffer and position in the buffer. *)
Definition cell : Type := (nat * Z)%type.
Definition cell_eqb (a b : cell) : bool := (fst a =? fst b)%nat && (snd a =? snd b).
Definition heap (A : Type) : Type := cell -> A.
Definition hset {A} (h : heap A) (c : cell) (x : A) : heap A := fun c' => if cell_eqb c' c then x else h c'.

(** Load the next operand; store the result of the element operation on the operands loaded so far. *)
Inductive instr (A : Type) :=
| Ld (c : cell)
| St (c : cell) (f : list A -> A).
Arguments Ld {A} c.
Arguments St {A} c f.
Definition exec {A} (s : heap A * list A) (i : instr A) : heap A * list A :=
  match i with
  | Ld c => (fst s, snd s ++ [fst s c])
  | St c f => (hset (fst s) c (f (snd s)), [])
  end.

(** A thread: remaining program and operands loaded so far. *)
Definition thread (A : Type) : Type := (list (instr A) * list A)%type.
Definition start {A} (progs : list (list (instr A))) : list (thread A) := map (fun p => (p, [])) progs.

(** Thread [t] executes its next instruction; choosing a thread that is done changes nothing. *)
Definition step {A} (s : heap A * list (thread A)) (t : nat) : heap A * list (thread A) :=
  match nth_error (snd s) t with
  | Some (i :: p, regs) =>
    let r := exec (fst s, regs) i in (fst r, upd (snd s) t (p, snd r))
  | _ => s
  end.
Definition run_threads {A} (sched : list nat) (s : heap A * list (thread A)) : heap A * list (thread A) :=
  fold_left step sched s.
(** All threads have ended. *)
Definition finished {A} (s : heap A * list (thread A)) : Prop := forall t, In t (snd s) -> fst t = [].

(** ** Operands *)

(** A dense variable: its buffer and the view into it. *)
Record arr := mkarr { a_buf : nat; a_var : var }.
Definition a_dims (a : arr) : sizes := v_dims (a_var a).

Fixpoint mapM {A B} (f : A -> res B) (l : list A) : res (list B) :=
  match l with
  | [] => Ok []
  | a :: l' => do b <- f a; do r <- mapM f l'; Ok (b :: r)
  end.

(** dimensions.h 87-90: [merge(merge(a, b), other...)]. *)
Fixpoint merge_all (d : sizes) (ds : list sizes) : res sizes :=
  match ds with
  | [] => Ok d
  | e :: ds' => do m <- dims_merge d e; merge_all m ds'
  end.

(** element_array_view.cpp 11-20 *)
Fixpoint check_smaller (source target : sizes) (ls : list Dim) : res unit :=
  match ls with
  | [] => Ok tt
  | l :: ls' =>
    do _ <- (if dcontains source l
             then do x <- dat source l; do y <- dat target l; if x <? y then Throw DimensionError else Ok tt
             else Ok tt);
    check_smaller source target ls'
  end.
Definition expect_can_broadcast (source target : sizes) : res unit :=
  if dims_eqb source target then Ok tt else check_smaller source target (labels target).

(** element_array_view.cpp 42-57, transform.h 370-379 ([as_view]): the strides of an operand for iteration
    dimensions [dims]. *)
Definition redim (dims : sizes) (a : arr) : res (list Z) :=
  do _ <- expect_can_broadcast (a_dims a) dims;
  broadcast_strides (a_dims a) (v_strides (a_var a)) (labels dims).

(** The cells of the operands at given positions: [data()] is the buffer plus the offset of the view
    (element_array_view.h), indexed with the positions of the [MultiIndex]. *)
Definition cells (ops : list arr) (pos : list Z) : list cell :=
  map (fun p => (a_buf (fst p), v_offset (a_var (fst p)) + snd p)) (combine ops pos).

(** transform.h 148-165: [call] reads operands 1, 2, ... and writes operand 0. *)
Definition call {A} (f : list A -> A) (cs : list cell) : list (instr A) :=
  match cs with
  | [] => []
  | out :: ins => map Ld ins ++ [St out f]
  end.
(** transform.h 167-191: [call_in_place] modifies operand 0, [f] gets its old value as the first operand. *)
Definition call_in_place {A} (f : list A -> A) (cs : list cell) : list (instr A) :=
  match cs with
  | [] => []
  | out :: ins => Ld out :: map Ld ins ++ [St out f]
  end.

(** The program of one thread that calls the operation at the given positions. *)
Definition program {A} (c : list cell -> list (instr A)) (ops : list arr) (ps : list (list Z)) : list (instr A) :=
  flat_map (fun p => c (cells ops p)) ps.

(** transform.h 270-278 and 517-525: one program per block [b, e) of the range. *)
Definition block_programs {A} (c : list cell -> list (instr A)) (ops : list arr) (m : mindex) (blocks : list (Z * Z))
  : res (list (list (instr A))) :=
  mapM (fun b => do ps <- mi_block m (fst b) (snd b); Ok (program c ops ps)) blocks.

(** ** transform *)

(** transform.h 408-433 with 251-279: the output is a new variable with its own buffer [out]. [blocks]: how
    [parallel_for] divides the range. *)
Definition transform {A} (f : list A -> A) (ins : list arr) (out : nat) (blocks : sizes -> list (Z * Z))
  : res (arr * list (list (instr A))) :=
  match ins with
  | [] => Ub                                                         (* there is no nullary transform *)
  | a :: ins' =>
    do dims <- merge_all (a_dims a) (map a_dims ins');
    let o := mkarr out (var_fresh dims) in
    do sts <- mapM (redim dims) ins;
    do m <- mi_make (shape dims) (v_strides (a_var o) :: sts);
    do ps <- block_programs (call f) (o :: ins) m (blocks dims);
    Ok (o, ps)
  end.

(** ** transform_in_place *)

(** element_array_view.cpp 65-79 *)
Definition params_overlap (a b : var) : bool :=
  if (v_offset a =? v_offset b) && dims_eqb (v_dims a) (v_dims b) && list_eqb (v_strides a) (v_strides b)
  then false
  else let (ab, ae) := memory_bounds (shape (v_dims a)) (v_strides a) in
       let (bb, be) := memory_bounds (shape (v_dims b)) (v_strides b) in
       (ab <? be) && (ae >? bb).
(** transform.h 474-480, element_array_view.h 149-153. Operands of another dtype are in another buffer. *)
Definition overlaps (a b : arr) : bool := (a_buf a =? a_buf b)%nat && params_overlap (a_var a) (a_var b).

(** A copy of an operand into the new buffer [tmp] (its elements are stored in row-major order, see C07/C46 on copy). *)
Definition clone_to {A} (h : heap A) (tmp : nat) (b : arr) : heap A :=
  fun c => if (fst c =? tmp)%nat && (0 <=? snd c) && (snd c <? volume (a_dims b))
           then copied (fun k => h (a_buf b, k)) (a_var b) (snd c) else h c.

(** transform.h 610-625: copy the other operand if it overlaps with the output. *)
Definition handle_overlap {A} (h : heap A) (out : arr) (others : list arr) (tmp : nat) : res (heap A * list arr) :=
  if existsb (overlaps out) others
  then match others with
       | [b] => Ok (clone_to h tmp b, [mkarr tmp (var_fresh (a_dims b))])
       | _ => Throw RuntimeError
       end
  else Ok (h, others).

(** transform.h 488-527 *)
Definition in_place_programs {A} (f : list A -> A) (ops : list arr) (m : mindex) (size : Z) (blocks : list (Z * Z))
  : res (list (list (instr A))) :=
  if mi_has_stride_zero m
  then do ps <- mi_run (Z.to_nat size) m (mi_set_index m size); Ok [program (call_in_place f) ops ps]
  else block_programs (call_in_place f) ops m blocks.

(** transform.h 637-649 [transform_data] with 610-631; [visit] obtains the mutable data of [out], which throws if
    [out] is read-only (variable.cpp 334-337; this happens in [overlaps] or, for operands of different dtype, after
    the merge - the model always does it first). The result: the heap after the copy and the threads to run on it. *)
Definition transform_data {A} (f : list A -> A) (h : heap A) (out : arr) (others : list arr) (tmp : nat)
  (blocks : sizes -> list (Z * Z)) : res (heap A * list (list (instr A))) :=
  do _ <- expect_writable (a_var out);
  do ho <- handle_overlap h out others tmp;
  let (h', others') := ho in
  do dims <- merge_all (a_dims out) (map a_dims others');
  do sts <- mapM (redim dims) (out :: others');
  do m <- mi_make (shape dims) sts;
  do ps <- in_place_programs f (out :: others') m (volume dims) (blocks dims);
  Ok (h', ps).

(** transform.h 650-682: [expect::includes] for all operands first. *)
Definition transform_in_place {A} (f : list A -> A) (h : heap A) (out : arr) (others : list arr) (tmp : nat)
  (blocks : sizes -> list (Z * Z)) : res (heap A * list (list (instr A))) :=
  do _ <- mapM (fun o => do ok <- includes (a_dims out) (a_dims o);
                         if negb ok then Throw DimensionError else Ok tt) others;
  transform_data f h out others tmp blocks.
