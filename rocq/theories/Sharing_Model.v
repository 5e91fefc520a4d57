(** Histories of variables that share buffers: creation, shallow copies, views, deep copies and writes
    (lib/variable/variable.cpp, operations.cpp, element_array_model.h). *)
From Verif Require Import Base Map_Model Dims_Model Dims_Spec View_Model View_Spec Transform_Model Transform_Spec.

(** The data of a model object besides its elements: dtype, unit and whether there are variances
    (variable_concept.h, element_array_model.h 60-132). The elements are in the heap, in the buffer with the number of the
    object; an element is a value together with its variance, if any. *)
Record object := mkobj { o_type : Z; o_unit : Z; o_vars : bool }.
(** variable.h 165-170: buffer ([m_object]), view and alignment flag. *)
Record hvar := mkh { h_arr : arr; h_aligned : bool }.
Record state (E : Type) := mkst { st_heap : heap E; st_objs : list object; st_vars : list hvar }.
Arguments mkst {E}. Arguments st_heap {E}. Arguments st_objs {E}. Arguments st_vars {E}.
Definition h_var (x : hvar) : var := a_var (h_arr x).
Definition h_buf (x : hvar) : nat := a_buf (h_arr x).
Definition h_dims (x : hvar) : sizes := v_dims (h_var x).

(** An in-place operation with one operand: on elements, on units, and its demands on variances and dtypes. *)
Record iop (E : Type) := mkiop { i_fun : E -> E -> E; i_unit : Z -> Z -> res Z; i_vars : bool -> bool -> res unit; i_types : Z -> Z -> res unit }.
Arguments mkiop {E}. Arguments i_fun {E}. Arguments i_unit {E}. Arguments i_vars {E}. Arguments i_types {E}.
(** element_array_model.h 139-154: [a = b]; transform.h 533-564 with [expect_in_variance_if_out_variance]. *)
Definition copy_op (E : Type) : iop E :=
  mkiop (fun _ b => b) (fun _ u => Ok u) (fun o i => if Bool.eqb o i then Ok tt else Throw VariancesError)
        (fun o i => if o =? i then Ok tt else Throw TypeError).

(** One operation of a history; variables are given by their number. *)
Inductive hop (E : Type) :=
| Make (d : sizes) (type un : Z) (vars : bool) (init : Z -> E)
| Share (i : nat)
| View (i : nat) (o : view_op)
| Copy (i : nat)
| CopyTo (i j : nat)
| SetSlice (i : nat) (s : slice) (j : nat)
| InPlace (g : iop E) (i j : nat)
| Poke (i : nat) (ix : Dim -> Z) (e : E)
| SetUnit (i : nat) (u : Z)
| DropVariances (i : nat)
| SetAligned (i : nat) (b : bool)
| Assign (i j : nat).
Arguments Make {E}. Arguments Share {E}. Arguments View {E}. Arguments Copy {E}. Arguments CopyTo {E}. Arguments SetSlice {E}.
Arguments InPlace {E}. Arguments Poke {E}. Arguments SetUnit {E}. Arguments DropVariances {E}. Arguments SetAligned {E}. Arguments Assign {E}.

Section Steps.
Context {E : Type}.
Notation state := (state E).

Definition no_object : object := mkobj 0 0 false.
Definition object_of (s : state) (x : hvar) : object := nth (h_buf x) (st_objs s) no_object.
Definition with_vars (s : state) (l : list hvar) : state := mkst (st_heap s) (st_objs s) l.
Definition with_object (s : state) (b : nat) (o : object) : state := mkst (st_heap s) (upd (st_objs s) b o) (st_vars s).
Definition set_unit_of (o : object) (u : Z) : object := mkobj (o_type o) u (o_vars o).

(** variable.cpp 108-112 *)
Definition expect_can_set_unit (s : state) (x : hvar) (u : Z) : res unit :=
  if negb (o_unit (object_of s x) =? u) && var_is_slice (h_var x) then Throw UnitError else Ok tt.

(** transform.h 650-682: the checks, the start of the element loops (heap and programs of the threads) and the new unit. *)
Definition in_place_start (bl : sizes -> list (Z * Z)) (g : iop E) (s : state) (out src : hvar)
  : res (heap E * list (list (instr E)) * Z) :=
  do ok <- includes (h_dims out) (h_dims src);
  if negb ok then Throw DimensionError else
  do u <- i_unit g (o_unit (object_of s out)) (o_unit (object_of s src));
  do _ <- expect_can_set_unit s out u;
  do _ <- i_types g (o_type (object_of s out)) (o_type (object_of s src));
  do _ <- i_vars g (o_vars (object_of s out)) (o_vars (object_of s src));
  do hp <- transform_in_place (fun l => match l with a :: b :: _ => i_fun g a b | _ => st_heap s (0%nat, 0) end)
             (st_heap s) (h_arr out) [h_arr src] (length (st_objs s)) bl;
  Ok (hp, u).
(** The whole operation: any division of the loop into blocks, any order of the steps of the threads. A failing operation
    has no effect. *)
Definition in_place_step (g : iop E) (s : state) (out src : hvar) (r : res unit) (s' : state) : Prop :=
  exists bl, (forall d, wf d -> tiles 0 (volume d) (bl d)) /\
  match in_place_start bl g s out src with
  | Ok (h1, ps, u) => exists h', may_end h1 ps h' /\ r = Ok tt /\
      s' = with_object (mkst h' (st_objs s) (st_vars s)) (h_buf out) (set_unit_of (object_of s out) u)
  | Throw e => r = Throw e /\ s' = s
  | Ub => False
  end.

(** operations.cpp 20-25: [empty_like] allocates without initialising, then the elements are copied. *)
Definition copy_step (s : state) (x : hvar) (v : var) (r : res unit) (s' : state) : Prop :=
  let out := mkh (mkarr (length (st_objs s)) (var_fresh (h_dims x))) (h_aligned x) in
  let s0 := mkst (st_heap s) (st_objs s ++ [object_of s x]) (st_vars s) in
  exists r1 s1, in_place_step (copy_op E) s0 out x r1 s1 /\
  match r1 with
  | Ok _ => r = Ok tt /\ s' = with_vars s1 (st_vars s ++ [mkh (mkarr (length (st_objs s)) v) (h_aligned x)])
  | Throw e => r = Throw e /\ s' = s
  | Ub => False
  end.

(** variable.cpp 206-230 *)
Definition validate_slice (s : state) (x : hvar) (p : slice) (y : hvar) : res unit :=
  do _ <- valid_slice (h_dims x) p;
  if negb (Bool.eqb (o_vars (object_of s y)) (o_vars (object_of s x))) then Throw VariancesError
  else if negb (o_unit (object_of s y) =? o_unit (object_of s x)) then Throw UnitError
  else if negb (o_type (object_of s y) =? o_type (object_of s x)) then Throw TypeError
  else Ok tt.

(** The index is within the extents. *)
Definition within (d : sizes) (ix : Dim -> Z) : bool := forallb (fun e => (0 <=? ix (fst e)) && (ix (fst e) <? snd e)) (pairs d).

(** No successor: an operation on a variable that does not exist, an element out of range. *)
Definition hstep (s : state) (o : hop E) (r : res unit) (s' : state) : Prop :=
  match o with
  | Make d ty un vs init =>                                       (* variable.tcc 56-95 *)
    wf d /\ r = Ok tt /\
    s' = mkst (fun c => if (fst c =? length (st_objs s))%nat then init (snd c) else st_heap s c)
              (st_objs s ++ [mkobj ty un vs]) (st_vars s ++ [mkh (mkarr (length (st_objs s)) (var_fresh d)) true])
  | Share i =>                                                    (* variable.h 59: the default copy constructor *)
    exists x, nth_error (st_vars s) i = Some x /\ r = Ok tt /\ s' = with_vars s (st_vars s ++ [x])
  | View i o =>
    op_ok o /\ exists x, nth_error (st_vars s) i = Some x /\
    match view_step (h_var x) o with
    | Ok (false, v) => r = Ok tt /\ s' = with_vars s (st_vars s ++ [mkh (mkarr (h_buf x) v) (h_aligned x)])
    | Ok (true, v) => copy_step s x v r s'                        (* shape.cpp 126: flatten(copy(view), ...) *)
    | Throw e => r = Throw e /\ s' = s
    | Ub => False
    end
  | Copy i => exists x, nth_error (st_vars s) i = Some x /\ copy_step s x (var_fresh (h_dims x)) r s'
  | CopyTo i j =>                                                 (* operations.cpp 28-31 *)
    exists x y, nth_error (st_vars s) i = Some x /\ nth_error (st_vars s) j = Some y /\ in_place_step (copy_op E) s y x r s'
  | SetSlice i p j =>                                             (* variable.cpp 232-236 *)
    slice_ok p /\ exists x y, nth_error (st_vars s) i = Some x /\ nth_error (st_vars s) j = Some y /\
    match (do _ <- validate_slice s x p y; var_slice (h_var x) p) with
    | Ok v => in_place_step (copy_op E) s (mkh (mkarr (h_buf x) v) (h_aligned x)) y r s'
    | Throw e => r = Throw e /\ s' = s
    | Ub => False
    end
  | InPlace g i j =>
    exists x y, nth_error (st_vars s) i = Some x /\ nth_error (st_vars s) j = Some y /\ in_place_step g s x y r s'
  | Poke i ix e =>                                                (* variable.tcc 100-102, variable.cpp 163-166 *)
    exists x, nth_error (st_vars s) i = Some x /\ within (h_dims x) ix = true /\
    match expect_writable (h_var x) with
    | Ok _ => r = Ok tt /\ s' = mkst (hset (st_heap s) (h_buf x, vaddr (h_var x) ix) e) (st_objs s) (st_vars s)
    | Throw e => r = Throw e /\ s' = s
    | Ub => False
    end
  | SetUnit i u =>                                                (* variable.cpp 116-120 *)
    exists x, nth_error (st_vars s) i = Some x /\
    match (do _ <- expect_writable (h_var x); expect_can_set_unit s x u) with
    | Ok _ => r = Ok tt /\ s' = with_object s (h_buf x) (set_unit_of (object_of s x) u)
    | Throw e => r = Throw e /\ s' = s
    | Ub => False
    end
  | DropVariances i =>                                            (* variable.cpp 302-312, element_array_variable.tcc 129-131 *)
    exists x, nth_error (st_vars s) i = Some x /\
    match (do _ <- expect_writable (h_var x); if var_is_slice (h_var x) then Throw VariancesError else Ok tt) with
    | Ok _ => r = Ok tt /\ s' = with_object s (h_buf x) (mkobj (o_type (object_of s x)) (o_unit (object_of s x)) false)
    | Throw e => r = Throw e /\ s' = s
    | Ub => False
    end
  | SetAligned i b =>                                             (* variable.cpp 300 *)
    exists x, nth_error (st_vars s) i = Some x /\ r = Ok tt /\ s' = with_vars s (upd (st_vars s) i (mkh (h_arr x) b))
  | Assign i j =>                                                 (* variable.cpp 71-84 *)
    exists x y, nth_error (st_vars s) i = Some x /\ nth_error (st_vars s) j = Some y /\ r = Ok tt /\
    s' = with_vars s (upd (st_vars s) i y)
  end.

(** A history with the outcome of each operation. *)
Inductive runs : state -> list (hop E * res unit) -> state -> Prop :=
| runs_nil s : runs s [] s
| runs_cons s o r s1 tr s2 : hstep s o r s1 -> runs s1 tr s2 -> runs s ((o, r) :: tr) s2.
Definition empty_state (h : heap E) : state := mkst h [] [].
End Steps.

(** variable.cpp 302-312, element_array_variable.tcc 129-140 (setting variances; the values of the argument's model are taken as they
    are in memory). Values and variances of the object as arrays of memory cells; [v] is the view into the object whose variances are set,
    [w] the view of the argument; result: the new array of variances and its size. *)
Definition set_variances {A} (v w : var) (unit_v unit_w : Z) (w_has_variances : bool) (values_w : Z -> A) : res ((Z -> A) * Z) :=
  do _ <- expect_writable v;
  if var_is_slice v then Throw VariancesError else
  if negb (unit_v =? unit_w) then Throw UnitError else
  if negb (dims_eqb (v_dims v) (v_dims w)) then Throw DimensionError else
  if w_has_variances then Throw VariancesError else Ok (values_w, v_size w).
