(** Model of the conversion between counts and densities: lib/dataset/counts.cpp.

    Elements are real numbers (rounding is left out), an array is a function of the position, which is given by dimension label.
    Coords are values, the data are in memory: an item refers to a buffer with its unit. Variances and masks are left out. *)
From Coq Require Import Reals.
From Verif Require Import Base Units_Model.
Local Open Scope R_scope.

Definition shape := list (Z * Z).
Definition pos := Z -> Z.
Record coord := mkcoord { c_shape : shape; c_unit : uunit; c_val : pos -> R }.
(** The data of a data array: a buffer, whether the view on it is partial (Variable::is_slice) and read-only. *)
Record data := mkdata { d_obj : nat; d_shape : shape; d_partial : bool; d_readonly : bool }.
Definition memory := nat -> uunit * (pos -> R).
Definition set_mem (m : memory) (o : nat) (x : uunit * (pos -> R)) : memory := fun o' => if Nat.eqb o' o then x else m o'.

Section Model.
Variable lims : limits.                                               (* of the exponents of units *)

(** unit.h 116: the ninth base unit is the count *)
Definition counts : uunit := Some (1, [0; 0; 0; 0; 0; 0; 0; 0; 1; 0]%Z).
(** unit.cpp 63-67 *)
Definition is_counts (u : uunit) : bool := unit_eqb u counts.
Definition is_count_density (u : uunit) : bool :=
  match u with None => false | Some (_, es) => negb (is_counts u) && negb (nth 8 es 0 =? 0)%Z end.

Fixpoint extent (s : shape) (d : Z) : option Z :=
  match s with [] => None | (k, n) :: s' => if (k =? d)%Z then Some n else extent s' d end.
Definition resized (s : shape) (d n : Z) : shape := map (fun kn => if (fst kn =? d)%Z then (d, n) else kn) s.
Fixpoint find_coord (cs : list (Z * coord)) (d : Z) : option coord :=
  match cs with [] => None | (k, c) :: cs' => if (k =? d)%Z then Some c else find_coord cs' d end.
Definition shift (d : Z) (p : pos) : pos := fun k => if (k =? d)%Z then (p k + 1)%Z else p k.

(** counts.cpp 15-27, one dimension: [coord.slice({dim, 1, n}) - coord.slice({dim, 0, n - 1})] *)
Definition bin_width (cs : list (Z * coord)) (d : Z) : res coord :=
  match find_coord cs d with
  | None => Throw NotFoundError
  | Some c =>
    if unit_eqb (c_unit c) one then Throw RuntimeError
    else match extent (c_shape c) d with
    | None => Throw DimensionError
    | Some n =>
      if (n <? 1)%Z then Throw SliceError                              (* core/slice.cpp 30-33: end < begin *)
      else do u <- unit_same (c_unit c) (c_unit c);
           Ok (mkcoord (resized (c_shape c) d (n - 1)) u (fun p => c_val c (shift d p) - c_val c p))
    end
  end.
(** counts.cpp 15-27 *)
Fixpoint bin_widths (cs : list (Z * coord)) (ds : list Z) : res (list coord) :=
  match ds with [] => Ok [] | d :: ds' => do w <- bin_width cs d; do ws <- bin_widths cs ds'; Ok (w :: ws) end.

(** [expect::includes], lib/core/include/scipp/core/dimensions.h *)
Definition includes (s t : shape) : bool := forallb (fun kn => match extent s (fst kn) with Some n => (n =? snd kn)%Z | None => false end) t.
(** transform.h 650-682: in-place operation with one operand *)
Definition in_place (op : bop) (m : memory) (x : data) (w : coord) : memory * res unit :=
  if negb (includes (d_shape x) (c_shape w)) then (m, Throw DimensionError)
  else match bop_unit lims op (fst (m (d_obj x))) (c_unit w) with
  | Ok u =>
    if negb (unit_eqb (fst (m (d_obj x))) u) && d_partial x then (m, Throw UnitError)
    else if d_readonly x then (m, Throw ReadonlyError)
    else (set_mem m (d_obj x) (u, fun p => bop_val op (snd (m (d_obj x)) p) (c_val w p)), Ok tt)
  | Throw e => (m, Throw e)
  | Ub => (m, Ub)
  end.
Fixpoint in_place_all (op : bop) (m : memory) (x : data) (ws : list coord) : memory * res unit :=
  match ws with
  | [] => (m, Ok tt)
  | w :: ws' => match in_place op m x w with (m', Ok _) => in_place_all op m' x ws' | r => r end
  end.
(** counts.cpp 29-46 *)
Definition to_density (m : memory) (x : data) (ws : list coord) : memory * res unit :=
  if is_counts (fst (m (d_obj x))) then in_place_all Div m x ws
  else if is_count_density (fst (m (d_obj x))) then (m, Throw RuntimeError)
  else (m, Ok tt).
(** counts.cpp 70-77 *)
Definition from_density (m : memory) (x : data) (ws : list coord) : memory * res unit :=
  if is_counts (fst (m (d_obj x))) then (m, Ok tt)
  else if is_count_density (fst (m (d_obj x))) then in_place_all Mul m x ws
  else (m, Ok tt).
Definition conversion := memory -> data -> list coord -> memory * res unit.

(** counts.cpp 63-68, 94-99: a data array is copied to a new buffer [new]. *)
Definition convert_da (f : conversion) (m : memory) (new : nat) (cs : list (Z * coord)) (x : data) (ds : list Z) : memory * res data :=
  match bin_widths cs ds with
  | Ok ws =>
    let y := mkdata new (d_shape x) false false in
    let '(m', r) := f (set_mem m new (m (d_obj x))) y ws in (m', do _ <- r; Ok y)
  | Throw e => (m, Throw e)
  | Ub => (m, Ub)
  end.
(** counts.cpp 52-57, 83-88: the items of a dataset are converted themselves; [return d] shares them. *)
Fixpoint convert_items (f : conversion) (m : memory) (xs : list data) (ws : list coord) : memory * res unit :=
  match xs with
  | [] => (m, Ok tt)
  | x :: xs' => match f m x ws with (m', Ok _) => convert_items f m' xs' ws | r => r end
  end.
Definition convert_ds (f : conversion) (m : memory) (cs : list (Z * coord)) (xs : list data) (ds : list Z) : memory * res (list data) :=
  match bin_widths cs ds with
  | Ok ws => let '(m', r) := convert_items f m xs ws in (m', do _ <- r; Ok xs)
  | Throw e => (m, Throw e)
  | Ub => (m, Ub)
  end.
End Model.
