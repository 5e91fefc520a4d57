(** Shared vocabulary of all model files: outcomes of C++ calls, dimension labels, small list helpers. *)
From Coq Require Export List ZArith Lia Bool Arith.
From Coq Require Export ZifyBool ZifyNat.
Export ListNotations.
#[global] Open Scope Z_scope.

(** Exceptions thrown by the code (lib/core/include/scipp/core/except.h,
    lib/units/include/scipp/units/except.h, std exceptions). *)
Inductive exn : Set :=
| DimensionError | SliceError | NotFoundError | UnitError | VariancesError | DTypeError | TypeError
| BinEdgeError | CoordMismatchError | DatasetError | DataArrayError | BinnedDataError
| InvalidArgument | OutOfRange | RuntimeError | ReadonlyError.

(** Outcome of a call: a value, an exception, or undefined behaviour (out-of-bounds access,
    dereferencing past the end, integer division by zero, ...). *)
Inductive res (A : Type) : Type :=
| Ok (a : A)
| Throw (e : exn)
| Ub.
Arguments Ok {A} a.
Arguments Throw {A} e.
Arguments Ub {A}.

Definition bind {A B} (r : res A) (f : A -> res B) : res B :=
  match r with Ok a => f a | Throw e => Throw e | Ub => Ub end.
Notation "'do' x <- r ; k" := (bind r (fun x => k)) (at level 200, x pattern, r at level 100, k at level 200).

(** Dimension labels are compared by id (lib/units/include/scipp/units/dim.h 16-39, 101-103);
    id 0 is [Dim::Invalid]. The mapping from strings to ids is the subject of Label_Model.v. *)
Notation Dim := Z (only parsing).
Definition InvalidDim : Dim := 0.

(** [v[i]] on a contiguous container: out of range is undefined behaviour. *)
Definition vget {A} (l : list A) (i : Z) : res A :=
  if i <? 0 then Ub else match nth_error l (Z.to_nat i) with Some a => Ok a | None => Ub end.

(** [v[i] = x] *)
Fixpoint upd {A} (l : list A) (n : nat) (x : A) : list A :=
  match l, n with
  | [], _ => []
  | _ :: l', O => x :: l'
  | a :: l', S n' => a :: upd l' n' x
  end.

Definition vset {A} (l : list A) (i : Z) (x : A) : res (list A) :=
  if (i <? 0) || (Z.of_nat (length l) <=? i) then Ub else Ok (upd l (Z.to_nat i) x).

(** [v.erase(v.begin() + i)] *)
Fixpoint remove_nth {A} (l : list A) (n : nat) : list A :=
  match l, n with
  | [], _ => []
  | _ :: l', O => l'
  | a :: l', S n' => a :: remove_nth l' n'
  end.

Definition verase {A} (l : list A) (i : Z) : res (list A) :=
  if (i <? 0) || (Z.of_nat (length l) <=? i) then Ub else Ok (remove_nth l (Z.to_nat i)).

(** [std::find] returning a position; [None] is [end()]. *)
Fixpoint find_index {A} (eqb : A -> A -> bool) (x : A) (l : list A) : option nat :=
  match l with
  | [] => None
  | a :: l' => if eqb a x then Some O else option_map S (find_index eqb x l')
  end.

Definition zlen {A} (l : list A) : Z := Z.of_nat (length l).

Definition sumZ (l : list Z) : Z := fold_right Z.add 0 l.
Definition prodZ (l : list Z) : Z := fold_right Z.mul 1 l.

(** [for (i = 0; i < n; ++i)] positions. *)
Definition zseq (a : Z) (n : nat) : list Z := map (fun k => a + Z.of_nat k) (seq 0 n).

Ltac inv H := inversion H; subst; clear H.
Tactic Notation "ediv" := Z.div_mod_to_equations; try lia; try nia.
