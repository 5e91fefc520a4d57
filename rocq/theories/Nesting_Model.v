(** Model of variables, data arrays and datasets stored as elements of variables, and of the check against reference cycles:
    lib/variable/variable.cpp 52-84, lib/dataset/include/scipp/dataset/dataset_util.h, lib/dataset/data_array.cpp 56-76,
    lib/dataset/dataset.cpp 56-70.

    A variable refers to a shared buffer and sees some of its elements; everything else about it is left out. *)
From Verif Require Import Base.

(** A variable as a view: the buffer [m_object] and the indices of the elements that [values<T>()] runs over, given by dims, strides and offset. *)
Record handle := mkh { h_obj : nat; h_vis : list nat }.
(** Buffers: numbers, strings, ...; variables; data arrays (the variables they are made of: data, coords, masks, attrs); datasets (the variables of
    all items, and the coords); bins (the buffer: bin_array_model.h 114). Copying a data array into a buffer copies the handles only: data_array.cpp 19-33. *)
Inductive object := Plain | Vars (l : list handle) | Arrays (l : list (list handle)) | Sets (l : list (list handle)) | Bins (b : handle).
Definition heap := list object.
(** The address of a variable, data array or dataset: an element of a buffer, or somewhere else ([None]). *)
Definition addr := option (nat * nat).
Definition is_at (L : addr) (o i : nat) : bool := match L with Some (o', i') => Nat.eqb o' o && Nat.eqb i' i | None => false end.

Fixpoint each {A} (f : A -> res unit) (l : list A) : res unit := match l with [] => Ok tt | a :: l' => do _ <- f a; each f l' end.
Definition element {A} (l : list A) (j : nat) : res A := match nth_error l j with Some a => Ok a | None => Ub end.

(** variable.cpp 53-68; [n] is the depth of the stack. *)
Fixpoint var_check (n : nat) (h : heap) (L : addr) (r : handle) : res unit :=
  match n with
  | O => Ub
  | S n' =>
    match nth_error h (h_obj r) with
    | Some (Vars l) => each (fun j => if is_at L (h_obj r) j then Throw InvalidArgument else do s <- element l j; var_check n' h L s) (h_vis r)
    | _ => Ok tt
    end
  end.
(** dataset_util.h 23-72, for the variables of the right-hand side. [array]: the left-hand side is a data array, otherwise a dataset. *)
Fixpoint set_check (n : nat) (h : heap) (array : bool) (L : addr) (rs : list handle) : res unit :=
  match n with
  | O => Ub
  | S n' =>
    each (fun r =>
      match nth_error h (h_obj r) with
      | Some (Arrays l) => each (fun j => if array && is_at L (h_obj r) j then Throw InvalidArgument else do s <- element l j; set_check n' h array L s) (h_vis r)
      | Some (Sets l) => each (fun j => if negb array && is_at L (h_obj r) j then Throw InvalidArgument else do s <- element l j; set_check n' h array L s) (h_vis r)
      | _ => Ok tt
      end) rs
  end.

Fixpoint replace {A} (l : list A) (i : nat) (a : A) : list A :=
  match l, i with [], _ => [] | _ :: l', O => a :: l' | b :: l', S i' => b :: replace l' i' a end.
(** variable.cpp 71-84: assignment to the element [i] of the buffer [o] *)
Definition assign_var (n : nat) (h : heap) (o i : nat) (r : handle) : res heap :=
  match nth_error h o with
  | Some (Vars l) => do _ <- var_check n h (Some (o, i)) r; Ok (replace h o (Vars (replace l i r)))
  | _ => Ub
  end.
(** data_array.cpp 56-76 and dataset.cpp 56-70 *)
Definition assign_array (n : nat) (h : heap) (o i : nat) (rs : list handle) : res heap :=
  match nth_error h o with
  | Some (Arrays l) => do _ <- set_check n h true (Some (o, i)) rs; Ok (replace h o (Arrays (replace l i rs)))
  | _ => Ub
  end.
Definition assign_set (n : nat) (h : heap) (o i : nat) (rs : list handle) : res heap :=
  match nth_error h o with
  | Some (Sets l) => do _ <- set_check n h false (Some (o, i)) rs; Ok (replace h o (Sets (replace l i rs)))
  | _ => Ub
  end.
(** Setting a coord of a data array that is an element (data_array.h coords(), sized_dict.cpp 220-250): there is no check. *)
Definition set_coord (h : heap) (o i : nat) (r : handle) : res heap :=
  match nth_error h o with
  | Some (Arrays l) => do s <- element l i; Ok (replace h o (Arrays (replace l i (s ++ [r]))))
  | _ => Ub
  end.
