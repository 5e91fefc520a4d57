(** Model of the validation of bin indices (lib/variable/variable_instantiate_bin_elements.cpp 39-58), of the copying of
    bins (lib/dataset/bins.cpp 37-91, lib/variable/bins.cpp 42-47) and of the bin-wise concatenation of two binned variables
    (lib/dataset/bins.cpp 129-139, 240-261).

    An array of bins is the list of its begin and end indices. A buffer is one-dimensional along the bin dimension; its
    columns either depend on this dimension or are a single value. *)
From Verif Require Import Base Cumsum_Model.

(** ** validation *)
(** [operator<] of [std::pair] *)
Definition pair_lt (a b : Z * Z) : bool := (fst a <? fst b) || ((fst a =? fst b) && (snd a <? snd b)).
(** [std::sort]: the sorted permutation is unique since the order is total; here by insertion. *)
Fixpoint insert (x : Z * Z) (l : list (Z * Z)) : list (Z * Z) :=
  match l with [] => [x] | y :: l' => if pair_lt y x then y :: insert x l' else x :: l end.
Definition sort (l : list (Z * Z)) : list (Z * Z) := fold_right insert [] l.
(** [std::adjacent_find(...) != end] *)
Fixpoint adjacent_find {A} (f : A -> A -> bool) (l : list A) : bool := match l with a :: (b :: _) as l' => f a b || adjacent_find f l' | _ => false end.
(** 39-58; [size] is [buffer_sizes[dim]], which throws if there is no such dimension. *)
Definition expect_valid_bin_indices (unit_is_none : bool) (indices : list (Z * Z)) (size : res Z) : res unit :=
  if negb unit_is_none then Throw UnitError
  else
    let vals := sort indices in
    match vals with
    | [] => Ok tt
    | first :: _ =>
      if fst first <? 0 then Throw SliceError
      else
        do n <- size;
        if n <? snd (last vals (0, 0)) then Throw SliceError
        else if adjacent_find (fun a b => fst b <? snd a) vals then Throw SliceError
        else if existsb (fun x => snd x <? fst x) vals then Throw SliceError
        else Ok tt
    end.

(** ** copying *)
(** elements of one bin *)
Fixpoint copy_range {A} (src dst : list A) (sb db : Z) (n : nat) : res (list A) :=
  match n with O => Ok dst | S n' => do x <- vget src sb; do dst' <- vset dst db x; copy_range src dst' (sb + 1) (db + 1) n' end.
(** lib/variable/bins.cpp 42-47; a [transform] over pairs of bins of the same size (C12). *)
Fixpoint copy_slices {A} (src dst : list A) (src_indices dst_indices : list (Z * Z)) : res (list A) :=
  match src_indices, dst_indices with
  | (sb, se) :: s, (db, de) :: d => if se - sb =? de - db then do dst' <- copy_range src dst sb db (Z.to_nat (se - sb)); copy_slices src dst' s d else Throw BinnedDataError
  | [], [] => Ok dst
  | _, _ => Throw DimensionError
  end.

(** a column that depends on the bin dimension, or not *)
Inductive column (A : Type) := Events (l : list A) | Fixed (x : A).
Arguments Events {A}. Arguments Fixed {A}.
(** [data], and [meta] and [masks] by name *)
Record buffer (A : Type) := mkbuf { b_data : list A; b_items : list (Z * column A) }.
Arguments mkbuf {A}. Arguments b_data {A}. Arguments b_items {A}.
Fixpoint item {A} (k : Z) (l : list (Z * A)) : option A := match l with [] => None | (k', x) :: l' => if k' =? k then Some x else item k l' end.
Fixpoint set_item {A} (k : Z) (c : A) (l : list (Z * A)) : list (Z * A) :=
  match l with [] => [] | (k', x) :: l' => if k' =? k then (k', c) :: l' else (k', x) :: set_item k c l' end.

Section Concatenate.
Context {A : Type}.
(** equality of variables without the bin dimension; false for NaN *)
Variable eqb : A -> A -> bool.
(** uninitialized elements *)
Variable junk : A.
(** bins.cpp 37-44. A source with and a destination without the dimension fail in [make_bins_impl]; a difference is a
    [VariableError]. *)
Definition copy_or_match (a b : column A) (src_indices dst_indices : list (Z * Z)) : res (column A) :=
  match a, b with
  | Events s, Events d => do d' <- copy_slices s d src_indices dst_indices; Ok (Events d')
  | Events _, Fixed _ => Throw DimensionError
  | Fixed x, Fixed y => if eqb x y then Ok (Fixed y) else Throw RuntimeError
  | Fixed _, Events _ => Throw RuntimeError
  end.
(** 46-61 *)
Definition contains (l : list (Z * column A)) (k : Z) : bool := match item k l with Some _ => true | None => false end.
Definition matching_keys (a b : list (Z * column A)) : bool := forallb (fun x => contains b (fst x)) a && forallb (fun x => contains a (fst x)) b.
Fixpoint copy_items (src dst : list (Z * column A)) (src_indices dst_indices : list (Z * Z)) : res (list (Z * column A)) :=
  match src with
  | [] => Ok dst
  | (k, c) :: src' =>
    match item k dst with
    | Some d => do c' <- copy_or_match c d src_indices dst_indices; copy_items src' (set_item k c' dst) src_indices dst_indices
    | None => Throw NotFoundError
    end
  end.
(** 82-91 *)
Definition copy_buffer (src dst : buffer A) (src_indices dst_indices : list (Z * Z)) : res (buffer A) :=
  do d <- copy_slices (b_data src) (b_data dst) src_indices dst_indices;
  if matching_keys (b_items src) (b_items dst) then
    do i <- copy_items (b_items src) (b_items dst) src_indices dst_indices; Ok (mkbuf d i)
  else Throw RuntimeError.
(** 112-139 *)
Definition resize_column (n : Z) (c : column A) : column A := match c with Events _ => Events (repeat junk (Z.to_nat n)) | Fixed x => Fixed x end.
Definition resize_default_init (parent : buffer A) (n : Z) : buffer A :=
  mkbuf (repeat junk (Z.to_nat n)) (map (fun x => (fst x, resize_column n (snd x))) (b_items parent)).
(** 240-261. Broadcasting of the bin arrays to their common shape is left out; [end.dims().volume()] is 0 for no bins. *)
Definition bin_size (x : Z * Z) : Z := snd x - fst x.
Definition combine_bins (indices0 : list (Z * Z)) (buffer0 : buffer A) (indices1 : list (Z * Z)) (buffer1 : buffer A) : res (list (Z * Z) * buffer A) :=
  if negb (zlen indices0 =? zlen indices1) then Throw DimensionError
  else
    let sizes0 := map bin_size indices0 in
    let sizes1 := map bin_size indices1 in
    let sizes := map (fun x => fst x + snd x) (combine sizes0 sizes1) in
    do end_ <- cumsum Z.add Z.sub (fun x => x) 0 true sizes;
    let begin := map (fun x => fst x - snd x) (combine end_ sizes) in
    let total := match end_ with [] => 0 | _ => last end_ 0 end in
    let buf := resize_default_init buffer0 total in
    do b1 <- copy_buffer buffer0 buf indices0 (combine begin (map (fun x => fst x - snd x) (combine end_ sizes1)));
    do b2 <- copy_buffer buffer1 b1 indices1 (combine (map (fun x => fst x + snd x) (combine begin sizes0)) end_);
    Ok (combine begin end_, b2).
End Concatenate.
