(** Model of the iterators of [core::Dict] (lib/core/include/scipp/core/dict.h 43-143, 264-299, 315-371)
    together with the memory of the two vectors of a dict: where their elements are, how many fit, and
    which operations move them. Several dicts live at the same time, so that they can be copied and moved
    into each other while one of them is being iterated over. *)
From Verif Require Import Base.

Section DictIter.
Context {K V : Type} (eqb : K -> K -> bool).

(** The allocator: [alloc n] is the address returned by the [n]-th allocation. Addresses and sizes are
    counted in elements (simplified: the sizes of keys and values are not distinguished). *)
Variable alloc : Z -> Z.
(** The growth policy of [std::vector::push_back]: capacity after the reallocation (libstdc++ and
    libc++ double it, the standard leaves it open). *)
Variable grow : Z -> Z.

(** [std::vector]: [data()], [capacity()], elements. *)
Record vec (A : Type) := mkvec { v_base : Z; v_cap : Z; v_elems : list A }.
Arguments mkvec {A}. Arguments v_base {A}. Arguments v_cap {A}. Arguments v_elems {A}.

(** A vector without storage: default-constructed or moved from; [data()] is null. *)
Definition vnull {A} : vec A := mkvec 0 0 [].

Definition vsize {A} (v : vec A) : Z := zlen (v_elems v).

(** [std::vector::push_back], [emplace_back]: a full vector moves to new storage. The counter is the
    number of allocations so far. *)
Definition push_back {A} (n : Z) (v : vec A) (x : A) : vec A * Z :=
  if vsize v =? v_cap v
  then (mkvec (alloc n) (grow (v_cap v)) (v_elems v ++ [x]), n + 1)
  else (mkvec (v_base v) (v_cap v) (v_elems v ++ [x]), n).

(** [std::vector::reserve] *)
Definition reserve {A} (n : Z) (v : vec A) (c : Z) : vec A * Z :=
  if v_cap v <? c then (mkvec (alloc n) c (v_elems v), n + 1) else (v, n).

(** [std::vector::operator=(const vector &)]: keeps the storage if the elements fit. *)
Definition copy_assign {A} (n : Z) (v : vec A) (src : list A) : vec A * Z :=
  if v_cap v <? zlen src then (mkvec (alloc n) (zlen src) src, n + 1)
  else (mkvec (v_base v) (v_cap v) src, n).

(** dict.h 374-375 *)
Record dict := mkdict { d_keys : vec K; d_values : vec V }.

(** dict.h 258 *)
Definition dnull : dict := mkdict vnull vnull.

(** All dicts that are alive, and the number of allocations so far. *)
Record world := mkworld { w_dicts : list dict; w_next : Z }.

(** dict.h 276-283 *)
Definition dset (n : Z) (d : dict) (k : K) (v : V) : res (dict * Z) :=
  match find_index eqb k (v_elems (d_keys d)) with
  | None => let (ks, n1) := push_back n (d_keys d) k in
            let (vs, n2) := push_back n1 (d_values d) v in
            Ok (mkdict ks vs, n2)
  | Some p => do l <- vset (v_elems (d_values d)) (Z.of_nat p) v;
              Ok (mkdict (d_keys d) (mkvec (v_base (d_values d)) (v_cap (d_values d)) l), n)
  end.

(** dict.h 285-294: [std::vector::erase] moves the elements behind the erased one, not the storage. *)
Definition derase (d : dict) (k : K) : res dict :=
  match find_index eqb k (v_elems (d_keys d)) with
  | None => Throw NotFoundError
  | Some p =>
    do ks <- verase (v_elems (d_keys d)) (Z.of_nat p);
    do _ <- vget (v_elems (d_values d)) (Z.of_nat p);
    do vs <- verase (v_elems (d_values d)) (Z.of_nat p);
    Ok (mkdict (mkvec (v_base (d_keys d)) (v_cap (d_keys d)) ks)
               (mkvec (v_base (d_values d)) (v_cap (d_values d)) vs))
  end.

(** dict.h 296-299: [std::vector::clear] keeps the storage. *)
Definition dclear (d : dict) : dict :=
  mkdict (mkvec (v_base (d_keys d)) (v_cap (d_keys d)) [])
         (mkvec (v_base (d_values d)) (v_cap (d_values d)) []).

(** dict.h 267-270 *)
Definition dreserve (n : Z) (d : dict) (c : Z) : dict * Z :=
  let (ks, n1) := reserve n (d_keys d) c in
  let (vs, n2) := reserve n1 (d_values d) c in (mkdict ks vs, n2).

(** Implicit copy assignment of [Dict]: memberwise. *)
Definition dcopy (n : Z) (d src : dict) : dict * Z :=
  let (ks, n1) := copy_assign n (d_keys d) (v_elems (d_keys src)) in
  let (vs, n2) := copy_assign n1 (d_values d) (v_elems (d_values src)) in (mkdict ks vs, n2).

(** What can happen to the dicts; numbers say which dict. *)
Inductive op :=
| OSet (i : nat) (k : K) (v : V)
| OErase (i : nat) (k : K)
| OClear (i : nat)
| OReserve (i : nat) (c : Z)
| OCopy (i j : nat)
| OMove (i j : nat).

Definition getd (w : world) (i : nat) : res dict :=
  match nth_error (w_dicts w) i with Some d => Ok d | None => Throw OutOfRange end.

Definition setd (w : world) (i : nat) (d : dict) (n : Z) : world :=
  mkworld (upd (w_dicts w) i d) n.

(** Implicit move assignment [d_i = std::move(d_j)]: the storage changes hands, [d_j] is left without
    any; moving a dict into itself leaves it empty (libstdc++). *)
Definition step (w : world) (o : op) : res world :=
  match o with
  | OSet i k v => do d <- getd w i; do r <- dset (w_next w) d k v; Ok (setd w i (fst r) (snd r))
  | OErase i k => do d <- getd w i; do d' <- derase d k; Ok (setd w i d' (w_next w))
  | OClear i => do d <- getd w i; Ok (setd w i (dclear d) (w_next w))
  | OReserve i c => do d <- getd w i; let (d', n) := dreserve (w_next w) d c in Ok (setd w i d' n)
  | OCopy i j => do d <- getd w i; do s <- getd w j;
                 let (d', n) := dcopy (w_next w) d s in Ok (setd w i d' n)
  | OMove i j => do d <- getd w i; do s <- getd w j;
                 Ok (setd (setd w i s (w_next w)) j dnull (w_next w))
  end.

Fixpoint steps (w : world) (os : list op) : res world :=
  match os with [] => Ok w | o :: os' => do w' <- step w o; steps w' os' end.

(** dict.h 56-60, 129-135: an iterator over items holds a pointer to a key, a pointer to a value, a
    reference to the vector of keys, and its address and size at the time the iterator was made. Over
    keys or values only: one pointer and a reference to the vector. *)
Record iter := mkiter { it_dict : nat; it_key : Z; it_val : Z; it_base : Z; it_size : Z }.
Record iter1 := mkiter1 { i1_dict : nat; i1_ptr : Z; i1_base : Z; i1_size : Z }.

(** dict.h 137-142 *)
Definition unchanged {A} (v : vec A) (base size : Z) : res unit :=
  if negb (v_base v =? base) || negb (vsize v =? size) then Throw RuntimeError else Ok tt.

(** Reading through a pointer into the vector [v]: any address outside of its elements is undefined
    behaviour. *)
Definition load {A} (v : vec A) (a : Z) : res A :=
  if (v_base v <=? a) && (a <? v_base v + vsize v) then vget (v_elems v) (a - v_base v) else Ub.

(** dict.h 62-70: [operator*] of an iterator over items. *)
Definition deref (w : world) (it : iter) : res (K * V) :=
  do d <- getd w (it_dict it);
  do _ <- unchanged (d_keys d) (it_base it) (it_size it);
  do k <- load (d_keys d) (it_key it);
  do v <- load (d_values d) (it_val it);
  Ok (k, v).

(** dict.h 83-89 *)
Definition incr (w : world) (it : iter) : res iter :=
  do d <- getd w (it_dict it);
  do _ <- unchanged (d_keys d) (it_base it) (it_size it);
  Ok (mkiter (it_dict it) (it_key it + 1) (it_val it + 1) (it_base it) (it_size it)).

(** dict.h 91-95: only the left one is checked, and only the key pointers are compared. *)
Definition ieq (w : world) (it other : iter) : res bool :=
  do d <- getd w (it_dict it);
  do _ <- unchanged (d_keys d) (it_base it) (it_size it);
  Ok (it_key it =? it_key other).

(** dict.h 53-57, with the pointers at position [p]: 357-359 ([begin]: 0) and 315-331 ([find]: the
    position of the key). *)
Definition iter_at (i : nat) (d : dict) (p : Z) : iter :=
  mkiter i (v_base (d_keys d) + p) (v_base (d_values d) + p) (v_base (d_keys d)) (vsize (d_keys d)).

(** dict.h 361-363 *)
Definition iter_end (i : nat) (d : dict) : iter :=
  mkiter i (v_base (d_keys d) + vsize (d_keys d)) (v_base (d_values d) + vsize (d_values d))
         (v_base (d_keys d)) (vsize (d_keys d)).

(** dict.h 369-371: for a const dict the value pointer of [end()] is [m_values.cbegin()]. *)
Definition iter_cend (i : nat) (d : dict) : iter :=
  mkiter i (v_base (d_keys d) + vsize (d_keys d)) (v_base (d_values d))
         (v_base (d_keys d)) (vsize (d_keys d)).

(** dict.h 315-331 *)
Definition ifind (i : nat) (d : dict) (k : K) : iter :=
  match find_index eqb k (v_elems (d_keys d)) with
  | None => iter_end i d
  | Some p => iter_at i d (Z.of_nat p)
  end.

(** dict.h 333-355 and 62-65: iterators over keys only and over values only. *)
Definition key_at (i : nat) (d : dict) (p : Z) : iter1 :=
  mkiter1 i (v_base (d_keys d) + p) (v_base (d_keys d)) (vsize (d_keys d)).
Definition value_at (i : nat) (d : dict) (p : Z) : iter1 :=
  mkiter1 i (v_base (d_values d) + p) (v_base (d_values d)) (vsize (d_values d)).

Definition deref_key (w : world) (it : iter1) : res K :=
  do d <- getd w (i1_dict it);
  do _ <- unchanged (d_keys d) (i1_base it) (i1_size it);
  load (d_keys d) (i1_ptr it).
Definition deref_value (w : world) (it : iter1) : res V :=
  do d <- getd w (i1_dict it);
  do _ <- unchanged (d_values d) (i1_base it) (i1_size it);
  load (d_values d) (i1_ptr it).

(** [for (auto it = d.begin(); it != end; ++it) { auto x = *it; body }], the loop that range-for and
    pybind11's [make_iterator] run (lib/python/bind_data_array.h). The body may do anything to any dict,
    depending on the state and on what was visited so far (latest first). [None]: still running after
    [fuel] rounds. *)
Fixpoint each (fuel : nat) (body : list (K * V) -> world -> list op) (it e : iter)
         (seen : list (K * V)) (w : world) : option (res (list (K * V) * world)) :=
  match fuel with
  | O => None
  | S f =>
    match ieq w it e with
    | Throw x => Some (Throw x)
    | Ub => Some Ub
    | Ok true => Some (Ok (rev seen, w))
    | Ok false =>
      match (do x <- deref w it;
             do w' <- steps w (body (x :: seen) w);
             do it' <- incr w' it; Ok (x, w', it')) with
      | Throw x => Some (Throw x)
      | Ub => Some Ub
      | Ok (x, w', it') => each f body it' e (x :: seen) w'
      end
    end
  end.

(** Loops over a dict and over a const dict. *)
Definition loop (fuel : nat) (body : list (K * V) -> world -> list op) (i : nat) (w : world) :
  option (res (list (K * V) * world)) :=
  match getd w i with
  | Ok d => each fuel body (iter_at i d 0) (iter_end i d) [] w
  | Throw e => Some (Throw e) | Ub => Some Ub
  end.
Definition const_loop (fuel : nat) (body : list (K * V) -> world -> list op) (i : nat) (w : world) :
  option (res (list (K * V) * world)) :=
  match getd w i with
  | Ok d => each fuel body (iter_at i d 0) (iter_cend i d) [] w
  | Throw e => Some (Throw e) | Ub => Some Ub
  end.
End DictIter.
Arguments vec : clear implicits. Arguments mkvec {A}. Arguments v_base {A}. Arguments v_cap {A}.
Arguments v_elems {A}.
Arguments dict : clear implicits. Arguments mkdict {K V}. Arguments d_keys {K V}. Arguments d_values {K V}.
Arguments world : clear implicits. Arguments mkworld {K V}. Arguments w_dicts {K V}. Arguments w_next {K V}.
Arguments op : clear implicits. Arguments OSet {K V}. Arguments OErase {K V}. Arguments OClear {K V}.
Arguments OReserve {K V}. Arguments OCopy {K V}. Arguments OMove {K V}.
