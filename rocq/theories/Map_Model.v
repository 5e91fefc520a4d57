(** Model of the two ordered maps of the code base:
    - [small_stable_map] (lib/core/sizes.cpp 36-127, lib/core/include/scipp/core/sizes.h 34-78), base class
      of [Sizes] and [Dimensions];
    - [Dict] (lib/core/include/scipp/core/dict.h 226-398), base of coords/masks/attrs dictionaries.
    Both store two parallel vectors. *)
From Verif Require Import Base.

Section Map.
Context {K V : Type} (eqb : K -> K -> bool).

(** sizes.h 76-77: [m_keys], [m_values]; dict.h 374-375. *)
Record vmap := mkmap { m_keys : list K; m_values : list V }.

Definition mempty : vmap := mkmap [] [].

(** sizes.h 57 / dict.h 261 *)
Definition msize (m : vmap) : Z := zlen (m_keys m).

(** sizes.cpp 54-62 / dict.h 272-274, 377-379 *)
Definition mcontains (m : vmap) (k : K) : bool :=
  match find_index eqb k (m_keys m) with Some _ => true | None => false end.

(** sizes.cpp 64-71: throws [DimensionError]; dict.h 381-397: throws [NotFoundError]. *)
Definition mindex (e : exn) (m : vmap) (k : K) : res Z :=
  match find_index eqb k (m_keys m) with Some n => Ok (Z.of_nat n) | None => Throw e end.

(** sizes.cpp 79-82 / dict.h 301-313 *)
Definition mat (e : exn) (m : vmap) (k : K) : res V :=
  do i <- mindex e m k; vget (m_values m) i.

(** sizes.cpp 84-88 *)
Definition massign (m : vmap) (k : K) (v : V) : res vmap :=
  do i <- mindex DimensionError m k;
  do vs <- vset (m_values m) i v;
  Ok (mkmap (m_keys m) vs).

(** [expectUnique], lib/core/sizes.cpp 13-17 via lib/core/include: throws [DimensionError] on duplicates. *)
Definition mexpect_unique (m : vmap) (k : K) : res unit :=
  if mcontains m k then Throw DimensionError else Ok tt.

(** sizes.cpp 90-96 *)
Definition minsert_left (m : vmap) (k : K) (v : V) : res vmap :=
  do _ <- mexpect_unique m k; Ok (mkmap (k :: m_keys m) (v :: m_values m)).

(** sizes.cpp 98-104 *)
Definition minsert_right (m : vmap) (k : K) (v : V) : res vmap :=
  do _ <- mexpect_unique m k; Ok (mkmap (m_keys m ++ [k]) (m_values m ++ [v])).

(** sizes.cpp 106-111 *)
Definition merase (m : vmap) (k : K) : res vmap :=
  do i <- mindex DimensionError m k;
  do ks <- verase (m_keys m) i;
  do vs <- verase (m_values m) i;
  Ok (mkmap ks vs).

(** sizes.cpp 113-117 / dict.h 296-299 *)
Definition mclear (m : vmap) : vmap := mkmap [] [].

(** sizes.cpp 119-125 *)
Definition mreplace_key (m : vmap) (k k' : K) : res vmap :=
  do _ <- (if eqb k k' then Ok tt else mexpect_unique m k');
  do i <- mindex DimensionError m k;
  do ks <- vset (m_keys m) i k';
  Ok (mkmap ks (m_values m)).

(** dict.h 276-283 *)
Definition dinsert_or_assign (m : vmap) (k : K) (v : V) : res vmap :=
  match find_index eqb k (m_keys m) with
  | None => Ok (mkmap (m_keys m ++ [k]) (m_values m ++ [v]))
  | Some n => do vs <- vset (m_values m) (Z.of_nat n) v; Ok (mkmap (m_keys m) vs)
  end.

(** dict.h 287-294: the value is read after the key was erased but before the value is erased. *)
Definition dextract (m : vmap) (k : K) : res (V * vmap) :=
  do i <- mindex NotFoundError m k;
  do ks <- verase (m_keys m) i;
  do v <- vget (m_values m) i;
  do vs <- verase (m_values m) i;
  Ok (v, mkmap ks vs).

(** dict.h 285 *)
Definition derase (m : vmap) (k : K) : res vmap :=
  do r <- dextract m k; Ok (snd r).

(** dict.h 315-331: [find] yields the pair of iterators (key position, value position); [None] is
    [end()]. Dereferencing gives the pair at these positions. *)
Definition dfind (m : vmap) (k : K) : res (option (K * V)) :=
  match find_index eqb k (m_keys m) with
  | None => Ok None
  | Some n => do k' <- vget (m_keys m) (Z.of_nat n); do v <- vget (m_values m) (Z.of_nat n);
              Ok (Some (k', v))
  end.

(** dict.h 357-371: iterating from [begin()] to [end()] advances both iterators in lock step. *)
Definition ditems (m : vmap) : list (K * V) := combine (m_keys m) (m_values m).

(** dict.h 249-256: construction from an initializer list. *)
Fixpoint dmake (m : vmap) (l : list (K * V)) : res vmap :=
  match l with
  | [] => Ok m
  | (k, v) :: l' => if mcontains m k then Throw InvalidArgument
                    else do m' <- dinsert_or_assign m k v; dmake m' l'
  end.

(** Operations of [small_stable_map], for histories. *)
Inductive sm_op :=
| SmAssign (k : K) (v : V) | SmInsertLeft (k : K) (v : V) | SmInsertRight (k : K) (v : V)
| SmErase (k : K) | SmClear | SmReplaceKey (k k' : K).

Definition sm_step (m : vmap) (o : sm_op) : res vmap :=
  match o with
  | SmAssign k v => massign m k v
  | SmInsertLeft k v => minsert_left m k v
  | SmInsertRight k v => minsert_right m k v
  | SmErase k => merase m k
  | SmClear => Ok (mclear m)
  | SmReplaceKey k k' => mreplace_key m k k'
  end.

(** Operations of [Dict]. *)
Inductive d_op := DSet (k : K) (v : V) | DErase (k : K) | DClear.

Definition d_step (m : vmap) (o : d_op) : res vmap :=
  match o with
  | DSet k v => dinsert_or_assign m k v
  | DErase k => derase m k
  | DClear => Ok (mclear m)
  end.

(** A history: a throwing call leaves the object as it was (in every function above the checks precede
    the first modification); undefined behaviour poisons the rest of the history. The list of outcomes
    records which calls threw what. *)
Fixpoint run {O} (step : vmap -> O -> res vmap) (m : vmap) (os : list O) : res (vmap * list (option exn)) :=
  match os with
  | [] => Ok (m, [])
  | o :: os' =>
    match step m o with
    | Ok m' => do r <- run step m' os'; Ok (fst r, None :: snd r)
    | Throw e => do r <- run step m os'; Ok (fst r, Some e :: snd r)
    | Ub => Ub
    end
  end.
End Map.
Arguments vmap : clear implicits.
Arguments mkmap {K V} _ _.
Arguments sm_op : clear implicits.
Arguments d_op : clear implicits.
