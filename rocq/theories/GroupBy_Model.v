(** Model of group-by operations: lib/dataset/groupby.cpp.

    Data and masks are modelled by their values at labelled indices, as in Mask_Model; data are dense. The groups are
    processed one after the other: in the code the blocks of groups that run in parallel write to different slices of the
    output. Of the metadata of the output only the dimensions of the data are modelled. [GroupBy::concat] (binned data) and
    datasets (every item on its own) are left out. *)
From Coq Require Import Sorting.Permutation.
From Verif Require Import Base Map_Model Dims_Model View_Model Accumulate_Model Mask_Model Mapper_Model Lookup_Model Arr.

(** groupby.h 20: a group is a list of range slices along the dimension of the key. *)
Definition group := list (Z * Z).

(** ** Groups by value: groupby.cpp 239-281 *)
Section Values.
Context {K : Type}.
(** [eq]: [nan_sensitive_equal], 229-236; [hash]: [std::hash]; [less]: [NanSensitiveLess], 216-227. *)
Variables (eq : K -> K -> bool) (hash : K -> Z) (less : K -> K -> bool).

(** 255-258: the number of elements equal to [v] at the front *)
Fixpoint run (v : K) (l : list K) : nat := match l with x :: l' => if eq x v then S (run v l') else O | [] => O end.
(** Keys of an [unordered_map] are the same if they have the same hash and are equal. *)
Definition same (a b : K) : bool := (hash a =? hash b) && eq a b.
(** 259: [indices[k].emplace_back(s)] *)
Fixpoint add_slice (k : K) (s : Z * Z) (entries : list (K * group)) : list (K * group) :=
  match entries with
  | [] => [(k, [s])]
  | (k', g) :: entries' => if same k k' then (k', g ++ [s]) :: entries' else (k', g) :: add_slice k s entries'
  end.
(** 249-260; [fuel] bounds the number of runs *)
Fixpoint group_loop (fuel : nat) (i : Z) (l : list K) (entries : list (K * group)) : res (list (K * group)) :=
  match l with
  | [] => Ok entries
  | v :: _ =>
    match fuel with
    | O => Ub
    | S fuel' => let m := run v l in
      group_loop fuel' (i + Z.of_nat m) (skipn m l) (add_slice v (i, i + Z.of_nat m) entries)
    end
  end.
Definition make_entries (key : list K) : res (list (K * group)) := group_loop (length key) 0 key [].
(** 270-274: [indices.at(k)] *)
Fixpoint group_at (entries : list (K * group)) (k : K) : res group :=
  match entries with [] => Throw OutOfRange | (k', g) :: entries' => if same k k' then Ok g else group_at entries' k end.
(** 262-274: the keys are iterated over in the unspecified order of the map and sorted by [parallel_sort]: any ordered
    permutation. *)
Definition may_group (key : list K) (ks : list K) (groups : list group) : Prop :=
  exists entries, make_entries key = Ok entries /\ Permutation ks (map fst entries) /\
    (forall i j a b, (i < j)%nat -> nth_error ks i = Some a -> nth_error ks j = Some b -> less b a = false) /\
    mapM (group_at entries) ks = Ok groups.
End Values.

(** ** Groups by bins: 283-312 *)
Section Bins.
Context {K : Type} (less le : K -> K -> bool).
(** core/histogram.h 24-27: [std::is_sorted] *)
Fixpoint is_sorted (l : list K) : bool :=
  match l with x :: ((y :: _) as l') => negb (less y x) && is_sorted l' | _ => true end.
(** 304-306 *)
Fixpoint extend (el er : K) (i : Z) (l : list K) : Z :=
  match l with x :: l' => if le el x && less x er then extend el er (i + 1) l' else i | [] => i end.
(** 295-309; [l]: the values from [i] on *)
Fixpoint bin_loop (edges : list K) (fuel : nat) (i : Z) (l : list K) (groups : list group) : res (list group) :=
  match l with
  | [] => Ok groups
  | v :: l' =>
    match fuel with
    | O => Ub
    | S fuel' =>
      do it <- upper_bound (fun e => less v e) edges;
      if (it =? zlen edges) || (it =? 0) then bin_loop edges fuel' (i + 1) l' groups
      else
        do el <- vget edges (it - 1); do er <- vget edges it;
        let j := extend el er (i + 1) l' in
        do g <- vget groups (it - 1);
        do groups' <- vset groups (it - 1) (g ++ [(i, j)]);
        bin_loop edges fuel' j (skipn (Z.to_nat (j - i - 1)) l') groups'
    end
  end.
(** 283-295; [std::vector] with [-1] elements: [length_error] *)
Definition make_bin_groups (same_unit : bool) (key edges : list K) : res (list group) :=
  if negb same_unit then Throw UnitError
  else if negb (is_sorted edges) then Throw BinEdgeError
  else if zlen edges =? 0 then Throw RuntimeError
  else bin_loop edges (length key) 0 key (repeat [] (Z.to_nat (zlen edges - 1))).
End Bins.

(** ** Reductions *)
Section Reduce.
Context {A : Type}.
Variables (acc : darr A -> darr A -> res (darr A)) (fill : A).
Definition mask_slice (m : mask) (d : Dim) (b e : Z) : res mask :=
  do a <- dslice (k_arr m) d b e; Ok (mkmask a (k_bool m) (k_none m) (k_ro m)).
(** 80-89: the slices of one group; [kdim]: the dimension of the key *)
Fixpoint reduce_group (kdim : Dim) (data : darr A) (u : option mask) (g : group) (out : darr A) : res (darr A) :=
  match g with
  | [] => Ok out
  | (b, e) :: g' =>
    do s <- dslice data kdim b e;
    do out' <- (match u with
                | Some m => do ms <- mask_slice m kdim b e; do w <- where_ ms fill s; acc out w
                | None => acc out s
                end);
    reduce_group kdim data u g' out'
  end.
(** 56-68: the dimensions of the output; [gdim]: the dimension of the groups *)
Definition output_dims (d : sizes) (rdim gdim : Dim) (size : Z) : res sizes :=
  do r <- sizes_resize d rdim size; rename_dims r [(rdim, gdim)] true.
(** 81: [out_data.slice({dim, group})] *)
Definition slice_group (d : sizes) (gdim : Dim) (i : Z) : res sizes := do s <- slice_point gdim i; sizes_slice d s.
(** 71-93, 96-109. [kdim]: dimension of the key, [rdim]: dimension to reduce, [gdim]: dimension of the groups *)
Definition groupby_reduce (kdim rdim gdim : Dim) (data : darr A) (l : list (Z * mask)) (groups : list group) : res (darr A) :=
  do d <- output_dims (dd data) rdim gdim (zlen groups);
  do u <- irreducible_mask l rdim;
  do outs <- mapM (fun ig => do ds <- slice_group d gdim (fst ig); reduce_group kdim data u (snd ig) (mkd ds (fun _ => fill)))
                  (combine (zseq 0 (length groups)) groups);
  Ok (mkd d (fun ix => match nth_error outs (Z.to_nat (ix gdim)) with Some o => dv o ix | None => fill end)).
End Reduce.

(** 169-213: [accZ] adds up integers. The number of elements is a double; here an integer. *)
Section Mean.
Context {A B : Type}.
Variables (acc : darr A -> darr A -> res (darr A)) (accZ : darr Z -> darr Z -> res (darr Z)) (zero : A) (norm : A -> Z -> B).
(** 188-191: [value()] of the sum of a mask fails unless it has no dimensions *)
Fixpoint scale_group (kdim rdim : Dim) (u : option mask) (g : group) (n : Z) : res Z :=
  match g with
  | [] => Ok n
  | (b, e) :: g' =>
    let n := n + (e - b) in
    do n' <- (match u with
              | None => Ok n
              | Some m =>
                do ms <- dslice (k_arr m) kdim b e;
                do s <- reduce_dim accZ 0 (mkd (dd ms) (fun ix => if dv ms ix then 1 else 0)) rdim;
                if ndim (dd s) =? 0 then Ok (n - dv s (fun _ => 0)) else Throw DimensionError
              end);
    scale_group kdim rdim u g' n'
  end.
Definition groupby_mean (kdim rdim gdim : Dim) (data : darr A) (l : list (Z * mask)) (groups : list group) : res (darr B) :=
  do out <- groupby_reduce acc zero kdim rdim gdim data l groups;
  do u <- irreducible_mask l rdim;
  do ns <- mapM (fun g => scale_group kdim rdim u g 0) groups;
  Ok (mkd (dd out) (fun ix => norm (dv out ix) (znth 0 ns (ix gdim)))).
End Mean.
