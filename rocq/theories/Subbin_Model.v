(** Model of lib/core/subbin_sizes.cpp and lib/variable/bin_detail.cpp 65-86. Sizes are unbounded integers. *)
From Verif Require Import Base.

Record subbin : Set := mksub { so : Z; ss : list Z }.

(** subbin_sizes.cpp 15-19 (the error is a [std::logic_error]). *)
Definition sb_make (o : Z) (l : list Z) : res subbin := if o <? 0 then Throw RuntimeError else Ok (mksub o l).

(** The loops of 29-36 and 74-79: [sizes[current++] op x] for every [x]. *)
Fixpoint add_from (op : Z -> Z -> Z) (out : list Z) (current : Z) (xs : list Z) : res (list Z) :=
  match xs with
  | [] => Ok out
  | x :: xs' => do v <- vget out current; do out' <- vset out current (op v x); add_from op out' (current + 1) xs'
  end.
(** [std::vector::resize] *)
Definition vresize (l : list Z) (n : Z) : list Z := firstn (Z.to_nat n) l ++ repeat 0 (Z.to_nat n - length l).

(** 68-81 *)
Definition sb_binary (op : Z -> Z -> Z) (a b : subbin) : res subbin :=
  let begin := Z.min (so a) (so b) in
  let end_ := Z.max (so a + zlen (ss a)) (so b + zlen (ss b)) in
  let sizes := repeat 0 (Z.to_nat (end_ - begin)) in
  do s1 <- add_from Z.add sizes (so a - begin) (ss a);
  do s2 <- add_from op s1 (so b - begin) (ss b);
  sb_make begin s2.
Definition sb_plus := sb_binary Z.add.
Definition sb_minus := sb_binary Z.sub.

(** 26-36 *)
Definition sb_plus_equals (a b : subbin) : res subbin :=
  if so b <? so a then sb_plus a b
  else
    let current := so b - so a in
    let length := current + zlen (ss b) in
    let l := if length >? zlen (ss a) then vresize (ss a) length else ss a in
    do l' <- add_from Z.add l current (ss b);
    Ok (mksub (so a) l').

(** 42-48 with element/cumulative.h 16-22 ([exclusive_scan]: [sum += x; x = sum - x]) *)
Fixpoint cumsum_loop (sum : Z) (l : list Z) : list Z :=
  match l with [] => [] | x :: l' => let sum' := sum + x in (sum' - x) :: cumsum_loop sum' l' end.
Definition sb_cumsum_exclusive (a : subbin) : res subbin := sb_make (so a) (cumsum_loop 0 (ss a)).
(** 50-52 *)
Definition sb_sum (a : subbin) : Z := fold_left Z.add (ss a) 0.

(** 54-62 *)
Fixpoint intersect_loop (l other : list Z) (i j : Z) (fuel : nat) : res (list Z) :=
  match fuel with
  | O => Ub
  | S fuel' =>
    if (j <? zlen other) && (i <? zlen l)
    then do x <- vget other j; do v <- vget l i; do l' <- vset l i (v + x); intersect_loop l' other (i + 1) (j + 1) fuel'
    else Ok l
  end.
Definition sb_add_intersection (a b : subbin) : res subbin :=
  let delta := so b - so a in
  do l <- intersect_loop (ss a) (ss b) (Z.max 0 delta) (Z.max 0 (- delta)) (S (length (ss a)));
  Ok (mksub (so a) l).

(** 99-114: a step of the scan; [l] is the vector of the accumulant, [xl] that of the argument. *)
Fixpoint scan_loop (delta osize size : Z) (l xl : list Z) (i : Z) (fuel : nat) : res (list Z * list Z) :=
  match fuel with
  | O => Ub
  | S fuel' =>
    if i <? size
    then do prev <- (if delta + i >=? osize then Ok 0 else vget l (delta + i));
         do x <- vget xl i;
         do l' <- (if i >=? osize then Ok (l ++ [prev + x]) else vset l i (prev + x));
         do xl' <- vset xl i prev;
         scan_loop delta osize size l' xl' (i + 1) fuel'
    else Ok (l, xl)
  end.
Definition sb_exclusive_scan (acc x : subbin) : res (subbin * subbin) :=
  let osize := zlen (ss acc) in let size := zlen (ss x) in
  do r <- scan_loop (so x - so acc) osize size (ss acc) (ss x) 0 (S (length (ss x)));
  Ok (mksub (so x) (vresize (fst r) size), mksub (so x) (snd r)).

(** lib/variable/bin_detail.cpp 76-86 along one dimension: the accumulant starts as the first element filled with zeros. *)
Fixpoint scan_seq (acc : subbin) (l : list subbin) : res (list subbin) :=
  match l with
  | [] => Ok []
  | x :: l' => do r <- sb_exclusive_scan acc x; do out <- scan_seq (fst r) l'; Ok (snd r :: out)
  end.
Definition sb_cumsum_exclusive_dim (l : list subbin) : res (list subbin) :=
  match l with
  | [] => Ok []
  | a :: _ => scan_seq (mksub (so a) (map (fun _ => 0) (ss a))) l
  end.

(** lib/variable/bin_detail.cpp 65-74: [std::copy_n] into the row of every element. *)
Fixpoint copy_to (out : list Z) (at_ : Z) (l : list Z) : res (list Z) :=
  match l with [] => Ok out | x :: l' => do o <- vset out at_ x; copy_to o (at_ + 1) l' end.
Fixpoint flatten_loop (out : list Z) (row length : Z) (l : list subbin) : res (list Z) :=
  match l with
  | [] => Ok out
  | s :: l' => do o <- copy_to out (row * length + so s) (ss s); flatten_loop o (row + 1) length l'
  end.
Definition sb_flatten (length : Z) (l : list subbin) : res (list Z) :=
  flatten_loop (repeat 0 (Z.to_nat (length * zlen l))) 0 length l.
