(** Model of lib/common/include/scipp/common/numeric.h. *)
From Flocq Require Import BinarySingleNaN.
From Verif Require Import Base Float.

(** Signed integers of [bits] bits: the result of an operation that does not fit is undefined behaviour. *)
Definition int_val (bits z : Z) : res Z := if in_range bits z then Ok z else Ub.

(** 62-70, for integers [a], [b] and a result of [bits] bits. *)
Definition floor_divide (bits a b : Z) : res Z :=
  if b =? 0 then Ok 0 else f_to_Z bits (ffloor (fdiv (f_of_Z a) (f_of_Z b))).

(** 72-79, for integers. *)
Definition remainder (bits a b : Z) : res Z :=
  if b =? 0 then Ok 0 else
  do q <- floor_divide bits a b; do p <- int_val bits (q * b); int_val bits (a - p).

(** 82-96; [fuel] bounds the depth of the recursion. *)
Fixpoint pow_pos (fuel : nat) (bits base e : Z) : res Z :=
  match fuel with
  | O => Ub
  | S fuel' =>
    if e =? 0 then Ok 1 else if e =? 1 then Ok base else
    do aux <- pow_pos fuel' bits base (Z.quot e 2);
    if Z.rem e 2 =? 0 then int_val bits (aux * aux)
    else do p <- int_val bits (base * aux); int_val bits (p * aux)
  end.
(** 99-112, for an integer base of [bits] bits and an integer exponent. *)
Definition ipow (bits base e : Z) : res Z :=
  if e >=? 0 then pow_pos (S (Z.to_nat e)) bits base e
  else do p <- pow_pos (S (Z.to_nat (- e))) bits base (- e);
       if p =? 0 then Ub else int_val bits (Z.quot 1 p).

(** [std::adjacent_find(range, p) == end] *)
Fixpoint no_adjacent {A} (p : A -> A -> bool) (l : list A) : bool :=
  match l with
  | a :: (b :: _) as l' => negb (p a b) && no_adjacent p l'
  | _ => true
  end.

(** 16-40 for integers (and time points, which are integers). Differences are taken in unbounded integers. *)
Definition islinspace_int (l : list Z) : bool :=
  match l with
  | a :: b :: _ =>
    if last l a <=? a then false
    else no_adjacent (fun x y => negb (Z.abs (y - x) =? b - a)) l
  | _ => false
  end.

(** 42-52 *)
Definition isarange (l : list Z) : bool :=
  match l with
  | a :: _ :: _ =>
    if last l a <=? a then false
    else no_adjacent (fun x y => negb (Z.abs (y - x) =? 1)) l
  | _ => true
  end.

(** 24-32 for [double]: epsilon and step. *)
Definition f_eps : f64 := f_make 1 (-52).
Definition lin_delta (l : list f64) (a : f64) : f64 := fdiv (fsub (last l a) a) (f_of_Z (Z.of_nat (length l) - 1)).
Definition lin_epsilon (l : list f64) (a : f64) : f64 :=
  fmul (fmul f_eps (fadd (fabs a) (fabs (last l a)))) (f_of_Z 4).
Definition islinspace_f64 (l : list f64) : bool :=
  match l with
  | a :: _ :: _ =>
    if fleb (last l a) a then false
    else no_adjacent (fun x y => fltb (lin_epsilon l a) (fabs (fsub (fabs (fsub y x)) (lin_delta l a)))) l
  | _ => false
  end.
