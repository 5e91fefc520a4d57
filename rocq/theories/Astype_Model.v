(** Model of conversions between dtypes: lib/variable/astype.cpp, lib/core/dtype.cpp 44-71 ([common_type]),
    lib/dataset/astype.cpp, and the promotion of coords and bin edges in lib/dataset/histogram.cpp 69-85 and lib/dataset/bins.cpp 350-353.

    Conversions between numbers are those of IEEE 754 (round to nearest, ties to even; overflow to infinity). NaNs have no payload. Binned data is left out. *)
From Flocq Require Import Core BinarySingleNaN.
From Verif Require Import Base Float.

Lemma prec_gt_0_24 : Prec_gt_0 24. Proof. reflexivity. Qed.
Lemma prec_lt_emax_128 : Prec_lt_emax 24 128. Proof. reflexivity. Qed.
#[global] Existing Instance prec_gt_0_24.
#[global] Existing Instance prec_lt_emax_128.
Definition f32 := binary_float 24 128.

Inductive dtype := Double | Float | Int64 | Int32 | Bool | Other (n : nat).
Definition dtype_eqb (a b : dtype) : bool :=
  match a, b with
  | Double, Double | Float, Float | Int64, Int64 | Int32, Int32 | Bool, Bool => true
  | Other n, Other m => Nat.eqb n m
  | _, _ => false
  end.
(** elements; those of other dtypes (strings, vectors, ...) are numbered *)
Inductive value := VDouble (x : f64) | VFloat (x : f32) | VInt64 (z : Z) | VInt32 (z : Z) | VBool (b : bool) | VOther (n : nat) (i : nat).
Definition type_of (v : value) : dtype :=
  match v with VDouble _ => Double | VFloat _ => Float | VInt64 _ => Int64 | VInt32 _ => Int32 | VBool _ => Bool | VOther n _ => Other n end.

(** [static_cast] *)
Section Casts.
Context {p e : Z} {Hp : Prec_gt_0 p} {He : Prec_lt_emax p e}.
Definition from_Z (z : Z) : binary_float p e := binary_normalize p e _ _ mode_NE z 0 false.
Definition to_Z (bits : Z) (x : binary_float p e) : res Z := if is_finite x && in_range bits (Btrunc x) then Ok (Btrunc x) else Ub.
Definition nonzero (x : binary_float p e) : bool := negb (Beqb x (B754_zero false)).
Definition reround {p' e' : Z} (x : binary_float p' e') : binary_float p e :=
  match x with
  | B754_zero s => B754_zero s
  | B754_infinity s => B754_infinity s
  | B754_nan => B754_nan
  | B754_finite s m ex _ => binary_normalize p e _ _ mode_NE (cond_Zopp s (Zpos m)) ex s
  end.
End Casts.
Definition wrap (bits z : Z) : Z := (z + 2 ^ (bits - 1)) mod 2 ^ bits - 2 ^ (bits - 1).
(** astype.cpp 37-56: the source types are all but the target *)
Definition cast (t : dtype) (v : value) : res value :=
  match t, v with
  | Double, VFloat x => Ok (VDouble (reround x))
  | Double, VInt64 z | Double, VInt32 z => Ok (VDouble (from_Z z))
  | Double, VBool b => Ok (VDouble (from_Z (Z.b2z b)))
  | Float, VDouble x => Ok (VFloat (reround x))
  | Float, VInt64 z | Float, VInt32 z => Ok (VFloat (from_Z z))
  | Float, VBool b => Ok (VFloat (from_Z (Z.b2z b)))
  | Int64, VDouble x => do z <- to_Z 64 x; Ok (VInt64 z)
  | Int64, VFloat x => do z <- to_Z 64 x; Ok (VInt64 z)
  | Int64, VInt32 z => Ok (VInt64 z)
  | Int64, VBool b => Ok (VInt64 (Z.b2z b))
  | Int32, VDouble x => do z <- to_Z 32 x; Ok (VInt32 z)
  | Int32, VFloat x => do z <- to_Z 32 x; Ok (VInt32 z)
  | Int32, VInt64 z => Ok (VInt32 (wrap 32 z))
  | Int32, VBool b => Ok (VInt32 (Z.b2z b))
  | Bool, VDouble x => Ok (VBool (nonzero x))
  | Bool, VFloat x => Ok (VBool (nonzero x))
  | Bool, VInt64 z | Bool, VInt32 z => Ok (VBool (negb (z =? 0)))
  | _, _ => Throw TypeError
  end.
Fixpoint casts (t : dtype) (l : list value) : res (list value) :=
  match l with [] => Ok [] | v :: l' => do w <- cast t v; do r <- casts t l'; Ok (w :: r) end.

(** A variable: dtype, unit, the buffer it refers to, elements *)
Record avar := mkavar { a_type : dtype; a_unit : Z; a_buffer : nat; a_values : list value; a_variances : option (list value) }.
(** [core::canHaveVariances] *)
Definition can_have_variances (t : dtype) : bool := match t with Double | Float => true | _ => false end.
(** tag_util.h 15-23 and transform: unsupported dtypes *)
Definition supported (t : dtype) : bool := match t with Other _ => false | _ => true end.
(** astype.cpp 69-73; [fresh]: the buffer of the result if it is a new one *)
Definition astype (fresh : nat) (v : avar) (t : dtype) (try_avoid : bool) : res avar :=
  if dtype_eqb t (a_type v) then Ok (if try_avoid then v else mkavar (a_type v) (a_unit v) fresh (a_values v) (a_variances v)) else
  if negb (supported t) then Throw TypeError else
  if negb (supported (a_type v)) then Throw TypeError else
  match a_variances v with
  | None => do vs <- casts t (a_values v); Ok (mkavar t (a_unit v) fresh vs None)
  | Some e => if can_have_variances t then do vs <- casts t (a_values v); do es <- casts t e; Ok (mkavar t (a_unit v) fresh vs (Some es)) else Throw VariancesError
  end.
(** lib/dataset/astype.cpp 11-19: data, coords and masks; coords and masks are the buffers they refer to, [copies] gives the buffers of copies *)
Record aarray := mkaarray { aa_data : avar; aa_coords : list (Z * nat); aa_masks : list (Z * nat) }.
Definition astype_array (fresh : nat) (copies : nat -> nat) (a : aarray) (t : dtype) (try_avoid : bool) : res aarray :=
  do d <- astype fresh (aa_data a) t try_avoid;
  Ok (mkaarray d (aa_coords a) (if Nat.eqb (a_buffer d) (a_buffer (aa_data a)) then aa_masks a else map (fun m => (fst m, copies (snd m))) (aa_masks a))).

(** dtype.cpp 44-71: the table of [std::common_type_t] over double, float, int64, int32 *)
Definition std_common (a b : dtype) : dtype :=
  match a, b with
  | Double, _ | _, Double => Double
  | Float, _ | _, Float => Float
  | Int64, _ | _, Int64 => Int64
  | _, _ => Int32
  end.
Definition in_lut (t : dtype) : bool := match t with Double | Float | Int64 | Int32 => true | _ => false end.
Definition common_type (a b : dtype) : res dtype :=
  if dtype_eqb a b then Ok a else if negb (in_lut a) then Throw TypeError else if negb (in_lut b) then Throw TypeError else Ok (std_common a b).

(** histogram.cpp 75-79, bins.cpp 351-353: an edge and a coord, converted to their common dtype; then compared ([std::upper_bound] and [<]) *)
Definition convert (t : dtype) (v : value) : res value := if dtype_eqb t (type_of v) then Ok v else cast t v.
Definition promote (e x : value) : res (value * value) :=
  do t <- common_type (type_of e) (type_of x); do x' <- convert t x; do e' <- convert t e; Ok (e', x').
Definition less (a b : value) : res bool :=
  match a, b with
  | VDouble x, VDouble y => Ok (Bltb x y)
  | VFloat x, VFloat y => Ok (Bltb x y)
  | VInt64 x, VInt64 y | VInt32 x, VInt32 y => Ok (x <? y)
  | _, _ => Throw TypeError
  end.
Definition promoted_less (e x : value) : res bool := do p <- promote e x; less (fst p) (snd p).
