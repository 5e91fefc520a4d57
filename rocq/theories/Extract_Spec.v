(** Specification vocabulary for selections. *)
From Verif Require Import Base Bins_Model.

(** The rows with a true condition, in order. *)
Fixpoint selected {A} (cond : list bool) (rows : list A) : list A :=
  match cond, rows with
  | true :: cond', x :: rows' => x :: selected cond' rows'
  | false :: cond', _ :: rows' => selected cond' rows'
  | _, _ => []
  end.
(** Position [p] of a sequence of length [n], counted from the end if it is negative. *)
Definition place (n p : Z) : Z := if p <? 0 then n + p else p.
Definition in_range (n p : Z) : Prop := - n <= p < n.
(** [out] lists the rows at the positions [ps]. *)
Definition picks {A} (rows : list A) (ps : list Z) (out : list A) : Prop :=
  Forall2 (fun p x => 0 <= p /\ nth_error rows (Z.to_nat p) = Some x) ps out.

(** An object with [n] rows along the dimension: every item has [n] rows, or [n + 1] edges, or does not have the dimension
    and is equal to itself (no NaN). *)
Definition column_ok {A} (eqb : A -> A -> bool) (n : Z) (c : column A) : Prop :=
  match c with Events l => zlen l = n \/ zlen l = n + 1 | Fixed x => eqb x x = true end.
Definition object_ok {A} (eqb : A -> A -> bool) (b : buffer A) : Prop :=
  NoDup (map fst (b_items b)) /\ forall k c, In (k, c) (b_items b) -> column_ok eqb (zlen (b_data b)) c.
(** The result of selecting rows by [sel] from every item: bin edges are dropped, items without the dimension are kept. *)
Definition selected_item {A} (sel : list A -> list A -> Prop) (n : Z) (c : column A) (r : option (column A)) : Prop :=
  match c with
  | Events l => if zlen l =? n then exists l', r = Some (Events l') /\ sel l l' else r = None
  | Fixed x => r = Some (Fixed x)
  end.
Definition selected_object {A} (sel : list A -> list A -> Prop) (b out : buffer A) : Prop :=
  sel (b_data b) (b_data out) /\
  (forall k, In k (map fst (b_items out)) -> In k (map fst (b_items b))) /\
  forall k c, In (k, c) (b_items b) -> selected_item sel (zlen (b_data b)) c (item k (b_items out)).
