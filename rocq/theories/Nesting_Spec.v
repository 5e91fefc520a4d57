(** What reference cycles are. *)
From Coq Require Import Relations.
From Verif Require Import Base Nesting_Model.

(** The variables held by the elements of a buffer. *)
Definition elements (ob : object) : list (list handle) :=
  match ob with Plain => [] | Vars l => map (fun r => [r]) l | Arrays l => l | Sets l => l | Bins b => [[b]] end.
Definition holds (h : heap) (e : nat * nat) (r : handle) : Prop :=
  exists ob s, nth_error h (fst e) = Some ob /\ nth_error (elements ob) (snd e) = Some s /\ In r s.
(** The buffer [o] keeps the buffer [o'] alive. *)
Definition owns (h : heap) (o o' : nat) : Prop := exists i r, holds h (o, i) r /\ h_obj r = o'.
Definition no_cycle (h : heap) : Prop := forall o, ~ clos_trans _ (owns h) o o.
(** An element sees another one. *)
Definition sees_from (r : handle) (e : nat * nat) : Prop := fst e = h_obj r /\ In (snd e) (h_vis r).
Definition sees (h : heap) (e e' : nat * nat) : Prop := exists r, holds h e r /\ sees_from r e'.
(** The same along elements that are variables, and along elements that are data arrays or datasets. *)
Definition is_vars (ob : object) : bool := match ob with Vars _ => true | _ => false end.
Definition is_sets (ob : object) : bool := match ob with Arrays _ | Sets _ => true | _ => false end.
Definition sort (p : object -> bool) (h : heap) (e : nat * nat) : Prop := exists ob, nth_error h (fst e) = Some ob /\ p ob = true.
Definition sees_sort (p : object -> bool) (h : heap) (e e' : nat * nat) : Prop := sort p h e' /\ sees h e e'.
(** [L] can be reached from the variables [rs]. *)
Definition reaches (p : object -> bool) (h : heap) (rs : list handle) (L : nat * nat) : Prop :=
  exists r e, In r rs /\ sees_from r e /\ sort p h e /\ clos_refl_trans _ (sees_sort p h) e L.

(** Views refer to existing elements; a view is whole if it sees all of them. *)
Definition valid (h : heap) (r : handle) : Prop := exists ob, nth_error h (h_obj r) = Some ob /\ (ob <> Plain -> forall j, In j (h_vis r) -> (j < length (elements ob))%nat).
Definition whole (h : heap) (r : handle) : Prop := forall ob j, nth_error h (h_obj r) = Some ob -> (j < length (elements ob))%nat -> In j (h_vis r).
(** Histories: new buffers (with the content of existing variables), and assignments to elements. *)
Inductive step (h : heap) : heap -> Prop :=
| Step_new ob : (forall s r, In s (elements ob) -> In r s -> valid h r) -> step h (h ++ [ob])
| Step_var n o i r h' : valid h r -> assign_var n h o i r = Ok h' -> step h h'
| Step_array n o i rs h' : (forall r, In r rs -> valid h r) -> assign_array n h o i rs = Ok h' -> step h h'
| Step_set n o i rs h' : (forall r, In r rs -> valid h r) -> assign_set n h o i rs = Ok h' -> step h h'.
Definition history : heap -> Prop := clos_refl_trans _ step [].
