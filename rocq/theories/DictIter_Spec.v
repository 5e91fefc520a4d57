(** Specification for iterators of dicts: what a user of the dict sees, without addresses. *)
From Verif Require Import Base DictIter_Model.

Section Spec.
Context {K V : Type}.

(** The keys and values of dict [i], in order. *)
Definition keys_of (w : world K V) (i : nat) : list K :=
  match nth_error (w_dicts w) i with Some d => v_elems (d_keys d) | None => [] end.
Definition values_of (w : world K V) (i : nat) : list V :=
  match nth_error (w_dicts w) i with Some d => v_elems (d_values d) | None => [] end.

(** The item at position [p] of dict [i] is [kv]. *)
Definition item_at (w : world K V) (i : nat) (p : nat) (kv : K * V) : Prop :=
  nth_error (keys_of w i) p = Some (fst kv) /\ nth_error (values_of w i) p = Some (snd kv).

(** The allocator never hands out an address a second time (nor the null pointer). *)
Definition no_reuse (alloc : Z -> Z) : Prop :=
  (forall n, 0 <= n -> alloc n <> 0) /\
  (forall n m, 0 <= n -> 0 <= m -> alloc n = alloc m -> n = m).

Definition grows (grow : Z -> Z) : Prop := forall n, 0 <= n -> n < grow n.

(** The start: any number of empty dicts. *)
Definition start (n : nat) : world K V := mkworld (repeat dnull n) 0.

(** Memory that is in use: the storage of all vectors (first address, capacity). *)
Definition blocks (w : world K V) : list (Z * Z) :=
  flat_map (fun d => [(v_base (d_keys d), v_cap (d_keys d)); (v_base (d_values d), v_cap (d_values d))])
           (w_dicts w).

Definition apart (a b : Z * Z) : bool :=
  (snd a =? 0) || (snd b =? 0) || (fst a + snd a <=? fst b) || (fst b + snd b <=? fst a).

(** The allocator behaves on the step from [w] to [w']: new storage overlaps neither storage in use
    before the step, nor other storage in use after it. *)
Definition fresh_blocks (w w' : world K V) : bool :=
  forallb (fun b => existsb (fun a => (fst a =? fst b) && (snd a =? snd b)) (blocks w)
                    || forallb (apart b) (blocks w)) (blocks w') &&
  (fix go l := match l with [] => true | a :: l' => forallb (apart a) l' && go l' end) (blocks w').
End Spec.
