(** Property theorems about the ordered maps: C02 (map part) and C03. *)
From Verif Require Import Base Map_Model Map_Spec Map_Proofs.

(** C02: every history of map operations of [Sizes]/[Dimensions] behaves, call by call (including the
    exceptions), as an insertion-ordered map; no undefined behaviour. *)
Theorem C02_stable_map_history : forall (os : list (sm_op Z Z)),
  exists m, run (sm_step Z.eqb) mempty os = Ok (m, snd (orun (sm_spec Z.eqb) oempty os)) /\
            shows Z.eqb DimensionError m (fst (orun (sm_spec Z.eqb) oempty os)).
Proof. exact (sm_refines Z.eqb Z.eqb_spec). Qed.
Print Assumptions C02_stable_map_history.

(** The history contains successes, failures, re-insertion and renaming. *)
Example C02_stable_map_history_ex :
  run (sm_step Z.eqb) mempty
    [SmInsertRight 5 2; SmInsertLeft 6 3; SmInsertRight 5 9; SmAssign 5 4; SmReplaceKey 6 7; SmErase 8;
     SmInsertRight 6 1; SmErase 5]
  = Ok (mkmap [7; 6] [3; 1], [None; None; Some DimensionError; None; None; Some DimensionError; None; None]).
Proof. reflexivity. Qed.

(** C03: the dictionary of coords/masks/attrs. [K] is any key type with decidable equality, [V] any
    value type. Besides refinement of all operations, extracting an item returns its value and removes
    nothing else, and [find] yields the key with its own value. *)
Theorem C03_dict_history : forall (K V : Type) (eqb : K -> K -> bool),
  (forall x y, reflect (x = y) (eqb x y)) ->
  forall (os : list (d_op K V)),
  exists m, run (d_step eqb) mempty os = Ok (m, snd (orun (d_spec eqb) oempty os)) /\
            shows eqb NotFoundError m (fst (orun (d_spec eqb) oempty os)) /\
            (forall k, match o_content (fst (orun (d_spec eqb) oempty os)) k with
                       | Some v => exists m', dextract eqb m k = Ok (v, m') /\
                           shows eqb NotFoundError m' (odel eqb (fst (orun (d_spec eqb) oempty os)) k) /\
                           dfind eqb m k = Ok (Some (k, v))
                       | None => dextract eqb m k = Throw NotFoundError /\ dfind eqb m k = Ok None
                       end).
Proof. exact (fun K V eqb H os => @d_refines K V eqb H os). Qed.
Print Assumptions C03_dict_history.

Example C03_dict_history_ex :
  run (d_step Z.eqb) mempty [DSet 1 10; DSet 2 20; DSet 1 11; DErase 3; DSet 3 30; DErase 2; DSet 2 21]
  = Ok (mkmap [1; 3; 2] [11; 30; 21], [None; None; None; Some NotFoundError; None; None; None]).
Proof. reflexivity. Qed.

(** C03: building a dictionary from a list succeeds exactly for distinct keys, and keeps the list. *)
Theorem C03_dict_from_list : forall (K V : Type) (eqb : K -> K -> bool),
  (forall x y, reflect (x = y) (eqb x y)) ->
  forall (l : list (K * V)),
  (NoDup (map fst l) -> exists m, dmake eqb mempty l = Ok m /\ ditems m = l) /\
  (~ NoDup (map fst l) -> dmake eqb mempty l = Throw InvalidArgument).
Proof. exact (fun K V eqb H l => @dmake_iff K V eqb H l). Qed.
Print Assumptions C03_dict_from_list.

Example C03_dict_from_list_ex :
  dmake Z.eqb mempty [(4, 1); (2, 5)] = Ok (mkmap [4; 2] [1; 5]) /\
  dmake Z.eqb mempty [(4, 1); (4, 5)] = Throw InvalidArgument.
Proof. split; reflexivity. Qed.
