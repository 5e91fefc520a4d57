(** Properties of the combination of coords by binary operations (C30). *)
From Flocq Require Import BinarySingleNaN.
From Verif Require Import Base Map_Model Dims_Model Dims_Spec Dims_Proofs Index_Model View_Model View_Spec View_Proofs Float
  SizedDict_Model SizedDict_Spec SizedDict_Proofs Equality_Model Equality_Spec Equality_Proofs Equality_Props Union_Model Union_Spec Union_Proofs.

(** C30. Coords of the result: the operation is refused exactly if a coord is aligned in both operands with different
    values; otherwise the result has every aligned coord of either operand, and of the unaligned ones exactly those on
    which both operands agree. *)
Theorem C30_union : forall st a b, dict_comparable a -> dict_comparable b ->
  (mismatch st a b -> union_ st a b = Throw CoordMismatchError) /\
  (~ mismatch st a b -> exists l, union_ st a b = Ok (mkd l) /\ NoDup (map fst l) /\
     forall k it, In (k, it) l <-> united st (sd_list a) (sd_list b) k it).
Proof. exact union_ok. Qed.
Print Assumptions C30_union.

(** C30. The order of the operands does not matter: both orders are refused, or both give the same coords. *)
Theorem C30_order : forall st a b, dict_comparable a -> dict_comparable b ->
  (union_ st a b = Throw CoordMismatchError /\ union_ st b a = Throw CoordMismatchError) \/
  exists l l', union_ st a b = Ok (mkd l) /\ union_ st b a = Ok (mkd l') /\
    (forall k, In k (map fst l) <-> In k (map fst l')) /\
    forall k i j, In (k, i) l -> In (k, j) l' -> var_same true st i j /\ i_aligned i = i_aligned j.
Proof.
  intros st a b Ha Hb. destruct (union_ok st a b Ha Hb) as [H1 H2]. destruct (union_ok st b a Hb Ha) as [H3 H4].
  destruct (mismatch_dec st a b Ha Hb) as [Hm|Hm]; [left; auto using mismatch_sym|]. right.
  assert (Hm' : ~ mismatch st b a) by (intros Hc; apply Hm, mismatch_sym, Hc).
  destruct (H2 Hm) as (l & E & Hn & Hl). destruct (H4 Hm') as (l' & E' & Hn' & Hl'). exists l, l'.
  split; [exact E|]. split; [exact E'|]. split.
  - intros k. rewrite !in_keys_ex. split; intros [i Hi].
    + apply Hl in Hi. apply united_swap in Hi as (i' & Hi' & _); try assumption. exists i'. apply Hl'. exact Hi'.
    + apply Hl' in Hi. apply united_swap in Hi as (i' & Hi' & _); try assumption. exists i'. apply Hl. exact Hi'.
  - intros k i j Hi Hj. apply Hl in Hi. apply united_swap in Hi as (i' & Hi' & Hs); try assumption.
    apply Hl' in Hi'. rewrite (list_unique _ _ _ _ Hn' Hj Hi'). exact Hs.
Qed.
Print Assumptions C30_order.

(** C30. Attributes of the result: those on which both operands agree. *)
Theorem C30_attrs : forall st a b, dict_comparable a -> dict_comparable b ->
  exists l, intersection st a b = Ok (mkd l) /\ NoDup (map fst l) /\
    forall k it, In (k, it) l <-> common st (sd_list a) (sd_list b) k it.
Proof. exact intersection_ok. Qed.
Print Assumptions C30_attrs.

(** C30. The whole operation: possible exactly if nothing mismatches and all coords fit the shape of the result; what the
    result holds; and the same for the operands in the other order. *)
Theorem C30_operation : forall st a b, da_ok a -> da_ok b -> da_comparable a -> da_comparable b ->
  (acceptable st a b -> exists dims c t, binary_meta st a b = Ok (dims, c, t) /\ sd_ok c /\ sd_ok t /\
     sd_sizes c = dims /\ sd_sizes t = dims /\ merged a b (pairs dims) /\
     (forall k it, In (k, it) (sd_list c) <-> united st (sd_list (da_coords a)) (sd_list (da_coords b)) k it) /\
     (forall k it, In (k, it) (sd_list t) <-> common st (sd_list (da_attrs a)) (sd_list (da_attrs b)) k it)) /\
  (~ acceptable st a b -> binary_meta st a b = Throw CoordMismatchError \/ binary_meta st a b = Throw DimensionError) /\
  (acceptable st a b <-> acceptable st b a).
Proof.
  intros st a b Oa Ob Ca Cb. destruct (binary_meta_ok st a b Oa Ob Ca Cb) as [H1 H2]. split; [exact H1|]. split; [exact H2|].
  split; apply acceptable_sym; assumption.
Qed.
Print Assumptions C30_operation.

(** C30, in-place operations: refused exactly unless every aligned coord of the second operand exists in the first and is
    equal to it if aligned there. *)
Theorem C30_in_place : forall st a b, dict_comparable a -> dict_comparable b ->
  (superset st a b -> coords_are_superset st a b = Ok tt) /\
  (~ superset st a b -> coords_are_superset st a b = Throw CoordMismatchError).
Proof. intros st a b Ha (_ & _ & Hb). exact (superset_ok st a (sd_list b) Ha Hb). Qed.
Print Assumptions C30_in_place.

(** ** Concrete cases *)
Definition st_u : store := fun o =>
  mkbuf 7 0 (fun p => if (o =? 9) && (p =? 2) then EFlt B754_nan else EFlt (f_of_Z (p + o / 2))) None.
Definition u_item (o : Z) (al : bool) : item := mkitem o (mkvar d_xy [2; 1] 0 false 4) al false.
Definition u_dict (l : list (Z * item)) : sdict := mksd d_xy (mkd l) false.
Definition u_da (l t : list (Z * item)) : darray := mkda (u_item 0 true) (u_dict l) (u_dict []) (u_dict t) false.
Lemma u_item_ok o al : item_ok (u_item o al) /\ comparable (u_item o al) /\ fits (pairs d_xy) (ishape (u_item o al)).
Proof.
  split; [split; [repeat constructor; cbn; intuition (discriminate || lia)|reflexivity]|].
  split; [split; [repeat constructor; cbn; intuition (discriminate || lia)|cbn; unfold NDIM_OP_MAX; lia]|]. left. auto.
Qed.
Lemma u_dict_ok l : NoDup (map fst l) -> Forall (fun e => exists o al, snd e = u_item o al) l ->
  sd_ok (u_dict l) /\ dict_comparable (u_dict l).
Proof.
  intros Hn Hf. rewrite Forall_forall in Hf.
  assert (Hi : forall k it, In (k, it) l -> exists o al, it = u_item o al) by (intros k it Hi; exact (Hf _ Hi)).
  split.
  - apply sd_ok_mk; [repeat constructor; cbn; intuition (discriminate || lia)|exact Hn|].
    intros k it Hk. destruct (Hi k it Hk) as (o & al & ->). pose proof (u_item_ok o al). tauto.
  - split; [exact Hn|]. split; [cbn; rewrite !map_length; reflexivity|]. unfold u_dict. rewrite sd_list_mk.
    intros k it Hk. destruct (Hi k it Hk) as (o & al & ->). apply u_item_ok.
Qed.
Ltac u_dict_tac := apply u_dict_ok; [repeat constructor; cbn; intuition discriminate|repeat constructor; cbn; eauto].

(** Buffers 2n and 2n+1 have equal values. Key 1 is aligned in both, 2 only in the first, 3 aligned only in the second,
    4 and 5 are unaligned in both and equal or not, 6 and 7 unaligned in one operand only, 8 aligned in the second only. *)
Definition u_a : darray := u_da [(1, u_item 2 true); (2, u_item 4 true); (3, u_item 4 false); (4, u_item 2 false); (5, u_item 2 false); (6, u_item 2 false)]
                                [(1, u_item 2 true); (2, u_item 4 true)].
Definition u_b : darray := u_da [(8, u_item 4 true); (3, u_item 2 true); (1, u_item 3 true); (4, u_item 3 false); (5, u_item 4 false); (7, u_item 2 false)]
                                [(2, u_item 2 true); (1, u_item 3 true)].
Example C30_case : da_ok u_a /\ da_ok u_b /\ da_comparable u_a /\ da_comparable u_b /\
  (do r <- binary_meta st_u u_a u_b; Ok (map (fun e => (fst e, i_obj (snd e), i_aligned (snd e))) (sd_list (snd (fst r))), map fst (sd_list (snd r)))) =
    Ok ([(1, 2, true); (2, 4, true); (8, 4, true); (3, 2, true); (4, 3, false)], [1]) /\
  (do r <- binary_meta st_u u_b u_a; Ok (map (fun e => (fst e, i_obj (snd e), i_aligned (snd e))) (sd_list (snd (fst r))), map fst (sd_list (snd r)))) =
    Ok ([(8, 4, true); (3, 2, true); (1, 3, true); (2, 4, true); (4, 2, false)], [1]) /\
  coords_are_superset st_u (da_coords u_a) (da_coords u_b) = Throw CoordMismatchError.
Proof.
  assert (Hda : forall l t, sd_ok (u_dict l) /\ dict_comparable (u_dict l) -> sd_ok (u_dict t) /\ dict_comparable (u_dict t) ->
            da_ok (u_da l t) /\ da_comparable (u_da l t)).
  { intros l t [H1 H2] [H3 H4]. assert (H5 : sd_ok (u_dict []) /\ dict_comparable (u_dict [])) by u_dict_tac.
    pose proof (u_item_ok 0 true) as (H6 & H7 & _). split.
    - split; [apply H6|]. repeat (split; [reflexivity|]). split; [assumption|]. split; [apply H5|assumption].
    - split; [assumption|]. split; [assumption|]. split; [apply H5|assumption]. }
  destruct (Hda [(1, u_item 2 true); (2, u_item 4 true); (3, u_item 4 false); (4, u_item 2 false); (5, u_item 2 false); (6, u_item 2 false)]
                [(1, u_item 2 true); (2, u_item 4 true)]) as [A1 A2]; [u_dict_tac..|].
  destruct (Hda [(8, u_item 4 true); (3, u_item 2 true); (1, u_item 3 true); (4, u_item 3 false); (5, u_item 4 false); (7, u_item 2 false)]
                [(2, u_item 2 true); (1, u_item 3 true)]) as [B1 B2]; [u_dict_tac..|].
  split; [exact A1|]. split; [exact B1|]. split; [exact A2|]. split; [exact B2|]. vm_compute. auto.
Qed.
Example C30_case_mismatch : let a := u_dict [(1, u_item 2 true)] in let b := u_dict [(1, u_item 4 true)] in
  dict_comparable a /\ dict_comparable b /\ union_ st_u a b = Throw CoordMismatchError /\ coords_are_superset st_u a b = Throw CoordMismatchError.
Proof.
  intros a b. split; [refine (proj2 (_ : sd_ok a /\ dict_comparable a)); u_dict_tac|].
  split; [refine (proj2 (_ : sd_ok b /\ dict_comparable b)); u_dict_tac|]. vm_compute. auto.
Qed.
Example C30_case_in_place : let a := u_dict [(1, u_item 2 true); (3, u_item 4 false)] in let b := u_dict [(3, u_item 2 true); (1, u_item 3 true); (7, u_item 2 false)] in
  dict_comparable a /\ dict_comparable b /\ coords_are_superset st_u a b = Ok tt /\ coords_are_superset st_u b a = Ok tt.
Proof.
  intros a b. split; [refine (proj2 (_ : sd_ok a /\ dict_comparable a)); u_dict_tac|].
  split; [refine (proj2 (_ : sd_ok b /\ dict_comparable b)); u_dict_tac|]. vm_compute. auto.
Qed.

(** In-place and normal operations disagree about coords with NaN: [a + a] is accepted, [a += a] is not. *)
Theorem C30_in_place_nan_refuted : exists st a, sd_ok a /\ dict_comparable a /\
  union_ st a a = Ok (sd_items a) /\ coords_are_superset st a a = Throw CoordMismatchError.
Proof.
  exists st_u, (u_dict [(1, u_item 9 true)]).
  assert (Hd : sd_ok (u_dict [(1, u_item 9 true)]) /\ dict_comparable (u_dict [(1, u_item 9 true)])) by u_dict_tac.
  split; [apply Hd|]. split; [apply Hd|]. vm_compute. auto.
Qed.
Print Assumptions C30_in_place_nan_refuted.
