(** Properties of the structure of datasets (C32). *)
From Coq Require Import Sorting.Sorted.
From Flocq Require Import BinarySingleNaN.
From Verif Require Import Base Map_Model Map_Proofs Dims_Model Dims_Spec Dims_Proofs Index_Model View_Model View_Spec View_Proofs Float
  SizedDict_Model SizedDict_Spec SizedDict_Proofs Equality_Model Equality_Spec Equality_Proofs Equality_Props Union_Model Union_Spec Union_Proofs
  Dataset_Model Dataset_Spec Dataset_Proofs.

(** C32. One call: it succeeds and leaves a consistent dataset, or throws and leaves the dataset as it was; nothing else
    happens. *)
Theorem C32_step : forall st d o, ds_ok d -> ds_allowed d o ->
  (snd (ds_step st d o) = Ok tt /\ ds_ok (fst (ds_step st d o))) \/
  (exists e, snd (ds_step st d o) = Throw e /\ fst (ds_step st d o) = d).
Proof.
  intros st d o Hd Ho. pose proof (step_ok st d o Hd Ho) as Hk. unfold kept in Hk. destruct (snd (ds_step st d o)) as [[]|e|]; [left; auto|right; eauto|contradiction].
Qed.
Print Assumptions C32_step.

(** C32. After any history of calls, failed ones included, on a new dataset: every item has the dimensions of the dataset,
    can be accessed, and comes with every coord of the dataset that has no other dimensions, with its alignment. *)
Theorem C32_history : forall d, ds_reachable ds_default d -> ds_ok d /\
  forall k a, In (k, a) (ds_list d) -> same_shape (da_shape a) (ds_shape d) /\
    exists w, ds_item d k = Ok w /\ seen d k w /\
      forall c it, In (c, it) (sd_list (ds_coords d)) -> within (ds_shape d) it = true ->
        exists it', In (c, it') (sd_list (da_coords w)) /\ i_obj it' = i_obj it /\ i_aligned it' = i_aligned it /\
          ishape it' = ishape it /\ forall ix, vaddr (i_var it') ix = vaddr (i_var it) ix.
Proof.
  intros d Hr. assert (Hd : ds_ok d).
  { induction Hr as [|st d o _ IH Ho].
    - apply (ds_ok_mk (mksd (mk []) (mkd []) false) [] false false); [apply (sd_ok_mk (mk []) [] false); [apply mk_wf; split; [constructor|split; [constructor|intros []]]|constructor|intros ? ? []]|apply (dict_comp (mk []) [] false); [constructor|intros ? ? []]|constructor|intros ? ? []|reflexivity|auto].
    - destruct (C32_step st d o IH Ho) as [[_ Hk]|(e & _ & ->)]; assumption. }
  split; [exact Hd|]. intros k a Hi. pose proof Hd as (_ & _ & _ & _ & Hf & _). destruct (Hf k a Hi) as (_ & _ & _ & Hs). split; [exact Hs|].
  destruct (seen_ok d k a Hd Hi) as (w & Ew & Hw & _ & E1 & E2 & E3 & E4 & _). exists w. split; [exact Ew|]. split; [apply (seen_iff d k w Hd Ew)|].
  intros c it Hc Hwi. exists (with_var it (var_as_const (i_var it))). rewrite E4. split.
  - apply in_map_iff. exists (c, it). split; [reflexivity|]. apply filter_In. auto.
  - repeat split.
Qed.
Print Assumptions C32_history.

(** C32. Accessing an item: its data, masks and attributes with the coords of the dataset; unknown names are refused. *)
Theorem C32_item : forall d k, ds_ok d ->
  ((exists a, In (k, a) (ds_list d)) -> exists w, ds_item d k = Ok w /\ seen d k w) /\
  ((~ exists a, In (k, a) (ds_list d)) -> ds_item d k = Throw NotFoundError).
Proof.
  intros d k Hd. split.
  - intros [a Hi]. destruct (seen_ok d k a Hd Hi) as (w & Ew & _). exists w. split; [exact Ew|apply (seen_iff d k w Hd Ew)].
  - intros Hn. destruct (ds_items d Hd) as [Ed _]. unfold ds_item. rewrite Ed, at_no; [reflexivity|]. intros Hk. apply Hn, in_keys_ex, Hk.
Qed.
Print Assumptions C32_item.

(** C32. Inserting a data array: all five outcomes. *)
Theorem C32_set_data : forall st d k a, ds_ok d -> da_ok a -> da_comparable a ->
  (identical st d k a -> ds_set_da st d k a = (d, Ok tt)) /\
  (~ identical st d k a -> clash st d a -> ds_set_da st d k a = (d, Throw CoordMismatchError)) /\
  (~ identical st d k a -> ~ clash st d a -> ds_readonly d = true \/ ds_valid d = false -> ds_set_da st d k a = (d, Throw DatasetError)) /\
  (~ identical st d k a -> ~ clash st d a -> ds_readonly d = false -> ds_valid d = true -> ~ same_shape (da_shape a) (ds_shape d) ->
     ds_set_da st d k a = (d, Throw DimensionError)) /\
  (~ identical st d k a -> ~ clash st d a -> ds_readonly d = false -> ds_valid d = true -> same_shape (da_shape a) (ds_shape d) ->
     exists d' b, ds_set_da st d k a = (d', Ok tt) /\ ds_ok d' /\ ds_readonly d' = false /\ ds_valid d' = true /\ ds_sizes d' = ds_sizes d /\
       put_item (ds_list d) k b (ds_list d') /\ bare a b /\
       sd_list (ds_coords d') = sd_list (ds_coords d) ++ missing (sd_list (ds_coords d)) (sd_list (da_coords a))).
Proof. exact set_da_ok. Qed.
Print Assumptions C32_set_data.

(** C32. Inserting or replacing the data only; masks and attributes are kept on request. *)
Theorem C32_set_variable : forall keep d k v, ds_ok d -> comparable v ->
  (ds_readonly d = true \/ ds_valid d = false -> ds_set_var keep d k v = Throw DatasetError) /\
  (ds_readonly d = false -> ds_valid d = true -> ~ same_shape (ishape v) (ds_shape d) -> ds_set_var keep d k v = Throw DimensionError) /\
  (ds_readonly d = false -> ds_valid d = true -> same_shape (ishape v) (ds_shape d) ->
   exists d' a, ds_set_var keep d k v = Ok d' /\ ds_ok d' /\ ds_coords d' = ds_coords d /\ put_item (ds_list d) k a (ds_list d') /\ da_data a = v /\
     (forall old, keep = true -> In (k, old) (ds_list d) -> sd_list (da_masks a) = sd_list (da_masks old) /\ sd_list (da_attrs a) = sd_list (da_attrs old)) /\
     (keep = false \/ ~ In k (map fst (ds_list d)) -> sd_list (da_masks a) = [] /\ sd_list (da_attrs a) = [])).
Proof.
  intros keep d k v Hd Hv. destruct (set_var_ok keep d k v Hd Hv) as (H1 & H2 & H3). split; [exact H1|]. split; [exact H2|].
  intros Er Ev Hs. destruct (H3 Er Ev Hs) as (l' & a & -> & Hp & Hok & Ea & F1 & F2 & F3). exists (mkds (ds_coords d) (mkd l') false true), a.
  rewrite ds_list_mk. do 5 (split; [assumption || reflexivity|]). split; [exact F2|].
  intros Hx. assert (Hpl : a = da_plain v).
  { destruct keep; [|apply F1; reflexivity]. destruct Hx as [Hx|Hx]; [discriminate|]. apply F3; [reflexivity|exact Hx]. }
  subst a. split; reflexivity.
Qed.
Print Assumptions C32_set_variable.

(** C32. Slicing: refused exactly for a slice out of range and for strides in the presence of bin edges along the dimension;
    otherwise coords and items are sliced. *)
Theorem C32_slice : forall st d s, ds_ok d -> slice_ok s -> slice_eqb s slice_default = false ->
  match slice_dims (ds_shape d) s with
  | None => ds_slice st d s = Throw SliceError
  | Some p' =>
    (any_edges d (s_dim s) -> s_stride s <> 1 -> ds_slice st d s = Throw SliceError) /\
    ((any_edges d (s_dim s) -> s_stride s = 1) ->
     exists d', ds_slice st d s = Ok d' /\ ds_ok d' /\ ds_shape d' = p' /\ ds_readonly d' = true /\ ds_valid d' = true /\
       coords_sliced (ds_shape d) s (sd_list (ds_coords d)) (sd_list (ds_coords d')) /\ data_sliced s (ds_list d) (ds_list d'))
  end.
Proof. exact ds_slice_ok. Qed.
Print Assumptions C32_slice.

(** C32. Renaming dimensions: refused exactly for unknown or used names; otherwise coords and items are renamed. *)
Theorem C32_rename : forall st d names, ds_ok d -> ~ In InvalidDim (map snd names) ->
  (rename_pairs (ds_shape d) names true = None \/ name_taken names (ds_shape d) (sd_list (ds_coords d)) \/ taken_any names (ds_list d) ->
   ds_rename st d names = Throw DimensionError) /\
  (forall p', rename_pairs (ds_shape d) names true = Some p' -> ~ name_taken names (ds_shape d) (sd_list (ds_coords d)) -> ~ taken_any names (ds_list d) ->
   exists d', ds_rename st d names = Ok d' /\ ds_ok d' /\ ds_shape d' = p' /\ ds_readonly d' = false /\ ds_valid d' = true /\
     dict_renamed names (sd_list (ds_coords d)) (sd_list (ds_coords d')) /\ data_renamed names (ds_list d) (ds_list d')).
Proof. exact ds_rename_ok. Qed.
Print Assumptions C32_rename.

(** C32. Merging: refused if items with the same name differ, or aligned coords; a result is consistent, has the items of both
    datasets, sorted by name, and at least the coords of the union. *)
Theorem C32_merge : forall st a b, ds_ok a -> ds_ok b ->
  (items_differ st a b -> ds_merge st a b = Throw DataArrayError) /\
  (~ items_differ st a b -> mismatch st (ds_coords a) (ds_coords b) -> ds_merge st a b = Throw CoordMismatchError) /\
  match ds_merge st a b with
  | Ok d => ds_ok d /\ ds_readonly d = false /\ ds_valid d = true /\
      (forall k it, united st (sd_list (ds_coords a)) (sd_list (ds_coords b)) k it -> In (k, it) (sd_list (ds_coords d))) /\
      StronglySorted Z.lt (map fst (ds_list d)) /\ (forall k, In k (map fst (ds_list d)) <-> In k (map fst (ds_list a)) \/ In k (map fst (ds_list b))) /\
      forall k x, In (k, x) (ds_list d) -> merged_item a b k x
  | Throw _ => True
  | Ub => False
  end.
Proof. exact ds_merge_ok. Qed.
Print Assumptions C32_merge.

(** ** Concrete cases *)
Notation dX := 10 (only parsing).
Notation dY := 11 (only parsing).
(** Buffers 2n and 2n+1 have equal values. *)
Definition st_d : store := fun o => mkbuf 7 0 (fun p => EFlt (f_of_Z (p + o / 2))) None.
Definition line (d o n : Z) (al : bool) : item := mkitem o (mkvar (mk [(d, n)]) [1] 0 false n) al false.
Definition xdict (n : Z) (l : list (Z * item)) : sdict := mksd (mk [(dX, n)]) (mkd l) false.
Definition xda (o n : Z) (c m : list (Z * item)) : darray := mkda (line dX o n true) (xdict n c) (xdict n m) (xdict n []) false.
Lemma line_ok d o n al : d <> InvalidDim -> 0 <= n -> item_ok (line d o n al) /\ comparable (line d o n al).
Proof.
  intros Hd Hn. assert (Hw : wfv (i_var (line d o n al))).
  { split; [apply mk_wf|split; [reflexivity|repeat constructor; lia]]. split; [repeat constructor; intros []|]. split; [repeat constructor; exact Hn|]. intros [E|[]]. exact (Hd E). }
  split; [split; [exact Hw|reflexivity]|]. split; [exact Hw|]. cbn. unfold NDIM_OP_MAX. lia.
Qed.
(** Coords and masks of length n or, as bin edges, n + 1; or with another dimension of length 2. *)
Definition xitem (n : Z) (it : item) : Prop := exists o al, it = line dX o n al \/ it = line dX o (n + 1) al \/ it = line dY o 2 al.
Lemma xitem_ok n it : 0 <= n -> xitem n it -> item_ok it /\ comparable it /\ fits [(dX, n)] (ishape it).
Proof.
  intros Hn (o & al & [->|[->| ->]]); (split; [apply line_ok; [discriminate|lia]|]); (split; [apply line_ok; [discriminate|lia]|]).
  - left. cbn. auto.
  - right. exists dX, (n + 1). split; [left; reflexivity|]. split; [|left; left; f_equal; lia]. intros k m [[= <- <-]|[]] Hne. contradiction.
  - right. exists dY, 2. split; [left; reflexivity|]. split; [|right; split; [|reflexivity]].
    + intros k m [[= <- <-]|[]] Hne. contradiction.
    + intros [E|[]]. discriminate.
Qed.
Lemma xdict_ok n l : 0 <= n -> NoDup (map fst l) -> Forall (fun e => xitem n (snd e)) l -> sd_ok (xdict n l) /\ dict_comparable (xdict n l).
Proof.
  intros Hn Hd Hf. rewrite Forall_forall in Hf. assert (Hi : forall k it, In (k, it) l -> xitem n it) by (intros k it Hi; exact (Hf _ Hi)). split.
  - apply sd_ok_mk; [apply mk_wf; split; [repeat constructor; intros []|split; [repeat constructor; exact Hn|intros [E|[]]; discriminate]]|exact Hd|].
    intros k it Hk. rewrite pairs_mk. destruct (xitem_ok n it Hn (Hi k it Hk)) as (A1 & A2 & A3). auto.
  - apply dict_comp; [exact Hd|]. intros k it Hk. apply (xitem_ok n it Hn (Hi k it Hk)).
Qed.
Lemma xda_ok o n c m : 0 <= n -> NoDup (map fst c) -> NoDup (map fst m) -> Forall (fun e => xitem n (snd e)) c -> Forall (fun e => xitem n (snd e)) m ->
  da_ok (xda o n c m) /\ da_comparable (xda o n c m).
Proof.
  intros Hn H1 H2 H3 H4. destruct (xdict_ok n c Hn H1 H3) as [C1 C2]. destruct (xdict_ok n m Hn H2 H4) as [M1 M2].
  destruct (xdict_ok n [] Hn (NoDup_nil _) (Forall_nil _)) as [E1 E2]. destruct (line_ok dX o n true) as [L1 L2]; [discriminate|exact Hn|].
  split; [split; [apply L1|]; repeat (split; [reflexivity|]); auto|]. split; [exact L2|]. auto.
Qed.
Ltac xnd := cbn; repeat (constructor; [cbn; intuition discriminate|]); constructor.
Ltac xit := repeat (constructor; [cbn; unfold xitem; eauto 6|]); constructor.
Ltac xda_tac := apply xda_ok; [lia|xnd|xnd|xit|xit].

(** A dataset with two items, made with calls of which one fails. *)
Definition da_a : darray := xda 20 3 [(1, line dX 2 4 true); (2, line dX 4 3 false)] [(1, line dX 30 3 true)].
Definition da_b : darray := xda 22 3 [(1, line dX 3 4 true); (3, line dX 6 3 true)] [].
Definition da_bad : darray := xda 24 3 [(1, line dX 8 4 true)] [].
Definition ds_1 : dset := fst (ds_step st_d ds_default (DsSetDaInit 1 da_a)).
Definition ds_2 : dset := fst (ds_step st_d ds_1 (DsSetDa 3 da_bad)).
Definition ds_3 : dset := fst (ds_step st_d ds_2 (DsSetDa 2 da_b)).
Definition overview (d : dset) := (map (fun e => (fst e, i_obj (snd e), ishape (snd e), i_aligned (snd e))) (sd_list (ds_coords d)),
  map (fun e => (fst e, i_obj (da_data (snd e)), da_shape (snd e), map fst (sd_list (da_masks (snd e))))) (ds_list d)).
Lemma ds_3_reachable : ds_reachable ds_default ds_3.
Proof.
  unfold ds_3, ds_2, ds_1. assert (A1 : da_ok da_a /\ da_comparable da_a) by xda_tac. assert (A2 : da_ok da_bad /\ da_comparable da_bad) by xda_tac.
  assert (A3 : da_ok da_b /\ da_comparable da_b) by xda_tac.
  constructor; [|exact A3]. constructor; [|exact A2]. constructor; [|exact A1]. constructor.
Qed.
Lemma ds_3_ok : ds_ok ds_3.
Proof. apply C32_history, ds_3_reachable. Qed.
Example C32_history_ex : ds_reachable ds_default ds_3 /\ snd (ds_step st_d ds_1 (DsSetDa 3 da_bad)) = Throw CoordMismatchError /\ ds_2 = ds_1 /\
  overview ds_3 = ([(1, 2, [(dX, 4)], true); (2, 4, [(dX, 3)], false); (3, 6, [(dX, 3)], true)], [(1, 20, [(dX, 3)], [1]); (2, 22, [(dX, 3)], [])]) /\
  (do w <- ds_item ds_3 2; Ok (map (fun e => (fst e, i_obj (snd e))) (sd_list (da_coords w)))) = Ok [(1, 2); (2, 4); (3, 6)].
Proof. split; [exact ds_3_reachable|]. vm_compute. auto. Qed.
Example C32_set_data_ex : ds_ok ds_3 /\
  (let '(d, r) := ds_set_da st_d ds_3 5 da_a in (overview d, r)) =
    (([(1, 2, [(dX, 4)], true); (2, 4, [(dX, 3)], false); (3, 6, [(dX, 3)], true)], [(1, 20, [(dX, 3)], [1]); (2, 22, [(dX, 3)], []); (5, 20, [(dX, 3)], [1])]), Ok tt) /\
  snd (ds_set_da st_d ds_3 5 da_bad) = Throw CoordMismatchError /\ snd (ds_set_da st_d ds_3 5 (xda 20 4 [] [])) = Throw DimensionError.
Proof. split; [exact ds_3_ok|]. vm_compute. auto. Qed.
Example C32_slice_ex : ds_ok ds_3 /\
  (do d <- ds_slice st_d ds_3 (mkslice dX 1 3 1); Ok (overview d)) =
    Ok ([(1, 2, [(dX, 3)], true); (2, 4, [(dX, 2)], false); (3, 6, [(dX, 2)], true)], [(1, 20, [(dX, 2)], [1]); (2, 22, [(dX, 2)], [])]) /\
  (do d <- ds_slice st_d ds_3 (mkslice dX 1 (-1) 1); Ok (overview d)) =
    Ok ([(1, 2, [(dX, 2)], false); (2, 4, [], false); (3, 6, [], false)], [(1, 20, [], [1]); (2, 22, [], [])]) /\
  ds_slice st_d ds_3 (mkslice dX 0 3 2) = Throw SliceError /\ ds_slice st_d ds_3 (mkslice dX 1 4 1) = Throw SliceError.
Proof. split; [exact ds_3_ok|]. vm_compute. auto. Qed.
Example C32_rename_ex : ds_ok ds_3 /\
  (do d <- ds_rename st_d ds_3 [(dX, 12)]; Ok (overview d)) =
    Ok ([(1, 2, [(12, 4)], true); (2, 4, [(12, 3)], false); (3, 6, [(12, 3)], true)], [(1, 20, [(12, 3)], [1]); (2, 22, [(12, 3)], [])]) /\
  ds_rename st_d ds_3 [(dY, 12)] = Throw DimensionError.
Proof. split; [exact ds_3_ok|]. vm_compute. auto. Qed.
Example C32_set_variable_ex : ds_ok ds_3 /\ comparable (line dX 40 3 true) /\
  (do d <- ds_set_var true ds_3 1 (line dX 40 3 true); Ok (snd (overview d))) = Ok [(1, 40, [(dX, 3)], [1]); (2, 22, [(dX, 3)], [])] /\
  (do d <- ds_set_var false ds_3 1 (line dX 40 3 true); Ok (snd (overview d))) = Ok [(1, 40, [(dX, 3)], []); (2, 22, [(dX, 3)], [])] /\
  ds_set_var true ds_3 1 (line dX 40 4 true) = Throw DimensionError.
Proof. split; [exact ds_3_ok|]. split; [apply line_ok; [discriminate|lia]|]. vm_compute. auto. Qed.
Definition ds_m : dset := fst (ds_step st_d ds_default (DsSetDaInit 0 (xda 26 3 [(1, line dX 2 4 true); (4, line dX 4 3 true)] []))).
Lemma ds_m_ok : ds_ok ds_m.
Proof.
  assert (A1 : da_ok (xda 26 3 [(1, line dX 2 4 true); (4, line dX 4 3 true)] []) /\ da_comparable (xda 26 3 [(1, line dX 2 4 true); (4, line dX 4 3 true)] [])) by xda_tac.
  apply C32_history. unfold ds_m. constructor; [constructor|exact A1].
Qed.
Example C32_merge_ex : ds_ok ds_3 /\ ds_ok ds_m /\
  (do d <- ds_merge st_d ds_3 ds_m; Ok (overview d)) =
    Ok ([(1, 2, [(dX, 4)], true); (3, 6, [(dX, 3)], true); (4, 4, [(dX, 3)], true); (2, 4, [(dX, 3)], false)],
        [(0, 26, [(dX, 3)], []); (1, 20, [(dX, 3)], [1]); (2, 22, [(dX, 3)], [])]).
Proof. split; [exact ds_3_ok|]. split; [exact ds_m_ok|]. vm_compute. auto. Qed.

(** ** Counterexamples *)
(** C32. [setCoords] accepts coords with more dimensions than the dataset has: the items no longer have its dimensions. *)
Theorem C32_set_coords_refuted : exists st d c d', ds_ok d /\ sd_ok c /\ dict_comparable c /\ sd_readonly c = false /\
  ds_step st d (DsSetCoords c) = (d', Ok tt) /\ exists k a, In (k, a) (ds_list d') /\ ~ same_shape (da_shape a) (ds_shape d').
Proof.
  exists st_d, ds_3, (mksd (mk [(dX, 3); (dY, 5)]) (mkd []) false). eexists. split; [exact ds_3_ok|]. split.
  { apply sd_ok_mk; [apply mk_wf; repeat constructor; cbn; intuition (discriminate || lia)|constructor|intros ? ? []]. }
  split; [apply dict_comp; [constructor|intros ? ? []]|]. split; [reflexivity|]. split; [vm_compute; reflexivity|].
  eexists 1, _. split; [left; reflexivity|]. intros Hs. destruct (proj2 (Hs dY 5)) as [E|[]]; [right; left; reflexivity|]. discriminate.
Qed.
Print Assumptions C32_set_coords_refuted.

(** C32. After [setCoords] with a read-only dictionary, a failing [setData] leaves its data behind. *)
Theorem C32_failure_refuted : exists st d c d1 a d2, ds_ok d /\ sd_ok c /\ dict_comparable c /\ same_shape (sd_shape c) (ds_shape d) /\
  ds_step st d (DsSetCoords c) = (d1, Ok tt) /\ da_ok a /\ da_comparable a /\ ds_step st d1 (DsSetDa 7 a) = (d2, Throw DataArrayError) /\
  ~ In 7 (map fst (ds_list d1)) /\ In 7 (map fst (ds_list d2)).
Proof.
  assert (A1 : da_ok da_b /\ da_comparable da_b) by xda_tac.
  exists st_d, ds_3, (mksd (mk [(dX, 3)]) (mkd []) true). eexists _, da_b, _. split; [exact ds_3_ok|]. split.
  { apply sd_ok_mk; [apply mk_wf; repeat constructor; cbn; intuition (discriminate || lia)|constructor|intros ? ? []]. }
  split; [apply dict_comp; [constructor|intros ? ? []]|]. split; [apply same_shape_refl|]. split; [vm_compute; reflexivity|]. split; [apply A1|]. split; [apply A1|].
  split; [vm_compute; reflexivity|]. split; [cbn; intuition discriminate|]. cbn. auto.
Qed.
Print Assumptions C32_failure_refuted.

(** C32. An aligned coord of an inserted data array is dropped without notice if the dataset has an unaligned coord with that
    name: the item then has other values for this coord, and it is not aligned. *)
Theorem C32_aligned_dropped_refuted : exists st d k a d' w i j, ds_ok d /\ da_ok a /\ da_comparable a /\
  ds_step st d (DsSetDa k a) = (d', Ok tt) /\ ds_item d' k = Ok w /\
  In (2, i) (sd_list (da_coords a)) /\ i_aligned i = true /\ In (2, j) (sd_list (da_coords w)) /\
  i_aligned j = false /\ ~ var_same true st i j.
Proof.
  set (a := xda 28 3 [(2, line dX 8 3 true)] []). assert (A1 : da_ok a /\ da_comparable a) by (unfold a; xda_tac).
  exists st_d, ds_3, 7, a. eexists _, _, (line dX 8 3 true), _. split; [exact ds_3_ok|]. split; [apply A1|]. split; [apply A1|]. split; [vm_compute; reflexivity|].
  split; [vm_compute; reflexivity|]. split; [left; reflexivity|]. split; [reflexivity|]. split; [right; left; reflexivity|]. split; [reflexivity|].
  match goal with |- ~ var_same _ _ ?i ?j => destruct (compare_ok st_d true i j) as (r & E & Hr); [apply line_ok; [discriminate|lia]|apply (line_ok dX 4 3 false); [discriminate|lia]|] end.
  vm_compute in E. injection E as <-. intros Hv. apply Hr in Hv. discriminate.
Qed.
Print Assumptions C32_aligned_dropped_refuted.

(** C32. Slicing and accessing an item do not commute: the bin edges of a point slice are missing in the items of the sliced
    dataset. *)
Theorem C32_slice_item_refuted : exists st d k s w1 w2, ds_ok d /\ slice_ok s /\ slice_eqb s slice_default = false /\
  (do d' <- ds_slice st d s; ds_item d' k) = Ok w1 /\ (do w <- ds_item d k; da_slice w s) = Ok w2 /\
  In 1 (map fst (sd_list (da_coords w2))) /\ ~ In 1 (map fst (sd_list (da_coords w1))).
Proof.
  exists st_d, ds_3, 1, (mkslice dX 1 (-1) 1). eexists _, _. split; [exact ds_3_ok|]. split; [|split; [reflexivity|]].
  { right. cbn. lia. }
  split; [vm_compute; reflexivity|]. split; [vm_compute; reflexivity|]. split; [cbn; auto|cbn; intuition discriminate].
Qed.
Print Assumptions C32_slice_item_refuted.

(** C32. Merging a dataset without items with a copy of itself changes its length if it has bin edges. *)
Theorem C32_merge_sizes_refuted : exists st a d, ds_ok a /\ ds_valid a = true /\ ds_merge st a a = Ok d /\ ds_shape a = [(dX, 3)] /\ ds_shape d = [(dX, 4)].
Proof.
  set (a := mkds (xdict 3 [(1, line dX 2 4 true)]) (mkd []) false true). exists st_d, a. eexists. split.
  - destruct (xdict_ok 3 [(1, line dX 2 4 true)]) as [A1 A2]; [lia|xnd|xit|]. apply ds_ok_mk; [exact A1|exact A2|constructor|intros ? ? []|reflexivity|discriminate].
  - split; [reflexivity|]. split; [vm_compute; reflexivity|]. split; reflexivity.
Qed.
Print Assumptions C32_merge_sizes_refuted.

(** C32. Merging fails for unaligned coords that differ, although these are dropped from the union. *)
Theorem C32_merge_unaligned_refuted : exists st a b, ds_ok a /\ ds_ok b /\ ~ items_differ st a b /\ ~ mismatch st (ds_coords a) (ds_coords b) /\
  ds_merge st a b = Throw CoordMismatchError.
Proof.
  set (da := fun o c => xda o 3 [(1, line dX c 3 false)] []). set (d := fun k o c => fst (ds_step st_d ds_default (DsSetDaInit k (da o c)))).
  assert (Hok : forall k o c, ds_ok (d k o c)).
  { intros k o c. assert (A1 : da_ok (da o c) /\ da_comparable (da o c)) by (unfold da; xda_tac). apply C32_history. unfold d. constructor; [constructor|exact A1]. }
  exists st_d, (d 1 20 2), (d 2 22 4). split; [apply Hok|]. split; [apply Hok|].
  assert (E : ds_merge st_d (d 1 20 2) (d 2 22 4) = Throw CoordMismatchError) by (vm_compute; reflexivity). split; [|split; [|exact E]].
  - intros Hx. destruct (C32_merge st_d _ _ (Hok 1 20 2) (Hok 2 22 4)) as (Hm & _). rewrite (Hm Hx) in E. discriminate.
  - intros (k & i & j & Hi & _ & Ha & _). destruct Hi as [[= <- <-]|[]]. discriminate.
Qed.
Print Assumptions C32_merge_unaligned_refuted.

(** C32. [strip_if_broadcast_along] returns no dataset at all: it sets the coords of a default-constructed one. *)
Theorem C32_strip_refuted : forall d dim r, strip_start d dim <> Ok r.
Proof. intros d dim r. unfold strip_start. destruct (strip_loop _ _ _); discriminate. Qed.
Print Assumptions C32_strip_refuted.
