(** Property theorems about labelled shapes: C02 (Sizes/Dimensions part), C04, C05, C06 (extents),
    C41 (dimension labels). *)
From Coq Require Import Permutation.
From Verif Require Import Base Map_Model Map_Spec Map_Proofs Dims_Model Dims_Spec Dims_Proofs.

(** C02: any history of set, resize, erase, rename-key, clear, add, addInner and slicing. *)
Theorem C02_sizes_history : forall (os : list sz_op), exists m,
  run sz_step mempty os = Ok (m, snd (orun sz_spec oempty os)) /\
  shows Z.eqb DimensionError m (fst (orun sz_spec oempty os)) /\
  Forall (fun n => 0 <= n) (shape m).
Proof. exact sz_refines. Qed.
Print Assumptions C02_sizes_history.

Example C02_sizes_history_ex :
  run sz_step mempty [SzSet 5 7; SzAdd 6 3; SzAddInner 7 2; SzSliceRange 5 1 6 2; SzSlicePoint 6 3;
                      SzSlicePoint 6 2; SzSet 7 4; SzResize 7 (-1); SzSliceRange 5 2 4 1]
  = Ok (mkmap [5; 7] [3; 2],
        [None; None; None; None; Some SliceError; None; Some DimensionError; Some DimensionError; Some SliceError]).
Proof. reflexivity. Qed.

(** C02/C04: construction from labels and extents succeeds exactly for distinct valid labels with
    non-negative extents. *)
Theorem C02_dimensions_construct : forall ls ns,
  (length ls = length ns /\ NoDup ls /\ Forall (fun n => 0 <= n) ns /\ ~ In InvalidDim ls ->
     exists m, make_dims ls ns = Ok m /\ wf m /\ labels m = ls /\ shape m = ns) /\
  (~ (length ls = length ns /\ NoDup ls /\ Forall (fun n => 0 <= n) ns /\ ~ In InvalidDim ls) ->
     make_dims ls ns = Throw DimensionError).
Proof. exact make_dims_ok. Qed.
Print Assumptions C02_dimensions_construct.

(** C04 *)
Theorem C04_merge_fails_iff_conflict : forall a b, wf a -> wf b ->
  (conflict a b -> dims_merge a b = Throw DimensionError) /\
  (~ conflict a b -> exists m, dims_merge a b = Ok m /\ wf m /\
    (forall k n, has m k n <-> has a k n \/ has b k n) /\
    only a (labels m) = labels a /\ without a (labels m) = without a (labels b)).
Proof.
  exact (fun a b Ha Hb => conj (merge_conflict a b Ha Hb)
    (fun Hn => match merge_ok a b Ha Hb Hn with
     | ex_intro _ m (conj H1 (conj H2 (conj H3 (conj H4 (conj H5 _))))) =>
       ex_intro _ m (conj H1 (conj H2 (conj H3 (conj H4 H5)))) end)).
Qed.
Print Assumptions C04_merge_fails_iff_conflict.

Theorem C04_merge_keeps_order_of_both : forall a b m, wf a -> wf b -> dims_merge a b = Ok m ->
  ~ conflict a b -> only b (labels a) = only a (labels b) -> only b (labels m) = labels b.
Proof. exact merge_order. Qed.
Print Assumptions C04_merge_keeps_order_of_both.

Theorem C04_merge_identity_when_included : forall a b, wf a -> wf b ->
  (forall k n, has b k n -> has a k n) -> dims_merge a b = Ok a.
Proof. exact merge_includes. Qed.
Print Assumptions C04_merge_identity_when_included.

Theorem C04_merge_commutes_in_extents : forall a b m, wf a -> wf b -> dims_merge a b = Ok m ->
  exists m', dims_merge b a = Ok m' /\ same_extents m m'.
Proof. exact merge_comm. Qed.
Print Assumptions C04_merge_commutes_in_extents.

Theorem C04_merge_associative_in_extents : forall a b c ab abc, wf a -> wf b -> wf c ->
  dims_merge a b = Ok ab -> dims_merge ab c = Ok abc ->
  exists bc abc', dims_merge b c = Ok bc /\ dims_merge a bc = Ok abc' /\ same_extents abc abc'.
Proof. exact merge_assoc. Qed.
Print Assumptions C04_merge_associative_in_extents.

Theorem C04_intersection : forall a b, wf a -> wf b ->
  (conflict a b -> dims_intersection a b = Throw DimensionError) /\
  (~ conflict a b -> exists i, dims_intersection a b = Ok i /\ wf i /\
    (forall k n, has i k n <-> has a k n /\ has b k n) /\ labels i = only b (labels a)).
Proof. exact (fun a b Ha Hb => conj (intersection_conflict a b Ha Hb) (intersection_ok a b Ha Hb)). Qed.
Print Assumptions C04_intersection.

Theorem C04_includes : forall m o, wf m -> wf o ->
  exists r, includes m o = Ok r /\ (r = true <-> forall d n, has o d n -> has m d n).
Proof. exact (fun m o Hm Ho => includes_ok m o (wf_wfm m Hm) (wf_wfm o Ho)). Qed.
Print Assumptions C04_includes.

(** A case with interleaved common and private labels, and the reversed order giving another order of
    labels but the same extents; and a conflicting case. *)
Example C04_ex :
  let a := mkmap [5; 7; 9] [2; 3; 4] in
  let b := mkmap [6; 7; 8] [5; 3; 0] in
  wf a /\ wf b /\
  dims_merge a b = Ok (mkmap [5; 6; 7; 9; 8] [2; 5; 3; 4; 0]) /\
  dims_merge b a = Ok (mkmap [6; 5; 7; 8; 9] [5; 2; 3; 0; 4]) /\
  only b (labels a) = only a (labels b) /\
  dims_merge a (mkmap [9] [5]) = Throw DimensionError /\
  dims_intersection a b = Ok (mkmap [7] [3]).
Proof. cbv zeta. unfold wf, InvalidDim. cbn. repeat split; repeat constructor; simpl; lia || intuition lia. Qed.

(** C05 *)
Theorem C05_positions_one_to_one : forall sh,
  Forall (fun n => 0 <= n) sh ->
  (forall i, valid_idx sh i -> 0 <= flat_index (fst (row_major sh)) i < vol sh) /\
  (forall i j, valid_idx sh i -> valid_idx sh j ->
     flat_index (fst (row_major sh)) i = flat_index (fst (row_major sh)) j -> i = j) /\
  (forall k, 0 <= k < vol sh -> exists i, valid_idx sh i /\ flat_index (fst (row_major sh)) i = k).
Proof. exact positions_one_to_one. Qed.
Print Assumptions C05_positions_one_to_one.

(** Outermost dimension is slowest. *)
Theorem C05_flat_index_is_row_major : forall sh i, valid_idx sh i ->
  flat_index (fst (row_major sh)) i = position sh i.
Proof. exact flat_index_row_major. Qed.
Print Assumptions C05_flat_index_is_row_major.

(** [extract_indices] works on shapes stored innermost first, as [MultiIndex] and [ViewIndex] do. *)
Theorem C05_extract_then_flatten : forall sh k,
  sh <> [] -> Forall (fun n => 0 < n) sh -> 0 <= k < vol sh ->
  rev (extract_indices k (rev sh)) = index_at sh k /\
  flat_index (fst (row_major sh)) (rev (extract_indices k (rev sh))) = k.
Proof. exact extract_flat_roundtrip. Qed.
Print Assumptions C05_extract_then_flatten.

Theorem C05_flatten_then_extract : forall sh i, sh <> [] -> valid_idx sh i ->
  rev (extract_indices (flat_index (fst (row_major sh)) i) (rev sh)) = i.
Proof. exact flatten_then_extract. Qed.
Print Assumptions C05_flatten_then_extract.

Theorem C05_offset_is_stride : forall d k, wf d -> In k (labels d) ->
  exists i s, nth_error (labels d) i = Some k /\ nth_error (strides_of d) i = Some s /\ dims_offset d k = Ok s.
Proof. exact dims_offset_ok. Qed.
Print Assumptions C05_offset_is_stride.

Theorem C05_volume : forall d, volume d = vol (shape d).
Proof. exact volume_vol. Qed.
Print Assumptions C05_volume.

Example C05_ex :
  valid_idx [2; 3; 4] [1; 2; 3] /\ flat_index (fst (row_major [2; 3; 4])) [1; 2; 3] = 23 /\
  rev (extract_indices 17 (rev [2; 3; 4])) = [1; 1; 1] /\ flat_index [12; 4; 1] [1; 1; 1] = 17.
Proof. repeat split; repeat constructor; lia. Qed.

(** C06: number of elements of a range slice. The acceptance criterion and the resulting extents of slices
    are part of [sz_spec] in [C02_sizes_history]. *)
Theorem C06_range_length : forall b e st i, b <= e -> 0 < st -> 0 <= i ->
  (i < ceil_div (e - b) st <-> b + i * st < e).
Proof. exact ceil_div_count. Qed.
Print Assumptions C06_range_length.

(** C41 (dimension labels): with no chain among the pairs, renaming is simultaneous; it fails exactly if
    labels would coincide (or, if requested, if a label to rename is missing). *)
Theorem C41_rename_dims_partial : forall names d fail_on_unknown,
  NoDup (labels d) -> chain_free names ->
  ((fail_on_unknown = true -> forall f, In f (map fst names) -> In f (labels d)) /\
   NoDup (map (renamed names) (labels d)) ->
     rename_dims d names fail_on_unknown = Ok (mkmap (map (renamed names) (labels d)) (shape d))) /\
  (~ ((fail_on_unknown = true -> forall f, In f (map fst names) -> In f (labels d)) /\
      NoDup (map (renamed names) (labels d))) ->
     rename_dims d names fail_on_unknown = Throw DimensionError).
Proof. exact rename_dims_ok. Qed.
Print Assumptions C41_rename_dims_partial.

Example C41_rename_dims_ex :
  NoDup [5; 6; 7] /\ chain_free [(5, 8); (7, 7); (9, 6)] /\
  rename_dims (mkmap [5; 6; 7] [1; 2; 3]) [(5, 8); (7, 7); (9, 6)] false = Ok (mkmap [8; 6; 7] [1; 2; 3]).
Proof.
  split; [repeat constructor; simpl; intuition lia|]. split; [|reflexivity].
  split; [repeat constructor; simpl; intuition lia|].
  simpl. intros f t f' t' [E|[E|[E|[]]]] [E'|[E'|[E'|[]]]]; injection E as <- <-; injection E' as <- <-; lia.
Qed.

(** The full statement (any set of pairs with distinct sources) is false: pairs are applied one after the
    other. Swapping two labels throws, and a chain a->b, b->c renames a to c. *)
Theorem C41_rename_dims_refuted :
  (exists d names, NoDup (labels d) /\ NoDup (map fst names) /\ NoDup (map (renamed names) (labels d)) /\
     rename_dims d names false = Throw DimensionError) /\
  (exists d names d', NoDup (labels d) /\ NoDup (map fst names) /\ NoDup (map (renamed names) (labels d)) /\
     rename_dims d names false = Ok d' /\ labels d' <> map (renamed names) (labels d)).
Proof. exact rename_refuted. Qed.
Print Assumptions C41_rename_dims_refuted.

(** Transposing succeeds exactly for permutations of the labels (no labels given: reversal) and keeps
    every extent with its label. *)
Theorem C07_dims_transpose : forall d ls, wf d ->
  (ls <> [] -> Permutation ls (labels d) ->
     exists t, dims_transpose d ls = Ok t /\ wf t /\ labels t = ls /\ same_extents t d) /\
  (ls <> [] -> ~ Permutation ls (labels d) -> dims_transpose d ls = Throw DimensionError) /\
  (exists t, dims_transpose d [] = Ok t /\ wf t /\ labels t = rev (labels d) /\ same_extents t d).
Proof. exact dims_transpose_ok. Qed.
Print Assumptions C07_dims_transpose.
