(** C27 for binned variables of any shape and memory layout. *)
From Coq Require Import Permutation.
From Verif Require Import Base Arr Map_Model Dims_Model Dims_Spec Dims_Proofs View_Model View_Spec View_Proofs.
From Verif Require TargetBins_Model SizedDict_Proofs.
From Verif Require Import Bins_Model Bins_Props BinConcat_Props.
From Verif Require Import Reshape_Model Reshape_Spec Reshape_Proofs Subspan_Model Subspan_Spec Subspan_Proofs BinAppend_Model Mask_Model Accumulate_Model.
Open Scope Z_scope.
Notation slice_range := TargetBins_Model.slice_range.
Notation inside := Bins_Props.inside.

(** All bins of the variable are inside of the buffer; all columns are as long as the data. *)
Definition good {A} (x : binned A) : Prop :=
  wfv (va (bn_indices x)) /\ (forall ix, valid_at (vshape (bn_indices x)) ix -> inside (zlen (b_data (bn_buffer x))) (val (bn_indices x) ix)) /\
  NoDup (map fst (b_items (bn_buffer x))) /\ Forall (fun c => good_column (zlen (b_data (bn_buffer x))) (snd c)) (b_items (bn_buffer x)).
(** The events of the bin at [ix] in one column. *)
Definition bin_of {A} (x : binned A) (l : list A) (ix : lindex) : list A := slice_range l (val (bn_indices x) ix).
(** Bin [ix] of every column of [r] holds what [x0] has at [ix], then what [x1] has; single values are those of [x0]. *)
Definition holds_both {A} (x0 x1 r : binned A) (ix : lindex) : Prop :=
  bin_of r (b_data (bn_buffer r)) ix = bin_of x0 (b_data (bn_buffer x0)) ix ++ bin_of x1 (b_data (bn_buffer x1)) ix /\
  forall k c0 c1, item k (b_items (bn_buffer x0)) = Some c0 -> item k (b_items (bn_buffer x1)) = Some c1 ->
    exists c, item k (b_items (bn_buffer r)) = Some c /\
      match c0, c1, c with
      | Events l0, Events l1, Events l => bin_of r l ix = bin_of x0 l0 ix ++ bin_of x1 l1 ix
      | Fixed a, Fixed _, Fixed b => b = a
      | _, _, _ => False
      end.

Section Proofs.
Context {A : Type}.
Variable eqb : A -> A -> bool.
Variable junk : A.

Lemma spread_len {B} m (x : varr B) : zlen (spread_to (mk m) x) = Z.max 0 (vol (extents m)).
Proof. unfold spread_to. rewrite zlen_map, zlen_zseq, volume_vol. change (shape (mk m)) with (extents m). lia. Qed.
Lemma spread_at {B} (d : B) m (x : varr B) ix : lwf m -> wfv (va x) -> within (vshape x) m -> valid_at m ix -> znth d (spread_to (mk m) x) (position (extents m) (map ix (keys m))) = val x ix.
Proof.
  intros Hm Hw Hin Hix. pose proof (position_bound _ _ (proj1 (valid_at_idx m ix) Hix)) as Hp. unfold spread_to. rewrite volume_vol. change (shape (mk m)) with (extents m).
  rewrite (znth_map _ 0) by (rewrite zlen_zseq; lia). rewrite znth_zseq by lia. change (val x (index_of (mk m) (0 + position (extents m) (map ix (keys m)))) = val x ix). rewrite Z.add_0_l. apply val_same; [exact Hw|].
  intros k Hk. apply index_of_position; [exact Hm|exact Hix|]. apply In_keys in Hk as [n Hn]. apply In_keys. exists n. apply Hin, Hn.
Qed.
Lemma spread_inside m (x : binned A) : lwf m -> good x -> within (vshape (bn_indices x)) m -> good_buffer (spread_to (mk m) (bn_indices x)) (bn_buffer x).
Proof.
  intros Hm (Hw & Hi & Hn & Hc) Hin. split; [|split; assumption]. apply Forall_forall. intros p Hp. unfold spread_to in Hp. apply in_map_iff in Hp as (k & <- & Hk). apply zseq_In in Hk. rewrite volume_vol in Hk. change (shape (mk m)) with (extents m) in Hk.
  apply Hi. apply (within_valid _ _ _ Hin). apply cell_valid; [exact Hm|lia].
Qed.

Lemma concatenate_ok (x0 x1 : binned A) : good x0 -> good x1 -> agree (vshape (bn_indices x0)) (vshape (bn_indices x1)) -> compatible_items eqb (b_items (bn_buffer x0)) (b_items (bn_buffer x1)) ->
  exists m r, lwf m /\ (forall e, In e m <-> In e (vshape (bn_indices x0)) \/ In e (vshape (bn_indices x1))) /\ (within (vshape (bn_indices x1)) (vshape (bn_indices x0)) -> m = vshape (bn_indices x0)) /\
    concatenate_bins eqb junk x0 x1 = Ok r /\ va (bn_indices r) = var_fresh (mk m) /\ map fst (b_items (bn_buffer r)) = map fst (b_items (bn_buffer x0)) /\
    forall ix, valid_at m ix -> holds_both x0 x1 r ix.
Proof.
  intros G0 G1 Hag Hcomp. pose proof (proj1 G0) as W0. pose proof (proj1 G1) as W1. pose proof (proj1 (wf_lwf _) (proj1 W0)) as [L0 _]. pose proof (proj1 (wf_lwf _) (proj1 W1)) as [L1 _].
  destruct (merge_mk _ _ L0 L1 Hag) as (m & E & Hm & Hin & O1 & _). assert (I0 : within (vshape (bn_indices x0)) m) by (intros e He; apply Hin; auto). assert (I1 : within (vshape (bn_indices x1)) m) by (intros e He; apply Hin; auto).
  destruct (C27_concatenate eqb junk (spread_to (mk m) (bn_indices x0)) (bn_buffer x0) (spread_to (mk m) (bn_indices x1)) (bn_buffer x1)) as (idx & buf & Ec & Lc & _ & Jc & Kc & Ic).
  { rewrite !spread_len. reflexivity. } { apply spread_inside; assumption. } { apply spread_inside; assumption. } { exact Hcomp. }
  exists m, (mkbn (mkva (fun a => znth (0, 0) idx a) (var_fresh (mk m))) buf). split; [exact Hm|]. split; [exact Hin|]. split; [exact O1|]. split.
  { unfold concatenate_bins. rewrite !vdims_mk by assumption. unfold vshape in E. unfold vshape, vdims. rewrite E. cbn [bind]. rewrite Ec. reflexivity. }
  split; [reflexivity|]. split; [exact Kc|]. intros ix Hix. pose proof (position_bound _ _ (proj1 (valid_at_idx m ix) Hix)) as Hp.
  assert (Hv : val (bn_indices (mkbn (mkva (fun a => znth (0, 0) idx a) (var_fresh (mk m))) buf)) ix = bin_at idx (position (extents m) (map ix (keys m)))).
  { unfold val. cbn [bn_indices va va_buf]. rewrite fresh_SV by apply Hm. rewrite vaddr_SV, sfc_position by apply Hm. rewrite Z.add_0_l. reflexivity. }
  assert (Hj : forall l0 l1 l, joined (spread_to (mk m) (bn_indices x0)) (spread_to (mk m) (bn_indices x1)) idx l0 l1 l ->
    slice_range l (bin_at idx (position (extents m) (map ix (keys m)))) = bin_of x0 l0 ix ++ bin_of x1 l1 ix).
  { intros l0 l1 l Hj. rewrite Hj by (rewrite Lc, spread_len; lia). unfold bin_of, bin_at. rewrite !spread_at by assumption. reflexivity. }
  split.
  - unfold bin_of at 1. rewrite Hv. cbn [bn_buffer]. apply Hj, Jc.
  - intros k c0 c1 Hc0 Hc1. destruct (Ic k c0 c1 Hc0 Hc1) as (c & Hk & Hcc). exists c. split; [exact Hk|]. destruct c0, c1, c; cbn [joined_column] in Hcc; try contradiction; [|exact Hcc].
    unfold bin_of at 1. rewrite Hv. apply Hj, Hcc.
Qed.
End Proofs.

(** Concatenation for all shapes with common extents, broadcasting to all dimensions of both, for any strides and offsets. *)
Theorem C27_shapes {A} (eqb : A -> A -> bool) junk (x0 x1 : binned A) : good x0 -> good x1 -> agree (vshape (bn_indices x0)) (vshape (bn_indices x1)) -> compatible_items eqb (b_items (bn_buffer x0)) (b_items (bn_buffer x1)) ->
  exists r, concatenate_bins eqb junk x0 x1 = Ok r /\ wfv (va (bn_indices r)) /\ (forall e, In e (vshape (bn_indices r)) <-> In e (vshape (bn_indices x0)) \/ In e (vshape (bn_indices x1))) /\
    (within (vshape (bn_indices x1)) (vshape (bn_indices x0)) -> vshape (bn_indices r) = vshape (bn_indices x0)) /\
    map fst (b_items (bn_buffer r)) = map fst (b_items (bn_buffer x0)) /\ forall ix, valid_at (vshape (bn_indices r)) ix -> holds_both x0 x1 r ix.
Proof.
  intros G0 G1 Hag Hcomp. destruct (concatenate_ok eqb junk x0 x1 G0 G1 Hag Hcomp) as (m & r & Hm & Hin & O1 & E & Ev & Hk & Hb). exists r.
  assert (Es : vshape (bn_indices r) = m) by (unfold vshape, vdims; rewrite Ev; apply pairs_mk). rewrite Es. split; [exact E|]. split; [|auto].
  rewrite Ev, fresh_SV by apply Hm. apply SV_wfv; [exact Hm|]. apply sfc_nonneg. exact Hm.
Qed.
Print Assumptions C27_shapes.

(** Appending to a variable that is not a view of another one gives the same bins in place, if the other one has no further dimensions. *)
Theorem C27_append {A} (eqb : A -> A -> bool) junk (x0 x1 : binned A) : good x0 -> good x1 -> within (vshape (bn_indices x1)) (vshape (bn_indices x0)) -> compatible_items eqb (b_items (bn_buffer x0)) (b_items (bn_buffer x1)) ->
  va (bn_indices x0) = var_fresh (vdims (bn_indices x0)) ->
  exists r, append_bins eqb junk x0 x1 = Ok r /\ va (bn_indices r) = va (bn_indices x0) /\ map fst (b_items (bn_buffer r)) = map fst (b_items (bn_buffer x0)) /\
    forall ix, valid_at (vshape (bn_indices x0)) ix -> holds_both x0 x1 r ix.
Proof.
  intros G0 G1 Hin0 Hcomp Hf. destruct (concatenate_ok eqb junk x0 x1 G0 G1) as (m & r & Hm & Hin & O1 & E & Ev & Hk & Hb); [|exact Hcomp|].
  { intros k a b Ha Hb. pose proof (proj1 (wf_lwf _) (proj1 (proj1 G0))) as [L0 _]. exact (SizedDict_Proofs.In_unique _ k a b (proj1 L0) Ha (Hin0 _ Hb)). }
  specialize (O1 Hin0). assert (Er : va (bn_indices r) = va (bn_indices x0)). { rewrite Ev, Hf, O1. f_equal. symmetry. apply vdims_mk. apply G0. }
  unfold append_bins. rewrite E. cbn [bind]. unfold set_data_handle. rewrite Er, Z.eqb_refl. cbn [negb].
  assert (Ex : mkbn (mkva (va_buf (bn_indices r)) (va (bn_indices x0))) (bn_buffer r) = r) by (destruct r as [[b v] u]; cbn in *; rewrite Er; reflexivity).
  rewrite Ex. exists r. split; [reflexivity|]. split; [exact Er|]. split; [exact Hk|]. rewrite <- O1. exact Hb.
Qed.
Print Assumptions C27_append.

(** ** cases *)
Definition pairs_arr (l : lshape) (xs : list (Z * Z)) : varr (Z * Z) := mkva (fun a => nth (Z.to_nat a) xs (0, 0)) (var_fresh (mk l)).
Definition contents (r : res (binned Z)) : option (lshape * list (list Z)) :=
  match r with Ok y => Some (vshape (bn_indices y), map (slice_range (b_data (bn_buffer y))) (row_major_elements (bn_indices y))) | _ => None end.
(** Two by two bins, and one bin for each row. *)
Definition four : binned Z := mkbn (pairs_arr [(2, 2); (3, 2)] [(0, 1); (1, 2); (2, 3); (3, 4)]) (mkbuf [1; 2; 3; 4] [(0, Fixed 7)]).
Definition two : binned Z := mkbn (pairs_arr [(2, 2)] [(1, 3); (0, 1)]) (mkbuf [10; 20; 30] [(0, Fixed 7)]).
(** [four] with the dimensions in the other order, as made by [transpose]. *)
Definition four_t : binned Z := mkbn (mkva (va_buf (bn_indices four)) (mkvar (mk [(3, 2); (2, 2)]) [1; 2] 0 false 4)) (bn_buffer four).
Lemma good_four : good four.
Proof.
  split; [unfold four; cbn [bn_indices]; unfold pairs_arr; cbn [va]; rewrite fresh_SV by (repeat constructor; cbn; intuition lia); apply SV_wfv; [|apply sfc_nonneg]; (split; [repeat constructor; cbn; intuition lia|split; [repeat constructor; cbn; lia|cbn; intuition discriminate]])|]. split; [|split; [repeat constructor; cbn; tauto|repeat constructor]].
  intros ix Hix. change (vshape (bn_indices four)) with [(2, 2); (3, 2)] in Hix. pose proof (Hix 2 2 ltac:(left; reflexivity)). pose proof (Hix 3 2 ltac:(right; left; reflexivity)). unfold inside, val, vaddr. cbn.
  assert (ix 2 = 0 \/ ix 2 = 1) as [-> | ->] by lia; assert (ix 3 = 0 \/ ix 3 = 1) as [-> | ->] by lia; vm_compute; repeat split; discriminate.
Qed.
Lemma good_two : good two.
Proof.
  split; [unfold two; cbn [bn_indices]; unfold pairs_arr; cbn [va]; rewrite fresh_SV by (repeat constructor; cbn; intuition lia); apply SV_wfv; [|apply sfc_nonneg]; (split; [repeat constructor; cbn; intuition lia|split; [repeat constructor; cbn; lia|cbn; intuition discriminate]])|]. split; [|split; [repeat constructor; cbn; tauto|repeat constructor]].
  intros ix Hix. change (vshape (bn_indices two)) with [(2, 2)] in Hix. pose proof (Hix 2 2 ltac:(left; reflexivity)). unfold inside, val, vaddr. cbn.
  assert (ix 2 = 0 \/ ix 2 = 1) as [-> | ->] by lia; vm_compute; repeat split; discriminate.
Qed.
Lemma good_four_t : good four_t.
Proof.
  split; [split; [apply mk_wf; split; [repeat constructor; cbn; intuition lia|split; [repeat constructor; cbn; lia|cbn; intuition discriminate]]|split; [reflexivity|repeat constructor; lia]]|]. split; [|split; [repeat constructor; cbn; tauto|repeat constructor]].
  intros ix Hix. change (vshape (bn_indices four_t)) with [(3, 2); (2, 2)] in Hix. pose proof (Hix 2 2 ltac:(right; left; reflexivity)). pose proof (Hix 3 2 ltac:(left; reflexivity)). unfold inside, val, vaddr. cbn.
  assert (ix 2 = 0 \/ ix 2 = 1) as [-> | ->] by lia; assert (ix 3 = 0 \/ ix 3 = 1) as [-> | ->] by lia; vm_compute; repeat split; discriminate.
Qed.
Example C27_shapes_case : contents (concatenate_bins Z.eqb 0 four two) = Some ([(2, 2); (3, 2)], [[1; 20; 30]; [2; 20; 30]; [3; 10]; [4; 10]]) /\
  contents (concatenate_bins Z.eqb 0 two four_t) = Some ([(3, 2); (2, 2)], [[20; 30; 1]; [10; 3]; [20; 30; 2]; [10; 4]]) /\ contents (append_bins Z.eqb 0 four two) = contents (concatenate_bins Z.eqb 0 four two) /\
  good four /\ good two /\ within (vshape (bn_indices two)) (vshape (bn_indices four)) /\ compatible_items Z.eqb (b_items (bn_buffer four)) (b_items (bn_buffer two)) /\ va (bn_indices four) = var_fresh (vdims (bn_indices four)).
Proof.
  split; [vm_compute; reflexivity|]. split; [vm_compute; reflexivity|]. split; [vm_compute; reflexivity|]. split; [exact good_four|]. split; [exact good_two|]. split; [intros e [<-|[]]; left; reflexivity|]. split; [|reflexivity].
  split; [reflexivity|]. intros k c0 c1. cbn [item four two bn_buffer b_items]. destruct (0 =? k); intros E0 E1; [|discriminate]. injection E0 as <-. injection E1 as <-. cbn. auto.
Qed.

(** Appending to a transposed variable succeeds and mixes up the bins: the new indices are in the order of its dimensions, the strides
    are those of the old array. *)
Theorem C27_append_transposed_refuted : exists (x0 x1 : binned Z) r ix, good x0 /\ good x1 /\ within (vshape (bn_indices x1)) (vshape (bn_indices x0)) /\ compatible_items Z.eqb (b_items (bn_buffer x0)) (b_items (bn_buffer x1)) /\
  append_bins Z.eqb 0 x0 x1 = Ok r /\ valid_at (vshape (bn_indices r)) ix /\ bin_of x0 (b_data (bn_buffer x0)) ix = [2] /\ bin_of x1 (b_data (bn_buffer x1)) ix = [20; 30] /\ bin_of r (b_data (bn_buffer r)) ix = [3; 10].
Proof.
  exists four_t, two. eexists. exists (fun k => if k =? 3 then 1 else 0). split; [exact good_four_t|]. split; [exact good_two|]. split; [intros e [<-|[]]; right; left; reflexivity|]. split; [apply C27_shapes_case|].
  split; [vm_compute; reflexivity|]. split; [intros k n [E|[E|[]]]; injection E as <- <-; vm_compute; split; congruence|]. vm_compute. auto.
Qed.
Print Assumptions C27_append_transposed_refuted.
(** Appending to a slice: an error, unless further dimensions make the sizes agree by accident. *)
Definition slice_of_four : binned Z := mkbn (mkva (va_buf (bn_indices four)) (mkvar (mk [(2, 2)]) [2] 1 false 4)) (bn_buffer four).
Theorem C27_append_slice_refuted : exists (x0 x1 x2 : binned Z) r ix, good x0 /\ good x1 /\ good x2 /\ within (vshape (bn_indices x1)) (vshape (bn_indices x0)) /\ append_bins Z.eqb 0 x0 x1 = Throw DimensionError /\
  ~ within (vshape (bn_indices x2)) (vshape (bn_indices x0)) /\ append_bins Z.eqb 0 x0 x2 = Ok r /\ valid_at (vshape (bn_indices r)) ix /\ bin_of x0 (b_data (bn_buffer x0)) ix = [2] /\ bin_of r (b_data (bn_buffer r)) ix = [2; 2].
Proof.
  exists slice_of_four, two, four. eexists. exists (fun _ => 0). split.
  - split; [split; [apply mk_wf; split; [repeat constructor; cbn; intuition lia|split; [repeat constructor; cbn; lia|cbn; intuition discriminate]]|split; [reflexivity|repeat constructor; lia]]|]. split; [|split; [repeat constructor; cbn; tauto|repeat constructor]].
    intros ix Hix. change (vshape (bn_indices slice_of_four)) with [(2, 2)] in Hix. pose proof (Hix 2 2 ltac:(left; reflexivity)). unfold inside, val, vaddr. cbn. assert (ix 2 = 0 \/ ix 2 = 1) as [-> | ->] by lia; vm_compute; repeat split; discriminate.
  - split; [exact good_two|]. split; [exact good_four|]. split; [intros e He; exact He|]. split; [vm_compute; reflexivity|]. split; [intros Hw; specialize (Hw (3, 2) ltac:(right; left; reflexivity)); destruct Hw as [Hw|[]]; discriminate|].
    split; [vm_compute; reflexivity|]. split; [intros k n [E|[]]; injection E as <- <-; vm_compute; split; congruence|]. vm_compute. auto.
Qed.
Print Assumptions C27_append_slice_refuted.
(** A failing [append] for data arrays has changed the masks already. *)
Definition one_mask (v : bool) : mask := mkmask (Accumulate_Model.mkd mempty (fun _ => v)) true true false.
Theorem C27_append_failed_refuted : exists (x0 x1 : binned Z) (d : masks) (b : vmap Z mask) (d' : masks), good x0 /\ good x1 /\ append_array Z.eqb 0 (Ok tt) false d x0 b x1 = (d', x0, Throw DimensionError) /\ exists m m', mat Z.eqb NotFoundError (ms_items d) 1 = Ok m /\ mat Z.eqb NotFoundError (ms_items d') 1 = Ok m' /\ dv (k_arr m) (fun _ => 0) = false /\ dv (k_arr m') (fun _ => 0) = true.
Proof.
  exists two, four, (mkmasks (mk [(2, 2)]) {| m_keys := [1]; m_values := [one_mask false] |} false), {| m_keys := [1]; m_values := [one_mask true] |}. eexists. split; [exact good_two|]. split; [exact good_four|]. split; [vm_compute; reflexivity|].
  eexists. eexists. split; [reflexivity|]. split; [vm_compute; reflexivity|]. split; reflexivity.
Qed.
Print Assumptions C27_append_failed_refuted.

(** [append] for data arrays succeeds iff the coords agree, the masks can be joined, the bins can be appended and the array is not
    read-only; the data are the appended bins then, and as before otherwise. *)
Theorem C27_append_array A (eqb : A -> A -> bool) (dflt : A) superset ro d (x0 : binned A) b (x1 : binned A) :
  let '(d', x', r) := append_array eqb dflt superset ro d x0 b x1 in
  (r = Ok tt <-> superset = Ok tt /\ ro = false /\ snd (union_or_in_place d b) = Ok tt /\ exists y, append_bins eqb dflt x0 x1 = Ok y) /\
  (r = Ok tt -> append_bins eqb dflt x0 x1 = Ok x' /\ d' = fst (union_or_in_place d b)) /\ (r <> Ok tt -> x' = x0) /\
  (superset <> Ok tt -> d' = d).
Proof.
  unfold append_array. destruct superset as [[]|e|]; try (repeat split; try congruence; intros (Q & _); congruence).
  destruct (union_or_in_place d b) as [d' [[]|e|]]; cbn [fst snd]; try (repeat split; try congruence; intros (_ & _ & Q & _); congruence).
  destruct (append_bins eqb dflt x0 x1) as [y|e|]; try (repeat split; try congruence; intros (_ & _ & _ & z & Q); congruence).
  destruct ro; repeat split; try congruence; try (intros (_ & Q & _); congruence). exists y. reflexivity.
Qed.
Print Assumptions C27_append_array.
(** read-only data are kept, and the call throws *)
Theorem C27_append_array_case : (exists y, append_bins Z.eqb 0 two two = Ok y /\
    append_array Z.eqb 0 (Ok tt) false (mkmasks (mk [(2, 2)]) mempty false) two mempty two = (mkmasks (mk [(2, 2)]) mempty false, y, Ok tt)) /\
  append_array Z.eqb 0 (Ok tt) true (mkmasks (mk [(2, 2)]) mempty false) two mempty two = (mkmasks (mk [(2, 2)]) mempty false, two, Throw DataArrayError).
Proof. split; [eexists; split|]; vm_compute; reflexivity. Qed.
Print Assumptions C27_append_array_case.
