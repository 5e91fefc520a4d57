(** Property C11: iteration over binned data. *)
From Verif Require Import Base Dims_Spec Index_Model Index_Spec BinIndex_Model BinIndex_Spec BinIndex_Proofs BinIndex_Make BinIndex_Zero.

(** Missing for the full claim: the stride patterns excluded by [layout_safe] (and for validation, the patterns of
    pairs of operands), for which it is false, see [C11_refuted]. *)

(** C11. One block of the parallel loop visits the events of the bins of the block, bin by bin, and nothing else;
    bins may be empty anywhere. *)
Theorem C11_block_partial : forall inner idx sh ops size s,
  layout_ok inner idx sh ops -> layout_safe inner idx sh ops ->
  (forall k, 0 <= k < vol sh -> 0 <= size k) -> Forall (has_sizes sh size) ops -> bi_make inner idx sh ops = Ok s ->
  forall b e fuel, 0 <= b <= e -> e <= vol sh -> (length (events_of inner idx sh ops size b e) <= fuel)%nat ->
  bi_block fuel s b e = Ok (events_of inner idx sh ops size b e).
Proof. intros. eapply bi_blocks; eassumption. Qed.

(** C11. The serial loop starts from the constructed iterator. *)
Theorem C11_serial_partial : forall inner idx sh ops size s,
  layout_ok inner idx sh ops -> layout_safe inner idx sh ops ->
  (forall k, 0 <= k < vol sh -> 0 <= size k) -> Forall (has_sizes sh size) ops -> bi_make inner idx sh ops = Ok s ->
  forall e fuel, 0 <= e <= vol sh -> (length (events_of inner idx sh ops size 0 e) <= fuel)%nat ->
  bi_serial fuel s e = Ok (events_of inner idx sh ops size 0 e).
Proof. intros. eapply bi_blocks; eassumption. Qed.

(** C11. After [m] single steps from bin [b] the positions are those of the [m]-th event; the end is reached after
    the last event. *)
Theorem C11_increments_partial : forall inner idx sh ops size s,
  layout_ok inner idx sh ops -> layout_safe inner idx sh ops ->
  (forall k, 0 <= k < vol sh -> 0 <= size k) -> Forall (has_sizes sh size) ops -> 0 < vol sh ->
  bi_make inner idx sh ops = Ok s ->
  let evs b := events_of inner idx sh ops size b (vol sh) in
  forall b m, 0 <= b <= vol sh -> (m <= length (evs b))%nat ->
  exists s1 s2, bi_set_index s b = Ok s1 /\ increments m s1 = Ok s2 /\
    ((m < length (evs b))%nat -> mi_data (bs_in s2) = nth m (evs b) [] /\ bs_at_end s2 = false) /\
    (m = length (evs b) -> bs_at_end s2 = true).
Proof. intros inner idx sh ops size s HL HS Hsz Hhs Hv HM. exact (proj1 (proj2 (proj2 (made_use _ _ _ _ _ _ (made _ _ _ _ _ _ HL HS Hsz Hhs Hv HM))))). Qed.

(** C11. Jumping to bin [e] gives the state reached by stepping through all events of the bins before. *)
Theorem C11_jump_partial : forall inner idx sh ops size s,
  layout_ok inner idx sh ops -> layout_safe inner idx sh ops ->
  (forall k, 0 <= k < vol sh -> 0 <= size k) -> Forall (has_sizes sh size) ops -> 0 < vol sh ->
  bi_make inner idx sh ops = Ok s ->
  forall b e, 0 <= b <= e -> e <= vol sh ->
  exists s1 s2 s3, bi_set_index s b = Ok s1 /\ bi_set_index s e = Ok s2 /\
    increments (length (events_of inner idx sh ops size b e)) s1 = Ok s3 /\
    bi_eqb s3 s2 = true /\ (bs_at_end s2 = false -> s3 = s2).
Proof. intros inner idx sh ops size s HL HS Hsz Hhs Hv HM. exact (proj2 (proj2 (proj2 (made_use _ _ _ _ _ _ (made _ _ _ _ _ _ HL HS Hsz Hhs Hv HM))))). Qed.

(** C11. Operands with matching bin sizes are accepted, all others are rejected by the constructor. *)
Theorem C11_accept_partial : forall inner idx sh ops size,
  layout_ok inner idx sh ops -> layout_safe inner idx sh ops -> fits inner sh ->
  (forall o o', In o ops -> In o' ops -> flattening_safe sh [op_strides o; op_strides o']) ->
  (forall k, 0 <= k < vol sh -> 0 <= size k) -> Forall (has_sizes sh size) ops -> exists s, bi_make inner idx sh ops = Ok s.
Proof. exact bi_accept. Qed.
Theorem C11_reject_partial : forall inner idx sh ops sz, nonneg sh -> (length sh <= NDIM_OP_MAX)%nat ->
  Forall (fun o => length (op_strides o) = length sh /\ has_sizes sh (sz o) o) ops ->
  (forall o o', In o ops -> In o' ops -> flattening_safe sh [op_strides o; op_strides o']) ->
  forall o o' k, In o ops -> In o' ops -> op_bins o <> None -> op_bins o' <> None -> 0 <= k < vol sh -> sz o k <> sz o' k ->
  bi_make inner idx sh ops = Throw BinnedDataError.
Proof. exact bi_reject. Qed.

(** C11 is false without the conditions: two operands of 2x2x3 bins, both broadcast along the second dimension, with
    one event per bin, stored as six (begin, end) pairs. The comparison of the bin sizes reads beyond them. *)
Ltac read_pair := match goal with |- exists b, ?t = _ =>
  let v := eval vm_compute in t in match v with Some (?x, _) => exists x; vm_compute; reflexivity end end.
Definition six_pairs : bin_memory := fun k => if (0 <=? k) && (k <? 6) then Some (k, k + 1) else None.
Theorem C11_refuted : exists inner idx sh ops, layout_ok inner idx sh ops /\ Forall (has_sizes sh (fun _ => 1)) ops /\
  fits inner sh /\ bi_make inner idx sh ops = Ub.
Proof.
  set (o := mkoperand [3; 0; 1] (Some ([1], six_pairs))).
  exists [6], 0%nat, [2; 2; 3], [o; o]. split; [|split; [|split]].
  - split; [cbn; lia|]. split; [repeat constructor; lia|]. split; [repeat constructor; lia|].
    split; [|exists o; split; [left; reflexivity|discriminate]].
    repeat constructor; intros st ix E; injection E as <- <-; reflexivity.
  - assert (has_sizes [2; 2; 3] (fun _ => 1) o) as HS; [|repeat constructor; assumption].
    intros st ix E. injection E as <- <-. intros k Hk. change (vol [2; 2; 3]) with 12 in Hk.
    assert (In k (zseq 0 12)) as Hin by (apply Index_Proofs.zseq_In; lia). vm_compute in Hin.
    repeat (destruct Hin as [<-|Hin]; [read_pair|]). contradiction.
  - split; vm_compute; lia.
  - vm_compute. reflexivity.
Qed.

(** A case with empty bins in front, in the middle and at the end; a transposed operand and a dense one. Bins of a 2x3
    array with 0, 2, 0, 0, 1, 0 events. *)
Definition ex_size (k : Z) : Z := nth (Z.to_nat k) [0; 2; 0; 0; 1; 0] 0.
Definition ex_pairs : bin_memory := fun k => nth_error [(0, 0); (5, 7); (3, 3); (4, 4); (8, 9); (9, 9)] (Z.to_nat k).
Definition ex_pairs_t : bin_memory := fun k => nth_error [(1, 1); (2, 2); (0, 2); (3, 4); (3, 3); (4, 4)] (Z.to_nat k).
Definition ex_ops : list operand :=
  [mkoperand [3; 1] (Some ([1], ex_pairs)); mkoperand [1; 2] (Some ([2], ex_pairs_t)); mkoperand [0; 1] None].
Example C11_case : layout_ok [10] 0 [2; 3] ex_ops /\ layout_safe [10] 0 [2; 3] ex_ops /\ fits [10] [2; 3] /\
  (forall o o', In o ex_ops -> In o' ex_ops -> flattening_safe [2; 3] [op_strides o; op_strides o']) /\
  (forall k, 0 <= k < vol [2; 3] -> 0 <= ex_size k) /\ Forall (has_sizes [2; 3] ex_size) ex_ops.
Proof.
  assert (forall k, 0 <= k < vol [2; 3] -> In k [0; 1; 2; 3; 4; 5]) as HK.
  { intros k Hk. change (vol [2; 3]) with 6 in Hk. change [0; 1; 2; 3; 4; 5] with (zseq 0 6). apply Index_Proofs.zseq_In. lia. }
  assert (forall sts, flattening_safe [2; 3] sts) as Hsafe by (intros sts; right; cbn [length]; intros d Hd; lia).
  split; [|split; [|split; [|split; [|split]]]].
  - split; [cbn; lia|]. split; [repeat constructor; lia|]. split; [repeat constructor; lia|].
    split; [|eexists; split; [left; reflexivity|discriminate]].
    repeat constructor; cbn; intros st ix E; try discriminate; injection E as <- <-; reflexivity.
  - split; [apply Hsafe|]. right. cbn [length]. intros d Hd. cbn in Hd. lia.
  - split; vm_compute; lia.
  - intros; apply Hsafe.
  - intros k Hk. apply HK in Hk. repeat (destruct Hk as [<-|Hk]; [vm_compute; discriminate|]). contradiction.
  - repeat constructor; intros st ix E k Hk; try discriminate; injection E as <- <-; apply HK in Hk;
      repeat (destruct Hk as [<-|Hk]; [read_pair|]); contradiction.
Qed.
Example C11_case_value : (do s <- bi_make [10] 0 [2; 3] ex_ops; bi_block 3 s 0 6) = Ok [[5; 0; 1]; [6; 2; 1]; [8; 6; 1]] /\
  (do s <- bi_make [10] 0 [2; 3] ex_ops; bi_block 1 s 2 5) = Ok [[8; 6; 1]] /\
  events_of [10] 0 [2; 3] ex_ops ex_size 0 6 = [[5; 0; 1]; [6; 2; 1]; [8; 6; 1]].
Proof. vm_compute. auto. Qed.
(** The second operand has its events in another bin. *)
Example C11_case_reject :
  bi_make [10] 0 [2; 3] [mkoperand [3; 1] (Some ([1], ex_pairs)); mkoperand [3; 1] (Some ([1], ex_pairs_t))] = Throw BinnedDataError.
Proof. vm_compute. reflexivity. Qed.
(** No bins at all. *)
Example C11_case_none : (do s <- bi_make [10] 0 [2; 0] [mkoperand [0; 1] (Some ([1], fun _ => None)); mkoperand [0; 1] None]; bi_block 0 s 0 0) = Ok [].
Proof. vm_compute. reflexivity. Qed.

Print Assumptions C11_block_partial.
Print Assumptions C11_serial_partial.
Print Assumptions C11_increments_partial.
Print Assumptions C11_jump_partial.
Print Assumptions C11_accept_partial.
Print Assumptions C11_reject_partial.
Print Assumptions C11_refuted.
