(** Bin indices (C26) and bin-wise concatenation (C27). *)
From Coq Require Import Permutation Sorted.
From Verif Require Import Base Arr Mapper_Model Mapper_Proofs Index_Proofs Cumsum_Model Cumsum_Props TargetBins_Model Bins_Model.

(** ** C26 *)
(** a range inside of a buffer with [n] elements *)
Definition inside (n : Z) (x : Z * Z) : Prop := 0 <= fst x /\ fst x <= snd x /\ snd x <= n.
(** one range ends before the other begins *)
Definition separate (x y : Z * Z) : Prop := snd x <= fst y \/ snd y <= fst x.
Definition all_separate (l : list (Z * Z)) : Prop := forall i j, 0 <= i < j -> j < zlen l -> separate (znth (0, 0) l i) (znth (0, 0) l j).

Definition pair_le (a b : Z * Z) : Prop := fst a < fst b \/ (fst a = fst b /\ snd a <= snd b).
Lemma insert_perm x l : Permutation (insert x l) (x :: l).
Proof. induction l as [|y l IH]; [apply Permutation_refl|]. cbn [insert]. destruct (pair_lt y x); [|apply Permutation_refl]. rewrite IH. apply perm_swap. Qed.
Lemma sort_perm l : Permutation (sort l) l.
Proof. induction l as [|x l IH]; [apply Permutation_refl|]. cbn [sort fold_right]. rewrite insert_perm. apply perm_skip. exact IH. Qed.
Lemma insert_sorted x l : StronglySorted pair_le l -> StronglySorted pair_le (insert x l).
Proof.
  induction l as [|y l IH]; intros Hl; [repeat constructor|]. apply StronglySorted_inv in Hl as [Hl Hy]. cbn [insert]. destruct (pair_lt y x) eqn:E; unfold pair_lt in E.
  - constructor; [apply IH; exact Hl|]. apply Forall_forall. intros z Hz. apply (Permutation_in _ (insert_perm x l)) in Hz as [<-|Hz]; [unfold pair_le; lia|]. rewrite Forall_forall in Hy. apply Hy. exact Hz.
  - constructor; [constructor; assumption|]. constructor; [unfold pair_le; lia|]. rewrite Forall_forall in Hy |- *. intros z Hz. specialize (Hy z Hz). unfold pair_le in *. lia.
Qed.
Lemma sort_sorted l : StronglySorted pair_le (sort l).
Proof. induction l as [|x l IH]; [constructor|]. apply insert_sorted. exact IH. Qed.

Lemma all_separate_cons x l : all_separate (x :: l) <-> Forall (separate x) l /\ all_separate l.
Proof.
  split.
  - intros Ha. split.
    + apply Forall_forall. intros y Hy. apply (In_znth (0, 0)) in Hy as (i & Hi & <-). specialize (Ha 0 (i + 1) ltac:(lia) ltac:(rewrite zlen_cons; lia)). rewrite znth_0, znth_S in Ha by lia. replace (i + 1 - 1) with i in Ha by lia. exact Ha.
    + intros i j Hij Hj. specialize (Ha (i + 1) (j + 1) ltac:(lia) ltac:(rewrite zlen_cons; lia)). rewrite !znth_S in Ha by lia. replace (i + 1 - 1) with i in Ha by lia. replace (j + 1 - 1) with j in Ha by lia. exact Ha.
  - intros [Hx Hl] i j Hij Hj. rewrite zlen_cons in Hj. rewrite (znth_S _ _ _ j) by lia. destruct (Z.eq_dec i 0) as [->|].
    + rewrite znth_0. rewrite Forall_forall in Hx. apply Hx. apply znth_In. lia.
    + rewrite znth_S by lia. apply Hl; lia.
Qed.
Lemma all_separate_perm l m : Permutation l m -> all_separate l -> all_separate m.
Proof.
  induction 1 as [|x l m Hp IH|x y l|l m k Hp1 IH1 Hp2 IH2]; intros Hl; auto.
  - apply all_separate_cons in Hl as [Hx Hl]. apply all_separate_cons. split; [|apply IH; exact Hl]. rewrite Forall_forall in Hx |- *. intros y Hy. apply Hx. apply (Permutation_in _ (Permutation_sym Hp)). exact Hy.
  - apply all_separate_cons in Hl as [Hy Hl]. apply all_separate_cons in Hl as [Hx Hl]. apply Forall_cons_iff in Hy as [Hyx Hy]. apply all_separate_cons. split; [constructor; [unfold separate in *; lia|exact Hx]|]. apply all_separate_cons. split; assumption.
Qed.
Lemma adjacent_chain l : adjacent_find (fun a b => fst b <? snd a) l = false -> existsb (fun x => snd x <? fst x) l = false -> StronglySorted (fun a b => snd a <= fst b) l.
Proof.
  induction l as [|x l IH]; intros Ha He; [constructor|]. cbn [existsb] in He. apply orb_false_elim in He as [_ He]. destruct l as [|y l]; [repeat constructor|].
  cbn [adjacent_find] in Ha. change (match l with [] => false | b :: _ => (fst b <? snd y) || adjacent_find (fun a b0 => fst b0 <? snd a) l end) with (adjacent_find (fun a b => fst b <? snd a) (y :: l)) in Ha.
  apply orb_false_elim in Ha as [Hxy Ha]. specialize (IH Ha He). constructor; [exact IH|]. apply StronglySorted_inv in IH as [_ Hy]. cbn [existsb] in He. apply orb_false_elim in He as [Hy0 _]. constructor; [lia|]. rewrite Forall_forall in Hy |- *. intros z Hz. specialize (Hy z Hz). lia.
Qed.
Lemma last_In {A} (d : A) x l : In (last (x :: l) d) (x :: l).
Proof. revert x. induction l as [|y l IH]; intros x; [left; reflexivity|]. right. apply IH. Qed.
Lemma chain_last l x : StronglySorted (fun a b : Z * Z => snd a <= fst b) (x :: l) -> (forall y, In y (x :: l) -> fst y <= snd y) -> forall y, In y (x :: l) -> snd y <= snd (last (x :: l) (0, 0)).
Proof.
  revert x. induction l as [|z l IH]; intros x Hs Hle y Hy; [destruct Hy as [<-|[]]; cbn; lia|]. apply StronglySorted_inv in Hs as [Hs Hx]. change (last (x :: z :: l) (0, 0)) with (last (z :: l) (0, 0)). destruct Hy as [<-|Hy].
  - apply Forall_cons_iff in Hx as [Hx _]. specialize (IH z Hs (fun y Hy => Hle y (or_intror Hy)) z (or_introl eq_refl)). specialize (Hle z (or_intror (or_introl eq_refl))). lia.
  - apply IH; [exact Hs|intros w Hw; apply Hle; right; exact Hw|exact Hy].
Qed.
Lemma separate_sorted l : StronglySorted pair_le l -> all_separate l -> (forall x, In x l -> fst x <= snd x) -> adjacent_find (fun a b => fst b <? snd a) l = false.
Proof.
  induction l as [|x [|y l] IH]; intros Hs Ha Hle; [reflexivity|reflexivity|]. change (adjacent_find (fun a b : Z * Z => fst b <? snd a) (x :: y :: l)) with ((fst y <? snd x) || adjacent_find (fun a b : Z * Z => fst b <? snd a) (y :: l)).
  apply StronglySorted_inv in Hs as [Hs Hx]. apply all_separate_cons in Ha as [Hsx Ha]. rewrite IH; [|exact Hs|exact Ha|intros z Hz; apply Hle; right; exact Hz]. rewrite orb_false_r. apply Forall_cons_iff in Hx as [Hxy _]. apply Forall_cons_iff in Hsx as [Hxs _]. pose proof (Hle x (or_introl eq_refl)). pose proof (Hle y (or_intror (or_introl eq_refl))). unfold pair_le in Hxy. unfold separate in Hxs. lia.
Qed.
(** make_bins accepts the indices if and only if all bins are ranges inside of the buffer and every two of them are separate;
    otherwise it throws. *)
Theorem C26_accept indices n : (expect_valid_bin_indices true indices (Ok n) = Ok tt <-> Forall (inside n) indices /\ all_separate indices) /\
  (expect_valid_bin_indices true indices (Ok n) = Ok tt \/ expect_valid_bin_indices true indices (Ok n) = Throw SliceError).
Proof.
  unfold expect_valid_bin_indices. cbn [negb]. pose proof (sort_perm indices) as Hp. pose proof (sort_sorted indices) as Hs. set (vals := sort indices) in *. clearbody vals.
  assert (Hequiv : (Forall (inside n) indices /\ all_separate indices) <-> (Forall (inside n) vals /\ all_separate vals)).
  { split; intros [H1 H2]; (split; [rewrite Forall_forall in H1 |- *; intros x Hx; apply H1|]).
    - apply (Permutation_in _ Hp). exact Hx.
    - apply (all_separate_perm indices); [apply Permutation_sym; exact Hp|exact H2].
    - apply (Permutation_in _ (Permutation_sym Hp)). exact Hx.
    - apply (all_separate_perm vals); assumption. }
  rewrite Hequiv. clear Hequiv Hp indices. destruct vals as [|x l]; [split; [split; [intros _; split; [constructor|intros i j Hij Hj; change (zlen (@nil (Z * Z))) with 0 in Hj; lia]|reflexivity]|left; reflexivity]|].
  cbn [bind]. destruct (Z.ltb_spec (fst x) 0).
  { split; [|right; reflexivity]. split; [discriminate|]. intros [Hi _]. apply Forall_cons_iff in Hi as [Hi _]. unfold inside in Hi. lia. }
  destruct (Z.ltb_spec n (snd (last (x :: l) (0, 0)))).
  { split; [|right; reflexivity]. split; [discriminate|]. intros [Hi _]. rewrite Forall_forall in Hi. specialize (Hi _ (last_In (0, 0) x l)). unfold inside in Hi. lia. }
  destruct (adjacent_find _ (x :: l)) eqn:Ea.
  { split; [|right; reflexivity]. split; [discriminate|]. intros [Hi Hsep]. rewrite separate_sorted in Ea; [discriminate|exact Hs|exact Hsep|]. intros y Hy. rewrite Forall_forall in Hi. specialize (Hi y Hy). unfold inside in Hi. lia. }
  destruct (existsb _ (x :: l)) eqn:Ee.
  { split; [|right; reflexivity]. split; [discriminate|]. intros [Hi _]. apply existsb_exists in Ee as (y & Hy & Ey). rewrite Forall_forall in Hi. specialize (Hi y Hy). unfold inside in Hi. lia. }
  split; [|left; reflexivity]. split; [|reflexivity]. intros _. pose proof (adjacent_chain _ Ea Ee) as Hc.
  assert (Hle : forall y, In y (x :: l) -> fst y <= snd y). { intros y Hy. destruct (Z_le_gt_dec (fst y) (snd y)); [assumption|]. assert (existsb (fun x0 => snd x0 <? fst x0) (x :: l) = true) by (apply existsb_exists; exists y; split; [exact Hy|lia]). congruence. }
  split.
  - apply Forall_forall. intros y Hy. pose proof (chain_last l x Hc Hle y Hy). specialize (Hle y Hy). unfold inside. split; [|lia]. destruct Hy as [<-|Hy]; [lia|]. apply StronglySorted_inv in Hs as [_ Hx]. rewrite Forall_forall in Hx. specialize (Hx y Hy). unfold pair_le in Hx. lia.
  - clear - Hc. induction Hc as [|y m Hm IH Hy]; [intros i j Hij Hj; change (zlen (@nil (Z * Z))) with 0 in Hj; lia|]. apply all_separate_cons. split; [|exact IH]. rewrite Forall_forall in Hy |- *. intros z Hz. left. apply Hy. exact Hz.
Qed.
Print Assumptions C26_accept.

(** Hence no element belongs to two bins, and writing to an element of one bin does not change the other bins. *)
Theorem C26_no_alias {A} indices (buffer : list A) i j k x : expect_valid_bin_indices true indices (Ok (zlen buffer)) = Ok tt -> 0 <= i < zlen indices -> 0 <= j < zlen indices -> i <> j ->
  fst (znth (0, 0) indices i) <= k < snd (znth (0, 0) indices i) ->
  ~ fst (znth (0, 0) indices j) <= k < snd (znth (0, 0) indices j) /\
  exists buffer', vset buffer k x = Ok buffer' /\ slice_range buffer' (znth (0, 0) indices j) = slice_range buffer (znth (0, 0) indices j).
Proof.
  intros Hv Hi Hj Hij Hk. apply (proj1 (proj1 (C26_accept indices (zlen buffer)))) in Hv as [Hin Hsep]. rewrite Forall_forall in Hin. pose proof (Hin _ (znth_In (0, 0) indices i Hi)) as Ii. pose proof (Hin _ (znth_In (0, 0) indices j Hj)) as Ij. unfold inside in *.
  assert (Hs : separate (znth (0, 0) indices i) (znth (0, 0) indices j)). { destruct (Z_lt_ge_dec i j); [apply Hsep; lia|]. assert (Hs : separate (znth (0, 0) indices j) (znth (0, 0) indices i)) by (apply Hsep; lia). unfold separate in *. lia. }
  unfold separate in Hs. set (bj := znth (0, 0) indices j) in *. assert (Hkj : ~ fst bj <= k < snd bj) by lia. split; [exact Hkj|]. exists (zupd buffer k x). split; [apply vset_zupd; lia|]. unfold slice_range.
  apply (znth_ext x).
  - rewrite !zlen_firstn; [reflexivity| |]; rewrite zlen_skipn; rewrite ?zlen_zupd; lia.
  - intros p Hp. rewrite zlen_firstn in Hp by (rewrite zlen_skipn; rewrite ?zlen_zupd; lia). rewrite !znth_firstn, !znth_skipn by lia. rewrite znth_zupd by lia. destruct (Z.eqb_spec (fst bj + p) k); [lia|reflexivity].
Qed.
Print Assumptions C26_no_alias.
(** Accepted indices satisfy the condition for cumulative sums of bins (C37). *)
Theorem C26_apart indices n : expect_valid_bin_indices true indices (Ok n) = Ok tt -> apart indices.
Proof.
  intros Hv. apply (proj1 (proj1 (C26_accept indices n))) in Hv as [_ Hsep]. intros i j k Hi Hj Ha Hb. destruct (Z.eq_dec i j); [assumption|]. exfalso. destruct (Z_lt_ge_dec i j).
  - specialize (Hsep i j ltac:(lia) ltac:(lia)). unfold separate in Hsep. lia.
  - specialize (Hsep j i ltac:(lia) ltac:(lia)). unfold separate in Hsep. lia.
Qed.
Print Assumptions C26_apart.
Example C26_case : expect_valid_bin_indices true [(3, 5); (0, 2); (3, 3); (2, 2); (5, 5)] (Ok 5) = Ok tt /\ expect_valid_bin_indices true [(0, 2); (1, 3)] (Ok 5) = Throw SliceError /\
  expect_valid_bin_indices true [(2, 1)] (Ok 5) = Throw SliceError /\ expect_valid_bin_indices true [] (Throw DimensionError) = Ok tt.
Proof. repeat split; reflexivity. Qed.
(** An empty bin inside of another bin shares no element with it but is rejected. *)
Theorem C26_empty_refuted : exists indices n, Forall (inside n) indices /\ apart indices /\ expect_valid_bin_indices true indices (Ok n) = Throw SliceError.
Proof.
  exists [(0, 4); (2, 2)], 4. split; [|split; [|reflexivity]].
  - repeat apply Forall_cons; try apply Forall_nil; unfold inside; cbn; lia.
  - intros i j k Hi Hj Ha Hb. change (zlen [(0, 4); (2, 2)]) with 2 in *. assert (i = 0 \/ i = 1) as [-> | ->] by lia; assert (j = 0 \/ j = 1) as [-> | ->] by lia; cbv [znth Z.ltb Z.compare Z.to_nat Pos.to_nat Pos.iter_op nth Init.Nat.add fst snd] in Ha, Hb; lia.
Qed.
Print Assumptions C26_empty_refuted.
