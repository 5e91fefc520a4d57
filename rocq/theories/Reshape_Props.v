(** C38: fold and flatten.

    The arrays here have any shape; an "item" is the data, a coord, a mask or an attribute. [mk p] is the dimensions with the
    labels and extents [p]; [fits p q] (SizedDict_Spec) is the consistency condition that every item of a data array satisfies
    (C28, C32). *)
From Verif Require Import Base Arr Map_Model Map_Proofs Dims_Model Dims_Spec Dims_Proofs View_Model View_Spec View_Proofs SizedDict_Model SizedDict_Spec SizedDict_Proofs Reshape_Model Reshape_Spec Reshape_Proofs Reshape_Item_Proofs.

(** Flatten without bin edges: a dimension of the product of the extents replaces the dimensions [b]; the elements are in row-major
    order over [b]. An item with only some of the dimensions [b] is repeated along the others, one with none of them is kept. *)
Theorem C38_flatten A eqb junk (x : varr A) a b c to data :
  wfv (va x) -> lwf (a ++ b ++ c) -> b <> [] -> fits (a ++ b ++ c) (vshape x) ->
  (forall k, In k (keys b) -> ~ edges_on (a ++ b ++ c) (vshape x) k) ->
  to <> InvalidDim -> ~ In to (keys (before (keys b) (vshape x)) ++ keys (after (keys b) (vshape x))) ->
  (data = true -> vshape x = a ++ b ++ c) ->
  exists y, flatten_item eqb junk (mk (a ++ b ++ c)) (keys b) to data x = Ok (Some y) /\ wfv (va y) /\
    if existsb (fun e => mem (fst e) (keys b)) (vshape x)
    then vshape y = before (keys b) (vshape x) ++ (to, vol (extents b)) :: after (keys b) (vshape x) /\
         forall ix, valid_at (vshape y) ix -> val y ix = val x (puts ix (keys b) (index_at (extents b) (ix to)))
    else same_elements y x.
Proof. apply flatten_item_ok. Qed.
Print Assumptions C38_flatten.

(** Fold without bin edges: the element at [ix] is the one at the row-major position of the new indices; an item without the
    dimension is kept. *)
Theorem C38_fold A (x : varr A) dp d t : wfv (va x) -> lwf dp -> In d (keys dp) -> fits dp (vshape x) ->
  (~ In d (keys (vshape x)) -> fold_item (mk dp) d t x = Ok x) /\
  forall p1 n p2, vshape x = p1 ++ (d, n) :: p2 -> In (d, n) dp -> wf t -> NoDup (keys (p1 ++ pairs t ++ p2)) -> vol (extents (pairs t)) = n ->
    exists y, fold_item (mk dp) d t x = Ok y /\ vshape y = p1 ++ pairs t ++ p2 /\ wfv (va y) /\
      forall ix, valid_at (p1 ++ pairs t ++ p2) ix -> val y ix = val x (put ix d (position (extents (pairs t)) (map ix (keys (pairs t))))).
Proof.
  intros Hw Hd Hdd Hf. destruct (fold_item_ok x dp d t Hw Hd Hdd Hf) as (F1 & _ & F3). split; [exact F1|].
  intros p1 n p2 Ex Hdn Ht Hnd Hv. rewrite F3.
  - apply (fold_ok x p1 d n p2 t Hw Ht Ex Hnd Hv).
  - rewrite Ex, keys_app. apply in_elt.
  - intros (m & Hm & Hmd). assert (Hp : lwf (vshape x)) by apply (wf_mk_pairs _ (proj1 Hw)). pose proof (In_unique _ d _ n (proj1 Hp) Hm ltac:(rewrite Ex; apply in_elt)). pose proof (In_unique _ d _ n (proj1 Hd) Hmd Hdn). lia.
Qed.
Print Assumptions C38_fold.

(** Fold followed by flatten gives the item back ... *)
Theorem C38_fold_flatten A eqb junk (x y : varr A) a d n c t p1 p2 data :
  wfv (va x) -> wf t -> lwf (a ++ (d, n) :: c) -> lwf (a ++ pairs t ++ c) -> pairs t <> [] -> vol (extents (pairs t)) = n ->
  fits (a ++ (d, n) :: c) (vshape x) -> vshape x = p1 ++ (d, n) :: p2 -> (data = true -> p1 = a /\ p2 = c) -> NoDup (keys (p1 ++ pairs t ++ p2)) ->
  fold_item (mk (a ++ (d, n) :: c)) d t x = Ok y ->
  exists z, flatten_item eqb junk (mk (a ++ pairs t ++ c)) (keys (pairs t)) d data y = Ok (Some z) /\ wfv (va z) /\ same_elements z x.
Proof. apply item_fold_flatten. Qed.
Print Assumptions C38_fold_flatten.

(** ... and flatten followed by fold, for items with all the flattened dimensions, in the order of the data. *)
Theorem C38_flatten_fold A eqb junk (x : varr A) a t c to p1 p2 data :
  wfv (va x) -> wf t -> lwf (a ++ pairs t ++ c) -> pairs t <> [] -> to <> InvalidDim -> ~ In to (keys a ++ keys c) -> ~ In to (keys p1 ++ keys p2) ->
  fits (a ++ pairs t ++ c) (vshape x) -> vshape x = p1 ++ pairs t ++ p2 -> (data = true -> p1 = a /\ p2 = c) ->
  exists y z, flatten_item eqb junk (mk (a ++ pairs t ++ c)) (keys (pairs t)) to data x = Ok (Some y) /\
    fold_item (mk (a ++ (to, vol (extents (pairs t))) :: c)) to t y = Ok z /\ wfv (va z) /\ same_elements z x.
Proof. apply item_flatten_fold. Qed.
Print Assumptions C38_flatten_fold.

(** Folded bin edges: readonly, no reads outside the buffer, and the element of the data at [ix] of the folded array, which is the
    element [k] of the data before (C38_fold), has the edges that belong to [k]. *)
Theorem C38_fold_edges A (x : varr A) dp d n t q e m p1 p2 :
  wfv (va x) -> lwf dp -> fits dp (vshape x) -> In (d, n) dp -> wf t -> vshape x = p1 ++ (d, n + 1) :: p2 -> pairs t = q ++ [(e, m)] ->
  NoDup (keys (p1 ++ pairs t ++ p2)) -> vol (extents (pairs t)) = n ->
  exists y, fold_item (mk dp) d t x = Ok y /\ vshape y = p1 ++ (q ++ [(e, m + 1)]) ++ p2 /\ wfv (va y) /\ v_readonly (va y) = true /\
    (forall ix, valid_at (vshape y) ix -> exists k, 0 <= k <= n /\ vaddr (va y) ix = vaddr (va x) (put ix d k)) /\
    forall ix, valid_at (p1 ++ pairs t ++ p2) ix ->
      let k := position (extents (pairs t)) (map ix (keys (pairs t))) in
      val y ix = val x (put ix d k) /\ val y (next ix e) = val x (put ix d (k + 1)).
Proof.
  intros Hw Hd Hf Hdn Ht Ex Et Hnd Hv. destruct (fold_item_ok x dp d t Hw Hd ltac:(apply In_keys; eauto) Hf) as (_ & F & _).
  rewrite F by (exists n; split; [rewrite Ex; apply in_elt|exact Hdn]). destruct (fold_edge_ok x p1 d n p2 t q e m Hw Ht Ex Et Hnd Hv) as (y & Ey & Sy & Hy & Ry & Hval).
  exists y. split; [exact Ey|]. split; [exact Sy|]. split; [exact Hy|]. split; [exact Ry|]. split.
  - intros ix Hix. destruct (Hval ix) as (Hb & Ha & _). eexists. split; [apply Hb, Hix|exact Ha].
  - intros ix Hix k. destruct (Hval ix) as (_ & _ & E1). destruct (Hval (next ix e)) as (_ & _ & E2). split; [exact E1|]. rewrite E2.
    assert (Hlt : lwf (q ++ [(e, m)])) by (rewrite <- Et; apply (wf_mk_pairs t Ht)). destruct (lwf_app _ _ _ _ Hlt) as (_ & _ & Heq & _).
    replace (position (extents (pairs t)) (map (next ix e) (keys (pairs t)))) with (k + 1).
    + apply val_same; [exact Hw|]. rewrite Ex. intros j Hj. unfold put. destruct (Z.eqb_spec j d) as [|Hjd]; [reflexivity|]. unfold next. rewrite put_other; [reflexivity|]. intros ->.
      rewrite keys_app in Hj. rewrite Et in Hnd. assert (Hee : In e (keys p1 ++ keys p2)) by (apply in_app_or in Hj as [Hj|[Hj|Hj]]; [apply in_or_app; left; exact Hj|cbn in Hj; congruence|apply in_or_app; right; exact Hj]).
      rewrite !keys_app, <- app_assoc in Hnd. rewrite app_assoc in Hnd. cbn [keys map fst app] in Hnd. apply NoDup_remove_2 in Hnd. apply Hnd. apply in_app_or in Hee as [Hee|Hee]; apply in_or_app; [left; apply in_or_app; left|right]; exact Hee.
    + unfold k. rewrite Et, !position_last by exact Heq. unfold next. rewrite put_same. replace (map (put ix e (ix e + 1)) (keys q)) with (map ix (keys q)); [lia|].
      apply map_ext_in. intros j Hj. symmetry. apply put_other. intros ->. contradiction.
Qed.
Print Assumptions C38_fold_edges.

(** Flattened bin edges, if they are along the last of the flattened dimensions and the coord has no other dimensions than the
    flattened ones: dropped exactly if the end of some row differs from the begin of the next one; otherwise the element [k] of the
    data, which is [cell b k] (C38_flatten), has the edges that belong to it. *)
Theorem C38_flatten_edges A eqb junk (x : varr A) a q e n c to :
  wfv (va x) -> lwf (a ++ (q ++ [(e, n)]) ++ c) -> (forall k, In k (keys (vshape x)) -> In k (keys (q ++ [(e, n)]))) ->
  In (e, n + 1) (vshape x) -> (forall k m, In (k, m) (vshape x) -> k <> e -> In (k, m) q) -> to <> InvalidDim -> 0 < vol (extents q) ->
  let r := flatten_item eqb junk (mk (a ++ (q ++ [(e, n)]) ++ c)) (keys (q ++ [(e, n)])) to false x in
  (~ joinable eqb x q e n -> r = Ok None) /\
  (joinable eqb x q e n -> exists z, r = Ok (Some z) /\ wfv (va z) /\ v_readonly (va z) = false /\
    vshape z = [(to, vol (extents (q ++ [(e, n)])) + 1)] /\
    forall k, 0 <= k < vol (extents (q ++ [(e, n)])) ->
      val z (fun _ => k) = val x (cell (q ++ [(e, n)]) k) /\
      (val z (fun _ => k + 1) = val x (next (cell (q ++ [(e, n)]) k) e) \/ eqb (val z (fun _ => k + 1)) (val x (next (cell (q ++ [(e, n)]) k) e)) = true)).
Proof.
  intros Hw Hd Hall He Ho Hto HR r. destruct (flatten_item_edges eqb junk x a q e n c to Hw Hd Hall He Ho Hto HR) as [F1 F2]. split; [exact F1|]. intros Hj.
  destruct (F2 Hj) as (z & Ez & Hz & Rz & Sz & _ & Hk). exists z. auto.
Qed.
Print Assumptions C38_flatten_edges.

(** One-dimensional edges folded and flattened again; comparing an edge with itself must give true (no NaN). *)
Theorem C38_edges_fold_flatten A (eqb : A -> A -> bool) junk (x : varr A) d n t q e m dp :
  wfv (va x) -> wf t -> vshape x = [(d, n + 1)] -> pairs t = q ++ [(e, m)] -> vol (extents (pairs t)) = n -> 0 < vol (extents q) ->
  (forall k, 0 <= k <= n -> eqb (val x (fun _ => k)) (val x (fun _ => k)) = true) -> lwf dp -> In (d, n) dp ->
  exists y z, fold_item (mk dp) d t x = Ok y /\ flatten_item eqb junk t (keys (pairs t)) d false y = Ok (Some z) /\ wfv (va z) /\ same_elements z x.
Proof. apply edges_round_trip. Qed.
Print Assumptions C38_edges_fold_flatten.

(** Edges flattened and folded again: the end of a row is replaced by the equal begin of the next one (-0 and 0). *)
Theorem C38_edges_flatten_fold A eqb junk (x : varr A) t q e n to :
  wfv (va x) -> wf t -> pairs t = q ++ [(e, n)] -> vshape x = q ++ [(e, n + 1)] -> to <> InvalidDim -> 0 < n -> 0 < vol (extents q) -> joinable eqb x q e n ->
  exists y z, flatten_item eqb junk t (keys (pairs t)) to false x = Ok (Some y) /\ fold_item (mk [(to, vol (extents (pairs t)))]) to t y = Ok z /\ wfv (va z) /\
    vshape z = vshape x /\ forall ix, valid_at (vshape x) ix -> val z ix = val x ix \/ eqb (val z ix) (val x ix) = true.
Proof. apply edges_flatten_fold. Qed.
Print Assumptions C38_edges_flatten_fold.

(** ** Concrete cases *)
Definition D (l : list (Z * Z)) : sizes := mk l.
Definition arr_of (l : list (Z * Z)) (xs : list Z) : varr Z := mkva (fun a => nth (Z.to_nat a) xs (-99)) (var_fresh (D l)).
Definition elems (r : res (option (varr Z))) : option (lshape * list Z) := match r with Ok (Some y) => Some (vshape y, row_major_elements y) | _ => None end.
Definition felems (r : res (varr Z)) : option (lshape * list Z) := match r with Ok y => Some (vshape y, row_major_elements y) | _ => None end.
Lemma arr_of_ok l xs : lwf l -> wfv (va (arr_of l xs)) /\ vshape (arr_of l xs) = l.
Proof.
  intros Hl. unfold vshape, vdims, arr_of, D. cbn [va]. split; [|apply pairs_mk]. rewrite fresh_SV by apply Hl. apply SV_wfv; [exact Hl|]. apply sfc_nonneg. exact Hl.
Qed.
Ltac lwf_tac := split; [repeat (constructor; [cbn; intuition lia|]); constructor|split; [repeat constructor; cbn; lia|cbn; intuition discriminate]].

(** A (2:2, 3:3) array, flattened to 5:6 and folded: a coord of dimension 3 only is repeated. *)
Example C38_flatten_case : elems (flatten_item Z.eqb (fun _ => 0) (D [(2, 2); (3, 3)]) [2; 3] 5 false (arr_of [(3, 3)] [7; 8; 9])) = Some ([(5, 6)], [7; 8; 9; 7; 8; 9]) /\
  elems (flatten_item Z.eqb (fun _ => 0) (D [(2, 2); (3, 3)]) [2; 3] 5 false (arr_of [(2, 2)] [7; 8])) = Some ([(5, 6)], [7; 7; 7; 8; 8; 8]) /\
  elems (flatten_item Z.eqb (fun _ => 0) (D [(2, 2); (3, 3)]) [2; 3] 5 false (arr_of [] [7])) = Some ([], [7]).
Proof. repeat split; vm_compute; reflexivity. Qed.
Example C38_flatten_hyp_case : exists y, flatten_item Z.eqb (fun _ => 0) (D ([(4, 2)] ++ [(2, 2); (3, 3)] ++ [])) [2; 3] 5 false (arr_of [(3, 3); (4, 3)] (zseq 0 9)) = Ok (Some y) /\ vshape y = [(5, 6); (4, 3)].
Proof.
  destruct (arr_of_ok [(3, 3); (4, 3)] (zseq 0 9) ltac:(lwf_tac)) as [Hw Hs].
  destruct (C38_flatten Z Z.eqb (fun _ => 0) (arr_of [(3, 3); (4, 3)] (zseq 0 9)) [(4, 2)] [(2, 2); (3, 3)] [] 5 false Hw) as (y & Ey & _ & Hy).
  - lwf_tac.
  - discriminate.
  - rewrite Hs. right. exists 4, 3. split; [right; left; reflexivity|]. split; [intros k m [[= <- <-]|[[= <- <-]|[]]] Hk; [cbn; auto|congruence]|left; left; reflexivity].
  - rewrite Hs. intros k Hk (n & Hn & Hd). cbn in Hk, Hn, Hd. intuition (try congruence); repeat match goal with E : (_, _) = (_, _) |- _ => injection E; clear E; intros end; lia.
  - discriminate.
  - cbn. intuition discriminate.
  - discriminate.
  - exists y. split; [exact Ey|]. rewrite Hs in Hy. cbn in Hy. apply Hy.
Qed.

Example C38_fold_edges_case : felems (fold_item (D [(5, 6)]) 5 (D [(2, 2); (3, 3)]) (arr_of [(5, 7)] [0; 10; 20; 30; 40; 50; 60])) =
  Some ([(2, 2); (3, 4)], [0; 10; 20; 30; 30; 40; 50; 60]).
Proof. vm_compute. reflexivity. Qed.
Example C38_fold_edges_hyp_case : exists y, fold_item (D [(5, 6)]) 5 (D [(2, 2); (3, 3)]) (arr_of [(5, 7)] [0; 10; 20; 30; 40; 50; 60]) = Ok y /\ val y (next (fun k => if k =? 2 then 0 else 2) 3) = 30.
Proof.
  destruct (arr_of_ok [(5, 7)] [0; 10; 20; 30; 40; 50; 60] ltac:(lwf_tac)) as [Hw Hs].
  destruct (C38_fold_edges Z (arr_of [(5, 7)] [0; 10; 20; 30; 40; 50; 60]) [(5, 6)] 5 6 (D [(2, 2); (3, 3)]) [(2, 2)] 3 3 [] [] Hw) as (y & Ey & _ & _ & _ & _ & Hy).
  - lwf_tac.
  - rewrite Hs. right. exists 5, 7. split; [left; reflexivity|]. split; [intros k m [[= <- <-]|[]] Hk; congruence|left; left; reflexivity].
  - left. reflexivity.
  - apply mk_wf. lwf_tac.
  - exact Hs.
  - reflexivity.
  - cbn. repeat (constructor; [cbn; intuition lia|]). constructor.
  - reflexivity.
  - exists y. split; [exact Ey|]. apply (Hy (fun k => if k =? 2 then 0 else 2)). intros k m [[= <- <-]|[[= <- <-]|[]]]; cbn; lia.
Qed.
Example C38_flatten_edges_case : elems (flatten_item Z.eqb (fun _ => 0) (D [(2, 2); (3, 3)]) [2; 3] 5 false (arr_of [(2, 2); (3, 4)] [0; 10; 20; 30; 30; 40; 50; 60])) = Some ([(5, 7)], [0; 10; 20; 30; 40; 50; 60]) /\
  flatten_item Z.eqb (fun _ => 0) (D [(2, 2); (3, 3)]) [2; 3] 5 false (arr_of [(2, 2); (3, 4)] [0; 10; 20; 30; 31; 40; 50; 60]) = Ok None.
Proof. split; vm_compute; reflexivity. Qed.
Example C38_flatten_edges_hyp_case : exists z, flatten_item Z.eqb (fun _ => 0) (D ([] ++ ([(2, 2)] ++ [(3, 3)]) ++ [])) [2; 3] 5 false (arr_of [(2, 2); (3, 4)] [0; 10; 20; 30; 30; 40; 50; 60]) = Ok (Some z) /\ vshape z = [(5, 7)].
Proof.
  destruct (arr_of_ok [(2, 2); (3, 4)] [0; 10; 20; 30; 30; 40; 50; 60] ltac:(lwf_tac)) as [Hw Hs].
  destruct (C38_flatten_edges Z Z.eqb (fun _ => 0) (arr_of [(2, 2); (3, 4)] [0; 10; 20; 30; 30; 40; 50; 60]) [] [(2, 2)] 3 3 [] 5 Hw) as [_ F].
  - lwf_tac.
  - rewrite Hs. cbn. auto.
  - rewrite Hs. right. left. reflexivity.
  - rewrite Hs. intros k m [[= <- <-]|[[= <- <-]|[]]] Hk; [left; reflexivity|congruence].
  - discriminate.
  - reflexivity.
  - destruct F as (z & Ez & _ & _ & Sz & _); [|exists z; split; [exact Ez|exact Sz]]. intros r Hr. cbn in Hr. assert (r = 0) as -> by lia. reflexivity.
Qed.

(** ** Counterexamples *)
(** Edges of a coord with a further dimension (4): the last edge of the result is that of the last row of all rows, also for the
    other index of dimension 4: the bin with edges (3, 4) gets (3, 8) ... *)
Theorem C38_extra_dimension_refuted :
  let x := arr_of [(4, 2); (2, 2); (3, 3)] [0; 1; 2; 2; 3; 4; 4; 5; 6; 6; 7; 8] in
  elems (flatten_item Z.eqb (fun _ => 0) (D [(4, 2); (2, 2); (3, 2)]) [2; 3] 5 false x) = Some ([(4, 2); (5, 5)], [0; 1; 2; 3; 8; 4; 5; 6; 7; 8]) /\
  val x (fun k => if k =? 4 then 0 else if k =? 2 then 1 else 2) = 4.
Proof. split; vm_compute; reflexivity. Qed.
Print Assumptions C38_extra_dimension_refuted.
(** ... and edges that can be joined for every index of the further dimension are dropped. *)
Theorem C38_extra_dimension_dropped_refuted :
  flatten_item Z.eqb (fun _ => 0) (D [(4, 2); (2, 2); (3, 2)]) [2; 3] 5 false (arr_of [(4, 2); (2, 2); (3, 3)] [0; 1; 2; 2; 3; 4; 0; 1; 2; 2; 3; 4]) = Ok None.
Proof. vm_compute. reflexivity. Qed.
Print Assumptions C38_extra_dimension_dropped_refuted.
(** Edges along a dimension that is not the last of the flattened ones: accepted, with wrong edges: the first bin, with edges
    (0, 1), gets (0, 2). *)
Theorem C38_edge_dimension_refuted :
  let x := arr_of [(2, 3); (3, 2)] [0; 2; 1; 3; 2; 4] in
  elems (flatten_item Z.eqb (fun _ => 0) (D [(2, 2); (3, 2)]) [2; 3] 5 false x) = Some ([(5, 5)], [0; 2; 1; 3; 4]) /\
  val x (fun _ => 0) = 0 /\ val x (next (fun _ => 0) 2) = 1.
Proof. repeat split; vm_compute; reflexivity. Qed.
Print Assumptions C38_edge_dimension_refuted.
(** No rows: flatten fails, although the data can be flattened. *)
Theorem C38_no_rows_refuted :
  flatten_item Z.eqb (fun _ => 0) (D [(2, 0); (3, 2)]) [2; 3] 5 false (arr_of [(2, 0); (3, 3)] []) = Throw SliceError /\
  elems (flatten_item Z.eqb (fun _ => 0) (D [(2, 0); (3, 2)]) [2; 3] 5 true (arr_of [(2, 0); (3, 2)] [])) = Some ([(5, 0)], []).
Proof. split; vm_compute; reflexivity. Qed.
Print Assumptions C38_no_rows_refuted.
(** Fold compares the numbers of all elements only: with another dimension of extent 0, a dimension of extent 6 is folded to 2 times 2,
    and flatten gives 4. *)
Theorem C38_fold_volume_refuted :
  exists y, fold_item (D [(4, 0); (5, 6)]) 5 (D [(2, 2); (3, 2)]) (arr_of [(4, 0); (5, 6)] []) = Ok y /\ vshape y = [(4, 0); (2, 2); (3, 2)] /\
    elems (flatten_item Z.eqb (fun _ => 0) (D [(4, 0); (2, 2); (3, 2)]) [2; 3] 5 true y) = Some ([(4, 0); (5, 4)], []).
Proof. eexists. split; [vm_compute; reflexivity|]. split; vm_compute; reflexivity. Qed.
Print Assumptions C38_fold_volume_refuted.
(** Bin edges with NaN do not survive fold and flatten: the row ends compare unequal. *)
Theorem C38_nan_refuted : let eqb a b := negb (a =? 30) && (a =? b) in
  exists y, fold_item (D [(5, 6)]) 5 (D [(2, 2); (3, 3)]) (arr_of [(5, 7)] [0; 10; 20; 30; 40; 50; 60]) = Ok y /\
    flatten_item eqb (fun _ => 0) (D [(2, 2); (3, 3)]) [2; 3] 5 false y = Ok None.
Proof. eexists. split; [vm_compute; reflexivity|]. vm_compute. reflexivity. Qed.
Print Assumptions C38_nan_refuted.
