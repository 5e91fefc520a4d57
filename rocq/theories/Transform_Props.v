(** Properties of element-wise operations on dense variables (C12, C13). *)
From Verif Require Import Base Map_Model Dims_Model Dims_Spec Index_Model View_Model View_Spec View_Proofs
  Transform_Model Transform_Spec Transform_Proofs.

(** C12. Whenever all threads have ended, in whatever way the range was divided into blocks and in whatever order the
    threads made their steps: the output holds the operation applied to the inputs at every labelled index, has exactly
    the dimensions of the inputs, and no other cell has changed. *)
Theorem C12_transform : forall A (f : list A -> A) ins out blocks o ps (h h' : heap A),
  Forall (fun a => wfv (a_var a)) ins -> (forall a, In a ins -> a_buf a <> out) ->
  (forall d, wf d -> tiles 0 (volume d) (blocks d)) ->
  transform f ins out blocks = Ok (o, ps) -> may_end h ps h' ->
  o = mkarr out (var_fresh (a_dims o)) /\ wf (a_dims o) /\ union_of (map a_dims ins) (a_dims o) /\
  (forall ix, inside (a_dims o) ix -> value_at h' o ix = f (map (fun a => value_at h a ix) ins)) /\
  (forall c, ~ cell_of o c -> h' c = h c).
Proof. exact @transform_correct. Qed.
Print Assumptions C12_transform.

(** C12. The operation succeeds exactly for operands that agree on the extents of common dimensions (within the
    supported rank), and there is an order of steps in which all threads end. *)
Theorem C12_transform_total : forall A (f : list A -> A) ins out blocks (h : heap A),
  ins <> [] -> Forall (fun a => wfv (a_var a)) ins -> (forall d, wf d -> tiles 0 (volume d) (blocks d)) ->
  (compatible (map a_dims ins) ->
   (forall d, union_of (map a_dims ins) d -> wf d -> (length (labels d) <= NDIM_OP_MAX)%nat) ->
   exists o ps h', transform f ins out blocks = Ok (o, ps) /\ may_end h ps h') /\
  (~ compatible (map a_dims ins) -> transform f ins out blocks = Throw DimensionError).
Proof. exact @transform_total. Qed.
Print Assumptions C12_transform_total.

(** C12/C13. In-place operations: whatever the division into blocks and the order of steps, every element of the output
    becomes the operation applied to the values of all operands from before the operation, and no other cell changes
    ([tmp] is the buffer of a temporary copy). Missing for the full claim: operands excluded by [hidden_alias], for
    which it is false ([C13_refuted]). [distinct_elements] holds for every writable view ([C08_writable_one_to_one]). *)
Theorem C13_in_place_partial : forall A (f : list A -> A) h out others tmp blocks h1 ps (h' : heap A),
  Forall (fun a => wfv (a_var a)) (out :: others) -> distinct_elements out ->
  (forall a, In a (out :: others) -> a_buf a <> tmp) ->
  (forall d, wf d -> tiles 0 (volume d) (blocks d)) ->
  (forall b, In b others -> ~ hidden_alias out b) ->
  transform_in_place f h out others tmp blocks = Ok (h1, ps) -> may_end h1 ps h' ->
  (forall ix, inside (a_dims out) ix -> value_at h' out ix = f (value_at h out ix :: map (fun a => value_at h a ix) others)) /\
  (forall c, ~ cell_of out c -> fst c <> tmp -> h' c = h c).
Proof. exact @in_place_correct. Qed.
Print Assumptions C13_in_place_partial.

(** C13. When an in-place operation is accepted, and which errors are reported otherwise. *)
Theorem C13_total : forall A (f : list A -> A) (h : heap A) out others tmp blocks,
  Forall (fun a => wfv (a_var a)) (out :: others) -> distinct_elements out -> v_readonly (a_var out) = false ->
  (length (labels (a_dims out)) <= NDIM_OP_MAX)%nat ->
  (forall d, wf d -> tiles 0 (volume d) (blocks d)) ->
  (length others <= 1 \/ forall b, In b others -> a_buf b <> a_buf out)%nat ->
  (forall b, In b others -> forall k n, has (a_dims b) k n -> has (a_dims out) k n) ->
  exists h1 ps h', transform_in_place f h out others tmp blocks = Ok (h1, ps) /\ may_end h1 ps h'.
Proof. exact @in_place_total. Qed.
Print Assumptions C13_total.

Theorem C13_reject : forall A (f : list A -> A) (h : heap A) out others tmp blocks,
  Forall (fun a => wfv (a_var a)) (out :: others) ->
  (~ (forall b, In b others -> forall k n, has (a_dims b) k n -> has (a_dims out) k n) ->
   transform_in_place f h out others tmp blocks = Throw DimensionError) /\
  ((forall b, In b others -> forall k n, has (a_dims b) k n -> has (a_dims out) k n) -> v_readonly (a_var out) = true ->
   transform_in_place f h out others tmp blocks = Throw ReadonlyError).
Proof. exact @in_place_reject. Qed.
Print Assumptions C13_reject.

(** ** Concrete cases *)
Definition dX : Dim := 5.
Definition dY : Dim := 6.
Definition d_x3 : sizes := mkmap [dX] [3].
Definition d_y2 : sizes := mkmap [dY] [2].
Definition d_x3y2 : sizes := mkmap [dX; dY] [3; 2].
Definition minus (l : list Z) : Z := match l with [a; b] => a - b | _ => 0 end.
(** Division into blocks of one element each. *)
Definition singles (d : sizes) : list (Z * Z) := map (fun k => (k, k + 1)) (zseq 0 (Z.to_nat (volume d))).
Definition whole (d : sizes) : list (Z * Z) := [(0, volume d)].

Lemma singles_tiles d : wf d -> tiles 0 (volume d) (singles d).
Proof.
  intros Hd. unfold singles. assert (0 <= volume d) by (rewrite Dims_Proofs.volume_vol; apply Dims_Proofs.vol_nonneg, Hd).
  assert (Hg : forall n b, tiles b (b + Z.of_nat n) (map (fun k => (k, k + 1)) (zseq b n))).
  { induction n as [|n IH]; intros b; [rewrite Z.add_0_r; constructor|].
    replace (zseq b (S n)) with (b :: zseq (b + 1) n).
    - cbn [map]. apply tiles_cons; [lia|]. replace (b + Z.of_nat (S n)) with (b + 1 + Z.of_nat n) by lia. apply IH.
    - unfold zseq. cbn [seq map]. f_equal; [lia|]. rewrite <- seq_shift, map_map. apply map_ext. intros; lia. }
  replace (volume d) with (0 + Z.of_nat (Z.to_nat (volume d))) at 1 by lia. apply Hg.
Qed.
Lemma whole_tiles d : wf d -> tiles 0 (volume d) (whole d).
Proof.
  intros Hd. assert (0 <= volume d) by (rewrite Dims_Proofs.volume_vol; apply Dims_Proofs.vol_nonneg, Hd).
  apply tiles_cons; [lia|constructor].
Qed.

Ltac wf_case := split; [|split; [|split]]; cbn;
  [repeat constructor; cbn; intuition discriminate | reflexivity | repeat constructor; lia | intuition discriminate].
Lemma d_x3_wf : wf d_x3. Proof. wf_case. Qed.
Lemma d_y2_wf : wf d_y2. Proof. wf_case. Qed.
Lemma d_x3y2_wf : wf d_x3y2. Proof. wf_case. Qed.

(** [transpose(a) - b] for a{x:3,y:2} and b{y:2}: six threads, run in reverse order. *)
Example C12_case :
  let a := mkarr 0 (mkvar (mkmap [dY; dX] [2; 3]) [1; 2] 0 false 6) in
  let b := mkarr 1 (var_fresh d_y2) in
  let h : heap Z := fun c => match c with (O, k) => 10 * k | (S O, k) => k + 1 | _ => 0 end in
  Forall (fun x => wfv (a_var x)) [a; b] /\
  exists o ps h', transform minus [a; b] 2 singles = Ok (o, ps) /\ length ps = 6%nat /\ may_end h ps h' /\
    a_dims o = mkmap [dY; dX] [2; 3] /\
    map (fun k => h' (2%nat, k)) [0; 1; 2; 3; 4; 5] = [-1; 19; 39; 8; 28; 48].
Proof.
  intros a b h. split.
  { repeat constructor; cbn; intuition (discriminate || lia). }
  destruct (transform minus [a; b] 2 singles) as [[o ps]| |] eqn:E; [|vm_compute in E; discriminate E|vm_compute in E; discriminate E].
  vm_compute in E. injection E as <- <-. eexists _, _, _. split; [reflexivity|]. split; [reflexivity|]. split.
  - exists (concat (repeat [5%nat; 4%nat; 3%nat; 2%nat; 1%nat; 0%nat] 3)). split; [|reflexivity].
    vm_compute. intuition (subst; reflexivity).
  - split; [reflexivity|]. vm_compute. reflexivity.
Qed.

(** [a -= a['x', 1]] on a{x:3} = (1, 2, 4), one thread per element: the operand overlaps and is copied first. *)
Definition a_x3 : arr := mkarr 0 (var_fresh d_x3).
Definition h_124 : heap Z := fun c => match c with (O, 0) => 1 | (O, 1) => 2 | (O, 2) => 4 | _ => 0 end.
Lemma a_x3_distinct : distinct_elements a_x3.
Proof. exact (fresh_one d_x3 0 d_x3_wf). Qed.
Example C13_case :
  let b := mkarr 0 (mkvar mempty [] 1 false 3) in
  var_slice (var_fresh d_x3) (mkslice dX 1 (-1) 1) = Ok (a_var b) /\
  Forall (fun x => wfv (a_var x)) [a_x3; b] /\ ~ hidden_alias a_x3 b /\
  exists h1 ps h', transform_in_place minus h_124 a_x3 [b] 7 singles = Ok (h1, ps) /\ length ps = 3%nat /\ may_end h1 ps h' /\
    map (fun k => h' (0%nat, k)) [0; 1; 2] = [-1; 0; 2].
Proof.
  intros b. split; [vm_compute; reflexivity|]. split; [repeat constructor; cbn; intuition (discriminate || lia)|]. split.
  { intros (_ & Hne & _). apply Hne. reflexivity. }
  destruct (transform_in_place minus h_124 a_x3 [b] 7 singles) as [[h1 ps]| |] eqn:E;
    [|vm_compute in E; discriminate E|vm_compute in E; discriminate E].
  cbv -[clone_to h_124 minus] in E. injection E as <- <-. eexists _, _, _. split; [reflexivity|]. split; [reflexivity|]. split.
  - exists (concat (repeat [1%nat; 2%nat; 0%nat] 3)). split; [|reflexivity]. cbv -[clone_to h_124 minus hset]. intuition (subst; reflexivity).
  - vm_compute. reflexivity.
Qed.

(** C13 is false for some broadcast views: [a -= broadcast(a['x', 0], {x:3})] on (1, 2, 4) gives (0, 2, 4) instead of
    (0, 1, 3) when executed as one block, since the overlap is not noticed. *)
Theorem C13_refuted : exists (h : heap Z) out b tmp,
  var_broadcast (mkvar mempty [] 0 false 3) d_x3 = Ok (a_var b) /\
  Forall (fun a => wfv (a_var a)) [out; b] /\ distinct_elements out /\
  (forall a, In a [out; b] -> a_buf a <> tmp) /\ (forall d, wf d -> tiles 0 (volume d) (whole d)) /\
  exists h1 ps h', transform_in_place minus h out [b] tmp whole = Ok (h1, ps) /\ may_end h1 ps h' /\
    map (fun k => h (0%nat, k)) [0; 1; 2] = [1; 2; 4] /\
    map (fun k => value_at h b (fun _ => k)) [0; 1; 2] = [1; 1; 1] /\
    map (fun k => h' (0%nat, k)) [0; 1; 2] = [0; 2; 4].
Proof.
  exists h_124, a_x3, (mkarr 0 (mkvar d_x3 [0] 0 true 3)), 7%nat.
  split; [vm_compute; reflexivity|]. split; [repeat constructor; cbn; intuition (discriminate || lia)|].
  split; [exact a_x3_distinct|]. split; [intros a [<-|[<-|[]]]; discriminate|]. split; [exact whole_tiles|].
  destruct (transform_in_place minus h_124 a_x3 [mkarr 0 (mkvar d_x3 [0] 0 true 3)] 7 whole) as [[h1 ps]| |] eqn:E;
    [|vm_compute in E; discriminate E|vm_compute in E; discriminate E].
  cbv -[clone_to h_124 minus] in E. injection E as <- <-. eexists _, _, _. split; [reflexivity|]. split.
  - exists (repeat 0%nat 9). split; [|reflexivity]. cbv -[clone_to h_124 minus hset]. intuition (subst; reflexivity).
  - split; [reflexivity|]. split; [reflexivity|]. vm_compute. reflexivity.
Qed.
Print Assumptions C13_refuted.
