(** Properties of reductions (C14) and of the chunks they are computed in (C45). *)
From Coq Require Import Permutation.
From Verif Require Import Base Map_Model Dims_Model Dims_Spec Dims_Proofs View_Model View_Spec View_Proofs Transform_Model
  Transform_Spec Transform_Proofs Transform_Props Accumulate_Spec Reduce_Proofs Accumulate_Model Accumulate_Proofs.

(** ** C14, memory level
    An accumulation executed by [transform_data], for every schedule of its threads: each element of the output is
    combined once with every element of the inputs that agrees with it in the dimensions of the output. Missing for the
    full statement: a dimension that is stretched in all operands ([all_backed] fails), which is wrong: [C14_refuted]. *)
Theorem C14_data_partial {A} (f : list A -> A) h out others tmp blocks h1 ps (h' : heap A) :
  Forall (fun a => wfv (a_var a)) (out :: others) -> distinct_elements out -> all_backed (out :: others) ->
  (forall b, In b others -> a_buf b <> a_buf out) -> (forall d, wf d -> tiles 0 (volume d) (blocks d)) ->
  transform_data f h out others tmp blocks = Ok (h1, ps) -> may_end h1 ps h' ->
  exists m, wf m /\ union_of (map a_dims (out :: others)) m /\
  (forall ix, inside (a_dims out) ix -> value_at h' out ix =
     fold_left (fun acc jx => f (acc :: map (fun a => value_at h a jx) others)) (agreeing m (a_dims out) ix) (value_at h out ix)) /\
  (forall c, ~ cell_of out c -> h' c = h c).
Proof. apply reduce_correct. Qed.
Print Assumptions C14_data_partial.

(** out{x:3} += in{x:3,y:2}: sums over [y]. *)
Definition dZ : Z := 52.
Definition one_block (d : sizes) : list (Z * Z) := [(0, volume d)].
Lemma one_block_tiles d : wf d -> tiles 0 (volume d) (one_block d).
Proof.
  intros Hd. apply tiles_cons; [|constructor]. rewrite volume_vol. apply vol_nonneg. apply Hd.
Qed.
Example C14_data_case :
  let out := mkarr 0 (var_fresh d_x3) in
  let inp := mkarr 1 (var_fresh d_x3y2) in
  let h : heap Z := fun c => match c with (S O, k) => 10 ^ k | _ => 0 end in
  let f := fun l => fold_left Z.add l 0 in
  Forall (fun a => wfv (a_var a)) [out; inp] /\ distinct_elements out /\ all_backed [out; inp] /\
  exists h1 ps h', transform_data f h out [inp] 2 one_block = Ok (h1, ps) /\ may_end h1 ps h' /\
    map (fun k => h' (0%nat, k)) [0; 1; 2] = [11; 1100; 110000].
Proof.
  intros out inp h f. split; [repeat constructor; cbn; intuition (discriminate || lia)|]. split; [exact a_x3_distinct|]. split.
  { intros a k n Ha Hk Hn. destruct Ha as [<-|[<-|[]]]; unfold has, pairs in Hk; cbn in Hk.
    - destruct Hk as [E|[]]. injection E as <- <-. exists out. split; [left; reflexivity|]. exists 0%nat, 1. repeat split; discriminate.
    - destruct Hk as [E|[E|[]]]; injection E as <- <-.
      + exists out. split; [left; reflexivity|]. exists 0%nat, 1. repeat split; discriminate.
      + exists inp. split; [right; left; reflexivity|]. exists 1%nat, 1. repeat split; discriminate. }
  destruct (transform_data f h out [inp] 2 one_block) as [[h1 ps]| |] eqn:E; [|vm_compute in E; discriminate E|vm_compute in E; discriminate E].
  vm_compute in E. injection E as <- <-. eexists _, _, _. split; [reflexivity|]. split.
  - exists (repeat 0%nat 18). split; [|reflexivity]. vm_compute. intuition (subst; reflexivity).
  - vm_compute. reflexivity.
Qed.

(** [sum(broadcast(a, {z:2, y:2, x:3}), 'y')] for a{z:2, x:3} of ones: three elements of the result count three or four
    times, or not at all, and elements outside of the buffers are used. Every element should be 2. *)
Theorem C14_refuted :
  let out := mkarr 0 (var_fresh (mkmap [dZ; dX] [2; 3])) in
  let inp := mkarr 1 (mkvar (mkmap [dZ; dY; dX] [2; 2; 3]) [3; 0; 1] 0 true 6) in
  let h : heap Z := fun c => match c with (S O, k) => 1 | _ => 0 end in
  let f := fun l => fold_left Z.add l 0 in
  Forall (fun a => wfv (a_var a)) [out; inp] /\
  exists h1 ps h', transform_data f h out [inp] 2 one_block = Ok (h1, ps) /\ may_end h1 ps h' /\
    map (fun k => h' (0%nat, k)) [0; 1; 2; 3; 4; 5; 6; 7; 8] = [1; 1; 1; 2; 2; 2; 1; 1; 1].
Proof.
  intros out inp h f. split; [repeat constructor; cbn; intuition (discriminate || lia)|].
  destruct (transform_data f h out [inp] 2 one_block) as [[h1 ps]| |] eqn:E; [|vm_compute in E; discriminate E|vm_compute in E; discriminate E].
  vm_compute in E. injection E as <- <-. eexists _, _, _. split; [reflexivity|]. split.
  - exists (repeat 0%nat 36). split; [|reflexivity]. vm_compute. intuition (subst; reflexivity).
  - vm_compute. reflexivity.
Qed.
Print Assumptions C14_refuted.

(** ** C14, chunks and parallel blocks
    For an associative and commutative operation, whatever the number of elements, the scheduling and the division into
    blocks, every element of the output is combined once with every element of the input that agrees with it. *)
Theorem C14_accumulate {A} (f : A -> A -> A) (eqb : A -> A -> bool) small internal (var other : darr A) order blocks :
  (forall x y, f x y = f y x) -> (forall x y z, f x (f y z) = f (f x y) z) -> (forall x y, eqb x y = true -> x = y) ->
  dok var -> dok other -> 1 < small -> (forall k n, has (dd var) k n -> has (dd other) k n) ->
  ~ In internal (labels (dd var)) -> internal <> InvalidDim ->
  (forall n, Permutation (order n) (zseq 0 (Z.to_nat n))) ->
  (forall n, 0 <= n -> exists bs, tiles 0 n bs /\ Permutation (blocks n) bs) ->
  exists r, do_accumulate small f eqb internal var other order blocks = Ok r /\ dd r = dd var /\
    forall ix, inside (dd var) ix ->
      dv r ix = fold_left f (map (dv other) (agreeing (dd other) (dd var) ix)) (dv var ix).
Proof.
  intros Hc Ha He Hv Ho Hs Hi Hni Hne Hor Hbl.
  destruct (accumulate_ok f Hc Ha eqb He small internal var other order blocks Hv Ho Hs Hi Hni Hne Hor Hbl) as (r & Er & Hd & _ & Hr). exists r. auto.
Qed.
Print Assumptions C14_accumulate.

(** The result does not depend on the scheduling. *)
Theorem C14_deterministic {A} (f : A -> A -> A) (eqb : A -> A -> bool) small small' internal (var other r r' : darr A) order order' blocks blocks' :
  (forall x y, f x y = f y x) -> (forall x y z, f x (f y z) = f (f x y) z) -> (forall x y, eqb x y = true -> x = y) ->
  dok var -> dok other -> 1 < small -> 1 < small' -> (forall k n, has (dd var) k n -> has (dd other) k n) ->
  ~ In internal (labels (dd var)) -> internal <> InvalidDim ->
  (forall n, Permutation (order n) (zseq 0 (Z.to_nat n))) -> (forall n, Permutation (order' n) (zseq 0 (Z.to_nat n))) ->
  (forall n, 0 <= n -> exists bs, tiles 0 n bs /\ Permutation (blocks n) bs) ->
  (forall n, 0 <= n -> exists bs, tiles 0 n bs /\ Permutation (blocks' n) bs) ->
  do_accumulate small f eqb internal var other order blocks = Ok r ->
  do_accumulate small' f eqb internal var other order' blocks' = Ok r' ->
  dd r = dd r' /\ forall ix, inside (dd var) ix -> dv r ix = dv r' ix.
Proof.
  intros Hc Ha He Hv Ho Hs Hs' Hi Hni Hne Hor Hor' Hbl Hbl' E E'.
  destruct (accumulate_ok f Hc Ha eqb He small internal var other order blocks Hv Ho Hs Hi Hni Hne Hor Hbl) as (x & Ex & Hd & _ & Hx).
  destruct (accumulate_ok f Hc Ha eqb He small' internal var other order' blocks' Hv Ho Hs' Hi Hni Hne Hor' Hbl') as (y & Ey & Hd' & _ & Hy).
  rewrite E in Ex. injection Ex as <-. rewrite E' in Ey. injection Ey as <-. split; [congruence|]. intros ix Hix. rewrite Hx, Hy by assumption. reflexivity.
Qed.
Print Assumptions C14_deterministic.

(** The sum of {x:50, y:2} over [x] in 24 chunks of 3, and along blocks for the sum over [y]; also with an initial value
    that is not neutral, for which the code takes the serial path. *)
Definition d_x50y2 := mkmap [dX; dY] [50; 2].
Definition in50 : darr Z := mkd d_x50y2 (fun ix => ix dX + 100 * ix dY).
Definition order_down (n : Z) : list Z := rev (zseq 0 (Z.to_nat n)).
Definition blocks_down (n : Z) : list (Z * Z) := [(n / 2, n); (0, n / 2)].
Lemma blocks_down_ok n : 0 <= n -> exists bs, tiles 0 n bs /\ Permutation (blocks_down n) bs.
Proof.
  intros Hn. exists [(0, n / 2); (n / 2, n)]. pose proof (Z.div_mod n 2 ltac:(lia)). pose proof (Z.mod_pos_bound n 2 ltac:(lia)). split.
  - apply tiles_cons; [lia|]. apply tiles_cons; [lia|constructor].
  - apply perm_swap.
Qed.
Lemma dok_in50 : dok in50.
Proof. split; [wf_case|]. intros jx jx' Hj. cbn in *. rewrite !Hj; auto. Qed.
Example C14_accumulate_case :
  let init := fun d a => mkd d (fun _ => a) : darr Z in
  let at_ := fun r y => match r with Ok r => dv (A := Z) r (fun l => y) | _ => -1 end in
  let acc := fun out => do_accumulate 16 Z.add Z.eqb 77 out in50 order_down blocks_down in
  dok (init d_y2 0) /\ dok (init d_y2 5) /\ dok in50 /\
  (forall n, Permutation (order_down n) (zseq 0 (Z.to_nat n))) /\
  map (at_ (acc (init d_y2 0))) [0; 1] = [1225; 6225] /\ map (at_ (acc (init d_y2 5))) [0; 1] = [1230; 6230] /\
  map (at_ (acc (init (mkmap [dX] [50]) 5))) [0; 20; 49] = [105; 145; 203].
Proof.
  intros init at_ acc. split; [split; [apply d_y2_wf|intros ? ? ?; reflexivity]|]. split; [split; [apply d_y2_wf|intros ? ? ?; reflexivity]|].
  split; [exact dok_in50|]. split; [intros n; apply Permutation_sym, Permutation_rev|]. vm_compute. repeat split.
Qed.

(** ** C45: the chunks cover the dimension
    For a dimension of any extent the chunks are disjoint, in order, inside of it and cover it, and chunk boundaries do
    not depend on the number of threads. *)
Theorem C45_chunks size cs : 0 < size -> chunk_size size = Ok cs ->
  (forall i, 0 <= i < chunk_count size -> 0 <= fst (chunk size cs i) <= snd (chunk size cs i) /\ snd (chunk size cs i) <= size) /\
  forall x, 0 <= x < size -> exists! i, 0 <= i < chunk_count size /\ fst (chunk size cs i) <= x < snd (chunk size cs i).
Proof.
  intros Hs E. destruct (chunks_cover size cs Hs E) as [Ht Hcs]. split.
  - intros i Hi. unfold chunk. cbn [fst snd]. nia.
  - intros x Hx. unfold chunk. cbn [fst snd]. exists (x / cs). pose proof (Z.div_mod x cs ltac:(lia)) as Hd. pose proof (Z.mod_pos_bound x cs Hcs) as Hm.
    assert (Hlt : size <= chunk_count size * cs).
    { unfold chunk_size in E. assert (Hn : 0 < chunk_count size <= size) by (unfold chunk_count; lia).
      replace (chunk_count size =? 0) with false in E by lia. injection E as E. rewrite Z.quot_div_nonneg in E by lia.
      pose proof (Z.div_mod (size + chunk_count size - 1) (chunk_count size) ltac:(lia)) as Hd'. pose proof (Z.mod_pos_bound (size + chunk_count size - 1) (chunk_count size) ltac:(lia)). rewrite E in Hd'. nia. }
    split.
    + split; [|nia]. split; [apply Z.div_pos; lia|]. apply Z.div_lt_upper_bound; [lia|]. nia.
    + intros i [_ Hi]. symmetry. apply (Z.div_unique x cs i (x - cs * i)); [|lia]. left. nia.
Qed.
Print Assumptions C45_chunks.
Example C45_chunks_case : chunk_size 50 = Ok 3 /\ chunk_count 50 = 24 /\ chunk 50 3 16 = (48, 50) /\ chunk 50 3 20 = (50, 50).
Proof. repeat split. Qed.
