(** Properties of masks (C31). *)
From Coq Require Import Sorted Permutation.
From Flocq Require Import BinarySingleNaN.
From Verif Require Import Base Map_Model Dims_Model Dims_Spec Dims_Proofs View_Model View_Spec View_Proofs Transform_Model Transform_Spec Float
  SizedDict_Model SizedDict_Spec Accumulate_Spec Accumulate_Model Accumulate_Proofs Mask_Model Mask_Spec Mask_Proofs MaskFloat_Proofs.

Notation mdict l := (mkmap (map fst l) (map snd l)).

(** ** Masks of the result of a binary operation *)

(** C31. Per name, the mask of the result is the OR of the masks of the operands, with the dimensions of both; the operation
    is refused exactly if both operands have a mask of one name and these are not boolean, have a unit, or disagree on an
    extent. *)
Theorem C31_union : forall a b, masks_fine a -> masks_fine b ->
  (combinable a b -> exists o, union_or (mdict a) (mdict b) = Ok (mdict o) /\ masks_fine o /\
     (forall k, In k (map fst o) <-> In k (map fst a) \/ In k (map fst b)) /\
     (forall k ix, set_at o k ix = set_at a k ix || set_at b k ix) /\
     forall k d n, dim_at o k d n <-> dim_at a k d n \/ dim_at b k d n) /\
  (~ combinable a b -> exists e, union_or (mdict a) (mdict b) = Throw e).
Proof.
  intros a b Ha Hb. pose proof (union_or_ok a b Ha Hb) as Hu. unfold SizedDict_Proofs.mkd in Hu.
  destruct (union_or (mdict a) (mdict b)) as [out|e|]; [|split; [contradiction|eauto]|contradiction].
  destruct Hu as (o & -> & Hc & Hf & Hk & Hs & Hd). split; [|contradiction]. intros _. exists o. split; [reflexivity|]. split; [exact Hf|]. split; [|split; assumption].
  intros k. rewrite Hk, in_app_iff, filter_In, Bool.negb_true_iff, mem_nIn. split; [tauto|]. intros [Hi|Hi]; [auto|].
  destruct (in_dec Z.eq_dec k (map fst a)); tauto.
Qed.
Print Assumptions C31_union.

(** C31. In place ([a op= b]): the same, with the dimensions that the masks had; read-only masks remain as they are. Refused
    exactly if [b] is not [updatable] into [a]. Errors other than a [DimensionError] leave the masks unchanged. *)
Theorem C31_in_place : forall d a b, d = mkmasks (ms_sizes d) (mdict a) (ms_ro d) -> wf (ms_sizes d) -> masks_fine a -> masks_fine b ->
  (updatable d b -> exists o, union_or_in_place d (mdict b) = (mkmasks (ms_sizes d) (mdict o) (ms_ro d), Ok tt) /\ masks_fine o /\
     (forall k, In k (map fst o) <-> In k (map fst a) \/ In k (map fst b)) /\
     (forall k ix, (forall m, In (k, m) a -> k_ro m = true -> inside (k_dims m) ix) -> set_at o k ix = set_at a k ix || set_at b k ix) /\
     (forall k dm n, dim_at o k dm n <-> dim_at a k dm n \/ (~ In k (map fst a) /\ dim_at b k dm n)) /\
     forall k m, In (k, m) a -> k_ro m = true -> In (k, m) o) /\
  (~ updatable d b -> exists d' e, union_or_in_place d (mdict b) = (d', Throw e) /\ (e <> DimensionError -> d' = d)).
Proof.
  intros d a b Ed Hs Ha Hb. assert (Ei : ditems (ms_items d) = a) by (rewrite Ed; cbn [ms_items]; apply (SizedDict_Proofs.ditems_mkd a)).
  pose proof (in_place_ok d b Hs) as Hu. rewrite Ei in Hu. specialize (Hu ltac:(rewrite Ed; reflexivity) Ha Hb). unfold SizedDict_Proofs.mkd in Hu.
  destruct (union_or_in_place d (mdict b)) as [d' [x|e|]]; [|split; [tauto|eexists; eexists; split; [reflexivity|apply Hu]]|contradiction].
  destruct Hu as (Hup & A1 & A2 & A3 & A4 & A5 & A6 & A7 & A8 & A9). rewrite Ei in *. split; [|contradiction]. intros _. exists (ditems (ms_items d')). destruct x.
  split; [f_equal; destruct d' as [s it ro]; cbn [ms_sizes ms_items ms_ro] in *; subst s ro; f_equal; exact A3|]. split; [exact A4|]. split; [|split; [exact A6|split; [|exact A9]]].
  - intros k. rewrite A5, in_app_iff, filter_In, Bool.negb_true_iff, mem_nIn. split; [tauto|]. intros [Hi|Hi]; [auto|]. destruct (in_dec Z.eq_dec k (map fst a)); tauto.
  - intros k dm n. destruct (in_dec Z.eq_dec k (map fst a)) as [Hk|Hk]; [rewrite A7 by exact Hk; tauto|]. rewrite A8 by exact Hk.
    split; [auto|]. intros [Hx|[_ Hx]]; [|exact Hx]. exfalso. exact (dim_at_none _ _ _ _ Hk Hx).
Qed.
Print Assumptions C31_in_place.

Definition line (n : Z) (d : Dim) (v : list bool) : darr bool := mkd (mkmap [d] [n]) (fun ix => nth (Z.to_nat (ix d)) v false).
Definition bmask (a : darr bool) : mask := mkmask a true true false.
Definition dim_x : Dim := 5. Definition dim_y : Dim := 6. Definition dim_z : Dim := 7.
Definition mask_m : Z := 10. Definition mask_n : Z := 11.

Example C31_union_ex : forall ix,
  exists o, union_or (mdict [(mask_m, bmask (line 2 dim_x [true; false]))]) (mdict [(mask_m, bmask (line 3 dim_y [false; true; false])); (mask_n, bmask (line 2 dim_x [false; true]))])
    = Ok (mdict o) /\ map fst o = [mask_m; mask_n] /\
  set_at o mask_m ix = nth (Z.to_nat (ix dim_x)) [true; false] false || nth (Z.to_nat (ix dim_y)) [false; true; false] false.
Proof.
  intros ix. eexists. split; [|split; [|]].
  - cbv - [set_at]. match goal with |- Ok (mkmap _ [?u; ?v]) = _ => instantiate (1 := [(mask_m, u); (mask_n, v)]) end. reflexivity.
  - reflexivity.
  - unfold set_at. cbn - [nth Z.to_nat]. rewrite !Bool.orb_false_r. reflexivity.
Qed.

(** Not all or nothing: an update that fails at the second mask has already changed the first one. *)
Definition half_d : masks := mkmasks (mkmap [dim_x] [2]) (mdict [(mask_m, bmask (line 2 dim_x [false; false])); (mask_n, bmask (mkd mempty (fun _ => false)))]) false.
Definition half_b : list (Z * mask) := [(mask_m, bmask (line 2 dim_x [true; true])); (mask_n, bmask (line 2 dim_x [true; true]))].
Theorem C31_in_place_refuted : exists d b, wf (ms_sizes d) /\ masks_fine (ditems (ms_items d)) /\ masks_fine (ditems b) /\
  exists d', union_or_in_place d b = (d', Throw DimensionError) /\
    set_at (ditems (ms_items d')) mask_m (fun _ => 0) <> set_at (ditems (ms_items d)) mask_m (fun _ => 0).
Proof.
  assert (Wx : forall v, well_formed (line 2 dim_x v)).
  { intros v. split; [unfold line; cbn [dd]; apply (mk_wf [(dim_x, 2)]); repeat constructor; cbn; intuition discriminate|]. intros jx jx' Hj. cbn [line dv dd labels m_keys] in *. rewrite Hj by (left; reflexivity). reflexivity. }
  exists half_d, (mdict half_b). split; [apply (mk_wf [(dim_x, 2)]); repeat constructor; cbn; intuition discriminate|]. split; [|split].
  - split; [repeat constructor; cbn; intuition discriminate|]. intros k m [E|[E|[]]]; injection E as <- <-; [apply Wx|]. split; [apply wf_empty|reflexivity].
  - split; [repeat constructor; cbn; intuition discriminate|]. intros k m [E|[E|[]]]; injection E as <- <-; apply Wx.
  - eexists. split; [cbv; reflexivity|]. cbv. discriminate.
Qed.
Print Assumptions C31_in_place_refuted.

(** ** Reductions *)

(** C31. Reducing along a dimension gives at every index the reduction of the unmasked elements along that dimension, in
    their order (starting from the same initial value), for every way to accumulate and every fill value that the operation
    ignores. The result has the other dimensions of the data, in their order. An element is masked if some mask that has the
    dimension is set there. *)
Theorem C31_reduce : forall A reserved (f : A -> A -> A) acc P init fill var dim n l,
  accumulates reserved f acc -> ignores_for P f init fill -> (forall jx, inside (dd var) jx -> masked l dim jx = false -> P (dv var jx)) ->
  well_formed var -> has (dd var) dim n -> (forall x, In x reserved -> ~ In x (labels (dd var))) ->
  (forall k m, In (k, m) l -> well_formed (k_arr m)) -> applicable l dim var ->
  exists r, reduce_masked acc init fill var dim l = Ok r /\ well_formed r /\ pairs (dd r) = without_dim (dd var) dim /\
    forall ix, inside (dd r) ix -> dv r ix = fold_left f (map (dv var) (unmasked l dim (along ix dim n))) init.
Proof. intros A reserved f acc P init fill var dim n l Hacc Hig HP Hv Hn Hres Hw Happ. exact (reduce_masked_ok reserved f acc Hacc init fill var dim n l P Hig HP Hv Hn Hres Hw Happ). Qed.
Print Assumptions C31_reduce.

(** The serial way to accumulate, for every operation. *)
Theorem C31_serial : forall A (f : A -> A -> A), accumulates [] f (reduce_data f).
Proof. exact @serial_accumulates. Qed.
Print Assumptions C31_serial.

(** The parallel way, for associative and commutative operations: in every order of the tasks and for every split of the
    range into blocks. *)
Theorem C31_parallel : forall A (f : A -> A -> A) eqb small internal order blocks,
  (forall x y, f x y = f y x) -> (forall x y z, f x (f y z) = f (f x y) z) -> (forall x y : A, eqb x y = true -> x = y) -> 1 < small ->
  internal <> InvalidDim -> (forall n, Permutation (order n) (zseq 0 (Z.to_nat n))) ->
  (forall n, 0 <= n -> exists bs, tiles 0 n bs /\ Permutation (blocks n) bs) ->
  accumulates [internal] f (fun out other => do_accumulate small f eqb internal out other order blocks).
Proof. exact @parallel_accumulates. Qed.
Print Assumptions C31_parallel.

(** The fill values for doubles: ignored by sum, max, min, nanmax and nanmin, whatever the data. *)
Theorem C31_doubles : forall o, o <> RNansum -> ignores (r_op o) (r_init o) (r_fill o).
Proof.
  intros [| | | | |] Ho; [exact ignores_sum|contradiction|exact ignores_max|exact ignores_nanmax|exact ignores_min|exact ignores_nanmin].
Qed.
Print Assumptions C31_doubles.

(** By nansum: if no unmasked value is infinite. *)
Theorem C31_nansum : ignores_for (fun x => is_finite x = true \/ is_nan x = true) (r_op RNansum) (r_init RNansum) (r_fill RNansum).
Proof. exact ignores_nansum. Qed.
Print Assumptions C31_nansum.

(** In general not: the masked element changes the nansum of [inf, -inf] from NaN to 0. *)
Definition line_f (v : list f64) : darr f64 := mkd (mkmap [dim_x] [zlen v]) (fun ix => nth (Z.to_nat (ix dim_x)) v f_zero).
Definition inf (s : bool) : f64 := B754_infinity s.
Theorem C31_nansum_refuted : exists (v : list f64) (l : list (Z * mask)) r, masks_fine l /\ applicable l dim_x (line_f v) /\
  reduce_masked (reduce_data (r_op RNansum)) (r_init RNansum) (r_fill RNansum) (line_f v) dim_x l = Ok r /\ dv r (fun _ => 0) = f_zero /\
  fold_left (r_op RNansum) (map (dv (line_f v)) (unmasked l dim_x (along (fun _ => 0) dim_x (zlen v)))) (r_init RNansum) = B754_nan.
Proof.
  exists [inf false; inf true; f_zero], [(mask_m, bmask (line 3 dim_x [false; false; true]))].
  set (v := [inf false; inf true; f_zero]). set (l := [(mask_m, bmask (line 3 dim_x [false; false; true]))]).
  assert (Hshow : forall A (r : res (darr A)) (x : A), match r with Ok a => Some (dv a (fun _ => 0)) | _ => None end = Some x -> exists a, r = Ok a /\ dv a (fun _ => 0) = x).
  { intros A [a|e|] x E; try discriminate. injection E as <-. eauto. }
  destruct (Hshow _ (reduce_masked (reduce_data (r_op RNansum)) (r_init RNansum) (r_fill RNansum) (line_f v) dim_x l) f_zero) as (r & E & Ev); [vm_compute; reflexivity|].
  exists r. split; [|split; [|split; [exact E|split; [exact Ev|vm_compute; reflexivity]]]].
  - split; [repeat constructor; cbn; tauto|]. intros k m [Ek|[]]. injection Ek as <- <-. split; [apply (mk_wf [(dim_x, 3)]); repeat constructor; cbn; intuition discriminate|].
    intros jx jx' Hj. cbn [bmask k_arr line dv dd labels m_keys] in *. rewrite Hj by (left; reflexivity). reflexivity.
  - intros k m [Ek|[]] _. injection Ek as <- <-. split; [split; reflexivity|]. intros d n Hh. exact Hh.
Qed.
Print Assumptions C31_nansum_refuted.

(** A case: sum along x of data {y: 2, x: 3} with a mask along x and a mask along {x, y}; a mask along y has no effect on it
    and is kept. *)
Definition grid : darr Z := mkd (mkmap [dim_y; dim_x] [2; 3]) (fun ix => 10 * ix dim_y + ix dim_x + 1).
Definition grid_masks : list (Z * mask) :=
  [(mask_m, bmask (line 3 dim_x [false; true; false]));
   (mask_n, bmask (mkd (mkmap [dim_x; dim_y] [3; 2]) (fun ix => (ix dim_x =? 0) && (ix dim_y =? 1))));
   (12, bmask (line 2 dim_y [true; false]))].
Lemma grid_wf : well_formed grid.
Proof.
  split; [apply (mk_wf [(dim_y, 2); (dim_x, 3)]); repeat constructor; cbn; intuition discriminate|]. intros jx jx' Hj. cbn [grid dv dd labels m_keys] in *.
  rewrite (Hj dim_x), (Hj dim_y) by (cbn; tauto). reflexivity.
Qed.
Lemma grid_masks_fine : masks_fine grid_masks.
Proof.
  split; [repeat constructor; cbn; intuition discriminate|]. intros k m [E|[E|[E|[]]]]; injection E as <- <-.
  - split; [apply (mk_wf [(dim_x, 3)]); repeat constructor; cbn; intuition discriminate|]. intros jx jx' Hj. cbn [bmask k_arr line dv dd labels m_keys] in *. rewrite Hj by (left; reflexivity). reflexivity.
  - split; [apply (mk_wf [(dim_x, 3); (dim_y, 2)]); repeat constructor; cbn; intuition discriminate|]. intros jx jx' Hj. cbn [bmask k_arr dv dd labels m_keys] in *.
    rewrite (Hj dim_x), (Hj dim_y) by (cbn; tauto). reflexivity.
  - split; [apply (mk_wf [(dim_y, 2)]); repeat constructor; cbn; intuition discriminate|]. intros jx jx' Hj. cbn [bmask k_arr line dv dd labels m_keys] in *. rewrite Hj by (left; reflexivity). reflexivity.
Qed.
Lemma add_ignores : ignores Z.add 0 0.
Proof. exists (fun _ => True). split; [exact I|]. split; [tauto|]. intros a _. lia. Qed.
Lemma grid_applicable : all_applicable grid_masks grid.
Proof.
  intros k m [E|[E|[E|[]]]] _; injection E as <- <-; (split; [split; reflexivity|]); intros d n Hh; cbn in Hh |- *; unfold has, pairs in *; cbn in *; tauto.
Qed.
Definition shown {A} (r : res (darr A)) (js : list Z) : option (sizes * list A) :=
  match r with Ok a => Some (dd a, map (fun i => dv a (fun _ => i)) js) | _ => None end.
Example C31_reduce_ex : shown (reduce_masked (reduce_data Z.add) 0 0 grid dim_x grid_masks) [0; 1] = Some (mkmap [dim_y] [2], [1 + 3; 13]) /\
  exists r, reduce_masked (reduce_data Z.add) 0 0 grid dim_x grid_masks = Ok r /\ well_formed r /\
    forall ix, inside (dd r) ix -> dv r ix = fold_left Z.add (map (dv grid) (unmasked grid_masks dim_x (along ix dim_x 3))) 0.
Proof.
  split; [vm_compute; reflexivity|].
  destruct (C31_reduce Z [] Z.add _ (fun _ => True) 0 0 grid dim_x 3 grid_masks (C31_serial Z Z.add) add_ignores (fun _ _ _ => I) grid_wf) as (r' & E & Hw & _ & Hv).
  - right; left; reflexivity.
  - intros x [].
  - exact (proj2 grid_masks_fine).
  - intros k m Hi Hd. apply (grid_applicable k m Hi). intros E. rewrite E in Hd. destruct Hd.
  - exists r'. split; [exact E|]. split; [exact Hw|exact Hv].
Qed.

(** C31. Means: the sum of the unmasked elements over their number. The result has the other dimensions of the data. *)
Theorem C31_mean : forall A B reserved (f : A -> A -> A) acc reserved' accZ zero (norm : A -> Z -> B) var dim n l,
  accumulates reserved f acc -> accumulates reserved' Z.add accZ -> ignores f zero zero -> well_formed var -> has (dd var) dim n ->
  (forall l, In l (reserved ++ reserved') -> ~ In l (labels (dd var))) ->
  (forall k m, In (k, m) l -> well_formed (k_arr m)) -> applicable l dim var ->
  exists r, mean_masked acc accZ zero norm var dim l = Ok r /\ wf (dd r) /\
    (forall k x, has (dd r) k x <-> has (dd var) k x /\ k <> dim) /\
    forall ix, inside (dd r) ix ->
      dv r ix = norm (fold_left f (map (dv var) (unmasked l dim (along ix dim n))) zero) (zlen (unmasked l dim (along ix dim n))).
Proof. exact @mean_masked_ok. Qed.
Print Assumptions C31_mean.
Example C31_mean_ex : shown (mean_masked (reduce_data Z.add) (reduce_data Z.add) 0 pair grid dim_x grid_masks) [0; 1] =
  Some (mkmap [dim_y] [2], [(4, 2); (13, 1)]).
Proof. vm_compute. reflexivity. Qed.

(** The order of its dimensions is not that of the data: the mean transposes the data if the masks do. (Other reductions do
    not, C31_reduce.) *)
Definition cube : darr Z := mkd (mkmap [dim_x; dim_y; dim_z] [2; 3; 4]) (fun ix => ix dim_z).
Definition cube_masks : list (Z * mask) := [(mask_m, bmask (mkd (mkmap [dim_z; dim_y; dim_x] [4; 3; 2]) (fun ix => ix dim_z =? 1)))].
Theorem C31_mean_order_refuted : exists (var : darr Z) l, well_formed var /\ masks_fine l /\ applicable l dim_z var /\
  (exists r, mean_masked (reduce_data Z.add) (reduce_data Z.add) 0 pair var dim_z l = Ok r /\ labels (dd r) = [dim_y; dim_x]) /\
  (exists r, reduce_masked (reduce_data Z.add) 0 0 var dim_z l = Ok r /\ labels (dd r) = [dim_x; dim_y]) /\ labels (dd var) = [dim_x; dim_y; dim_z].
Proof.
  assert (W1 : well_formed cube).
  { split; [apply (mk_wf [(dim_x, 2); (dim_y, 3); (dim_z, 4)]); repeat constructor; cbn; intuition discriminate|]. intros jx jx' Hj. cbn [cube dv dd labels m_keys] in *. apply Hj. cbn; tauto. }
  assert (W2 : masks_fine cube_masks).
  { split; [repeat constructor; cbn; tauto|]. intros k m [E|[]]. injection E as <- <-.
    split; [apply (mk_wf [(dim_z, 4); (dim_y, 3); (dim_x, 2)]); repeat constructor; cbn; intuition discriminate|]. intros jx jx' Hj.
    cbn [bmask k_arr dv dd labels m_keys] in *. rewrite Hj by (cbn; tauto). reflexivity. }
  assert (W3 : applicable cube_masks dim_z cube).
  { intros k m [E|[]] _. injection E as <- <-. split; [split; reflexivity|]. intros d n Hh. unfold has, pairs in *. cbn in *. tauto. }
  assert (Hdims : forall A (r : res (darr A)) d v, shown r [] = Some (d, v) -> exists a, r = Ok a /\ labels (dd a) = labels d).
  { intros A [a|e|] d v E; try discriminate. injection E as <- _. eauto. }
  exists cube, cube_masks. split; [exact W1|]. split; [exact W2|]. split; [exact W3|]. split; [|split; [|reflexivity]].
  - apply (Hdims _ _ (mkmap [dim_y; dim_x] [3; 2]) []). vm_compute. reflexivity.
  - apply (Hdims _ _ (mkmap [dim_x; dim_y] [2; 3]) []). vm_compute. reflexivity.
Qed.
Print Assumptions C31_mean_order_refuted.

(** C31. The masks that do not depend on the reduced dimension are kept, the others are removed. *)
Theorem C31_kept : forall A reserved (f : A -> A -> A) acc P init fill var dim n l,
  accumulates reserved f acc -> ignores_for P f init fill -> (forall jx, inside (dd var) jx -> masked l dim jx = false -> P (dv var jx)) ->
  well_formed var -> has (dd var) dim n -> (forall x, In x reserved -> ~ In x (labels (dd var))) -> masks_fine l -> applicable l dim var ->
  exists r l', reduce_array acc init fill (var, mdict l) dim = Ok (r, mdict l') /\ reduce_masked acc init fill var dim l = Ok r /\ masks_fine l' /\
    forall k m, In (k, m) l' <-> exists m', m = mask_copy m' /\ In (k, m') l /\ ~ In dim (labels (k_dims m')).
Proof.
  intros A reserved f acc P init fill var dim n l Hacc Hig HP Hv Hn Hres [Hnd Hw] Happ.
  destruct (reduce_masked_ok reserved f acc Hacc init fill var dim n l P Hig HP Hv Hn Hres Hw Happ) as (r & Er & _). exists r, (kept dim l).
  unfold reduce_array. cbn [fst snd]. change (mdict l) with (SizedDict_Proofs.mkd l). rewrite SizedDict_Proofs.ditems_mkd, Er.
  change (@mempty Z mask) with (SizedDict_Proofs.mkd (@nil (Z * mask))). rewrite (copy_independent_ok dim l Hw []) by exact Hnd. cbn [bind app].
  split; [reflexivity|]. split; [reflexivity|]. split; [|intros k m; apply kept_In].
  split; [apply kept_nodup; exact Hnd|]. intros k m Hi. apply kept_In in Hi as (m' & -> & Hi & _). apply (Hw k m' Hi).
Qed.
Print Assumptions C31_kept.
Example C31_kept_ex : match reduce_array (reduce_data Z.add) 0 0 (grid, mdict grid_masks) dim_x with
  Ok (r, ms) => map (fun e => (fst e, k_dims (snd e))) (ditems ms) = [(12, mkmap [dim_y] [2])] | _ => False end.
Proof. vm_compute. reflexivity. Qed.

(** C31. Reducing over all dimensions (the innermost first) combines exactly the elements at which no mask that has a
    dimension is set, for associative and commutative operations. The masks without dimensions are kept. *)
Theorem C31_all : forall A reserved (f : A -> A -> A) acc init, accumulates reserved f acc ->
  (forall x y, f x y = f y x) -> (forall x y z, f x (f y z) = f (f x y) z) -> ignores f init init ->
  forall var l, well_formed var -> (forall x, In x reserved -> ~ In x (labels (dd var))) -> masks_fine l -> all_applicable l var -> labels (dd var) <> [] ->
  exists r l', reduce_all acc init init (var, mdict l) = Ok (r, mdict l') /\ dd r = mempty /\
    (forall k m, In (k, m) l' <-> exists m', m = mask_copy m' /\ In (k, m') l /\ labels (k_dims m') = []) /\
    forall ix, dv r ix = fold_left f (map (dv var) (filter (fun jx => negb (any_masked l jx)) (indices (dd var)))) init.
Proof.
  intros A reserved f acc init Hacc Hc Ha Hig var l Hv Hres Hl Happ Hne.
  destruct (reduce_all_ok reserved f acc Hacc Hc Ha init Hig var l) as (r & l' & E & Hd & Hs & _ & Hval); [exact (conj Hv (conj Hres (conj Hl Happ)))|exact Hne|].
  exists r, l'. split; [exact E|]. split; [exact Hd|]. split; [exact Hs|exact Hval].
Qed.
Print Assumptions C31_all.
Example C31_all_ex : exists r, reduce_all (reduce_data Z.add) 0 0 (grid, mdict grid_masks) = Ok (r, mempty) /\ forall ix, dv r ix = 13.
Proof.
  destruct (C31_all Z [] Z.add _ 0 (C31_serial Z Z.add) ltac:(intros; lia) ltac:(intros; lia) add_ignores grid grid_masks grid_wf) as (r & l' & E & _ & Hl & Hv).
  - intros x [].
  - exact grid_masks_fine.
  - exact grid_applicable.
  - discriminate.
  - exists r. assert (l' = []) as ->.
    { destruct l' as [|[k m] l']; [reflexivity|]. exfalso. destruct (proj1 (Hl k m) (or_introl eq_refl)) as (m' & _ & Hi & He). destruct Hi as [Hi|[Hi|[Hi|[]]]]; injection Hi as <- <-; discriminate. }
    split; [exact E|]. intros ix. rewrite Hv. vm_compute. reflexivity.
Qed.
