(** C36: selection by conditions, index lists and Python slices. [along d]: the object seen along the dimension [d], as rows. *)
From Coq Require Import Sorting.Permutation.
From Verif Require Import Base Arr Map_Model Dims_Model Dims_Spec Dims_Proofs View_Model View_Spec View_Proofs Reshape_Model Reshape_Spec Reshape_Proofs Reshape_Item_Proofs Reshape_Props SizedDict_Proofs Mapper_Model TargetBins_Model Bins_Model Bins_Props BinConcat_Props Extract_Model Extract_Spec Extract_Proofs.

(** A one-dimensional boolean condition of length [n] for dimension [d]. *)
Definition is_condition (c : condition) (d n : Z) : Prop :=
  k_bool c = true /\ k_contiguous c = true /\ k_dims c = mk [(d, n)] /\ zlen (k_vals c) = n.

(** Conditions: exactly the rows with a true condition, in order, from data, coords and masks; bin edges are dropped. *)
Theorem C36_condition A (eqb : A -> A -> bool) junk p along c d n :
  lwf p -> In (d, n) p -> is_condition c d n -> zlen (b_data (along d)) = n -> object_ok eqb (along d) ->
  exists out, extract eqb junk (mk p) along c = Ok out /\ selected_object (fun rows rows' => rows' = selected (k_vals c) rows) (along d) out.
Proof.
  intros Hp Hd (Hb & Hc & Hk & Hv) Hn Ho. unfold extract. rewrite Hb, Hc, Hk. cbn [negb]. change (ndim (mk [(d, n)]) =? 1) with true. cbn [negb]. change (dims_inner (mk [(d, n)])) with d.
  assert (Hq : lwf [(d, n)]).
  { destruct Hp as (P1 & P2 & P3). split; [constructor; [intros []|constructor]|]. split; [|cbn; intros [E|[]]; subst d; apply P3; change InvalidDim with (fst (InvalidDim, n)); apply in_map; exact Hd].
    constructor; [|constructor]. rewrite Forall_forall in P2. apply (P2 n). change n with (snd (d, n)). apply in_map. exact Hd. }
  destruct (includes_mk p [(d, n)] Hp Hq) as (r & -> & Hr). cbn [bind]. assert (r = true) as ->.
  { apply Hr. intros k m [E|[]]. injection E as <- <-. exact Hd. }
  cbn [negb]. destruct (ranges_ok (k_vals c)) as (ind & -> & Hi & Hsel). cbn [bind]. rewrite Hv, <- Hn in Hi. destruct (extract_ranges_ok eqb junk (along d) ind Ho Hi) as (out & Eo & Hs). exists out. split; [exact Eo|].
  revert Hs. apply selected_object_impl. intros l l' Hl ->. apply Hsel. unfold zlen in *. lia.
Qed.
Print Assumptions C36_condition.

(** Lists of positions: the rows in the order of the list, negative positions count from the end; an error exactly if a
    position is out of range. *)
Theorem C36_list A (eqb : A -> A -> bool) junk p along d n ps :
  lwf p -> In (d, n) p -> zlen (b_data (along d)) = n -> object_ok eqb (along d) ->
  (Forall (in_range n) ps -> exists out, slice_by_list eqb junk (mk p) along d ps = Ok out /\ selected_object (fun rows rows' => picks rows (map (place n) ps) rows') (along d) out) /\
  (~ Forall (in_range n) ps -> slice_by_list eqb junk (mk p) along d ps = Throw OutOfRange).
Proof.
  intros Hp Hd Hn Ho. assert (Edat : dat (mk p) d = Ok n).
  { apply in_split in Hd as (p1 & p2 & ->). apply dat_sp. destruct (lwf_app _ _ _ _ Hp) as (_ & _ & Hk1 & _). exact Hk1. }
  unfold slice_by_list. rewrite Edat. cbn [bind]. split.
  - intros Hps. rewrite check_range_ok by exact Hps. cbn [bind]. rewrite make_slices_ok by exact Hps. cbn [bind].
    assert (Hpl : Forall (fun q => 0 <= q < n) (map (place n) ps)).
    { apply Forall_map. revert Hps. apply Forall_impl. intros q Hq. unfold in_range in Hq. unfold place. destruct (Z.ltb_spec q 0); lia. }
    destruct (extract_ranges_ok eqb junk (along d) (map (fun q => (q, q + 1)) (map (place n) ps)) Ho) as (out & Eo & Hs); [apply singles_inside; rewrite Hn; exact Hpl|]. exists out. split; [exact Eo|].
    revert Hs. apply selected_object_impl. intros l l' Hl ->. apply rows_of_picks. rewrite Hl, Hn. exact Hpl.
  - intros Hps. rewrite check_range_bad by exact Hps. reflexivity.
Qed.
Print Assumptions C36_list.

(** Binned data: the selected bins with their contents; the columns of the events likewise. *)
Theorem C36_bins A (eqb : A -> A -> bool) junk c ranges bins (buf : buffer A) :
  ranges_of c = Ok ranges -> zlen bins = zlen c -> good_buffer bins buf -> (forall k x, In (k, Fixed x) (b_items buf) -> eqb x x = true) ->
  exists idx out, extract_bins eqb junk ranges bins buf = Ok (idx, out) /\
    map (slice_range (b_data out)) idx = map (slice_range (b_data buf)) (selected c bins) /\
    map fst (b_items out) = map fst (b_items buf) /\
    forall k x, In (k, x) (b_items buf) -> match x with
      | Events l => exists l', item k (b_items out) = Some (Events l') /\ map (slice_range l') idx = map (slice_range l) (selected c bins)
      | Fixed v => item k (b_items out) = Some (Fixed v)
      end.
Proof.
  intros Er Hlen (Hin & Hnd & Hcol) Hfix. destruct (ranges_ok c) as (ind & Er' & Hi & Hsel). assert (ind = ranges) as -> by congruence. rewrite <- (Hsel _ bins) by (unfold zlen in Hlen; lia). rewrite <- Hlen in Hi.
  unfold extract_bins. rewrite new_indices_ok. cbn [bind fst snd]. rewrite copy_slices_fresh by exact Hi. cbn [bind]. set (sel := rows_of bins ranges).
  assert (Hs : Forall (inside (zlen (b_data buf))) sel) by (apply inside_In; exact Hin).
  unfold copy_ranges. rewrite new_indices_ok. cbn [bind fst snd]. unfold copy_buffer, resize_default_init. cbn [b_data b_items]. rewrite copy_slices_fresh by exact Hs. cbn [bind]. rewrite matching_keys_ok by (intros k; rewrite map_map; reflexivity).
  assert (Hne : strip_edges (zlen (b_data buf)) (b_items buf) = b_items buf).
  { unfold strip_edges. clear Hnd Hfix. revert Hcol. generalize (b_items buf). intros l Hl. induction Hl as [|[k x] l Hx _ IH]; [reflexivity|]. cbn [filter snd]. destruct x as [e|v]; cbn [column_is_edges good_column snd] in *; [replace (zlen e =? zlen (b_data buf) + 1) with false by lia|]; cbn [negb]; rewrite IH; reflexivity. }
  rewrite Forall_forall in Hcol.
  destruct (items_ok eqb junk (zlen (b_data buf)) (b_items buf) sel Hnd) as (out & Eo & Ko & Vo); [intros k x Hx; destruct x as [l|v]; [left; apply (Hcol _ Hx)|apply (Hfix k v Hx)]|exact Hs|].
  rewrite Hne in Eo, Ko. rewrite Eo. cbn [bind]. eexists _, _. split; [reflexivity|]. cbn [b_data b_items]. split; [apply (slice_consec (b_data buf) sel Hs [])|]. split; [exact Ko|].
  intros k x Hx. specialize (Vo k x Hx). destruct x as [l|v]; cbn [selected_item] in Vo; [|exact Vo]. assert (El : zlen l = zlen (b_data buf)) by (apply (Hcol _ Hx)). replace (zlen l =? zlen (b_data buf)) with true in Vo by lia. destruct Vo as (l' & E & ->). exists (rows_of l sel). split; [exact E|]. apply (fun h => slice_consec l sel h []). rewrite El. exact Hs.
Qed.
Print Assumptions C36_bins.

(** Errors of conditions. *)
Theorem C36_errors A (eqb : A -> A -> bool) junk p along c :
  (k_bool c = false -> extract eqb junk (mk p) along c = Throw TypeError) /\
  (k_bool c = true -> ndim (k_dims c) <> 1 -> extract eqb junk (mk p) along c = Throw DimensionError) /\
  (forall d n, k_bool c = true -> k_dims c = mk [(d, n)] -> lwf p -> lwf [(d, n)] -> ~ In (d, n) p -> extract eqb junk (mk p) along c = Throw DimensionError).
Proof.
  unfold extract. split; [intros ->; reflexivity|]. split.
  - intros -> Hn. cbn [negb]. replace (ndim (k_dims c) =? 1) with false by lia. reflexivity.
  - intros d n -> -> Hp Hq Hd. cbn [negb]. change (ndim (mk [(d, n)]) =? 1) with true. cbn [negb]. destruct (includes_mk p [(d, n)] Hp Hq) as (r & -> & Hr). cbn [bind]. destruct r; [|reflexivity]. exfalso. apply Hd. apply Hr; [reflexivity|]. left. reflexivity.
Qed.
Print Assumptions C36_errors.

(** ** Python slices *)
(** The bounds of a slice with a positive step: counted from the end if negative, cut to the extent. *)
Definition bound (n default : Z) (v : option Z) : Z := match v with None => default | Some v => Z.max 0 (Z.min n (place n v)) end.
(** A range slice with a step: element [k] is the one at [start + k * step], as long as this is before [stop]. *)
Theorem C36_py_slice A (x : varr A) p1 d n p2 start stop step : wfv (va x) -> vshape x = p1 ++ (d, n) :: p2 -> 0 < step ->
  exists y len, (do s <- from_py_slice (vdims x) d start stop step; apply_op x (VwSlice s)) = Ok y /\ vshape y = p1 ++ (d, len) :: p2 /\
    (forall k, 0 <= k -> (k < len <-> bound n 0 start + k * step < bound n n stop)) /\
    forall ix, valid_at (vshape y) ix -> val y ix = val x (put ix d (bound n 0 start + ix d * step)).
Proof.
  intros Hw Ep Hs. pose proof (vdims_mk x Hw) as [Ev Hp]. rewrite Ep in Ev, Hp. assert (Hn : 0 <= n) by (destruct Hp as (_ & P2 & _); rewrite Forall_forall in P2; apply P2; change n with (snd (d, n)); apply in_map; apply in_or_app; right; left; reflexivity).
  destruct (lwf_app _ _ _ _ Hp) as (_ & _ & Hk1 & Hk2 & _). unfold from_py_slice. rewrite Ev, dat_sp by exact Hk1. cbn [bind]. unfold adjust. replace (step <? 0) with false by lia.
  assert (Cl : forall v, clip n 0 n v = Z.max 0 (Z.min n (place n v))) by (intros v; unfold clip, place; destruct (Z.ltb_spec v 0); lia).
  assert (Es : match start with Some v => clip n 0 n v | None => 0 end = bound n 0 start) by (destruct start as [v|]; [apply Cl|reflexivity]).
  assert (Ee : match stop with Some v => clip n 0 n v | None => n end = bound n n stop) by (destruct stop as [v|]; [apply Cl|reflexivity]). rewrite Es, Ee. clear Es Ee Cl.
  assert (Bs : 0 <= bound n 0 start <= n) by (destruct start as [v|]; cbn [bound]; lia). assert (Be : 0 <= bound n n stop <= n) by (destruct stop as [v|]; cbn [bound]; lia).
  generalize dependent (bound n 0 start). generalize dependent (bound n n stop). intros e Be s Bs. cbv iota beta.
  set (len := if s <? e then (e - s - 1) / step + 1 else 0). assert (Hlen : 0 <= len /\ (len = 0 <-> e <= s) /\ forall k, 0 <= k -> (k < len <-> s + k * step < e)).
  { unfold len. destruct (Z.ltb_spec s e) as [Hse|Hse].
    - pose proof (Z.div_pos (e - s - 1) step ltac:(lia) Hs) as Hq. split; [lia|]. split; [lia|]. intros k Hk. pose proof (Z.div_mod (e - s - 1) step ltac:(lia)) as Hdm. pose proof (Z.mod_pos_bound (e - s - 1) step Hs). split; intros Hx; nia.
    - split; [lia|]. split; [lia|]. intros k Hk. split; intros Hx; nia. }
  clearbody len. destruct Hlen as (L0 & L1 & L2). set (e' := if len =? 0 then s else e). assert (He' : s <= e' <= n /\ e' <> -1) by (unfold e'; destruct (Z.eqb_spec len 0); lia).
  assert (Esl : Dims_Model.slice_range d s e' step = Ok (mkslice d s e' step)) by (unfold Dims_Model.slice_range; replace (s <? 0) with false by lia; replace (s >? e') with false by lia; rewrite andb_false_r; replace (step =? 0) with false by lia; replace (step <? 0) with false by lia; reflexivity).
  rewrite Esl. cbn [bind]. pose proof (apply_ok x (VwSlice (mkslice d s e' step)) Hw ltac:(right; cbn; lia)) as Ha. cbn [view_dims pull] in Ha. rewrite Ep in Ha. unfold slice_dims in Ha.
  assert (Hnd : slice_eqb (mkslice d s e' step) slice_default = false) by (unfold slice_eqb, slice_default; cbn [s_dim s_begin s_end s_stride]; replace (s =? -1) with false by lia; rewrite ?andb_false_r, ?andb_false_l; reflexivity).
  rewrite Hnd in Ha. cbn [s_dim s_begin s_end s_stride] in Ha. replace (extent (p1 ++ (d, n) :: p2) d) with (Some n) in Ha by (symmetry; apply extent_In; [apply Hp|apply in_or_app; right; left; reflexivity]).
  replace (e' =? -1) with false in Ha by lia. replace (e' <=? n) with true in Ha by lia. rewrite map_split in Ha by assumption. cbn [fst] in Ha. destruct Ha as (y & E & Esy & Hy & Hv). exists y, len. split; [exact E|].
  assert (Hcd : ceil_div (e' - s) step = len).
  { unfold ceil_div, e'. destruct (Z.eqb_spec len 0) as [->|Hl].
    - rewrite Z.sub_diag. apply Z.div_small. lia.
    - assert (Hse : s < e) by lia. symmetry. pose proof (proj1 (L2 (len - 1) ltac:(lia)) ltac:(lia)). assert (~ s + len * step < e) by (rewrite <- (L2 len) by lia; lia). apply (Z.div_unique _ _ _ (e - s + step - 1 - step * len)); [left; nia|nia]. }
  rewrite Esy, Hcd. split; [reflexivity|]. split; [exact L2|]. intros ix Hix. rewrite Hcd in Hv. destruct (Hv ix Hix) as [_ ->]. rewrite (Z.mul_comm step). reflexivity.
Qed.
Print Assumptions C36_py_slice.
(** A negative step is an error. *)
Theorem C36_py_slice_negative A (x : varr A) p1 d n p2 start stop step : wfv (va x) -> vshape x = p1 ++ (d, n) :: p2 -> step < 0 ->
  from_py_slice (vdims x) d start stop step = Throw SliceError.
Proof.
  intros Hw Ep Hs. pose proof (vdims_mk x Hw) as [Ev Hp]. rewrite Ep in Ev, Hp. destruct (lwf_app _ _ _ _ Hp) as (_ & _ & Hk1 & Hk2 & _). unfold from_py_slice. rewrite Ev, dat_sp by exact Hk1. cbn [bind].
  destruct (adjust n start stop step) as [[s e] len]. unfold Dims_Model.slice_range. destruct (s <? 0); [reflexivity|]. destruct (negb _ && _); [reflexivity|]. replace (step =? 0) with false by lia. replace (step <? 0) with true by lia. reflexivity.
Qed.
Print Assumptions C36_py_slice_negative.
(** A single position. *)
Theorem C36_index A (x : varr A) p1 d n p2 i : wfv (va x) -> vshape x = p1 ++ (d, n) :: p2 ->
  (in_range n i -> exists y, (do s <- get_slice (vdims x) d i; apply_op x (VwSlice s)) = Ok y /\ vshape y = p1 ++ p2 /\ forall ix, valid_at (vshape y) ix -> val y ix = val x (put ix d (place n i))) /\
  (~ in_range n i -> get_slice (vdims x) d i = Throw OutOfRange).
Proof.
  intros Hw Ep. pose proof (vdims_mk x Hw) as [Ev Hp]. rewrite Ep in Ev, Hp. destruct (lwf_app _ _ _ _ Hp) as (_ & _ & Hk1 & Hk2 & _). unfold get_slice. rewrite Ev, dat_sp by exact Hk1. cbn [bind]. unfold in_range. split; intros Hi.
  - replace ((i <? - n) || (n <=? i)) with false by lia. fold (place n i). destruct (take_point x p1 d n p2 (place n i) Hw Ep) as (y & Ey & Sy & _ & Vy); try (unfold place; destruct (Z.ltb_spec i 0); lia). exists y. auto.
  - replace ((i <? - n) || (n <=? i)) with true by lia. reflexivity.
Qed.
Print Assumptions C36_index.

(** ** Concrete cases *)
Definition obj : buffer Z := mkbuf [10; 11; 12; 13; 14] [(1, Events [0; 1; 2; 3; 4]); (2, Events [0; 10; 20; 30; 40; 50]); (3, Fixed 7)].
Lemma obj_ok : object_ok Z.eqb obj.
Proof. split; [repeat (constructor; [cbn; intuition lia|]); constructor|]. intros k c [E|[E|[E|[]]]]; injection E as <- <-; cbn; auto. Qed.
Definition cond5 : condition := mkcond true (mk [(5, 5)]) true [false; true; true; false; true].
Lemma cond5_ok : is_condition cond5 5 5. Proof. repeat split. Qed.
Example C36_condition_case : extract Z.eqb 0 (mk [(4, 2); (5, 5)]) (fun _ => obj) cond5 = Ok (mkbuf [11; 12; 14] [(1, Events [1; 2; 4]); (3, Fixed 7)]).
Proof. reflexivity. Qed.
Example C36_condition_hyp_case : exists out, extract Z.eqb 0 (mk [(4, 2); (5, 5)]) (fun _ => obj) cond5 = Ok out /\ b_data out = [11; 12; 14].
Proof.
  destruct (C36_condition Z Z.eqb 0 [(4, 2); (5, 5)] (fun _ => obj) cond5 5 5) as (out & E & Hd & _).
  - lwf_tac.
  - right. left. reflexivity.
  - exact cond5_ok.
  - reflexivity.
  - exact obj_ok.
  - exists out. split; [exact E|]. rewrite Hd. reflexivity.
Qed.
Example C36_list_case : slice_by_list Z.eqb 0 (mk [(5, 5)]) (fun _ => obj) 5 [-1; 0; 0; 3] = Ok (mkbuf [14; 10; 10; 13] [(1, Events [4; 0; 0; 3]); (3, Fixed 7)]) /\
  slice_by_list Z.eqb 0 (mk [(5, 5)]) (fun _ => obj) 5 [0; 5] = Throw OutOfRange /\ slice_by_list Z.eqb 0 (mk [(5, 5)]) (fun _ => obj) 5 [-6; 0] = Throw OutOfRange.
Proof. repeat split. Qed.
Example C36_list_hyp_case : exists out, slice_by_list Z.eqb 0 (mk [(5, 5)]) (fun _ => obj) 5 [-1; 0] = Ok out /\ selected_object (fun rows rows' => picks rows [4; 0] rows') obj out.
Proof.
  destruct (C36_list Z Z.eqb 0 [(5, 5)] (fun _ => obj) 5 5 [-1; 0]) as [Hx _]; [lwf_tac|left; reflexivity|reflexivity|exact obj_ok|]. apply Hx. repeat constructor; unfold in_range; lia.
Qed.
Example C36_bins_case : extract_bins Z.eqb 0 [(0, 1); (2, 3)] [(3, 5); (5, 5); (0, 2)] (mkbuf [1; 2; 3; 4; 5] [(1, Events [10; 20; 30; 40; 50])]) = Ok ([(0, 2); (2, 4)], mkbuf [4; 5; 1; 2] [(1, Events [40; 50; 10; 20])]).
Proof. reflexivity. Qed.
Example C36_bins_hyp_case : exists idx out, extract_bins Z.eqb 0 [(0, 1); (2, 3)] [(3, 5); (5, 5); (0, 2)] (mkbuf [1; 2; 3; 4; 5] [(1, Events [10; 20; 30; 40; 50])]) = Ok (idx, out) /\ map (slice_range (b_data out)) idx = [[4; 5]; [1; 2]].
Proof.
  destruct (C36_bins Z Z.eqb 0 [true; false; true] [(0, 1); (2, 3)] [(3, 5); (5, 5); (0, 2)] (mkbuf [1; 2; 3; 4; 5] [(1, Events [10; 20; 30; 40; 50])])) as (idx & out & E & Hx & _); try reflexivity.
  - split; [repeat constructor; cbn; lia|]. split; [repeat constructor; intros []|repeat constructor].
  - intros k x [E|[]]. discriminate.
  - exists idx, out. split; [exact E|]. rewrite Hx. reflexivity.
Qed.
Example C36_errors_case : extract Z.eqb 0 (mk [(5, 5)]) (fun _ => obj) (mkcond true (mk [(5, 4)]) true [true; true; true; true]) = Throw DimensionError.
Proof. reflexivity. Qed.
Example C36_py_slice_case : felems (do s <- from_py_slice (D [(1, 5)]) 1 (Some (-4)) None 2; apply_op (arr_of [(1, 5)] [10; 11; 12; 13; 14]) (VwSlice s)) = Some ([(1, 2)], [11; 13]) /\
  felems (do s <- from_py_slice (D [(1, 5)]) 1 (Some 3) (Some 1) 1; apply_op (arr_of [(1, 5)] [10; 11; 12; 13; 14]) (VwSlice s)) = Some ([(1, 0)], []) /\
  felems (do s <- from_py_slice (D [(1, 5)]) 1 None (Some 100) 3; apply_op (arr_of [(1, 5)] [10; 11; 12; 13; 14]) (VwSlice s)) = Some ([(1, 2)], [10; 13]).
Proof. repeat split. Qed.
Example C36_py_slice_hyp_case : exists y, (do s <- from_py_slice (vdims (arr_of [(1, 5)] [10; 11; 12; 13; 14])) 1 (Some (-4)) None 2; apply_op (arr_of [(1, 5)] [10; 11; 12; 13; 14]) (VwSlice s)) = Ok y /\ vshape y = [(1, 2)].
Proof.
  destruct (arr_of_ok [(1, 5)] [10; 11; 12; 13; 14] ltac:(lwf_tac)) as [Hw Hs]. destruct (C36_py_slice Z (arr_of [(1, 5)] [10; 11; 12; 13; 14]) [] 1 5 [] (Some (-4)) None 2 Hw Hs ltac:(lia)) as (y & len & Ey & Sy & Hl & _).
  exists y. split; [exact Ey|]. rewrite Sy. cbn [app]. change (bound 5 0 (Some (-4))) with 1 in Hl. change (bound 5 5 None) with 5 in Hl. pose proof (Hl 1 ltac:(lia)). pose proof (Hl 2 ltac:(lia)). repeat f_equal. lia.
Qed.
Example C36_index_case : felems (do s <- get_slice (D [(1, 5)]) 1 (-2); apply_op (arr_of [(1, 5)] [10; 11; 12; 13; 14]) (VwSlice s)) = Some ([], [13]) /\ get_slice (D [(1, 5)]) 1 5 = Throw OutOfRange.
Proof. split; reflexivity. Qed.

(** ** Not as stated *)
(** A coord without the dimension that contains NaN makes every selection fail: the copy compares it with itself. *)
Theorem C36_nan_refuted : ~ forall A (eqb : A -> A -> bool) junk p along c d n, (forall x y, eqb x y = true -> x = y) ->
  lwf p -> In (d, n) p -> is_condition c d n -> zlen (b_data (along d)) = n -> NoDup (map fst (b_items (along d))) ->
  (forall k l, In (k, Events l) (b_items (along d)) -> zlen l = n) -> exists out, extract eqb junk (mk p) along c = Ok out.
Proof.
  intros Hx. set (eqb := fun a b : option Z => match a, b with Some a, Some b => a =? b | _, _ => false end). set (o := mkbuf [Some 1; Some 2] [(1, Fixed None)] : buffer (option Z)).
  destruct (Hx (option Z) eqb None [(5, 2)] (fun _ => o) (mkcond true (mk [(5, 2)]) true [true; false]) 5 2) as [out E].
  - intros [a|] [b|]; cbn; try discriminate. intros E. apply Z.eqb_eq in E. congruence.
  - lwf_tac.
  - left. reflexivity.
  - repeat split.
  - reflexivity.
  - repeat constructor. intros [].
  - intros k l [E|[]]. discriminate.
  - vm_compute in E. discriminate.
Qed.
Print Assumptions C36_nan_refuted.
(** A condition that is a view with a stride is not accepted. *)
Theorem C36_stride_refuted : ~ forall p (along : Z -> buffer Z) c d n,
  lwf p -> In (d, n) p -> k_bool c = true -> k_dims c = mk [(d, n)] -> zlen (k_vals c) = n -> zlen (b_data (along d)) = n -> object_ok Z.eqb (along d) -> exists out, extract Z.eqb 0 (mk p) along c = Ok out.
Proof.
  intros Hx. destruct (Hx [(5, 5)] (fun _ => obj) (mkcond true (mk [(5, 5)]) false [false; true; true; false; true]) 5 5) as [out E].
  - lwf_tac.
  - left. reflexivity.
  - reflexivity.
  - reflexivity.
  - reflexivity.
  - reflexivity.
  - exact obj_ok.
  - vm_compute in E. discriminate.
Qed.
Print Assumptions C36_stride_refuted.
