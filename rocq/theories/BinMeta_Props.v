(** C56: what [bin] does with dimensions, masks and metadata. *)
From Coq Require Import Permutation ListDec.
From Verif Require Import Float.
From Verif Require Subbin_Model Numeric_Model Lookup_Model BinKernel_Model Mapper_Model Mapper_Proofs Mapper_Proofs3 TargetBins_Model TargetBins_Proofs TargetBins_Proofs2 TargetBins_Props.
From Verif Require Import Base Map_Model Map_Spec Map_Proofs Dims_Model Dims_Spec Dims_Proofs View_Model View_Spec View_Proofs Index_Proofs
  Transform_Model Transform_Spec Transform_Proofs SizedDict_Model SizedDict_Spec SizedDict_Proofs Equality_Proofs Accumulate_Spec
  Reduce_Proofs Label_Proofs Accumulate_Model Accumulate_Proofs Mask_Model Mask_Spec Mask_Proofs BinMeta_Model BinMeta_Spec BinMeta_Proofs.

(** Variables of given shape *)
Definition vr (k : Z) (sh : list (Dim * Z)) : item := mkitem k (var_fresh (mk sh)) true false.
Lemma vr_ok k sh : lwf sh -> item_ok (vr k sh) /\ ishape (vr k sh) = sh.
Proof. intros Hl. split; [split; [apply fresh_wfv; apply mk_wf; exact Hl|reflexivity]|apply pairs_mk]. Qed.

(** ** Axes: erased dimensions, existing dimensions from the first one that changes, new groups, new edges; or a DimensionError *)
Theorem C56_axes data coords edges groups erase : wf data -> dict_ok coords -> Forall (arg_ok 1) edges -> Forall (arg_ok 0) groups -> ~ In InvalidDim erase ->
  (compatible (pairs data) (ditems coords) edges groups erase ->
   exists b, axis_actions data coords edges groups erase = Ok b /\ pairs (b_dims b) = map extent_of (axes (pairs data) edges groups erase) /\ b_acts b = flat_map action_of (axes (pairs data) edges groups erase)) /\
  (~ compatible (pairs data) (ditems coords) edges groups erase -> axis_actions data coords edges groups erase = Throw DimensionError).
Proof.
  intros Hd Hc He Hg Her. destruct (wf_mk_pairs _ Hd) as [EP HP]. destruct (dict_parts _ Hc) as [Ec Nc]. destruct Hc as (_ & _ & Hi).
  destruct (axis_actions_ok (pairs data) (ditems coords) edges groups erase HP Nc Hi He Hg Her) as [A1 A2]. rewrite <- EP, <- Ec in A1, A2. split; [|exact A2]. intros Hcomp. eexists. split; [exact (A1 Hcomp)|]. split; [apply pairs_mk|reflexivity].
Qed.
Print Assumptions C56_axes.

(** ** Shape *)
Theorem C56_shape data coords edges groups erase b : wf data -> dict_ok coords -> Forall (arg_ok 1) edges -> Forall (arg_ok 0) groups -> ~ In InvalidDim erase ->
  axis_actions data coords edges groups erase = Ok b ->
  exists out, out_dims data (b_dims b) erase = Ok out /\ wf out /\ pairs out = result_shape (pairs data) (axes (pairs data) edges groups erase) erase /\
    (forall d n, ~ changed edges groups erase d -> has out d n <-> has data d n) /\
    (forall g, In g groups -> has out (idim g) (snd (inner g))) /\
    (forall e, In e edges -> ~ In (idim e) (map idim groups) -> has out (idim e) (snd (inner e) - 1)) /\
    (forall d n, In d erase -> ~ has out d n).
Proof.
  intros Hd Hc He Hg Her Eb. destruct (wf_mk_pairs _ Hd) as [EP HP]. destruct (dict_parts _ Hc) as [Ec Nc]. destruct Hc as (_ & _ & Hi). set (P := pairs data) in *.
  destruct (axis_actions_ok P (ditems coords) edges groups erase HP Nc Hi He Hg Her) as [A1 A2]. rewrite <- EP, <- Ec in A1, A2.
  assert (Hcomp : compatible P (ditems coords) edges groups erase).
  { assert (X : forall Q : Prop, (compatible P (ditems coords) edges groups erase -> Q) -> ~ Q -> False) by (intros Q HQ NQ; rewrite A2 in Eb; [discriminate|]; intros Hx; exact (NQ (HQ Hx))). unfold compatible in X.
    destruct (ListDec.NoDup_dec Z.eq_dec (map idim edges)) as [N1|N1]; [|exfalso; revert N1; apply X; tauto].
    destruct (ListDec.NoDup_dec Z.eq_dec (map idim groups)) as [N2|N2]; [|exfalso; revert N2; apply X; tauto].
    destruct (ListDec.NoDup_dec Z.eq_dec (map (fun a => fst (extent_of a)) (axes P edges groups erase))) as [N3|N3]; [|exfalso; revert N3; apply X; tauto].
    destruct (forallb (kept_okb (ditems coords)) (axes P edges groups erase)) eqn:N4; [apply kept_okb_iff in N4; [|exact Nc]; repeat split; assumption|].
    exfalso. apply (X (kept_1d (ditems coords) (axes P edges groups erase))); [tauto|]. intros Hk. apply (kept_okb_iff _ _ Nc) in Hk. congruence. }
  rewrite (A1 Hcomp) in Eb. injection Eb as <-. cbn [b_dims]. set (A := axes P edges groups erase) in *.
  destruct (result_ok P (ditems coords) edges groups erase HP He Hg Her Hcomp) as [Eout HO]. fold A in Eout, HO. rewrite EP. exists (mk (result_shape P A erase)). split; [exact Eout|]. split; [apply mk_wf; exact HO|]. split; [apply pairs_mk|]. unfold has. rewrite pairs_mk. rewrite pairs_mk.
  assert (HN : forall l it, In it l -> NoDup (map idim l) -> named (idim it) l = Some it).
  { clear. induction l as [|a l IH]; intros it Hi Hnd; [destruct Hi|]. inversion_clear Hnd as [|? ? Hx Hl]. unfold named. cbn [find]. destruct Hi as [->|Hi]; [rewrite Z.eqb_refl; reflexivity|]. destruct (Z.eqb_spec (idim a) (idim it)) as [E|]; [exfalso; apply Hx; rewrite E; apply in_map; exact Hi|]. apply IH; assumption. }
  destruct Hcomp as (Ne & Ng & Hcomp').
  assert (Hcomp : compatible P (ditems coords) edges groups erase) by (split; [exact Ne|split; [exact Ng|exact Hcomp']]).
  assert (Hgin : forall g, In g groups -> In (Grouped g) A).
  { intros g Hgi. assert (Hch : given edges groups (idim g) = true) by (unfold given; apply Bool.orb_true_iff; right; apply mem_In; apply in_map; exact Hgi). unfold A, axes. rewrite !in_app_iff. destruct (mem (idim g) (keys P)) eqn:M.
    - right; left. apply mem_In, In_keys in M. destruct M as [n Hn]. apply in_flat_map. exists (idim g, n). split; [apply from_first_given; assumption|]. unfold axis_of. cbn [fst]. rewrite (HN groups g Hgi Ng). left. reflexivity.
    - right; right; left. apply in_map. apply filter_In. split; [exact Hgi|]. unfold is_new. rewrite M. reflexivity. }
  assert (Hein : forall e, In e edges -> ~ In (idim e) (map idim groups) -> In (Binned e) A).
  { intros e Hei Hni. assert (Hch : given edges groups (idim e) = true) by (unfold given; apply Bool.orb_true_iff; left; apply mem_In; apply in_map; exact Hei). unfold A, axes. rewrite !in_app_iff. destruct (mem (idim e) (keys P)) eqn:M.
    - right; left. apply mem_In, In_keys in M. destruct M as [n Hn]. apply in_flat_map. exists (idim e, n). split; [apply from_first_given; assumption|]. unfold axis_of. cbn [fst]. pose proof (named_index groups (idim e)) as Nx. destruct (named (idim e) groups) as [g|]; [destruct Nx as (Nx & _); apply mem_In in Nx; contradiction|]. rewrite (HN edges e Hei Ne). left. reflexivity.
    - right; right; right. apply in_map. apply filter_In. split; [exact Hei|]. unfold is_new. rewrite M. reflexivity. }
  split; [|split; [|split]].
  - intros d n Hu. apply (unchanged_dim P edges groups erase HP d n Hu).
  - intros g Hgi. pose proof (Hgin g Hgi) as Ha. pose proof (axis_in_result P edges groups erase (Grouped g) Ha) as Hr. unfold idim. rewrite <- surjective_pairing. apply Hr. apply (axis_not_erased P (ditems coords) edges groups erase Hcomp (Grouped g) Ha). discriminate.
  - intros e Hei Hni. pose proof (Hein e Hei Hni) as Ha. apply (axis_in_result P edges groups erase (Binned e) Ha). apply (axis_not_erased P (ditems coords) edges groups erase Hcomp (Binned e) Ha). discriminate.
  - intros d n Hx Hin. unfold result_shape in Hin. apply in_app_iff in Hin. destruct Hin as [Hin|Hin]; apply filter_In in Hin; destruct Hin as [_ Hin]; cbn [fst] in Hin; apply Bool.negb_true_iff, mem_nIn in Hin; apply Hin; [|exact Hx].
    fold A. unfold A, axes. rewrite map_app. apply in_or_app. left. rewrite map_map. cbn [extent_of fst]. rewrite map_id. exact Hx.
Qed.
Print Assumptions C56_shape.

(** ** Masks: a bin is hidden iff a mask that depends on one of the axes is set; its events do not contribute *)
Definition rows_of {E} (buf : list E) (r : Z * Z) : list E := firstn (Z.to_nat (snd r - fst r)) (skipn (Z.to_nat (fst r)) buf).
Theorem C56_hide {E} (buf : list E) (i : darr (Z * Z)) (l : list (Z * mask)) dims : well_formed i -> (forall k m, In (k, m) l -> well_formed (k_arr m)) -> (forall d, In d dims -> applicable l d i) ->
  exists j, hide_masked i l dims = Ok j /\ well_formed j /\ dd j = dd i /\
    forall ix, rows_of buf (dv j ix) = if hidden l dims ix then [] else rows_of buf (dv i ix).
Proof.
  intros Hi Hw Happ. destruct (hide_masked_ok l dims i Hi Hw Happ) as (j & Ej & Hj & Ed & Hv). exists j. repeat (split; [assumption|]). intros ix. rewrite Hv. destruct (hidden l dims ix); reflexivity.
Qed.
Print Assumptions C56_hide.

(** With C23: the bins of the output consist of the events of the bins that are not hidden. *)
Theorem C56_rebin_masked {E} bits sh (acts : list (TargetBins_Model.action E)) (buf : list E) (ix : list Z -> Dim -> Z) (i : darr (Z * Z)) (l : list (Z * mask)) dims strat :
  well_formed i -> (forall k m, In (k, m) l -> well_formed (k_arr m)) -> (forall d, In d dims -> applicable l d i) ->
  Forall (fun n => 0 <= n) sh -> Forall (TargetBins_Proofs2.action_ok bits sh) acts ->
  (forall a p e, In a acts -> Mapper_Proofs.valid sh p -> hidden l dims (ix p) = false -> In e (rows_of buf (dv i (ix p))) -> TargetBins_Proofs2.event_ok sh a p e) ->
  TargetBins_Proofs2.shortcut_ok sh acts -> Forall (Mapper_Proofs.okdim sh) strat -> NoDup strat ->
  exists j st T, hide_masked i l dims = Ok j /\ TargetBins_Model.build bits sh acts = Ok st /\
  (forall p e, Mapper_Proofs.valid sh p -> hidden l dims (ix p) = false -> In e (rows_of buf (dv i (ix p))) -> TargetBins_Proofs2.target acts p e 0 (T p e)) /\
  let ev := TargetBins_Props.targets st (fun p => rows_of buf (dv j (ix p))) in let V := TargetBins_Model.volume acts in
  exists sizes total, Mapper_Model.bin_sizes sh strat ev (TargetBins_Model.s_off st) (TargetBins_Model.s_nb st) V = Ok sizes /\
  Mapper_Model.total_size sh strat ev (TargetBins_Model.s_off st) (TargetBins_Model.s_nb st) = Ok total /\
  forall W out0, (forall e, In e W <-> exists p w, Mapper_Proofs.valid sh p /\ Mapper_Model.writes sh strat ev (TargetBins_Model.s_off st) (TargetBins_Model.s_nb st) p = Ok w /\ In e w) -> zlen out0 = total ->
    exists out, Mapper_Model.apply_writes out0 W = Ok out /\
      Mapper_Model.bins_of_sizes out sizes =
      flat_map (fun q => map (fun b => flat_map (fun p => if hidden l dims (ix p) then [] else filter (fun e => T p e =? b) (rows_of buf (dv i (ix p)))) (TargetBins_Props.loops sh (rev strat) q)) (zseq 0 (Z.to_nat V)))
               (Mapper_Model.rows strat 0 sh).
Proof.
  intros Hi Hw Happ Hsh Hacts Hev Hs Hst Hnd. destruct (C56_hide buf i l dims Hi Hw Happ) as (j & Ej & _ & _ & Hr).
  destruct (TargetBins_Props.C23_rebin bits sh acts (fun p => rows_of buf (dv j (ix p))) strat Hsh Hacts) as (st & T & Est & HT & sizes & total & E1 & E2 & _ & HW); [|exact Hs|exact Hst|exact Hnd|].
  - intros a p e Ha Hp He. rewrite Hr in He. destruct (hidden l dims (ix p)) eqn:Eh; [destruct He|]. apply Hev; assumption.
  - exists j, st, T. split; [exact Ej|]. split; [exact Est|]. split; [intros p e Hp Eh He; apply HT; [exact Hp|]; rewrite Hr, Eh; exact He|]. cbv zeta. exists sizes, total. split; [exact E1|]. split; [exact E2|].
    intros W out0 HW0 Hl. destruct (HW W out0 HW0 Hl) as (out & Eo & Eb). exists out. split; [exact Eo|]. rewrite Eb. apply flat_map_ext. intros q. apply map_ext. intros b. apply flat_map_ext. intros p. rewrite Hr. destruct (hidden l dims (ix p)); reflexivity.
Qed.
Print Assumptions C56_rebin_masked.

(** ** Metadata *)
Theorem C56_metadata fresh nd sorted array u edges groups erase :
  let P := da_shape array in let cl := sd_list (da_coords array) in let ml := sd_list (da_masks array) in let al := sd_list (da_attrs array) in
  let A := axes P edges groups erase in let O := result_shape P A erase in let bd := u_dim u in let old := outdated edges groups erase bd in
  let evc := ditems (u_coords u) in let evm := ditems (u_masks u) in let eva := ditems (u_attrs u) in
  da_ok array -> dict_ok (u_coords u) -> dict_ok (u_masks u) -> dict_ok (u_attrs u) ->
  nd <= 1 -> (edges <> [] \/ groups <> []) -> Forall (arg_ok 2) edges -> (forall e, In e edges -> sorted e = true) -> Forall (arg_ok 0) groups -> ~ In InvalidDim erase ->
  NoDup (map fst (al ++ cl)) -> compatible P (al ++ cl) edges groups erase -> (forall it, In it (used A) -> outer_ok P edges groups erase it) ->
  (forall k it, In (k, it) (evc ++ evm ++ eva) -> ~ of_events bd it -> ~ In k (map idim groups) \/ In (k, it) (evm ++ eva) -> SizedDict_Spec.fits O (ishape it)) ->
  exists r, bin_meta fresh nd sorted array u edges groups erase = Ok r /\ da_ok r /\ da_shape r = O /\
    (forall k it, In (k, it) (sd_list (da_coords r)) <-> coord_entry (used A) evc cl bd old k it) /\
    (forall k it, In (k, it) (sd_list (da_masks r)) <-> meta_entry (fun _ => False) evm ml bd old k it) /\
    (forall k it, In (k, it) (sd_list (da_attrs r)) <-> meta_entry (fun k => In k (map fst (sd_list (da_coords r)))) eva al bd old k it).
Proof. exact (bin_meta_ok fresh nd sorted array u edges groups erase). Qed.
Print Assumptions C56_metadata.

(** What is rejected before anything is computed. *)
Theorem C56_rejects fresh nd sorted array u edges groups erase : Forall (arg_ok 0) edges ->
  (nd > 1 -> bin_meta fresh nd sorted array u edges groups erase = Throw BinnedDataError) /\
  (nd <= 1 -> edges = [] -> groups = [] -> bin_meta fresh nd sorted array u edges groups erase = Throw InvalidArgument) /\
  (nd <= 1 -> (exists e, In e edges /\ (snd (inner e) < 2 \/ sorted e = false)) -> bin_meta fresh nd sorted array u edges groups erase = Throw BinEdgeError).
Proof.
  intros He. unfold bin_meta, validate_bin_args. split; [|split].
  - intros Hn. destruct (Z.gtb_spec nd 1); [reflexivity|lia].
  - intros Hn -> ->. destruct (Z.gtb_spec nd 1); [lia|reflexivity].
  - intros Hn (e & Hi & Hx). destruct (Z.gtb_spec nd 1); [lia|].
    assert (E : check_edges sorted edges = Throw BinEdgeError).
    { clear Hn. revert He Hi. induction edges as [|a l IH]; intros He Hi; [destruct Hi|]. inversion_clear He as [|? ? Ha Hl]. destruct Ha as (Ha & Hne & _). cbn [check_edges]. rewrite inner_dim, inner_at by assumption. cbn [bind].
      destruct (Z.ltb_spec (snd (inner a)) 2); [reflexivity|]. destruct (sorted a) eqn:Es; cbn [negb]; [|reflexivity]. destruct Hi as [->|Hi]; [destruct Hx; [lia|congruence]|apply IH; assumption]. }
    destruct edges as [|a l]; [destruct Hi|]. destruct groups; rewrite E; reflexivity.
Qed.
Print Assumptions C56_rejects.

(** ** Target indices: exact for binned data if there are less than 2^63 output bins *)
Theorem C56_index l : Forall (fun a => -1 <= snd a < fst a) l -> prodZ (map fst l) < 2 ^ 63 -> push_all (bits_binned (prodZ (map fst l))) l = bin_index l.
Proof.
  intros Hl Hv. unfold push_all, bin_index. destruct (existsb (fun a => snd a <? 0) l) eqn:E; [apply push_missing; exact E|].
  assert (Hl' : Forall (fun a => 0 <= snd a < fst a) l). { apply Forall_forall. intros a Ha. rewrite Forall_forall in Hl. specialize (Hl a Ha). cut (~ snd a < 0); [lia|]. intros Hn. assert (X : existsb (fun a => snd a <? 0) l = true) by (apply existsb_exists; exists a; split; [exact Ha|]; lia). congruence. }
  unfold bits_binned. destruct (Z.gtb_spec (prodZ (map fst l)) (2 ^ 31 - 1)) as [Hg|Hg].
  - apply (push_exact 64 (prodZ (map fst l)) l ltac:(lia) ltac:(lia) 0 1); [lia|lia|exact Hl'].
  - apply (push_exact 32 (prodZ (map fst l)) l ltac:(lia) ltac:(lia) 0 1); [lia|lia|exact Hl'].
Qed.
Print Assumptions C56_index.
Theorem C56_index_case : let l := [(70000, 69999); (70000, 69999); (3, 2)] in Forall (fun a => -1 <= snd a < fst a) l /\ prodZ (map fst l) < 2 ^ 63 /\
  push_all (bits_binned (prodZ (map fst l))) l = 14699999999 /\ push_all 32 l <> 14699999999.
Proof. cbv zeta. split; [repeat constructor; cbn; lia|]. split; [cbn; lia|]. split; [reflexivity|]. vm_compute. discriminate. Qed.

(** For a table the type depends on the number of rows, not on the number of output bins: an event is lost, another one ends up in a wrong bin. *)
Theorem C56_table_index_refuted :
  (let l := [(2 ^ 16, 2 ^ 15); (2 ^ 16, 0)] in Forall (fun a => 0 <= snd a < fst a) l /\ bin_index l = 2 ^ 31 /\ push_all (bits_table 1) l = - 2 ^ 31) /\
  (let l := [(2 ^ 17, 2 ^ 16); (2 ^ 16, 5)] in Forall (fun a => 0 <= snd a < fst a) l /\ bin_index l = 2 ^ 32 + 5 /\ push_all (bits_table 1) l = 5).
Proof. split; cbv zeta; (split; [repeat constructor; cbn; lia|]; split; reflexivity). Qed.
Print Assumptions C56_table_index_refuted.

(** ** Cases *)
(** Dimensions: 10 x, 11 y, 12 z; 20 tof, 21 detector, 30 rows of the buffer. Data with dimensions x, y; y has bin edges that are replaced, the
    events are grouped by detector. *)
Definition sdm (sh : list (Dim * Z)) (l : list (Z * item)) : sdict := mksd (mk sh) (mkd l) false.
Lemma sdm_ok sh l : lwf sh -> NoDup (map fst l) -> (forall k it, In (k, it) l -> item_ok it /\ SizedDict_Spec.fits sh (ishape it)) -> sd_ok (sdm sh l).
Proof. intros Hl Hn Hf. apply sd_ok_alt. unfold sdm, sd_list, sd_shape. cbn [sd_sizes sd_items]. rewrite ditems_mkd, pairs_mk. split; [apply mk_wf; exact Hl|]. split; [reflexivity|]. split; [exact Hn|exact Hf]. Qed.
Definition ex_p : list (Dim * Z) := [(10, 2); (11, 3)].
Definition ex_array : darray := mkda (mkitem 0 (var_fresh (mk ex_p)) true true) (sdm ex_p [(10, vr 1 [(10, 2)]); (11, vr 2 [(11, 4)])]) (sdm ex_p [(100, vr 3 [(10, 2)]); (101, vr 4 [(11, 3)])]) (sdm ex_p []) false.
Definition ex_buffer : buffer := mkbuf 30 (mkd [(20, vr 5 [(30, 7)]); (21, vr 6 [(30, 7)])]) (mkd [(102, vr 7 [(30, 7)])]) (mkd []).
Definition ex_edges : list item := [vr 8 [(11, 6)]].
Definition ex_groups : list item := [vr 9 [(21, 5)]].
Lemma lwf1 d n : d <> InvalidDim -> 0 <= n -> lwf [(d, n)].
Proof. intros Hd Hn. split; [|split]; cbn; [repeat constructor; intros []|repeat constructor; exact Hn|intros [E|[]]; congruence]. Qed.
Lemma vr1 k d n : d <> InvalidDim -> 0 <= n -> item_ok (vr k [(d, n)]) /\ ishape (vr k [(d, n)]) = [(d, n)].
Proof. intros. apply vr_ok. apply lwf1; assumption. Qed.
Lemma ex_lwf : lwf ex_p.
Proof. split; [|split]; cbn; [repeat constructor; cbn; intuition congruence|repeat constructor; cbn; lia|intuition (discriminate || congruence)]. Qed.
Ltac fitv := first [left; intros ? ? [E|[]]; injection E as <- <-; cbn; tauto | right; eexists _, _; split; [left; reflexivity|]; split; [intros ? ? [E|[]] Hx; injection E as <- <-; congruence|left; cbn; tauto]].

Theorem C56_metadata_case : exists r, bin_meta 50 1 (fun _ => true) ex_array ex_buffer ex_edges ex_groups [] = Ok r /\
  da_ok ex_array /\ compatible (da_shape ex_array) (sd_list (da_attrs ex_array) ++ sd_list (da_coords ex_array)) ex_edges ex_groups [] /\ Forall (arg_ok 2) ex_edges /\ Forall (arg_ok 0) ex_groups /\
  da_shape r = [(10, 2); (11, 5); (21, 5)] /\
  map (fun e => (fst e, ishape (snd e))) (sd_list (da_coords r)) = [(11, [(11, 6)]); (21, [(21, 5)]); (10, [(10, 2)])] /\
  map fst (sd_list (da_masks r)) = [100] /\ sd_list (da_attrs r) = [].
Proof.
  eexists. split; [vm_compute; reflexivity|].
  assert (V : forall k d n, (d =? 0) = false -> (0 <=? n) = true -> item_ok (vr k [(d, n)]) /\ ishape (vr k [(d, n)]) = [(d, n)]) by (intros k d n Hd Hn; apply vr1; [unfold InvalidDim; lia|lia]).
  split.
  { unfold da_ok, ex_array. cbn [da_data da_coords da_masks da_attrs i_var i_dims]. split; [apply fresh_wfv; apply mk_wf; exact ex_lwf|]. repeat (split; [reflexivity|]). split; [|split]; (apply sdm_ok; [exact ex_lwf|cbn; repeat constructor; cbn; intuition congruence|]).
    - intros k it [E|[E|[]]]; injection E as <- <-; (split; [apply V; reflexivity|]); match goal with |- SizedDict_Spec.fits _ (ishape (vr ?k [(?d, ?n)])) => rewrite (proj2 (V k d n eq_refl eq_refl)) end; unfold ex_p; fitv.
    - intros k it [E|[E|[]]]; injection E as <- <-; (split; [apply V; reflexivity|]); match goal with |- SizedDict_Spec.fits _ (ishape (vr ?k [(?d, ?n)])) => rewrite (proj2 (V k d n eq_refl eq_refl)) end; unfold ex_p; fitv.
    - intros k it []. }
  split.
  { unfold compatible. change (axes (da_shape ex_array) ex_edges ex_groups []) with [Binned (vr 8 [(11, 6)]); Grouped (vr 9 [(21, 5)])]. split; [repeat constructor; intros []|]. split; [repeat constructor; intros []|]. split; [repeat constructor; cbn; intuition congruence|].
    intros d n it [E|[E|[]]]; discriminate. }
  split; [repeat constructor; try (apply V; reflexivity); try discriminate; cbn; lia|]. split; [repeat constructor; try (apply V; reflexivity); try discriminate; cbn; lia|].
  repeat split.
Qed.
Print Assumptions C56_metadata_case.

(** A mask along a dimension inside the rebinned one is applied to the events (its dimension is an axis) and is kept as well. *)
Definition mk1 (d n : Z) (f : Z -> bool) : mask := mkmask (Accumulate_Model.mkd (mk [(d, n)]) (fun ix => f (ix d))) true true false.
Definition two_bins : darr (Z * Z) := Accumulate_Model.mkd (mk [(11, 1); (10, 2)]) (fun ix => (ix 10, ix 10 + 1)).
Theorem C56_hide_case : exists j, hide_masked two_bins [(100, mk1 10 2 (fun i => i =? 1))] [11; 10] = Ok j /\
  (forall d, In d [11; 10] -> applicable [(100, mk1 10 2 (fun i => i =? 1))] d two_bins) /\
  dv j (fun d => if d =? 10 then 0 else 0) = (0, 1) /\ dv j (fun d => if d =? 10 then 1 else 0) = (0, 0).
Proof.
  eexists. split; [vm_compute; reflexivity|]. split; [|split; reflexivity].
  intros d Hd k m [E|[]] _. injection E as <- <-. split; [split; reflexivity|]. intros d' n Hn. unfold has in *. cbn in *. tauto.
Qed.
Theorem C56_existing_mask_refuted : exists array edges b j r,
  axis_actions (i_dims (da_data array)) (sd_items (da_coords array)) edges [] [] = Ok b /\
  hide_masked two_bins [(100, mk1 10 2 (fun i => i =? 1))] (labels (b_dims b)) = Ok j /\
  rows_of [5; 6] (dv two_bins (fun d => if d =? 10 then 1 else 0)) = [6] /\ rows_of [5; 6] (dv j (fun d => if d =? 10 then 1 else 0)) = [] /\
  bin_meta 50 1 (fun _ => true) array (mkbuf 30 (mkd []) (mkd []) (mkd [])) edges [] [] = Ok r /\
  da_shape r = [(11, 2); (10, 2)] /\ map fst (sd_list (da_masks r)) = [100].
Proof.
  set (sh := [(11, 1); (10, 2)]).
  exists (mkda (mkitem 0 (var_fresh (mk sh)) true true) (sdm sh []) (sdm sh [(100, vr 3 [(10, 2)])]) (sdm sh []) false), [vr 8 [(11, 3)]].
  eexists _, _, _. split; [vm_compute; reflexivity|]. split; [vm_compute; reflexivity|]. split; [reflexivity|]. split; [reflexivity|]. split; [vm_compute; reflexivity|]. split; reflexivity.
Qed.
Print Assumptions C56_existing_mask_refuted.

(** Edges for an existing dimension are ignored if there are groups for it; for a new dimension this is an error. *)
Theorem C56_edges_ignored_refuted : exists data edges groups b,
  axis_actions data mempty [edges] [groups] [] = Ok b /\ b_edges b = [] /\ b_groups b = [groups] /\ idim edges = idim groups /\ snd (inner edges) <> snd (inner groups) + 1 /\
  axis_actions (mk [(12, 1)]) mempty [edges] [groups] [] = Throw DimensionError.
Proof.
  exists (mk [(11, 3)]), (vr 1 [(11, 7)]), (vr 2 [(11, 2)]). eexists. split; [vm_compute; reflexivity|]. repeat split. vm_compute. discriminate.
Qed.
Print Assumptions C56_edges_ignored_refuted.

(** Dimensions x, y, z: new edges for y, z is erased, new groups for the detector. Edges for an erased dimension are an error. *)
Theorem C56_axes_case : let e := vr 1 [(11, 7)] in let g := vr 2 [(21, 5)] in let data := mk [(10, 2); (11, 3); (12, 4)] in
  axes (pairs data) [e] [g] [12] = [Erased 12; Binned e; Grouped g] /\ compatible (pairs data) [] [e] [g] [12] /\
  (exists b out, axis_actions data mempty [e] [g] [12] = Ok b /\ out_dims data (b_dims b) [12] = Ok out /\ pairs out = [(10, 2); (11, 6); (21, 5)]) /\
  axis_actions data mempty [e] [g] [11] = Throw DimensionError.
Proof.
  cbv zeta. split; [reflexivity|]. split.
  - unfold compatible. change (axes (pairs (mk [(10, 2); (11, 3); (12, 4)])) [vr 1 [(11, 7)]] [vr 2 [(21, 5)]] [12]) with [Erased 12; Binned (vr 1 [(11, 7)]); Grouped (vr 2 [(21, 5)])].
    split; [repeat constructor; intros []|]. split; [repeat constructor; intros []|]. split; [repeat constructor; cbn; intuition congruence|]. intros d n it [E|[E|[E|[]]]]; discriminate.
  - split; [|reflexivity]. eexists _, _. split; [vm_compute; reflexivity|]. split; [vm_compute; reflexivity|reflexivity].
Qed.

(** A mask with bin edges is a valid mask of the data, but it can not be applied. *)
Theorem C56_edge_mask_refuted : exists sh m it, lwf sh /\ item_ok it /\ SizedDict_Spec.fits sh (ishape it) /\ ishape it = pairs (k_dims m) /\ usable m /\
  forall f, hide_masked (Accumulate_Model.mkd (mk sh) f) [(100, m)] [11] = Throw DimensionError.
Proof.
  exists [(11, 3)], (mk1 11 4 (fun _ => false)), (vr 1 [(11, 4)]). destruct (vr1 1 11 4 ltac:(discriminate) ltac:(lia)) as [V1 V2]. split; [apply lwf1; [discriminate|lia]|]. split; [exact V1|]. rewrite V2. split; [fitv|]. split; [reflexivity|]. split; [split; reflexivity|]. intros f. reflexivity.
Qed.
Print Assumptions C56_edge_mask_refuted.

(** An attribute of the events that has the name of a new coord is both a coord and an attribute of the output: [meta] of the result throws. *)
Theorem C56_coord_attr_refuted : exists array u edges r, bin_meta 50 1 (fun _ => true) array u edges [] [] = Ok r /\ da_ok r /\
  In 11 (map fst (sd_list (da_coords r))) /\ In 11 (map fst (sd_list (da_attrs r))) /\ sd_merge_from (da_attrs r) (da_coords r) = Throw DataArrayError.
Proof.
  set (sh := [(10, 2)]). set (sh2 := [(10, 2); (11, 2)]).
  assert (Hsh : lwf sh2) by (split; [|split]; cbn; [repeat constructor; cbn; intuition congruence|repeat constructor; cbn; lia|intuition (discriminate || congruence)]).
  exists (mkda (mkitem 0 (var_fresh (mk sh)) true true) (sdm sh []) (sdm sh []) (sdm sh []) false), (mkbuf 30 (mkd []) (mkd []) (mkd [(11, vr 3 [])])), [vr 8 [(11, 3)]].
  exists (mkda (mkitem 50 (var_fresh (mk sh2)) true true) (sdm sh2 [(11, vr 8 [(11, 3)])]) (sdm sh2 []) (sdm sh2 [(11, vr 3 [])]) false).
  split; [reflexivity|]. split; [|split; [left; reflexivity|split; [left; reflexivity|reflexivity]]].
  unfold da_ok. cbn [da_data da_coords da_masks da_attrs i_var i_dims]. split; [apply fresh_wfv; apply mk_wf; exact Hsh|]. repeat (split; [reflexivity|]). split; [|split]; (apply sdm_ok; [exact Hsh|cbn; repeat constructor; cbn; intuition congruence|]); intros k it Hi; [|destruct Hi|]; destruct Hi as [E|[]]; injection E as <- <-.
  - destruct (vr1 8 11 3 ltac:(discriminate) ltac:(lia)) as [V1 V2]. split; [exact V1|]. rewrite V2. unfold sh2. fitv.
  - destruct (vr_ok 3 []) as [V1 V2]; [split; [|split]; cbn; [constructor|constructor|intros []]|]. split; [exact V1|]. rewrite V2. left. intros ? ? [].
Qed.
Print Assumptions C56_coord_attr_refuted.
