(** Proofs about spans along one dimension. *)
From Coq Require Import Permutation.
From Verif Require Import Base Arr Map_Model Dims_Model Dims_Spec Dims_Proofs View_Model View_Spec View_Proofs SizedDict_Proofs
  Accumulate_Model Cumsum_Model Cumsum_Props Reshape_Model Reshape_Spec Reshape_Proofs.
From Verif Require BinMeta_Proofs.
From Verif Require Import Lookup_Model Numeric_Model Histogram_Model Rebin_Model SizedDict_Model.
From Verif Require Import Subspan_Model Subspan_Spec.

Lemma sumZ_const c n : sumZ (map (fun _ => c) (zseq 0 n)) = Z.of_nat n * c.
Proof.
  unfold zseq. rewrite map_map. generalize 0%nat as s. induction n as [|n IH]; intros s; [reflexivity|]. cbn [seq map]. rewrite sumZ_cons, IH. lia.
Qed.

Lemma make_range_ok k n s : k <> InvalidDim -> 0 <= n ->
  exists r, make_range k n s = Ok r /\ dd r = mk [(k, n)] /\ forall ix, 0 <= ix k < n -> dv r ix = s * ix k.
Proof.
  intros Hk Hn. unfold make_range. change mempty with (mk []). rewrite add_inner_mk by assumption. cbn [mem existsb keys map bind app].
  destruct (C37_integers 1 n 1 (repeat s (Z.to_nat n))) as (i & e & _ & E & V); try lia; [rewrite zlen_repeat; lia|].
  unfold cumsum_dim_Z in E. rewrite E. cbn [bind]. eexists. split; [reflexivity|]. split; [reflexivity|]. intros ix Hix. cbn [dv].
  destruct (V 0 (ix k) 0 ltac:(lia) Hix ltac:(lia)) as [_ Ve]. unfold at_pos in Ve. replace ((0 * n + ix k) * 1 + 0) with (ix k) in Ve by lia. rewrite Ve.
  rewrite (map_ext_in _ (fun _ => s)); [rewrite sumZ_const, Z2Nat.id by lia; ring|]. intros j Hj. apply zseq_In in Hj. rewrite znth_repeat; [reflexivity|]. lia.
Qed.

Lemma var_stride_SV p1 k n p2 sf off ro sz : ~ In k (keys p1) -> var_stride (SV (p1 ++ (k, n) :: p2) sf off ro sz) k = Ok (sf k).
Proof.
  intros Hk. unfold var_stride, SV. cbn [v_dims v_strides]. rewrite dindex_sp by assumption. cbn [bind]. apply stride_sp.
Qed.
Lemma in_split_keys (p : list (Z * Z)) k n : NoDup (keys p) -> In (k, n) p -> exists a b, p = a ++ (k, n) :: b /\ ~ In k (keys a) /\ ~ In k (keys b).
Proof. intros Hn Hi. destruct (in_split _ _ Hi) as (a & b & ->). exists a, b. split; [reflexivity|]. apply NoDup_split_not in Hn. exact Hn. Qed.

Lemma start_loop_ok p sf off ro sz d : lwf p -> lwf d -> (forall e, In e d -> In e p) -> forall q acc st, d = acc ++ q -> dd st = mk acc ->
  (forall ix, valid_at acc ix -> dv st ix = asum acc sf ix) ->
  exists r, start_loop (SV p sf off ro sz) (mk d) (keys q) st = Ok r /\ dd r = mk d /\ forall ix, valid_at d ix -> dv r ix = asum d sf ix.
Proof.
  intros Hp Hd Hin. induction q as [|[k n] q IH]; intros acc st E Es Hv.
  - rewrite app_nil_r in E. subst acc. exists st. auto.
  - cbn [keys map fst start_loop]. fold (keys q). assert (Hkn : In (k, n) d) by (rewrite E; apply in_or_app; right; left; reflexivity).
    destruct (in_split_keys p k n (proj1 Hp) (Hin _ Hkn)) as (a & b & Ep & Ha & _). 
    assert (Hst : var_stride (SV p sf off ro sz) k = Ok (sf k)) by (rewrite Ep; apply var_stride_SV; exact Ha). rewrite Hst. cbn [bind].
    assert (Hd' := Hd). rewrite E in Hd'. destruct (lwf_app _ _ _ _ Hd') as (_ & Hn & Hka & Hkq & Hki). 
    assert (Hdat : dat (mk d) k = Ok n) by (rewrite E; apply dat_sp; exact Hka). rewrite Hdat. cbn [bind].
    destruct (make_range_ok k n (sf k) Hki Hn) as (r & -> & Er & Vr). cbn [bind]. unfold add_vars. rewrite Es, Er.
    rewrite BinMeta_Proofs.merge_disjoint.
    + cbn [bind]. apply IH with (acc := acc ++ [(k, n)]).
      * rewrite <- app_assoc. exact E.
      * reflexivity.
      * intros ix Hix. apply valid_at_app in Hix as [Hix1 Hix2]. apply valid_at_cons in Hix2 as [Hix2 _]. cbn [dv]. rewrite Hv, Vr by assumption. rewrite asum_app, asum_cons.
        unfold asum at 3. cbn [keys map]. unfold lsum. cbn. lia.
    + apply lwf_app2 in Hd'. apply Hd'.
    + change ((k, n) :: q) with ([(k, n)] ++ q) in Hd'. apply lwf_app2 in Hd' as [_ Hd']. apply lwf_app2 in Hd'. apply Hd'.
    + intros x Hx [<-|[]]. exact (Hka Hx).
Qed.

Lemma make_indices_ok p1 k n p2 sf off ro sz : lwf (p1 ++ (k, n) :: p2) ->
  exists r, make_indices (SV (p1 ++ (k, n) :: p2) sf off ro sz) k = Ok r /\ dd r = mk (p1 ++ p2) /\
    forall ix, valid_at (p1 ++ p2) ix -> dv r ix = (asum (p1 ++ p2) sf ix, asum (p1 ++ p2) sf ix + n).
Proof.
  intros Hp. destruct (lwf_app _ _ _ _ Hp) as (Hq & Hn & Hk1 & Hk2 & Hki). unfold make_indices. change (v_dims (SV (p1 ++ (k, n) :: p2) sf off ro sz)) with (mk (p1 ++ (k, n) :: p2)).
  rewrite merase_sp by assumption. cbn [bind]. change (labels (mk (p1 ++ p2))) with (keys (p1 ++ p2)).
  destruct (start_loop_ok _ sf off ro sz _ Hp Hq) with (q := p1 ++ p2) (acc := @nil (Z * Z)) (st := mkd mempty (fun _ : lindex => 0)) as (r & -> & Er & Vr).
  - intros e He. apply in_app_or in He. apply in_or_app. destruct He; [left|right; right]; assumption.
  - reflexivity.
  - reflexivity.
  - reflexivity.
  - cbn [bind]. rewrite dat_sp by assumption. cbn [bind]. eexists. split; [reflexivity|]. split; [exact Er|]. intros ix Hix. cbn [dv]. rewrite Vr by exact Hix. reflexivity.
Qed.

Lemma subspan_view_ok p1 k n p2 sf off ro sz : lwf (p1 ++ (k, n) :: p2) ->
  if sf k =? 1
  then exists r, subspan_view (SV (p1 ++ (k, n) :: p2) sf off ro sz) k = Ok r /\ dd r = mk (p1 ++ p2) /\
    forall ix, valid_at (p1 ++ p2) ix -> dv r ix = (off + asum (p1 ++ p2) sf ix, off + asum (p1 ++ p2) sf ix + n)
  else subspan_view (SV (p1 ++ (k, n) :: p2) sf off ro sz) k = Throw DimensionError.
Proof.
  intros Hp. destruct (lwf_app _ _ _ _ Hp) as (Hq & Hn & Hk1 & Hk2 & Hki). destruct (make_indices_ok p1 k n p2 sf off ro sz Hp) as (r & E & Er & Vr).
  unfold subspan_view. rewrite E. cbn [bind]. rewrite var_stride_SV by assumption. cbn [bind]. destruct (Z.eqb_spec (sf k) 1) as [Es|]; cbn [negb]; [|reflexivity].
  eexists. split; [reflexivity|]. cbn [dd dv]. split; [exact Er|]. intros ix Hix. rewrite Vr by exact Hix. unfold SV. cbn [v_offset fst snd]. rewrite Es. f_equal; lia.
Qed.

Lemma asum_line p1 k n p2 sf ix i : ~ In k (keys p1) -> ~ In k (keys p2) -> asum (p1 ++ (k, n) :: p2) sf (put ix k i) = asum (p1 ++ p2) sf ix + sf k * i.
Proof. intros Hk1 Hk2. rewrite !asum_app, asum_cons, put_same. rewrite !asum_put by assumption. lia. Qed.

Lemma zseq_shift a n : zseq a n = map (fun i => a + i) (zseq 0 n).
Proof. unfold zseq. rewrite map_map. apply map_ext. intros; lia. Qed.

(** Rows are lines, for every view with stride 1. *)
Lemma span_rows_ok {A} (x : varr A) p1 k n p2 : wfv (va x) -> vshape x = p1 ++ (k, n) :: p2 ->
  exists st, var_stride (va x) k = Ok st /\
  if st =? 1
  then exists r, span_rows x k = Ok r /\ dd r = mk (p1 ++ p2) /\ forall ix, valid_at (p1 ++ p2) ix -> dv r ix = line x k n ix
  else span_rows x k = Throw DimensionError.
Proof.
  intros Hw Es. destruct x as [buf v]. destruct (wfv_SV v Hw) as (sf & Hp & Hnn & Ev). unfold vshape, vdims in Es. cbn [va] in *. rewrite Es in Hp, Hnn, Ev.
  destruct (lwf_app _ _ _ _ Hp) as (Hq & Hn & Hk1 & Hk2 & Hki). exists (sf k).
  split; [rewrite Ev; apply var_stride_SV; exact Hk1|]. pose proof (subspan_view_ok p1 k n p2 sf (v_offset v) (v_readonly v) (v_size v) Hp) as Hs. rewrite <- Ev in Hs.
  unfold span_rows. cbn [va va_buf]. destruct (Z.eqb_spec (sf k) 1) as [E1|]; [|rewrite Hs; reflexivity]. destruct Hs as (r & -> & Er & Vr). cbn [bind]. eexists. split; [reflexivity|].
  split; [exact Er|]. intros ix Hix. cbn [dv]. rewrite Vr by exact Hix. unfold span_values, line, val. cbn [fst snd va va_buf].
  rewrite (zseq_shift (v_offset v + asum (p1 ++ p2) sf ix)), map_map. replace (v_offset v + asum (p1 ++ p2) sf ix + n - (v_offset v + asum (p1 ++ p2) sf ix)) with n by lia. apply map_ext. intros i.
  pose proof (vaddr_SV (p1 ++ (k, n) :: p2) sf (v_offset v) (v_readonly v) (v_size v) (put ix k i)) as Hva. rewrite <- Ev in Hva. rewrite Hva, asum_line by assumption. rewrite E1. f_equal. lia.
Qed.

(** ** Copies and [as_contiguous] *)
Lemma copy_of_ok {A} (x : varr A) : wfv (va x) ->
  vshape (copy_of x) = vshape x /\ wfv (va (copy_of x)) /\ va (copy_of x) = SV (vshape x) (sfc (vshape x)) 0 false (vol (extents (vshape x))) /\
  forall ix, valid_at (vshape x) ix -> val (copy_of x) ix = val x ix.
Proof.
  intros Hw. destruct (wfv_SV (va x) Hw) as (sf & Hp & Hnn & Ev). fold (vdims x) in *. fold (vshape x) in *. assert (Ec : va (copy_of x) = SV (vshape x) (sfc (vshape x)) 0 false (vol (extents (vshape x)))).
  { unfold copy_of, var_copy. cbn [va]. replace (v_dims (va x)) with (mk (vshape x)) by (rewrite Ev; reflexivity). apply fresh_SV, Hp. }
  assert (Es : vshape (copy_of x) = vshape x) by (unfold vshape at 1, vdims; rewrite Ec; apply pairs_mk). split; [exact Es|]. split; [rewrite Ec; apply SV_wfv; [exact Hp|apply sfc_nonneg, Hp]|].
  split; [exact Ec|]. intros ix Hix. unfold val at 1. rewrite Ec, vaddr_SV, asum_sfc by assumption. unfold copy_of, copied. cbn [va_buf]. fold (val x (index_of (v_dims (va x)) (0 + position (extents (vshape x)) (map ix (keys (vshape x)))))).
  apply val_same; [exact Hw|]. replace (v_dims (va x)) with (mk (vshape x)) by (rewrite Ev; reflexivity). apply index_of_position; assumption.
Qed.

Lemma transpose_ok {A} (x : varr A) q : wfv (va x) -> Permutation (vshape x) q ->
  q <> [] -> exists y, apply_op x (VwTranspose (keys q)) = Ok y /\ vshape y = q /\ wfv (va y) /\ forall ix, valid_at q ix -> val y ix = val x ix.
Proof.
  intros Hw Hpm Hne. destruct (wfv_SV (va x) Hw) as (_ & Hp & _ & _). fold (vdims x) in Hp. fold (vshape x) in Hp. pose proof (lwf_perm _ _ Hpm Hp) as Hq.
  assert (E : view_dims (vshape x) (VwTranspose (keys q)) = Some q).
  { cbn [view_dims]. unfold transpose_dims. destruct (keys q) as [|a l] eqn:Ek; [destruct q; [congruence|discriminate]|]. rewrite <- Ek. clear a l Ek.
    replace (zlen (keys q) =? zlen (vshape x)) with true.
    2:{ symmetry. apply Z.eqb_eq. unfold zlen, keys. rewrite map_length. rewrite (Permutation_length Hpm). reflexivity. }
    replace (no_dup (keys q)) with true by (symmetry; apply no_dup_NoDup, Hq). replace (forallb (fun k => mem k (keys (vshape x))) (keys q)) with true.
    2:{ symmetry. apply forallb_forall. intros k Hk. apply mem_In. apply (Permutation_in k (Permutation_sym (Permutation_map fst Hpm))). exact Hk. }
    cbn [andb]. f_equal. unfold keys. rewrite map_map. rewrite <- (map_id q) at 2. apply map_ext_in. intros [k n] Hk. cbn [fst]. f_equal. apply ext_In; [apply Hp|].
    apply (Permutation_in _ (Permutation_sym Hpm)), Hk. }
  pose proof (apply_ok x (VwTranspose (keys q)) Hw I) as Ha. rewrite E in Ha. destruct Ha as (y & E1 & E2 & E3 & E4). exists y. split; [exact E1|]. split; [exact E2|]. split; [exact E3|]. intros ix Hix. apply (E4 ix Hix).
Qed.

(** Same values, other dimensions in the same order, stride 1. *)
Lemma as_contiguous_ok {A} (x : varr A) k n q : wfv (va x) -> along x k n q ->
  exists y, as_contiguous x k = Ok y /\ wfv (va y) /\ along y k n q /\ var_stride (va y) k = Ok 1 /\
    (vshape y = vshape x \/ vshape y = q ++ [(k, n)]) /\
    (forall ix, valid_at (vshape x) ix -> val y ix = val x ix).
Proof.
  intros Hw (p1 & p2 & Es & ->). destruct (span_rows_ok x p1 k n p2 Hw Es) as (st & Est & _). unfold as_contiguous. rewrite Est. cbn [bind].
  destruct (Z.eqb_spec st 1) as [->|Hst].
  { exists x. split; [reflexivity|]. split; [exact Hw|]. split; [exists p1, p2; auto|]. split; [exact Est|]. split; [left; reflexivity|]. reflexivity. }
  destruct (wfv_SV (va x) Hw) as (sf & Hp & Hnn & Ev). fold (vdims x) in *. fold (vshape x) in *. rewrite Es in Hp. destruct (lwf_app _ _ _ _ Hp) as (Hq & Hn & Hk1 & Hk2 & Hki).
  assert (Ed : vdims x = mk (p1 ++ (k, n) :: p2)) by (unfold vdims; rewrite Ev, Es; reflexivity). rewrite Ed. rewrite merase_sp by assumption. cbn [bind]. rewrite dat_sp by assumption. cbn [bind].
  rewrite add_inner_mk by assumption. replace (mem k (keys (p1 ++ p2))) with false.
  2:{ symmetry. apply mem_nIn. rewrite keys_app, in_app_iff. tauto. }
  cbn [bind]. change (labels (mk ((p1 ++ p2) ++ [(k, n)]))) with (keys ((p1 ++ p2) ++ [(k, n)])). assert (Hpm : Permutation (vshape x) ((p1 ++ p2) ++ [(k, n)])).
  { rewrite Es. rewrite <- app_assoc. apply Permutation_app_head. apply (Permutation_cons_append p2 (k, n)). }
  destruct (transpose_ok x _ Hw Hpm) as (y & -> & Ey & Hwy & Hvy); [destruct (p1 ++ p2); discriminate|]. cbn [bind]. destruct (copy_of_ok y Hwy) as (Ec & Hwc & Evc & Hvc).
  exists (copy_of y). split; [reflexivity|]. split; [exact Hwc|]. rewrite Ec, Ey. split; [exists (p1 ++ p2), []; rewrite Ec, app_nil_r; auto|]. split.
  { rewrite Evc, Ey. rewrite var_stride_SV by (rewrite keys_app, in_app_iff; tauto). f_equal. rewrite sfc_split; [reflexivity|]. apply (lwf_perm _ _ Hpm). rewrite Es. exact Hp. }
  split; [right; reflexivity|]. intros ix Hix. assert (Hix' : valid_at ((p1 ++ p2) ++ [(k, n)]) ix) by (intros a b Hab; apply Hix; apply (Permutation_in _ (Permutation_sym Hpm)), Hab).
  rewrite Hvc by (rewrite Ey; exact Hix'). apply Hvy, Hix'.
Qed.

(** ** The loop over the rows *)
Lemma fresh_spans m k size : lwf (m ++ [(k, size)]) ->
  exists r, subspan_view (var_fresh (mk (m ++ [(k, size)]))) k = Ok r /\ dd r = mk m /\
    forall ix, valid_at m ix -> dv r ix = (size * position (extents m) (map ix (keys m)), size * position (extents m) (map ix (keys m)) + size).
Proof.
  intros Hm. destruct (lwf_app _ _ _ _ Hm) as (Hq & Hn & Hk & _ & Hki). rewrite app_nil_r in Hq. rewrite fresh_SV by apply Hm.
  pose proof (subspan_view_ok m k size [] (sfc (m ++ [(k, size)])) 0 false (vol (extents (m ++ [(k, size)]))) Hm) as Hs. rewrite sfc_split in Hs by apply Hm. cbn [extents map vol Z.eqb Pos.eqb] in Hs.
  rewrite app_nil_r in Hs. destruct Hs as (r & E & Er & Vr). exists r. split; [exact E|]. split; [exact Er|]. intros ix Hix. rewrite Vr by exact Hix.
  assert (Ea : asum m (sfc (m ++ [(k, size)])) ix = size * position (extents m) (map ix (keys m))); [|rewrite Ea; f_equal; lia].
  pose proof (sfc_position (m ++ [(k, size)]) (put ix k 0) (proj1 Hm)) as Hp. rewrite position_last in Hp by exact Hk. rewrite asum_app, asum_cons, put_same in Hp. rewrite asum_put in Hp by exact Hk.
  unfold asum at 2 in Hp. cbn [keys map] in Hp. change (lsum _ []) with 0 in Hp. replace (map (put ix k 0) (keys m)) with (map ix (keys m)) in Hp; [lia|].
  apply map_ext_in. intros j Hj. symmetry. apply put_other. intros ->. exact (Hk Hj).
Qed.

Section Run.
Context {W : Type}.
Lemma run_rows_ok (spans : darr (Z * Z)) (op : lindex -> res (list W)) (f : Z -> list W) size ks :
  0 <= size -> NoDup ks -> (forall k, In k ks -> 0 <= k /\ op (index_of (dd spans) k) = Ok (f k) /\ zlen (f k) = size /\ dv spans (index_of (dd spans) k) = (size * k, size * k + size)) ->
  forall buf, exists buf', run_rows spans op ks buf = Ok buf' /\
    (forall k i d, In k ks -> 0 <= i < size -> buf' (size * k + i) = znth d (f k) i) /\
    (forall k i, ~ In k ks -> 0 <= i < size -> buf' (size * k + i) = buf (size * k + i)).
Proof.
  intros Hs. induction ks as [|k ks IH]; intros Hnd Hks buf.
  { exists buf. split; [reflexivity|]. split; [intros k i d []|reflexivity]. }
  inversion Hnd as [|? ? Hk Hnd']. subst. destruct (Hks k (or_introl eq_refl)) as (Hk0 & Eop & El & Ed). cbn [run_rows]. rewrite Eop. cbn [bind]. rewrite Ed. unfold write_row. cbn [fst snd].
  rewrite El. replace (size * k + size - size * k) with size by lia. rewrite Z.eqb_refl. cbn [bind].
  match goal with |- context [run_rows _ _ _ ?b] => destruct (IH Hnd' (fun j Hj => Hks j (or_intror Hj)) b) as (buf' & -> & V1 & V2) end. exists buf'. split; [reflexivity|]. split.
  - intros j i d [<-|Hj] Hi; [|apply V1; assumption]. rewrite V2 by assumption. replace (size * k <=? size * k + i) with true by lia. replace (size * k + i <? size * k + size) with true by lia.
    cbn [andb]. replace (size * k + i - size * k) with i by lia. apply znth_default. lia.
  - intros j i Hj Hi. rewrite V2; [|intros Hx; apply Hj; right; exact Hx|exact Hi]. assert (Hjk : j <> k) by (intros ->; apply Hj; left; reflexivity).
    destruct (Z.leb_spec (size * k) (size * j + i)); [|reflexivity]. destruct (Z.ltb_spec (size * j + i) (size * k + size)); [|reflexivity]. exfalso. nia.
Qed.
End Run.

(** An argument of [transform_subspan] with the other dimensions [q] and the rows [R]. *)
Definition argument {A} (a : arg A) (dim : Dim) (q : lshape) (R : lindex -> list A) : Prop :=
  lwf q /\ ~ In dim (keys q) /\ erased (arg_dims a) dim = Ok (mk q) /\ (forall ix ix', same_at q ix ix' -> R ix = R ix') /\
  exists r, arg_rows a dim = Ok r /\ forall ix, valid_at q ix -> dv r ix = R ix.

Lemma line_same {A} (x : varr A) k n q ix ix' : wfv (va x) -> along x k n q -> same_at q ix ix' -> line x k n ix = line x k n ix'.
Proof.
  intros Hw (p1 & p2 & Es & ->) Hs. unfold line. apply map_ext. intros i. apply val_same; [exact Hw|]. rewrite Es. apply same_at_app in Hs as [Hs1 Hs2]. destruct (wfv_SV _ Hw) as (sf & Hp & _ & _).
  unfold vshape, vdims in Es. rewrite Es in Hp. destruct (lwf_app _ _ _ _ Hp) as (_ & _ & Hk1 & Hk2 & _). apply same_at_app. split; [|apply same_at_cons; split; [rewrite !put_same; reflexivity|]].
  - intros j Hj. rewrite !put_other by (intros ->; contradiction). apply Hs1, Hj.
  - intros j Hj. rewrite !put_other by (intros ->; contradiction). apply Hs2, Hj.
Qed.
Lemma along_wf {A} (x : varr A) k n q : wfv (va x) -> along x k n q -> lwf q /\ ~ In k (keys q) /\ 0 <= n /\ k <> InvalidDim /\ Permutation (vshape x) (q ++ [(k, n)]).
Proof.
  intros Hw (p1 & p2 & Es & ->). destruct (wfv_SV _ Hw) as (sf & Hp & _ & _). fold (vdims x) in Hp. fold (vshape x) in Hp. rewrite Es in Hp. destruct (lwf_app _ _ _ _ Hp) as (Hq & Hn & Hk1 & Hk2 & Hki).
  split; [exact Hq|]. split; [rewrite keys_app, in_app_iff; tauto|]. split; [exact Hn|]. split; [exact Hki|]. rewrite Es. rewrite <- app_assoc. apply Permutation_app_head. apply (Permutation_cons_append p2 (k, n)).
Qed.
Lemma vdims_mk {A} (x : varr A) : wfv (va x) -> vdims x = mk (vshape x).
Proof. intros Hw. destruct (wfv_SV _ Hw) as (sf & _ & _ & E). unfold vshape, vdims. rewrite E. cbn [v_dims SV]. rewrite pairs_mk. reflexivity. Qed.

Lemma argument_var {A} (x : varr A) k n q : wfv (va x) -> along x k n q -> var_stride (va x) k = Ok 1 -> argument (AVar x) k q (line x k n).
Proof.
  intros Hw Ha Hst. destruct (along_wf x k n q Hw Ha) as (Hq & Hkq & Hn & Hki & _). destruct Ha as (p1 & p2 & Es & Eq). assert (Hk1 : ~ In k (keys p1)) by (intros Hx; apply Hkq; rewrite Eq, keys_app; apply in_or_app; left; exact Hx).
  split; [exact Hq|]. split; [exact Hkq|]. split.
  - unfold erased. cbn [arg_dims]. rewrite vdims_mk by exact Hw. rewrite Es, dcontains_sp, merase_sp by exact Hk1. rewrite Eq. reflexivity.
  - split; [intros ix ix'; apply line_same; [exact Hw|exists p1, p2; auto]|]. destruct (span_rows_ok x p1 k n p2 Hw Es) as (st & E & Hr). rewrite Hst in E. injection E as <-. cbn [Z.eqb Pos.eqb] in Hr.
    destruct Hr as (r & Er & _ & Vr). exists r. cbn [arg_rows]. rewrite vdims_mk by exact Hw. rewrite Es, dcontains_sp by exact Hk1. split; [exact Er|]. rewrite Eq. exact Vr.
Qed.
Lemma argument_spans {A} (x : varr A) e n q r k : wfv (va x) -> along x e n q -> ~ In k (keys q) -> dd r = mk q -> (forall ix, valid_at q ix -> dv r ix = line x e n ix) ->
  argument (ASpans r) k q (line x e n).
Proof.
  intros Hw Ha Hk Er Vr. destruct (along_wf x e n q Hw Ha) as (Hq & _). split; [exact Hq|]. split; [exact Hk|]. assert (Hc : dcontains (dd r) k = false) by (rewrite Er, dcontains_mk; apply mem_nIn, Hk).
  split; [unfold erased; cbn [arg_dims]; rewrite Hc, Er; reflexivity|]. split; [intros ix ix'; apply line_same; assumption|]. exists r. cbn [arg_rows]. rewrite Hc. split; [reflexivity|exact Vr].
Qed.

Lemma merge_mk qa qb : lwf qa -> lwf qb -> agree qa qb -> exists m, dims_merge (mk qa) (mk qb) = Ok (mk m) /\ lwf m /\ (forall e, In e m <-> In e qa \/ In e qb) /\ (within qb qa -> m = qa) /\ (qa = [] -> m = qb).
Proof.
  intros Ha Hb Hag. destruct (merge_ok (mk qa) (mk qb) (mk_wf _ Ha) (mk_wf _ Hb)) as (m & E & Hw & Hh & _).
  { intros (k & x & y & Hx & Hy & Hne). apply (proj1 (has_mk _ _ _)) in Hx. apply (proj1 (has_mk _ _ _)) in Hy. exact (Hne (Hag k x y Hx Hy)). }
  pose proof (proj1 (wf_lwf m) Hw) as [Hl Hlen]. exists (pairs m). rewrite mk_pairs by exact Hlen. split; [exact E|]. split; [exact Hl|]. split; [|split].
  - intros [k n]. rewrite <- !has_mk. rewrite mk_pairs by exact Hlen. apply Hh.
  - intros Hin. rewrite (merge_includes (mk qa) (mk qb) (mk_wf _ Ha) (mk_wf _ Hb)) in E; [injection E as <-; apply pairs_mk|]. intros k n Hk. apply has_mk. apply (proj1 (has_mk _ _ _)) in Hk. apply Hin, Hk.
  - intros ->. rewrite BinMeta_Proofs.merge_disjoint in E; [|assumption|assumption|intros d []]. injection E as <-. apply pairs_mk.
Qed.
Lemma within_valid q m ix : within q m -> valid_at m ix -> valid_at q ix.
Proof. intros Hw Hv k n Hk. apply Hv, Hw, Hk. Qed.
Lemma within_same q m ix ix' : within q m -> same_at m ix ix' -> same_at q ix ix'.
Proof. intros Hw Hv k Hk. apply Hv. apply In_keys in Hk as [n Hn]. apply In_keys. exists n. apply Hw, Hn. Qed.

Section TransformProofs.
Context {A B C W : Type}.
Lemma transform_subspan_ok dim size (op : list A -> list B -> list C -> res (list W)) a b c qa qb qc (Ra : lindex -> list A) (Rb : lindex -> list B) (Rc : lindex -> list C)
    (F : lindex -> list W) junk order :
  dim <> InvalidDim -> 0 <= size -> argument a dim qa Ra -> argument b dim qb Rb -> argument c dim qc Rc -> agree qa qb -> agree qa qc -> agree qb qc ->
  (forall V, Permutation (order V) (zseq 0 (Z.to_nat V))) ->
  (forall ix, valid_at qa ix -> valid_at qb ix -> valid_at qc ix -> op (Ra ix) (Rb ix) (Rc ix) = Ok (F ix) /\ zlen (F ix) = size) ->
  exists m r, lwf (m ++ [(dim, size)]) /\ (forall e, In e m <-> In e qa \/ In e qb \/ In e qc) /\ (within qb qa -> within qc qa -> m = qa) /\ (qa = [] -> within qc qb -> m = qb) /\
    transform_subspan dim size op a b c junk order = Ok r /\ wfv (va r) /\ vshape r = m ++ [(dim, size)] /\ v_readonly (va r) = false /\
    forall ix d, valid_at (m ++ [(dim, size)]) ix -> val r ix = znth d (F ix) (ix dim).
Proof.
  intros Hdim Hsz (Hqa & Hda & Ea & Sa & ra & Era & Vra) (Hqb & Hdb & Eb & Sb & rb & Erb & Vrb) (Hqc & Hdc & Ec & Sc & rc & Erc & Vrc) Hab Hac Hbc Hord Hop.
  destruct (merge_mk qa qb Hqa Hqb Hab) as (m1 & E1 & Hm1 & I1 & O1 & P1). destruct (merge_mk m1 qc Hm1 Hqc) as (m & E2 & Hm & I2 & O2 & _).
  { intros k x y Hx Hy. apply I1 in Hx as [Hx|Hx]; [exact (Hac k x y Hx Hy)|exact (Hbc k x y Hx Hy)]. }
  assert (Hin : forall e, In e m <-> In e qa \/ In e qb \/ In e qc) by (intros e; rewrite I2, I1; tauto).
  assert (Hdm : ~ In dim (keys m)).
  { intros Hx. apply In_keys in Hx as [n Hx]. apply Hin in Hx as [Hx|[Hx|Hx]]; [apply Hda|apply Hdb|apply Hdc]; apply In_keys; exists n; exact Hx. }
  assert (Hml : lwf (m ++ [(dim, size)])) by (apply lwf_app_inv; [rewrite app_nil_r; exact Hm|exact Hsz|exact Hdm|intros []|exact Hdim]).
  exists m. unfold transform_subspan. rewrite Ea, Eb, Ec. cbn [bind]. rewrite E1. cbn [bind]. rewrite E2. cbn [bind]. rewrite add_inner_mk by assumption. replace (mem dim (keys m)) with false by (symmetry; apply mem_nIn, Hdm). cbn [bind].
  destruct (fresh_spans m dim size Hml) as (sp & -> & Esp & Vsp). cbn [bind]. rewrite Era, Erb, Erc. cbn [bind].
  assert (Wa : within qa m) by (intros e He; apply Hin; auto). assert (Wb : within qb m) by (intros e He; apply Hin; auto). assert (Wc : within qc m) by (intros e He; apply Hin; auto).
  rewrite Esp. rewrite volume_vol. change (shape (mk m)) with (extents m).
  pose proof (Hord (vol (extents m))) as Hperm.
  assert (Hcell : forall k, In k (order (vol (extents m))) -> 0 <= k < vol (extents m) /\ valid_at m (index_of (mk m) k) /\ position (extents m) (map (index_of (mk m) k) (keys m)) = k).
  { intros k Hk. apply (Permutation_in k Hperm) in Hk. apply zseq_In in Hk. assert (Hk' : 0 <= k < vol (extents m)) by lia. split; [exact Hk'|]. split; [exact (cell_valid m k Hm Hk')|].
    destruct (index_valid m k Hm Hk') as [Hv Hp]. unfold index_of. change (labels (mk m)) with (keys m). change (shape (mk m)) with (extents m).
    rewrite puts_map; [exact Hp|apply Hm|]. rewrite index_at_length. apply extents_keys_len. }
  destruct (run_rows_ok sp (fun ix => op (dv ra ix) (dv rb ix) (dv rc ix)) (fun k => F (index_of (mk m) k)) size (order (vol (extents m))) Hsz) with (buf := junk) as (buf & -> & V1 & _).
  { apply (Permutation_NoDup (Permutation_sym Hperm)). apply zseq_NoDup. }
  { intros k Hk. destruct (Hcell k Hk) as (Hk0 & Hv & Hp). split; [lia|]. rewrite Esp. rewrite Vra, Vrb, Vrc by (eapply within_valid; eassumption).
    destruct (Hop (index_of (mk m) k)) as [Eop El]; try (eapply within_valid; eassumption). split; [exact Eop|]. split; [exact El|]. rewrite Vsp by exact Hv. rewrite Hp. reflexivity. }
  cbn [bind]. eexists. split; [exact Hml|]. split; [exact Hin|]. split.
  { intros Hb1 Hc1. rewrite O2; [apply O1, Hb1|]. rewrite O1 by exact Hb1. exact Hc1. }
  split. { intros Ea0 Hc1. rewrite O2; [apply P1, Ea0|]. rewrite P1 by exact Ea0. exact Hc1. }
  split; [reflexivity|]. rewrite fresh_SV by apply Hml. cbn [va]. split; [apply SV_wfv; [exact Hml|apply sfc_nonneg, Hml]|]. split; [unfold vshape, vdims; cbn [va v_dims SV]; apply pairs_mk|]. split; [reflexivity|].
  intros ix d Hix. unfold val. cbn [va va_buf]. rewrite vaddr_SV, sfc_position by apply Hml. rewrite position_last by exact Hdm. pose proof Hix as Hix'. apply valid_at_app in Hix' as [Hixm Hixd]. apply valid_at_cons in Hixd as [Hixd _].
  assert (Hpos : In (position (extents m) (map ix (keys m))) (order (vol (extents m)))).
  { apply (Permutation_in _ (Permutation_sym Hperm)). apply zseq_In. pose proof (position_bound (extents m) (map ix (keys m)) (proj1 (valid_at_idx m ix) Hixm)). lia. }
  replace (0 + (size * position (extents m) (map ix (keys m)) + ix dim)) with (size * position (extents m) (map ix (keys m)) + ix dim) by lia. rewrite (V1 _ _ d Hpos Hixd). f_equal.
  pose proof (index_of_position m ix Hm Hixm) as Hsame. set (ix' := index_of (mk m) _) in *. assert (Hv' : valid_at m ix') by (apply (valid_at_same m ix ix'); [intros j Hj; symmetry; apply Hsame, Hj|exact Hixm]).
  destruct (Hop ix') as [Eo1 _]; try (eapply within_valid; eassumption). destruct (Hop ix) as [Eo2 _]; try (eapply within_valid; eassumption).
  rewrite (Sa ix' ix), (Sb ix' ix), (Sc ix' ix) in Eo1 by (eapply within_same; eassumption). congruence.
Qed.
End TransformProofs.

(** ** Histogram *)
Lemma no_edges p q l : lwf p -> lwf q -> within q p -> In l (keys q) -> is_edges (mk p) (mk q) l = Ok false.
Proof.
  intros Hp Hq Hin Hl. apply In_keys in Hl as [n Hn]. destruct (in_split_keys q l n (proj1 Hq) Hn) as (q1 & q2 & Eq & Hq1 & _). destruct (in_split_keys p l n (proj1 Hp) (Hin _ Hn)) as (p1 & p2 & Ep & Hp1 & _).
  assert (Hli : l <> InvalidDim) by (rewrite Eq in Hq; apply (lwf_app _ _ _ _ Hq)). unfold is_edges. destruct (Z.eqb_spec l InvalidDim); [contradiction|]. cbn [orb].
  assert (Hc : dcontains (mk q) l = true) by (rewrite Eq; apply dcontains_sp; exact Hq1). rewrite Hc. cbn [negb].
  destruct (is_edges_loop_ok p q l (keys q) Hp Hq (fun k Hk => Hk)) as (b & Eb & _). change (m_keys (mk q)) with (keys q). rewrite Eb.
  assert (Hb : exists c, (if msize (mk p) =? 0 then Ok true else Ok b) = Ok c) by (destruct (msize (mk p) =? 0); eauto). destruct Hb as [c Ec]. rewrite Ec. cbn [bind]. destruct c; cbn [negb]; [|reflexivity].
  assert (Hd : dat (mk q) l = Ok n) by (rewrite Eq; apply dat_sp; exact Hq1). rewrite Hd. cbn [bind]. assert (Hc' : dcontains (mk p) l = true) by (rewrite Ep; apply dcontains_sp; exact Hp1). rewrite Hc'.
  assert (Hd' : dat (mk p) l = Ok n) by (rewrite Ep; apply dat_sp; exact Hp1). rewrite Hd'. cbn [bind]. f_equal. lia.
Qed.
Lemma first_edge_none p q ls : lwf p -> lwf q -> within q p -> (forall l, In l ls -> In l (keys q)) -> first_edge (mk p) (mk q) ls = Ok None.
Proof.
  intros Hp Hq Hin. induction ls as [|l ls IH]; intros Hl; [reflexivity|]. cbn [first_edge]. rewrite no_edges by (try assumption; apply Hl; left; reflexivity). cbn [bind]. apply IH. intros j Hj. apply Hl. right. exact Hj.
Qed.

Lemma coord_dim_ok p q dim e : lwf p -> lwf q -> within q p -> event_dim dim q e -> In e (keys q) -> coord_dim (mk p) dim (mk q) = Ok e.
Proof.
  intros Hp Hq Hin He Hiq. unfold coord_dim. assert (En : ndim (mk q) = zlen q) by (unfold ndim, zlen, labels, mk, keys; cbn [m_keys]; rewrite map_length; reflexivity). rewrite En. destruct He as [He|[Hl ->]].
  - assert (Hz : zlen q = 1). { unfold zlen. rewrite <- (map_length fst q). fold (keys q). rewrite He. reflexivity. } rewrite Hz. cbn [Z.eqb Pos.eqb]. unfold dims_inner. change (labels (mk q)) with (keys q). rewrite He. reflexivity.
  - destruct (Z.eqb_spec (zlen q) 0); [lia|]. destruct (Z.eqb_spec (zlen q) 1); [lia|]. rewrite first_edge_none by (try assumption; auto). cbn [bind]. rewrite dcontains_mk. rewrite (proj2 (mem_In dim (keys q)) Hiq). reflexivity.
Qed.
Lemma is_histogram_no p q dim : lwf p -> lwf q -> within q p -> is_histogram (mk p) dim (mk q) = Ok false.
Proof.
  intros Hp Hq Hin. unfold is_histogram. rewrite !dcontains_mk. destruct (mem dim (keys p)) eqn:Ep; [|reflexivity]. destruct (mem dim (keys q)) eqn:Eq; [|reflexivity]. cbn [andb].
  apply mem_In, In_keys in Eq as [n Hn]. rewrite !dat_mk by (apply Hp || apply Hq). rewrite (proj2 (extent_In q dim n (proj1 Hq)) Hn), (proj2 (extent_In p dim n (proj1 Hp)) (Hin _ Hn)). cbn [bind]. f_equal. lia.
Qed.

Lemma along_dat {A} (x : varr A) k n q : wfv (va x) -> along x k n q -> dat (vdims x) k = Ok n.
Proof.
  intros Hw Ha. rewrite vdims_mk by exact Hw. destruct (along_wf x k n q Hw Ha) as (_ & Hk & _). destruct Ha as (p1 & p2 & Es & Eq). rewrite Es. apply dat_sp. intros Hx. apply Hk. rewrite Eq, keys_app. apply in_or_app. left. exact Hx.
Qed.
Lemma line_valid {A} (x : varr A) k n q ix i : wfv (va x) -> along x k n q -> valid_at q ix -> 0 <= i < n -> valid_at (vshape x) (put ix k i).
Proof.
  intros Hw Ha Hv Hi. destruct (along_wf x k n q Hw Ha) as (_ & Hk & _). destruct Ha as (p1 & p2 & Es & Eq). rewrite Es. subst q. rewrite keys_app in Hk. apply valid_at_app in Hv as [Hv1 Hv2]. apply valid_at_app. split; [|apply valid_at_cons; split].
  - apply valid_at_put; [|exact Hv1]. intros Hx. apply Hk, in_or_app. left. exact Hx.
  - rewrite put_same. exact Hi.
  - apply valid_at_put; [|exact Hv2]. intros Hx. apply Hk, in_or_app. right. exact Hx.
Qed.
Lemma line_cont {A} (x y : varr A) k n q ix : wfv (va x) -> along x k n q -> (forall ix, valid_at (vshape x) ix -> val y ix = val x ix) -> valid_at q ix -> line y k n ix = line x k n ix.
Proof. intros Hw Ha Hv Hix. unfold line. apply map_ext_in. intros i Hi. apply zseq_In in Hi. apply Hv. apply (line_valid x k n q); try assumption. lia. Qed.
Lemma zlen_line {A} (x : varr A) k n ix : 0 <= n -> zlen (line x k n ix) = n.
Proof. intros Hn. unfold line. rewrite zlen_map, zlen_zseq. lia. Qed.
Lemma znth_line {A} (d : A) (x : varr A) k n ix i : 0 <= i < n -> znth d (line x k n ix) i = val x (put ix k i).
Proof. intros Hi. unfold line. rewrite (znth_map _ 0) by (rewrite zlen_zseq; lia). rewrite znth_zseq by lia. reflexivity. Qed.
Lemma along_within {A B} (x : varr A) (y : varr B) k n qx qy : wfv (va x) -> wfv (va y) -> along x k n qx -> along y k n qy -> within (vshape y) (vshape x) -> within qy qx.
Proof.
  intros Hx Hy Ax Ay Hin [j m] Hj. destruct (along_wf y k n qy Hy Ay) as (_ & Hky & _ & _ & Py). destruct (along_wf x k n qx Hx Ax) as (_ & _ & _ & _ & Px).
  assert (Hi : In (j, m) (vshape y)) by (apply (Permutation_in _ (Permutation_sym Py)), in_or_app; left; exact Hj). apply Hin in Hi. apply (Permutation_in _ Px), in_app_or in Hi as [Hi|[Hi|[]]]; [exact Hi|].
  injection Hi as -> ->. exfalso. apply Hky, In_keys. eauto.
Qed.
Lemma rows_ok {A} (x : varr A) k n q : wfv (va x) -> along x k n q -> var_stride (va x) k = Ok 1 ->
  exists r, span_rows x k = Ok r /\ dd r = mk q /\ forall ix, valid_at q ix -> dv r ix = line x k n ix.
Proof. intros Hw (p1 & p2 & Es & ->) Hst. destruct (span_rows_ok x p1 k n p2 Hw Es) as (st & E & Hr). rewrite Hst in E. injection E as <-. exact Hr. Qed.

Section HistogramProofs.
Context {C W : Type}.
Lemma histogram_ok kernel (data : varr W) (coord edges : varr C) dim k qe e n qd qc (F : lindex -> list W) junk order :
  wfv (va data) -> wfv (va coord) -> wfv (va edges) ->
  vshape edges = qe ++ [(dim, k)] -> along data e n qd -> along coord e n qc -> within (vshape coord) (vshape data) -> event_dim dim (vshape coord) e ->
  ~ In dim (keys qd) -> agree qd qe -> 1 <= k -> (forall V, Permutation (order V) (zseq 0 (Z.to_nat V))) ->
  (forall ix, valid_at qd ix -> valid_at qe ix -> kernel (line edges dim k ix) (combine (line coord e n ix) (line data e n ix)) = Ok (F ix) /\ zlen (F ix) = k - 1) ->
  exists m r, (forall x, In x m <-> In x qd \/ In x qe) /\ (qc = [] -> within qe qd -> m = qd) /\ (within qd qc -> within qe qc -> m = qc) /\
    histogram kernel data coord edges junk order = Ok r /\ wfv (va r) /\ vshape r = m ++ [(dim, k - 1)] /\ v_readonly (va r) = false /\
    forall ix d, valid_at (vshape r) ix -> val r ix = znth d (F ix) (ix dim).
Proof.
  intros Hd Hc He Es Ad Ac Hin Hev Hdim Hag Hk Hord Hker. assert (Ae : along edges dim k qe) by (exists qe, []; rewrite app_nil_r; auto).
  destruct (along_wf data e n qd Hd Ad) as (Lqd & Ked & Hn & Hei & Pd). destruct (along_wf coord e n qc Hc Ac) as (Lqc & Kec & _ & _ & Pc). destruct (along_wf edges dim k qe He Ae) as (Lqe & Kde & _ & Hdi & _).
  pose proof (along_within data coord e n qd qc Hd Hc Ad Ac Hin) as Wcd.
  assert (Ein : dims_inner (vdims edges) = dim). { rewrite vdims_mk by exact He. rewrite Es. unfold dims_inner. change (labels (mk (qe ++ [(dim, k)]))) with (keys (qe ++ [(dim, k)])). rewrite keys_app. cbn [keys map fst]. apply last_last. }
  destruct (wfv_SV _ Hd) as (_ & Ld & _ & _). fold (vdims data) in Ld. fold (vshape data) in Ld. destruct (wfv_SV _ Hc) as (_ & Lc & _ & _). fold (vdims coord) in Lc. fold (vshape coord) in Lc.
  unfold histogram. rewrite Ein. destruct (as_contiguous_ok edges dim k qe He Ae) as (ce & -> & Wce & Ace & Sce & _ & Vce). cbn [bind].
  rewrite (vdims_mk data Hd), (vdims_mk coord Hc). rewrite is_histogram_no by assumption. cbn [bind]. rewrite (coord_dim_ok _ _ dim e) by (try assumption; apply In_keys; exists n; apply (Permutation_in _ (Permutation_sym Pc)), in_or_app; right; left; reflexivity).
  cbn [bind]. destruct (as_contiguous_ok data e n qd Hd Ad) as (cd & -> & Wcd' & Acd & Scd & _ & Vcd). cbn [bind]. destruct (as_contiguous_ok coord e n qc Hc Ac) as (cc & -> & Wcc & Acc & Scc & _ & Vcc). cbn [bind].
  rewrite (along_dat ce dim k qe Wce Ace). cbn [bind]. destruct (rows_ok cc e n qc Wcc Acc Scc) as (rc & -> & Drc & Vrc). cbn [bind]. destruct (rows_ok cd e n qd Wcd' Acd Scd) as (rw & -> & Drw & Vrw). cbn [bind].
  assert (Hag1 : agree qc qd). { intros j a b Ha Hb. apply Wcd in Ha. pose proof (proj2 (extent_In qd j a (proj1 Lqd)) Ha) as Xa. pose proof (proj2 (extent_In qd j b (proj1 Lqd)) Hb) as Xb. congruence. }
  assert (Hag2 : agree qc qe) by (intros j a b Ha Hb; exact (Hag j a b (Wcd _ Ha) Hb)).
  assert (Hdc : ~ In dim (keys qc)) by (intros Hx; apply In_keys in Hx as [j Hj]; apply Hdim, In_keys; exists j; apply Wcd, Hj).
  destruct (transform_subspan_ok dim (k - 1) (hist_row kernel) (ASpans rc) (ASpans rw) (AVar ce) qc qd qe (line cc e n) (line cd e n) (line ce dim k) F junk order) as (m & r & _ & Hm & O1 & O2 & E & Wr & Er & Ro & Vr);
    try assumption; try lia.
  - apply argument_spans; assumption.
  - apply argument_spans; assumption.
  - apply argument_var; assumption.
  - intros ix Hixc Hixd Hixe. unfold hist_row. rewrite !zlen_line by assumption. rewrite Z.leb_refl.
    rewrite (line_cont coord cc e n qc), (line_cont data cd e n qd), (line_cont edges ce dim k qe) by assumption. apply Hker; assumption.
  - exists m, r. split; [intros x; rewrite Hm; split; [intros [X|[X|X]]; auto|intros [X|X]; auto]|]. split; [exact O2|]. split; [exact O1|]. split; [exact E|]. split; [exact Wr|]. split; [exact Er|]. split; [exact Ro|].
    rewrite Er. exact Vr.
Qed.
End HistogramProofs.

(** ** Rebin *)
Lemma edges_yes p q l n : lwf p -> lwf q -> In (l, n) p -> In (l, n + 1) q -> (forall k m, In (k, m) q -> k <> l -> In (k, m) p) -> is_edges (mk p) (mk q) l = Ok true.
Proof.
  intros Hp Hq Hlp Hlq Hin. destruct (in_split_keys q l _ (proj1 Hq) Hlq) as (q1 & q2 & Eq & Hq1 & _). destruct (in_split_keys p l n (proj1 Hp) Hlp) as (p1 & p2 & Ep & Hp1 & _).
  assert (Hli : l <> InvalidDim) by (rewrite Eq in Hq; apply (lwf_app _ _ _ _ Hq)). unfold is_edges. destruct (Z.eqb_spec l InvalidDim); [contradiction|]. cbn [orb].
  assert (Hc : dcontains (mk q) l = true) by (rewrite Eq; apply dcontains_sp; exact Hq1). rewrite Hc. cbn [negb].
  destruct (is_edges_loop_ok p q l (keys q) Hp Hq (fun k Hk => Hk)) as (b & Eb & Hb). change (m_keys (mk q)) with (keys q). rewrite Eb. assert (b = true) as -> by (apply Hb; intros k m _ Hne Hk; apply Hin; assumption).
  assert (Ec : (if msize (mk p) =? 0 then Ok true else Ok true) = Ok true) by (destruct (msize (mk p) =? 0); reflexivity). rewrite Ec. cbn [bind negb].
  assert (Hd : dat (mk q) l = Ok (n + 1)) by (rewrite Eq; apply dat_sp; exact Hq1). rewrite Hd. cbn [bind]. assert (Hc' : dcontains (mk p) l = true) by (rewrite Ep; apply dcontains_sp; exact Hp1). rewrite Hc'.
  assert (Hd' : dat (mk p) l = Ok n) by (rewrite Ep; apply dat_sp; exact Hp1). rewrite Hd'. cbn [bind]. f_equal. apply Z.eqb_refl.
Qed.

Section RebinProofs.
Context {T W : Type}.
Variable lt : T -> T -> bool.
Variable sub div : T -> T -> T.
Variable abs : T -> T.
Variable zero : W.
Variable add : W -> W -> W.
Variable scale scale' : W -> T -> W.
Let gt := fun a b => lt b a.

Lemma allsorted_ok l (x : varr T) k n q : wfv (va x) -> along x k n q ->
  exists b, allsorted l x k = Ok b /\ (b = true <-> forall ix, valid_at q ix -> sorted_by l (line x k n ix) = true).
Proof.
  intros Hw Ha. destruct (along_wf x k n q Hw Ha) as (Hq & Hk & _). unfold allsorted. rewrite (along_dat x k n q Hw Ha). rewrite vdims_mk by exact Hw.
  assert (Em : merase Z.eqb (mk (vshape x)) k = Ok (mk q)).
  { destruct Ha as (p1 & p2 & Es & Eq). rewrite Es, Eq. apply merase_sp. intros Hx. apply Hk. rewrite Eq, keys_app. apply in_or_app. left. exact Hx. }
  rewrite Em. cbn [bind]. eexists. split; [reflexivity|]. rewrite volume_vol. change (shape (mk q)) with (extents q). rewrite forallb_forall. split.
  - intros Hall ix Hix. specialize (Hall (position (extents q) (map ix (keys q)))). pose proof (position_bound _ _ (proj1 (valid_at_idx q ix) Hix)) as Hp.
    rewrite <- Hall by (apply zseq_In; lia). f_equal. apply (line_same x k n q); [exact Hw|exact Ha|]. intros j Hj. symmetry. apply index_of_position; assumption.
  - intros Hall j Hj. apply zseq_In in Hj. apply Hall. apply (cell_valid q j Hq). lia.
Qed.

(** Which comparison is used. *)
Definition ordering (asc : bool) (old new : varr T) (dim : Dim) (no nn : Z) (qo qn : lshape) : Prop :=
  let sorted l := (forall ix, valid_at qo ix -> sorted_by l (line old dim no ix) = true) /\ (forall ix, valid_at qn ix -> sorted_by l (line new dim nn ix) = true) in
  if asc then sorted lt else ~ sorted lt /\ sorted gt.
Lemma both_sorted_ok l (old new : varr T) dim no nn qo qn : wfv (va old) -> wfv (va new) -> along old dim no qo -> along new dim nn qn ->
  exists b, both_sorted l old new dim = Ok b /\ (b = true <-> (forall ix, valid_at qo ix -> sorted_by l (line old dim no ix) = true) /\ (forall ix, valid_at qn ix -> sorted_by l (line new dim nn ix) = true)).
Proof.
  intros Ho Hn Ao An. unfold both_sorted. destruct (allsorted_ok l old dim no qo Ho Ao) as (b & -> & Hb). cbn [bind]. destruct b.
  - destruct (allsorted_ok l new dim nn qn Hn An) as (c & -> & Hc). exists c. split; [reflexivity|]. rewrite Hc. split; [intros X; split; [apply Hb; reflexivity|exact X]|intros [_ X]; exact X].
  - exists false. split; [reflexivity|]. split; [discriminate|]. intros [X _]. apply Hb in X. discriminate.
Qed.
Lemma ordering_ok asc (old new : varr T) dim no nn qo qn : wfv (va old) -> wfv (va new) -> along old dim no qo -> along new dim nn qn -> ordering asc old new dim no nn qo qn ->
  both_sorted lt old new dim = Ok asc /\ (if asc then Ok true else both_sorted (fun a b => lt b a) old new dim) = Ok true.
Proof.
  intros Ho Hn Ao An Hor. destruct (both_sorted_ok lt old new dim no nn qo qn Ho Hn Ao An) as (b & Eb & Hb). destruct (both_sorted_ok gt old new dim no nn qo qn Ho Hn Ao An) as (c & Ec & Hc). unfold ordering in Hor. destruct asc.
  - split; [|reflexivity]. rewrite Eb. f_equal. apply Hb. exact Hor.
  - destruct Hor as [Hno Hyes]. split; [|fold gt; rewrite Ec; f_equal; apply Hc; exact Hyes]. rewrite Eb. f_equal. destruct b; [|reflexivity]. exfalso. apply Hno, Hb. reflexivity.
Qed.

Lemma perm_of_sets (m q : lshape) : NoDup (keys m) -> NoDup (keys q) -> (forall e, In e m <-> In e q) -> Permutation m q.
Proof. intros Hm Hq He. apply NoDup_Permutation; [apply (NoDup_map_inv fst), Hm|apply (NoDup_map_inv fst), Hq|exact He]. Qed.

Section Setup.
Variables (x : varr W) (old new : varr T) (dim : Dim) (n k : Z) (p1 p2 qo qn : lshape) (asc : bool) (junk : Z -> W) (order : Z -> list Z).
Hypothesis Hx : wfv (va x).
Hypothesis Ho : wfv (va old).
Hypothesis Hnw : wfv (va new).
Hypothesis Ex : vshape x = p1 ++ (dim, n) :: p2.
Hypothesis Ao : along old dim (n + 1) qo.
Hypothesis An : along new dim k qn.
Hypothesis Wo : within qo (p1 ++ p2).
Hypothesis Wn : within qn (p1 ++ p2).
Hypothesis Hk : 1 <= k.
Hypothesis Hor : ordering asc old new dim (n + 1) k qo qn.
Let less := if asc then lt else gt.

Lemma setup_ax : along x dim n (p1 ++ p2). Proof. exists p1, p2. auto. Qed.
Lemma setup_edges : is_edges (vdims x) (vdims old) dim = Ok true.
Proof.
  destruct (wfv_SV _ Hx) as (_ & Lx & _ & _). fold (vdims x) in Lx. fold (vshape x) in Lx. destruct (wfv_SV _ Ho) as (_ & Lo & _ & _). fold (vdims old) in Lo. fold (vshape old) in Lo.
  destruct (along_wf old dim (n + 1) qo Ho Ao) as (_ & _ & _ & _ & Po). rewrite !vdims_mk by assumption. apply edges_yes with n; try assumption.
  - rewrite Ex. apply in_or_app. right. left. reflexivity.
  - apply (Permutation_in _ (Permutation_sym Po)), in_or_app. right. left. reflexivity.
  - intros j m Hj Hne. apply (Permutation_in _ Po), in_app_or in Hj as [Hj|[Hj|[]]]; [|congruence]. apply Wo in Hj. rewrite Ex. apply in_app_or in Hj as [Hj|Hj]; apply in_or_app; [left|right; right]; exact Hj.
Qed.

Lemma setup_agree a b : lwf (p1 ++ p2) -> within a (p1 ++ p2) -> within b (p1 ++ p2) -> agree a b.
Proof. intros Hl Ha Hb j u v Hu Hv. apply Ha in Hu. apply Hb in Hv. apply (extent_In _ _ _ (proj1 Hl)) in Hu. apply (extent_In _ _ _ (proj1 Hl)) in Hv. congruence. Qed.

(** Back to the order of the dimensions of the input. *)
Lemma transpose_back (r : varr W) m (F : lindex -> list W) : wfv (va r) -> vshape r = m ++ [(dim, k - 1)] -> (forall e, In e m <-> In e (p1 ++ p2)) ->
  (forall ix d, valid_at (m ++ [(dim, k - 1)]) ix -> val r ix = znth d (F ix) (ix dim)) ->
  exists y, apply_op r (VwTranspose (labels (vdims x))) = Ok y /\ wfv (va y) /\ vshape y = p1 ++ (dim, k - 1) :: p2 /\
    forall ix d, valid_at (p1 ++ (dim, k - 1) :: p2) ix -> val y ix = znth d (F ix) (ix dim).
Proof.
  intros Hr Er Hm Hv. destruct (wfv_SV _ Hr) as (_ & Lr & _ & _). fold (vdims r) in Lr. fold (vshape r) in Lr. rewrite Er in Lr. destruct (along_wf x dim n _ Hx setup_ax) as (Lq & _).
  assert (Pm : Permutation m (p1 ++ p2)) by (apply perm_of_sets; [apply lwf_app2 in Lr; apply Lr|apply Lq|exact Hm]).
  assert (P : Permutation (vshape r) (p1 ++ (dim, k - 1) :: p2)). { rewrite Er. transitivity ((p1 ++ p2) ++ [(dim, k - 1)]); [apply Permutation_app_tail, Pm|]. rewrite <- app_assoc. apply Permutation_app_head. symmetry. apply (Permutation_cons_append p2). }
  replace (labels (vdims x)) with (keys (p1 ++ (dim, k - 1) :: p2)). 2:{ rewrite vdims_mk by exact Hx. rewrite Ex. change (labels (mk (p1 ++ (dim, n) :: p2))) with (keys (p1 ++ (dim, n) :: p2)). rewrite !keys_app. reflexivity. }
  destruct (transpose_ok r _ Hr P) as (y & E & Ey & Wy & Vy); [destruct p1; discriminate|]. exists y. split; [exact E|]. split; [exact Wy|]. split; [exact Ey|]. intros ix d Hix. rewrite Vy by exact Hix. apply Hv.
  intros a b Hab. apply Hix. apply (Permutation_in _ P). rewrite Er. exact Hab.
Qed.

Lemma rebin_step_inner (F : lindex -> list W) : var_stride (va x) dim = Ok 1 -> (forall V, Permutation (order V) (zseq 0 (Z.to_nat V))) ->
  (forall ix, valid_at (p1 ++ p2) ix -> rebin_inner less sub div abs zero add scale (line new dim k ix) (line x dim n ix) (line old dim (n + 1) ix) = Ok (F ix) /\ zlen (F ix) = k - 1) ->
  exists y, rebin_step lt sub div abs zero add scale scale' dim x old new junk order = Ok y /\ wfv (va y) /\ vshape y = p1 ++ (dim, k - 1) :: p2 /\
    forall ix d, valid_at (p1 ++ (dim, k - 1) :: p2) ix -> val y ix = znth d (F ix) (ix dim).
Proof.
  intros Hst Hord Hker. destruct (along_wf x dim n _ Hx setup_ax) as (Lq & _ & _ & Hdi & _). destruct (ordering_ok asc old new dim _ _ qo qn Ho Hnw Ao An Hor) as [E1 E2].
  unfold rebin_step. rewrite setup_edges. cbn [bind negb]. rewrite E1. cbn [bind]. rewrite E2. cbn [bind negb].
  destruct (as_contiguous_ok old dim _ qo Ho Ao) as (co & -> & Wco & Aco & Sco & _ & Vco). cbn [bind]. destruct (as_contiguous_ok new dim _ qn Hnw An) as (cn & -> & Wcn & Acn & Scn & _ & Vcn). cbn [bind].
  rewrite (along_dat cn dim k qn Wcn Acn). cbn [bind]. rewrite Hst. cbn [bind Z.eqb Pos.eqb].
  change (if asc then lt else fun a b => lt b a) with less.
  destruct (transform_subspan_ok dim (k - 1) (fun xnew data xold => rebin_inner less sub div abs zero add scale xnew data xold) (AVar cn) (AVar x) (AVar co) qn (p1 ++ p2) qo
    (line cn dim k) (line x dim n) (line co dim (n + 1)) F junk order) as (m & r & _ & Hm & _ & _ & E & Wr & Er & _ & Vr); try assumption; try lia.
  - apply argument_var; assumption.
  - apply argument_var; [exact Hx|exact setup_ax|exact Hst].
  - apply argument_var; assumption.
  - apply setup_agree; [exact Lq|exact Wn|intros e He; exact He].
  - apply setup_agree; assumption.
  - apply setup_agree; [exact Lq|intros e He; exact He|exact Wo].
  - intros ix Hixn Hixq Hixo. rewrite (line_cont new cn dim k qn), (line_cont old co dim (n + 1) qo) by assumption. apply Hker, Hixq.
  - rewrite E. cbn [bind]. apply (transpose_back r m F Wr Er); [|exact Vr]. intros e. rewrite Hm. split; [intros [X|[X|X]]; auto|auto].
Qed.

(** ** slices *)
Definition pointwise {A} (nd : res (lindex -> A)) (r : lindex -> res A) : Prop :=
  match nd with Ok f => forall ix, r ix = Ok (f ix) | Throw e => forall ix, r ix = Throw e | Ub => forall ix, r ix = Ub end.
Lemma vget_range {A} (l : list A) i a : vget l i = Ok a -> 0 <= i < zlen l.
Proof. unfold vget. destruct (Z.ltb_spec i 0); [discriminate|]. destruct (nth_error l (Z.to_nat i)) eqn:E; [|discriminate]. intros _. assert (Hl : (Z.to_nat i < length l)%nat) by (apply nth_error_Some; congruence). unfold zlen. lia. Qed.
Lemma vget_line {A} (y : varr A) ix i m : 0 <= i < m -> vget (line y dim m ix) i = Ok (val y (put ix dim i)).
Proof.
   intros Hi. unfold vget, line. destruct (Z.ltb_spec i 0); [lia|]. rewrite nth_error_map. unfold zseq. rewrite nth_error_map. rewrite (nth_error_nth' _ 0%nat) by (rewrite seq_length; lia). rewrite seq_nth by lia. cbn. rewrite Z2Nat.id by lia. reflexivity.
Qed.
Lemma upper_loop_bound {E} (l : E -> bool) edges : forall fuel first len it, 0 <= first -> 0 <= len -> upper_bound_loop l edges fuel first len = Ok it -> first <= it <= first + len.
Proof.
   induction fuel as [|fuel IH]; intros first len it Hf Hl E0; cbn [upper_bound_loop] in E0; [discriminate|]. destruct (Z.leb_spec len 0); [injection E0 as <-; lia|].
  pose proof (Z.quot_pos len 2 ltac:(lia) ltac:(lia)) as Q1. pose proof (Z.quot_lt len 2 ltac:(lia) ltac:(lia)) as Q2. cbv zeta in E0. destruct (vget edges _) as [e| |]; [|discriminate|discriminate]. cbn [bind] in E0.
  destruct (l e); apply IH in E0; lia.
Qed.
Lemma upper_bound_range {E} (l : E -> bool) edges it : upper_bound l edges = Ok it -> 0 <= it <= zlen edges.
Proof. intros E0. apply upper_loop_bound in E0; unfold zlen; lia. Qed.

Variable xold : list T.
Hypothesis Hxold : zlen xold = n + 1.
Lemma nd_add_ok l acc a b i : pointwise (nd_add_from_bin sub div abs add scale' l (elem x) dim xold acc a b i)
  (fun ix => add_from_bin l sub div abs add scale' (line x dim n ix) xold (acc ix) a b i).
Proof.
  unfold nd_add_from_bin, add_from_bin. destruct (vget xold i) as [u| |] eqn:Eu; cbn [bind pointwise]; try reflexivity. destruct (vget xold (i + 1)) as [v| |] eqn:Ev; cbn [bind pointwise]; try reflexivity.
  apply vget_range in Eu. apply vget_range in Ev. intros ix. rewrite vget_line by lia. reflexivity.
Qed.
Lemma skip_line ix b m : 0 <= b -> 0 <= m -> b + m <= n -> firstn (Z.to_nat m) (skipn (Z.to_nat b) (line x dim n ix)) = map (fun i => val x (put ix dim i)) (zseq b (Z.to_nat m)).
Proof.
  intros Hb Hm Hbm. unfold line. rewrite skipn_map, firstn_map. f_equal. unfold zseq. rewrite skipn_map, firstn_map. replace (Z.to_nat n) with (Z.to_nat b + (Z.to_nat m + Z.to_nat (n - b - m)))%nat by lia.
  rewrite seq_app, skipn_app, skipn_all2 by (rewrite seq_length; lia). rewrite seq_length, Nat.sub_diag. cbn [skipn app]. rewrite seq_app, firstn_app, firstn_all2 by (rewrite seq_length; lia). rewrite seq_length, Nat.sub_diag. cbn [firstn]. rewrite app_nil_r.
  replace (0 + Z.to_nat b)%nat with (Z.to_nat b) by lia. rewrite <- (Nat.add_0_r (Z.to_nat b)) at 1. generalize 0%nat as s. generalize (Z.to_nat m) as len. induction len as [|len IH]; intros s; [reflexivity|]. cbn [seq map]. f_equal; [lia|].
  rewrite <- Nat.add_succ_r. apply IH.
Qed.
Lemma fold_pointwise is_ : forall (acc : lindex -> W) ix, fold_left (fun (a : lindex -> W) i ix0 => add (a ix0) (elem x (put ix0 dim i))) is_ acc ix = fold_left add (map (fun i => val x (put ix dim i)) is_) (acc ix).
Proof. induction is_ as [|i is_ IH]; intros acc ix; [reflexivity|]. cbn [fold_left map]. rewrite IH. reflexivity. Qed.
Lemma nd_accumulate_ok l a b : pointwise (nd_accumulate_bin sub div abs zero add scale' l (elem x) dim xold n a b)
  (fun ix => accumulate_bin l sub div abs zero add scale' (line x dim n ix) xold a b).
Proof.
  unfold nd_accumulate_bin, accumulate_bin. replace (zlen xold - 1) with n by lia. destruct (upper_bound (l a) xold) as [bg| |] eqn:Eb; cbn [bind pointwise]; try reflexivity. destruct (upper_bound (l b) xold) as [en| |] eqn:Ee; cbn [bind pointwise]; try reflexivity.
  destruct ((bg =? n + 1) || (en =? 0)) eqn:E0; [cbn [pointwise]; reflexivity|]. apply upper_bound_range in Eb. apply upper_bound_range in Ee. set (bb := Z.max 0 (bg - 1)).
  pose proof (nd_add_ok l (fun _ => zero) a b bb) as Hadd. destruct (nd_add_from_bin sub div abs add scale' l (elem x) dim xold (fun _ => zero) a b bb) as [f| |]; cbn [bind pointwise] in *.
  2:{ intros ix. rewrite Hadd. reflexivity. } 2:{ intros ix. rewrite Hadd. reflexivity. }
  set (acc := if bb + 1 <? en - 1 then _ else f). 
  assert (Hacc : forall ix, (if bb + 1 <? en - 1 then fold_left add (firstn (Z.to_nat (en - 1 - (bb + 1))) (skipn (Z.to_nat (bb + 1)) (line x dim n ix))) (f ix) else f ix) = acc ix).
  { intros ix. unfold acc. destruct (Z.ltb_spec (bb + 1) (en - 1)); [|reflexivity]. rewrite skip_line by lia. rewrite fold_pointwise. reflexivity. }
  destruct (negb (bb =? en - 1) && (en <? n + 1)).
  - pose proof (nd_add_ok l acc a b (en - 1)) as H3. destruct (nd_add_from_bin sub div abs add scale' l (elem x) dim xold acc a b (en - 1)) as [g| |]; cbn [pointwise] in *; intros ix; rewrite Hadd; cbn [bind]; rewrite Hacc; apply H3.
  - cbn [pointwise]. intros ix. rewrite Hadd. cbn [bind]. rewrite Hacc. reflexivity.
Qed.
Lemma nd_rebin_ok l xnew : forall ix0 row0, rebin_non_inner l sub div abs zero add scale' xnew (line x dim n ix0) xold = Ok row0 ->
  exists fs, nd_rebin_non_inner sub div abs zero add scale' l (elem x) dim xold n xnew = Ok fs /\ forall ix, rebin_non_inner l sub div abs zero add scale' xnew (line x dim n ix) xold = Ok (map (fun f => f ix) fs).
Proof.
  induction xnew as [|a [|b xs] IH]; intros ix0 row0 E0; [exists []; split; reflexivity|exists []; split; reflexivity|].
  change (rebin_non_inner l sub div abs zero add scale' (a :: b :: xs) (line x dim n ix0) xold) with
    (do v <- accumulate_bin l sub div abs zero add scale' (line x dim n ix0) xold a b; do r <- rebin_non_inner l sub div abs zero add scale' (b :: xs) (line x dim n ix0) xold; Ok (v :: r)) in E0.
  change (nd_rebin_non_inner sub div abs zero add scale' l (elem x) dim xold n (a :: b :: xs)) with
    (do v <- nd_accumulate_bin sub div abs zero add scale' l (elem x) dim xold n a b; do r <- nd_rebin_non_inner sub div abs zero add scale' l (elem x) dim xold n (b :: xs); Ok (v :: r)).
  pose proof (nd_accumulate_ok l a b) as Hp. destruct (nd_accumulate_bin sub div abs zero add scale' l (elem x) dim xold n a b) as [f| |]; cbn [pointwise] in Hp; rewrite Hp in E0; cbn [bind] in E0; [|discriminate|discriminate].
  destruct (rebin_non_inner l sub div abs zero add scale' (b :: xs) (line x dim n ix0) xold) as [r0| |] eqn:Er; cbn [bind] in E0; [|discriminate|discriminate].
  destruct (IH ix0 r0 Er) as (fs & Ef & Hf). exists (f :: fs). cbn [bind]. rewrite Ef. split; [reflexivity|]. intros ix.
  change (rebin_non_inner l sub div abs zero add scale' (a :: b :: xs) (line x dim n ix) xold) with
    (do v <- accumulate_bin l sub div abs zero add scale' (line x dim n ix) xold a b; do r <- rebin_non_inner l sub div abs zero add scale' (b :: xs) (line x dim n ix) xold; Ok (v :: r)).
  rewrite Hp. cbn [bind]. rewrite Hf. reflexivity.
Qed.
End Setup.

Lemma one_dim {A} (y : varr A) k n : wfv (va y) -> vshape y = [(k, n)] -> along y k n [] /\ ndim (vdims y) = 1.
Proof. intros Hw E. split; [exists [], []; auto|]. rewrite vdims_mk by exact Hw. rewrite E. reflexivity. Qed.

Lemma rebin_step_outer (x : varr W) old new dim n k p1 p2 asc junk order (F : lindex -> list W) st :
  wfv (va x) -> wfv (va old) -> wfv (va new) -> vshape x = p1 ++ (dim, n) :: p2 -> vshape old = [(dim, n + 1)] -> vshape new = [(dim, k)] -> 1 <= k ->
  ordering asc old new dim (n + 1) k [] [] -> var_stride (va x) dim = Ok st -> st <> 1 ->
  (forall ix, rebin_non_inner (if asc then lt else gt) sub div abs zero add scale' (line new dim k ix) (line x dim n ix) (line old dim (n + 1) ix) = Ok (F ix) /\ zlen (F ix) = k - 1) ->
  exists y, rebin_step lt sub div abs zero add scale scale' dim x old new junk order = Ok y /\ wfv (va y) /\ vshape y = p1 ++ (dim, k - 1) :: p2 /\
    forall ix d, valid_at (p1 ++ (dim, k - 1) :: p2) ix -> val y ix = znth d (F ix) (ix dim).
Proof.
  intros Hx Ho Hn Ex Eo En Hk Hor Hst Hne Hker. destruct (one_dim old dim (n + 1) Ho Eo) as [Ao Do]. destruct (one_dim new dim k Hn En) as [An Dn].
  assert (Ax : along x dim n (p1 ++ p2)) by (exists p1, p2; auto). destruct (along_wf x dim n _ Hx Ax) as (Lq & Kq & Hn0 & Hdi & _). destruct (ordering_ok asc old new dim _ _ [] [] Ho Hn Ao An Hor) as [E1 E2].
  destruct (wfv_SV _ Hx) as (_ & Lx & _ & _). fold (vdims x) in Lx. fold (vshape x) in Lx. rewrite Ex in Lx. destruct (lwf_app _ _ _ _ Lx) as (_ & _ & Hd1 & Hd2 & _).
  unfold rebin_step. rewrite (setup_edges x old dim n p1 p2 []) by (try assumption; intros e []). cbn [bind negb]. rewrite E1. cbn [bind]. rewrite E2. cbn [bind negb].
  destruct (as_contiguous_ok old dim _ [] Ho Ao) as (co & -> & Wco & Aco & Sco & _ & Vco). cbn [bind]. destruct (as_contiguous_ok new dim _ [] Hn An) as (cn & -> & Wcn & Acn & Scn & Ecn & Vcn). cbn [bind].
  rewrite (along_dat cn dim k [] Wcn Acn). cbn [bind]. rewrite Hst. cbn [bind]. destruct (Z.eqb_spec st 1) as [|_]; [contradiction|].
  rewrite (vdims_mk x Hx), Ex. rewrite resize_sp by (assumption || lia). cbn [bind].
  assert (Dc : ndim (vdims cn) = 1). { rewrite vdims_mk by exact Wcn. rewrite En in Ecn. destruct Ecn as [-> | ->]; reflexivity. } rewrite Dc. cbn [Z.ltb Z.compare Pos.compare Pos.compare_cont].
  rewrite dat_sp by exact Hd1. cbn [bind]. destruct (rows_ok co dim _ [] Wco Aco Sco) as (ro & -> & _ & Vro). cbn [bind]. destruct (rows_ok cn dim _ [] Wcn Acn Scn) as (rn & -> & _ & Vrn). cbn [bind].
  assert (V0 : forall ix, valid_at [] ix) by (intros ix a b []). rewrite Vro, Vrn by apply V0. rewrite (line_cont old co dim (n + 1) []), (line_cont new cn dim k []) by (assumption || apply V0).
  assert (Lo : forall ix, line old dim (n + 1) ix = line old dim (n + 1) (fun _ => 0)) by (intros ix; apply (line_same old dim (n + 1) []); [exact Ho|exact Ao|intros j []]).
  assert (Ln : forall ix, line new dim k ix = line new dim k (fun _ => 0)) by (intros ix; apply (line_same new dim k []); [exact Hn|exact An|intros j []]).
  destruct (nd_rebin_ok x dim n k asc junk order (line old dim (n + 1) (fun _ : Dim => 0)) ltac:(apply zlen_line; lia) (if asc then lt else gt) (line new dim k (fun _ : Dim => 0)) (fun _ : Dim => 0) (F (fun _ => 0)) ltac:(apply Hker)) as (fs & Efs & Hfs).
  change (if asc then lt else fun a b => lt b a) with (if asc then lt else gt). rewrite Efs. cbn [bind].
  assert (Lp : lwf (p1 ++ (dim, k - 1) :: p2)) by (apply lwf_app_inv; try assumption; lia).
  assert (HF : forall ix, F ix = map (fun f => f ix) fs). { intros ix. destruct (Hker ix) as [E _]. rewrite Lo, Ln, Hfs in E. congruence. }
  set (r := mkva _ _). assert (Wr : wfv (va r)) by (unfold r; cbn [va]; rewrite fresh_SV by apply Lp; apply SV_wfv; [exact Lp|apply sfc_nonneg, Lp]).
  assert (Er : vshape r = p1 ++ (dim, k - 1) :: p2) by (unfold r, vshape, vdims; cbn [va v_dims var_fresh]; apply pairs_mk).
  assert (Vr : forall ix d, valid_at (p1 ++ (dim, k - 1) :: p2) ix -> val r ix = znth d (F ix) (ix dim)).
  { intros ix d Hix. unfold r, val. cbn [va va_buf]. rewrite fresh_SV by apply Lp. rewrite vaddr_SV, sfc_position by apply Lp. cbv zeta. replace (0 + position (extents (p1 ++ (dim, k - 1) :: p2)) (map ix (keys (p1 ++ (dim, k - 1) :: p2)))) with (position (extents (p1 ++ (dim, k - 1) :: p2)) (map ix (keys (p1 ++ (dim, k - 1) :: p2)))) by lia.
    pose proof (index_of_position _ ix Lp Hix) as Hs. set (ix' := index_of _ _) in *. assert (Hid : 0 <= ix dim < k - 1) by (apply Hix, in_or_app; right; left; reflexivity).
    assert (Hd : ix' dim = ix dim) by (apply Hs, In_keys; exists (k - 1); apply in_or_app; right; left; reflexivity). rewrite Hd.
    assert (Hlf : zlen fs = k - 1). { pose proof (proj2 (Hker ix)) as Hl. rewrite HF, zlen_map in Hl. exact Hl. }
    assert (Hsame : F ix = F ix'). { destruct (Hker ix) as [Ea _]. destruct (Hker ix') as [Eb _]. rewrite Lo, Ln in Ea, Eb. rewrite (line_same x dim n (p1 ++ p2) ix ix') in Ea; [congruence|exact Hx|exact Ax|].
      intros j Hj. symmetry. apply Hs. rewrite keys_app in *. apply in_app_or in Hj. apply in_or_app. destruct Hj; [left|right; right]; assumption. }
    rewrite Hsame, HF. rewrite (znth_map (fun f : lindex -> W => f ix') (fun _ => zero)) by lia. reflexivity. }
  replace (labels (mk (p1 ++ (dim, n) :: p2))) with (keys (p1 ++ (dim, k - 1) :: p2)). 2:{ change (labels (mk (p1 ++ (dim, n) :: p2))) with (keys (p1 ++ (dim, n) :: p2)). rewrite !keys_app. reflexivity. }
  destruct (transpose_ok r (p1 ++ (dim, k - 1) :: p2) Wr) as (y & Ey & Sy & Wy & Vy); [rewrite Er; reflexivity|destruct p1; discriminate|]. exists y. split; [exact Ey|]. split; [exact Wy|]. split; [exact Sy|].
  intros ix d Hix. rewrite Vy by exact Hix. apply Vr, Hix.
Qed.

Lemma rebin_nd_inner (x : varr W) old new dim n k p1 p2 qo qn asc junk order (F : lindex -> list W) st :
  wfv (va x) -> wfv (va old) -> wfv (va new) -> vshape x = p1 ++ (dim, n) :: p2 -> along old dim (n + 1) qo -> along new dim k qn -> within qo (p1 ++ p2) -> within qn (p1 ++ p2) -> 1 <= k ->
  ordering asc old new dim (n + 1) k qo qn -> var_stride (va x) dim = Ok st -> (st = 1 \/ qo <> [] \/ qn <> []) -> (forall V, Permutation (order V) (zseq 0 (Z.to_nat V))) ->
  (forall ix, valid_at (p1 ++ p2) ix -> rebin_inner (if asc then lt else gt) sub div abs zero add scale (line new dim k ix) (line x dim n ix) (line old dim (n + 1) ix) = Ok (F ix) /\ zlen (F ix) = k - 1) ->
  exists y, rebin_nd lt sub div abs zero add scale scale' dim x old new junk order = Ok y /\ wfv (va y) /\ vshape y = p1 ++ (dim, k - 1) :: p2 /\
    forall ix d, valid_at (p1 ++ (dim, k - 1) :: p2) ix -> val y ix = znth d (F ix) (ix dim).
Proof.
  intros Hx Ho Hn Ex Ao An Wo Wn Hk Hor Hst Hin Hord Hker. assert (Ax : along x dim n (p1 ++ p2)) by (exists p1, p2; auto). unfold rebin_nd. rewrite Hst. cbn [bind].
  destruct (Z.eqb_spec st 1) as [->|Hne]; cbn [negb andb]; [apply (rebin_step_inner x old new dim n k p1 p2 qo qn asc junk order Hx Ho Hn Ex Ao An Wo Wn Hk Hor F Hst Hord Hker)|].
  assert (Hd : negb (ndim (vdims old) =? 1) || negb (ndim (vdims new) =? 1) = true).
  { assert (Hnd : forall (y : varr T) m q, wfv (va y) -> along y dim m q -> q <> [] -> (ndim (vdims y) =? 1) = false).
    { intros y m q Hw (a & b & Ey & ->) Hq. rewrite vdims_mk by exact Hw. rewrite Ey. unfold ndim, zlen. change (labels (mk (a ++ (dim, m) :: b))) with (keys (a ++ (dim, m) :: b)). unfold keys. rewrite map_length, app_length. cbn [length].
      apply Z.eqb_neq. destruct a, b; cbn [length app] in *; try congruence; lia. }
    destruct Hin as [Hi|[Hi|Hi]]; [contradiction|rewrite (Hnd old _ _ Ho Ao Hi); reflexivity|rewrite (Hnd new _ _ Hn An Hi); apply orb_true_r]. }
  rewrite Hd. destruct (along_wf x dim n _ Hx Ax) as (_ & _ & _ & _ & Px). destruct (as_contiguous_ok x dim n _ Hx Ax) as (x1 & E1 & W1 & A1 & S1 & Es1 & V1). rewrite E1. cbn [bind].
  assert (Hsh : exists a b, vshape x1 = a ++ (dim, n) :: b /\ a ++ b = p1 ++ p2) by (destruct A1 as (a & b & Ea & Eb); exists a, b; auto). destruct Hsh as (a & b & Eab & Eq).
  destruct (rebin_step_inner x1 old new dim n k a b qo qn asc junk order W1 Ho Hn Eab Ao An ltac:(rewrite Eq; exact Wo) ltac:(rewrite Eq; exact Wn) Hk Hor F S1 Hord) as (r & Er & Wr & Sr & Vr).
  { rewrite Eq. intros ix Hix. rewrite (line_cont x x1 dim n (p1 ++ p2)) by assumption. apply Hker, Hix. }
  rewrite Er. cbn [bind].
  assert (P : Permutation (vshape r) (p1 ++ (dim, k - 1) :: p2)). { rewrite Sr. transitivity ((dim, k - 1) :: (a ++ b)); [symmetry; apply Permutation_middle|]. rewrite Eq. apply Permutation_middle. }
  replace (labels (vdims x)) with (keys (p1 ++ (dim, k - 1) :: p2)). 2:{ rewrite vdims_mk by exact Hx. rewrite Ex. change (labels (mk (p1 ++ (dim, n) :: p2))) with (keys (p1 ++ (dim, n) :: p2)). rewrite !keys_app. reflexivity. }
  destruct (transpose_ok r _ Wr P) as (t & -> & St & Wt & Vt); [destruct p1; discriminate|]. cbn [bind]. destruct (copy_of_ok t Wt) as (Sc & Wc & _ & Vc). exists (copy_of t). split; [reflexivity|]. split; [exact Wc|]. rewrite Sc, St. split; [reflexivity|].
  intros ix d Hix. rewrite Vc by (rewrite St; exact Hix). rewrite Vt by exact Hix. apply Vr. intros j m Hj. apply Hix. apply (Permutation_in _ P). rewrite Sr. exact Hj.
Qed.
Lemma rebin_nd_outer (x : varr W) old new dim n k p1 p2 asc junk order (F : lindex -> list W) st :
  wfv (va x) -> wfv (va old) -> wfv (va new) -> vshape x = p1 ++ (dim, n) :: p2 -> vshape old = [(dim, n + 1)] -> vshape new = [(dim, k)] -> 1 <= k ->
  ordering asc old new dim (n + 1) k [] [] -> var_stride (va x) dim = Ok st -> st <> 1 ->
  (forall ix, rebin_non_inner (if asc then lt else gt) sub div abs zero add scale' (line new dim k ix) (line x dim n ix) (line old dim (n + 1) ix) = Ok (F ix) /\ zlen (F ix) = k - 1) ->
  exists y, rebin_nd lt sub div abs zero add scale scale' dim x old new junk order = Ok y /\ wfv (va y) /\ vshape y = p1 ++ (dim, k - 1) :: p2 /\
    forall ix d, valid_at (p1 ++ (dim, k - 1) :: p2) ix -> val y ix = znth d (F ix) (ix dim).
Proof.
  intros Hx Ho Hn Ex Eo En Hk Hor Hst Hne Hker. unfold rebin_nd. rewrite Hst. cbn [bind]. destruct (one_dim old dim (n + 1) Ho Eo) as [_ ->]. destruct (one_dim new dim k Hn En) as [_ ->].
  change (negb (1 =? 1) || negb (1 =? 1)) with false. rewrite andb_false_r. eapply rebin_step_outer; eassumption.
Qed.
End RebinProofs.
