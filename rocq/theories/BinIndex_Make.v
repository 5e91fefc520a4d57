(** Proofs about iteration over binned data: construction and the connection to the specification. *)
From Verif Require Import Base Dims_Model Dims_Spec Dims_Proofs Index_Model Index_Spec Index_Proofs BinIndex_Model BinIndex_Spec BinIndex_Proofs.

Definition istr (inner : list Z) (o : operand) : list Z :=
  match op_bins o with Some (st, _) => st | None => repeat 0 (length inner) end.

Lemma nth_repeat0 m i : nth i (repeat 0 m) 0 = 0. Proof. apply vzero_nth. Qed.
Lemma skipn_repeat {A} (x : A) m d : skipn d (repeat x m) = repeat x (m - d).
Proof. revert d. induction m as [|m IH]; intros [|d]; cbn [repeat skipn Nat.sub]; auto. Qed.

Lemma stride_at_istr inner i o : stride_at i (inner_strides o) = stride_at i (istr inner o).
Proof. unfold inner_strides, istr, stride_at. destruct (op_bins o) as [[st ix]|]; [reflexivity|]. rewrite nth_repeat0. destruct i; reflexivity. Qed.

Lemma istr_entries inner ops : iter_entries inner (map inner_strides ops) = iter_entries inner (map (istr inner) ops).
Proof. unfold iter_entries. apply map_ext. intros i. f_equal. rewrite !map_map. apply map_ext. intros o. apply stride_at_istr. Qed.

Lemma safe_ext sh sts sts' : (forall d, all_zero sts d <-> all_zero sts' d) -> flattening_safe sh sts -> flattening_safe sh sts'.
Proof.
  intros HE [Hs|Hs]; [left; apply HE; assumption|right]. intros d Hd Hz. apply Hs; [assumption|]. intros i Hi. apply HE, Hz, Hi.
Qed.
Lemma istr_safe inner idx sh ops : flattening_safe sh (map (fun o => skipn idx (inner_strides o)) ops) ->
  flattening_safe sh (map (skipn idx) (map (istr inner) ops)).
Proof.
  apply safe_ext. intros d. unfold all_zero. rewrite map_map.
  split; intros HA st Hst; apply in_map_iff in Hst as (o & <- & Ho).
  - specialize (HA (skipn idx (inner_strides o))). rewrite nth_skipn_z in *. 
    change (nth (idx + d) (istr inner o) 0) with (stride_at (idx + d) (istr inner o)). rewrite <- stride_at_istr.
    apply HA. apply in_map_iff. eauto.
  - specialize (HA (skipn idx (istr inner o))). rewrite nth_skipn_z in *.
    change (nth (idx + d) (inner_strides o) 0) with (stride_at (idx + d) (inner_strides o)). rewrite (stride_at_istr inner).
    apply HA. apply in_map_iff. eauto.
Qed.

(** Positions of the first event of bin [k], inner offsets taken out. *)
Definition base_of (idx : nat) (sh : list Z) (o : operand) (k : Z) : Z :=
  match op_bins o with
  | None => address sh (op_strides o) k
  | Some (st, ix) => match ix (address sh (op_strides o) k) with Some (b, _) => nth idx st 0 * b | None => 0 end
  end.

Lemma nth_map_op {B} (f : operand -> B) ops j d : (j < length ops)%nat -> nth j (map f ops) d = f (nth j ops (mkoperand [] None)).
Proof. intros Hj. rewrite (nth_indep _ d (f (mkoperand [] None))) by (rewrite map_length; assumption). apply map_nth. Qed.

Lemma address_zero sh st k : zeros st -> address sh st k = 0.
Proof.
  unfold address. generalize (index_at sh k). induction st as [|x st IH]; intros [|y l] Hz; [reflexivity|reflexivity|reflexivity|].
  apply Forall_cons_iff in Hz as [-> Hz]. cbn [dot]. rewrite IH by assumption. lia.
Qed.

(** Everything known about a constructed iterator over at least one bin. *)
Record Made (inner : list Z) (idx : nat) (sh : list Z) (ops : list operand) (size : Z -> Z) (s : bstate) : Prop := {
  Md : exists PI QO eb,
    let n := length ops in let stn := map (stride_at idx) (map (istr inner) ops) in
    let par := map (bin_param (vol sh)) ops in let base := fun k => map (fun o => base_of idx sh o k) ops in
    (forall x, 0 < x -> es_ok n (Ei PI QO stn x)) /\ es_ok n eb /\
    (forall k, 0 <= k < evol eb -> 0 <= size k) /\ (forall k, 0 <= k < evol eb -> length (base k) = n) /\
    (length par = n /\ forall j, (j < n)%nat -> par_ok n stn eb size base j (nth j par Dense)) /\
    (exists j, (j < n)%nat /\ nth j par Dense <> Dense) /\
    evol eb = vol sh /\
    (forall k, 0 <= k < vol sh -> evb n PI QO stn par eb size base k = events inner idx sh ops size k) /\
    Norm n PI QO stn par eb size base 0 s }.

Lemma vol_event0 inner idx : vol (event_shape inner idx 0) = 0.
Proof. unfold event_shape. rewrite vol_app. cbn [vol]. lia. Qed.

(** The parts of the constructor that can fail before bins are read. *)
Definition starts (inner : list Z) (idx : nat) (sh : list Z) (ops : list operand) (ei eb : list mentry) : Prop :=
  match ops with p0 :: ps => validate_bins sh p0 ps | [] => Ok tt end = Ok tt /\
  flatten_dims NDIM_OP_MAX (Z.of_nat idx) (vzero (length ops)) (zlen inner - 1) (rev (iter_entries inner (map inner_strides ops))) [] = Ok ei /\
  flatten_dims (NDIM_OP_MAX - length ei) 0 (vzero (length ops)) (zlen sh - 1) (rev (iter_entries sh (map op_strides ops))) [] = Ok eb /\
  (NDIM_OP_MAX <=? length ei)%nat && (length eb =? 0)%nat = false.

Lemma make_starts inner idx sh ops s : bi_make inner idx sh ops = Ok s -> exists ei eb, starts inner idx sh ops ei eb.
Proof.
  intros HM. unfold bi_make in HM. unfold starts. destruct (match ops with [] => Ok tt | p0 :: ps => _ end) as [[]| |] eqn:Eval; cbn [bind] in HM; try discriminate.
  destruct (flatten_dims NDIM_OP_MAX (Z.of_nat idx) _ _ _ _) as [ei| |] eqn:Fi; cbn [bind] in HM; try discriminate.
  destruct (flatten_dims (NDIM_OP_MAX - length ei) 0 _ _ _ _) as [eb| |] eqn:Fb; cbn [bind] in HM; try discriminate.
  exists ei, eb. split; [reflexivity|]. split; [reflexivity|]. split; [assumption|].
  destruct ((NDIM_OP_MAX <=? length ei)%nat && (length eb =? 0)%nat); [discriminate|reflexivity].
Qed.

Lemma starts_make inner idx sh ops ei eb : starts inner idx sh ops ei eb -> bi_make inner idx sh ops =
  do s <- load_bins (mkbs (mi_of_entries (length ops) ei) (mi_of_entries (length ops) eb) (length ei - idx - 1) (map (bin_param (vol sh)) ops));
  if bin_is_empty s || (vol sh =? 0) then seek_bin s else Ok s.
Proof.
  intros (E1 & E2 & E3 & E4). unfold bi_make. rewrite E1. cbn [bind]. rewrite E2. cbn [bind]. rewrite E3. cbn [bind]. rewrite E4.
  rewrite fold_mul_vol. reflexivity.
Qed.

Lemma made_from inner idx sh ops size ei eb : layout_ok inner idx sh ops -> layout_safe inner idx sh ops ->
  (forall k, 0 <= k < vol sh -> 0 <= size k) -> Forall (has_sizes sh size) ops -> 0 < vol sh ->
  starts inner idx sh ops ei eb -> exists s, bi_make inner idx sh ops = Ok s /\ Made inner idx sh ops size s.
Proof.
  intros (Hi & Hpe & Hnn & Hops & Hbin) [Hs1 Hs2] Hsz Hhs Hv HST. rewrite (starts_make _ _ _ _ _ _ HST).
  destruct HST as (_ & Fi & Fb & _).
  assert (pos sh) as Hp by (apply vol_pos_all; assumption).
  set (n := length ops) in *.
  (* inner dimensions *)
  rewrite istr_entries in Fi. assert (length (map (istr inner) ops) = n) as Lis by apply map_length.
  assert (Forall (fun st => length st = length inner) (map (istr inner) ops)) as Hlis.
  { apply Forall_map, Forall_forall. intros o Ho. rewrite Forall_forall in Hops. destruct (Hops o Ho) as [_ HL].
    unfold istr. destruct (op_bins o) as [[st ix]|] eqn:Eo; [apply (HL st ix); reflexivity|apply repeat_length]. }
  rewrite <- Lis in Fi. apply inner_make in Fi; [|assumption|assumption|assumption|apply istr_safe; assumption].
  rewrite Lis in Fi. destruct Fi as (PI & QO & -> & LQ & HEi).
  set (stn := map (stride_at idx) (map (istr inner) ops)) in *.
  (* bin dimensions *)
  assert (length (map op_strides ops) = n) as Los by apply map_length.
  assert (Forall (fun st => length st = length sh) (map op_strides ops)) as Hlos.
  { apply Forall_map, Forall_forall. intros o Ho. rewrite Forall_forall in Hops. apply (Hops o Ho). }
  assert (mi_make sh (map op_strides ops) = Ok (mi_of_entries n eb)) as Hmk.
  { unfold mi_make. rewrite Los. erewrite flatten_mono; [|apply Nat.le_sub_l|exact Fb]. reflexivity. }
  destruct (mi_make_good _ _ _ Hp Hlos Hmk Hs1) as (es & Ees & Hok & Hve & Hd). rewrite Los in *.
  assert (es_ok n eb) as Heb.
  { eapply (flatten_es_ok n _ _ _ _ _ []); [exact Fb|split; constructor|]. rewrite <- Los. apply es_ok_rev, entries_ok. assumption. }
  assert (es = eb) as ->.
  { rewrite mi_begin in Ees by assumption.
    assert (forall a b : list mentry, sizes_of a = sizes_of b -> strides_of_e a = strides_of_e b -> a = b) as HX.
    { induction a as [|[u t] a IH]; intros [|[u' t'] b] Ea Eb; try discriminate; [reflexivity|].
      cbn in Ea, Eb. injection Ea as -> Ea. injection Eb as -> Eb. f_equal. apply IH; assumption. }
    destruct es as [|e es], eb as [|e' eb]; [reflexivity|apply (f_equal mi_ndim) in Ees; discriminate Ees|apply (f_equal mi_ndim) in Ees; discriminate Ees|].
    pose proof (f_equal mi_shape Ees) as E1. pose proof (f_equal mi_stride Ees) as E2. rewrite !mi_state_ne in E1, E2 by discriminate. symmetry. apply HX; assumption. }
  set (par := map (bin_param (vol sh)) ops) in *.
  set (base := fun k => map (fun o => base_of idx sh o k) ops).
  assert (forall k, 0 <= k < evol eb -> 0 <= size k) as Hsize by (rewrite Hve; assumption).
  assert (forall k, 0 <= k < evol eb -> length (base k) = n) as Hbase by (intros; apply map_length).
  assert (forall k j, 0 <= k -> (j < n)%nat -> nth j (mi_data (mi_state n eb k)) 0 = address sh (op_strides (nth j ops (mkoperand [] None))) k) as Hadr.
  { intros k j Hk Hj. rewrite Hd by assumption. rewrite nth_addresses by (rewrite Los; assumption). rewrite nth_map_op by assumption. reflexivity. }
  assert (vol sh =? 0 = false) as Ev0 by lia.
  assert (forall j, (j < n)%nat -> nth j stn 0 = nth idx (istr inner (nth j ops (mkoperand [] None))) 0) as Hstn.
  { intros j Hj. unfold stn. rewrite map_map. rewrite nth_map_op by assumption. reflexivity. }
  assert (length par = n /\ forall j, (j < n)%nat -> par_ok n stn eb size base j (nth j par Dense)) as Hpar.
  { split; [apply map_length|]. intros j Hj. unfold par. rewrite nth_map_op by assumption.
    set (o := nth j ops (mkoperand [] None)) in *. assert (In o ops) as Ho by (apply nth_In; assumption).
    rewrite Forall_forall in Hhs. pose proof (Hhs o Ho) as Hso. unfold has_sizes in Hso.
    assert (forall k, nth j (base k) 0 = base_of idx sh o k) as Hnb by (intros; unfold base; rewrite nth_map_op by assumption; reflexivity).
    unfold bin_param. destruct (op_bins o) as [[st ix]|] eqn:Eo; cbn [par_ok].
    - rewrite Ev0. cbn [par_ok]. intros k Hk. rewrite Hve in Hk. destruct (Hso st ix eq_refl k Hk) as (b & Eb). exists b. rewrite Hadr by (assumption || lia). fold o.
      split; [assumption|]. rewrite Hnb, Hstn by assumption. fold o. unfold base_of, istr. rewrite Eo, Eb. reflexivity.
    - intros k Hk. rewrite Hnb, Hadr by (assumption || lia). fold o. unfold base_of. rewrite Eo. reflexivity. }
  assert (exists j, (j < n)%nat /\ nth j par Dense <> Dense) as Hbin'.
  { destruct Hbin as (o & Ho & Hne). destruct (In_nth _ _ (mkoperand [] None) Ho) as (j & Hj & Ej). exists j. split; [assumption|].
    unfold par. rewrite nth_map_op by assumption. rewrite Ej. unfold bin_param. destruct (op_bins o) as [[st ix]|]; [discriminate|congruence]. }
  assert (forall x, 0 < x -> es_ok n (Ei PI QO stn x)) as HE by (intros x Hx; apply HEi; assumption).
  assert (exists s, (do s <- load_bins (mkbs (mi_of_entries n (Ei PI QO stn (nth idx inner 0))) (mi_of_entries n eb) (length (Ei PI QO stn (nth idx inner 0)) - idx - 1) par);
     (if bin_is_empty s || (vol sh =? 0) then seek_bin s else Ok s)) = Ok s /\ Norm n PI QO stn par eb size base 0 s) as (s & HM & HN).
  { assert (forall x, mi_of_entries n (Ei PI QO stn x) = mkmindex (vzero n) (repeat 0 (length (Ei PI QO stn x))) (sizes_of (Ei PI QO stn x)) (strides_of_e (Ei PI QO stn x)) (length (Ei PI QO stn x))) as HEe.
    { intros x. pose proof (Ei_ne PI QO stn x). unfold mi_of_entries. destruct (Ei PI QO stn x); [congruence|reflexivity]. }
    assert (load_bins (mkbs (mi_of_entries n (Ei PI QO stn (nth idx inner 0))) (mi_of_entries n eb) (length (Ei PI QO stn (nth idx inner 0)) - idx - 1) par) =
            Ok (St n PI QO stn par eb size base 0 0)) as HL.
    { apply load_ok; try assumption; [lia| |].
      - constructor; cbn [bs_in bs_bins bs_nest bs_par].
        + apply mi_begin. assumption.
        + rewrite HEe. cbn [mi_coord]. rewrite repeat_length. apply Ei_len.
        + rewrite HEe. cbn [mi_shape]. eexists. reflexivity.
        + rewrite HEe. cbn [mi_stride]. apply Ei_strides.
        + rewrite HEe. cbn [mi_data]. apply vzero_length.
        + rewrite HEe. cbn [mi_ndim]. apply Ei_len.
        + unfold Ei. rewrite app_length. cbn [length]. lia.
        + reflexivity.
      - cbn [bs_in]. rewrite HEe. cbn [mi_coord]. f_equal. apply Ei_len. }
    rewrite HL. cbn [bind]. rewrite Ev0, orb_false_r.
    rewrite (empty_St n PI QO stn par eb size base HE Hsize Hbase Hpar).
    destruct (Z.eqb_spec (size 0) 0) as [E0|E0].
    + destruct (seek_bin_ok n PI QO stn par eb size base) with (s := St n PI QO stn par eb size base 0 0) (k := 0) as (s' & Es & Hs'); try assumption.
      * lia.
      * apply St_Mid; try assumption; lia.
      * exists s'. split; [assumption|]. apply Norm_skip; assumption || lia.
    + eexists. split; [reflexivity|]. left. exists 0. split; [lia|]. split; [intros; lia|]. split; [|reflexivity]. pose proof (Hsz 0). lia. }
  exists s. split; [exact HM|].
  constructor. exists PI, QO, eb. cbv zeta. fold n stn par base.
  split; [intros x Hx; apply HEi; assumption|]. split; [assumption|]. split; [assumption|]. split; [assumption|]. split; [assumption|].
  split; [assumption|]. split; [assumption|]. split; [|assumption].
  - intros k Hk. pose proof (Hsz k Hk) as Hsk. unfold evb, events.
    assert (iv PI QO stn size k = vol (event_shape inner idx (size k))) as ->.
    { destruct (Z.eq_dec (size k) 0) as [E|E]; [rewrite (iv_zero n PI QO stn par eb size base) by assumption; rewrite E, vol_event0; reflexivity|]. apply HEi. lia. }
    apply map_ext_in. intros i Hi0. apply zseq_In in Hi0.
    assert (0 < size k) as Hsk'.
    { destruct (Z.eq_dec (size k) 0) as [E|E]; [rewrite E, vol_event0 in Hi0; cbn in Hi0; lia|lia]. }
    destruct (HEi (size k) Hsk') as (Hok' & _ & Hev).
    unfold bpos, St, shift. cbn [bs_in mi_data]. 
    assert (length (mi_data (mi_state n (Ei PI QO stn (size k)) i)) = n) as Ldat by (apply mi_data_length; assumption).
    apply veq; [rewrite vadd_length, map_length; [apply Hbase; lia|rewrite Hbase by lia; assumption]|].
    intros j. rewrite vadd_nth by (rewrite Hbase by lia; assumption).
    destruct (Nat.lt_ge_cases j n) as [Hj|Hj].
    + rewrite nth_map_op by assumption. unfold base. rewrite nth_map_op by assumption.
      set (o := nth j ops (mkoperand [] None)) in *. assert (In o ops) as Ho by (apply nth_In; assumption).
      rewrite mi_data_evj by (assumption || lia). rewrite Hev by lia. rewrite nth_map_op by assumption. fold o.
      unfold base_of, event_pos, istr. destruct (op_bins o) as [[st ix]|] eqn:Eo.
      * rewrite Forall_forall in Hhs. destruct (Hhs o Ho st ix Eo k Hk) as (b & Eb). rewrite Eb. replace (b + size k - b) with (size k) by lia. reflexivity.
      * rewrite (address_zero _ (repeat 0 (length inner))); [lia|]. apply Forall_forall. intros x Hx. apply repeat_spec in Hx. assumption.
    + rewrite (nth_overflow (base k)) by (rewrite Hbase by lia; assumption).
      rewrite (nth_overflow (mi_data _)) by (rewrite Ldat; assumption). rewrite nth_overflow by (rewrite map_length; assumption). reflexivity.
Qed.

Lemma made inner idx sh ops size s : layout_ok inner idx sh ops -> layout_safe inner idx sh ops ->
  (forall k, 0 <= k < vol sh -> 0 <= size k) -> Forall (has_sizes sh size) ops -> 0 < vol sh ->
  bi_make inner idx sh ops = Ok s -> Made inner idx sh ops size s.
Proof.
  intros HL HS Hsz Hhs Hv HM. destruct (make_starts _ _ _ _ _ HM) as (ei & eb & HST).
  destruct (made_from _ _ _ _ _ _ _ HL HS Hsz Hhs Hv HST) as (s' & E & HMd). assert (s' = s) as -> by congruence. assumption.
Qed.

(** ** The claims, for at least one bin *)
Lemma flat_map_ext_in {A B} (f g : A -> list B) l : (forall x, In x l -> f x = g x) -> flat_map f l = flat_map g l.
Proof.
  induction l as [|x l IH]; intros HE; [reflexivity|]. cbn [flat_map]. rewrite IH by (intros; apply HE; right; assumption).
  rewrite HE by (left; reflexivity). reflexivity.
Qed.

Lemma made_use inner idx sh ops size s : Made inner idx sh ops size s ->
  let evs := events_of inner idx sh ops size in
  (forall fuel b e, 0 <= b <= e -> e <= vol sh -> (length (evs b e) <= fuel)%nat -> bi_block fuel s b e = Ok (evs b e)) /\
  (forall fuel e, 0 <= e <= vol sh -> (length (evs 0%Z e) <= fuel)%nat -> bi_serial fuel s e = Ok (evs 0 e)) /\
  (forall b m, 0 <= b <= vol sh -> (m <= length (evs b (vol sh)))%nat ->
     exists s1 s2, bi_set_index s b = Ok s1 /\ increments m s1 = Ok s2 /\
       ((m < length (evs b (vol sh)))%nat -> mi_data (bs_in s2) = nth m (evs b (vol sh)) [] /\ bs_at_end s2 = false) /\
       (m = length (evs b (vol sh)) -> bs_at_end s2 = true)) /\
  (forall b e, 0 <= b <= e -> e <= vol sh -> exists s1 s2 s3, bi_set_index s b = Ok s1 /\ bi_set_index s e = Ok s2 /\
     increments (length (evs b e)) s1 = Ok s3 /\ bi_eqb s3 s2 = true /\ (bs_at_end s2 = false -> s3 = s2)).
Proof.
  intros [(PI & QO & eb & HE & Heb & Hsize & Hbase & Hpar & Hbin & Ev & Hevb & HN)] evs.
  cbv zeta in *. set (n := length ops) in *. set (stn := map (stride_at idx) (map (istr inner) ops)) in *.
  set (par := map (bin_param (vol sh)) ops) in *. set (base := fun k => map (fun o => base_of idx sh o k) ops) in *.
  assert (forall b e, 0 <= b -> e <= vol sh -> evs b e = evbs n PI QO stn par eb size base b e) as HX.
  { intros b e Hb He. unfold evs, events_of, evbs. apply flat_map_ext_in. intros k Hk. apply zseq_In in Hk. symmetry. apply Hevb. lia. }
  assert (exists j, 0 <= j /\ Mid n PI QO stn par eb s j) as (j & Hj & HM).
  { destruct HN as [(k & Hk & _ & Hs & ->)|[_ HE']].
    - exists k. split; [lia|]. apply St_Mid; assumption || lia.
    - exists (evol eb). split; [|apply HE']. pose proof (V_pos n eb Heb). lia. }
  assert (0 <= vol sh) as Hv by (rewrite <- Ev; pose proof (V_pos n eb Heb); lia).
  split; [|split; [|split]].
  - intros fuel b e Hb He Hf. rewrite HX in Hf |- * by lia. eapply bi_block_norm; try eassumption; lia.
  - intros fuel e He Hf. rewrite HX in Hf |- * by lia. unfold bi_serial.
    destruct (set_index_ok n PI QO stn par eb size base HE Heb Hsize Hbase Hpar Hbin s j e HM Hj ltac:(lia)) as (s2 & E2 & N2).
    rewrite E2. cbn [bind]. eapply bi_run_norm; try eassumption; lia.
  - intros b m Hb Hm. rewrite HX in Hm |- * by lia.
    destruct (set_index_ok n PI QO stn par eb size base HE Heb Hsize Hbase Hpar Hbin s j b HM Hj ltac:(lia)) as (s1 & E1 & N1).
    pose proof (Norm_At n PI QO stn par eb size base HE Hsize Hbase Hpar b b s1 ltac:(lia) ltac:(lia) N1) as A1.
    rewrite <- Ev in *.
    assert (evbs n PI QO stn par eb size base b b = []) as E0 by (unfold evbs; rewrite Z.sub_diag; reflexivity).
    rewrite E0 in A1. cbn [length] in A1.
    destruct (At_increments n PI QO stn par eb size base HE Heb Hsize Hbase Hpar Hbin b m (Z.of_nat 0) s1 ltac:(lia) ltac:(lia) A1) as (s2 & E2 & A2).
    exists s1, s2. split; [assumption|]. split; [assumption|]. split.
    + intros Hlt. split.
      * rewrite (At_data n PI QO stn par eb size base HE Hsize Hbase Hpar b _ s2 ltac:(lia) A2 ltac:(lia)). f_equal. lia.
      * destruct A2 as [(k & q & Hk & Hs & Hq & -> & Ep)|[Ep _]]; [|lia]. eapply at_end_St; try eassumption. lia.
    + intros Hlt. destruct A2 as [(k & q & Hk & Hs & Hq & -> & Ep)|[_ HE']].
      * exfalso. pose proof (evbs_len_lt n PI QO stn par eb size base HE Hsize Hbase Hpar b k ltac:(lia) ltac:(lia)). lia.
      * eapply at_end_End; eassumption.
  - intros b e Hb He. rewrite HX by lia.
    destruct (set_index_ok n PI QO stn par eb size base HE Heb Hsize Hbase Hpar Hbin s j b HM Hj ltac:(lia)) as (s1 & E1 & N1).
    destruct (set_index_ok n PI QO stn par eb size base HE Heb Hsize Hbase Hpar Hbin s j e HM Hj ltac:(lia)) as (s2 & E2 & N2).
    pose proof (Norm_At n PI QO stn par eb size base HE Hsize Hbase Hpar b b s1 ltac:(lia) ltac:(lia) N1) as A1.
    pose proof (Norm_At n PI QO stn par eb size base HE Hsize Hbase Hpar b e s2 ltac:(lia) ltac:(lia) N2) as A2.
    assert (evbs n PI QO stn par eb size base b b = []) as E0 by (unfold evbs; rewrite Z.sub_diag; reflexivity).
    rewrite E0 in A1. cbn [length] in A1.
    assert (length (evbs n PI QO stn par eb size base b e) <= length (evbs n PI QO stn par eb size base b (evol eb)))%nat as Hle.
    { rewrite (evbs_split n PI QO stn par eb size base HE Hsize Hbase Hpar b e (evol eb)) by lia. rewrite app_length. lia. }
    destruct (At_increments n PI QO stn par eb size base HE Heb Hsize Hbase Hpar Hbin b (length (evbs n PI QO stn par eb size base b e)) (Z.of_nat 0) s1 ltac:(lia) ltac:(lia) A1) as (s3 & E3 & A3).
    exists s1, s2, s3. split; [assumption|]. split; [assumption|]. split; [assumption|].
    rewrite Z.add_0_l in A3.
    destruct (At_unique n PI QO stn par eb size base HE Heb Hsize Hbase Hpar b _ s2 s3 ltac:(lia) A2 A3) as [U1 U2].
    split; [|intros Hae; symmetry; apply U2; assumption].
    unfold bi_eqb in *. apply list_eqb_spec in U1. rewrite U1. apply list_eqb_refl.
Qed.
