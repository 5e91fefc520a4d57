(** Proofs about axes, dimensions and metadata of the concatenation of groups. *)
From Coq Require Import Permutation.
From Verif Require Import Base Map_Model Map_Spec Map_Proofs Dims_Model Dims_Spec Dims_Proofs View_Model View_Spec View_Proofs Index_Proofs
  Transform_Model Transform_Spec Transform_Proofs SizedDict_Model SizedDict_Spec SizedDict_Proofs Equality_Proofs Accumulate_Spec
  Reduce_Proofs Label_Proofs Accumulate_Model Accumulate_Proofs Mask_Model Mask_Spec Mask_Proofs BinMeta_Model BinMeta_Spec BinMeta_Proofs
  GroupConcat_Model GroupConcat_Spec.

Section Axes.
Variables (P : list (Z * Z)) (coords : list (Z * item)) (joined : Dim -> item) (rdim : Dim).
Hypothesis HP : lwf P.
Hypothesis Hc : NoDup (map fst coords).
Hypothesis Hci : forall d it, In (d, it) coords -> item_ok it.
Hypothesis Hj : forall d, In d (keys P) -> item_ok (joined d) /\ ishape (joined d) = [(d, 2)].

Definition caxis (e : Z * Z) : list axis :=
  match coord_named coords (fst e) with
  | None => []
  | Some c => if unalignedb rdim c then [Binned (joined (fst e))] else if fst e =? rdim then [] else [Kept (fst e) (snd e)]
  end.
Lemma unaligned_iff d : unaligned coords rdim d <-> exists c, coord_named coords d = Some c /\ unalignedb rdim c = true.
Proof.
  unfold unaligned, unalignedb. split; intros (c & Hd & Hx); exists c.
  - split; [apply (coord_at_In coords d c Hc); exact Hd|]. apply andb_true_intro. split; [apply Bool.negb_true_iff, Nat.eqb_neq; apply Hx|apply mem_In; apply Hx].
  - apply andb_prop in Hx. destruct Hx as [X1 X2]. split; [apply (coord_at_In coords d c Hc); exact Hd|]. split; [apply Nat.eqb_neq, Bool.negb_true_iff; exact X1|apply mem_In; exact X2].
Qed.
Lemma joined_dim d : In d (keys P) -> idim (joined d) = d /\ snd (inner (joined d)) = 2.
Proof. intros Hd. destruct (Hj d Hd) as [_ E]. unfold idim, inner. rewrite E. split; reflexivity. Qed.

Lemma concat_dim_ok b d n : In (d, n) P -> concat_dim (mk P) (mkd coords) joined rdim b d = add_axes b (caxis (d, n)).
Proof.
  intros Hd. assert (Hk : In d (keys P)) by (apply In_keys; eexists; exact Hd). unfold concat_dim, caxis. cbn [fst snd]. change coord_named with coord_at.
  destruct (coord_at coords d) as [c|] eqn:E.
  - apply coord_at_some in E. assert (M : mcontains Z.eqb (mkd coords) d = true) by (apply contains_In; apply (in_map fst) in E; exact E). rewrite M, (at_In coords d c) by assumption. cbn [bind].
    destruct (item_mk c (Hci d c E)) as [Ec _].
    assert (Eu : negb (ndim (i_dims c) =? 1) && dcontains (i_dims c) rdim = unalignedb rdim c).
    { unfold unalignedb. rewrite Ec at 2. rewrite dcontains_mk. f_equal. f_equal. rewrite Ec at 1. unfold ndim, labels, zlen. cbn [mk View_Proofs.mk m_keys]. unfold keys. rewrite map_length.
      destruct (Nat.eqb_spec (length (ishape c)) 1) as [->|Hne]; [reflexivity|]. apply Z.eqb_neq. lia. }
    rewrite Eu. destruct (unalignedb rdim c).
    + cbn [add_axes add_axis]. unfold b_join, b_bin. destruct (Hj d Hk) as [K1 K2]. destruct (joined_dim d Hk) as [D1 D2]. rewrite inner_dim, inner_at by (assumption || (rewrite K2; discriminate)). cbn [bind]. rewrite D1, D2. change (2 - 1) with 1.
      destruct (add_inner (b_dims b) d 1); reflexivity.
    + destruct (d =? rdim); cbn [negb add_axes]; [reflexivity|]. rewrite (dat_has (mk P) d n); [|apply mk_wf; exact HP|unfold has; rewrite pairs_mk; exact Hd]. cbn [bind add_axis]. destruct (b_existing b d n); reflexivity.
  - assert (M : mcontains Z.eqb (mkd coords) d = false) by (apply contains_nIn; apply coord_at_none; exact E). rewrite M. reflexivity.
Qed.
Lemma concat_dims_ok Q : (forall e, In e Q -> In e P) -> forall b, concat_dims (mk P) (mkd coords) joined rdim b (keys Q) = add_axes b (flat_map caxis Q).
Proof.
  induction Q as [|[d n] Q IH]; intros Hq b; [reflexivity|]. cbn [keys map fst concat_dims flat_map]. change (map fst Q) with (keys Q). rewrite add_axes_app, (concat_dim_ok b d n) by (apply Hq; left; reflexivity).
  destruct (add_axes b (caxis (d, n))) as [b'| |]; cbn [bind]; try reflexivity. apply IH. intros e He. apply Hq. right. exact He.
Qed.

Variables (key : item) (edges groups : option item).
Hypothesis Hkey : key_item key edges groups.
Hypothesis Hr : rdim <> InvalidDim.

Definition kaxis : axis := match edges with Some _ => Binned key | None => Grouped key end.
Definition caxes : list axis := kaxis :: Erased rdim :: flat_map caxis P.
Lemma concat_actions_add : concat_actions (mk P) (mkd coords) joined edges groups rdim = add_axes (mkb (mk []) []) caxes.
Proof.
  unfold concat_actions, caxes, kaxis. change (@mempty Z Z) with (mk []). change (labels (mk P)) with (keys P).
  destruct Hkey; cbn [bind add_axes add_axis].
  - destruct (b_bin (mkb (mk []) []) key) as [b| |]; cbn [bind]; try reflexivity. destruct (b_erase b rdim) as [b'| |]; cbn [bind]; try reflexivity. apply (concat_dims_ok P (fun e He => He)).
  - destruct (b_group (mkb (mk []) []) key) as [b| |]; cbn [bind]; try reflexivity. destruct (b_erase b rdim) as [b'| |]; cbn [bind]; try reflexivity. apply (concat_dims_ok P (fun e He => He)).
Qed.
Lemma key_arg : arg_ok 0 key /\ ishape key = [(idim key, snd (inner key))].
Proof.
  assert (X : arg_ok 0 key /\ length (ishape key) = 1%nat) by (destruct Hkey as [(A & B & C) L|A L]; (split; [|exact L]); [split; [exact A|split; [exact B|lia]]|exact A]).
  destruct X as [A L]. split; [exact A|]. unfold idim, inner. destruct (ishape key) as [|e [|? ?]]; cbn [length] in L; try lia. cbn [last]. rewrite <- surjective_pairing. reflexivity.
Qed.
Lemma kaxis_dim : dim_of_axis kaxis = idim key /\ extent_of kaxis = (idim key, key_extent key edges).
Proof. unfold kaxis, dim_of_axis, key_extent. destruct edges; cbn [extent_of fst]; split; try reflexivity. unfold idim. apply surjective_pairing. Qed.
Lemma caxis_in a d n : In (d, n) P -> In a (caxis (d, n)) -> dim_of_axis a = d /\ axis_valid a.
Proof.
  intros Hd. assert (Hk : In d (keys P)) by (apply In_keys; eexists; exact Hd). unfold caxis. cbn [fst snd]. destruct (coord_named coords d) as [c|]; [|intros []]. destruct (unalignedb rdim c).
  - intros [<-|[]]. destruct (Hj d Hk) as [K1 K2]. destruct (joined_dim d Hk) as [D1 D2]. split; [exact D1|]. split; [exact K1|]. split; [rewrite K2; discriminate|lia].
  - destruct (d =? rdim); [intros []|]. intros [<-|[]]. split; [reflexivity|]. exact (lwf_entry P d n HP Hd).
Qed.
Lemma caxes_valid : Forall axis_valid caxes.
Proof.
  constructor; [unfold kaxis; destruct Hkey; assumption|]. constructor; [exact Hr|]. apply Forall_forall. intros a Ha. apply in_flat_map in Ha. destruct Ha as ([d n] & Hd & Ha). apply (caxis_in a d n Hd Ha).
Qed.
Lemma caxis_dims d : In d (map dim_of_axis (flat_map caxis P)) <-> In d (keys P) /\ exists c, coord_named coords d = Some c /\ (unalignedb rdim c = true \/ d <> rdim).
Proof.
  rewrite in_map_iff. split.
  - intros (a & <- & Ha). apply in_flat_map in Ha. destruct Ha as ([d n] & Hd & Ha). destruct (caxis_in a d n Hd Ha) as [-> _]. split; [apply In_keys; eexists; exact Hd|].
    unfold caxis in Ha. cbn [fst snd] in Ha. destruct (coord_named coords d) as [c|]; [|destruct Ha]. exists c. split; [reflexivity|]. destruct (unalignedb rdim c); [left; reflexivity|right]. destruct (Z.eqb_spec d rdim) as [|Hne]; [destruct Ha|exact Hne].
  - intros (Hd & c & Ec & Hx). apply In_keys in Hd. destruct Hd as [n Hd].
    assert (Hne : exists a, In a (caxis (d, n))).
    { unfold caxis. cbn [fst snd]. rewrite Ec. destruct (unalignedb rdim c); [eexists; left; reflexivity|]. destruct Hx as [|Hx]; [discriminate|]. destruct (Z.eqb_spec d rdim); [contradiction|]. eexists. left. reflexivity. }
    destruct Hne as [a Ha]. exists a. split; [apply (caxis_in a d n Hd Ha)|]. apply in_flat_map. eexists. split; [exact Hd|exact Ha].
Qed.
Lemma caxis_nodup : NoDup (map dim_of_axis (flat_map caxis P)).
Proof.
  assert (G : forall Q, (forall e, In e Q -> In e P) -> NoDup (keys Q) -> NoDup (map dim_of_axis (flat_map caxis Q))).
  { induction Q as [|[d n] Q IH]; intros Hq Hn; [constructor|]. cbn [flat_map]. rewrite map_app. cbn [keys map fst] in Hn. change (map fst Q) with (keys Q) in Hn. apply NoDup_cons_iff in Hn. destruct Hn as [Hx Hn]. apply NoDup_app_intro.
    - unfold caxis. cbn [fst snd]. destruct (coord_named coords d); [|constructor]. destruct (unalignedb rdim i); [repeat constructor; intros []|]. destruct (d =? rdim); repeat constructor; intros [].
    - apply IH; [|exact Hn]. intros e He. apply Hq. right. exact He.
    - intros x Hi Hi'. apply in_map_iff in Hi. destruct Hi as (a & <- & Ha). destruct (caxis_in a d n (Hq _ (or_introl eq_refl)) Ha) as [Ed _]. rewrite Ed in Hi'.
      apply in_map_iff in Hi'. destruct Hi' as (a' & Ea' & Ha'). apply in_flat_map in Ha'. destruct Ha' as ([d' n'] & Hd' & Ha'). destruct (caxis_in a' d' n' (Hq _ (or_intror Hd')) Ha') as [Ed' _]. apply Hx. apply In_keys. exists n'. rewrite <- Ea', Ed'. exact Hd'. }
  apply G; [intros e He; exact He|apply HP].
Qed.
Lemma distinct_iff : distinct_axes P coords key rdim <-> NoDup (map dim_of_axis caxes).
Proof.
  unfold caxes. cbn [map]. rewrite (proj1 kaxis_dim). change (dim_of_axis (Erased rdim)) with rdim. unfold distinct_axes. rewrite !NoDup_cons_iff. cbn [In]. rewrite !caxis_dims, unaligned_iff. split.
  - intros (N1 & N2 & N3). split; [|split; [|exact caxis_nodup]].
    + intros [E|(Hk & c & Ec & _)]; [congruence|]. apply N2. split; [exact Hk|]. apply coord_at_some in Ec. apply (in_map fst) in Ec. exact Ec.
    + intros (Hk & c & Ec & [Hu|Hx]); [|exact (Hx eq_refl)]. apply N3. split; [exact Hk|]. exists c. split; assumption.
  - intros (N1 & N2 & _). split; [intros E; apply N1; left; congruence|]. split.
    + intros (Hk & Hcc). apply N1. destruct (Z.eq_dec (idim key) rdim) as [E|Hne]; [left; congruence|right]. split; [exact Hk|]. destruct (coord_named coords (idim key)) as [c|] eqn:E; [|exfalso; exact (coord_at_none coords _ E Hcc)]. exists c. split; [reflexivity|right; exact Hne].
    + intros (Hk & c & Ec & Hu). apply N2. split; [exact Hk|]. exists c. split; [exact Ec|left; exact Hu].
Qed.
Theorem concat_actions_ok :
  (distinct_axes P coords key rdim -> concat_actions (mk P) (mkd coords) joined edges groups rdim = Ok (mkb (mk (map extent_of caxes)) (flat_map action_of caxes))) /\
  (~ distinct_axes P coords key rdim -> concat_actions (mk P) (mkd coords) joined edges groups rdim = Throw DimensionError).
Proof.
  rewrite concat_actions_add. pose proof (add_axes_ok caxes [] [] ltac:(constructor) caxes_valid) as E. cbn [keys map app] in E. rewrite E. rewrite distinct_iff. split; intros Hd.
  - apply no_dup_NoDup in Hd. rewrite Hd. reflexivity.
  - destruct (no_dup (map dim_of_axis caxes)) eqn:En; [|reflexivity]. exfalso. apply Hd. apply no_dup_NoDup. exact En.
Qed.

Hypothesis Hdis : distinct_axes P coords key rdim.
Lemma shape_eq : result_shape P caxes [rdim] = concat_shape P coords key edges rdim.
Proof.
  unfold result_shape, concat_shape. f_equal.
  - apply filter_ext_in. intros [d n] Hd. cbn [fst]. assert (Hk : In d (keys P)) by (apply In_keys; eexists; exact Hd).
    change (map (fun a => fst (extent_of a)) caxes) with (map dim_of_axis caxes). unfold caxes. cbn [map]. rewrite (proj1 kaxis_dim). change (dim_of_axis (Erased rdim)) with rdim. cbn [mem existsb].
    destruct (Z.eqb_spec d (idim key)) as [->|N1]; cbn [orb negb andb]; [rewrite ?Bool.andb_false_r; cbn [andb negb]; reflexivity|]. destruct (Z.eqb_spec d rdim) as [->|N2]; cbn [orb negb andb]; [reflexivity|].
    f_equal. apply Bool.eq_true_iff_eq. change (existsb (Z.eqb d)) with (mem d). rewrite !mem_In, caxis_dims. split.
    + intros (_ & c & Ec & _). apply coord_at_some in Ec. apply (in_map fst) in Ec. exact Ec.
    + intros Hi. split; [exact Hk|]. destruct (coord_named coords d) as [c|] eqn:E; [|exfalso; exact (coord_at_none coords _ E Hi)]. exists c. split; [reflexivity|right; exact N2].
  - unfold caxes. cbn [map filter]. rewrite (proj2 kaxis_dim). cbn [extent_of fst mem existsb]. rewrite Z.eqb_refl. cbn [orb negb]. destruct Hdis as (N1 & _). destruct (Z.eqb_spec (idim key) rdim) as [|_]; [contradiction|]. cbn [orb negb]. f_equal.
    assert (G : forall Q, (forall e, In e Q -> In e P) -> filter (fun e => negb ((fst e =? rdim) || false)) (map extent_of (flat_map caxis Q)) = flat_map (after_key coords rdim) Q).
    { induction Q as [|[d n] Q IH]; intros Hq; [reflexivity|]. cbn [flat_map]. rewrite map_app, filter_app, IH by (intros e He; apply Hq; right; exact He). f_equal. unfold caxis, after_key. cbn [fst snd].
      assert (Hk : In d (keys P)) by (apply In_keys; exists n; apply Hq; left; reflexivity). destruct (joined_dim d Hk) as [D1 D2].
      destruct (coord_named coords d) as [c|]; [|reflexivity]. destruct (unalignedb rdim c).
      - cbn [map extent_of filter fst]. rewrite D1, D2. destruct (d =? rdim); reflexivity.
      - destruct (d =? rdim) eqn:E; [reflexivity|]. cbn [map extent_of filter fst]. rewrite E. reflexivity. }
    apply (G P (fun e He => He)).
Qed.
Lemma caxes_lwf : lwf (map extent_of caxes).
Proof.
  pose proof caxes_valid as V. rewrite Forall_forall in V. split; [|split].
  - unfold keys. rewrite map_map. apply distinct_iff. exact Hdis.
  - apply Forall_forall. intros x Hx. unfold extents in Hx. rewrite map_map in Hx. apply in_map_iff in Hx. destruct Hx as (a & <- & Ha). apply axis_valid_extent. apply V. exact Ha.
  - unfold keys. rewrite map_map. intros Hx. apply in_map_iff in Hx. destruct Hx as (a & Ea & Ha). destruct (axis_valid_extent a (V a Ha)) as [N _]. exact (N Ea).
Qed.
Lemma concat_out_ok : out_dims (mk P) (mk (map extent_of caxes)) [rdim] = Ok (mk (concat_shape P coords key edges rdim)) /\ lwf (concat_shape P coords key edges rdim).
Proof.
  rewrite <- shape_eq. assert (E : result_shape P caxes [rdim] = filter (fun e => negb (mem (fst e) (keys (map extent_of caxes)))) P ++ filter (fun e => negb (mem (fst e) [rdim])) (map extent_of caxes)).
  { unfold result_shape. unfold keys. rewrite map_map. reflexivity. }
  split.
  - rewrite E. apply out_dims_ok; [exact HP|apply caxes_lwf|repeat constructor; intros []|]. intros d [<-|[]]. unfold caxes. cbn [map]. right. left. reflexivity.
  - rewrite E. apply lwf_join; [apply lwf_filter; exact HP|apply lwf_filter; apply caxes_lwf|]. rewrite keys_app. apply NoDup_app_intro; [apply lwf_filter; exact HP|apply lwf_filter; apply caxes_lwf|].
    intros d Hd Hd'. apply In_keys in Hd. destruct Hd as [n Hn]. apply filter_In in Hn. destruct Hn as [_ Hn]. cbn [fst] in Hn. apply Bool.negb_true_iff, mem_nIn in Hn. apply Hn.
    apply In_keys in Hd'. destruct Hd' as [m Hm]. apply filter_In in Hm. apply In_keys. eexists. apply Hm.
Qed.
(** Dimensions that do not change *)
Lemma after_key_in d n : In (d, n) (flat_map (after_key coords rdim) P) <->
  exists m c, In (d, m) P /\ coord_named coords d = Some c /\ d <> rdim /\ n = if unalignedb rdim c then 1 else m.
Proof.
  rewrite in_flat_map. split.
  - intros ([d' m] & Hd & Ha). unfold after_key in Ha. cbn [fst snd] in Ha. destruct (coord_named coords d') as [c|] eqn:Ec; [|destruct Ha]. destruct (Z.eqb_spec d' rdim) as [|Hne]; [destruct Ha|]. destruct Ha as [Ea|[]]. injection Ea as <- <-. exists m, c. repeat split; assumption.
  - intros (m & c & Hd & Ec & Hne & ->). exists (d, m). split; [exact Hd|]. unfold after_key. cbn [fst snd]. rewrite Ec. destruct (Z.eqb_spec d rdim); [contradiction|]. left. reflexivity.
Qed.
Lemma concat_unchanged d n : ~ concat_changed P coords key rdim d -> In (d, n) (concat_shape P coords key edges rdim) <-> In (d, n) P.
Proof.
  intros Hu. assert (Hnu : forall c m, In (d, m) P -> coord_named coords d = Some c -> unalignedb rdim c = false).
  { intros c m Hd Ec. destruct (unalignedb rdim c) eqn:E; [|reflexivity]. exfalso. apply Hu. right; right. split; [apply In_keys; eexists; exact Hd|]. apply unaligned_iff. exists c. split; assumption. }
  unfold concat_shape. rewrite in_app_iff, filter_In. cbn [In fst]. rewrite after_key_in. split.
  - intros [[Hi _]|[E|(m & c & Hd & Ec & _ & ->)]]; [exact Hi| |rewrite (Hnu c m Hd Ec); exact Hd]. injection E as E _. exfalso. apply Hu. right; left. congruence.
  - intros Hi. assert (N1 : d <> rdim) by (intros E; apply Hu; left; exact E). assert (N2 : d <> idim key) by (intros E; apply Hu; right; left; exact E).
    destruct (coord_named coords d) as [c|] eqn:Ec.
    + right; right. exists n, c. rewrite (Hnu c n Hi eq_refl). repeat split; assumption.
    + left. split; [exact Hi|]. apply coord_at_none in Ec. apply mem_nIn in Ec. rewrite Ec. destruct (Z.eqb_spec d rdim); [contradiction|]. destruct (Z.eqb_spec d (idim key)); [contradiction|]. reflexivity.
Qed.
Lemma binned_caxis Q : binned_of (flat_map caxis Q) = joined_coords Q coords joined rdim /\ grouped_of (flat_map caxis Q) = [].
Proof.
  unfold binned_of, grouped_of, joined_coords. induction Q as [|[d n] Q [IH1 IH2]]; [split; reflexivity|]. cbn [flat_map]. rewrite !flat_map_app, IH1, IH2. unfold caxis. cbn [fst snd].
  destruct (coord_named coords d) as [c|]; [|split; reflexivity]. destruct (unalignedb rdim c); [split; reflexivity|]. destruct (d =? rdim); split; reflexivity.
Qed.
Lemma parts_caxes : binned_of caxes = opt edges ++ joined_coords P coords joined rdim /\ grouped_of caxes = opt groups.
Proof.
  destruct (binned_caxis P) as [E1 E2]. unfold caxes, kaxis. unfold binned_of, grouped_of in *. cbn [flat_map]. destruct Hkey; cbn [opt app]; rewrite E1, E2; split; reflexivity.
Qed.
Lemma joined_in it : In it (joined_coords P coords joined rdim) <-> exists d, In d (keys P) /\ unaligned coords rdim d /\ it = joined d.
Proof.
  unfold joined_coords. rewrite in_flat_map. split.
  - intros ([d n] & Hd & Hi). cbn [fst] in Hi. exists d. destruct (coord_named coords d) as [c|] eqn:Ec; [|destruct Hi]. destruct (unalignedb rdim c) eqn:Eu; [|destruct Hi]. destruct Hi as [<-|[]]. split; [apply In_keys; eexists; exact Hd|]. split; [|reflexivity]. apply unaligned_iff. exists c. split; assumption.
  - intros (d & Hd & Hu & ->). apply In_keys in Hd. destruct Hd as [n Hd]. exists (d, n). split; [exact Hd|]. cbn [fst]. apply unaligned_iff in Hu. destruct Hu as (c & -> & ->). left. reflexivity.
Qed.
Lemma new_in it : In it (binned_of caxes ++ grouped_of caxes) <-> it = key \/ In it (joined_coords P coords joined rdim).
Proof. destruct parts_caxes as [-> ->]. rewrite !in_app_iff. destruct Hkey; cbn [opt In]; intuition congruence. Qed.
Lemma changed_iff d : In d ([rdim] ++ map idim (binned_of caxes ++ grouped_of caxes)) <-> concat_changed P coords key rdim d.
Proof.
  cbn [app In]. rewrite in_map_iff. unfold concat_changed. split.
  - intros [E|(it & <- & Hi)]; [left; congruence|right]. apply new_in in Hi. destruct Hi as [->|Hi]; [left; reflexivity|right]. apply joined_in in Hi. destruct Hi as (d & Hd & Hu & ->). rewrite (proj1 (joined_dim d Hd)). split; assumption.
  - intros [E|[->|[Hd Hu]]]; [left; congruence|right|right].
    + exists key. split; [reflexivity|]. apply new_in. left. reflexivity.
    + exists (joined d). split; [apply (joined_dim d Hd)|]. apply new_in. right. apply joined_in. exists d. repeat split; assumption.
Qed.
Lemma fits_new it : In it (binned_of caxes ++ grouped_of caxes) -> item_ok it /\ SizedDict_Spec.fits (concat_shape P coords key edges rdim) (ishape it).
Proof.
  intros Hi. apply new_in in Hi. destruct Hi as [->|Hi].
  - destruct key_arg as [(K1 & K2 & K3) Es]. split; [exact K1|]. assert (Ho : In (idim key, key_extent key edges) (concat_shape P coords key edges rdim)) by (unfold concat_shape; apply in_or_app; right; left; reflexivity).
    rewrite Es. unfold key_extent in Ho. destruct Hkey.
    + right. exists (idim key), (snd (inner key)). split; [left; reflexivity|]. split; [intros k m [E|[]] Hne; injection E as <- _; congruence|]. left. exact Ho.
    + left. intros k m [E|[]]. injection E as <- <-. exact Ho.
  - apply joined_in in Hi. destruct Hi as (d & Hd & Hu & ->). destruct (Hj d Hd) as [J1 J2]. split; [exact J1|]. rewrite J2. right. exists d, 2. split; [left; reflexivity|]. split; [intros k m [E|[]] Hne; injection E as <- _; congruence|]. left.
    assert (Hne : d <> rdim) by (intros ->; destruct Hdis as (_ & _ & N); apply N; split; assumption). apply unaligned_iff in Hu. destruct Hu as (c & Ec & Eu). apply In_keys in Hd. destruct Hd as [n Hd].
    unfold concat_shape. apply in_or_app. right. right. apply after_key_in. exists n, c. rewrite Eu. repeat split; assumption.
Qed.
Lemma fits_old it bd : SizedDict_Spec.fits P (ishape it) -> ~ concat_outdated P coords key rdim bd it -> SizedDict_Spec.fits (concat_shape P coords key edges rdim) (ishape it).
Proof.
  intros Hf Ho. assert (Hu : forall d, In d (keys (ishape it)) -> ~ concat_changed P coords key rdim d) by (intros d Hd Hx; apply Ho; exists d; split; [exact Hd|left; exact Hx]).
  assert (Hin : forall d n m, In (d, n) (ishape it) -> In (d, m) (concat_shape P coords key edges rdim) <-> In (d, m) P).
  { intros d n m Hd. apply concat_unchanged. apply Hu. apply In_keys. eexists. exact Hd. }
  destruct Hf as [Hf|(e & n & Hn & Hf & Hx)].
  - left. intros k n Hk. apply (Hin k n n Hk). apply Hf. exact Hk.
  - right. exists e, n. split; [exact Hn|]. split.
    + intros k m Hk Hne. apply (Hin k m m Hk). apply Hf; assumption.
    + destruct Hx as [Hx|[Hx E]]; [left; apply (Hin e n _ Hn); exact Hx|right]. split; [|exact E]. intros Hi. apply Hx. apply In_keys in Hi. destruct Hi as [m Hm]. apply In_keys. exists m. apply (Hin e n m Hn). exact Hm.
Qed.
End Axes.

(** ** The data array *)
Section Array.
Variables (fresh : Z) (joined : Dim -> item) (array : darray) (u : buffer) (key : item) (edges groups : option item) (rdim : Dim).
Let P := da_shape array.
Let cl := sd_list (da_coords array).
Let ml := sd_list (da_masks array).
Let al := sd_list (da_attrs array).
Let bd := u_dim u.
Let evc := ditems (u_coords u).
Let evm := ditems (u_masks u).
Let eva := ditems (u_attrs u).
Hypothesis Hda : da_ok array.
Hypothesis Hr : rdim <> InvalidDim.
Hypothesis Hj : forall d, In d (keys P) -> item_ok (joined d) /\ ishape (joined d) = [(d, 2)].
Hypothesis Hkey : key_item key edges groups.
Hypothesis Hmeta : NoDup (map fst (al ++ cl)).

Lemma groupby_concat_bins_conflict : ~ distinct_axes P (al ++ cl) key rdim -> groupby_concat_bins fresh joined array u edges groups rdim = Throw DimensionError.
Proof.
  intros Hdis. destruct Hda as (Hv & Ec & Em & Ea & Oc & Om & Oa).
  pose proof (sd_eta _ Oc) as Xc. pose proof (sd_eta _ Oa) as Xa. fold cl in Xc. fold al in Xa.
  apply sd_ok_alt in Oc. destruct Oc as (Wc & _ & Nc & Fc). apply sd_ok_alt in Oa. destruct Oa as (_ & _ & Na & Fa).
  fold cl in Nc, Fc. fold al in Na, Fa. unfold sd_shape in Fc, Fa. rewrite Ec in Fc, Wc, Xc. rewrite Ea in Fa, Xa.
  change (pairs (i_dims (da_data array))) with P in Fc, Fa. destruct (wf_mk_pairs _ Wc) as [EP HP]. change (pairs (i_dims (da_data array))) with P in EP, HP.
  assert (Hci : forall d it, In (d, it) (al ++ cl) -> item_ok it /\ SizedDict_Spec.fits P (ishape it)) by (intros d it Hi; apply in_app_iff in Hi; destruct Hi as [Hi|Hi]; [apply (Fa d)|apply (Fc d)]; exact Hi).
  assert (EM : sd_merge_from (da_attrs array) (da_coords array) = Ok (mksd (i_dims (da_data array)) (mkd (al ++ cl)) (sd_readonly (da_attrs array)))).
  { rewrite Xa at 1. rewrite Xc at 1. apply merge_from_ok; assumption. }
  unfold groupby_concat_bins. rewrite EM. cbn [bind sd_items]. rewrite EP.
  rewrite (proj2 (concat_actions_ok P (al ++ cl) joined rdim HP Hmeta (fun d it Hi => proj1 (Hci d it Hi)) Hj key edges groups Hkey Hr) Hdis). reflexivity.
Qed.

Theorem groupby_concat_bins_ok :
  dict_ok (u_coords u) -> dict_ok (u_masks u) -> dict_ok (u_attrs u) -> distinct_axes P (al ++ cl) key rdim ->
  (forall k it, In (k, it) (evc ++ evm ++ eva) -> ~ of_events bd it -> SizedDict_Spec.fits (concat_shape P (al ++ cl) key edges rdim) (ishape it)) ->
  exists r, groupby_concat_bins fresh joined array u edges groups rdim = Ok r /\ da_ok r /\ da_shape r = concat_shape P (al ++ cl) key edges rdim /\
    (forall k it, In (k, it) (sd_list (da_coords r)) <-> coord_entry (opt edges ++ joined_coords P (al ++ cl) joined rdim ++ opt groups) evc cl bd (concat_outdated P (al ++ cl) key rdim bd) k it) /\
    (forall k it, In (k, it) (sd_list (da_masks r)) <-> meta_entry (fun _ => False) evm ml bd (concat_outdated P (al ++ cl) key rdim bd) k it) /\
    (forall k it, In (k, it) (sd_list (da_attrs r)) <-> meta_entry (fun k => In k (map fst (sd_list (da_coords r)))) eva al bd (concat_outdated P (al ++ cl) key rdim bd) k it).
Proof.
  intros Uc Um Ua Hdis Hev. destruct Hda as (Hv & Ec & Em & Ea & Oc & Om & Oa).
  destruct (dict_parts _ Uc) as [Euc Nuc]. destruct (dict_parts _ Um) as [Eum Num]. destruct (dict_parts _ Ua) as [Eua Nua]. fold evc in Euc, Nuc. fold evm in Eum, Num. fold eva in Eua, Nua.
  pose proof (sd_eta _ Oc) as Xc. pose proof (sd_eta _ Om) as Xm. pose proof (sd_eta _ Oa) as Xa. fold cl in Xc. fold ml in Xm. fold al in Xa.
  apply sd_ok_alt in Oc. destruct Oc as (Wc & _ & Nc & Fc). apply sd_ok_alt in Om. destruct Om as (_ & _ & Nm & Fm). apply sd_ok_alt in Oa. destruct Oa as (_ & _ & Na & Fa).
  fold cl in Nc, Fc. fold ml in Nm, Fm. fold al in Na, Fa. unfold sd_shape in Fc, Fm, Fa. rewrite Ec in Fc, Wc, Xc. rewrite Em in Fm, Xm. rewrite Ea in Fa, Xa.
  change (pairs (i_dims (da_data array))) with P in Fc, Fm, Fa. destruct (wf_mk_pairs _ Wc) as [EP HP]. change (pairs (i_dims (da_data array))) with P in EP, HP.
  assert (Hci : forall d it, In (d, it) (al ++ cl) -> item_ok it /\ SizedDict_Spec.fits P (ishape it)) by (intros d it Hi; apply in_app_iff in Hi; destruct Hi as [Hi|Hi]; [apply (Fa d)|apply (Fc d)]; exact Hi).
  assert (EM : sd_merge_from (da_attrs array) (da_coords array) = Ok (mksd (i_dims (da_data array)) (mkd (al ++ cl)) (sd_readonly (da_attrs array)))).
  { rewrite Xa at 1. rewrite Xc at 1. apply merge_from_ok; assumption. }
  unfold groupby_concat_bins. rewrite EM. cbn [bind sd_items]. rewrite EP. set (coords := al ++ cl) in *.
  pose proof (concat_actions_ok P coords joined rdim HP Hmeta (fun d it Hi => proj1 (Hci d it Hi)) Hj key edges groups Hkey Hr) as [Eax _]. rewrite (Eax Hdis). cbn [bind].
  set (A := caxes P coords joined rdim key edges) in *. rewrite b_edges_axes, b_groups_axes. cbn [b_dims].
  destruct (concat_out_ok P coords joined rdim HP Hmeta (fun d it Hi => proj1 (Hci d it Hi)) Hj key edges groups Hkey Hr Hdis) as [Eout HO]. fold A in Eout. rewrite Eout. cbn [bind]. set (O := concat_shape P coords key edges rdim) in *.
  set (data := mkitem fresh (var_fresh (mk O)) true true).
  assert (Eu : u = mkbuf bd (mkd evc) (mkd evm) (mkd eva)) by (rewrite <- Euc, <- Eum, <- Eua; unfold bd; destruct u; reflexivity). rewrite Eu. rewrite Xc, Xm, Xa. cbn [sd_items].
  destruct (parts_caxes P coords joined rdim key edges groups Hkey) as [EB EG]. fold A in EB, EG.
  assert (Hnew : forall it, In it (binned_of A ++ grouped_of A) <-> In it (opt edges ++ joined_coords P coords joined rdim ++ opt groups)) by (intros it; rewrite EB, EG, <- app_assoc; reflexivity).
  assert (Hold : forall it, (exists d, In d (keys (ishape it)) /\ (In d ([rdim] ++ map idim (binned_of A ++ grouped_of A)) \/ d = bd)) <-> concat_outdated P coords key rdim bd it).
  { intros it. unfold concat_outdated. split; intros (d & Hd & Hx); exists d; (split; [exact Hd|]); destruct Hx as [Hx|Hx]; auto; left; apply (changed_iff P coords joined rdim Hmeta Hj key edges groups Hkey); exact Hx. }
  destruct (add_metadata_ok O data bd evc evm eva cl ml al (binned_of A) (grouped_of A) [rdim] HO eq_refl Nuc Num Nua Nc Nm Na) as (c & m & a & Er & S1 & S2 & S3 & Hcc & Hm & Ha).
  - intros k it. rewrite !in_app_iff. intros [Hi|[Hi|[Hi|[Hi|[Hi|Hi]]]]].
    + destruct Uc as (_ & _ & U). apply (U k it Hi).
    + destruct Um as (_ & _ & U). apply (U k it Hi).
    + destruct Ua as (_ & _ & U). apply (U k it Hi).
    + apply (Fc k it Hi).
    + apply (Fm k it Hi).
    + apply (Fa k it Hi).
  - apply (used_nodup A). apply (distinct_iff P coords joined rdim HP Hmeta (fun d it Hi => proj1 (Hci d it Hi)) Hj key edges groups Hkey). exact Hdis.
  - intros it Hi. exact (fits_new P coords joined rdim Hmeta (fun d it Hi => proj1 (Hci d it Hi)) Hj key edges groups Hkey Hdis it Hi).
  - exact Hev.
  - intros k it Hi Hn. apply (fits_old P coords rdim Hmeta key edges it bd).
    + rewrite !in_app_iff in Hi. destruct Hi as [Hi|[Hi|Hi]]; [apply (Fc k it Hi)|apply (Fm k it Hi)|apply (Fa k it Hi)].
    + intros Ho. apply Hn. apply Hold. exact Ho.
  - rewrite Er. eexists. split; [reflexivity|]. split.
    { unfold da_ok. cbn [da_data da_coords da_masks da_attrs sd_sizes]. split; [apply fresh_wfv; apply mk_wf; exact HO|]. repeat (split; [reflexivity|]). exact (conj S1 (conj S2 S3)). }
    split; [unfold da_shape, ishape, i_dims, data; cbn [da_data i_var]; change (v_dims (var_fresh (mk O))) with (mk O); apply pairs_mk|].
    cbn [da_coords da_masks da_attrs]. rewrite !sd_list_mk. split; [|split].
    + intros k it. rewrite Hcc. unfold coord_entry. rewrite EB, EG, <- app_assoc in *. setoid_rewrite Hold. reflexivity.
    + intros k it. rewrite Hm. unfold meta_entry. setoid_rewrite Hold. reflexivity.
    + intros k it. rewrite Ha. unfold meta_entry. setoid_rewrite Hold. reflexivity.
Qed.
End Array.
