(** Proofs about comparisons. *)
From Coq Require Import Reals.
From Flocq Require Import Core BinarySingleNaN.
From Verif Require Import Base Map_Model Dims_Model Dims_Spec Dims_Proofs Index_Model Index_Spec Index_Proofs View_Model View_Spec View_Proofs
  Transform_Model Transform_Spec Transform_Proofs Float SizedDict_Model SizedDict_Spec SizedDict_Proofs Equality_Model Equality_Spec.
Local Open Scope Z_scope.

(** ** Elements *)
Lemma Beqb_same (x y : f64) : Beqb x y = true <-> num_same x y.
Proof.
  assert (Hz : forall s t, num_same (B754_zero s) (B754_zero t)) by (intros s t; right; split; eexists; reflexivity).
  destruct (is_finite x) eqn:Fx, (is_finite y) eqn:Fy.
  - rewrite (Beqb_correct _ _ x y Fx Fy). split.
    + intros Hr. destruct (Req_bool_spec (B2R x) (B2R y)) as [E|]; [|discriminate].
      destruct x as [s| |  |s m e Hb]; try discriminate; destruct y as [t| | |t m' e' Hb']; try discriminate.
      * apply Hz.
      * exfalso. symmetry in E. apply Float_prop.eq_0_F2R in E. cbn in E. destruct t; discriminate.
      * exfalso. apply Float_prop.eq_0_F2R in E. cbn in E. destruct s; discriminate.
      * left. split; [|discriminate]. apply B2R_inj; try reflexivity. assumption.
    + intros [[-> _]|[[s ->] [t ->]]]; [now rewrite Req_bool_true|]. now rewrite Req_bool_true.
  - split.
    + destruct x as [s|s| |s m e Hb]; try discriminate; destruct y as [t|t| |t m' e' Hb']; try discriminate;
        destruct t; discriminate.
    + intros [[-> _]|[_ [t ->]]]; [congruence|discriminate].
  - split.
    + destruct x as [s|s| |s m e Hb]; try discriminate; destruct y as [t|t| |t m' e' Hb']; try discriminate;
        destruct s; discriminate.
    + intros [[-> _]|[[t ->] _]]; [congruence|discriminate].
  - split.
    + destruct x as [s|s| |s m e Hb]; try discriminate; destruct y as [t|t| |t m' e' Hb']; try discriminate;
        destruct s; try destruct t; try discriminate; intros _; left; (split; [reflexivity|discriminate]).
    + intros [[-> Hn]|[[t ->] _]]; [|discriminate].
      destruct y as [t|t| |t m' e' Hb']; try discriminate; [destruct t; reflexivity|congruence].
Qed.

Lemma list_by_Forall2 {A} (eqb : A -> A -> bool) (R : A -> A -> Prop) : (forall x y, eqb x y = true <-> R x y) ->
  forall a b, list_by eqb a b = true <-> Forall2 R a b.
Proof.
  intros He. induction a as [|x a IH]; intros [|y b]; cbn [list_by].
  - split; constructor.
  - split; [discriminate|intros Hf; inversion Hf].
  - split; [discriminate|intros Hf; inversion Hf].
  - rewrite andb_true_iff, He, IH. split; [intros [? ?]; constructor; assumption|intros Hf; inversion Hf; auto].
Qed.

Lemma elem_cmp_same nan a b : elem_cmp nan a b = true <-> elem_same nan a b.
Proof.
  assert (Hn : forall x : f64, is_nan x = true <-> x = B754_nan) by (intros [| | |]; split; (reflexivity || discriminate)).
  destruct nan; destruct a as [x|m|l], b as [y|n|k]; cbn [elem_cmp elem_eqb_nan elem_eqb elem_same];
    try (split; (discriminate || contradiction));
    try (rewrite Z.eqb_eq; reflexivity); try (apply list_by_Forall2, Beqb_same).
  - rewrite orb_true_iff, andb_true_iff, !Hn, Beqb_same. intuition.
  - rewrite Beqb_same. intuition discriminate.
Qed.

Lemma num_same_sym x y : num_same x y -> num_same y x.
Proof. intros [[-> Hn]|[Hx Hy]]; [left|right]; auto. Qed.
Lemma num_same_trans x y z : num_same x y -> num_same y z -> num_same x z.
Proof.
  intros [[-> Hn]|[Hx Hy]] [[-> Hm]|[Hy' Hz]].
  - left; auto.
  - right; auto.
  - right; auto.
  - right; auto.
Qed.
Lemma num_same_refl x : num_same x x <-> x <> B754_nan.
Proof. split; [|left; auto]. intros [[_ Hn]|[[s ->] _]]; [assumption|discriminate]. Qed.

Lemma Forall2_sym' {A} (R : A -> A -> Prop) : (forall x y, R x y -> R y x) -> forall a b, Forall2 R a b -> Forall2 R b a.
Proof. intros Hs. induction 1; constructor; auto. Qed.
Lemma Forall2_trans' {A} (R : A -> A -> Prop) : (forall x y z, R x y -> R y z -> R x z) ->
  forall a b c, Forall2 R a b -> Forall2 R b c -> Forall2 R a c.
Proof.
  intros Ht a b c Hab. revert c. induction Hab as [|x y a b Hxy _ IH]; intros c Hbc; inversion Hbc; subst; constructor; eauto.
Qed.
Lemma Forall2_refl_iff {A} (R : A -> A -> Prop) l : Forall2 R l l <-> forall x, In x l -> R x x.
Proof.
  induction l as [|x l IH]; [split; [intros _ x []|constructor]|]. split.
  - intros Hf. inversion Hf; subst. intros z [<-|Hz]; [assumption|]. apply IH; assumption.
  - intros Hf. constructor; [apply Hf; left; reflexivity|]. apply IH. intros z Hz. apply Hf. right. assumption.
Qed.

Lemma elem_same_sym nan a b : elem_same nan a b -> elem_same nan b a.
Proof.
  destruct a as [x|m|l], b as [y|n|k]; cbn [elem_same]; try contradiction; try congruence.
  - intros [Hs|(? & ? & ?)]; [left; apply num_same_sym; assumption|right; auto].
  - apply Forall2_sym', num_same_sym.
Qed.
Lemma elem_same_trans nan a b c : elem_same nan a b -> elem_same nan b c -> elem_same nan a c.
Proof.
  destruct a as [x|m|l], b as [y|n|k], c as [z|o|j]; cbn [elem_same]; try contradiction; try congruence.
  - intros [Hs|(En & Ex & Ey)] [Ht|(Em & Ey' & Ez)]; subst.
    + left. exact (num_same_trans _ _ _ Hs Ht).
    + exfalso. destruct (num_same_sym _ _ Hs) as [[_ Hn]|[[s Hz] _]]; [congruence|discriminate].
    + exfalso. destruct Ht as [[_ Hn]|[[s Hz] _]]; [congruence|discriminate].
    + right; auto.
  - apply Forall2_trans', num_same_trans.
Qed.
Lemma elem_same_refl a : elem_same false a a <-> ~ elem_has_nan a.
Proof.
  destruct a as [x|m|l]; cbn [elem_same elem_has_nan].
  - pose proof (num_same_refl x). intuition discriminate.
  - intuition.
  - rewrite Forall2_refl_iff. split.
    + intros Hf Hin. apply Hf in Hin. apply num_same_refl in Hin. congruence.
    + intros Hn x Hx. apply num_same_refl. intros ->. auto.
Qed.

(** ** Iteration *)
Lemma labels_length d : wf d -> length (labels d) = length (pairs d).
Proof. intros Hw. rewrite labels_keys by assumption. unfold keys. apply map_length. Qed.

Lemma elements_ok f v : wfv v -> (length (pairs (v_dims v)) <= NDIM_OP_MAX)%nat ->
  elements f v = Ok (map (fun k => f (vaddr v (index_of (v_dims v) k))) (zseq 0 (Z.to_nat (volume (v_dims v))))).
Proof.
  intros Hv Hr. pose proof Hv as (Hw & Hl & _). unfold elements.
  assert (Hlen : length (v_strides v) = length (shape (v_dims v))) by (rewrite Hl; destruct Hw as (_ & E & _); symmetry; exact E).
  destruct (vi_make_ok (shape (v_dims v)) (v_strides v)) as [ix Hix].
  { rewrite <- Hlen, Hl, labels_length by assumption. exact Hr. }
  { exact Hlen. }
  rewrite Hix. cbn [bind]. rewrite volume_vol.
  rewrite (vi_walk_ok (shape (v_dims v)) (v_strides v)) by (try assumption; apply Hw). cbn [bind].
  rewrite map_map. f_equal. apply map_ext. intros k. f_equal.
  pose (a := mkarr 0 v).
  assert (Hf : Transform_Proofs.fits (v_dims v) a) by (split; [exact Hv|intros; assumption]).
  pose proof (address_fits (v_dims v) a k Hw Hf) as Ha. pose proof (wfv_strides a Hv) as Es.
  change (a_dims a) with (v_dims v) in Es. rewrite <- Es in Ha. exact Ha.
Qed.

Lemma Forall2_map {A B} (R : B -> B -> Prop) (f g : A -> B) l : Forall2 R (map f l) (map g l) <-> forall x, In x l -> R (f x) (g x).
Proof.
  induction l as [|x l IH]; cbn [map]; [split; [intros _ x []|constructor]|]. split.
  - intros Hf. inversion Hf; subst. intros z [<-|Hz]; [assumption|apply IH; assumption].
  - intros Hf. constructor; [apply Hf; left; reflexivity|apply IH; intros z Hz; apply Hf; right; assumption].
Qed.

Lemma addr_same (d : sizes) v ix ix' : wfv v -> v_dims v = d -> same_at (pairs d) ix ix' -> vaddr v ix = vaddr v ix'.
Proof.
  intros Hv <- Hs. pose proof Hv as (Hw & _). apply (vaddr_same (v_dims v) (mkarr 0 v)); [assumption| |assumption].
  split; [exact Hv|intros; assumption].
Qed.

Lemma equals_impl_ok nan f g v w : wfv v -> wfv w -> (length (pairs (v_dims v)) <= NDIM_OP_MAX)%nat -> v_dims v = v_dims w ->
  exists r, equals_impl nan f g v w = Ok r /\
    (r = true <-> forall ix, valid_at (pairs (v_dims v)) ix -> elem_same nan (f (vaddr v ix)) (g (vaddr w ix))).
Proof.
  intros Hv Hw' Hr E. pose proof Hv as (Hw & _). unfold equals_impl. rewrite elements_ok by assumption. cbn [bind].
  rewrite elements_ok by (try assumption; rewrite <- E; assumption). cbn [bind]. eexists. split; [reflexivity|].
  rewrite (list_by_Forall2 _ _ (elem_cmp_same nan)), <- E, Forall2_map. split.
  - intros Hall ix Hix. destruct (index_of_inside (v_dims v) ix Hw Hix) as (k & Hk & Hs).
    rewrite <- (addr_same (v_dims v) v _ _ Hv eq_refl Hs), <- (addr_same (v_dims v) w _ _ Hw' (eq_sym E) Hs).
    apply Hall. apply zseq_In. lia.
  - intros Hall k Hk. apply zseq_In in Hk. apply Hall. apply inside_index_of; [assumption|lia].
Qed.

(** ** Variables *)
Lemma dims_eqb_pairs a b : wf a -> wf b -> dims_eqb a b = true <-> pairs a = pairs b.
Proof.
  intros Ha Hb. unfold dims_eqb. rewrite andb_true_iff, !list_eqb_spec.
  apply wf_lwf in Ha as [_ La]. apply wf_lwf in Hb as [_ Lb]. split.
  - intros [Es El]. unfold pairs. unfold shape, labels in Es, El. rewrite Es, El. reflexivity.
  - intros E. rewrite <- (mk_pairs a La), <- (mk_pairs b Lb), E. auto.
Qed.
Lemma pairs_inj a b : wf a -> wf b -> pairs a = pairs b -> a = b.
Proof.
  intros Ha Hb E. apply wf_lwf in Ha as [_ La]. apply wf_lwf in Hb as [_ Lb].
  rewrite <- (mk_pairs a La), <- (mk_pairs b Lb), E. reflexivity.
Qed.

Lemma is_same_view a b : wfv (i_var a) -> wfv (i_var b) -> is_same a b = true <-> same_view a b.
Proof.
  intros Ha Hb. unfold is_same, same_view, ishape. rewrite !andb_true_iff, dims_eqb_pairs, list_eqb_spec, !Z.eqb_eq.
  - tauto.
  - apply Ha.
  - apply Hb.
Qed.

Lemma volume_nowhere d ix : wf d -> volume d = 0 -> ~ valid_at (pairs d) ix.
Proof.
  intros Hw Hv Hix. destruct (index_of_inside d ix Hw Hix) as (k & Hk & _). lia.
Qed.

Lemma compare_ok st nan a b : comparable a -> comparable b ->
  exists r, compare st nan a b = Ok r /\ (r = true <-> var_same nan st a b).
Proof.
  intros [Ha Ra] [Hb Rb]. pose proof Ha as (Wa & _). pose proof Hb as (Wb & _). unfold compare.
  destruct (nan && is_same a b) eqn:E0.
  { apply andb_true_iff in E0 as [-> Es]. apply is_same_view in Es; [|assumption..].
    exists true. split; [reflexivity|]. split; [|reflexivity]. intros _. left. auto. }
  assert (Hnv : var_same nan st a b <-> same_content nan st a b).
  { unfold var_same. split; [|auto]. intros [[-> Hs]|Hs]; [|assumption]. apply is_same_view in Hs; [|assumption..].
    rewrite Hs in E0. discriminate. }
  unfold same_content, unit_of, dtype_of in Hnv.
  destruct (Z.eqb_spec (b_unit (st (i_obj a))) (b_unit (st (i_obj b)))) as [Eu|Nu]; cbn [negb].
  2:{ exists false. split; [reflexivity|]. rewrite Hnv. split; [discriminate|tauto]. }
  destruct (dims_eqb (i_dims a) (i_dims b)) eqn:Ed; cbn [negb].
  2:{ exists false. split; [reflexivity|]. rewrite Hnv. split; [discriminate|]. intros (_ & _ & E & _).
      apply dims_eqb_pairs in E; [|assumption..]. congruence. }
  destruct (Z.eqb_spec (b_dtype (st (i_obj a))) (b_dtype (st (i_obj b)))) as [Et|Nt]; cbn [negb].
  2:{ exists false. split; [reflexivity|]. rewrite Hnv. split; [discriminate|tauto]. }
  apply dims_eqb_pairs in Ed; [|assumption..]. pose proof (pairs_inj _ _ Wa Wb Ed) as Edd.
  destruct (Bool.eqb (has_var (st (i_obj a))) (has_var (st (i_obj b)))) eqn:Ev; cbn [negb].
  2:{ exists false. split; [reflexivity|]. rewrite Hnv. split; [discriminate|]. intros (_ & _ & _ & E & _).
      unfold has_variances in E. unfold has_var in Ev.
      destruct (b_var (st (i_obj a))), (b_var (st (i_obj b))); try discriminate; exfalso; intuition congruence. }
  apply Bool.eqb_prop in Ev.
  assert (Evs : has_variances st a <-> has_variances st b).
  { unfold has_variances. unfold has_var in Ev.
    destruct (b_var (st (i_obj a))), (b_var (st (i_obj b))); try discriminate; split; congruence. }
  destruct (Z.eqb_spec (volume (i_dims a)) 0) as [E00|N0]; cbn [andb].
  { exists true. split; [reflexivity|]. rewrite Hnv. split; [|reflexivity]. intros _. repeat (split; [assumption|]).
    split; intros; exfalso; eapply (volume_nowhere (i_dims a)); eassumption. }
  unfold equals_data.
  destruct (equals_impl_ok nan (b_val (st (i_obj a))) (b_val (st (i_obj b))) (i_var a) (i_var b) Ha Hb Ra Edd) as (r & -> & Hr).
  cbn [bind]. destruct r.
  2:{ exists false. split; [reflexivity|]. rewrite Hnv. split; [discriminate|]. intros (_ & _ & _ & _ & Hx & _). apply Hr. exact Hx. }
  pose proof (proj1 Hr eq_refl) as Hx. unfold has_var in Ev. unfold variance in Hnv.
  destruct (b_var (st (i_obj a))) as [f|] eqn:Ea, (b_var (st (i_obj b))) as [g|] eqn:Eb; try discriminate.
  - destruct (equals_impl_ok nan f g (i_var a) (i_var b) Ha Hb Ra Edd) as (r & -> & Hr').
    exists r. split; [reflexivity|]. rewrite Hnv, Hr'. split.
    + intros Hy. repeat (split; [assumption|]). intros ix x y Hix Ex Ey. injection Ex as <-. injection Ey as <-. apply Hy. exact Hix.
    + intros (_ & _ & _ & _ & _ & Hy) ix Hix. exact (Hy ix _ _ Hix eq_refl eq_refl).
  - exists true. split; [reflexivity|]. rewrite Hnv. split; [|reflexivity]. intros _. repeat (split; [assumption|]). discriminate.
Qed.

Lemma same_view_sym a b : same_view a b -> same_view b a.
Proof. unfold same_view. intuition congruence. Qed.
Lemma same_view_trans a b c : same_view a b -> same_view b c -> same_view a c.
Proof. unfold same_view. intuition congruence. Qed.
Lemma same_view_addr a b ix : wfv (i_var a) -> wfv (i_var b) -> same_view a b -> vaddr (i_var a) ix = vaddr (i_var b) ix.
Proof.
  intros Ha Hb (_ & Es & Et & Eo). unfold vaddr. rewrite Et, Eo.
  rewrite (pairs_inj (v_dims (i_var a)) (v_dims (i_var b))); [reflexivity|apply Ha|apply Hb|exact Es].
Qed.

Lemma content_sym nan st a b : same_content nan st a b -> same_content nan st b a.
Proof.
  intros (Eu & Et & Es & Ev & Hx & Hy). unfold same_content. rewrite <- Es.
  repeat (split; [congruence || tauto|]). split; intros.
  - apply elem_same_sym. auto.
  - apply elem_same_sym. eapply Hy; eassumption.
Qed.
Lemma content_trans nan st a b c : same_content nan st a b -> same_content nan st b c -> same_content nan st a c.
Proof.
  intros (Eu & Et & Es & Ev & Hx & Hy) (Eu' & Et' & Es' & Ev' & Hx' & Hy'). unfold same_content. rewrite <- Es in *.
  split; [congruence|]. split; [congruence|]. split; [congruence|]. split; [tauto|]. split; intros.
  - eapply elem_same_trans; [apply Hx|apply Hx']; assumption.
  - destruct (variance st b ix) as [z|] eqn:Eb.
    + eapply elem_same_trans; [eapply Hy|eapply Hy']; eassumption.
    + exfalso. unfold variance in *. unfold has_variances in Ev.
      destruct (b_var (st (i_obj b))); [discriminate|]. destruct (b_var (st (i_obj a))); [|discriminate].
      refine (proj1 Ev _ eq_refl). discriminate.
Qed.
Lemma view_content nan st a b c : wfv (i_var a) -> wfv (i_var b) -> same_view a b -> same_content nan st b c -> same_content nan st a c.
Proof.
  intros Ha Hb Hv. pose proof (same_view_addr a b) as Hadd. destruct Hv as (Eo & Es & Et & Ef).
  unfold same_content, unit_of, dtype_of, has_variances, value, variance. rewrite Eo, Es.
  intros (? & ? & ? & ? & Hx & Hy). repeat (split; [assumption|]).
  split; intros ix; rewrite (Hadd ix Ha Hb (conj Eo (conj Es (conj Et Ef)))); [apply Hx|apply Hy].
Qed.
Lemma var_same_sym nan st a b : var_same nan st a b -> var_same nan st b a.
Proof. intros [[-> Hs]|Hs]; [left|right]; auto using same_view_sym, content_sym. Qed.
Lemma var_same_trans nan st a b c : wfv (i_var a) -> wfv (i_var b) -> wfv (i_var c) ->
  var_same nan st a b -> var_same nan st b c -> var_same nan st a c.
Proof.
  intros Ha Hb Hc [[-> Hs]|Hs] [[En Ht]|Ht].
  - left. split; [reflexivity|]. eapply same_view_trans; eassumption.
  - right. exact (view_content _ _ _ _ _ Ha Hb Hs Ht).
  - right. apply content_sym. eapply view_content; [exact Hc|exact Hb|apply same_view_sym; exact Ht|apply content_sym; exact Hs].
  - right. eapply content_trans; eassumption.
Qed.
Lemma var_same_refl_nan st a : var_same true st a a.
Proof. left. unfold same_view. auto. Qed.
Lemma var_same_refl st a : var_same false st a a <-> ~ has_nan st a.
Proof.
  unfold var_same, same_content, has_nan. split.
  - intros [[? _]|(_ & _ & _ & _ & Hx & Hy)]; [discriminate|]. intros (ix & Hix & [Hn|(x & Ex & Hn)]).
    + apply (proj1 (elem_same_refl _) (Hx ix Hix) Hn).
    + apply (proj1 (elem_same_refl _) (Hy ix x x Hix Ex Ex) Hn).
  - intros Hn. right. repeat (split; [reflexivity|]). split; intros.
    + apply elem_same_refl. intros Hc. apply Hn. eauto.
    + replace y with x by congruence. apply elem_same_refl. intros Hc. apply Hn. eauto 6.
Qed.

(** ** Dictionaries *)
Lemma dict_mkd (d : sdict) : length (m_values (sd_items d)) = length (m_keys (sd_items d)) ->
  sd_items d = mkd (sd_list d) /\ m_keys (sd_items d) = map fst (sd_list d).
Proof.
  intros Hl. assert (E : sd_items d = mkd (sd_list d)) by (symmetry; apply mkd_ditems; exact Hl).
  split; [exact E|]. rewrite E at 1. reflexivity.
Qed.
Lemma list_unique {A} (l : list (Z * A)) k i j : NoDup (map fst l) -> In (k, i) l -> In (k, j) l -> i = j.
Proof.
  induction l as [|[k' x] l IH]; cbn [map fst]; intros Hn Hi Hj; [destruct Hi|]. apply NoDup_cons_iff in Hn as [Hk Hn].
  destruct Hi as [Ei|Hi], Hj as [Ej|Hj].
  - congruence.
  - exfalso. injection Ei as -> ->. apply Hk. apply (in_map fst) in Hj. exact Hj.
  - exfalso. injection Ej as -> ->. apply Hk. apply (in_map fst) in Hi. exact Hi.
  - exact (IH Hn Hi Hj).
Qed.
Lemma in_keys_ex {A} (l : list (Z * A)) k : In k (map fst l) <-> exists i, In (k, i) l.
Proof.
  rewrite in_map_iff. split.
  - intros ([k' i] & <- & Hi). exists i. exact Hi.
  - intros (i & Hi). exists (k, i). auto.
Qed.

Lemma items_in_ok st nan b l : dict_comparable b -> (forall k i, In (k, i) l -> comparable i) ->
  exists r, items_in st nan l b = Ok r /\
    (r = true <-> forall k i, In (k, i) l -> exists j, In (k, j) (sd_list b) /\ var_same nan st i j /\ i_aligned i = i_aligned j).
Proof.
  intros (Hnb & Hlb & Hcb). destruct (dict_mkd b Hlb) as [Eb Ek]. rewrite Ek in Hnb.
  induction l as [|[k i] l IH]; intros Hc; cbn [items_in].
  { exists true. split; [reflexivity|]. split; [intros _ k i []|reflexivity]. }
  destruct (sd_contains b k) eqn:Ec; cbn [negb].
  2:{ exists false. split; [reflexivity|]. split; [discriminate|]. intros Hf.
      destruct (Hf k i (or_introl eq_refl)) as (j & Hj & _). exfalso.
      unfold sd_contains in Ec. rewrite Eb in Ec. assert (Ht : mcontains Z.eqb (mkd (sd_list b)) k = true); [|congruence].
      apply contains_In, in_keys_ex. eauto. }
  unfold sd_contains in Ec. rewrite Eb in Ec. apply contains_In, in_keys_ex in Ec as [j Hj].
  unfold sd_at. rewrite Eb, (at_In _ _ j) by assumption. cbn [bind].
  destruct (compare_ok st nan i j) as (r & -> & Hr); [apply (Hc k i); left; reflexivity|apply (Hcb k j); exact Hj|]. cbn [bind].
  destruct IH as (r' & IH & Hr'); [intros k' i' Hi'; apply (Hc k' i'); right; exact Hi'|].
  destruct (r && Bool.eqb (i_aligned i) (i_aligned j)) eqn:Er.
  - exists r'. split; [exact IH|]. apply andb_true_iff in Er as [-> Ea]. apply Bool.eqb_prop in Ea. rewrite Hr'. split.
    + intros Hf k' i' [E|Hi']; [injection E as <- <-; exists j; intuition|apply Hf; exact Hi'].
    + intros Hf k' i' Hi'. apply Hf. right. exact Hi'.
  - exists false. split; [reflexivity|]. split; [discriminate|]. intros Hf.
    destruct (Hf k i (or_introl eq_refl)) as (j' & Hj' & Hs & Ha). rewrite (list_unique _ _ _ _ Hnb Hj' Hj) in *.
    apply Hr in Hs. rewrite Hs, Ha, Bool.eqb_reflx in Er. discriminate.
Qed.

Lemma sd_compare_ok st nan a b : dict_comparable a -> dict_comparable b ->
  exists r, sd_compare st nan a b = Ok r /\ (r = true <-> dict_same nan st a b).
Proof.
  intros Ca Cb. pose proof Ca as (Hna & Hla & Hca). pose proof Cb as (Hnb & Hlb & Hcb).
  destruct (dict_mkd a Hla) as [Ea Eka]. destruct (dict_mkd b Hlb) as [Eb Ekb].
  unfold sd_compare, msize, zlen.
  destruct (Z.eqb_spec (Z.of_nat (length (m_keys (sd_items a)))) (Z.of_nat (length (m_keys (sd_items b))))) as [El|Nl]; cbn [negb].
  - apply Nat2Z.inj in El. destruct (items_in_ok st nan b (sd_list a) Cb Hca) as (r & E & Hr). exists r. split; [exact E|].
    rewrite Hr. unfold dict_same. split.
    + intros Hf. assert (Hincl : incl (m_keys (sd_items a)) (m_keys (sd_items b))).
      { intros k Hk. rewrite Eka in Hk. apply in_keys_ex in Hk as [i Hi]. destruct (Hf k i Hi) as (j & Hj & _).
        rewrite Ekb. apply in_keys_ex. eauto. }
      assert (Hincl' : incl (m_keys (sd_items b)) (m_keys (sd_items a))) by (apply NoDup_length_incl; [assumption|lia|assumption]).
      split; [intros k; split; [apply Hincl|apply Hincl']|].
      intros k i j Hi Hj. destruct (Hf k i Hi) as (j' & Hj' & Hs). rewrite Ekb in Hnb.
      rewrite (list_unique _ _ _ _ Hnb Hj Hj'). exact Hs.
    + intros [Hk Hf] k i Hi. assert (Hkb : In k (m_keys (sd_items b))).
      { apply Hk. rewrite Eka. apply in_keys_ex. eauto. }
      rewrite Ekb in Hkb. apply in_keys_ex in Hkb as [j Hj]. exists j. split; [exact Hj|]. exact (Hf k i j Hi Hj).
  - exists false. split; [reflexivity|]. split; [discriminate|]. intros [Hk _]. exfalso. apply Nl. f_equal.
    apply Nat.le_antisymm; apply NoDup_incl_length; try assumption; intros k Hin; apply Hk; exact Hin.
Qed.

Lemma dict_same_sym nan st a b : dict_same nan st a b -> dict_same nan st b a.
Proof.
  intros [Hk Hf]. split; [intros k; symmetry; apply Hk|]. intros k i j Hi Hj. destruct (Hf k j i Hj Hi) as [Hs Ha].
  split; [apply var_same_sym; exact Hs|auto].
Qed.
Lemma dict_same_trans nan st a b c : dict_comparable a -> dict_comparable b -> dict_comparable c ->
  dict_same nan st a b -> dict_same nan st b c -> dict_same nan st a c.
Proof.
  intros (_ & Hla & Ha) (_ & Hlb & Hb) (_ & _ & Hc) [Hk Hf] [Hk' Hf']. split.
  { intros k. rewrite Hk. apply Hk'. }
  intros k i j Hi Hj. destruct (dict_mkd a Hla) as [_ Eka]. destruct (dict_mkd b Hlb) as [_ Ekb].
  assert (Hkb : In k (m_keys (sd_items b))) by (apply Hk; rewrite Eka; apply in_keys_ex; eauto).
  rewrite Ekb in Hkb. apply in_keys_ex in Hkb as [x Hx].
  destruct (Hf k i x Hi Hx) as [Hs Es]. destruct (Hf' k x j Hx Hj) as [Ht Et]. split; [|congruence].
  apply (var_same_trans nan st i x j); try assumption; [apply (Ha k i Hi)|apply (Hb k x Hx)|apply (Hc k j Hj)].
Qed.
Lemma dict_same_refl nan st a : dict_comparable a -> (forall k i, In (k, i) (sd_list a) -> var_same nan st i i) -> dict_same nan st a a.
Proof.
  intros (Hn & Hl & _) Hs. split; [reflexivity|]. intros k i j Hi Hj. destruct (dict_mkd a Hl) as [_ Ek]. rewrite Ek in Hn.
  rewrite (list_unique _ _ _ _ Hn Hj Hi). split; [|reflexivity]. exact (Hs k i Hi).
Qed.

Lemma da_compare_ok st nan a b : da_comparable a -> da_comparable b ->
  exists r, da_compare st nan a b = Ok r /\ (r = true <-> da_same nan st a b).
Proof.
  intros (Da & Ca & Ma & Aa) (Db & Cb & Mb & Ab). unfold da_compare, da_same.
  destruct (compare_ok st nan _ _ Da Db) as (rd & Ed & Hd).
  destruct (sd_compare_ok st nan _ _ Ca Cb) as (rc & -> & Hc).
  destruct (sd_compare_ok st nan _ _ Ma Mb) as (rm & -> & Hm).
  destruct (sd_compare_ok st nan _ _ Aa Ab) as (ra & -> & Hra).
  destruct (negb nan && negb (Bool.eqb (has_var (st (i_obj (da_data a)))) (has_var (st (i_obj (da_data b)))))) eqn:Ev.
  { exists false. split; [reflexivity|]. split; [discriminate|]. intros (_ & _ & _ & Hs).
    apply andb_true_iff in Ev as [En Ev]. destruct nan; [discriminate|]. destruct Hs as [[? _]|Hs]; [discriminate|].
    destruct Hs as (_ & _ & _ & Hv & _). unfold has_variances, has_var in *.
    destruct (b_var (st (i_obj (da_data a)))), (b_var (st (i_obj (da_data b)))); try discriminate; exfalso; intuition congruence. }
  cbn [bind]. destruct rc; cbn [negb]; [|exists false; intuition].
  cbn [bind]. destruct rm; cbn [negb]; [|exists false; intuition]. cbn [bind]. destruct ra; cbn [negb]; [|exists false; intuition].
  exists rd. split; [exact Ed|]. rewrite Hd. intuition.
Qed.
