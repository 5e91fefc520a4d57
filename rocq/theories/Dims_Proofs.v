From Verif Require Import Base Map_Model Map_Spec Map_Proofs Dims_Model Dims_Spec.

Lemma Zeqb_spec x y : reflect (x = y) (x =? y).
Proof. apply Z.eqb_spec. Qed.

(** ** Lookup interface *)
Definition massoc (d : sizes) (k : Dim) : option Z :=
  match find_index Z.eqb k (m_keys d) with Some n => nth_error (m_values d) n | None => None end.

Definition wfm (d : sizes) : Prop := NoDup (m_keys d) /\ length (m_values d) = length (m_keys d).

Lemma wf_wfm d : wf d -> wfm d.
Proof. unfold wf, wfm; tauto. Qed.

Lemma wfm_Inv d : wfm d -> Inv d (mkomap (m_keys d) (massoc d)).
Proof.
  intros [Hnd Hl]. repeat split; simpl; auto.
  - intros i k Hi. unfold massoc. rewrite (find_index_nodup _ Zeqb_spec _ _ _ Hnd Hi). reflexivity.
  - intros k Hk. unfold massoc. apply (find_index_None _ Zeqb_spec) in Hk. rewrite Hk. reflexivity.
Qed.

Lemma Inv_wfm d s : Inv d s -> wfm d.
Proof. intros (Hk & Hnd & Hl & _). split; [rewrite Hk|]; assumption. Qed.

Lemma Inv_massoc d s k : Inv d s -> o_content s k = massoc d k.
Proof.
  intros HI. pose proof (Inv_find _ Zeqb_spec _ _ k HI) as Hf. unfold massoc. revert Hf.
  destruct (o_content s k) as [v|]; intros Hf.
  - destruct Hf as (n & -> & Hv & _). auto.
  - rewrite Hf. reflexivity.
Qed.

Lemma dcontains_massoc d k : wfm d -> dcontains d k = match massoc d k with Some _ => true | None => false end.
Proof.
  intros H. pose proof (Inv_shows _ Zeqb_spec DimensionError _ _ (wfm_Inv _ H)) as (_ & _ & _ & Hc & _).
  unfold dcontains. rewrite Hc. reflexivity.
Qed.

Lemma dat_massoc d k : wfm d -> dat d k = match massoc d k with Some n => Ok n | None => Throw DimensionError end.
Proof.
  intros H. pose proof (Inv_shows _ Zeqb_spec DimensionError _ _ (wfm_Inv _ H)) as (_ & _ & _ & _ & Hc & _).
  unfold dat. rewrite Hc. reflexivity.
Qed.

Lemma massoc_in d k : wfm d -> (massoc d k <> None <-> In k (m_keys d)).
Proof. intros H. pose proof (Inv_content _ Zeqb_spec _ _ (wfm_Inv _ H) k) as Hc. simpl in Hc. tauto. Qed.

Lemma massoc_notin d k : wfm d -> (massoc d k = None <-> ~ In k (m_keys d)).
Proof. intros H. rewrite <- (massoc_in d k H). destruct (massoc d k); split; [discriminate|intros H1; exfalso; apply H1; discriminate|intros _ H1; congruence|reflexivity]. Qed.

Lemma in_combine_nth {A B} (l : list A) (l' : list B) x y :
  In (x, y) (combine l l') <-> exists i, nth_error l i = Some x /\ nth_error l' i = Some y.
Proof.
  split.
  - intros H. apply In_nth_error in H as [i Hi]. rewrite nth_error_combine in Hi.
    exists i. destruct (nth_error l i), (nth_error l' i); try discriminate. injection Hi as -> ->. auto.
  - intros (i & Hx & Hy). apply nth_error_In with i. rewrite nth_error_combine, Hx, Hy. reflexivity.
Qed.

Lemma has_massoc d k n : wfm d -> (has d k n <-> massoc d k = Some n).
Proof.
  intros [Hnd Hl]. unfold has, pairs. rewrite in_combine_nth. split.
  - intros (i & Hk & Hv). unfold massoc. rewrite (find_index_nodup _ Zeqb_spec _ _ _ Hnd Hk). assumption.
  - unfold massoc. destruct (find_index Z.eqb k (m_keys d)) as [i|] eqn:E; [|discriminate].
    intros H. exists i. split; [|assumption]. apply (find_index_Some _ Zeqb_spec) in E. assumption.
Qed.

Lemma memb_In d k : memb d k = true <-> In k (m_keys d).
Proof.
  unfold memb. rewrite existsb_exists. split.
  - intros (x & Hx & Heq). apply Z.eqb_eq in Heq. subst. assumption.
  - intros H. exists k. split; [assumption|apply Z.eqb_refl].
Qed.

Lemma dcontains_memb d k : dcontains d k = memb d k.
Proof.
  unfold dcontains, mcontains. destruct (find_index Z.eqb k (m_keys d)) as [i|] eqn:E.
  - apply (find_index_Some _ Zeqb_spec) in E. symmetry. apply memb_In. eapply nth_error_In; eauto.
  - apply (find_index_None _ Zeqb_spec) in E. destruct (memb d k) eqn:E'; [|reflexivity].
    apply memb_In in E'. tauto.
Qed.

Lemma has_label_In d k : wfm d -> (has_label d k <-> In k (m_keys d)).
Proof.
  intros H. unfold has_label. split.
  - intros [n Hn]. apply (has_massoc _ _ _ H) in Hn. apply (massoc_in _ _ H). congruence.
  - intros Hk. apply (massoc_in _ _ H) in Hk. destruct (massoc d k) as [n|] eqn:E; [|congruence].
    exists n. apply has_massoc; assumption.
Qed.

Lemma has_fun d k m n : wfm d -> has d k m -> has d k n -> m = n.
Proof. intros H. rewrite !has_massoc by assumption. congruence. Qed.

Lemma has_nonneg d k n : wf d -> has d k n -> 0 <= n.
Proof.
  intros (Hnd & Hl & Hf & _) H. unfold has, pairs in H. apply in_combine_r in H.
  rewrite Forall_forall in Hf. auto.
Qed.

Lemma wf_empty : wf mempty.
Proof. unfold wf; simpl. repeat split; auto using NoDup_nil. Qed.

Lemma combine_app_one {A B} (l : list A) (l' : list B) x y :
  length l' = length l -> combine (l ++ [x]) (l' ++ [y]) = combine l l' ++ [(x, y)].
Proof.
  revert l'; induction l as [|a l IH]; intros [|b l'] H; simpl in *; try discriminate; [reflexivity|].
  rewrite IH by lia. reflexivity.
Qed.

(** ** addInner *)
Lemma add_inner_ok d k n : wf d -> ~ In k (m_keys d) -> 0 <= n -> k <> InvalidDim ->
  exists d', add_inner d k n = Ok d' /\ wf d' /\ m_keys d' = m_keys d ++ [k] /\ m_values d' = m_values d ++ [n] /\
             pairs d' = pairs d ++ [(k, n)].
Proof.
  intros (Hnd & Hl & Hf & Hinv) Hk Hn Hd. unfold add_inner, valid_dim, valid_extent.
  destruct (Z.eqb_spec k InvalidDim); [contradiction|]. destruct (Z.ltb_spec n 0); [lia|]. simpl.
  unfold minsert_right, mexpect_unique. change (mcontains Z.eqb d k) with (dcontains d k).
  rewrite dcontains_memb. destruct (memb d k) eqn:E; [apply memb_In in E; contradiction|]. simpl.
  eexists; split; [reflexivity|]. unfold pairs. simpl. split; [|split; [reflexivity|split; [reflexivity|]]].
  - unfold wf; simpl. repeat split.
    + apply (Permutation.Permutation_NoDup (l := k :: m_keys d)); [apply Permutation.Permutation_cons_append|].
      constructor; assumption.
    + rewrite !app_length, Hl. reflexivity.
    + apply Forall_app. split; [assumption|]. constructor; [assumption|constructor].
    + rewrite in_app_iff. simpl. intros [?|[?|[]]]; congruence.
  - apply combine_app_one. assumption.
Qed.

(** ** merge *)
Lemma only_app d l l' : only d (l ++ l') = only d l ++ only d l'.
Proof. apply filter_app. Qed.
Lemma without_app d l l' : without d (l ++ l') = without d l ++ without d l'.
Proof. apply filter_app. Qed.
Lemma only_self d l : (forall x, In x l -> In x (m_keys d)) -> only d l = l.
Proof.
  induction l as [|x l IH]; simpl; intros H; [reflexivity|].
  destruct (memb d x) eqn:E; [rewrite IH by auto; reflexivity|].
  assert (memb d x = true) by (apply memb_In; auto). congruence.
Qed.
Lemma only_none d l : (forall x, In x l -> ~ In x (m_keys d)) -> only d l = [].
Proof.
  induction l as [|x l IH]; simpl; intros H; [reflexivity|].
  destruct (memb d x) eqn:E; [apply memb_In in E; exfalso; eapply H; eauto|]. apply IH; auto.
Qed.
Lemma without_none d l : (forall x, In x l -> In x (m_keys d)) -> without d l = [].
Proof.
  induction l as [|x l IH]; simpl; intros H; [reflexivity|].
  destruct (memb d x) eqn:E; simpl; [apply IH; auto|].
  assert (memb d x = true) by (apply memb_In; auto). congruence.
Qed.
Lemma without_self d l : (forall x, In x l -> ~ In x (m_keys d)) -> without d l = l.
Proof.
  induction l as [|x l IH]; simpl; intros H; [reflexivity|].
  destruct (memb d x) eqn:E; simpl; [apply memb_In in E; exfalso; eapply H; eauto|]. f_equal; apply IH; auto.
Qed.
Lemma only_In d l x : In x (only d l) <-> In x l /\ In x (m_keys d).
Proof. unfold only. rewrite filter_In, memb_In. tauto. Qed.
Lemma without_In d l x : In x (without d l) <-> In x l /\ ~ In x (m_keys d).
Proof.
  unfold without. rewrite filter_In. pose proof (memb_In d x). destruct (memb d x); simpl; intuition congruence.
Qed.

(** Loop state of merge: [P] labels of a processed, [D] labels of b consumed. *)
Definition MInv (a b out : sizes) (P D : list Dim) : Prop :=
  wf out /\ only a (m_keys out) = P /\ without a (m_keys out) = without a D /\
  (forall k n, has out k n <-> (In k P /\ has a k n) \/ (In k D /\ ~ In k (m_keys a) /\ has b k n)).

Lemma pairs_app_has d d' k n : pairs d' = pairs d ++ [(k, n)] ->
  forall x y, has d' x y <-> has d x y \/ (x = k /\ y = n).
Proof.
  intros H x y. unfold has. rewrite H, in_app_iff. simpl.
  split; [intros [?|[E|[]]]; [auto|injection E as -> ->; auto]|intros [?|[-> ->]]; auto].
Qed.

(** One label of [b] consumed. *)
Lemma merge_take a b out P D x it :
  wf a -> wf b -> MInv a b out P D -> NoDup (D ++ x :: it) -> In x (m_keys b) ->
  (forall k, In k P -> In k (m_keys a)) ->
  exists out', (if dcontains a x then Ok out else do n <- dat b x; add_inner out x n) = Ok out' /\
    MInv a b out' P (D ++ [x]) /\
    m_keys out' = m_keys out ++ (if memb a x then [] else [x]).
Proof.
  intros Ha Hb (Hwf & Hon & Hwo & Hhas) Hnd Hx HP.
  rewrite dcontains_memb. destruct (memb a x) eqn:E.
  - exists out. split; [reflexivity|]. split; [|rewrite app_nil_r; reflexivity].
    split; [assumption|]. split; [assumption|]. split.
    + rewrite without_app. simpl. rewrite E. simpl. rewrite app_nil_r. assumption.
    + intros k n. rewrite Hhas, in_app_iff. simpl. apply memb_In in E. split.
      * intros [?|(?&?&?)]; [auto|right; auto].
      * intros [?|([?|[<-|[]]]&?&?)]; [auto|right; auto|tauto].
  - assert (~ In x (m_keys a)) as Hxa by (rewrite <- memb_In; congruence).
    apply (has_label_In _ _ (wf_wfm _ Hb)) in Hx as [n Hn].
    rewrite dat_massoc by (apply wf_wfm; assumption).
    pose proof (proj1 (has_massoc _ _ _ (wf_wfm _ Hb)) Hn) as Hn'. rewrite Hn'. simpl.
    assert (~ In x (m_keys out)) as Hxo.
    { intros Hin. assert (In x (without a (m_keys out))) as Hw by (apply without_In; auto).
      rewrite Hwo in Hw. apply without_In in Hw as [Hw _].
      apply NoDup_remove_2 in Hnd. apply Hnd. apply in_app_iff. auto. }
    destruct (add_inner_ok out x n Hwf Hxo (has_nonneg _ _ _ Hb Hn)) as (out' & Ho & Hwf' & Hk & Hv & Hp).
    { intros ->. destruct Hb as (_&_&_&Hi). apply Hi. apply in_combine_l in Hn. assumption. }
    exists out'. split; [assumption|]. split; [|assumption].
    split; [assumption|]. rewrite Hk. split; [|split].
    + rewrite only_app. simpl. rewrite E, app_nil_r. assumption.
    + rewrite !without_app. simpl. rewrite E. simpl. rewrite Hwo. reflexivity.
    + intros k m. rewrite (pairs_app_has _ _ _ _ Hp), Hhas, in_app_iff. simpl. split.
      * intros [[?|(?&?&?)]|[-> ->]]; auto.
      * intros [?|([?|[<-|[]]]&?&Hm)]; auto. right. split; [reflexivity|].
        apply (has_fun b x _ _ (wf_wfm _ Hb) Hm Hn).
Qed.

Fixpoint before (dim : Dim) (l : list Dim) : list Dim :=
  match l with [] => [] | x :: l' => if x =? dim then [] else x :: before dim l' end.
Fixpoint from (dim : Dim) (l : list Dim) : list Dim :=
  match l with [] => [] | x :: l' => if x =? dim then l else from dim l' end.

Lemma before_from dim l : before dim l ++ from dim l = l.
Proof. induction l as [|x l IH]; simpl; [reflexivity|]. destruct (x =? dim); simpl; congruence. Qed.

Lemma merge_advance_ok a b dim : wf a -> wf b -> forall it out P D,
  MInv a b out P D -> NoDup (D ++ it) -> (forall x, In x it -> In x (m_keys b)) ->
  (forall k, In k P -> In k (m_keys a)) ->
  exists out', merge_advance a b out it dim = Ok (out', from dim it) /\
    MInv a b out' P (D ++ before dim it) /\
    m_keys out' = m_keys out ++ without a (before dim it).
Proof.
  intros Ha Hb. induction it as [|x it IH]; intros out P D HI Hnd Hit HP; simpl.
  - exists out. rewrite !app_nil_r. auto.
  - destruct (x =? dim); [exists out; simpl; rewrite !app_nil_r; auto|].
    destruct (merge_take a b out P D x it Ha Hb HI Hnd (Hit x (or_introl eq_refl)) HP)
      as (o & -> & HI' & Hk). simpl.
    destruct (IH o P (D ++ [x])) as (o' & He & HI'' & Hk'); auto.
    { rewrite <- app_assoc. assumption. }
    { intros y Hy; apply Hit; right; assumption. }
    exists o'. split; [assumption|]. rewrite <- app_assoc in HI''. split; [assumption|].
    rewrite Hk', Hk, <- app_assoc. f_equal. simpl. destruct (memb a x); reflexivity.
Qed.

Lemma merge_rest_ok a b : wf a -> wf b -> forall it out P D,
  MInv a b out P D -> NoDup (D ++ it) -> (forall x, In x it -> In x (m_keys b)) ->
  (forall k, In k P -> In k (m_keys a)) ->
  exists out', merge_rest a b out it = Ok out' /\ MInv a b out' P (D ++ it) /\
    m_keys out' = m_keys out ++ without a it.
Proof.
  intros Ha Hb. induction it as [|x it IH]; intros out P D HI Hnd Hit HP; simpl.
  - exists out. rewrite !app_nil_r. auto.
  - destruct (merge_take a b out P D x it Ha Hb HI Hnd (Hit x (or_introl eq_refl)) HP)
      as (o & -> & HI' & Hk). simpl.
    destruct (IH o P (D ++ [x])) as (o' & He & HI'' & Hk'); auto.
    { rewrite <- app_assoc. assumption. }
    { intros y Hy; apply Hit; right; assumption. }
    exists o'. split; [assumption|]. rewrite <- app_assoc in HI''. split; [assumption|].
    rewrite Hk', Hk, <- app_assoc. f_equal. destruct (memb a x); reflexivity.
Qed.

(** The label produced by the loop in terms of the label lists only. *)
Fixpoint merge_labels (a b : sizes) (L it ds : list Dim) : list Dim * list Dim :=
  match ds with
  | [] => (L, it)
  | dim :: ds' => if memb b dim
                  then merge_labels a b (L ++ without a (before dim it) ++ [dim]) (from dim it) ds'
                  else merge_labels a b (L ++ [dim]) it ds'
  end.

Lemma merge_loop_ok a b : wf a -> wf b -> ~ conflict a b -> forall ds out P D it,
  MInv a b out P D -> NoDup (D ++ it) -> (forall x, In x it -> In x (m_keys b)) ->
  NoDup (P ++ ds) -> (forall k, In k (P ++ ds) -> In k (m_keys a)) ->
  exists out' D', merge_loop a b out it ds = Ok (out', snd (merge_labels a b (m_keys out) it ds)) /\
    MInv a b out' (P ++ ds) D' /\ D' ++ snd (merge_labels a b (m_keys out) it ds) = D ++ it /\
    m_keys out' = fst (merge_labels a b (m_keys out) it ds).
Proof.
  intros Ha Hb Hnc. induction ds as [|dim ds IH]; intros out P D it HI Hnd Hit HndP HP.
  - exists out, D. simpl. rewrite app_nil_r. auto.
  - cbn [merge_loop merge_labels].
    assert (In dim (m_keys a)) as Hda by (apply HP; rewrite in_app_iff; simpl; auto).
    apply (has_label_In _ _ (wf_wfm _ Ha)) in Hda as [n Hn].
    pose proof (proj1 (has_massoc _ _ _ (wf_wfm _ Ha)) Hn) as Hn'.
    assert (Hstep : forall out1 it1 D1, MInv a b out1 P D1 -> D1 ++ it1 = D ++ it ->
      (forall x, In x it1 -> In x (m_keys b)) ->
      exists out' D', (do o <- add_inner out1 dim n; merge_loop a b o it1 ds)
         = Ok (out', snd (merge_labels a b (m_keys out1 ++ [dim]) it1 ds)) /\
        MInv a b out' (P ++ dim :: ds) D' /\
        D' ++ snd (merge_labels a b (m_keys out1 ++ [dim]) it1 ds) = D ++ it /\
        m_keys out' = fst (merge_labels a b (m_keys out1 ++ [dim]) it1 ds)).
    { intros out1 it1 D1 (Hwf1 & Hon1 & Hwo1 & Hhas1) HD1 Hit1.
      assert (~ In dim (m_keys out1)) as Hno.
      { intros Hin. assert (In dim (only a (m_keys out1))) as Hw.
        { apply only_In. split; [assumption|]. apply has_label_In; [apply wf_wfm; assumption|eexists; eauto]. }
        rewrite Hon1 in Hw. apply NoDup_remove_2 in HndP. apply HndP, in_app_iff. auto. }
      destruct (add_inner_ok out1 dim n Hwf1 Hno (has_nonneg _ _ _ Ha Hn)) as (o & -> & Hwfo & Hk & _ & Hp).
      { intros ->. destruct Ha as (_&_&_&Hi). apply Hi. apply in_combine_l in Hn. assumption. }
      simpl. rewrite <- Hk.
      destruct (IH o (P ++ [dim]) D1 it1) as (out' & D' & H1 & H2 & H3 & H4).
      - split; [assumption|]. rewrite Hk. split; [|split].
        + rewrite only_app, Hon1. simpl.
          assert (memb a dim = true) as -> by (apply memb_In; apply has_label_In; [apply wf_wfm; assumption|eexists; eauto]).
          reflexivity.
        + rewrite without_app, Hwo1. simpl.
          assert (memb a dim = true) as -> by (apply memb_In; apply has_label_In; [apply wf_wfm; assumption|eexists; eauto]).
          simpl. rewrite app_nil_r. reflexivity.
        + intros k m. rewrite (pairs_app_has _ _ _ _ Hp), Hhas1, in_app_iff. simpl. split.
          * intros [[[? ?]|?]|[-> ->]]; auto.
          * intros [[[?|[<-|[]]] Hm]|?]; auto. right. split; [reflexivity|].
            apply (has_fun a dim _ _ (wf_wfm _ Ha) Hm Hn).
      - rewrite HD1. assumption.
      - assumption.
      - rewrite <- app_assoc. assumption.
      - rewrite <- app_assoc. assumption.
      - exists out', D'. rewrite <- app_assoc in H2. simpl in H2. rewrite HD1 in H3. auto. }
    rewrite (dat_massoc a dim (wf_wfm _ Ha)), Hn'. cbn [bind].
    rewrite dcontains_memb. destruct (memb b dim) eqn:E.
    + assert (exists m, has b dim m) as [m Hm]
        by (apply has_label_In; [apply wf_wfm; assumption|apply memb_In; assumption]).
      rewrite (dat_massoc b dim (wf_wfm _ Hb)), (proj1 (has_massoc _ _ _ (wf_wfm _ Hb)) Hm). cbn [bind].
      destruct (Z.eqb_spec n m) as [->|Hne]; [|exfalso; apply Hnc; exists dim, n, m; auto].
      destruct (merge_advance_ok a b dim Ha Hb it out P D HI Hnd Hit) as (o & -> & HI' & Hko).
      { intros k Hk; apply HP, in_app_iff; auto. }
      cbn [bind fst snd].
      destruct (Hstep o (from dim it) (D ++ before dim it) HI') as (out' & D' & H1 & H2 & H3 & H4).
      { rewrite <- app_assoc, before_from. reflexivity. }
      { intros x Hx. apply Hit. rewrite <- (before_from dim it). apply in_app_iff. auto. }
      exists out', D'. rewrite Hko, <- app_assoc in H1, H3, H4. auto.
    + cbn [bind fst snd]. apply (Hstep out it D HI eq_refl Hit).
Qed.

Lemma merge_ok a b : wf a -> wf b -> ~ conflict a b ->
  exists m, dims_merge a b = Ok m /\ wf m /\
    (forall k n, has m k n <-> has a k n \/ has b k n) /\
    only a (labels m) = labels a /\ without a (labels m) = without a (labels b) /\
    labels m = fst (merge_labels a b [] (labels b) (labels a)) ++
               without a (snd (merge_labels a b [] (labels b) (labels a))).
Proof.
  intros Ha Hb Hnc. unfold dims_merge.
  destruct (merge_loop_ok a b Ha Hb Hnc (labels a) mempty [] [] (labels b))
    as (out & D & He & HI & HD & Hk).
  - split; [apply wf_empty|]. simpl. repeat split; try reflexivity; try (intros []; tauto).
  - simpl. apply Hb.
  - auto.
  - simpl. apply Ha.
  - auto.
  - simpl in He. unfold labels in *. simpl in He. rewrite He. cbn [bind fst snd].
    simpl in HD. 
    destruct (merge_rest_ok a b Ha Hb (snd (merge_labels a b [] (m_keys b) (m_keys a))) out _ D HI) as (m & Hm & (Hwf & Hon & Hwo & Hhas) & Hkm).
    + rewrite HD. apply Hb.
    + intros x Hx. rewrite <- HD. apply in_app_iff. auto.
    + simpl. auto.
    + exists m. split; [assumption|]. split; [assumption|]. rewrite HD in *. simpl in *.
      split; [|split; [assumption|split; [assumption|rewrite Hkm, Hk; reflexivity]]].
      intros k n. rewrite Hhas. split.
      * tauto.
      * intros [H|H]; [left; split; [apply has_label_In; [apply wf_wfm; assumption|eexists; eauto]|assumption]|].
        destruct (in_dec Z.eq_dec k (m_keys a)) as [Hin|Hnin].
        -- left. split; [assumption|]. apply (has_label_In _ _ (wf_wfm _ Ha)) in Hin as [n' Hn'].
           destruct (Z.eq_dec n' n) as [<-|Hne]; [assumption|].
           exfalso. apply Hnc. exists k, n', n. auto.
        -- right. split; [apply has_label_In; [apply wf_wfm; assumption|eexists; eauto]|auto].
Qed.

(** Relative order of [b]'s labels when the common labels appear in the same order. *)
Lemma before_app_notin dim l l' : ~ In dim l -> before dim (l ++ dim :: l') = l.
Proof.
  induction l as [|x l IH]; simpl; intros H.
  - rewrite Z.eqb_refl. reflexivity.
  - destruct (Z.eqb_spec x dim); [exfalso; auto|]. rewrite IH; auto.
Qed.
Lemma from_app_notin dim l l' : ~ In dim l -> from dim (l ++ dim :: l') = dim :: l'.
Proof.
  induction l as [|x l IH]; simpl; intros H.
  - rewrite Z.eqb_refl. reflexivity.
  - destruct (Z.eqb_spec x dim); [exfalso; auto|]. apply IH; auto.
Qed.

Lemma merge_labels_order a b : forall ds L D h it,
  (forall x, In x (D ++ h ++ it) -> In x (m_keys b)) -> NoDup (D ++ h ++ it) ->
  (forall x, In x h -> In x (m_keys a)) ->
  only b L = D ++ h -> only b ds = only a it ->
  let r := merge_labels a b L (h ++ it) ds in
  only b (fst r ++ without a (snd r)) = D ++ h ++ it.
Proof.
  induction ds as [|dim ds IH]; intros L D h it Hb Hnd Hh HL Hds; cbn [merge_labels].
  - cbn [fst snd]. rewrite only_app, HL, without_app.
    assert (without a h = []) as -> by (apply without_none; assumption).
    simpl in *. assert (without a it = it) as ->.
    { apply without_self. intros x Hx Hin. assert (In x (only a it)) by (apply only_In; auto).
      rewrite <- Hds in H. destruct H. }
    rewrite (only_self b it); [rewrite <- app_assoc; reflexivity|].
    intros x Hx. apply Hb. rewrite !in_app_iff. auto.
  - simpl in Hds. destruct (memb b dim) eqn:E.
    + (* dim is the first common label left *)
      assert (exists p q, it = p ++ dim :: q /\ only a p = [] /\ only b ds = only a q) as (p & q & -> & Hp & Hq).
      { clear - Hds. induction it as [|x it IHi]; simpl in Hds; [discriminate|].
        destruct (memb a x) eqn:Ex.
        - injection Hds as -> H. exists [], it. auto.
        - destruct (IHi Hds) as (p & q & -> & Hp & Hq). exists (x :: p), q. simpl. rewrite Ex. auto. }
      assert (~ In dim (h ++ p)) as Hnin.
      { rewrite !app_assoc in Hnd. rewrite <- (app_assoc D) in Hnd. apply NoDup_remove_2 in Hnd.
        intros H. apply Hnd. rewrite in_app_iff. left. rewrite in_app_iff. auto. }
      replace (h ++ p ++ dim :: q) with ((h ++ p) ++ dim :: q) by (rewrite <- app_assoc; reflexivity).
      rewrite before_app_notin, from_app_notin by assumption.
      specialize (IH (L ++ without a (h ++ p) ++ [dim]) (D ++ h ++ p) [dim] q).
      replace (D ++ (h ++ p) ++ dim :: q) with ((D ++ h ++ p) ++ [dim] ++ q) by (simpl; rewrite <- !app_assoc; reflexivity).
      apply IH.
      * intros x Hx. apply Hb. rewrite !in_app_iff in *. simpl in *. tauto.
      * rewrite <- !app_assoc in *. simpl. assumption.
      * assert (In dim (m_keys a)).
        { assert (In dim (only a (p ++ dim :: q))) by (rewrite <- Hds; left; reflexivity).
          apply only_In in H. tauto. }
        intros x [<-|[]]. assumption.
      * rewrite !only_app, HL, without_app.
        assert (without a h = []) as -> by (apply without_none; assumption).
        assert (without a p = p) as ->.
        { apply without_self. intros x Hx Hin. assert (In x (only a p)) by (apply only_In; auto).
          rewrite Hp in H. destruct H. }
        simpl. rewrite E. rewrite (only_self b p); [rewrite <- !app_assoc; reflexivity|].
        intros x Hx. apply Hb. rewrite !in_app_iff. auto.
      * assumption.
    + apply IH; auto. rewrite only_app. simpl. rewrite E, app_nil_r. assumption.
Qed.

Lemma merge_order a b m : wf a -> wf b -> dims_merge a b = Ok m ->
  ~ conflict a b -> only b (labels a) = only a (labels b) -> only b (labels m) = labels b.
Proof.
  intros Ha Hb Hm Hnc Hord. destruct (merge_ok a b Ha Hb Hnc) as (m' & Hm' & _ & _ & _ & _ & Hl).
  rewrite Hm in Hm'. injection Hm' as <-. rewrite Hl.
  apply (merge_labels_order a b (labels a) [] [] [] (labels b)); auto.
  - simpl. apply Hb.
  - intros x [].
Qed.

(** A conflict is reported. *)
Lemma merge_loop_conflict a b : wf a -> wf b -> forall ds out P D it,
  MInv a b out P D -> NoDup (D ++ it) -> (forall x, In x it -> In x (m_keys b)) ->
  NoDup (P ++ ds) -> (forall k, In k (P ++ ds) -> In k (m_keys a)) ->
  (exists k m n, In k ds /\ has a k m /\ has b k n /\ m <> n) ->
  merge_loop a b out it ds = Throw DimensionError.
Proof.
  intros Ha Hb. induction ds as [|dim ds IH]; intros out P D it HI Hnd Hit HndP HP (k & m & n & Hk & Hkm & Hkn & Hne).
  - destruct Hk.
  - cbn [merge_loop].
    assert (In dim (m_keys a)) as Hda by (apply HP; rewrite in_app_iff; simpl; auto).
    apply (has_label_In _ _ (wf_wfm _ Ha)) in Hda as [na Hna].
    pose proof (proj1 (has_massoc _ _ _ (wf_wfm _ Ha)) Hna) as Hna'.
    assert (Hstep : forall out1 it1 D1, MInv a b out1 P D1 -> D1 ++ it1 = D ++ it ->
      (forall x, In x it1 -> In x (m_keys b)) -> k <> dim ->
      (do o <- add_inner out1 dim na; merge_loop a b o it1 ds) = Throw DimensionError).
    { intros out1 it1 D1 (Hwf1 & Hon1 & Hwo1 & Hhas1) HD1 Hit1 Hkd.
      assert (~ In dim (m_keys out1)) as Hno.
      { intros Hin. assert (In dim (only a (m_keys out1))) as Hw.
        { apply only_In. split; [assumption|]. apply has_label_In; [apply wf_wfm; assumption|eexists; eauto]. }
        rewrite Hon1 in Hw. apply NoDup_remove_2 in HndP. apply HndP, in_app_iff. auto. }
      destruct (add_inner_ok out1 dim na Hwf1 Hno (has_nonneg _ _ _ Ha Hna)) as (o & -> & Hwfo & Hk' & _ & Hp).
      { intros ->. destruct Ha as (_&_&_&Hi). apply Hi. apply in_combine_l in Hna. assumption. }
      cbn [bind]. apply (IH o (P ++ [dim]) D1 it1).
      - assert (memb a dim = true) as Hma by (apply memb_In; apply has_label_In; [apply wf_wfm; assumption|eexists; eauto]).
        split; [assumption|]. rewrite Hk'. split; [|split].
        + rewrite only_app, Hon1. simpl. rewrite Hma. reflexivity.
        + rewrite without_app, Hwo1. simpl. rewrite Hma. simpl. rewrite app_nil_r. reflexivity.
        + intros k0 m0. rewrite (pairs_app_has _ _ _ _ Hp), Hhas1, in_app_iff. simpl. split.
          * intros [[[? ?]|?]|[-> ->]]; auto.
          * intros [[[?|[<-|[]]] Hm]|?]; auto. right. split; [reflexivity|].
            apply (has_fun a dim _ _ (wf_wfm _ Ha) Hm Hna).
      - rewrite HD1. assumption.
      - assumption.
      - rewrite <- app_assoc. assumption.
      - rewrite <- app_assoc. assumption.
      - exists k, m, n. destruct Hk as [Hk|Hk]; [congruence|auto]. }
    rewrite (dat_massoc a dim (wf_wfm _ Ha)), Hna'. cbn [bind].
    rewrite dcontains_memb. destruct (memb b dim) eqn:E.
    + assert (exists nb, has b dim nb) as [nb Hnb]
        by (apply has_label_In; [apply wf_wfm; assumption|apply memb_In; assumption]).
      rewrite (dat_massoc b dim (wf_wfm _ Hb)), (proj1 (has_massoc _ _ _ (wf_wfm _ Hb)) Hnb). cbn [bind].
      destruct (Z.eqb_spec na nb) as [->|Hne']; [|reflexivity].
      destruct (merge_advance_ok a b dim Ha Hb it out P D HI Hnd Hit) as (o & -> & HI' & Hko).
      { intros k0 Hk0; apply HP, in_app_iff; auto. }
      cbn [bind fst snd]. apply (Hstep o (from dim it) (D ++ before dim it) HI').
      { rewrite <- app_assoc, before_from. reflexivity. }
      { intros x Hx. apply Hit. rewrite <- (before_from dim it). apply in_app_iff. auto. }
      intros ->. apply Hne. rewrite (has_fun a dim _ _ (wf_wfm _ Ha) Hkm Hna).
      symmetry. apply (has_fun b dim _ _ (wf_wfm _ Hb) Hkn Hnb).
    + cbn [bind fst snd]. apply (Hstep out it D HI eq_refl Hit).
      intros ->. assert (memb b dim = true); [|congruence].
      apply memb_In, has_label_In; [apply wf_wfm; assumption|eexists; eauto].
Qed.

Lemma merge_conflict a b : wf a -> wf b -> conflict a b -> dims_merge a b = Throw DimensionError.
Proof.
  intros Ha Hb (k & m & n & Hm & Hn & Hne). unfold dims_merge.
  rewrite (merge_loop_conflict a b Ha Hb (labels a) mempty [] [] (labels b)); auto.
  - split; [apply wf_empty|]. simpl. repeat split; try reflexivity; try (intros []; tauto).
  - simpl. apply Hb.
  - simpl. apply Ha.
  - exists k, m, n. split; [apply has_label_In; [apply wf_wfm; assumption|eexists; eauto]|auto].
Qed.

Lemma conflict_dec a b : wf a -> wf b -> conflict a b \/ ~ conflict a b.
Proof.
  intros Ha Hb.
  assert (H : forall l, (exists k m n, In k l /\ has a k m /\ has b k n /\ m <> n) \/
                        ~ (exists k m n, In k l /\ has a k m /\ has b k n /\ m <> n)).
  { induction l as [|k l IH]; [right; intros (k & m & n & [] & _)|].
    destruct IH as [(k' & m & n & ? & ?)|IH]; [left; exists k', m, n; simpl; tauto|].
    destruct (massoc a k) as [m|] eqn:Em, (massoc b k) as [n|] eqn:En.
    1: destruct (Z.eq_dec m n) as [->|Hne];
       [|left; exists k, m, n; rewrite !has_massoc by (apply wf_wfm; assumption); simpl; auto].
    all: right; intros (k' & m' & n' & [<-|Hin] & Hm & Hn & Hne');
         [rewrite has_massoc in Hm, Hn by (apply wf_wfm; assumption); congruence|apply IH; exists k', m', n'; auto]. }
  destruct (H (m_keys a)) as [(k & m & n & ? & ?)|Hn]; [left; exists k, m, n; tauto|right].
  intros (k & m & n & Hm & H'). apply Hn. exists k, m, n.
  split; [apply has_label_In; [apply wf_wfm; assumption|eexists; eauto]|auto].
Qed.

Lemma merge_Ok_iff a b : wf a -> wf b -> ((exists m, dims_merge a b = Ok m) <-> ~ conflict a b).
Proof.
  intros Ha Hb. split.
  - intros [m Hm] Hc. rewrite (merge_conflict a b Ha Hb Hc) in Hm. discriminate.
  - intros Hn. destruct (merge_ok a b Ha Hb Hn) as (m & Hm & _). eauto.
Qed.

Lemma merge_Ok_noconf a b m : wf a -> wf b -> dims_merge a b = Ok m -> ~ conflict a b.
Proof. intros Ha Hb Hm. apply merge_Ok_iff; eauto. Qed.

Lemma conflict_sym a b : conflict a b -> conflict b a.
Proof. intros (k & m & n & ? & ? & ?). exists k, n, m. auto. Qed.

Lemma merge_comm a b m : wf a -> wf b -> dims_merge a b = Ok m ->
  exists m', dims_merge b a = Ok m' /\ same_extents m m'.
Proof.
  intros Ha Hb Hm. pose proof (merge_Ok_noconf _ _ _ Ha Hb Hm) as Hnc.
  destruct (merge_ok a b Ha Hb Hnc) as (m1 & Hm1 & _ & Hh & _). rewrite Hm in Hm1. injection Hm1 as <-.
  destruct (merge_ok b a Hb Ha) as (m' & Hm' & _ & Hh' & _); [intros Hc; apply Hnc, conflict_sym; assumption|].
  exists m'. split; [assumption|]. intros k n. rewrite Hh, Hh'. tauto.
Qed.

Lemma merge_includes a b : wf a -> wf b -> (forall k n, has b k n -> has a k n) -> dims_merge a b = Ok a.
Proof.
  intros Ha Hb Hinc.
  destruct (merge_ok a b Ha Hb) as (m & Hm & Hwf & Hh & Hon & Hwo & _).
  { intros (k & m & n & Hm & Hn & Hne). apply Hinc in Hn. apply Hne, (has_fun a k _ _ (wf_wfm _ Ha) Hm Hn). }
  rewrite Hm. f_equal.
  assert (m_keys m = m_keys a) as Hk.
  { unfold labels in *. rewrite <- Hon. symmetry. apply only_self. intros x Hx.
    apply (has_label_In _ _ (wf_wfm _ Hwf)) in Hx as [n Hn]. apply Hh in Hn.
    apply has_label_In; [apply wf_wfm; assumption|]. destruct Hn as [Hn|Hn]; [|apply Hinc in Hn]; eexists; eauto. }
  destruct m as [mk mv], a as [ak av]. simpl in *. subst. f_equal.
  destruct Hwf as (Hnd & Hl & _). destruct Ha as (_ & Hla & _). simpl in *.
  apply nth_error_ext. intros i.
  destruct (nth_error ak i) as [k|] eqn:Ek.
  - assert (exists v, nth_error mv i = Some v) as [v Hv] by (apply nth_some_of_lt; rewrite Hl; apply nth_error_Some; congruence).
    assert (exists w, nth_error av i = Some w) as [w Hw] by (apply nth_some_of_lt; rewrite Hla; apply nth_error_Some; congruence).
    rewrite Hv, Hw. f_equal.
    assert (has (mkmap ak mv) k v) as H1 by (unfold has, pairs; simpl; apply in_combine_nth; eauto).
    assert (has (mkmap ak av) k w) as H2 by (unfold has, pairs; simpl; apply in_combine_nth; eauto).
    apply Hh in H1. assert (has (mkmap ak av) k v) as H3 by (destruct H1 as [H1|H1]; [assumption|apply Hinc; assumption]).
    apply (has_fun (mkmap ak av) k v w); [split; assumption|assumption|assumption].
  - apply nth_error_None in Ek. transitivity (@None Z); [|symmetry]; apply nth_error_None; lia.
Qed.

Lemma merge_assoc a b c ab abc : wf a -> wf b -> wf c ->
  dims_merge a b = Ok ab -> dims_merge ab c = Ok abc ->
  exists bc abc', dims_merge b c = Ok bc /\ dims_merge a bc = Ok abc' /\ same_extents abc abc'.
Proof.
  intros Ha Hb Hc Hab Habc.
  pose proof (merge_Ok_noconf _ _ _ Ha Hb Hab) as N1.
  destruct (merge_ok a b Ha Hb N1) as (ab' & E1 & W1 & H1 & _). rewrite Hab in E1. injection E1 as <-.
  pose proof (merge_Ok_noconf _ _ _ W1 Hc Habc) as N2.
  destruct (merge_ok ab c W1 Hc N2) as (abc2 & E2 & W2 & H2 & _). rewrite Habc in E2. injection E2 as <-.
  destruct (merge_ok b c Hb Hc) as (bc & E3 & W3 & H3 & _).
  { intros (k & m & n & Hm & Hn & Hne). apply N2. exists k, m, n. rewrite H1. auto. }
  destruct (merge_ok a bc Ha W3) as (abc' & E4 & W4 & H4 & _).
  { intros (k & m & n & Hm & Hn & Hne). apply H3 in Hn as [Hn|Hn].
    - apply N1. exists k, m, n. auto.
    - apply N2. exists k, m, n. rewrite H1. auto. }
  exists bc, abc'. split; [assumption|]. split; [assumption|].
  intros k n. rewrite H2, H1, H4, H3. tauto.
Qed.

(** ** intersection *)
Lemma inter_loop_ok a b m : wf m -> forall ds out,
  wf out -> NoDup (m_keys out ++ ds) -> (forall k, In k ds -> In k (m_keys m)) ->
  exists out', inter_loop a b m out ds = Ok out' /\ wf out' /\
    m_keys out' = m_keys out ++ filter (fun k => memb a k && memb b k) ds /\
    (forall k n, has out' k n <-> has out k n \/ (In k ds /\ In k (m_keys a) /\ In k (m_keys b) /\ has m k n)).
Proof.
  intros Hm. induction ds as [|d ds IH]; intros out Hwf Hnd Hin; cbn [inter_loop filter].
  - exists out. rewrite app_nil_r. split; [reflexivity|]. split; [assumption|]. split; [reflexivity|].
    intros k n; split; [auto|]. intros [H|[[] _]]; assumption.
  - rewrite !dcontains_memb. destruct (memb a d && memb b d) eqn:E.
    + assert (In d (m_keys m)) as Hd by (apply Hin; left; reflexivity).
      apply (has_label_In _ _ (wf_wfm _ Hm)) in Hd as [n Hn].
      rewrite (dat_massoc _ _ (wf_wfm _ Hm)), (proj1 (has_massoc _ _ _ (wf_wfm _ Hm)) Hn). cbn [bind].
      destruct (add_inner_ok out d n Hwf) as (o & -> & Hwfo & Hk & _ & Hp).
      { apply NoDup_remove_2 in Hnd. rewrite in_app_iff in Hnd. tauto. }
      { apply (has_nonneg _ _ _ Hm Hn). }
      { intros ->. destruct Hm as (_&_&_&Hi). apply Hi. apply in_combine_l in Hn. assumption. }
      cbn [bind]. destruct (IH o Hwfo) as (o' & He & Hw & Hk' & Hh).
      { rewrite Hk, <- app_assoc. assumption. }
      { intros k Hk0. apply Hin. right. assumption. }
      exists o'. split; [assumption|]. split; [assumption|]. split.
      { rewrite Hk', Hk, <- app_assoc. reflexivity. }
      intros k n'. rewrite Hh, (pairs_app_has _ _ _ _ Hp). apply andb_true_iff in E as [Ea Eb].
      apply memb_In in Ea, Eb. simpl. split.
      * intros [[?|[-> ->]]|?]; [auto| |tauto]. right. auto.
      * intros [?|([<-|?]&?&?&Hh')]; [auto| |auto]. left. right. split; [reflexivity|].
        apply (has_fun m d _ _ (wf_wfm _ Hm) Hh' Hn).
    + cbn [bind]. destruct (IH out Hwf) as (o' & He & Hw & Hk' & Hh).
      { apply NoDup_remove_1 in Hnd. assumption. }
      { intros k Hk0. apply Hin. right. assumption. }
      exists o'. split; [assumption|]. split; [assumption|]. split; [assumption|].
      intros k n'. rewrite Hh. simpl. split.
      * intros [?|?]; [auto|tauto].
      * intros [?|([<-|?]&Hka&Hkb&?)]; [auto| |tauto].
        apply memb_In in Hka, Hkb. rewrite Hka, Hkb in E. discriminate.
Qed.

Lemma intersection_ok a b : wf a -> wf b -> ~ conflict a b ->
  exists i, dims_intersection a b = Ok i /\ wf i /\
    (forall k n, has i k n <-> has a k n /\ has b k n) /\ labels i = only b (labels a).
Proof.
  intros Ha Hb Hnc. unfold dims_intersection.
  destruct (merge_ok a b Ha Hb Hnc) as (m & -> & Hm & Hh & Hon & Hwo & _). cbn [bind].
  destruct (inter_loop_ok a b m Hm (labels m) mempty wf_empty) as (i & Hi & Hwi & Hki & Hhi).
  { simpl. apply Hm. } { auto. }
  exists i. split; [assumption|]. split; [assumption|]. split.
  - intros k n. rewrite Hhi. split.
    + intros [[]|(Hk & Hka & Hkb & Hmn)].
      apply (has_label_In _ _ (wf_wfm _ Ha)) in Hka as [na Hna]. apply (has_label_In _ _ (wf_wfm _ Hb)) in Hkb as [nb Hnb].
      assert (has m k na) as H1 by (apply Hh; auto). assert (has m k nb) as H2 by (apply Hh; auto).
      rewrite (has_fun m k n na (wf_wfm _ Hm) Hmn H1) at 1. rewrite (has_fun m k n nb (wf_wfm _ Hm) Hmn H2). auto.
    + intros [H1 H2]. right. assert (has m k n) as H3 by (apply Hh; auto).
      split; [|split; [|split; [|assumption]]];
        apply has_label_In; try (apply wf_wfm; assumption); eexists; eauto.
  - unfold labels in *. rewrite Hki. simpl. rewrite <- Hon. unfold only.
    clear. induction (m_keys m) as [|x l IH]; simpl; [reflexivity|].
    destruct (memb a x) eqn:Ea; simpl; [destruct (memb b x); simpl; rewrite IH; reflexivity|apply IH].
Qed.

Lemma intersection_conflict a b : wf a -> wf b -> conflict a b -> dims_intersection a b = Throw DimensionError.
Proof. intros Ha Hb Hc. unfold dims_intersection. rewrite (merge_conflict a b Ha Hb Hc). reflexivity. Qed.

(** ** includes *)
Lemma includes_loop_ok m o : wfm m -> wfm o -> forall ds, (forall d, In d ds -> In d (m_keys o)) ->
  exists r, includes_loop m o ds = Ok r /\
    (r = true <-> forall d n, In d ds -> has o d n -> has m d n).
Proof.
  intros Hm Ho. induction ds as [|d ds IH]; intros Hin; cbn [includes_loop].
  - exists true. split; [reflexivity|]. split; [intros _ d n []|reflexivity].
  - rewrite (dcontains_massoc _ _ Hm), (dat_massoc _ _ Hm), (dat_massoc _ _ Ho).
    assert (In d (m_keys o)) as Hd by (apply Hin; left; reflexivity).
    apply (massoc_in _ _ Ho) in Hd. destruct (massoc o d) as [n|] eqn:En; [|congruence].
    destruct (massoc m d) as [x|] eqn:Ex; cbn [bind].
    + destruct (Z.eqb_spec x n) as [->|Hne].
      * destruct IH as (r & Hr & Hiff); [intros; apply Hin; right; assumption|].
        exists r. split; [assumption|]. rewrite Hiff. split.
        -- intros H d' n' [<-|Hd'] Hh; [|auto]. rewrite has_massoc in * by assumption. congruence.
        -- intros H d' n' Hd' Hh. apply H; [right; assumption|assumption].
      * exists false. split; [reflexivity|]. split; [discriminate|]. intros H.
        exfalso. apply Hne. specialize (H d n (or_introl eq_refl)). rewrite !has_massoc in H by assumption.
        specialize (H En). congruence.
    + exists false. split; [reflexivity|]. split; [discriminate|]. intros H.
      specialize (H d n (or_introl eq_refl)). rewrite !has_massoc in H by assumption. specialize (H En). congruence.
Qed.

Lemma includes_ok m o : wfm m -> wfm o ->
  exists r, includes m o = Ok r /\ (r = true <-> forall d n, has o d n -> has m d n).
Proof.
  intros Hm Ho. destruct (includes_loop_ok m o Hm Ho (m_keys o)) as (r & Hr & Hiff); [auto|].
  exists r. split; [assumption|]. rewrite Hiff. split.
  - intros H d n Hh. apply H; [|assumption]. apply has_label_In; [assumption|eexists; eauto].
  - auto.
Qed.

(** ** row-major indexing *)
Lemma fold_left_mul l : forall a, fold_left Z.mul l a = a * vol l.
Proof. induction l as [|n l IH]; intros a; simpl; [lia|]. rewrite IH. ring. Qed.

Lemma volume_vol d : volume d = vol (shape d).
Proof. unfold volume. rewrite fold_left_mul. lia. Qed.

Lemma vol_nonneg sh : Forall (fun n => 0 <= n) sh -> 0 <= vol sh.
Proof. induction 1; simpl; nia. Qed.

Lemma row_major_vol sh : snd (row_major sh) = vol sh.
Proof. induction sh as [|n sh IH]; simpl; [reflexivity|]. destruct (row_major sh). simpl in *. subst. lia. Qed.

Lemma row_major_strides sh : fst (row_major sh) =
  match sh with [] => [] | _ :: sh' => vol sh' :: fst (row_major sh') end.
Proof.
  destruct sh as [|n sh]; [reflexivity|]. simpl. pose proof (row_major_vol sh).
  destruct (row_major sh). simpl in *. subst. reflexivity.
Qed.

Lemma row_major_length sh : length (fst (row_major sh)) = length sh.
Proof. induction sh as [|n sh IH]; [reflexivity|]. rewrite row_major_strides. simpl. congruence. Qed.

Lemma flat_index_dot st is_ : flat_index st is_ = dot st is_.
Proof. revert is_; induction st as [|s st IH]; intros [|i is_]; simpl; auto. Qed.

Lemma dot_row_major sh is_ : valid_idx sh is_ -> dot (fst (row_major sh)) is_ = position sh is_.
Proof.
  induction 1 as [|n i sh is_ Hi Hv IH]; [reflexivity|]. rewrite row_major_strides. simpl.
  rewrite IH. lia.
Qed.

Lemma valid_vol_pos sh is_ : valid_idx sh is_ -> 0 < vol sh.
Proof. induction 1; simpl; nia. Qed.

Lemma position_bound sh is_ : valid_idx sh is_ -> 0 <= position sh is_ < vol sh.
Proof.
  induction 1 as [|n i sh is_ Hi Hv IH]; simpl; [lia|]. pose proof (valid_vol_pos _ _ Hv). nia.
Qed.

Lemma index_at_position sh is_ : valid_idx sh is_ -> index_at sh (position sh is_) = is_.
Proof.
  induction 1 as [|n i sh is_ Hi Hv IH]; [reflexivity|]. simpl.
  pose proof (position_bound _ _ Hv). pose proof (valid_vol_pos _ _ Hv).
  rewrite Z.add_comm, Z.div_add, Z.mod_add by lia.
  rewrite Z.div_small, Z.mod_small by lia. rewrite IH. f_equal.
Qed.

Lemma vol_pos_all sh : Forall (fun n => 0 <= n) sh -> 0 < vol sh -> Forall (fun n => 0 < n) sh.
Proof.
  induction 1 as [|n sh Hn Hf IH]; intros H; [constructor|]. simpl in H.
  pose proof (vol_nonneg _ Hf). constructor; [nia|]. apply IH. nia.
Qed.

Lemma vol_pos sh : Forall (fun n => 0 < n) sh -> 0 < vol sh.
Proof. induction 1; simpl; nia. Qed.

Lemma position_index_at sh k : Forall (fun n => 0 <= n) sh -> 0 <= k < vol sh ->
  valid_idx sh (index_at sh k) /\ position sh (index_at sh k) = k.
Proof.
  intros Hf. revert k; induction Hf as [|n sh Hn Hf IH]; intros k Hk; simpl in *.
  - split; [constructor|lia].
  - pose proof (vol_nonneg _ Hf).
    assert (0 < vol sh) by nia.
    destruct (IH (k mod vol sh)) as [Hv Hp]; [apply Z.mod_pos_bound; lia|].
    split.
    + constructor; [|assumption]. split; [apply Z.div_pos; lia|]. apply Z.div_lt_upper_bound; nia.
    + rewrite Hp. rewrite Z.mul_comm. symmetry. apply Z.div_mod. lia.
Qed.

(** ** extract_indices (column-major) *)
Fixpoint digits (sh : list Z) (k : Z) : list Z :=
  match sh with
  | [] => []
  | [_] => [k]
  | n :: sh' => (k mod n) :: digits sh' (k / n)
  end.

Lemma extract_digits sh : forall k, sh <> [] -> Forall (fun n => 0 < n) sh -> 0 <= k ->
  extract_indices k sh = digits sh k.
Proof.
  induction sh as [|n sh IH]; intros k Hne Hf Hk; [congruence|].
  inversion Hf; subst. destruct sh as [|n' sh]; [reflexivity|].
  cbn [extract_indices digits]. destruct (Z.eqb_spec n 0); [lia|]. cbv zeta.
  rewrite Z.quot_div_nonneg by lia. f_equal.
  - rewrite Z.mod_eq by lia. ring.
  - apply IH; [discriminate|assumption|apply Z.div_pos; lia].
Qed.

Lemma vol_app a b : vol (a ++ b) = vol a * vol b.
Proof. induction a as [|n a IH]; [cbn [vol app]; lia|]. cbn [vol app]. rewrite IH. ring. Qed.

Lemma vol_rev a : vol (rev a) = vol a.
Proof. induction a as [|n a IH]; [reflexivity|]. simpl. rewrite vol_app, IH. simpl. lia. Qed.

(** The digits of a position in range, innermost first, are the row-major index reversed. *)
Lemma digits_snoc sh n k : sh <> [] -> Forall (fun n => 0 < n) sh -> 0 <= k ->
  digits (sh ++ [n]) k = digits sh (k mod vol sh) ++ [k / vol sh].
Proof.
  revert k. induction sh as [|m sh IH]; intros k Hne Hf Hk; [congruence|].
  inversion Hf; subst. destruct sh as [|m' sh].
  - cbn [digits app vol]. rewrite !Z.mul_1_r. reflexivity.
  - assert (0 < vol (m' :: sh)) by (apply vol_pos; assumption).
    cbn [app]. change (digits (m :: m' :: sh ++ [n]) k) with ((k mod m) :: digits ((m' :: sh) ++ [n]) (k / m)).
    rewrite IH; [|discriminate|assumption|apply Z.div_pos; lia].
    change (digits (m :: m' :: sh) (k mod vol (m :: m' :: sh)))
      with (((k mod vol (m :: m' :: sh)) mod m) :: digits (m' :: sh) ((k mod vol (m :: m' :: sh)) / m)).
    change (vol (m :: m' :: sh)) with (m * vol (m' :: sh)).
    rewrite Z.rem_mul_r by lia.
    replace (k mod m + m * ((k / m) mod vol (m' :: sh))) with ((k / m) mod vol (m' :: sh) * m + k mod m) by lia.
    rewrite Z.div_add_l by lia. rewrite (Z.div_small (k mod m)) by (apply Z.mod_pos_bound; lia).
    rewrite Z.add_0_r. rewrite (Z.add_comm (_ * m)), Z.mod_add by lia. rewrite Z.mod_mod by lia.
    rewrite Z.div_div by lia. reflexivity.
Qed.

Lemma digits_rev_index_at sh k : Forall (fun n => 0 < n) sh -> 0 <= k ->
  sh <> [] -> rev (digits (rev sh) k) = index_at sh k.
Proof.
  intros Hf. revert k. induction Hf as [|n sh Hn Hf IH]; intros k Hk Hne; [congruence|].
  simpl rev. destruct sh as [|m sh].
  - simpl. rewrite Z.div_1_r. reflexivity.
  - assert (0 < vol (m :: sh)) by (apply vol_pos; assumption).
    rewrite digits_snoc; [|intros E; apply (f_equal (@length Z)) in E; rewrite rev_length in E; discriminate
                          |apply Forall_rev; assumption|assumption].
    rewrite vol_rev, rev_app_distr. simpl rev at 1. cbn [app].
    rewrite IH; [reflexivity|apply Z.mod_pos_bound; lia|discriminate].
Qed.

(** Round trip of the two functions of index_composition.h on the reversed (column-major) shape. *)
Lemma extract_flat_roundtrip sh k : sh <> [] -> Forall (fun n => 0 < n) sh -> 0 <= k < vol sh ->
  rev (extract_indices k (rev sh)) = index_at sh k /\
  flat_index (fst (row_major sh)) (rev (extract_indices k (rev sh))) = k.
Proof.
  intros Hne Hf Hk.
  assert (rev sh <> []) as Hne' by (intros E; apply Hne; rewrite <- (rev_involutive sh), E; reflexivity).
  assert (Forall (fun n => 0 <= n) sh) as Hf0 by (eapply Forall_impl; [|exact Hf]; simpl; lia).
  rewrite extract_digits; [|assumption|apply Forall_rev; assumption|lia].
  rewrite digits_rev_index_at by (assumption || lia). split; [reflexivity|].
  destruct (position_index_at sh k Hf0 Hk) as [Hv Hp].
  rewrite flat_index_dot, dot_row_major by assumption. assumption.
Qed.

Lemma skipn_row_major sh i s : nth_error (fst (row_major sh)) i = Some s ->
  s = vol (skipn (S i) sh).
Proof.
  revert i; induction sh as [|n sh IH]; intros i H; [destruct i; discriminate|].
  rewrite row_major_strides in H. destruct i as [|i]; simpl in H.
  - injection H as <-. reflexivity.
  - apply IH in H. exact H.
Qed.

Lemma dims_offset_ok d k : wf d -> In k (labels d) ->
  exists i s, nth_error (labels d) i = Some k /\ nth_error (strides_of d) i = Some s /\
              dims_offset d k = Ok s.
Proof.
  intros (Hnd & Hl & _) Hk. apply In_nth_error in Hk as [i Hi].
  assert (i < length (shape d))%nat as Hlt by (unfold shape; rewrite Hl; apply nth_error_Some; unfold labels in Hi; congruence).
  destruct (nth_some_of_lt (strides_of d) i) as [s Hs]; [unfold strides_of; rewrite row_major_length; assumption|].
  exists i, s. split; [assumption|]. split; [assumption|].
  unfold dims_offset, dindex, mindex. unfold labels in Hi.
  rewrite (find_index_nodup _ Zeqb_spec _ _ _ Hnd Hi). cbn [bind]. rewrite Nat2Z.id, fold_left_mul.
  rewrite <- (skipn_row_major _ _ _ Hs). f_equal. lia.
Qed.

(** ** Histories of Sizes operations *)
Definition nonneg_content (s : omap Z Z) : Prop := forall k n, o_content s k = Some n -> 0 <= n.

Lemma ohas_some (s : omap Z Z) k : ohas s k = match o_content s k with Some _ => true | None => false end.
Proof. reflexivity. Qed.

Lemma Inv_dcontains d s k : Inv d s -> dcontains d k = ohas s k.
Proof. intros HI. destruct (Inv_shows _ Zeqb_spec DimensionError _ _ HI) as (_&_&_&Hc&_). apply Hc. Qed.
Lemma Inv_dat d s k : Inv d s -> dat d k = match o_content s k with Some v => Ok v | None => Throw DimensionError end.
Proof. intros HI. destruct (Inv_shows _ Zeqb_spec DimensionError _ _ HI) as (_&_&_&_&Hc&_). apply Hc. Qed.

Lemma ceil_quot a b : 0 <= a -> 0 < b ->
  Z.max 0 (Z.quot a b + (if Z.rem a b =? 0 then 0 else 1)) = ceil_div a b.
Proof.
  intros Ha Hb. unfold ceil_div. rewrite Z.quot_div_nonneg, Z.rem_mod_nonneg by lia.
  destruct (Z.eqb_spec (a mod b) 0); Z.div_mod_to_equations; nia.
Qed.

Lemma sizes_slice_Inv d s sl : Inv d s -> slice_eqb sl slice_default = false -> 0 <= s_begin sl ->
  0 < s_stride sl -> s_end sl = -1 \/ s_begin sl <= s_end sl ->
  match (if s_end sl =? -1 then sz_slice_point s (s_dim sl) (s_begin sl)
         else match o_content s (s_dim sl) with
         | Some x => if s_end sl <=? x
                     then inl (mkomap (o_order s) (oput Z.eqb s (s_dim sl) (ceil_div (s_end sl - s_begin sl) (s_stride sl))))
                     else inr SliceError
         | None => inr SliceError
         end) with
  | inl s' => exists d', sizes_slice d sl = Ok d' /\ Inv d' s'
  | inr e => sizes_slice d sl = Throw e
  end.
Proof.
  intros HI Hdef Hb Hst He. unfold sizes_slice, valid_slice. rewrite Hdef, (Inv_dcontains _ _ _ HI), (Inv_dat _ _ _ HI).
  rewrite ohas_some. unfold sz_slice_point, is_range.
  pose proof (sm_step_refines _ Zeqb_spec _ _ (SmErase (s_dim sl)) HI) as Her. simpl in Her. rewrite ohas_some in Her.
  pose proof (sm_step_refines _ Zeqb_spec _ _ (SmAssign (s_dim sl) (ceil_div (s_end sl - s_begin sl) (s_stride sl))) HI) as Has.
  simpl in Has. rewrite ohas_some in Has.
  destruct (Z.eqb_spec (s_end sl) (-1)) as [E|E].
  - rewrite E. cbn [Z.ltb Z.compare]. destruct (o_content s (s_dim sl)) as [x|]; cbn [negb bind]; [|reflexivity].
    destruct (Z.gtb_spec (s_begin sl + 1) x), (Z.ltb_spec (s_begin sl) x); try lia; cbn [bind]; [reflexivity|exact Her].
  - assert (s_begin sl <= s_end sl) as Hle by (destruct He; [contradiction|assumption]).
    destruct (Z.ltb_spec (s_end sl) 0); [lia|].
    destruct (o_content s (s_dim sl)) as [x|]; cbn [negb bind]; [|reflexivity].
    destruct (Z.gtb_spec (s_end sl) x), (Z.leb_spec (s_end sl) x); try lia; cbn [bind]; [reflexivity|].
    destruct (Z.eqb_spec (s_stride sl) 0); [lia|].
    rewrite ceil_quot by lia. unfold sizes_resize, valid_extent.
    destruct (Z.ltb_spec (ceil_div (s_end sl - s_begin sl) (s_stride sl)) 0) as [Hneg|]; [|exact Has].
    exfalso. unfold ceil_div in Hneg. assert (0 <= (s_end sl - s_begin sl + s_stride sl - 1) / s_stride sl); [|lia].
    apply Z.div_pos; lia.
Qed.

Lemma not_default_begin d b e st : 0 <= b -> slice_eqb (mkslice d b e st) slice_default = false.
Proof.
  intros Hb. unfold slice_eqb. simpl. destruct (Z.eqb_spec b (-1)); [lia|].
  rewrite andb_false_r. reflexivity.
Qed.

Lemma sz_step_refines m s o : Inv m s ->
  match sz_spec s o with
  | inl s' => exists m', sz_step m o = Ok m' /\ Inv m' s'
  | inr e => sz_step m o = Throw e
  end.
Proof.
  intros HI.
  destruct o as [d n|d n|d|d d'| |d n|d n|d b e st|d b]; cbn [sz_step sz_spec].
  - unfold sizes_set, valid_dim, valid_extent.
    destruct (d =? InvalidDim); [reflexivity|]. cbn [bind orb]. destruct (n <? 0); [reflexivity|]. cbn [bind].
    rewrite (Inv_dcontains _ _ _ HI), (Inv_dat _ _ _ HI), ohas_some.
    pose proof (sm_step_refines _ Zeqb_spec _ _ (SmInsertRight d n) HI) as H. simpl in H. rewrite ohas_some in H.
    destruct (o_content s d) as [x|]; cbn [bind]; [|exact H].
    destruct (x =? n); cbn [bind]; [eauto|reflexivity].
  - unfold sizes_resize, valid_extent. destruct (n <? 0); [reflexivity|]. cbn [bind orb].
    pose proof (sm_step_refines _ Zeqb_spec _ _ (SmAssign d n) HI) as H. simpl in H.
    destruct (ohas s d); exact H.
  - exact (sm_step_refines _ Zeqb_spec _ _ (SmErase d) HI).
  - exact (sm_step_refines _ Zeqb_spec _ _ (SmReplaceKey d d') HI).
  - exact (sm_step_refines _ Zeqb_spec _ _ SmClear HI).
  - unfold dims_add, valid_dim, valid_extent.
    destruct (d =? InvalidDim); [reflexivity|]. cbn [bind orb]. destruct (n <? 0); [reflexivity|]. cbn [bind].
    exact (sm_step_refines _ Zeqb_spec _ _ (SmInsertLeft d n) HI).
  - unfold add_inner, valid_dim, valid_extent.
    destruct (d =? InvalidDim); [reflexivity|]. cbn [bind orb]. destruct (n <? 0); [reflexivity|]. cbn [bind].
    exact (sm_step_refines _ Zeqb_spec _ _ (SmInsertRight d n) HI).
  - unfold slice_range.
    destruct (Z.ltb_spec b 0) as [Hb|Hb]; [reflexivity|]. cbn [orb].
    destruct (Z.leb_spec st 0) as [Hst|Hst].
    + destruct (negb (e =? -1) && (b >? e)); [reflexivity|].
      destruct (Z.eqb_spec st 0); [reflexivity|]. destruct (Z.ltb_spec st 0); [reflexivity|lia].
    + destruct (Z.eqb_spec st 0); [lia|]. destruct (Z.ltb_spec st 0); [lia|].
      pose proof (sizes_slice_Inv m s (mkslice d b e st) HI (not_default_begin d b e st Hb) Hb Hst) as HS.
      cbn [s_dim s_begin s_end s_stride] in HS.
      destruct (Z.eqb_spec e (-1)) as [->|E]; cbn [negb andb].
      * cbn [bind]. apply HS. auto.
      * destruct (Z.gtb_spec b e), (Z.ltb_spec e b); try lia; [reflexivity|]. cbn [bind]. apply HS. lia.
  - unfold slice_point. destruct (Z.ltb_spec b 0) as [Hb|Hb]; [reflexivity|]. cbn [bind].
    pose proof (sizes_slice_Inv m s (mkslice d b (-1) 1) HI (not_default_begin _ _ _ _ Hb) Hb) as H.
    apply H; simpl; auto. lia.
Qed.

Lemma sz_spec_nonneg s o s' : nonneg_content s -> sz_spec s o = inl s' -> nonneg_content s'.
Proof.
  intros Hs. unfold nonneg_content in *.
  assert (Hput : forall d n l, 0 <= n -> forall k x, o_content (mkomap l (oput Z.eqb s d n)) k = Some x -> 0 <= x).
  { intros d n l Hn k x. simpl. unfold oput. destruct (k =? d); [intros [= <-]; assumption|apply Hs]. }
  assert (Hdel : forall d k x, o_content (odel Z.eqb s d) k = Some x -> 0 <= x).
  { intros d k x. simpl. destruct (k =? d); [discriminate|apply Hs]. }
  assert (Hpt : forall d b t, sz_slice_point s d b = inl t -> forall k x, o_content t k = Some x -> 0 <= x).
  { intros d b t. unfold sz_slice_point. destruct (o_content s d) as [y|]; [|discriminate].
    destruct (b <? y); [|discriminate]. intros [= <-]. apply Hdel. }
  destruct o as [d n|d n|d|d d'| |d n|d n|d b e st|d b]; cbn [sz_spec sm_spec].
  - destruct (d =? InvalidDim); [discriminate|]. cbn [orb]. destruct (Z.ltb_spec n 0); [discriminate|].
    destruct (o_content s d) as [x|]; [destruct (x =? n); [intros [= <-]; assumption|discriminate]|].
    intros [= <-]. apply Hput; assumption.
  - destruct (Z.ltb_spec n 0); [discriminate|]. cbn [orb]. destruct (negb (ohas s d)); [discriminate|].
    intros [= <-]. apply Hput; assumption.
  - destruct (ohas s d); [|discriminate]. intros [= <-]. apply Hdel.
  - destruct (negb (d =? d') && ohas s d'); [discriminate|]. destruct (ohas s d); [|discriminate].
    intros [= <-] k x. simpl. destruct (k =? d'); [apply Hs|]. destruct (k =? d); [discriminate|apply Hs].
  - intros [= <-] k x. discriminate.
  - destruct (d =? InvalidDim); [discriminate|]. cbn [orb]. destruct (Z.ltb_spec n 0); [discriminate|].
    destruct (ohas s d); [discriminate|]. intros [= <-]. apply Hput; assumption.
  - destruct (d =? InvalidDim); [discriminate|]. cbn [orb]. destruct (Z.ltb_spec n 0); [discriminate|].
    destruct (ohas s d); [discriminate|]. intros [= <-]. apply Hput; assumption.
  - destruct (Z.ltb_spec b 0); [discriminate|]. destruct (Z.leb_spec st 0); [discriminate|]. cbn [orb].
    destruct (e =? -1); [apply Hpt|]. destruct (Z.ltb_spec e b); [discriminate|].
    destruct (o_content s d) as [x|]; [|discriminate]. destruct (e <=? x); [|discriminate].
    intros [= <-]. apply Hput. unfold ceil_div. apply Z.div_pos; lia.
  - destruct (b <? 0); [discriminate|]. apply Hpt.
Qed.

Lemma sz_orun_nonneg os : forall s, nonneg_content s -> nonneg_content (fst (orun sz_spec s os)).
Proof.
  induction os as [|o os IH]; intros s Hs; simpl; [assumption|].
  destruct (sz_spec s o) as [s'|e] eqn:E.
  - specialize (IH s' (sz_spec_nonneg _ _ _ Hs E)). destruct (orun sz_spec s' os). assumption.
  - specialize (IH s Hs). destruct (orun sz_spec s os). assumption.
Qed.

Lemma sz_refines os : exists m,
  run sz_step mempty os = Ok (m, snd (orun sz_spec oempty os)) /\
  shows Z.eqb DimensionError m (fst (orun sz_spec oempty os)) /\
  Forall (fun n => 0 <= n) (shape m).
Proof.
  destruct (run_refines _ _ sz_step_refines os _ _ Inv_empty) as (m & H & HI).
  exists m. split; [exact H|]. split; [apply (Inv_shows _ Zeqb_spec); assumption|].
  apply Forall_forall. intros n Hn. apply In_nth_error in Hn as [i Hi].
  assert (nonneg_content (fst (orun sz_spec oempty os))) as Hnn by (apply sz_orun_nonneg; discriminate).
  destruct HI as (Hk & _ & Hl & Hc & _). unfold shape in Hi.
  assert (i < length (m_keys m))%nat as Hlt by (rewrite <- Hl; apply nth_error_Some; congruence).
  destruct (nth_some_of_lt _ _ Hlt) as [k Hki]. rewrite Hk in Hki. specialize (Hc _ _ Hki).
  rewrite Hi in Hc. apply (Hnn _ _ Hc).
Qed.

(** ceil_div counts the positions of the range. *)
Lemma ceil_div_count b e st i : b <= e -> 0 < st -> 0 <= i -> (i < ceil_div (e - b) st <-> b + i * st < e).
Proof.
  intros Hbe Hst Hi. unfold ceil_div. split; intros H.
  - assert (i * st < e - b); [|lia].
    assert (i + 1 <= (e - b + st - 1) / st) as H' by lia.
    assert ((i + 1) * st <= e - b + st - 1); [|nia].
    transitivity ((e - b + st - 1) / st * st); [nia|]. rewrite Z.mul_comm. apply Z.mul_div_le. lia.
  - assert (i + 1 <= (e - b + st - 1) / st); [|lia]. apply Z.div_le_lower_bound; nia.
Qed.

(** ** rename *)
Lemma mreplace_key_same (d : sizes) f t : NoDup (m_keys d) -> In f (m_keys d) ->
  mreplace_key Z.eqb d f t =
    if negb (f =? t) && memb d t then Throw DimensionError
    else Ok (mkmap (map (fun x => if x =? f then t else x) (m_keys d)) (m_values d)).
Proof.
  intros Hnd Hf. apply In_nth_error in Hf as [i Hi]. unfold mreplace_key, mexpect_unique, mindex.
  change (mcontains Z.eqb d t) with (dcontains d t). rewrite dcontains_memb.
  rewrite (find_index_nodup _ Zeqb_spec _ _ _ Hnd Hi).
  assert (i < length (m_keys d))%nat by (apply nth_error_Some; congruence).
  destruct (f =? t); cbn [negb andb bind]; [|destruct (memb d t); cbn [bind]; [reflexivity|]];
    rewrite vset_nat by assumption; cbn [bind];
    rewrite (map_replace_upd _ Zeqb_spec f t (m_keys d) i Hnd) by assumption; reflexivity.
Qed.

Lemma renamed_notin names x : ~ In x (map fst names) -> renamed names x = x.
Proof.
  induction names as [|[f t] names IH]; simpl; intros H; [reflexivity|].
  destruct (Z.eqb_spec x f); [subst; tauto|apply IH; tauto].
Qed.

Lemma chain_free_tl f t names : chain_free ((f, t) :: names) -> chain_free names.
Proof.
  intros [Hnd H]. simpl in Hnd. inversion Hnd; subst. split; [assumption|].
  intros f1 t1 f2 t2 Ha1 Ha2. apply (H f1 t1 f2 t2); right; assumption.
Qed.

Lemma renamed_to names f t : chain_free ((f, t) :: names) -> renamed names t = t.
Proof.
  intros [Hnd H]. apply renamed_notin. intros Hin. apply in_map_iff in Hin as ([f' t'] & Heq & Hin).
  simpl in Heq. subst f'. assert (t = f) as -> by (eapply H; [left; reflexivity|right; eassumption|reflexivity]).
  simpl in Hnd. inversion Hnd as [|? ? Hn _]; subst. apply Hn. apply in_map_iff. exists (f, t'). auto.
Qed.

Lemma NoDup_dec_Z (l : list Z) : NoDup l \/ ~ NoDup l.
Proof.
  induction l as [|x l IH]; [left; constructor|].
  destruct (in_dec Z.eq_dec x l); [right; inversion 1; contradiction|].
  destruct IH; [left; constructor; assumption|right; inversion 1; contradiction].
Qed.

Lemma NoDup_map_inj_dup (g : Z -> Z) l a b : In a l -> In b l -> a <> b -> g a = g b -> ~ NoDup (map g l).
Proof.
  intros Ha Hb Hne Hg Hnd. apply in_split in Ha as (l1 & l2 & ->).
  rewrite map_app in Hnd. simpl in Hnd. apply NoDup_remove_2 in Hnd. apply Hnd.
  rewrite <- map_app, Hg. apply in_map. rewrite in_app_iff in *. simpl in Hb. intuition congruence.
Qed.

Lemma map_subst_NoDup (l : list Z) f t : NoDup l -> (f = t \/ ~ In t l) -> NoDup (map (fun x => if x =? f then t else x) l).
Proof.
  induction 1 as [|x l Hx Hnd IH]; intros Ht; simpl; [constructor|]. constructor.
  - intros Hin. apply in_map_iff in Hin as (y & Hy & Hyl). destruct Ht as [<-|Ht].
    + assert (y = x) as -> by (destruct (Z.eqb_spec x f), (Z.eqb_spec y f); congruence). contradiction.
    + simpl in Ht. destruct (Z.eqb_spec x f), (Z.eqb_spec y f); subst; tauto.
  - apply IH. simpl in Ht. tauto.
Qed.

Lemma rename_dims_ok names : forall d flag, NoDup (m_keys d) -> chain_free names ->
  ((flag = true -> forall f, In f (map fst names) -> In f (m_keys d)) /\
   NoDup (map (renamed names) (m_keys d)) ->
     rename_dims d names flag = Ok (mkmap (map (renamed names) (m_keys d)) (m_values d))) /\
  (~ ((flag = true -> forall f, In f (map fst names) -> In f (m_keys d)) /\
      NoDup (map (renamed names) (m_keys d))) ->
     rename_dims d names flag = Throw DimensionError).
Proof.
  induction names as [|[f t] names IH]; intros d flag Hnd Hcf.
  - simpl. replace (map (fun x => x) (m_keys d)) with (m_keys d) by (symmetry; apply map_id).
    split; [intros _; destruct d; reflexivity|]. intros H. exfalso. apply H. split; [tauto|assumption].
  - pose proof (chain_free_tl _ _ _ Hcf) as Hcf'. pose proof (renamed_to _ _ _ Hcf) as Hto.
    assert (~ In f (map fst names)) as Hfn by (destruct Hcf as [Hn _]; simpl in Hn; inversion Hn; assumption).
    cbn [rename_dims]. rewrite dcontains_memb. destruct (memb d f) eqn:Ef.
    + apply memb_In in Ef as Hf. rewrite mreplace_key_same by assumption.
      destruct (negb (f =? t) && memb d t) eqn:Et; cbn [bind].
      * apply andb_true_iff in Et as [E1 E2]. apply memb_In in E2. apply negb_true_iff, Z.eqb_neq in E1.
        split; [|reflexivity]. intros [_ Hdup]. exfalso. revert Hdup.
        apply (NoDup_map_inj_dup _ _ f t Hf E2 E1). simpl. rewrite Z.eqb_refl.
        destruct (Z.eqb_spec t f); [congruence|]. symmetry. assumption.
      * set (d' := mkmap _ _).
        assert (Hmap : map (renamed names) (m_keys d') = map (renamed ((f, t) :: names)) (m_keys d)).
        { unfold d'; simpl. rewrite map_map. apply map_ext. intros x. destruct (x =? f); [assumption|reflexivity]. }
        assert (Hnd' : NoDup (m_keys d')).
        { unfold d'; simpl. apply map_subst_NoDup; [assumption|]. apply andb_false_iff in Et as [E|E].
          - left. apply negb_false_iff, Z.eqb_eq in E. assumption.
          - right. rewrite <- memb_In, E. discriminate. }
        assert (Hfroms : (forall g, In g (map fst names) -> In g (m_keys d')) <->
                         (forall g, In g (map fst ((f, t) :: names)) -> In g (m_keys d))).
        { simpl. split.
          - intros H g [<-|Hg]; [assumption|]. specialize (H g Hg). apply in_map_iff in H as (y & Hy & Hyl).
            destruct (Z.eqb_spec y f); [|congruence]. subst.
            (* g = t is a from label: excluded *)
            exfalso. apply in_map_iff in Hg as ([g' t'] & Hg1 & Hg2). simpl in Hg1. subst g'.
            assert (g = f) as -> by (destruct Hcf as [_ Hc]; eapply (Hc f g g t'); [left; reflexivity|right; assumption|reflexivity]).
            apply Hfn. apply in_map_iff. exists (f, t'). auto.
          - intros H g Hg. apply in_map_iff. exists g. split; [|auto].
            destruct (Z.eqb_spec g f); [subst; contradiction|reflexivity]. }
        specialize (IH d' flag Hnd' Hcf'). rewrite Hmap in IH.
        destruct IH as [IH1 IH2]. split.
        -- intros [H1 H2]. rewrite IH1; [reflexivity|]. split; [|assumption]. intros ->. apply Hfroms. auto.
        -- intros H. apply IH2. intros [H1 H2]. apply H. split; [|assumption]. intros ->. apply Hfroms. auto.
    + assert (~ In f (m_keys d)) as Hf by (rewrite <- memb_In, Ef; discriminate).
      assert (Hmap : map (renamed names) (m_keys d) = map (renamed ((f, t) :: names)) (m_keys d)).
      { apply map_ext_in. intros x Hx. simpl. destruct (Z.eqb_spec x f); [subst; contradiction|reflexivity]. }
      destruct flag.
      * split; [|reflexivity]. intros [H _]. exfalso. apply Hf, H; [reflexivity|left; reflexivity].
      * specialize (IH d false Hnd Hcf'). rewrite Hmap in IH. destruct IH as [IH1 IH2]. split.
        -- intros [_ H]. apply IH1. split; [discriminate|assumption].
        -- intros H. apply IH2. intros [_ H2]. apply H. split; [discriminate|assumption].
Qed.

(** ** Construction and transpose *)
Lemma add_inner_all_ok : forall ls ns m, length ls = length ns -> wf m ->
  (NoDup (m_keys m ++ ls) /\ Forall (fun n => 0 <= n) ns /\ ~ In InvalidDim ls ->
     exists m', add_inner_all m ls ns = Ok m' /\ wf m' /\ m_keys m' = m_keys m ++ ls /\ m_values m' = m_values m ++ ns) /\
  (~ (NoDup (m_keys m ++ ls) /\ Forall (fun n => 0 <= n) ns /\ ~ In InvalidDim ls) ->
     add_inner_all m ls ns = Throw DimensionError).
Proof.
  induction ls as [|l ls IH]; intros [|n ns] m Hlen Hwf; try discriminate; cbn [add_inner_all].
  - split; [intros _; exists m; rewrite !app_nil_r; auto|].
    intros H. exfalso. apply H. rewrite app_nil_r. repeat split; [apply Hwf|constructor|tauto].
  - destruct (Z.eq_dec l InvalidDim) as [->|Hl].
    { unfold add_inner, valid_dim. rewrite Z.eqb_refl. cbn [bind]. split; [|reflexivity].
      intros (_ & _ & H). exfalso. apply H. left. reflexivity. }
    destruct (Z_lt_ge_dec n 0) as [Hn|Hn].
    { unfold add_inner, valid_dim, valid_extent. destruct (Z.eqb_spec l InvalidDim); [contradiction|]. cbn [bind].
      destruct (Z.ltb_spec n 0); [|lia]. cbn [bind]. split; [|reflexivity].
      intros (_ & Hx & _). exfalso. inversion Hx; subst. lia. }
    destruct (in_dec Z.eq_dec l (m_keys m)) as [Hin|Hin].
    { unfold add_inner, valid_dim, valid_extent. destruct (Z.eqb_spec l InvalidDim); [contradiction|]. cbn [bind].
      destruct (Z.ltb_spec n 0); [lia|]. cbn [bind]. unfold minsert_right, mexpect_unique.
      change (mcontains Z.eqb m l) with (dcontains m l). rewrite dcontains_memb.
      assert (memb m l = true) as -> by (apply memb_In; assumption). cbn [bind]. split; [|reflexivity].
      intros (Hx & _). exfalso. apply NoDup_remove_2 in Hx. apply Hx, in_app_iff. auto. }
    destruct (add_inner_ok m l n Hwf Hin ltac:(lia) Hl) as (m' & -> & Hwf' & Hk & Hv & _). cbn [bind].
    simpl in Hlen. destruct (IH ns m' ltac:(lia) Hwf') as [IH1 IH2]. rewrite Hk, Hv, <- !app_assoc in *. cbn [app] in *.
    split.
    + intros (H1 & H2 & H3). inversion H2; subst. destruct IH1 as (m'' & -> & Hw & Hk' & Hv').
      { repeat split; [assumption|assumption|]. intros H; apply H3; right; assumption. }
      exists m''. auto.
    + intros H. apply IH2. intros (H1 & H2 & H3). apply H. repeat split; [assumption|constructor; [lia|assumption]|].
      intros [?|?]; congruence || tauto.
Qed.

Lemma make_dims_ok ls ns :
  (length ls = length ns /\ NoDup ls /\ Forall (fun n => 0 <= n) ns /\ ~ In InvalidDim ls ->
     exists m, make_dims ls ns = Ok m /\ wf m /\ labels m = ls /\ shape m = ns) /\
  (~ (length ls = length ns /\ NoDup ls /\ Forall (fun n => 0 <= n) ns /\ ~ In InvalidDim ls) ->
     make_dims ls ns = Throw DimensionError).
Proof.
  unfold make_dims, zlen. destruct (Z.eqb_spec (Z.of_nat (length ls)) (Z.of_nat (length ns))) as [E|E].
  - apply Nat2Z.inj in E. destruct (add_inner_all_ok ls ns mempty E wf_empty) as [H1 H2]. simpl in H1, H2. split.
    + intros (_ & H). destruct (H1 H) as (m & ? & ? & ? & ?). eauto.
    + intros H. apply H2. tauto.
  - split; [|reflexivity]. intros [H _]. congruence.
Qed.

Lemma lookup_all_ok d : wfm d -> forall ls,
  (incl ls (m_keys d) -> exists ns, lookup_all d ls = Ok ns /\ Forall2 (has d) ls ns) /\
  (~ incl ls (m_keys d) -> lookup_all d ls = Throw DimensionError).
Proof.
  intros Hd. induction ls as [|l ls [IH1 IH2]]; cbn [lookup_all].
  - split; [intros _; exists []; auto|]. intros H. exfalso. apply H. intros x [].
  - rewrite (dat_massoc _ _ Hd). destruct (massoc d l) as [n|] eqn:E; cbn [bind].
    + assert (In l (m_keys d)) as Hl by (apply (massoc_in _ _ Hd); congruence). split.
      * intros H. destruct IH1 as (ns & -> & Hf); [intros x Hx; apply H; right; assumption|]. cbn [bind].
        eexists; split; [reflexivity|]. constructor; [apply has_massoc; assumption|assumption].
      * intros H. rewrite IH2; [reflexivity|]. intros H'. apply H. intros x [<-|Hx]; [assumption|apply H'; assumption].
    + split; [|reflexivity]. intros H. exfalso. apply (massoc_in _ _ Hd) in E; [assumption|apply H; left; reflexivity].
Qed.

Lemma Forall2_has_combine d ls ns : wf d -> Forall2 (has d) ls ns ->
  length ls = length ns /\ Forall (fun n => 0 <= n) ns /\ (forall k n, In (k, n) (combine ls ns) -> has d k n).
Proof.
  intros Hd. induction 1 as [|l n ls ns Hh Hf (IH1 & IH2 & IH3)]; simpl.
  - repeat split; [constructor|tauto].
  - repeat split; [congruence|constructor; [apply (has_nonneg _ _ _ Hd Hh)|assumption]|].
    intros k m [E|Hin]; [injection E as <- <-; assumption|auto].
Qed.

Lemma incl_dec_Z (l l' : list Z) : incl l l' \/ ~ incl l l'.
Proof.
  destruct (forallb (fun x => existsb (Z.eqb x) l') l) eqn:E.
  - left. intros x Hx. rewrite forallb_forall in E. specialize (E x Hx). apply existsb_exists in E as (y & Hy & Hxy).
    apply Z.eqb_eq in Hxy. subst. assumption.
  - right. intros H. assert (forallb (fun x => existsb (Z.eqb x) l') l = true); [|congruence].
    apply forallb_forall. intros x Hx. apply existsb_exists. exists x. split; [apply H; assumption|apply Z.eqb_refl].
Qed.

Lemma transpose_impl_ok d ls : wf d ->
  (Permutation.Permutation ls (labels d) ->
     exists t, transpose_impl d ls = Ok t /\ wf t /\ labels t = ls /\ same_extents t d) /\
  (~ Permutation.Permutation ls (labels d) -> transpose_impl d ls = Throw DimensionError).
Proof.
  intros Hd. unfold transpose_impl, ndim, zlen. pose proof (lookup_all_ok d (wf_wfm _ Hd) ls) as [L1 L2]. split.
  - intros HP. rewrite (Permutation.Permutation_length HP), Z.eqb_refl.
    destruct L1 as (ns & -> & Hf).
    { intros x Hx. apply (Permutation.Permutation_in _ HP). assumption. }
    cbn [bind]. destruct (Forall2_has_combine d ls ns Hd Hf) as (Hl & Hnn & Hc).
    destruct (make_dims_ok ls ns) as [M _]. destruct M as (t & Ht & Hw & Hlt & Hst).
    { repeat split; [assumption| |assumption|].
      - apply (Permutation.Permutation_NoDup (Permutation.Permutation_sym HP)). apply Hd.
      - intros Hin. apply (Permutation.Permutation_in _ HP) in Hin. destruct Hd as (_&_&_&Hi). contradiction. }
    exists t. split; [assumption|]. split; [assumption|]. split; [assumption|].
    assert (Hto : forall k n, has t k n -> has d k n).
    { intros k n Hk. apply Hc. unfold has, pairs in Hk. unfold labels, shape in *. rewrite Hlt, Hst in Hk. assumption. }
    intros k n. split; [apply Hto|]. intros Hh.
    assert (In k (m_keys t)) as Hkt.
    { unfold labels in *. rewrite Hlt. apply (Permutation.Permutation_in _ (Permutation.Permutation_sym HP)).
      apply has_label_In; [apply wf_wfm; assumption|eexists; eauto]. }
    apply (has_label_In _ _ (wf_wfm _ Hw)) in Hkt as [n' Hn'].
    rewrite (has_fun d k n n' (wf_wfm _ Hd) Hh (Hto _ _ Hn')). assumption.
  - intros HP. destruct (Z.eqb_spec (Z.of_nat (length ls)) (Z.of_nat (length (labels d)))) as [E|E]; [|reflexivity].
    destruct (incl_dec_Z ls (m_keys d)) as [Hi|Hi]; [|rewrite L2 by assumption; reflexivity].
    destruct (L1 Hi) as (ns & -> & Hf). cbn [bind].
    apply (proj2 (make_dims_ok ls ns)). intros (_ & Hnd & _). apply HP.
    apply Permutation.NoDup_Permutation_bis; [assumption|unfold labels in *; lia|assumption].
Qed.

Lemma dims_transpose_ok d ls : wf d ->
  (ls <> [] -> Permutation.Permutation ls (labels d) ->
     exists t, dims_transpose d ls = Ok t /\ wf t /\ labels t = ls /\ same_extents t d) /\
  (ls <> [] -> ~ Permutation.Permutation ls (labels d) -> dims_transpose d ls = Throw DimensionError) /\
  (exists t, dims_transpose d [] = Ok t /\ wf t /\ labels t = rev (labels d) /\ same_extents t d).
Proof.
  intros Hd. split; [|split].
  - intros Hne. destruct ls; [congruence|]. apply transpose_impl_ok. assumption.
  - intros Hne. destruct ls; [congruence|]. apply transpose_impl_ok. assumption.
  - apply (transpose_impl_ok d (rev (labels d)) Hd). apply Permutation.Permutation_sym, Permutation.Permutation_rev.
Qed.

Lemma flat_index_row_major sh i : valid_idx sh i -> flat_index (fst (row_major sh)) i = position sh i.
Proof. intros H. rewrite flat_index_dot. apply dot_row_major. assumption. Qed.

Lemma positions_one_to_one sh : Forall (fun n => 0 <= n) sh ->
  (forall i, valid_idx sh i -> 0 <= flat_index (fst (row_major sh)) i < vol sh) /\
  (forall i j, valid_idx sh i -> valid_idx sh j ->
     flat_index (fst (row_major sh)) i = flat_index (fst (row_major sh)) j -> i = j) /\
  (forall k, 0 <= k < vol sh -> exists i, valid_idx sh i /\ flat_index (fst (row_major sh)) i = k).
Proof.
  intros Hf. split; [|split].
  - intros i Hi. rewrite flat_index_row_major by assumption. apply position_bound. assumption.
  - intros i j Hi Hj E. rewrite !flat_index_row_major in E by assumption.
    rewrite <- (index_at_position _ _ Hi), <- (index_at_position _ _ Hj), E. reflexivity.
  - intros k Hk. destruct (position_index_at sh k Hf Hk) as [Hv Hp].
    exists (index_at sh k). split; [assumption|]. rewrite flat_index_row_major by assumption. assumption.
Qed.

Lemma valid_idx_pos sh i : valid_idx sh i -> Forall (fun n => 0 < n) sh.
Proof. induction 1; constructor; lia || assumption. Qed.

Lemma flatten_then_extract sh i : sh <> [] -> valid_idx sh i ->
  rev (extract_indices (flat_index (fst (row_major sh)) i) (rev sh)) = i.
Proof.
  intros Hne Hi. rewrite flat_index_row_major by assumption.
  destruct (extract_flat_roundtrip sh (position sh i) Hne (valid_idx_pos _ _ Hi) (position_bound _ _ Hi)) as [H _].
  rewrite H. apply index_at_position. assumption.
Qed.

Lemma rename_refuted :
  (exists d names, NoDup (labels d) /\ NoDup (map fst names) /\ NoDup (map (renamed names) (labels d)) /\
     rename_dims d names false = Throw DimensionError) /\
  (exists d names d', NoDup (labels d) /\ NoDup (map fst names) /\ NoDup (map (renamed names) (labels d)) /\
     rename_dims d names false = Ok d' /\ labels d' <> map (renamed names) (labels d)).
Proof.
  split.
  - exists (mkmap [5; 6] [2; 3]), [(5, 6); (6, 5)].
    repeat split; vm_compute; try (repeat constructor; simpl; intuition discriminate).
  - exists (mkmap [5] [2]), [(5, 6); (6, 7)], (mkmap [7] [2]).
    repeat split; vm_compute; try (repeat constructor; simpl; intuition discriminate).
Qed.
