From Verif Require Import Base Map_Model Map_Proofs Dims_Model Dims_Spec View_Model View_Spec View_Proofs Index_Model Transform_Model Transform_Spec Machine_Proofs Transform_Proofs Variance_Model
  SizedDict_Model Equality_Model Union_Model Accumulate_Model Mask_Model DsArith_Model DsArith_Spec.

(** ** Comparisons of coords depend only on the buffers of the coords *)
Definition same_buffer (a b : buffer) : Prop :=
  b_unit a = b_unit b /\ b_dtype a = b_dtype b /\ (forall i, b_val a i = b_val b i) /\
  match b_var a, b_var b with None, None => True | Some f, Some g => forall i, f i = g i | _, _ => False end.
Lemma elements_ext f g v : (forall i, f i = g i) -> elements f v = elements g v.
Proof.
  intros Hfg. unfold elements. destruct (vi_make (shape (v_dims v)) (v_strides v)) as [ix|e|]; cbn [bind]; try reflexivity.
  destruct (vi_walk _ ix _) as [l|e|]; cbn [bind]; try reflexivity. f_equal. apply map_ext. intros a. apply Hfg.
Qed.
Lemma equals_impl_ext nan f f' g g' v w : (forall i, f i = f' i) -> (forall i, g i = g' i) -> equals_impl nan f g v w = equals_impl nan f' g' v w.
Proof. intros Hf Hg. unfold equals_impl. rewrite (elements_ext f f' v Hf), (elements_ext g g' w Hg). reflexivity. Qed.
Lemma compare_ext st st' nan a b : same_buffer (st (i_obj a)) (st' (i_obj a)) -> same_buffer (st (i_obj b)) (st' (i_obj b)) ->
  compare st nan a b = compare st' nan a b.
Proof.
  intros (A1 & A2 & A3 & A4) (B1 & B2 & B3 & B4). unfold compare. destruct (nan && is_same a b); [reflexivity|]. rewrite A1, B1, A2, B2.
  assert (Hv : forall x y, match b_var x, b_var y with None, None => True | Some f, Some g => forall i, f i = g i | _, _ => False end -> has_var x = has_var y).
  { intros x y. unfold has_var. destruct (b_var x), (b_var y); tauto. }
  rewrite (Hv _ _ A4), (Hv _ _ B4). unfold equals_data. rewrite (equals_impl_ext nan _ _ _ _ (i_var a) (i_var b) A3 B3).
  destruct (b_var (st (i_obj a))), (b_var (st' (i_obj a))); try contradiction; [|reflexivity].
  destruct (b_var (st (i_obj b))), (b_var (st' (i_obj b))); try contradiction; [|reflexivity].
  rewrite (equals_impl_ext nan _ _ _ _ (i_var a) (i_var b) A4 B4). reflexivity.
Qed.
Lemma sd_at_In d k i : sd_at d k = Ok i -> exists k', In (k', i) (ditems (sd_items d)).
Proof.
  unfold sd_at, mat. destruct (Map_Model.mindex Z.eqb NotFoundError (sd_items d) k) as [n|e|] eqn:En; cbn [bind]; try discriminate. unfold Map_Model.mindex in En.
  destruct (find_index Z.eqb k (m_keys (sd_items d))) as [j|] eqn:Ej; [|discriminate]. injection En as <-. intros Hg.
  rewrite vget_nat in Hg. destruct (nth_error (m_values (sd_items d)) j) as [v|] eqn:Ev; [|discriminate]. injection Hg as ->.
  apply (find_index_Some _ Z.eqb_spec) in Ej. exists k. unfold ditems. apply Dims_Proofs.in_combine_nth. eauto.
Qed.
Lemma superset_ext st st' a c : (forall k i, In (k, i) (ditems (sd_items a)) -> same_buffer (st (i_obj i)) (st' (i_obj i))) ->
  (forall k i, In (k, i) (ditems (sd_items c)) -> same_buffer (st (i_obj i)) (st' (i_obj i))) -> coords_are_superset st a c = coords_are_superset st' a c.
Proof.
  intros Ha. unfold coords_are_superset. induction (ditems (sd_items c)) as [|[k x] l IH]; intros Hc; [reflexivity|]. cbn [superset_loop].
  rewrite IH by (intros k' i Hi; apply (Hc k' i); right; exact Hi). destruct (sd_contains a k); cbn [negb]; [|reflexivity].
  destruct (sd_at a k) as [va|e|] eqn:Ea; cbn [bind]; try reflexivity. apply sd_at_In in Ea as [k' Ea].
  rewrite (compare_ext st st' false va x); [reflexivity|apply (Ha k' va Ea)|apply (Hc k x); left; reflexivity].
Qed.

(** ** Steps *)
Lemma in_place_heap {A} (f : list A -> A) h h2 out others tmp blocks h1 ps : transform_in_place f h out others tmp blocks = Ok (h1, ps) ->
  exists h1', transform_in_place f h2 out others tmp blocks = Ok (h1', ps).
Proof.
  unfold transform_in_place, transform_data. destruct (mapM _ others) as [u|e|]; cbn [bind]; try discriminate.
  destruct (expect_writable (a_var out)) as [w|e|]; cbn [bind]; try discriminate. unfold handle_overlap.
  assert (Hgo : forall os, (do dims <- Transform_Model.merge_all (a_dims out) (map a_dims os); do sts <- mapM (redim dims) (out :: os); do m <- mi_make (shape dims) sts;
     do ps0 <- in_place_programs f (out :: os) m (volume dims) (blocks dims); Ok ps0) = Ok ps ->
     forall g : heap A, (do dims <- Transform_Model.merge_all (a_dims out) (map a_dims os); do sts <- mapM (redim dims) (out :: os); do m <- mi_make (shape dims) sts;
     do ps0 <- in_place_programs f (out :: os) m (volume dims) (blocks dims); Ok (g, ps0)) = Ok (g, ps)).
  { intros os. destruct (Transform_Model.merge_all _ _) as [d|e|]; cbn [bind]; try discriminate. destruct (mapM (redim d) _) as [sts|e|]; cbn [bind]; try discriminate.
    destruct (mi_make _ sts) as [m|e|]; cbn [bind]; try discriminate. destruct (in_place_programs _ _ m _ _) as [p|e|]; cbn [bind]; try discriminate.
    intros Ep g. injection Ep as ->. reflexivity. }
  assert (Hback : forall os (g : heap A), (do dims <- Transform_Model.merge_all (a_dims out) (map a_dims os); do sts <- mapM (redim dims) (out :: os); do m <- mi_make (shape dims) sts;
     do ps0 <- in_place_programs f (out :: os) m (volume dims) (blocks dims); Ok (g, ps0)) = Ok (h1, ps) ->
     (do dims <- Transform_Model.merge_all (a_dims out) (map a_dims os); do sts <- mapM (redim dims) (out :: os); do m <- mi_make (shape dims) sts;
     do ps0 <- in_place_programs f (out :: os) m (volume dims) (blocks dims); Ok ps0) = Ok ps).
  { intros os g. destruct (Transform_Model.merge_all _ _) as [d|e|]; cbn [bind]; try discriminate. destruct (mapM (redim d) _) as [sts|e|]; cbn [bind]; try discriminate.
    destruct (mi_make _ sts) as [m|e|]; cbn [bind]; try discriminate. destruct (in_place_programs _ _ m _ _) as [p|e|]; cbn [bind]; try discriminate.
    intros Ep. injection Ep as _ ->. reflexivity. }
  destruct (existsb (overlaps out) others).
  - destruct others as [|b [|]]; cbn [bind]; try discriminate. intros E. eexists. apply Hgo. eapply Hback. exact E.
  - cbn [bind]. intros E. exists h2. apply Hgo. eapply Hback. exact E.
Qed.

Lemma same_view_eq a b : same_view a b = true -> a_buf a = a_buf b.
Proof. unfold same_view. intros E. apply andb_prop in E as [_ E]. apply Nat.eqb_eq. exact E. Qed.

Section Steps.
Variable kind : nat -> bufkind.
Variable blocks : sizes -> list (Z * Z).
Variable tmp : nat.
Hypothesis Hblocks : forall d, wf d -> tiles 0 (volume d) (blocks d).
Variable op : kernel.
Notation data_op := (data_op kind blocks tmp).
Notation item_op := (item_op kind blocks tmp).
Notation item_ops := (item_ops kind blocks tmp).
Notation dry_run_op := (dry_run_op kind blocks tmp).
Notation dry_runs := (dry_runs kind blocks tmp).

Lemma may_end_ex {A} (g : heap A) ps : exists h', may_end g ps h'.
Proof. destruct (can_finish g ps) as [sched Hs]. eexists. exists sched. split; [exact Hs|reflexivity]. Qed.

Definition value_after (s : dstate) (out b : arr) (ix : Dim -> Z) : element :=
  if correlated kind out b then e_self op (value_at (s_heap s) out ix) else e_fun op [value_at (s_heap s) out ix; value_at (s_heap s) b ix].

Lemma start_ok s out b : wfv (a_var out) -> wfv (a_var b) -> distinct_elements out -> (length (labels (a_dims out)) <= NDIM_OP_MAX)%nat ->
  ~ hidden_alias out b -> a_buf out <> tmp -> a_buf b <> tmp ->
  (correlated kind out b = true -> e_self_unit op (s_unit s (a_buf out)) = e_unit op (s_unit s (a_buf out)) (s_unit s (a_buf out))) ->
  dry_run_data kind blocks tmp op s out b = Ok tt ->
  exists u h ps, start_data kind blocks tmp op s out b = Ok (u, (h, ps)) /\ e_unit op (s_unit s (a_buf out)) (s_unit s (a_buf b)) = Ok u /\
    forall h', may_end h ps h' -> (forall ix, inside (a_dims out) ix -> value_at h' out ix = value_after s out b ix) /\
      (forall c, ~ cell_of out c -> fst c <> tmp -> h' c = s_heap s c).
Proof.
  intros Wo Wb Hd Hn Hal To Tb Hself. unfold dry_run_data. destruct (checks kind op s out b) as [u|e|] eqn:Ec; cbn [bind]; try discriminate.
  destruct (transform_in_place (e_fun op) (s_heap s) out [b] tmp blocks) as [[h ps]|e|] eqn:Et; cbn [bind]; try discriminate. intros _.
  assert (Eu : e_unit op (s_unit s (a_buf out)) (s_unit s (a_buf b)) = Ok u /\ negb (bunit_eqb (s_unit s (a_buf out)) u) && var_is_slice (a_var out) = false).
  { clear - Ec. revert Ec. unfold checks. destruct (transform_in_place_check _ _ _); cbn [bind]; try discriminate. destruct (e_unit op _ _) as [u'|e|]; cbn [bind]; try discriminate.
    destruct (negb (bunit_eqb _ _) && var_is_slice _) eqn:Es; [discriminate|]. destruct (negb (e_types op _ _)); [discriminate|].
    destruct (k_vars _ && negb _); [discriminate|]. intros E. injection E as <-. auto. }
  destruct Eu as [Eu Es]. unfold start_data, value_after. destruct (correlated kind out b) eqn:Er.
  - assert (Eb : a_buf b = a_buf out).
    { unfold correlated in Er. apply andb_prop in Er as [_ Er]. symmetry. apply same_view_eq. exact Er. }
    rewrite Eb in Eu. rewrite (Hself eq_refl), Eb, Eu. cbn [bind]. rewrite Es.
    assert (Hro : v_readonly (a_var out) = false).
    { clear - Et. revert Et. unfold transform_in_place, transform_data, expect_writable. destruct (mapM _ [b]); cbn [bind]; try discriminate. destruct (v_readonly (a_var out)); [discriminate|reflexivity]. }
    destruct (in_place_total (fun l => e_self op (hd (ENum 0, ENum 0) l)) (s_heap s) out [] tmp blocks) as (g & qs & g' & Eg & _); try assumption.
    { constructor; [exact Wo|constructor]. } { left. cbn. lia. } { intros x []. }
    exists u, g, qs. rewrite Eg. cbn [bind]. split; [reflexivity|]. split; [reflexivity|]. intros h' Hh.
    destruct (in_place_correct (fun l => e_self op (hd (ENum 0, ENum 0) l)) (s_heap s) out [] tmp blocks g qs h') as [V1 V2]; try assumption.
    { constructor; [exact Wo|constructor]. } { intros a [<-|[]]. exact To. } { intros x []. }
    split; [|exact V2]. intros ix Hix. exact (V1 ix Hix).
  - rewrite Ec. cbn [bind]. rewrite Et. cbn [bind]. exists u, h, ps. split; [reflexivity|]. split; [exact Eu|]. intros h' Hh.
    destruct (in_place_correct (e_fun op) (s_heap s) out [b] tmp blocks h ps h') as [V1 V2]; try assumption.
    { constructor; [exact Wo|constructor; [exact Wb|constructor]]. } { intros a [<-|[<-|[]]]; assumption. } { intros x [<-|[]]. exact Hal. }
    split; [|exact V2]. intros ix Hix. exact (V1 ix Hix).
Qed.

Lemma data_op_ok s out b : wfv (a_var out) -> wfv (a_var b) -> distinct_elements out -> (length (labels (a_dims out)) <= NDIM_OP_MAX)%nat ->
  ~ hidden_alias out b -> a_buf out <> tmp -> a_buf b <> tmp ->
  (correlated kind out b = true -> e_self_unit op (s_unit s (a_buf out)) = e_unit op (s_unit s (a_buf out)) (s_unit s (a_buf out))) ->
  dry_run_data kind blocks tmp op s out b = Ok tt ->
  (exists s', data_op op s out b s' (Ok tt)) /\
  forall s' r, data_op op s out b s' r -> r = Ok tt /\ (forall ix, inside (a_dims out) ix -> value_at (s_heap s') out ix = value_after s out b ix) /\
    (forall c, ~ cell_of out c -> fst c <> tmp -> s_heap s' c = s_heap s c) /\ s_masks s' = s_masks s /\
    e_unit op (s_unit s (a_buf out)) (s_unit s (a_buf b)) = Ok (s_unit s' (a_buf out)) /\ forall n, n <> a_buf out -> s_unit s' n = s_unit s n.
Proof.
  intros Wo Wb Hd Hn Hal To Tb Hself Hdry. destruct (start_ok s out b Wo Wb Hd Hn Hal To Tb Hself Hdry) as (u & h & ps & Es & Eu & Hv). split.
  - destruct (may_end_ex h ps) as [h' Hh]. eexists. eapply data_ok; eassumption.
  - intros s' r Hop. destruct Hop as [e E|E|u' h0 ps0 h' E Hh]; rewrite Es in E; try discriminate. injection E as <- <- <-. destruct (Hv h' Hh) as [V1 V2].
    split; [reflexivity|]. cbn [s_heap s_unit s_masks]. split; [exact V1|]. split; [exact V2|]. split; [reflexivity|]. unfold set_unit. rewrite Nat.eqb_refl. split; [exact Eu|].
    intros n Hne. destruct (Nat.eqb_spec n (a_buf out)); [contradiction|reflexivity].
Qed.

Lemma expected_after s it b ix : expected kind op s it b ix = value_after s (d_data it) (r_data b) ix.
Proof. reflexivity. Qed.

Lemma item_op_ok s it b l : admissible kind tmp op s ((it, b) :: l) -> dry_run_op op s it b = Ok tt ->
  (exists s', item_op op s it b s' (Ok tt)) /\
  forall s' r, item_op op s it b s' r -> r = Ok tt /\ updated kind op s s' it b /\ only_these tmp s s' [it].
Proof.
  intros [Av Aa At _ _ _ Am As] Hdry. destruct (Av it b (or_introl eq_refl)) as (Wo & Wb & Hd & Hn). specialize (Aa it b (or_introl eq_refl)).
  destruct (At it b (or_introl eq_refl)) as [To Tb]. specialize (Am it b). specialize (As it b (or_introl eq_refl)). cbv zeta in As. unfold DsArith_Model.dry_run_op in Hdry.
  assert (Hcase : forall s1 : dstate, s_heap s1 = s_heap s -> s_unit s1 = s_unit s -> dry_run_data kind blocks tmp op s (d_data it) (r_data b) = Ok tt ->
    (exists s', data_op op s1 (d_data it) (r_data b) s' (Ok tt)) /\
    forall s' r, data_op op s1 (d_data it) (r_data b) s' r -> r = Ok tt /\ (forall ix, inside (a_dims (d_data it)) ix -> value_at (s_heap s') (d_data it) ix = expected kind op s it b ix) /\
      (forall c, ~ cell_of (d_data it) c -> fst c <> tmp -> s_heap s' c = s_heap s c) /\ s_masks s' = s_masks s1 /\
      e_unit op (s_unit s (a_buf (d_data it))) (s_unit s (a_buf (r_data b))) = Ok (s_unit s' (a_buf (d_data it))) /\ forall n, n <> a_buf (d_data it) -> s_unit s' n = s_unit s n).
  { intros s1 E1 E2 Hdd. destruct (data_op_ok s1 (d_data it) (r_data b)) as [D1 D2]; try assumption.
    - rewrite E2. exact As.
    - unfold dry_run_data, checks in *. rewrite E1, E2. exact Hdd.
    - split; [exact D1|]. intros s' r Hop. destruct (D2 s' r Hop) as (V0 & V1 & V2 & V3 & V4 & V5). rewrite E1 in V2. rewrite E2 in V4, V5. split; [exact V0|].
      split; [|auto]. intros ix Hix. rewrite (V1 ix Hix). unfold value_after, expected. rewrite E1. reflexivity. }
  assert (Honly : forall s' : dstate, (forall c, ~ cell_of (d_data it) c -> fst c <> tmp -> s_heap s' c = s_heap s c) -> (forall n, n <> a_buf (d_data it) -> s_unit s' n = s_unit s n) ->
    (forall n, n <> d_name it -> s_masks s' n = s_masks s n) -> only_these tmp s s' [it]).
  { intros s' O1 O2 O3. split; [intros c Hc; apply O1; apply Hc; left; reflexivity|]. cbn [map In]. split; [intros n Hnn; apply O2; intros ->; tauto|intros n Hnn; apply O3; intros ->; tauto]. }
  destruct (r_meta b) as [[c m]|] eqn:Em.
  - destruct (coords_are_superset (store_of kind s) (d_coords it) c) as [[]|e|] eqn:Ec; cbn [bind] in Hdry; try discriminate.
    destruct (Am c m (or_introl eq_refl) eq_refl) as [d Ed]. set (s1 := mkst (s_heap s) (s_unit s) (set_masks (s_masks s) (d_name it) d)).
    destruct (Hcase s1 eq_refl eq_refl Hdry) as [D1 D2]. split.
    + destruct D1 as [s' D1]. exists s'. eapply item_data; eassumption.
    + intros s' r Hop. destruct Hop as [s' r E _|c0 m0 e E E'|c0 m0 E E'|c0 m0 d0 r E E' E1 Hr|c0 m0 d0 s' r E E' E1 Hop]; rewrite Em in E; try discriminate; injection E as <- <-;
        try (rewrite Ec in E'; discriminate).
      * rewrite Ed in E1. injection E1 as <- <-. contradiction.
      * rewrite Ed in E1. injection E1 as <-. fold s1 in Hop. destruct (D2 s' r Hop) as (-> & V1 & V2 & V3 & V4 & V5). split; [reflexivity|].
        assert (Hms : forall n, s_masks s' n = set_masks (s_masks s) (d_name it) d n) by (intros n; rewrite V3; reflexivity). split.
        -- split; [exact V1|]. split; [exact V4|]. rewrite Em, Hms. unfold set_masks. rewrite Z.eqb_refl. exact Ed.
        -- apply Honly; [exact V2|exact V5|]. intros n Hne. rewrite Hms. unfold set_masks. destruct (Z.eqb_spec n (d_name it)); [contradiction|reflexivity].
  - cbn [bind] in Hdry. destruct (Hcase s eq_refl eq_refl Hdry) as [D1 D2]. split.
    + destruct D1 as [s' D1]. exists s'. apply item_var; assumption.
    + intros s' r Hop. destruct Hop as [s' r E Hop|c0 m0 e E E'|c0 m0 E E'|c0 m0 d0 r E E' E1 Hr|c0 m0 d0 s' r E E' E1 Hop]; rewrite Em in E; try discriminate.
      destruct (D2 s' r Hop) as (-> & V1 & V2 & V3 & V4 & V5). split; [reflexivity|]. split.
      * split; [exact V1|]. split; [exact V4|]. rewrite Em, V3. reflexivity.
      * apply Honly; [exact V2|exact V5|]. intros n _. rewrite V3. reflexivity.
Qed.

(** ** Sequences *)

(** The operand of a later operation is not in the buffer of an earlier output. *)
Definition in_order (l : list (ditem * rhs)) : Prop :=
  ForallOrdPairs (fun p q => a_buf (d_data (fst p)) <> a_buf (r_data (snd q))) l.

(** Two states that agree outside a buffer, the masks of an item and the temporary buffer. *)
Definition agree_off (n : nat) (name : Z) (s s' : dstate) : Prop :=
  (forall c, fst c <> n -> fst c <> tmp -> s_heap s' c = s_heap s c) /\ (forall b, b <> n -> s_unit s' b = s_unit s b) /\ (forall k, k <> name -> s_masks s' k = s_masks s k).

Lemma store_agree n name s s' o : agree_off n name s s' -> Z.to_nat o <> n -> Z.to_nat o <> tmp -> same_buffer (store_of kind s' o) (store_of kind s o).
Proof.
  intros (A1 & A2 & A3) Hn Ht. unfold store_of, same_buffer. cbn [b_unit b_dtype b_val b_var]. rewrite (A2 _ Hn). split; [reflexivity|]. split; [reflexivity|]. split.
  - intros i. rewrite A1 by assumption. reflexivity.
  - destruct (k_vars _); [|exact I]. intros i. rewrite A1 by assumption. reflexivity.
Qed.

Lemma dry_agree n name s s' it b : agree_off n name s s' -> a_buf (d_data it) <> n -> a_buf (r_data b) <> n ->
  (forall k, coord_buf (d_coords it) k \/ meta_coord_buf b k -> k <> n /\ k <> tmp) ->
  dry_run_op op s it b = Ok tt -> dry_run_op op s' it b = Ok tt.
Proof.
  intros Hag Hi Hb Hc. unfold DsArith_Model.dry_run_op.
  assert (Hd : dry_run_data kind blocks tmp op s (d_data it) (r_data b) = Ok tt -> dry_run_data kind blocks tmp op s' (d_data it) (r_data b) = Ok tt).
  { destruct Hag as (_ & A2 & _). unfold dry_run_data, checks. rewrite (A2 _ Hi), (A2 _ Hb).
    destruct (do _ <- transform_in_place_check _ _ _; _) as [u|e|]; cbn [bind]; try discriminate.
    destruct (transform_in_place (e_fun op) (s_heap s) (d_data it) [r_data b] tmp blocks) as [[h ps]|e|] eqn:E; cbn [bind]; try discriminate. intros _.
    destruct (in_place_heap _ _ (s_heap s') _ _ _ _ _ _ E) as [h1 ->]. reflexivity. }
  destruct (r_meta b) as [[c m]|] eqn:Em; [|cbn [bind]; exact Hd].
  rewrite (superset_ext (store_of kind s') (store_of kind s)).
  - destruct (coords_are_superset _ _ _); cbn [bind]; try discriminate. exact Hd.
  - intros k i Hin. destruct (Hc (Z.to_nat (i_obj i))) as [C1 C2]; [left; exists k, i; auto|]. apply (store_agree n name); assumption.
  - intros k i Hin. destruct (Hc (Z.to_nat (i_obj i))) as [C1 C2]; [right; exists c, m; split; [exact Em|]; exists k, i; auto|]. apply (store_agree n name); assumption.
Qed.

Lemma only_agree s s' it : only_these tmp s s' [it] -> agree_off (a_buf (d_data it)) (d_name it) s s'.
Proof.
  intros (O1 & O2 & O3). split.
  - intros c Hc Ht. apply O1; [|exact Ht]. intros x [<-|[]] (ix & _ & ->). apply Hc. reflexivity.
  - split; [intros n Hn; apply O2|intros n Hn; apply O3]; cbn [map In]; intuition congruence.
Qed.

Lemma admissible_tail s s' it b l : admissible kind tmp op s ((it, b) :: l) -> agree_off (a_buf (d_data it)) (d_name it) s s' -> admissible kind tmp op s' l.
Proof.
  intros [Av Aa At Ab An Ac Am As] (_ & G2 & G3). cbn [map fst] in Ab, An, Ac. apply NoDup_cons_iff in Ab as [Ab1 Ab2]. apply NoDup_cons_iff in An as [An1 An2].
  constructor; try assumption; try (intros it' b' Hi; first [apply Av|apply Aa|apply At]; right; exact Hi).
  - intros it' b' n Hi Hc. destruct (Ac it' b' n (or_intror Hi) Hc) as [C1 C2]. split; [exact C1|]. intros Hin. apply C2. right. exact Hin.
  - intros it' b' c m Hi Hm. rewrite G3; [apply (Am it' b' c m (or_intror Hi) Hm)|]. intros E. apply An1. rewrite <- E. apply in_map_iff. exists (it', b'). auto.
  - intros it' b' Hi Hcor. cbv zeta. rewrite G2; [apply (As it' b' (or_intror Hi) Hcor)|]. intros E. apply Ab1. rewrite <- E. apply in_map_iff. exists (it', b'). auto.
Qed.

Lemma dry_runs_Ok s l : dry_runs op s l = Ok tt <-> forall it b, In (it, b) l -> dry_run_op op s it b = Ok tt.
Proof.
  induction l as [|[it b] l IH]; cbn [DsArith_Model.dry_runs]; [split; [intros _ it b []|reflexivity]|]. split.
  - destruct (dry_run_op op s it b) as [[]|e|] eqn:E; cbn [bind]; try discriminate. intros Hl it' b' [Ei|Hi]; [injection Ei as <- <-; exact E|apply IH; assumption].
  - intros Hl. rewrite (Hl it b (or_introl eq_refl)). cbn [bind]. apply IH. intros it' b' Hi. apply Hl. right. exact Hi.
Qed.

Theorem item_ops_ok l : forall s, admissible kind tmp op s l -> in_order l -> (forall it b, In (it, b) l -> dry_run_op op s it b = Ok tt) ->
  (exists s', item_ops op s l s' (Ok tt)) /\
  forall s' r, item_ops op s l s' r -> r = Ok tt /\ (forall it b, In (it, b) l -> updated kind op s s' it b) /\ only_these tmp s s' (map fst l).
Proof.
  induction l as [|[it b] l IH]; intros s Had Hord Hdry.
  - split; [exists s; constructor|]. intros s' r Hop. inversion Hop; subst. split; [reflexivity|]. split; [intros it b []|]. split; [reflexivity|]. split; reflexivity.
  - destruct (item_op_ok s it b l Had (Hdry it b (or_introl eq_refl))) as [[s1 I1] I2]. unfold in_order in Hord. inversion Hord as [|x y Ho Hord']; subst x y.
    assert (Hnext : forall s2, updated kind op s s2 it b -> only_these tmp s s2 [it] ->
      (exists s', item_ops op s2 l s' (Ok tt)) /\
      forall s' r, item_ops op s2 l s' r -> r = Ok tt /\ (forall it' b', In (it', b') l -> updated kind op s s' it' b') /\ updated kind op s s' it b /\ only_these tmp s s' (it :: map fst l)).
    { intros s2 Hup Hon. pose proof (only_agree s s2 it Hon) as Hag. pose proof (admissible_tail s s2 it b l Had Hag) as Had2.
      pose proof Had as Had0. destruct Had0 as [Av Aa At Ab An Ac Am As]. cbn [map fst] in Ab, An, Ac. apply NoDup_cons_iff in Ab as [Ab1 Ab2]. apply NoDup_cons_iff in An as [An1 An2].
      assert (Hbuf : forall it' b', In (it', b') l -> a_buf (d_data it') <> a_buf (d_data it)).
      { intros it' b' Hi E. apply Ab1. rewrite <- E. apply in_map_iff. exists (it', b'). auto. }
      assert (Hbb : forall it' b', In (it', b') l -> a_buf (r_data b') <> a_buf (d_data it)).
      { intros it' b' Hi E. rewrite Forall_forall in Ho. apply (Ho (it', b') Hi). cbn [fst snd]. symmetry. exact E. }
      assert (Hnm : forall it' b', In (it', b') l -> d_name it' <> d_name it).
      { intros it' b' Hi E. apply An1. rewrite <- E. apply in_map_iff. exists (it', b'). auto. }
      destruct (IH s2 Had2 Hord') as [H1 H2].
      { intros it' b' Hi. apply (dry_agree (a_buf (d_data it)) (d_name it) s s2); [exact Hag|apply (Hbuf it' b' Hi)|apply (Hbb it' b' Hi)| |apply Hdry; right; exact Hi].
        intros k Hk. destruct (Ac it' b' k (or_intror Hi) Hk) as [C1 C2]. split; [|exact C1]. intros ->. apply C2. left. reflexivity. }
      split; [exact H1|]. intros s' r Hop. destruct (H2 s' r Hop) as (-> & U & O). split; [reflexivity|]. destruct Hag as (G1 & G2 & G3). destruct O as (O1 & O2 & O3).
      assert (Hto : forall it' b', In (it', b') ((it, b) :: l) -> a_buf (d_data it') <> tmp /\ a_buf (r_data b') <> tmp) by exact At. split; [|split].
      - intros it' b' Hi. destruct (U it' b' Hi) as (U1 & U2 & U3). destruct (Hto it' b' (or_intror Hi)) as [T1 T2]. specialize (Hbuf it' b' Hi). specialize (Hbb it' b' Hi). split; [|split].
        + intros ix Hix. rewrite (U1 ix Hix). unfold expected, value_at. rewrite !G1 by (cbn [fst]; assumption). reflexivity.
        + rewrite <- !G2 by assumption. exact U2.
        + rewrite <- (G3 (d_name it')) by (apply (Hnm it' b' Hi)). exact U3.
      - destruct Hup as (U1 & U2 & U3). destruct (Hto it b (or_introl eq_refl)) as [T1 T2]. split; [|split].
        + intros ix Hix. rewrite <- (U1 ix Hix). unfold value_at. apply O1; [|cbn [fst]; exact T1]. intros it' Hi (jx & _ & Ej). apply in_map_iff in Hi as ([i2 b2] & <- & Hi).
          apply (Hbuf i2 b2 Hi). cbn [fst] in Ej. injection Ej as Ej _. symmetry. exact Ej.
        + rewrite O2; [exact U2|]. rewrite map_map. exact Ab1.
        + rewrite O3; [exact U3|]. rewrite map_map. exact An1.
      - destruct Hon as (N1 & N2 & N3). cbn [map]. split; [|split].
        + intros c Hc Ht. rewrite O1; [apply N1; [intros x [<-|[]]; apply Hc; left; reflexivity|exact Ht]|intros x Hx; apply Hc; right; exact Hx|exact Ht].
        + intros n Hn. rewrite O2; [apply N2; cbn [map In]; intros [E|[]]; apply Hn; left; exact E|intros Hi; apply Hn; right; exact Hi].
        + intros n Hn. rewrite O3; [apply N3; cbn [map In]; intros [E|[]]; apply Hn; left; exact E|intros Hi; apply Hn; right; exact Hi]. }
    split.
    + destruct (I2 s1 (Ok tt) I1) as (_ & U & O). destruct (Hnext s1 U O) as [[s' H1] _]. exists s'. eapply ops_cons; eassumption.
    + intros s' r Hop. inversion Hop as [|s0 i0 b0 l0 s2 s3 r0 Hi Hrest|s0 i0 b0 l0 s2 r0 Hi Hr]; subst.
      * destruct (I2 s2 (Ok tt) Hi) as (_ & U & O). destruct (Hnext s2 U O) as [_ H2]. destruct (H2 s' r Hrest) as (E & H3 & H4 & H5). split; [exact E|]. split; [|exact H5].
        intros it' b' [Ei|Hin]; [injection Ei as <- <-; exact H4|apply H3; exact Hin].
      * destruct (I2 s' r Hi) as (E & _). contradiction.
Qed.
End Steps.
