(** Assigning to a slice changes exactly the slice, or throws (property C50). *)
From Verif Require Import Base Map_Model Map_Spec Dims_Model Dims_Spec Dims_Proofs Index_Model Index_Spec Index_Proofs
  View_Model View_Spec View_Proofs Transform_Model Transform_Spec Machine_Proofs Transform_Proofs SizedDict_Model SizedDict_Spec SizedDict_Proofs
  Equality_Model Equality_Spec Equality_Proofs Union_Model Union_Spec Union_Proofs Dataset_Model Dataset_Spec Dataset_Proofs
  SetSlice_Model SetSlice_Spec SetSlice_Proofs.

Section Props.
Variable kind : Z -> info.
Variable blocks : sizes -> list (Z * Z).
Variable tmp : nat.
(** The threads write blocks that cover the output without overlap (C03). *)
Hypothesis Hbl : forall d, wf d -> tiles 0 (volume d) (blocks d).
Notation set_var := (SetSlice_Model.set_var kind blocks tmp).
Notation set_da := (SetSlice_Model.set_da kind blocks tmp).
Notation set_ds := (SetSlice_Model.set_ds kind blocks tmp).
Notation set_ds_da := (SetSlice_Model.set_ds_da kind blocks tmp).
Notation set_ds_var := (SetSlice_Model.set_ds_var kind blocks tmp).

(** ** Variables *)
(** For every schedule of the threads: the assignment succeeds if and only if the values fit the slice; then the slice has the
    values (as they were before, even if both share memory), and nothing else changes. Otherwise nothing changes. *)
Theorem C50_variable h x s y : slice_ok s -> comparable x -> comparable y -> (v_readonly (i_var x) = false -> distinct_elements (arr_of x)) ->
  i_buf x <> tmp -> i_buf y <> tmp ->
  (exists r h', set_var h x s y r h') /\
  forall r h', set_var h x s y r h' ->
    (r = Ok tt <-> fits_slice kind s x y) /\ r <> Ub /\ (r = Ok tt -> gets h h' s x y) /\ (r <> Ok tt -> h' = h) /\
    forall c, fst c <> tmp -> ~ slice_cell s x c -> h' c = h c.
Proof.
  intros Sl Cx Cy D Tx Ty. destruct (set_var_ok kind blocks tmp Hbl s x y Sl (conj Cx (conj Cy (conj D (conj Tx Ty))))) as [(F & Ex & Al)|(F & e & Al)].
  - split; [destruct (Ex h) as [h' S]; eauto|]. intros r h' S. destruct (Al h r h' S) as (-> & G & O). split; [tauto|]. split; [discriminate|]. split; [auto|]. split; [intros Q; contradiction|exact O].
  - split; [exists (Throw e), h; apply Al; auto|]. intros r h' S. apply Al in S as [-> ->]. split; [split; [discriminate|contradiction]|]. split; [discriminate|]. split; [discriminate|]. split; auto.
Qed.

(** ** Data arrays *)
(** The assignment succeeds if and only if the checks pass and all parts fit; then all parts of the slice have the values of the
    parts of [b], and nothing else changes, in particular no coord. If a check fails, nothing changes. In any case, nothing outside of
    the slice changes. *)
Theorem C50_data_array h a s b : operands_ok s [(a, b)] -> separate tmp s [(a, b)] ->
  (exists r h', set_da h a s b r h') /\
  forall r h', set_da h a s b r h' ->
    (r = Ok tt <-> accepted kind h s a b /\ all_fit kind s [(a, b)]) /\ r <> Ub /\ (r = Ok tt -> assigned h h' s [(a, b)]) /\
    (~ accepted kind h s a b -> h' = h) /\ only_slices tmp h h' s [(a, b)].
Proof.
  intros O Se. pose proof O as (Sl & Nd & Op). destruct (Op a b (or_introl eq_refl)) as (Ha & Ca & _ & Cb & _).
  destruct (validate_da_ok kind h a s b Ha Ca Cb Sl Nd) as [[A V]|[A [e V]]].
  - destruct (set_all_ok kind blocks tmp Hbl s [(a, b)] h O Se) as [(r0 & h0 & S0) Al].
    { intros a' b' [[= <- <-]|[]]. exact V. }
    split; [exists r0, h0; apply set_all_one; exact S0|]. intros r h' S. apply set_all_one in S. destruct (Al r h' S) as [C On]. destruct C as [(-> & F & As)|[[e ->] F]].
    + split; [split; [auto|reflexivity]|]. split; [discriminate|]. split; [auto|]. split; [contradiction|exact On].
    + split; [split; [discriminate|intros [_ Q]; contradiction]|]. split; [discriminate|]. split; [discriminate|]. split; [contradiction|exact On].
  - pose proof (set_da_no kind blocks tmp h a s b e V) as N. split; [exists (Throw e), h; apply N; auto|]. intros r h' S. apply N in S as [-> ->].
    split; [split; [discriminate|intros [Q _]; contradiction]|]. split; [discriminate|]. split; [discriminate|]. split; [auto|]. intros c _ _. reflexivity.
Qed.
(** But it is not all or nothing: if the checks pass and all masks fit, but the data do not (read-only, or without a dimension of the
    data of [b]), then there is an error and all masks are assigned nevertheless. *)
Theorem C50_atomic_refuted h a s b : operands_ok s [(a, b)] -> separate tmp s [(a, b)] -> accepted kind h s a b ->
  (forall k x y, writes s a b (Some k) x y -> fits_slice kind s x y) -> ~ fits_slice kind s (da_data a) (da_data b) ->
  forall r h', set_da h a s b r h' -> (exists e, r = Throw e) /\ forall k x y, writes s a b (Some k) x y -> gets h h' s x y.
Proof.
  intros O Se A Fm Nf r h' S. pose proof O as (Sl & Nd & Op). destruct (Op a b (or_introl eq_refl)) as (Ha & Ca & _ & Cb & _).
  destruct (validate_da_ok kind h a s b Ha Ca Cb Sl Nd) as [[_ V]|[N _]]; [|contradiction].
  apply (set_da_assign kind blocks tmp h a s b Ca V) in S. unfold da_writes in S. apply assign_all_app in S as (r1 & h1 & S1 & S2).
  assert (Wd : writes s a b None (da_data a) (da_data b)) by (split; [reflexivity|]; split; [reflexivity|]; intros X; exfalso; exact (X eq_refl)).
  assert (Mw : forall x y, In (x, y) (mask_writes (da_masks a) s (sd_list (da_masks b))) <-> exists k, writes s a b (Some k) x y).
  { intros x y. pose proof (proj1 (proj2 (proj2 Ca))) as Cm. rewrite (mask_writes_In _ _ _ _ _ Cm). split.
    - intros (k & Iy & Ix & R & D). exists k. split; [exact Ix|]. split; [exact Iy|]. intros _. split; [exact R|]. apply (dcontains_keys x _ (proj2 (proj2 Cm) k x Ix)). exact D.
    - intros (k & Ix & Iy & R). destruct R as [R D]; [discriminate|]. exists k. split; [exact Iy|]. split; [exact Ix|]. split; [exact R|]. apply (dcontains_keys x _ (proj2 (proj2 Cm) k x Ix)). exact D. }
  pose proof (da_writes_apart tmp s a b [] Ca Cb Se) as Fa. unfold da_writes in Fa.
  destruct (assign_all_ok kind blocks tmp Hbl s (mask_writes (da_masks a) s (sd_list (da_masks b))) Sl) with (h := h) as [_ Al].
  { intros x y I. apply Mw in I as [k W]. exact (writes_good tmp s a b (Some k) x y _ O Se (or_introl eq_refl) W). }
  { clear - Fa. induction (mask_writes (da_masks a) s (sd_list (da_masks b))) as [|p l IH]; [constructor|]. cbn [app] in Fa. inversion Fa as [|? ? F1 F2]; subst. apply Forall_app in F1 as [F1 _]. constructor; [exact F1|exact (IH F2)]. }
  destruct (Al r1 h1 S1) as [[[-> G]|[_ (x & y & I & N)]] _]; [|exfalso; apply Mw in I as [k W]; exact (N (Fm k x y W))].
  cbn [assign_all] in S2. destruct S2 as (r2 & h2 & S2 & R).
  destruct (set_var_ok kind blocks tmp Hbl s (da_data a) (da_data b) Sl (writes_good tmp s a b None _ _ _ O Se (or_introl eq_refl) Wd)) as [(F & _)|(_ & e & Q)]; [contradiction|].
  apply Q in S2 as [-> ->]. destruct R as [-> ->]. split; [eauto|]. intros k x y W. apply G, Mw. eauto.
Qed.
(** No coord changes. *)
Corollary C50_coords h a s b r h' : operands_ok s [(a, b)] -> separate tmp s [(a, b)] -> set_da h a s b r h' ->
  forall k z ix, In (k, z) (sd_list (da_coords a)) \/ In (k, z) (sd_list (da_coords b)) -> value_at h' (arr_of z) ix = value_at h (arr_of z) ix.
Proof.
  intros O Se S k z ix I. destruct (C50_data_array h a s b O Se) as [_ Q]. destruct (Q r h' S) as (_ & _ & _ & _ & On). destruct Se as [S1 S2].
  apply On; [apply (S1 a b (or_introl eq_refl)); right; eauto|]. intros a' b' o x y [[= <- <-]|[]] W (p & ix' & _ & _ & [= E _]).
  destruct (S2 0%nat a b o x y eq_refl W 0%nat a b eq_refl) as [_ P]. exact (P k z I E).
Qed.

(** ** Datasets *)
(** A dataset: the items with the items of the same name. *)
Theorem C50_dataset h d s e l : ds_ok d -> ds_ok e -> named_pairs d e l -> operands_ok s l -> separate tmp s l ->
  (exists r h', set_ds h d s e r h') /\
  forall r h', set_ds h d s e r h' ->
    (r = Ok tt <-> ds_accepted kind h s d (ds_coords e) l /\ all_fit kind s l) /\ r <> Ub /\ (r = Ok tt -> assigned h h' s l) /\
    (~ ds_accepted kind h s d (ds_coords e) l -> h' = h) /\ only_slices tmp h h' s l.
Proof.
  intros Hd He Np O Se. destruct (validate_named_all kind h s (ds_list d) e l He Np) as [E1 E2]. unfold SetSlice_Model.set_ds. change (ditems (ds_data d)) with (ds_list d). rewrite E1, E2.
  exact (validated_ok kind blocks tmp Hbl h s d (ds_coords e) l O Se Hd (proj1 (proj2 He))).
Qed.
(** If a name is missing, nothing changes. *)
Theorem C50_dataset_missing h d s e n a : ds_ok d -> ds_ok e -> slice_ok s -> slice_eqb s slice_default = false -> In (n, a) (ds_list d) -> (forall b, ~ In (n, b) (ds_list e)) ->
  forall r h', set_ds h d s e r h' -> (exists x, r = Throw x) /\ h' = h.
Proof.
  intros Hd He Sl Nd I N r h'. unfold SetSlice_Model.set_ds, validated. change (ditems (ds_data d)) with (ds_list d).
  destruct (ds_items e He) as [Ee Ne].
  assert (Q : exists x, validate_named kind h s (ds_list d) e = Throw x).
  { assert (Fi : forall m b, In (m, b) (ds_list d) -> item_fits d b) by apply Hd. revert I Fi. induction (ds_list d) as [|[m a0] l IH]; intros I Fi; [destruct I|]. cbn [validate_named].
    destruct (in_dec Z.eq_dec m (map fst (ds_list e))) as [Im|Im].
    - apply in_map_iff in Im as ([m' b] & Em & Im). cbn [fst] in Em. subst m'. rewrite Ee. rewrite (at_In (ds_list e) m b NotFoundError Ne Im). cbn [bind].
      destruct (Fi m a0 (or_introl eq_refl)) as (Ha & Ca & _). assert (Fb : item_fits e b) by (apply (proj1 (proj2 (proj2 (proj2 (proj2 He)))) m b Im)). destruct Fb as (_ & Cb & _).
      destruct (validate_da_ok kind h a0 s b Ha Ca Cb Sl Nd) as [[_ V]|[_ [x V]]]; rewrite V; cbn [bind]; [|eauto].
      apply IH; [|intros m' b' J; apply (Fi m' b'); right; exact J]. destruct I as [[= -> ->]|I]; [exfalso; exact (N b Im)|exact I].
    - rewrite Ee. exists NotFoundError. unfold mat, Map_Model.mindex. destruct (find_index Z.eqb m (m_keys (mkd (ds_list e)))) as [j|] eqn:F; [|reflexivity].
      exfalso. apply Im. assert (C : mcontains Z.eqb (mkd (ds_list e)) m = true) by (unfold mcontains; rewrite F; reflexivity). apply contains_In in C. exact C. }
  destruct Q as [x Q]. destruct (ds_slice_cases (store_of kind h) d s Hd Sl Nd) as [(d' & E & Cd)|[e1 E]]; rewrite E; cbn [bind]; [|intros [-> ->]; eauto].
  destruct (superset_cases (store_of kind h) (ds_coords d') (ds_coords e) Cd (proj1 (proj2 He))) as [[_ S2]|[_ [e1 S2]]]; rewrite S2; cbn [bind]; [|intros [-> ->]; eauto].
  rewrite Q. intros [-> ->]. eauto.
Qed.

(** A data array: every item with the same values. *)
Definition with_array (d : dset) (b : darray) : list (darray * darray) := map (fun na => (snd na, b)) (ds_list d).
Theorem C50_dataset_array h d s b : ds_ok d -> da_comparable b -> operands_ok s (with_array d b) -> separate tmp s (with_array d b) ->
  (exists r h', set_ds_da h d s b r h') /\
  forall r h', set_ds_da h d s b r h' ->
    (r = Ok tt <-> ds_accepted kind h s d (da_coords b) (with_array d b) /\ all_fit kind s (with_array d b)) /\ r <> Ub /\
    (r = Ok tt -> assigned h h' s (with_array d b)) /\
    (~ ds_accepted kind h s d (da_coords b) (with_array d b) -> h' = h) /\ only_slices tmp h h' s (with_array d b).
Proof. intros Hd Cb O Se. exact (validated_ok kind blocks tmp Hbl h s d (da_coords b) (with_array d b) O Se Hd (proj1 (proj2 Cb))). Qed.
(** But it is never possible for a data array with an aligned coord, even if the dataset has the same coord: the items are validated
    without the coords of the dataset. *)
Theorem C50_dataset_array_coords_refuted h d s b n a k z : ds_ok d -> da_comparable b -> slice_ok s -> slice_eqb s slice_default = false ->
  In (n, a) (ds_list d) -> In (k, z) (sd_list (da_coords b)) -> i_aligned z = true ->
  forall r h', set_ds_da h d s b r h' -> (exists e, r = Throw e) /\ h' = h.
Proof.
  intros Hd Cb Sl Nd I Iz Al r h'. unfold SetSlice_Model.set_ds_da, validated. change (ditems (ds_data d)) with (ds_list d).
  destruct (validate_all_ok kind h s (map (fun na => (snd na, b)) (ds_list d)) Sl Nd) as [[A _]|[_ [e V]]].
  { intros a' b' J. apply in_map_iff in J as ([m a0] & [= <- <-] & J). assert (F : item_fits d a0) by (apply (proj1 (proj2 (proj2 (proj2 (proj2 Hd)))) m a0 J)). destruct F as (Ha & Ca & _). auto. }
  { exfalso. destruct (A a b) as ((a' & E & Su) & _); [apply in_map_iff; exists (n, a); auto|]. destruct (Su k z Iz Al) as (i & Ii & _).
    assert (F : item_fits d a) by (apply (proj1 (proj2 (proj2 (proj2 (proj2 Hd)))) n a I)). destruct F as (Ha & Ca & Em & _).
    destruct (da_slice_cases a s Ha Ca Sl Nd) as [(a2 & E2 & _ & Cs & _)|[e E2]]; [|congruence]. rewrite E in E2. injection E2 as <-. rewrite Em in Cs. destruct (Forall2_In_r _ _ _ _ Cs Ii) as (x0 & [] & _). }
  rewrite V. destruct (ds_slice_cases (store_of kind h) d s Hd Sl Nd) as [(d' & E & Cd)|[e1 E]]; rewrite E; cbn [bind]; [|intros [-> ->]; eauto].
  destruct (superset_cases (store_of kind h) (ds_coords d') (da_coords b) Cd (proj1 (proj2 Cb))) as [[_ S2]|[_ [e1 S2]]]; rewrite S2; cbn [bind]; intros [-> ->]; eauto.
Qed.

(** A variable: the data of every item. Nothing is checked before the first change. *)
Theorem C50_dataset_variable h d s y : ds_ok d -> variable_ok tmp s d y ->
  (exists r h', set_ds_var h d s y r h') /\
  forall r h', set_ds_var h d s y r h' ->
    (r = Ok tt <-> forall n a, In (n, a) (ds_list d) -> fits_slice kind s (da_data a) y) /\ r <> Ub /\
    (r = Ok tt -> forall n a, In (n, a) (ds_list d) -> gets h h' s (da_data a) y) /\
    forall c, fst c <> tmp -> (forall n a, In (n, a) (ds_list d) -> ~ slice_cell s (da_data a) c) -> h' c = h c.
Proof.
  intros Hd (Sl & Cy & Ty & Nb & V). set (l := map (fun a => (da_data a, y)) (map snd (ds_list d))).
  assert (In_l : forall x y', In (x, y') l <-> y' = y /\ exists n a, In (n, a) (ds_list d) /\ x = da_data a).
  { intros x y'. unfold l. rewrite map_map, in_map_iff. split; [intros ([n a] & [= <- <-] & I); eauto 6|]. intros (-> & n & a & I & ->). exists (n, a). auto. }
  destruct (assign_all_ok kind blocks tmp Hbl s l Sl) with (h := h) as [(r0 & h0 & A0) Al].
  - intros x y' I. apply In_l in I as (-> & n & a & I & ->). destruct (V n a I) as (T & _ & D). assert (F : item_fits d a) by (apply (proj1 (proj2 (proj2 (proj2 (proj2 Hd)))) n a I)).
    destruct F as (_ & Ca & _). split; [apply Ca|]. split; [exact Cy|]. auto.
  - unfold l. clear l In_l. revert Nb V. induction (ds_list d) as [|[n a] m IH]; intros Nb V; cbn [map snd]; [constructor|]. cbn [map snd] in Nb. apply NoDup_cons_iff in Nb as [Nn Nb].
    constructor; [|apply IH; [exact Nb|intros n' a' I; apply (V n' a'); right; exact I]]. apply Forall_forall. intros [x y'] I. rewrite map_map in I. apply in_map_iff in I as ([n' a'] & [= <- <-] & I). cbn [snd] in *.
    split; cbn [fst snd].
    + intros E. apply Nn. rewrite <- E. apply in_map_iff. exists (n', a'). auto.
    + destruct (V n a (or_introl eq_refl)) as (_ & Ne & _). congruence.
  - split; [exists r0, h0; apply set_vars_assign; exact A0|]. intros r h' S. apply set_vars_assign in S. destruct (Al r h' S) as [C Ch].
    assert (On : forall c, fst c <> tmp -> (forall n a, In (n, a) (ds_list d) -> ~ slice_cell s (da_data a) c) -> h' c = h c).
    { intros c T N. apply Ch; [exact T|]. intros x y' I. apply In_l in I as (_ & n & a & I & ->). exact (N n a I). }
    destruct C as [[-> C]|[[e ->] (x & y' & I & N)]].
    + assert (G : forall n a, In (n, a) (ds_list d) -> fits_slice kind s (da_data a) y /\ gets h h' s (da_data a) y) by (intros n a I; apply C, In_l; eauto 6).
      split; [split; [intros _ n a I; apply (G n a I)|reflexivity]|]. split; [discriminate|]. split; [intros _ n a I; apply (G n a I)|exact On].
    + split; [split; [discriminate|]|split; [discriminate|split; [discriminate|exact On]]]. intros Q. apply In_l in I as (-> & n & a & I & ->). exfalso. exact (N (Q n a I)).
Qed.
End Props.

(** ** Concrete cases *)
Notation dX := 10 (only parsing).
Notation dY := 11 (only parsing).
Definition dense (p : list (Dim * Z)) (o : Z) : item := mkitem o (var_fresh (mk p)) true false.
Definition dict (p : list (Dim * Z)) (l : list (Z * item)) : sdict := mksd (mk p) (mkd l) false.
Definition array (p : list (Dim * Z)) (o : Z) (c m : list (Z * item)) : darray := mkda (dense p o) (dict p c) (dict p m) (dict p []) false.
(** Element [i] of buffer [b] is [10 b + i]; the coord in buffer 5 is that in buffer 2, from its second element on. *)
Definition h_case : heap element := fun c => (ENum (if (fst c =? 5)%nat then 21 + snd c else 10 * Z.of_nat (fst c) + snd c), ENum 0).
(** Two kinds: with different units. *)
Definition kind_case : Z -> info := fun o => mkinfo 0 (if o =? 7 then 1 else 0) false.
Definition blocks_case : sizes -> list (Z * Z) := fun d => [(0, volume d)].
Definition t_case : nat := 0.
Lemma blocks_case_ok d : wf d -> tiles 0 (volume d) (blocks_case d).
Proof.
  intros W. apply (tiles_cons 0 (volume d) (volume d) []); [|constructor]. rewrite volume_vol. apply vol_nonneg. destruct W as (_ & _ & F & _). exact F.
Qed.

Lemma dense_ok p o : lwf p -> (length p <= NDIM_OP_MAX)%nat -> item_ok (dense p o) /\ comparable (dense p o) /\ ishape (dense p o) = p /\ distinct_elements (arr_of (dense p o)).
Proof.
  intros Hp L. pose proof (mk_wf p Hp) as W. pose proof (fresh_wfv (mk p) W) as V.
  assert (E : ishape (dense p o) = p) by (unfold ishape, i_dims, dense, var_fresh; cbn [i_var v_dims]; apply pairs_mk).
  split; [split; [exact V|reflexivity]|]. split; [split; [exact V|rewrite E; exact L]|]. split; [exact E|]. exact (fresh_one (mk p) (i_buf (dense p o)) W).
Qed.
Lemma dense_1 d n o ix : vaddr (i_var (dense [(d, n)] o)) ix = ix d.
Proof. unfold vaddr, dense, var_fresh. cbn -[Z.mul Z.add]. lia. Qed.
Lemma dense_2 d n e m o ix : vaddr (i_var (dense [(d, n); (e, m)] o)) ix = m * ix d + ix e.
Proof. unfold vaddr, dense, var_fresh. cbn -[Z.mul Z.add]. lia. Qed.
Definition small (p : list (Dim * Z)) : Prop := lwf p /\ (length p <= NDIM_OP_MAX)%nat.
Definition part (p : list (Dim * Z)) (it : item) : Prop := exists q o, it = dense q o /\ small q /\ forall k n, In (k, n) q -> In (k, n) p.
Lemma part_ok p it : part p it -> item_ok it /\ comparable it /\ fits p (ishape it) /\ distinct_elements (arr_of it).
Proof.
  intros (q & o & -> & [W L] & I). destruct (dense_ok q o W L) as (A & B & C & D). split; [exact A|]. split; [exact B|]. split; [|exact D]. rewrite C. left. exact I.
Qed.
Lemma dict_ok p l : small p -> NoDup (map fst l) -> Forall (fun e => part p (snd e)) l -> sd_ok (dict p l) /\ dict_comparable (dict p l).
Proof.
  intros [W _] N F. rewrite Forall_forall in F. split.
  - apply sd_ok_mk; [apply mk_wf; exact W|exact N|]. intros k it I. rewrite pairs_mk. destruct (part_ok p it (F _ I)) as (A & _ & B & _). auto.
  - apply dict_comp; [exact N|]. intros k it I. apply (part_ok p it (F _ I)).
Qed.
Lemma array_ok p o c m : small p -> NoDup (map fst c) -> NoDup (map fst m) -> Forall (fun e => part p (snd e)) c -> Forall (fun e => part p (snd e)) m ->
  da_ok (array p o c m) /\ da_comparable (array p o c m) /\ forall k x, item_at (array p o c m) k x -> distinct_elements (arr_of x).
Proof.
  intros Sm Nc Nm Fc Fm. pose proof Sm as [W L]. destruct (dense_ok p o W L) as (A & B & C & D). destruct (dict_ok p c Sm Nc Fc) as [C1 C2]. destruct (dict_ok p m Sm Nm Fm) as [M1 M2].
  destruct (dict_ok p [] Sm (NoDup_nil _) (Forall_nil _)) as [E1 E2]. split; [split; [apply A|]; repeat (split; [reflexivity|]); auto|]. split; [split; [exact B|]; auto|].
  intros [k|] x I; [|cbn in I; subst x; exact D]. change (In (k, x) (sd_list (dict p m))) in I. unfold dict in I. rewrite sd_list_mk in I. rewrite Forall_forall in Fm. apply (part_ok p x (Fm _ I)).
Qed.
Ltac nodup_tac := cbn; repeat (apply NoDup_cons; [cbn; intuition discriminate|]); apply NoDup_nil.
Ltac small_tac := split; [split; [nodup_tac|split; [cbn; repeat (apply Forall_cons; [lia|]); apply Forall_nil|cbn; intuition discriminate]]|cbn; unfold NDIM_OP_MAX; lia].
Ltac part_tac := match goal with |- part _ (dense ?q ?o) => exists q, o; split; [reflexivity|split; [small_tac|cbn; intuition congruence]] end.
Ltac parts_tac := repeat (apply Forall_cons; [cbn [snd]; part_tac|]); apply Forall_nil.
Ltac array_tac := apply array_ok; [small_tac|nodup_tac|nodup_tac|parts_tac|parts_tac].

(** A range of 2-D data with coords and masks, assigned from 1-D data (which is broadcast). *)
Definition a_case : darray := array [(dY, 2); (dX, 3)] 1 [(1, dense [(dX, 3)] 2)] [(1, dense [(dX, 3)] 3); (2, dense [(dY, 2)] 8)].
Definition b_case : darray := array [(dX, 2)] 4 [(1, dense [(dX, 2)] 5)] [(1, dense [(dX, 2)] 6)].
Definition s_case : slice := mkslice dX 1 3 1.
Ltac members :=
  repeat match goal with
  | I : In _ [] |- _ => destruct I
  | I : In _ (_ :: _) |- _ => destruct I as [I|I]; [first [discriminate I|inversion I; clear I; subst]|]
  | I : In _ (sd_list (da_masks (array _ _ _ _))) |- _ => unfold array in I; cbn [da_masks] in I; unfold dict in I; rewrite sd_list_mk in I
  | I : In _ (sd_list (da_coords (array _ _ _ _))) |- _ => unfold array in I; cbn [da_coords] in I; unfold dict in I; rewrite sd_list_mk in I
  end.
Ltac at_item :=
  repeat match goal with
  | I : item_at _ (Some _) _ |- _ => cbn [item_at] in I
  | I : item_at _ None _ |- _ => cbn [item_at] in I
  | I : item_at _ ?o _ |- _ => destruct o as [?|]
  | I : _ \/ _ |- _ => destruct I as [I|I]
  | I : exists _, _ |- _ => destruct I as [? I]
  end; members; subst.
Lemma case_ok : operands_ok s_case [(a_case, b_case)] /\ separate t_case s_case [(a_case, b_case)].
Proof.
  assert (A : da_ok a_case /\ da_comparable a_case /\ forall k x, item_at a_case k x -> distinct_elements (arr_of x)) by array_tac.
  assert (B : da_ok b_case /\ da_comparable b_case /\ forall k x, item_at b_case k x -> distinct_elements (arr_of x)) by array_tac.
  split.
  - split; [right; cbn; lia|]. split; [reflexivity|]. intros a b [[= <- <-]|[]]. destruct A as (A1 & A2 & A3), B as (B1 & B2 & _). repeat (split; [assumption|]). intros o x y (W & _) _. exact (A3 o x W).
  - split.
    + intros a b [[= <- <-]|[]] z Z. unfold a_case, b_case in Z. at_item; vm_compute; discriminate.
    + intros i a b o x y E (W1 & W2 & W3) i' a' b' E'. destruct i as [|i]; [|destruct i; discriminate]. destruct i' as [|i']; [|destruct i'; discriminate].
      injection E as <- <-. injection E' as <- <-. unfold a_case, b_case in *. split.
      * intros o' z Iz Ne. at_item; try (exfalso; apply Ne; reflexivity); try discriminate; vm_compute; discriminate.
      * intros k z Iz. at_item; try discriminate; vm_compute; discriminate.
Qed.
Example C50_case : operands_ok s_case [(a_case, b_case)] /\ separate t_case s_case [(a_case, b_case)] /\
  accepted kind_case h_case s_case a_case b_case /\ all_fit kind_case s_case [(a_case, b_case)] /\
  exists h', SetSlice_Model.set_da kind_case blocks_case t_case h_case a_case s_case b_case (Ok tt) h' /\
    (* data: element (y=1, x=2) has the value of element x=1; element (y=1, x=0) is as before *)
    h' (1%nat, 5) = (ENum 41, ENum 0) /\ h' (1%nat, 3) = (ENum 13, ENum 0) /\
    (* the mask with the dimension of the slice is assigned, the other is not *)
    h' (3%nat, 2) = (ENum 61, ENum 0) /\ h' (3%nat, 0) = (ENum 30, ENum 0) /\ h' (8%nat, 1) = (ENum 81, ENum 0).
Proof.
  destruct case_ok as [O Se]. split; [exact O|]. split; [exact Se|]. destruct (proj2 (proj2 O) a_case b_case (or_introl eq_refl)) as (Ha & Ca & _ & Cb & _).
  assert (A : accepted kind_case h_case s_case a_case b_case).
  { destruct (validate_da_ok kind_case h_case a_case s_case b_case Ha Ca Cb (proj1 O) (proj1 (proj2 O))) as [[A _]|[_ [e V]]]; [exact A|]. exfalso. vm_compute in V. discriminate. }
  assert (F : all_fit kind_case s_case [(a_case, b_case)]).
  { intros a b o x y [[= <- <-]|[]] (W1 & W2 & W3). unfold a_case, b_case in *. at_item; try discriminate; (split; [reflexivity|]); (split; [reflexivity|]); eexists; (split; [vm_compute; reflexivity|]);
      intros k n I; vm_compute in I; intuition (subst; cbn; auto). }
  split; [exact A|]. split; [exact F|]. destruct (C50_data_array kind_case blocks_case t_case blocks_case_ok h_case a_case s_case b_case O Se) as [(r & h' & S) Q].
  destruct (Q r h' S) as (Y & _ & As & _ & On). assert (r = Ok tt) as -> by (apply Y; auto). exists h'. split; [exact S|]. specialize (As eq_refl).
  assert (Wd : writes s_case a_case b_case None (da_data a_case) (da_data b_case)) by (split; [reflexivity|]; split; [reflexivity|]; intros X; exfalso; exact (X eq_refl)).
  assert (Wm : writes s_case a_case b_case (Some 1) (dense [(dX, 3)] 3) (dense [(dX, 2)] 6)).
  { split; [left; reflexivity|]. split; [left; reflexivity|]. intros _. split; [reflexivity|]. left. reflexivity. }
  assert (Hun : forall n i, (n = 1%nat /\ (i = 0 \/ i = 3) \/ n = 3%nat /\ i = 0 \/ n = 8%nat) -> h' (n, i) = h_case (n, i)).
  { intros n i N. apply On; [cbn; unfold t_case; lia|]. intros a b o x y [[= <- <-]|[]] (W1 & W2 & W3) (p & ix & Sd & V & E). pose proof (f_equal fst E) as En. pose proof (f_equal snd E) as Ei. cbn [fst snd] in En, Ei. clear E.
    set (jx := pull (ishape x) (VwSlice s_case) ix) in Ei. assert (Jx : jx dX = 1 + 1 * ix dX) by reflexivity. assert (Jy : jx dY = ix dY) by reflexivity. clearbody jx.
    revert N p Sd V En Ei. unfold a_case, b_case in W1, W2. at_item; try discriminate; intros N p Sd V En Ei; vm_compute in Sd; injection Sd as <-.
    - pose proof (V dX 2 (or_introl eq_refl)) as Vx. rewrite dense_1 in Ei. change (i_buf (dense [(dX, 3)] 3)) with 3%nat in En. lia.
    - pose proof (V dX 2 (or_intror (or_introl eq_refl))) as Vx. pose proof (V dY 2 (or_introl eq_refl)) as Vy. unfold array in En, Ei. cbn [da_data] in En, Ei. rewrite dense_2 in Ei.
      change (i_buf (dense [(dY, 2); (dX, 3)] 1)) with 1%nat in En. lia. }
  assert (Gd : h' (1%nat, 5) = h_case (4%nat, 1)).
  { refine (As a_case b_case None _ _ (or_introl eq_refl) Wd [(dY, 2); (dX, 2)] (fun _ => 1) _ _); [vm_compute; reflexivity|]. intros k n [[= <- <-]|[[= <- <-]|[]]]; lia. }
  assert (Gm : h' (3%nat, 2) = h_case (6%nat, 1)).
  { refine (As a_case b_case (Some 1) _ _ (or_introl eq_refl) Wm [(dX, 2)] (fun _ => 1) _ _); [vm_compute; reflexivity|]. intros k n [[= <- <-]|[]]; lia. }
  rewrite Gd, Gm, !Hun by auto. vm_compute. auto.
Qed.

(** The masks are changed before the data are rejected: the dimension y of the data of [b] is not in the slice. *)
Definition a_late : darray := array [(dX, 2)] 1 [] [(1, dense [(dX, 2)] 2)].
Definition b_late : darray := array [(dY, 3)] 3 [] [(1, dense [] 4)].
Definition s_late : slice := mkslice dX 0 (-1) 1.
Lemma one_separate s a b : (forall z, (exists o, item_at a o z \/ item_at b o z) \/ (exists k, In (k, z) (sd_list (da_coords a)) \/ In (k, z) (sd_list (da_coords b))) -> i_buf z <> t_case) ->
  (forall o x, item_at a o x -> (forall o' z, item_at a o' z \/ item_at b o' z -> o' <> o -> i_buf z <> i_buf x) /\
     (forall k z, In (k, z) (sd_list (da_coords a)) \/ In (k, z) (sd_list (da_coords b)) -> i_buf z <> i_buf x)) ->
  separate t_case s [(a, b)].
Proof.
  intros T D. split; [intros a' b' [[= <- <-]|[]]; exact T|]. intros i a' b' o x y E (W & _) i' a2 b2 E'. destruct i as [|i]; [|destruct i; discriminate]. destruct i' as [|i']; [|destruct i'; discriminate].
  injection E as <- <-. injection E' as <- <-. destruct (D o x W) as [D1 D2]. split; [|exact D2]. intros o' z I N. apply (D1 o' z I). congruence.
Qed.
Ltac one_tac := apply one_separate; [intros z Z; at_item; vm_compute; discriminate|
  intros o x W; split; [intros o' z Z N; at_item; try (exfalso; apply N; reflexivity); vm_compute; discriminate|intros k z Z; at_item; vm_compute; discriminate]].
Lemma late_ok : operands_ok s_late [(a_late, b_late)] /\ separate t_case s_late [(a_late, b_late)].
Proof.
  assert (A : da_ok a_late /\ da_comparable a_late /\ forall k x, item_at a_late k x -> distinct_elements (arr_of x)) by array_tac.
  assert (B : da_ok b_late /\ da_comparable b_late /\ forall k x, item_at b_late k x -> distinct_elements (arr_of x)) by array_tac.
  split; [|unfold a_late, b_late; one_tac].
  split; [right; cbn; lia|]. split; [reflexivity|]. intros a b [[= <- <-]|[]]. destruct A as (A1 & A2 & A3), B as (B1 & B2 & _). repeat (split; [assumption|]). intros o x y (W & _) _. exact (A3 o x W).
Qed.
Example C50_atomic_case : operands_ok s_late [(a_late, b_late)] /\ separate t_case s_late [(a_late, b_late)] /\ accepted kind_case h_case s_late a_late b_late /\
  exists h' e, SetSlice_Model.set_da kind_case blocks_case t_case h_case a_late s_late b_late (Throw e) h' /\
    h_case (2%nat, 0) = (ENum 20, ENum 0) /\ h' (2%nat, 0) = (ENum 40, ENum 0).
Proof.
  destruct late_ok as [O Se]. split; [exact O|]. split; [exact Se|]. destruct (proj2 (proj2 O) a_late b_late (or_introl eq_refl)) as (Ha & Ca & _ & Cb & _).
  assert (A : accepted kind_case h_case s_late a_late b_late).
  { destruct (validate_da_ok kind_case h_case a_late s_late b_late Ha Ca Cb (proj1 O) (proj1 (proj2 O))) as [[A _]|[_ [e V]]]; [exact A|]. exfalso. vm_compute in V. discriminate. }
  split; [exact A|]. destruct (C50_data_array kind_case blocks_case t_case blocks_case_ok h_case a_late s_late b_late O Se) as [(r & h' & S) _].
  destruct (C50_atomic_refuted kind_case blocks_case t_case blocks_case_ok h_case a_late s_late b_late O Se A) with (r := r) (h' := h') as [[e ->] G]; [| |exact S|].
  - intros k x y (W1 & W2 & _). unfold a_late, b_late in W1, W2. at_item. split; [reflexivity|]. split; [reflexivity|]. exists []. split; [reflexivity|]. intros k n [].
  - intros (_ & _ & p & Sd & I). vm_compute in Sd. injection Sd as <-. exact (I dY 3 (or_introl eq_refl)).
  - exists h', e. split; [exact S|]. split; [reflexivity|].
    assert (Wm : writes s_late a_late b_late (Some 1) (dense [(dX, 2)] 2) (dense [] 4)).
    { split; [left; reflexivity|]. split; [left; reflexivity|]. intros _. split; [reflexivity|]. left. reflexivity. }
    refine (G 1 _ _ Wm [] (fun _ => 0) eq_refl _). intros k n [].
Qed.

(** Assigning to everything ([a[...] = b], the default slice): masks are never assigned, a different mask is an error. With the slice
    of the full range, the same assignment succeeds. *)
Definition a_whole : darray := array [(dX, 2)] 1 [] [(1, dense [(dX, 2)] 2)].
Definition b_whole : darray := array [(dX, 2)] 3 [] [(1, dense [(dX, 2)] 4)].
Theorem C50_whole_refuted :
  (forall r h', SetSlice_Model.set_da kind_case blocks_case t_case h_case a_whole slice_default b_whole r h' <-> r = Throw DimensionError /\ h' = h_case) /\
  exists h', SetSlice_Model.set_da kind_case blocks_case t_case h_case a_whole (mkslice dX 0 2 1) b_whole (Ok tt) h'.
Proof.
  split; [apply set_da_no; vm_compute; reflexivity|].
  assert (A : da_ok a_whole /\ da_comparable a_whole /\ forall k x, item_at a_whole k x -> distinct_elements (arr_of x)) by array_tac.
  assert (B : da_ok b_whole /\ da_comparable b_whole /\ forall k x, item_at b_whole k x -> distinct_elements (arr_of x)) by array_tac.
  set (s := mkslice dX 0 2 1). destruct A as (A1 & A2 & A3), B as (B1 & B2 & _).
  assert (O : operands_ok s [(a_whole, b_whole)]).
  { split; [right; cbn; lia|]. split; [reflexivity|]. intros a b [[= <- <-]|[]]. repeat (split; [assumption|]). intros o x y (W & _) _. exact (A3 o x W). }
  assert (Se : separate t_case s [(a_whole, b_whole)]) by (unfold a_whole, b_whole; one_tac).
  destruct (C50_data_array kind_case blocks_case t_case blocks_case_ok h_case a_whole s b_whole O Se) as [(r & h' & S) Q]. destruct (Q r h' S) as (Y & _).
  assert (r = Ok tt) as ->; [|eauto]. apply Y. split.
  - destruct (validate_da_ok kind_case h_case a_whole s b_whole A1 A2 B2 (proj1 O) (proj1 (proj2 O))) as [[A _]|[_ [e V]]]; [exact A|]. exfalso. vm_compute in V. discriminate.
  - intros a b o x y [[= <- <-]|[]] (W1 & W2 & W3). unfold a_whole, b_whole in W1, W2. at_item; (split; [reflexivity|]); (split; [reflexivity|]); exists [(dX, 2)]; (split; [vm_compute; reflexivity|]); intros k n I; exact I.
Qed.

(** ** Datasets *)
Definition d_case : dset := mkds (dict [(dX, 3)] [(1, dense [(dX, 3)] 2)]) (mkd [(1, array [(dX, 3)] 1 [] [(1, dense [(dX, 3)] 3)]); (2, array [(dX, 3)] 7 [] [])]) false true.
Definition e_case : dset := mkds (dict [(dX, 2)] [(1, dense [(dX, 2)] 5)]) (mkd [(3, array [(dX, 2)] 11 [] []); (2, array [(dX, 2)] 9 [] []); (1, array [(dX, 2)] 4 [] [(1, dense [(dX, 2)] 6)])]) false true.
Definition kind_ds : Z -> info := fun o => mkinfo 0 (if (o =? 7) || (o =? 9) then 1 else 0) false.
Definition l_case : list (darray * darray) :=
  [(array [(dX, 3)] 1 [] [(1, dense [(dX, 3)] 3)], array [(dX, 2)] 4 [] [(1, dense [(dX, 2)] 6)]); (array [(dX, 3)] 7 [] [], array [(dX, 2)] 9 [] [])].
Lemma d_case_ok : ds_ok d_case /\ ds_ok e_case.
Proof.
  split; apply ds_ok_mk; try (apply dict_ok; [small_tac|nodup_tac|parts_tac]); try nodup_tac; try discriminate; try (intros _; reflexivity);
    intros k a I; members; repeat match goal with I : In _ _ |- _ => destruct I as [I|I]; [inversion I; clear I; subst|] end; try destruct I;
    match goal with |- da_ok ?a /\ _ => assert (A : da_ok a /\ da_comparable a /\ forall k x, item_at a k x -> distinct_elements (arr_of x)) by array_tac end;
    (split; [apply A|]); (split; [apply A|]); (split; [reflexivity|]); intros kk nn; reflexivity.
Qed.
Example C50_dataset_case : ds_ok d_case /\ ds_ok e_case /\ named_pairs d_case e_case l_case /\ operands_ok s_case l_case /\ separate t_case s_case l_case /\
  ds_accepted kind_ds h_case s_case d_case (ds_coords e_case) l_case /\ all_fit kind_ds s_case l_case.
Proof.
  destruct d_case_ok as [D E]. split; [exact D|]. split; [exact E|].
  split; [repeat (constructor; [split; [reflexivity|]; vm_compute; auto|]); constructor|].
  assert (G : forall a b, In (a, b) l_case -> da_ok a /\ da_comparable a /\ da_ok b /\ da_comparable b /\ forall o x, item_at a o x -> distinct_elements (arr_of x)).
  { intros a b I. destruct I as [I|[I|[]]]; inversion I; clear I; subst;
      match goal with |- da_ok ?a /\ _ /\ da_ok ?b /\ _ => assert (A : da_ok a /\ da_comparable a /\ forall k x, item_at a k x -> distinct_elements (arr_of x)) by array_tac;
        assert (B : da_ok b /\ da_comparable b /\ forall k x, item_at b k x -> distinct_elements (arr_of x)) by array_tac end; destruct A as (? & ? & ?), B as (? & ? & ?); auto. }
  assert (O : operands_ok s_case l_case).
  { split; [right; cbn; lia|]. split; [reflexivity|]. intros a b I. destruct (G a b I) as (G1 & G2 & G3 & G4 & G5). repeat (split; [assumption|]). intros o x y (W & _) _. exact (G5 o x W). }
  split; [exact O|]. split.
  { split.
    - intros a b [I|[I|[]]] z Z; inversion I; clear I; subst; at_item; vm_compute; discriminate.
    - intros i a b o x y Ei (W & _) i' a' b' Ei'. destruct i as [|[|[|i]]]; try discriminate; destruct i' as [|[|[|i']]]; try discriminate; injection Ei as <- <-; injection Ei' as <- <-;
        (split; [intros o' z Z N; at_item; try (exfalso; apply N; reflexivity); vm_compute; discriminate|intros k z Z; at_item]). }
  split.
  - split.
    + destruct (ds_slice_cases (store_of kind_ds h_case) d_case s_case D (proj1 O) (proj1 (proj2 O))) as [(d' & Q & C)|[e Q]].
      * exists d'. split; [exact Q|]. destruct (superset_cases (store_of kind_ds h_case) (ds_coords d') (ds_coords e_case) C (proj1 (proj2 E))) as [[S _]|[_ [e S]]]; [exact S|]. exfalso.
        assert (V : (do d' <- ds_slice (store_of kind_ds h_case) d_case s_case; coords_are_superset (store_of kind_ds h_case) (ds_coords d') (ds_coords e_case)) = Throw e) by (rewrite Q; exact S).
        vm_compute in V. discriminate.
      * exfalso. vm_compute in Q. discriminate.
    + intros a b I. destruct (G a b I) as (G1 & G2 & G3 & G4 & _). destruct (validate_da_ok kind_ds h_case a s_case b G1 G2 G4 (proj1 O) (proj1 (proj2 O))) as [[A _]|[_ [e V]]]; [exact A|].
      exfalso. destruct I as [I|[I|[]]]; inversion I; clear I; subst; vm_compute in V; discriminate.
  - intros a b o x y [I|[I|[]]] (W1 & W2 & W3); inversion I; clear I; subst; at_item; (split; [reflexivity|]); (split; [reflexivity|]); exists [(dX, 2)]; (split; [vm_compute; reflexivity|]); intros k n I; exact I.
Qed.

(** A variable: the first item is changed before the second is rejected, which has another unit. *)
Theorem C50_dataset_variable_refuted : let y := dense [] 4 in
  ds_ok d_case /\ variable_ok t_case s_late d_case y /\
  forall r h', SetSlice_Model.set_ds_var kind_ds blocks_case t_case h_case d_case s_late y r h' ->
    r = Throw UnitError /\ h_case (1%nat, 0) = (ENum 10, ENum 0) /\ h' (1%nat, 0) = (ENum 40, ENum 0).
Proof.
  intros y. destruct d_case_ok as [D _]. split; [exact D|].
  assert (S0 : small []) by small_tac. assert (S3 : small [(dX, 3)]) by small_tac. destruct (dense_ok [] 4 (proj1 S0) (proj2 S0)) as (_ & Cy & _ & _).
  assert (V : variable_ok t_case s_late d_case y).
  { split; [right; cbn; lia|]. split; [exact Cy|]. split; [vm_compute; discriminate|]. split; [vm_compute; repeat (constructor; [cbn; intuition discriminate|]); constructor|].
    intros n a I. unfold d_case in I. rewrite ds_list_mk in I.
    destruct I as [I|[I|[]]]; inversion I; clear I; subst; (split; [vm_compute; discriminate|]); (split; [vm_compute; discriminate|]); intros _; apply dense_ok; apply S3. }
  split; [exact V|]. intros r h' S. unfold SetSlice_Model.set_ds_var in S. change (map snd (ditems (ds_data d_case))) with [array [(dX, 3)] 1 [] [(1, dense [(dX, 3)] 3)]; array [(dX, 3)] 7 [] []] in S.
  cbn [set_vars] in S. destruct S as (r1 & h1 & S1 & R1).
  destruct (dense_ok [(dX, 3)] 1 (proj1 S3) (proj2 S3)) as (_ & C1 & _ & D1). destruct (dense_ok [(dX, 3)] 7 (proj1 S3) (proj2 S3)) as (_ & C7 & _ & D7).
  destruct (C50_variable kind_ds blocks_case t_case blocks_case_ok h_case (dense [(dX, 3)] 1) s_late y (proj1 V) C1 Cy (fun _ => D1)) as [_ Q1]; [vm_compute; discriminate..|].
  destruct (Q1 r1 h1 S1) as (Y1 & _ & G1 & _). assert (r1 = Ok tt) as -> by (apply Y1; split; [reflexivity|]; split; [reflexivity|]; exists []; split; [reflexivity|]; intros k n []).
  destruct R1 as (r2 & h2 & S2 & R2). unfold SetSlice_Model.set_var in S2. assert (Vv : validate_var kind_ds (dense [(dX, 3)] 7) s_late y = Throw UnitError) by (vm_compute; reflexivity).
  cbn [da_data array] in S2. rewrite Vv in S2. destruct S2 as [-> ->]. destruct R2 as [-> ->]. split; [reflexivity|]. split; [reflexivity|].
  refine (G1 eq_refl [] (fun _ => 0) eq_refl _). intros k n [].
Qed.
Print Assumptions C50_data_array.
Print Assumptions C50_dataset.
Print Assumptions C50_dataset_array_coords_refuted.
Print Assumptions C50_dataset_variable.
Print Assumptions C50_atomic_refuted.
