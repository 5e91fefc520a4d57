(** C18: slicing by label.

    [x] is the data, of any shape with dimension [d] of extent [n]; the coord is one-dimensional, with the [m] values [c i].
    [orders P leb]: [leb] is a total order of the values satisfying [P] - all integers and time points, and all floating-point
    numbers but NaN. [up]: the coord is ascending; otherwise it is descending and "before" means "greater". *)
From Flocq Require Import IEEE754.BinarySingleNaN.
From Verif Require Import Float Lookup_Proofs NanReduce_Proofs.
From Verif Require Import Base Map_Model Dims_Model Dims_Spec Dims_Proofs View_Model View_Spec View_Proofs Reshape_Model Reshape_Spec Reshape_Proofs Reshape_Item_Proofs Reshape_Props LabelSlice_Model LabelSlice_Spec LabelSlice_Proofs.

(** The slice of [x] at index [i] of [d] ... *)
Definition point_at {B} (x y : varr B) (p1 p2 : list (Z * Z)) (d i : Z) : Prop :=
  vshape y = p1 ++ p2 /\ wfv (va y) /\ forall ix, valid_at (vshape y) ix -> val y ix = val x (put ix d i).
(** ... and the slice with the indices from [first] to [last]. *)
Definition range_at {B} (x y : varr B) (p1 p2 : list (Z * Z)) (d first last : Z) : Prop :=
  vshape y = p1 ++ (d, last - first) :: p2 /\ wfv (va y) /\ forall ix, valid_at (vshape y) ix -> val y ix = val x (put ix d (first + ix d)).

(** A label: a scalar with value [v], of the unit of the coord. *)
Definition label {A} (coord value : lvar A) (v : A) : Prop := l_dims value = mempty /\ l_vals value = [v] /\ l_unit value = l_unit coord.
Definition coord_of {A} (coord : lvar A) (d m : Z) (c : Z -> A) : Prop := l_dims coord = mk [(d, m)] /\ lists (l_vals coord) m c.

(** Point coords: the only element equal to the label, otherwise an error. No order is needed. *)
Theorem C18_value A (leb eqb : A -> A -> bool) B (x : varr B) p1 p2 d n coord c value v :
  wfv (va x) -> vshape x = p1 ++ (d, n) :: p2 -> coord_of coord d n c -> label coord value v ->
  (forall i, 0 <= i < n -> (forall j, 0 <= j < n -> (eqb (c j) v = true <-> j = i)) -> exists y, slice_value leb eqb x (Some coord) value = Ok y /\ point_at x y p1 p2 d i) /\
  (~ (exists i, 0 <= i < n /\ forall j, 0 <= j < n -> (eqb (c j) v = true <-> j = i)) -> slice_value leb eqb x (Some coord) value = Throw SliceError).
Proof.
  intros Hw Ex [Ec Hl] (V1 & V2 & V3). apply (value_points leb eqb (fun _ => True) x p1 p2 d n n coord c Hw Ex Ec Hl value v V1 V2 (eq_sym V3)); lia.
Qed.
Print Assumptions C18_value.

(** Bin edges: the bin with the label, including the edge at its begin; labels outside are an error. *)
Theorem C18_bin A (leb eqb : A -> A -> bool) P B (x : varr B) p1 p2 d n coord c value v up :
  orders P leb -> wfv (va x) -> vshape x = p1 ++ (d, n) :: p2 -> coord_of coord d (n + 1) c -> label coord value v ->
  (forall i, 0 <= i < n + 1 -> P (c i)) -> P v -> direction leb up (n + 1) c ->
  (forall i, 0 <= i < n -> le leb up (c i) v -> lt leb up v (c (i + 1)) -> exists y, slice_value leb eqb x (Some coord) value = Ok y /\ point_at x y p1 p2 d i) /\
  ((forall i, 0 <= i < n -> ~ (le leb up (c i) v /\ lt leb up v (c (i + 1)))) -> slice_value leb eqb x (Some coord) value = Throw SliceError).
Proof.
  intros Ho Hw Ex [Ec Hl] (V1 & V2 & V3) HP Hv Hd. apply (value_edges leb eqb P x p1 p2 d n (n + 1) coord c Hw Ex Ec Hl value v V1 V2 (eq_sym V3) up); auto.
Qed.
Print Assumptions C18_bin.
(** There is at most one such bin. *)
Theorem C18_bin_unique A (leb : A -> A -> bool) P n c v up : orders P leb -> (forall i, 0 <= i < n + 1 -> P (c i)) -> P v -> direction leb up (n + 1) c ->
  forall i j, 0 <= i < n -> 0 <= j < n -> le leb up (c i) v -> lt leb up v (c (i + 1)) -> le leb up (c j) v -> lt leb up v (c (j + 1)) -> i = j.
Proof.
  intros Ho HP Hv Hd i j Hi Hj I1 I2 J1 J2. assert (Hm : monotone leb up (n + 1) c) by (destruct Hd as [[Hx _]|[Hx _]]; [intros k Hk Hk'; lia|exact Hx]).
  assert (Hw : forall a b, 0 <= a < n -> 0 <= b < n -> a < b -> lt leb up v (c (a + 1)) -> le leb up (c b) v -> False).
  { intros a b Ha Hb Hab [_ A1] B1. apply A1. apply (le_trans leb P Ho up _ (c b)); try (apply HP; lia); try assumption. apply (mono_all leb P Ho (n + 1) c up HP Hm); lia. }
  destruct (Z.lt_total i j) as [Hx|[Hx|Hx]]; [exfalso; apply (Hw i j); assumption|exact Hx|exfalso; apply (Hw j i); assumption].
Qed.
Print Assumptions C18_bin_unique.

(** Ranges. [begin] and [end] may be missing. *)
Definition bounds {A} (P : A -> Prop) (coord : lvar A) (o : option (lvar A)) (b : option A) : Prop :=
  match o with
  | None => b = None
  | Some w => exists v, label coord w v /\ l_ord w = true /\ P v /\ b = Some v
  end.
Lemma bounds_ok {A} (P : A -> Prop) coord o b : bounds P coord o b -> bound_ok P coord o /\ bound o = b /\ forall v, b = Some v -> P v.
Proof.
  destruct o as [w|]; cbn [bounds bound_ok bound]; [|intros ->; repeat split; discriminate]. intros (v & (V1 & V2 & V3) & V4 & V5 & ->). rewrite V2. repeat split; auto; [exists v; auto|]. intros ? [= <-]. exact V5.
Qed.

(** Point coords: exactly the elements from [begin] to before [end]. *)
Theorem C18_range A (leb : A -> A -> bool) P B (x : varr B) p1 p2 d n coord c up begin_ end_ b e :
  orders P leb -> wfv (va x) -> vshape x = p1 ++ (d, n) :: p2 -> coord_of coord d n c -> l_ord coord = true ->
  (forall i, 0 <= i < n -> P (c i)) -> direction leb up n c -> bounds P coord begin_ b -> bounds P coord end_ e ->
  (forall vb ve, b = Some vb -> e = Some ve -> le leb up vb ve) ->
  exists y first last, slice_labels leb x (Some coord) begin_ end_ = Ok y /\ range_at x y p1 p2 d first last /\ 0 <= first <= last /\ last <= n /\
    forall i, 0 <= i < n -> (first <= i < last <-> (forall vb, b = Some vb -> le leb up vb (c i)) /\ (forall ve, e = Some ve -> lt leb up (c i) ve)).
Proof.
  intros Ho Hw Ex [Ec Hl] Hord HP Hd Hb He Hbe. apply bounds_ok in Hb as (Hb & Eb & Qb). apply bounds_ok in He as (He & Ee & Qe). destruct (range_ok leb (fun _ _ => true) P Ho x p1 p2 d n n coord c up Hw Ex Ec Hl HP Hd Hord begin_ end_ Hb He (or_introl eq_refl)) as (first & last & H1 & H2 & Hf & Hla & Hok & _).
  rewrite Eb in Hf. rewrite Ee in Hla. rewrite Z.eqb_refl in Hf.
  assert (Hle : first <= last).
  { destruct (Z_le_gt_dec first last) as [|Hgt]; [assumption|]. exfalso. assert (Hi : 0 <= last < n) by lia. apply (Z.lt_irrefl last). apply (Hla last Hi). intros ve Hve.
    destruct b as [vb|]; [|assert (first <= last); [|lia]; apply (Hf last Hi); intros ? ?; discriminate]. specialize (Hbe vb ve eq_refl Hve).
    assert (Pb : P vb) by (apply Qb; reflexivity).
    assert (Pe : P ve) by (apply Qe; solve [assumption|reflexivity]).
    assert (Hnb : ~ le leb up vb (c last)) by (intros Hx; assert (first <= last); [|lia]; apply (Hf last Hi); intros ? [= <-]; exact Hx).
    apply (lt_iff leb P Ho); [apply HP; lia|exact Pe|]. intros Hx. apply Hnb. apply (le_trans leb P Ho up vb ve); try assumption. apply HP; lia. }
  destruct (Hok Hle) as (y & Ey & S1 & S2 & S3). exists y, first, last. split; [exact Ey|]. split; [split; [exact S1|split; [exact S2|exact S3]]|]. split; [lia|]. split; [lia|].
  intros i Hi. rewrite <- (Hf i Hi), <- (Hla i Hi). reflexivity.
Qed.
Print Assumptions C18_range.

(** Bin edges: exactly the bins that overlap with the range; [begin] has to be strictly before [end]. *)
Theorem C18_range_bins A (leb : A -> A -> bool) P B (x : varr B) p1 p2 d n coord c up begin_ end_ b e :
  orders P leb -> wfv (va x) -> vshape x = p1 ++ (d, n) :: p2 -> coord_of coord d (n + 1) c -> l_ord coord = true ->
  (forall i, 0 <= i < n + 1 -> P (c i)) -> direction leb up (n + 1) c -> bounds P coord begin_ b -> bounds P coord end_ e ->
  (forall vb ve, b = Some vb -> e = Some ve -> lt leb up vb ve) ->
  exists y first last, slice_labels leb x (Some coord) begin_ end_ = Ok y /\ range_at x y p1 p2 d first last /\ 0 <= first <= last /\ last <= n /\
    forall i, 0 <= i < n -> (first <= i < last <-> (forall vb, b = Some vb -> lt leb up vb (c (i + 1))) /\ (forall ve, e = Some ve -> lt leb up (c i) ve)).
Proof.
  intros Ho Hw Ex [Ec Hl] Hord HP Hd Hb He Hbe. apply bounds_ok in Hb as (Hb & Eb & Qb). apply bounds_ok in He as (He & Ee & Qe). destruct (range_ok leb (fun _ _ => true) P Ho x p1 p2 d n (n + 1) coord c up Hw Ex Ec Hl HP Hd Hord begin_ end_ Hb He (or_intror eq_refl)) as (first & last & H1 & H2 & Hf & Hla & Hok & _).
  rewrite Eb in Hf. rewrite Ee in Hla. replace (n + 1 =? n) with false in Hf by lia. assert (Hm : monotone leb up (n + 1) c) by (destruct Hd as [[Hx _]|[Hx _]]; [intros k Hk Hk'; lia|exact Hx]).
  assert (Hle : first <= last).
  { destruct (Z_le_gt_dec first last) as [|Hgt]; [assumption|]. exfalso. assert (Hi : 0 <= last < n) by lia. apply (Z.lt_irrefl last). apply (Hla last Hi). intros ve Hve.
    destruct b as [vb|]; [|assert (first <= last); [|lia]; apply (Hf last Hi); intros ? ?; discriminate]. destruct (Hbe vb ve eq_refl Hve) as [B1 B2].
    assert (Pb : P vb) by (apply Qb; reflexivity).
    assert (Pe : P ve) by (apply Qe; solve [assumption|reflexivity]).
    assert (Hnb : ~ lt leb up vb (c (last + 1))) by (intros Hx; assert (first <= last); [|lia]; apply (Hf last Hi); intros ? [= <-]; exact Hx).
    apply (lt_iff leb P Ho); [apply HP; lia|exact Pe|]. intros Hx. apply Hnb. apply (lt_iff leb P Ho); [exact Pb|apply HP; lia|]. intros Hy. apply B2.
    apply (le_trans leb P Ho up ve (c last)); try assumption; [apply HP; lia|]. apply (le_trans leb P Ho up (c last) (c (last + 1))); try assumption; try (apply HP; lia). apply Hm; lia. }
  destruct (Hok Hle) as (y & Ey & S1 & S2 & S3). exists y, first, last. split; [exact Ey|]. split; [split; [exact S1|split; [exact S2|exact S3]]|]. split; [lia|]. split; [lia|].
  intros i Hi. rewrite <- (Hf i Hi), <- (Hla i Hi). reflexivity.
Qed.
Print Assumptions C18_range_bins.

(** Reversed bounds: an error if an element or bin lies between them, otherwise an empty slice. *)
Theorem C18_reversed A (leb : A -> A -> bool) P B (x : varr B) p1 p2 d n coord c up begin_ end_ vb ve :
  orders P leb -> wfv (va x) -> vshape x = p1 ++ (d, n) :: p2 -> coord_of coord d n c -> l_ord coord = true ->
  (forall i, 0 <= i < n -> P (c i)) -> direction leb up n c -> bounds P coord begin_ (Some vb) -> bounds P coord end_ (Some ve) -> lt leb up ve vb ->
  ((exists i, 0 <= i < n /\ le leb up ve (c i) /\ lt leb up (c i) vb) -> slice_labels leb x (Some coord) begin_ end_ = Throw SliceError) /\
  (~ (exists i, 0 <= i < n /\ le leb up ve (c i) /\ lt leb up (c i) vb) -> exists y, slice_labels leb x (Some coord) begin_ end_ = Ok y /\ vshape y = p1 ++ (d, 0) :: p2).
Proof.
  intros Ho Hw Ex [Ec Hl] Hord HP Hd Hb He Hbe. apply bounds_ok in Hb as (Hb & Eb & Qb). apply bounds_ok in He as (He & Ee & Qe). destruct (range_ok leb (fun _ _ => true) P Ho x p1 p2 d n n coord c up Hw Ex Ec Hl HP Hd Hord begin_ end_ Hb He (or_introl eq_refl)) as (first & last & H1 & H2 & Hf & Hla & Hok & Hbad).
  rewrite Eb in Hf. rewrite Ee in Hla. rewrite Z.eqb_refl in Hf.
  assert (Pb : P vb) by (apply Qb; reflexivity).
  assert (Pe : P ve) by (apply Qe; solve [assumption|reflexivity]).
  assert (Hf' : forall i, 0 <= i < n -> (first <= i <-> le leb up vb (c i))) by (intros i Hi; rewrite (Hf i Hi); split; [intros Hx; apply Hx; reflexivity|intros Hx ? [= <-]; exact Hx]).
  assert (Hl' : forall i, 0 <= i < n -> (i < last <-> lt leb up (c i) ve)) by (intros i Hi; rewrite (Hla i Hi); split; [intros Hx; apply Hx; reflexivity|intros Hx ? [= <-]; exact Hx]).
  split.
  - intros (i & Hi & I1 & I2). apply Hbad. assert (~ i < last) by (rewrite Hl' by exact Hi; unfold lt; tauto). assert (~ first <= i) by (rewrite Hf' by exact Hi; unfold lt in I2; tauto). lia.
  - intros Hno. assert (Hle : first <= last).
    { destruct (Z_le_gt_dec first last) as [|Hgt]; [assumption|]. exfalso. assert (Hi : 0 <= last < n) by lia. apply Hno. exists last. split; [exact Hi|]. split.
      - destruct (le_dec leb up ve (c last)) as [|Hx]; [assumption|]. exfalso. rewrite <- (lt_iff leb P Ho) in Hx by (try apply HP; assumption). apply Hl' in Hx; lia.
      - apply (lt_iff leb P Ho); [apply HP; lia|exact Pb|]. intros Hx. apply Hf' in Hx; lia. }
    destruct (Hok Hle) as (y & Ey & S1 & _). exists y. split; [exact Ey|]. rewrite S1. assert (last = first) as ->; [|rewrite Z.sub_diag; reflexivity].
    destruct (Z.eq_dec last first) as [|Hne]; [assumption|]. exfalso. assert (Hi : 0 <= first < n) by lia. pose proof (proj1 (Hf' first Hi) ltac:(lia)) as F1. pose proof (proj1 (Hl' first Hi) ltac:(lia)) as [L1 L2].
    destruct Hbe as [_ B2]. apply B2. apply (le_trans leb P Ho up vb (c first)); try assumption. apply HP; lia.
Qed.
Print Assumptions C18_reversed.

(** Errors: neither ascending nor descending, or both (two or more elements, all equal, or no element); no coord; another unit; a label that is
    not a scalar. *)
Theorem C18_unsorted A (leb eqb : A -> A -> bool) B (x : varr B) p1 p2 d n m coord c value v begin_ end_ b e :
  wfv (va x) -> vshape x = p1 ++ (d, n) :: p2 -> coord_of coord d m c -> label coord value v -> (forall up, ~ direction leb up m c) ->
  (m = n + 1 -> slice_value leb eqb x (Some coord) value = Throw RuntimeError) /\
  (l_ord coord = true -> bounds (fun _ => True) coord begin_ b -> bounds (fun _ => True) coord end_ e -> slice_labels leb x (Some coord) begin_ end_ = Throw RuntimeError).
Proof.
  intros Hw Ex [Ec Hl] (V1 & V2 & V3) Hd. split; [intros Hm; apply (value_edges_fail leb eqb x p1 p2 d n m coord c Hw Ex Ec Hl value v V1 V2 (eq_sym V3) Hm Hd)|].
  intros Hord Hb He. apply bounds_ok in Hb as (Hb & _). apply bounds_ok in He as (He & _). assert (Echk : forall o, bound_ok (fun _ => True) coord o -> check_opt coord o = Ok tt).
  { intros [w|] Hw'; [|reflexivity]. destruct Hw' as (W1 & W2 & W3 & _). cbn. apply check_ok; [exact W1|symmetry; exact W2|intros _; exact W3]. }
  unfold slice_labels, params_range. rewrite (Echk _ Hb), (Echk _ He). cbn [bind]. unfold expect_valid_dtype. rewrite Hord. cbn [negb andb bind]. rewrite (coord_inner d m coord Ec), (get_coord_none leb d m coord c Ec Hl Hd). reflexivity.
Qed.
Print Assumptions C18_unsorted.
Theorem C18_errors A (leb eqb : A -> A -> bool) B (x : varr B) coord value :
  slice_value leb eqb x None value = Throw DimensionError /\
  (dims_eqb mempty (l_dims value) = false -> slice_value leb eqb x (Some coord) value = Throw DimensionError) /\
  (l_dims value = mempty -> l_unit value <> l_unit coord -> slice_value leb eqb x (Some coord) value = Throw UnitError /\
     forall o, slice_labels leb x (Some coord) (Some value) o = Throw UnitError).
Proof.
  split; [reflexivity|]. split.
  - intros Hx. unfold slice_value, params_value, expect_valid_slice_value. rewrite Hx. reflexivity.
  - intros Ed Hu. unfold slice_value, slice_labels, params_value, params_range, check_opt, expect_valid_slice_value. rewrite Ed. change (dims_eqb mempty mempty) with true. cbn [bind]. replace (l_unit coord =? l_unit value) with false by (symmetry; apply Z.eqb_neq; congruence). split; reflexivity.
Qed.
Print Assumptions C18_errors.

(** The orders: integers and time points; floating-point numbers without NaN. *)
Theorem C18_order_integer : orders (fun _ : Z => True) Z.leb.
Proof. split; [intros a b _ _; destruct (Z.leb_spec a b); [auto|right; apply Z.leb_le; lia]|]. intros a b c _ _ _ H1 H2. apply Z.leb_le in H1, H2. apply Z.leb_le. lia. Qed.
Print Assumptions C18_order_integer.
Theorem C18_order_float : orders (fun a : f64 => is_nan a = false) fleb.
Proof.
  split.
  - intros a b Ha Hb. destruct (fltb a b) eqn:E; [left; apply flt_le; exact E|right; apply nlt_le; assumption].
  - intros a b c _ _ _. apply fleb_trans.
Qed.
Print Assumptions C18_order_float.

(** ** Concrete cases *)
Ltac nle := let Hq := fresh in intros Hq; vm_compute in Hq; discriminate Hq.
Definition crd (xs : list Z) : lvar Z := mklv (D [(2, zlen xs)]) xs 7 true.
Definition lab (v : Z) : lvar Z := mklv mempty [v] 7 true.
Definition at_ (xs : list Z) (i : Z) : Z := nth (Z.to_nat i) xs 0.
Lemma crd_of xs : coord_of (crd xs) 2 (zlen xs) (at_ xs).
Proof. split; [reflexivity|]. split; [reflexivity|]. cbn [l_vals crd]. intros i Hi. apply nth_error_nth'. unfold zlen in Hi. lia. Qed.
Lemma lab_ok xs v : label (crd xs) (lab v) v. Proof. repeat split. Qed.
Lemma lab_bounds xs v : bounds (fun _ => True) (crd xs) (Some (lab v)) (Some v). Proof. exists v. repeat split. Qed.
(** 2 x 3 data, sliced along its inner dimension. *)
Definition data : varr Z := arr_of [(1, 2); (2, 3)] [10; 11; 12; 20; 21; 22].
Lemma data_ok : wfv (va data) /\ vshape data = [(1, 2)] ++ (2, 3) :: []. Proof. apply arr_of_ok. lwf_tac. Qed.

Example C18_value_case : felems (slice_value Z.leb Z.eqb data (Some (crd [5; 3; 9])) (lab 3)) = Some ([(1, 2)], [11; 21]) /\
  slice_value Z.leb Z.eqb data (Some (crd [5; 3; 9])) (lab 4) = Throw SliceError /\ slice_value Z.leb Z.eqb data (Some (crd [5; 3; 3])) (lab 3) = Throw SliceError.
Proof. repeat split. Qed.
Example C18_value_hyp_case : exists y, slice_value Z.leb Z.eqb data (Some (crd [5; 3; 9])) (lab 3) = Ok y /\ point_at data y [(1, 2)] [] 2 1.
Proof.
  destruct data_ok as [Hw Hs]. apply (proj1 (C18_value Z Z.leb Z.eqb Z data [(1, 2)] [] 2 3 (crd [5; 3; 9]) (at_ [5; 3; 9]) (lab 3) 3 Hw Hs (crd_of _) (lab_ok _ _))); [lia|].
  intros j Hj. assert (j = 0 \/ j = 1 \/ j = 2) as [-> | [-> | ->]] by lia; cbn; split; intros; solve [lia|reflexivity|discriminate].
Qed.
Lemma dir_up : direction Z.leb true 4 (at_ [0; 1; 1; 4]).
Proof. right. split; [intros i H1 H2; assert (i = 0 \/ i = 1 \/ i = 2) as [-> | [-> | ->]] by lia; reflexivity|]. intros Hx. specialize (Hx 0 ltac:(lia) ltac:(lia)). vm_compute in Hx. discriminate. Qed.
Lemma dir_down : direction Z.leb false 4 (at_ [9; 5; 3; 0]).
Proof. right. split; [intros i H1 H2; assert (i = 0 \/ i = 1 \/ i = 2) as [-> | [-> | ->]] by lia; reflexivity|]. intros Hx. specialize (Hx 0 ltac:(lia) ltac:(lia)). vm_compute in Hx. discriminate. Qed.
Example C18_bin_case : felems (slice_value Z.leb Z.eqb data (Some (crd [0; 1; 1; 4])) (lab 1)) = Some ([(1, 2)], [12; 22]) /\
  felems (slice_value Z.leb Z.eqb data (Some (crd [9; 5; 3; 0])) (lab 5)) = Some ([(1, 2)], [11; 21]) /\
  slice_value Z.leb Z.eqb data (Some (crd [0; 1; 1; 4])) (lab 4) = Throw SliceError /\ slice_value Z.leb Z.eqb data (Some (crd [0; 1; 1; 4])) (lab (-1)) = Throw SliceError.
Proof. repeat split. Qed.
Example C18_bin_hyp_case : exists y, slice_value Z.leb Z.eqb data (Some (crd [9; 5; 3; 0])) (lab 5) = Ok y /\ point_at data y [(1, 2)] [] 2 1.
Proof.
  destruct data_ok as [Hw Hs]. apply (proj1 (C18_bin Z Z.leb Z.eqb (fun _ => True) Z data [(1, 2)] [] 2 3 (crd [9; 5; 3; 0]) (at_ [9; 5; 3; 0]) (lab 5) 5 false C18_order_integer Hw Hs (crd_of _) (lab_ok _ _) (fun _ _ => I) I dir_down)); [lia|reflexivity|].
  split; [reflexivity|nle].
Qed.
Example C18_range_case : felems (slice_labels Z.leb data (Some (crd [1; 3; 3])) (Some (lab 2)) (Some (lab 4))) = Some ([(1, 2); (2, 2)], [11; 12; 21; 22]) /\
  felems (slice_labels Z.leb data (Some (crd [5; 3; 1])) (Some (lab 5)) (Some (lab 1))) = Some ([(1, 2); (2, 2)], [10; 11; 20; 21]) /\
  felems (slice_labels Z.leb data (Some (crd [1; 3; 5])) None (Some (lab 5))) = Some ([(1, 2); (2, 2)], [10; 11; 20; 21]).
Proof. repeat split. Qed.
Example C18_range_hyp_case : exists y first last, slice_labels Z.leb data (Some (crd [5; 3; 1])) (Some (lab 5)) (Some (lab 1)) = Ok y /\ range_at data y [(1, 2)] [] 2 first last /\ first = 0 /\ last = 2.
Proof.
  destruct data_ok as [Hw Hs]. destruct (C18_range Z Z.leb (fun _ => True) Z data [(1, 2)] [] 2 3 (crd [5; 3; 1]) (at_ [5; 3; 1]) false (Some (lab 5)) (Some (lab 1)) (Some 5) (Some 1)) as (y & f & l & Ey & Hy & H1 & H2 & H3).
  - exact C18_order_integer.
  - exact Hw.
  - exact Hs.
  - apply crd_of.
  - reflexivity.
  - intros; exact I.
  - right. split; [intros i H1 H2; assert (i = 0 \/ i = 1) as [-> | ->] by lia; reflexivity|]. intros Hx. specialize (Hx 0 ltac:(lia) ltac:(lia)). vm_compute in Hx. discriminate.
  - apply lab_bounds.
  - apply lab_bounds.
  - intros ? ? [= <-] [= <-]. reflexivity.
  - exists y, f, l. split; [exact Ey|]. split; [exact Hy|].
    assert (Q0 : f <= 0 < l) by (apply (H3 0); [lia|]; split; intros ? [= <-]; [reflexivity|split; [reflexivity|nle]]).
    assert (Q1 : f <= 1 < l) by (apply (H3 1); [lia|]; split; intros ? [= <-]; [reflexivity|split; [reflexivity|nle]]).
    assert (Q2 : ~ f <= 2 < l) by (rewrite (H3 2) by lia; intros [_ Hx]; destruct (Hx 1 eq_refl) as [_ Hx']; apply Hx'; reflexivity). lia.
Qed.
Example C18_range_bins_case : felems (slice_labels Z.leb data (Some (crd [0; 2; 4; 6])) (Some (lab 1)) (Some (lab 3))) = Some ([(1, 2); (2, 2)], [10; 11; 20; 21]) /\
  felems (slice_labels Z.leb data (Some (crd [9; 5; 3; 0])) (Some (lab 4)) None) = Some ([(1, 2); (2, 2)], [11; 12; 21; 22]).
Proof. repeat split. Qed.
Example C18_range_bins_hyp_case : exists y first last, slice_labels Z.leb data (Some (crd [0; 1; 1; 4])) (Some (lab 1)) (Some (lab 3)) = Ok y /\ range_at data y [(1, 2)] [] 2 first last /\ first = 2 /\ last = 3.
Proof.
  destruct data_ok as [Hw Hs]. destruct (C18_range_bins Z Z.leb (fun _ => True) Z data [(1, 2)] [] 2 3 (crd [0; 1; 1; 4]) (at_ [0; 1; 1; 4]) true (Some (lab 1)) (Some (lab 3)) (Some 1) (Some 3) C18_order_integer Hw Hs (crd_of _) eq_refl (fun _ _ => I) dir_up (lab_bounds _ _) (lab_bounds _ _)) as (y & f & l & Ey & Hy & H1 & H2 & H3).
  - intros ? ? [= <-] [= <-]. split; [reflexivity|nle].
  - exists y, f, l. split; [exact Ey|]. split; [exact Hy|].
    assert (Q2 : f <= 2 < l) by (apply (H3 2); [lia|]; split; intros ? [= <-]; split; solve [reflexivity|nle]).
    assert (Q1 : ~ f <= 1 < l) by (rewrite (H3 1) by lia; intros [Hx _]; destruct (Hx 1 eq_refl) as [_ Hx']; apply Hx'; reflexivity). lia.
Qed.
Example C18_reversed_case : slice_labels Z.leb data (Some (crd [1; 3; 5])) (Some (lab 4)) (Some (lab 2)) = Throw SliceError /\
  felems (slice_labels Z.leb data (Some (crd [1; 3; 7])) (Some (lab 6)) (Some (lab 4))) = Some ([(1, 2); (2, 0)], []).
Proof. split; reflexivity. Qed.
Example C18_reversed_hyp_case : slice_labels Z.leb data (Some (crd [1; 3; 5])) (Some (lab 4)) (Some (lab 2)) = Throw SliceError.
Proof.
  destruct data_ok as [Hw Hs]. refine (proj1 (C18_reversed Z Z.leb (fun _ => True) Z data [(1, 2)] [] 2 3 (crd [1; 3; 5]) (at_ [1; 3; 5]) true (Some (lab 4)) (Some (lab 2)) 4 2 C18_order_integer Hw Hs (crd_of _) eq_refl (fun _ _ => I) _ (lab_bounds _ _) (lab_bounds _ _) _) _).
  - right. split; [intros i H1 H2; assert (i = 0 \/ i = 1) as [-> | ->] by lia; reflexivity|]. intros Hx. specialize (Hx 0 ltac:(lia) ltac:(lia)). vm_compute in Hx. discriminate.
  - split; [reflexivity|nle].
  - exists 1. split; [lia|]. split; [reflexivity|]. split; [reflexivity|nle].
Qed.
Example C18_unsorted_case : slice_labels Z.leb data (Some (crd [1; 5; 3])) (Some (lab 1)) None = Throw RuntimeError.
Proof.
  destruct data_ok as [Hw Hs]. refine (proj2 (C18_unsorted Z Z.leb Z.eqb Z data [(1, 2)] [] 2 3 3 (crd [1; 5; 3]) (at_ [1; 5; 3]) (lab 1) 1 (Some (lab 1)) None (Some 1) None Hw Hs (crd_of _) (lab_ok _ _) _) eq_refl (lab_bounds _ _) eq_refl).
  intros [|] [[Hx _]|[Hx _]]; try discriminate; [specialize (Hx 1 ltac:(lia) ltac:(lia))|specialize (Hx 0 ltac:(lia) ltac:(lia))]; vm_compute in Hx; discriminate.
Qed.
Example C18_errors_case : slice_value Z.leb Z.eqb data (Some (crd [1; 3; 5])) (mklv mempty [3] 8 true) = Throw UnitError /\ slice_value Z.leb Z.eqb data (Some (crd [1; 3; 5])) (mklv (D [(2, 1)]) [3] 7 true) = Throw DimensionError.
Proof. split; reflexivity. Qed.

(** ** Not as stated *)
(** A coord with equal values is sorted, but the range slice fails, even if the range selects everything. *)
Theorem C18_constant_refuted : ~ forall (x : varr Z) xs vb ve, wfv (va x) -> vshape x = [(2, zlen xs)] -> monotone Z.leb true (zlen xs) (at_ xs) -> vb <= ve ->
  exists y, slice_labels Z.leb x (Some (crd xs)) (Some (lab vb)) (Some (lab ve)) = Ok y.
Proof.
  intros Hx. destruct (arr_of_ok [(2, 2)] [10; 11] ltac:(lwf_tac)) as [Hw Hs]. destruct (Hx (arr_of [(2, 2)] [10; 11]) [1; 1] 0 2 Hw Hs) as [y Ey]; [|lia|vm_compute in Ey; discriminate].
  intros i H1 H2. change (zlen [1; 1]) with 2 in H2. assert (i = 0) as -> by lia. reflexivity.
Qed.
Print Assumptions C18_constant_refuted.
(** ... and so does every range slice of an array without elements. *)
Theorem C18_empty_refuted : ~ forall (x : varr Z) begin_ end_, wfv (va x) -> vshape x = [(2, 0)] -> bounds (fun _ => True) (crd []) begin_ None -> bounds (fun _ => True) (crd []) end_ None ->
  exists y, slice_labels Z.leb x (Some (crd [])) begin_ end_ = Ok y.
Proof.
  intros Hx. destruct (arr_of_ok [(2, 0)] [] ltac:(lwf_tac)) as [Hw Hs]. destruct (Hx (arr_of [(2, 0)] []) None None Hw Hs eq_refl eq_refl) as [y Ey]. vm_compute in Ey. discriminate.
Qed.
Print Assumptions C18_empty_refuted.
(** Bin edges and an empty range: the bin around the bounds is selected; ... *)
Theorem C18_empty_range_refuted : ~ forall (x : varr Z) xs n v y, wfv (va x) -> vshape x = [(2, n)] -> zlen xs = n + 1 -> direction Z.leb true (n + 1) (at_ xs) ->
  slice_labels Z.leb x (Some (crd xs)) (Some (lab v)) (Some (lab v)) = Ok y -> vshape y = [(2, 0)].
Proof.
  intros Hx. destruct (arr_of_ok [(2, 3)] [10; 11; 12] ltac:(lwf_tac)) as [Hw Hs].
  assert (Hd : direction Z.leb true 4 (at_ [0; 2; 4; 6])) by (right; split; [intros i H1 H2; assert (i = 0 \/ i = 1 \/ i = 2) as [-> | [-> | ->]] by lia; reflexivity|]; intros Hy; specialize (Hy 0 ltac:(lia) ltac:(lia)); vm_compute in Hy; discriminate).
  pose proof (Hx (arr_of [(2, 3)] [10; 11; 12]) [0; 2; 4; 6] 3 3) as Hy. specialize (fun y => Hy y Hw Hs eq_refl Hd).
  destruct (slice_labels Z.leb (arr_of [(2, 3)] [10; 11; 12]) (Some (crd [0; 2; 4; 6])) (Some (lab 3)) (Some (lab 3))) as [y| |] eqn:E; vm_compute in E; try discriminate.
  specialize (Hy y eq_refl). injection E as <-. vm_compute in Hy. discriminate.
Qed.
Print Assumptions C18_empty_range_refuted.
(** ... an empty bin at the bounds is an error. *)
Theorem C18_empty_bin_refuted : ~ forall (x : varr Z) xs n v, wfv (va x) -> vshape x = [(2, n)] -> zlen xs = n + 1 -> direction Z.leb true (n + 1) (at_ xs) ->
  exists y, slice_labels Z.leb x (Some (crd xs)) (Some (lab v)) (Some (lab v)) = Ok y.
Proof.
  intros Hx. destruct (arr_of_ok [(2, 3)] [10; 11; 12] ltac:(lwf_tac)) as [Hw Hs].
  destruct (Hx (arr_of [(2, 3)] [10; 11; 12]) [0; 1; 1; 4] 3 1 Hw Hs eq_refl dir_up) as [y Ey]. vm_compute in Ey. discriminate.
Qed.
Print Assumptions C18_empty_bin_refuted.
(** NaN as a bound: no element is before NaN, but a range that ends at NaN selects everything. *)
Theorem C18_nan_refuted : ~ forall (x : varr Z) (coord value : lvar f64) c v n y, wfv (va x) -> vshape x = [(2, n)] -> coord_of coord 2 n c -> label coord value v -> l_ord coord = true -> l_ord value = true -> direction fleb true n c ->
  slice_labels fleb x (Some coord) None (Some value) = Ok y -> forall i, 0 <= i < n -> vshape y = [(2, n)] -> lt fleb true (c i) v.
Proof.
  intros Hx. destruct (arr_of_ok [(2, 2)] [10; 11] ltac:(lwf_tac)) as [Hw Hs]. set (zero := B754_zero false : f64). set (inf := B754_infinity false : f64).
  set (coord := mklv (D [(2, 2)]) [zero; inf] 7 true). set (value := mklv mempty [B754_nan : f64] 7 true). set (c := fun i : Z => if i =? 0 then zero else inf).
  assert (Hc : coord_of coord 2 2 c) by (split; [reflexivity|]; split; [reflexivity|]; intros i Hi; assert (i = 0 \/ i = 1) as [-> | ->] by lia; reflexivity).
  assert (Hd : direction fleb true 2 c) by (right; split; [intros i H1 H2; assert (i = 0) as -> by lia; reflexivity|]; intros Hy; specialize (Hy 0 ltac:(lia) ltac:(lia)); vm_compute in Hy; discriminate).
  pose proof (fun y => Hx (arr_of [(2, 2)] [10; 11]) coord value c B754_nan 2 y Hw Hs Hc (conj eq_refl (conj eq_refl eq_refl)) eq_refl eq_refl Hd) as Hy.
  destruct (slice_labels fleb (arr_of [(2, 2)] [10; 11]) (Some coord) None (Some value)) as [y| |] eqn:E; vm_compute in E; try discriminate.
  specialize (Hy y eq_refl 0 ltac:(lia)). injection E as <-. destruct (Hy eq_refl) as [Hz _]. vm_compute in Hz. discriminate.
Qed.
Print Assumptions C18_nan_refuted.
