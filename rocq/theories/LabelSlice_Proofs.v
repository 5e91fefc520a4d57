(** Proofs about slicing by label. *)
From Verif Require Import Base Map_Model Dims_Model Dims_Spec Dims_Proofs View_Model View_Spec View_Proofs Reshape_Model Reshape_Spec Reshape_Proofs Reshape_Item_Proofs LabelSlice_Model LabelSlice_Spec.

Lemma zlen_cons {A} (x : A) l : zlen (x :: l) = 1 + zlen l.
Proof. unfold zlen. cbn [length]. lia. Qed.

Section Count.
Context {A : Type} (p : A -> bool).
Lemma zlen_filter_bound (l : list A) : 0 <= zlen (filter p l) <= zlen l.
Proof. unfold zlen. induction l as [|x l IH]; cbn [filter length]; [lia|]. destruct (p x); cbn [length]; lia. Qed.
Lemma filter_none (l : list A) : (forall x, In x l -> p x = false) -> filter p l = [].
Proof. induction l as [|x l IH]; intros Ha; cbn [filter]; [reflexivity|]. rewrite (Ha x (or_introl eq_refl)). apply IH. intros y Hy. apply Ha. right. exact Hy. Qed.
(** The number of elements before the first one without [p]. *)
Lemma count_prefix (l : list A) : forall n c, lists l n c -> (forall i j, 0 <= i -> i <= j -> j < n -> p (c j) = true -> p (c i) = true) ->
  forall i, 0 <= i < n -> (i < zlen (filter p l) <-> p (c i) = true).
Proof.
  induction l as [|x l IH]; intros n c [Hn Hc] Hp i Hi; [unfold zlen in Hn; cbn in Hn; lia|].
  assert (Ex : x = c 0) by (specialize (Hc 0 ltac:(lia)); cbn in Hc; injection Hc; auto). rewrite zlen_cons in Hn. cbn [filter]. destruct (p x) eqn:Epx.
  - rewrite zlen_cons. destruct (Z.eq_dec i 0) as [->|Hi0]; [rewrite <- Ex, Epx; pose proof (zlen_filter_bound l); split; [reflexivity|lia]|].
    assert (Hl : lists l (n - 1) (fun k => c (k + 1))).
    { split; [lia|]. intros k Hk. specialize (Hc (k + 1) ltac:(lia)). replace (Z.to_nat (k + 1)) with (S (Z.to_nat k)) in Hc by lia. exact Hc. }
    specialize (IH (n - 1) (fun k => c (k + 1)) Hl). cbn beta in IH. rewrite <- (Z.sub_add 1 i) at 2. rewrite <- IH; [lia| |lia]. intros a b Ha Hab Hb. apply Hp; lia.
  - rewrite filter_none.
    + unfold zlen. cbn. split; [lia|]. intros Hpi. rewrite Ex, (Hp 0 i ltac:(lia) ltac:(lia) ltac:(lia) Hpi) in Epx. discriminate.
    + intros y Hy. apply In_nth_error in Hy as [k Hk]. assert (Hkl : (k < length l)%nat) by (apply nth_error_Some; congruence). unfold zlen in Hn. specialize (Hc (Z.of_nat k + 1) ltac:(lia)).
      replace (Z.to_nat (Z.of_nat k + 1)) with (S k) in Hc by lia. cbn in Hc. rewrite Hk in Hc. injection Hc as ->. destruct (p (c (Z.of_nat k + 1))) eqn:E; [|reflexivity].
      rewrite Ex, (Hp 0 (Z.of_nat k + 1) ltac:(lia) ltac:(lia) ltac:(lia) E) in Epx. discriminate.
Qed.
Lemma count_neg (l : list A) : zlen l - zlen (filter p l) = zlen (filter (fun x => negb (p x)) l).
Proof. induction l as [|x l IH]; [reflexivity|]. cbn [filter]. destruct (p x); cbn [negb]; rewrite !zlen_cons; lia. Qed.
End Count.

Section Order.
Context {A : Type} (leb : A -> A -> bool).

Lemma sortedb_iff up (l : list A) : forall n c, lists l n c -> (sortedb leb up l = true <-> monotone leb up n c).
Proof.
  induction l as [|x l IH]; intros n c [Hn Hc]; [split; [|reflexivity]; intros _ i Hi Hi'; unfold zlen in Hn; cbn in Hn; lia|]. rewrite zlen_cons in Hn.
  assert (Hl : lists l (n - 1) (fun k => c (k + 1))).
  { split; [lia|]. intros k Hk. specialize (Hc (k + 1) ltac:(lia)). replace (Z.to_nat (k + 1)) with (S (Z.to_nat k)) in Hc by lia. exact Hc. }
  specialize (IH _ _ Hl). destruct l as [|y l]; [split; [|reflexivity]; intros _ i Hi Hi'; unfold zlen in Hn; cbn in Hn; lia|].
  rewrite zlen_cons in Hn. pose proof (Zle_0_nat (length l)) as Hz. fold (zlen l) in Hz.
  assert (x = c 0) as -> by (specialize (Hc 0 ltac:(lia)); cbn in Hc; injection Hc; auto). assert (y = c 1) as -> by (specialize (Hc 1 ltac:(lia)); cbn in Hc; injection Hc; auto).
  cbn [sortedb] in *. rewrite andb_true_iff, IH. unfold monotone, le. split.
  - intros [H0 Hm] i Hi Hi'. destruct (Z.eq_dec i 0) as [->|Hi0]; [exact H0|]. specialize (Hm (i - 1) ltac:(lia) ltac:(lia)). cbn beta in Hm. replace (i - 1 + 1) with i in Hm by lia. exact Hm.
  - intros Hm. split; [exact (Hm 0 ltac:(lia) ltac:(lia))|]. intros i Hi Hi'. exact (Hm (i + 1) ltac:(lia) ltac:(lia)).
Qed.

Context (P : A -> Prop) (Ho : orders P leb).
Lemma le_total up a b : P a -> P b -> le leb up a b \/ le leb up b a.
Proof. intros Ha Hb. unfold le. destruct up; destruct (proj1 Ho a b Ha Hb); auto. Qed.
Lemma le_trans up a b c : P a -> P b -> P c -> le leb up a b -> le leb up b c -> le leb up a c.
Proof. intros Ha Hb Hc. unfold le. destruct up; intros H1 H2; [exact (proj2 Ho a b c Ha Hb Hc H1 H2)|exact (proj2 Ho c b a Hc Hb Ha H2 H1)]. Qed.
Lemma le_dec up a b : {le leb up a b} + {~ le leb up a b}.
Proof. unfold le. destruct (if up then leb a b else leb b a); [left; reflexivity|right; discriminate]. Qed.
Lemma lt_iff up a b : P a -> P b -> (lt leb up a b <-> ~ le leb up b a).
Proof. intros Ha Hb. unfold lt. split; [tauto|]. intros Hn. destruct (le_total up a b Ha Hb); tauto. Qed.

Context (n : Z) (c : Z -> A) (up : bool).
Hypotheses (HP : forall i, 0 <= i < n -> P (c i)) (Hm : monotone leb up n c).
Lemma mono_all i j : 0 <= i -> i <= j -> j < n -> le leb up (c i) (c j).
Proof.
  intros Hi Hij Hj. replace j with (i + Z.of_nat (Z.to_nat (j - i))) in * by lia. clear Hij. revert Hj. generalize (Z.to_nat (j - i)) as k. induction k as [|k IH]; intros Hj.
  - rewrite Z.add_0_r. destruct (le_total up (c i) (c i)); auto; apply HP; lia.
  - apply le_trans with (c (i + Z.of_nat k)); try (apply HP; lia); [apply IH; lia|]. replace (i + Z.of_nat (S k)) with (i + Z.of_nat k + 1) by lia. apply Hm; lia.
Qed.

Context (coord : lvar A) (Hl : lists (l_vals coord) n c).
Lemma count_le v : P v -> forall i, 0 <= i < n -> (i < get_count leb coord v up <-> le leb up (c i) v).
Proof.
  intros Hv i Hi. unfold get_count. rewrite (count_prefix _ _ n c Hl); [reflexivity| |exact Hi]. intros a b Ha Hab Hb Hpb. apply (le_trans up (c a) (c b) v); try (apply HP; lia); try assumption. apply mono_all; lia.
Qed.
Lemma count_lt v : P v -> forall i, 0 <= i < n -> (i < n - get_count leb coord v (negb up) <-> lt leb up (c i) v).
Proof.
  intros Hv i Hi. unfold get_count. rewrite <- (proj1 Hl) at 1. rewrite count_neg. rewrite lt_iff by (try apply HP; assumption).
  rewrite (count_prefix (fun x => negb (if negb up then leb x v else leb v x)) _ n c Hl); [|intros a b Ha Hab Hb Hpb|exact Hi].
  - unfold le. destruct up; cbn [negb]; rewrite negb_true_iff; [destruct (leb v (c i))|destruct (leb (c i) v)]; split; intros; congruence.
  - assert (Hx : ~ le leb up v (c b)) by (unfold le; destruct up; cbn [negb] in Hpb; rewrite negb_true_iff in Hpb; rewrite Hpb; discriminate).
    assert (Hy : ~ le leb up v (c a)) by (intros Hy; apply Hx, (le_trans up v (c a) (c b)); try (apply HP; lia); try assumption; apply mono_all; lia).
    unfold le in Hy. destruct up; cbn [negb]; apply negb_true_iff; apply Bool.not_true_is_false; exact Hy.
Qed.
Lemma count_bound v b : 0 <= get_count leb coord v b <= n.
Proof. unfold get_count. rewrite <- (proj1 Hl). apply zlen_filter_bound. Qed.
End Order.

Lemma take_point_fail {B} (x : varr B) p1 k n p2 b : wfv (va x) -> vshape x = p1 ++ (k, n) :: p2 -> (b < 0 \/ n <= b) -> (do s <- slice_point k b; apply_op x (VwSlice s)) = Throw SliceError.
Proof.
  intros Hw Ep Hb. destruct (vdims_mk x Hw) as [Ed Hp]. rewrite Ep in Ed, Hp. destruct (lwf_app _ _ _ _ Hp) as (_ & Hn0 & Hk1 & _). unfold slice_point. destruct (Z.ltb_spec b 0) as [|Hb0]; [reflexivity|]. cbn [bind]. unfold apply_op. cbn [view_step]. unfold var_slice.
  fold (vdims x). rewrite Ed. assert (valid_slice (mk (p1 ++ (k, n) :: p2)) (mkslice k b (-1) 1) = Throw SliceError) as ->; [|reflexivity].
  unfold valid_slice. replace (slice_eqb (mkslice k b (-1) 1) slice_default) with false by (unfold slice_eqb; cbn; replace (b =? -1) with false by lia; rewrite ?andb_false_r; reflexivity).
  cbn [s_end s_begin s_dim]. rewrite dcontains_mk. replace (mem k (keys (p1 ++ (k, n) :: p2))) with true by (symmetry; apply mem_In; rewrite keys_app; apply in_elt). cbn [negb].
  rewrite dat_sp by exact Hk1. cbn [bind]. change (-1 <? 0) with true. cbn iota. replace (b + 1 >? n) with true by lia. reflexivity.
Qed.

Section Slices.
Context {A : Type} (leb eqb : A -> A -> bool) (P : A -> Prop).
Context {B : Type} (x : varr B) (p1 p2 : list (Z * Z)) (d n m : Z) (coord : lvar A) (c : Z -> A).
Hypotheses (Hw : wfv (va x)) (Ex : vshape x = p1 ++ (d, n) :: p2) (Ec : l_dims coord = mk [(d, m)]) (Hl : lists (l_vals coord) m c).

Lemma coord_inner : dims_inner (l_dims coord) = d. Proof. rewrite Ec. reflexivity. Qed.
Lemma coord_ndim : ndim (l_dims coord) = 1. Proof. rewrite Ec. reflexivity. Qed.
Lemma coord_dat : dat (l_dims coord) d = Ok m. Proof. rewrite Ec. change [(d, m)] with ([] ++ (d, m) :: []). apply dat_sp. intros []. Qed.
Lemma data_dat : dat (vdims x) d = Ok n.
Proof. destruct (vdims_mk x Hw) as [Ed Hp]. rewrite Ex in Ed, Hp. rewrite Ed. apply dat_sp. apply (lwf_app _ _ _ _ Hp). Qed.
Lemma m_nonneg : 0 <= m. Proof. destruct Hl as [<- _]. unfold zlen. lia. Qed.

Lemma get_coord_dir up : direction leb up m c -> get_coord leb coord d = Ok up.
Proof.
  intros Hd. unfold get_coord, get_1d_coord. rewrite coord_ndim, coord_dat. cbn [negb bind]. change (1 =? 1) with true. cbn [negb bind]. destruct (Z.eqb_spec m 1) as [Hm|Hm].
  - destruct Hd as [[_ ->]|[_ Hd]]; [reflexivity|]. exfalso. apply Hd. intros i Hi Hi'. lia.
  - destruct Hd as [[Hx _]|[H1 H2]]; [contradiction|]. rewrite <- (sortedb_iff leb up _ _ _ Hl) in H1. rewrite <- (sortedb_iff leb (negb up) _ _ _ Hl) in H2. apply Bool.not_true_is_false in H2.
    destruct up; cbn [negb] in *; rewrite H1, H2; reflexivity.
Qed.
Lemma get_coord_none : (forall up, ~ direction leb up m c) -> get_coord leb coord d = Throw RuntimeError.
Proof.
  intros Hd. unfold get_coord, get_1d_coord. rewrite coord_ndim, coord_dat. cbn [negb bind]. change (1 =? 1) with true. cbn [negb bind]. destruct (Z.eqb_spec m 1) as [Hm|Hm]; [exfalso; apply (Hd true); left; auto|].
  destruct (sortedb leb true (l_vals coord)) eqn:E1, (sortedb leb false (l_vals coord)) eqn:E2; cbn [xorb negb]; try reflexivity; exfalso.
  - apply (Hd true). right. split; [apply (sortedb_iff leb true _ _ _ Hl); exact E1|]. cbn [negb]. rewrite <- (sortedb_iff leb false _ _ _ Hl). congruence.
  - apply (Hd false). right. split; [apply (sortedb_iff leb false _ _ _ Hl); exact E2|]. cbn [negb]. rewrite <- (sortedb_iff leb true _ _ _ Hl). congruence.
Qed.

Context (value : lvar A) (v : A).
Hypotheses (Ev : l_dims value = mempty) (Evv : l_vals value = [v]).
Lemma check_ok r : l_unit coord = l_unit value -> (r = true -> l_ord value = true) -> expect_valid_slice_value coord value r = Ok tt.
Proof.
  intros Hu Ho. unfold expect_valid_slice_value, expect_valid_dtype. rewrite Ev, Hu, Z.eqb_refl. change (dims_eqb mempty mempty) with true. cbn [bind]. destruct r; [rewrite Ho; reflexivity|reflexivity].
Qed.

Hypothesis (Hu : l_unit coord = l_unit value).
Lemma params_edges up : m = n + 1 -> direction leb up m c -> params_value leb eqb (vdims x) coord value = Ok (d, get_count leb coord v up - 1).
Proof.
  intros Hm Hd. unfold params_value. rewrite check_ok by (try exact Hu; discriminate). cbn [bind]. rewrite coord_inner, data_dat, coord_dat. cbn [bind]. unfold scalar. rewrite Evv. cbn [bind]. rewrite Hm, Z.eqb_refl.
  rewrite (get_coord_dir up Hd). reflexivity.
Qed.
Lemma value_edges_fail : m = n + 1 -> (forall up, ~ direction leb up m c) -> slice_value leb eqb x (Some coord) value = Throw RuntimeError.
Proof.
  intros Hm Hd. unfold slice_value, params_value. rewrite check_ok by (try exact Hu; discriminate). cbn [bind]. rewrite coord_inner, data_dat, coord_dat. cbn [bind]. unfold scalar. rewrite Evv. cbn [bind]. rewrite Hm, Z.eqb_refl.
  rewrite get_coord_none by exact Hd. reflexivity.
Qed.
Lemma value_edges up : m = n + 1 -> orders P leb -> (forall i, 0 <= i < m -> P (c i)) -> P v -> direction leb up m c ->
  (forall i, 0 <= i < n -> le leb up (c i) v -> lt leb up v (c (i + 1)) ->
     exists y, slice_value leb eqb x (Some coord) value = Ok y /\ vshape y = p1 ++ p2 /\ wfv (va y) /\ forall ix, valid_at (vshape y) ix -> val y ix = val x (put ix d i)) /\
  ((forall i, 0 <= i < n -> ~ (le leb up (c i) v /\ lt leb up v (c (i + 1)))) -> slice_value leb eqb x (Some coord) value = Throw SliceError).
Proof.
  intros Hm Ho HP Hv Hd. unfold slice_value. rewrite (params_edges up Hm Hd). cbn [bind fst snd].
  assert (Hmono : monotone leb up m c) by (destruct Hd as [[Hx _]|[Hx _]]; [intros i Hi Hi'; lia|exact Hx]).
  pose proof (count_le leb P Ho m c up HP Hmono coord Hl v Hv) as Hc. pose proof (count_bound leb m c coord Hl v up) as Hcb. set (k := get_count leb coord v up) in *. split.
  - intros i Hi H1 H2. assert (k = i + 1) as ->.
    { apply Hc in H1; [|lia]. assert (~ (i + 1 < k)); [|lia]. rewrite Hc by lia. apply H2. }
    replace (i + 1 - 1) with i by lia. apply (take_point x p1 d n p2 i Hw Ex); lia.
  - intros Hno. apply (take_point_fail x p1 d n p2 _ Hw Ex). destruct (Z_lt_le_dec (k - 1) 0) as [|Hk0]; [left; assumption|]. right. destruct (Z_lt_le_dec (k - 1) n) as [Hkn|]; [|assumption]. exfalso.
    apply (Hno (k - 1)); [lia|]. split; [apply Hc; lia|]. apply (lt_iff leb P Ho); [exact Hv|apply HP; lia|]. replace (k - 1 + 1) with k by lia. rewrite <- Hc by lia. lia.
Qed.

(** Points *)
Lemma one_true (l : list A) : forall k, zlen l = k -> forall q : A -> bool,
  (zlen (filter (fun b => b) (map q l)) = 1 <-> exists i, 0 <= i < k /\ forall j, 0 <= j < k -> (option_map q (nth_error l (Z.to_nat j)) = Some true <-> j = i)) /\
  forall i, 0 <= i < k -> (forall j, 0 <= j < k -> (option_map q (nth_error l (Z.to_nat j)) = Some true <-> j = i)) -> find_true (map q l) = i.
Proof.
  assert (Hz : forall (l : list A) q, zlen (filter (fun b => b) (map q l)) = 0 -> forall j, option_map q (nth_error l j) <> Some true).
  { induction l0 as [|a l0 IH]; intros q Hq j; [destruct j; discriminate|]. cbn [map filter] in Hq. destruct (q a) eqn:E; [rewrite zlen_cons in Hq; unfold zlen in Hq; lia|]. destruct j; cbn; [congruence|apply IH, Hq]. }
  assert (Hz' : forall (l : list A) q, (forall j, (j < length l)%nat -> option_map q (nth_error l j) <> Some true) -> zlen (filter (fun b => b) (map q l)) = 0).
  { induction l0 as [|a l0 IH]; intros q Hq; [reflexivity|]. cbn [map filter]. destruct (q a) eqn:E; [exfalso; apply (Hq O); cbn; [lia|congruence]|]. apply IH. intros j Hj. apply (Hq (S j)). cbn. lia. }
  induction l as [|a l IH]; intros k Hk q; unfold zlen in Hk; cbn [length] in Hk.
  - split; [|intros i Hi; lia]. split; [discriminate|]. intros (i & Hi & _). lia.
  - specialize (IH (k - 1) ltac:(unfold zlen; lia) q) as [I1 I2]. cbn [map filter find_true]. destruct (q a) eqn:Ea.
    + split.
      * rewrite zlen_cons. split.
        -- intros Hf. exists 0. split; [lia|]. intros j Hj. split; [|intros ->; cbn; congruence]. intros Hj'. destruct (Z.eq_dec j 0) as [|Hj0]; [assumption|]. exfalso. apply (Hz l q ltac:(lia) (Z.to_nat (j - 1))). replace (Z.to_nat j) with (S (Z.to_nat (j - 1))) in Hj' by lia. exact Hj'.
        -- intros (i & Hi & Hall). rewrite Hz'; [lia|]. intros j Hj Hj'. assert (i = 0) by (symmetry; apply Hall; [lia|cbn; congruence]). assert (Z.of_nat j + 1 = i); [|lia]. apply Hall; [lia|]. replace (Z.to_nat (Z.of_nat j + 1)) with (S j) by lia. exact Hj'.
      * intros i Hi Hall. apply Hall; [lia|]. cbn. congruence.
    + assert (Hsh : forall i, 0 <= i < k -> (forall j, 0 <= j < k -> (option_map q (nth_error (a :: l) (Z.to_nat j)) = Some true <-> j = i)) -> 0 < i /\ (forall j, 0 <= j < k - 1 -> (option_map q (nth_error l (Z.to_nat j)) = Some true <-> j = i - 1))).
      { intros i Hi Hall. assert (i <> 0) by (intros ->; pose proof (proj2 (Hall 0 ltac:(lia)) eq_refl) as Hx; cbn in Hx; congruence). split; [lia|]. intros j Hj. specialize (Hall (j + 1) ltac:(lia)). replace (Z.to_nat (j + 1)) with (S (Z.to_nat j)) in Hall by lia. cbn [nth_error] in Hall. rewrite Hall. lia. }
      split.
      * rewrite I1. split.
        -- intros (i & Hi & Hall). exists (i + 1). split; [lia|]. intros j Hj. destruct (Z.eq_dec j 0) as [->|Hj0]; [cbn; split; intros; [congruence|lia]|]. specialize (Hall (j - 1) ltac:(lia)). replace (Z.to_nat j) with (S (Z.to_nat (j - 1))) by lia. cbn [nth_error]. rewrite Hall. lia.
        -- intros (i & Hi & Hall). destruct (Hsh i Hi Hall) as [H0 Hs]. exists (i - 1). split; [lia|exact Hs].
      * intros i Hi Hall. destruct (Hsh i Hi Hall) as [H0 Hs]. rewrite (I2 (i - 1)); [lia|lia|exact Hs].
Qed.
Lemma value_points : m <> n + 1 -> m <= n ->
  (forall i, 0 <= i < m -> (forall j, 0 <= j < m -> (eqb (c j) v = true <-> j = i)) ->
     exists y, slice_value leb eqb x (Some coord) value = Ok y /\ vshape y = p1 ++ p2 /\ wfv (va y) /\ forall ix, valid_at (vshape y) ix -> val y ix = val x (put ix d i)) /\
  (~ (exists i, 0 <= i < m /\ forall j, 0 <= j < m -> (eqb (c j) v = true <-> j = i)) -> slice_value leb eqb x (Some coord) value = Throw SliceError).
Proof.
  intros Hm Hmn. assert (Es : slice_value leb eqb x (Some coord) value = if negb (zlen (filter (fun b => b) (map (fun c => eqb c v) (l_vals coord))) =? 1) then Throw SliceError else do s <- slice_point d (find_true (map (fun c => eqb c v) (l_vals coord))); apply_op x (VwSlice s)).
  { unfold slice_value, params_value. rewrite check_ok by (try exact Hu; discriminate). cbn [bind]. rewrite coord_inner, data_dat, coord_dat. cbn [bind]. unfold scalar. rewrite Evv. cbn [bind]. replace (n + 1 =? m) with false by lia.
    unfold get_1d_coord. rewrite coord_ndim. change (negb (1 =? 1)) with false. cbn [bind]. destruct (negb _); reflexivity. }
  rewrite Es. destruct (one_true (l_vals coord) m (proj1 Hl) (fun c => eqb c v)) as [O1 O2].
  assert (Hq : forall i, (forall j, 0 <= j < m -> (option_map (fun c => eqb c v) (nth_error (l_vals coord) (Z.to_nat j)) = Some true <-> j = i)) <-> (forall j, 0 <= j < m -> (eqb (c j) v = true <-> j = i))).
  { intros i. split; intros Ha j Hj; specialize (Ha j Hj); rewrite (proj2 Hl j Hj) in *; cbn [option_map] in *; rewrite <- Ha; split; congruence. }
  split.
  - intros i Hi Hall. rewrite <- Hq in Hall. rewrite (proj2 O1) by eauto. change (negb (1 =? 1)) with false. cbn iota. rewrite (O2 i Hi Hall). apply (take_point x p1 d n p2 i Hw Ex); lia.
  - intros Hno. replace (zlen _ =? 1) with false; [reflexivity|]. symmetry. apply Z.eqb_neq. rewrite O1. intros (i & Hi & Hall). apply Hno. exists i. split; [exact Hi|]. apply Hq. exact Hall.
Qed.
End Slices.

(** Ranges *)
Section Ranges.
Context {A : Type} (leb eqb : A -> A -> bool) (P : A -> Prop) (Ho : orders P leb).
Context {B : Type} (x : varr B) (p1 p2 : list (Z * Z)) (d n m : Z) (coord : lvar A) (c : Z -> A) (up : bool).
Hypotheses (Hw : wfv (va x)) (Ex : vshape x = p1 ++ (d, n) :: p2) (Ec : l_dims coord = mk [(d, m)]) (Hl : lists (l_vals coord) m c)
  (HP : forall i, 0 <= i < m -> P (c i)) (Hd : direction leb up m c) (Hord : l_ord coord = true).

(** A slice bound: a scalar of the unit of the coord with an orderable value. *)
Definition bound_ok (o : option (lvar A)) : Prop := match o with None => True | Some w => l_dims w = mempty /\ l_unit w = l_unit coord /\ l_ord w = true /\ exists v, l_vals w = [v] /\ P v end.
Definition bound (o : option (lvar A)) : option A := match o with Some w => hd_error (l_vals w) | None => None end.

Lemma slice_fail_empty first last : 0 <= first -> last < first -> last <> -1 -> (do s <- slice_range d first last 1; apply_op x (VwSlice s)) = Throw SliceError.
Proof. intros H1 H2 H3. unfold slice_range. replace (first <? 0) with false by lia. replace (last =? -1) with false by lia. replace (first >? last) with true by lia. reflexivity. Qed.

Lemma range_ok begin_ end_ : bound_ok begin_ -> bound_ok end_ -> (m = n \/ m = n + 1) ->
  exists first last, 0 <= first <= n /\ 0 <= last <= n /\
    (forall i, 0 <= i < n -> (first <= i <-> forall b, bound begin_ = Some b -> if m =? n then le leb up b (c i) else lt leb up b (c (i + 1)))) /\
    (forall i, 0 <= i < n -> (i < last <-> forall e, bound end_ = Some e -> lt leb up (c i) e)) /\
    (first <= last -> exists y, slice_labels leb x (Some coord) begin_ end_ = Ok y /\ vshape y = p1 ++ (d, last - first) :: p2 /\ wfv (va y) /\ forall ix, valid_at (vshape y) ix -> val y ix = val x (put ix d (first + ix d))) /\
    (last < first -> slice_labels leb x (Some coord) begin_ end_ = Throw SliceError).
Proof.
  intros Hb He Hmn. assert (Hn0 : 0 <= n) by (destruct (vdims_mk x Hw) as [_ Hp]; rewrite Ex in Hp; apply (lwf_app _ _ _ _ Hp)).
  assert (Hmono : monotone leb up m c) by (destruct Hd as [[Hx _]|[Hx _]]; [intros i Hi Hi'; lia|exact Hx]).
  assert (Eg : get_coord leb coord d = Ok up) by (apply (get_coord_dir leb d m coord c Ec Hl); exact Hd).
  assert (Echk : forall o, bound_ok o -> check_opt coord o = Ok tt).
  { intros [w|] Hw'; [|reflexivity]. destruct Hw' as (W1 & W2 & W3 & _). cbn. apply check_ok; [exact W1|symmetry; exact W2|intros _; exact W3]. }
  assert (Efirst : exists first, (match begin_ with Some b => do v <- scalar b; get_index leb coord d v up (n + 1 =? m) | None => Ok 0 end) = Ok first /\ 0 <= first <= n /\
     forall i, 0 <= i < n -> (first <= i <-> forall b, bound begin_ = Some b -> if m =? n then le leb up b (c i) else lt leb up b (c (i + 1)))).
  { destruct begin_ as [w|]; cbn [bound]; [|exists 0; split; [reflexivity|]; split; [lia|]; intros i Hi; split; [intros _ b Hx; discriminate|lia]].
    destruct Hb as (W1 & W2 & W3 & v & W4 & W5). unfold scalar. rewrite W4. cbn [bind hd_error]. unfold get_index. rewrite (coord_dat d m coord Ec). cbn [bind].
    pose proof (count_bound leb m c coord Hl v) as Hcb. destruct Hmn as [Hmn|Hmn].
    - replace (n + 1 =? m) with false by lia. replace (m =? n) with true by lia. assert (Bool.eqb false up = negb up) as -> by (destruct up; reflexivity). specialize (Hcb (negb up)).
      pose proof (count_lt leb P Ho m c up HP Hmono coord Hl v W5) as Hc. set (k := get_count leb coord v (negb up)) in *.
      exists (m - k). unfold clamp. replace (m <? m - k) with false by lia. replace (m <? 0) with false by lia. split; [destruct (Z.ltb_spec 0 (m - k)); f_equal; lia|]. split; [lia|]. intros i Hi. split.
      + intros Hk b [= <-]. destruct (le_dec leb up v (c i)) as [|Hx]; [assumption|]. exfalso. rewrite <- (lt_iff leb P Ho up) in Hx by (try apply HP; try assumption; lia). apply Hc in Hx; lia.
      + intros Hx. specialize (Hx v eq_refl). assert (~ (i < m - k)); [|lia]. rewrite Hc by lia. unfold lt. tauto.
    - replace (n + 1 =? m) with true by lia. replace (m =? n) with false by lia. assert (Bool.eqb true up = up) as -> by (destruct up; reflexivity). specialize (Hcb up).
      pose proof (count_le leb P Ho m c up HP Hmono coord Hl v W5) as Hc. set (k := get_count leb coord v up) in *. unfold clamp. replace (m <? k - 1) with false by lia. replace (m <? 0) with false by lia.
      exists (Z.max 0 (k - 1)). split; [destruct (Z.ltb_spec 0 (k - 1)); f_equal; lia|]. split; [lia|]. intros i Hi. split.
      + intros Hk b [= <-]. apply (lt_iff leb P Ho); [exact W5|apply HP; lia|]. rewrite <- Hc by lia. lia.
      + intros Hx. specialize (Hx v eq_refl). apply (lt_iff leb P Ho) in Hx; [|exact W5|apply HP; lia]. rewrite <- Hc in Hx by lia. lia. }
  assert (Elast : exists last, (match end_ with Some e => do v <- scalar e; get_index leb coord d v up false | None => Ok n end) = Ok last /\ 0 <= last /\
     forall i, 0 <= i < n -> (i < last <-> forall e, bound end_ = Some e -> lt leb up (c i) e)).
  { destruct end_ as [w|]; cbn [bound]; [|exists n; split; [reflexivity|]; split; [lia|]; intros i Hi; split; [intros _ b Hx; discriminate|lia]].
    destruct He as (W1 & W2 & W3 & v & W4 & W5). unfold scalar. rewrite W4. cbn [bind hd_error]. unfold get_index. rewrite (coord_dat d m coord Ec). cbn [bind].
    pose proof (count_bound leb m c coord Hl v) as Hcb. assert (Bool.eqb false up = negb up) as -> by (destruct up; reflexivity). specialize (Hcb (negb up)).
    pose proof (count_lt leb P Ho m c up HP Hmono coord Hl v W5) as Hc. set (k := get_count leb coord v (negb up)) in *.
    exists (m - k). unfold clamp. replace (m <? m - k) with false by lia. replace (m <? 0) with false by lia. split; [destruct (Z.ltb_spec 0 (m - k)); f_equal; lia|]. split; [lia|]. intros i Hi. rewrite Hc by lia. split.
    - intros Hx e [= <-]. exact Hx.
    - intros Hx. apply Hx. reflexivity. }
  destruct Efirst as (first & Ef & Hf & Hfc). destruct Elast as (last & El & Hla & Hlc).
  assert (Es : slice_labels leb x (Some coord) begin_ end_ = do s <- slice_range d first (Z.min n last) 1; apply_op x (VwSlice s)).
  { unfold slice_labels, params_range. rewrite (Echk _ Hb), (Echk _ He). cbn [bind]. unfold expect_valid_dtype. rewrite Hord. cbn [negb andb bind]. rewrite (coord_inner d m coord Ec), Eg. cbn [bind].
    rewrite (data_dat x p1 p2 d n Hw Ex), (coord_dat d m coord Ec). cbn [bind]. rewrite Ef. cbn [bind]. rewrite El. reflexivity. }
  exists first, (Z.min n last). split; [exact Hf|]. split; [lia|]. split; [exact Hfc|]. split; [intros i Hi; rewrite <- Hlc by exact Hi; lia|]. rewrite Es. split.
  - intros Hfl. apply (take_range x p1 d n p2 first (Z.min n last) Hw Ex); lia.
  - intros Hfl. apply slice_fail_empty; lia.
Qed.
End Ranges.
