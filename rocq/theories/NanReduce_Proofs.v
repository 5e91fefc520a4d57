From Coq Require Import Reals Lra.
From Flocq Require Import Core BinarySingleNaN Relative.
From Verif Require Import Base Map_Model Map_Proofs Dims_Model Dims_Spec Dims_Proofs View_Model View_Spec View_Proofs Transform_Model Transform_Spec Equality_Proofs
  Accumulate_Spec Accumulate_Model Accumulate_Proofs Float Mask_Model Mask_Spec Mask_Proofs MaskFloat_Proofs NanReduce_Model NanReduce_Spec.
Open Scope Z_scope.

(** ** NaN-ignoring folds *)
Lemma nansum_fold l : Forall not_infinite l -> forall a, is_nan a = false -> fold_left nan_add_equals l a = fold_left fadd (not_nans l) a.
Proof.
  induction 1 as [|x l Hx _ IH]; intros a Ha; [reflexivity|]. unfold not_nans in *. cbn [fold_left filter]. unfold nan_add_equals at 2. rewrite Ha.
  destruct (is_nan x) eqn:Nx; cbn [negb]; [apply IH; exact Ha|]. cbn [fold_left]. apply IH. destruct Hx as [Fx|]; [|congruence]. apply add_not_nan; assumption.
Qed.
Lemma nanmax_fold l : forall a, is_nan a = false -> fold_left nanmax_equals l a = fold_left max_equals (not_nans l) a.
Proof.
  induction l as [|x l IH]; intros a Ha; [reflexivity|]. unfold not_nans in *. cbn [fold_left filter]. unfold nanmax_equals at 2. rewrite Ha.
  destruct (is_nan x) eqn:Nx; cbn [negb]; [apply IH; exact Ha|]. cbn [fold_left]. unfold max_equals at 2. rewrite Nx, Ha. apply IH. apply std_max_nan; assumption.
Qed.
Lemma nanmin_fold l : forall a, is_nan a = false -> fold_left nanmin_equals l a = fold_left min_equals (not_nans l) a.
Proof.
  induction l as [|x l IH]; intros a Ha; [reflexivity|]. unfold not_nans in *. cbn [fold_left filter]. unfold nanmin_equals at 2. rewrite Ha.
  destruct (is_nan x) eqn:Nx; cbn [negb]; [apply IH; exact Ha|]. cbn [fold_left]. unfold min_equals at 2. rewrite Nx, Ha. apply IH. apply std_min_nan; assumption.
Qed.
Lemma variant_fold o p l : nan_variant o p -> (o = RNansum -> Forall not_infinite l) -> fold_left (r_op o) l (r_init o) = fold_left (r_op p) (not_nans l) (r_init p).
Proof.
  intros [] Hl; cbn [r_op r_init].
  - apply nansum_fold; [apply Hl; reflexivity|reflexivity].
  - apply nanmax_fold. exact lowest_nan.
  - apply nanmin_fold. exact max_nan.
Qed.

(** ** Order of doubles *)
Lemma fleb_refl (a : f64) : is_nan a = false -> fleb a a = true.
Proof.
  intros Ha. destruct (is_finite a) eqn:Fa.
  - unfold fleb. rewrite Bleb_correct by assumption. apply Rle_bool_true. lra.
  - destruct a as [| [|] | |]; try discriminate; reflexivity.
Qed.
Lemma fleb_trans (a b c : f64) : fleb a b = true -> fleb b c = true -> fleb a c = true.
Proof.
  destruct (is_finite a) eqn:Fa, (is_finite b) eqn:Fb, (is_finite c) eqn:Fc; unfold fleb.
  - rewrite !Bleb_correct by assumption. intros E1 E2. apply Rle_bool_true.
    destruct (Rle_bool_spec (val a) (val b)); [|discriminate]. destruct (Rle_bool_spec (val b) (val c)); [|discriminate]. lra.
  - intros _. destruct b as [sb| | |sb mb eb Eb], c as [|[|]| |]; try discriminate; destruct a as [sa| | |sa ma ea Ea]; try discriminate; reflexivity.
  - destruct a as [sa| | |sa ma ea Ea], b as [|[|]| |], c as [sc| | |sc mc ec Ec]; try discriminate; reflexivity.
  - destruct a as [sa| | |sa ma ea Ea], b as [|[|]| |], c as [|[|]| |]; try discriminate; reflexivity.
  - destruct a as [|[|]| |], b as [sb| | |sb mb eb Eb], c as [sc| | |sc mc ec Ec]; try discriminate; reflexivity.
  - destruct a as [|[|]| |], b as [sb| | |sb mb eb Eb], c as [|[|]| |]; try discriminate; reflexivity.
  - destruct a as [|[|]| |], b as [|[|]| |], c as [sc| | |sc mc ec Ec]; try discriminate; reflexivity.
  - destruct a as [|[|]| |], b as [|[|]| |], c as [|[|]| |]; try discriminate; reflexivity.
Qed.
Lemma flt_le (a b : f64) : fltb a b = true -> fleb a b = true.
Proof.
  unfold fltb, fleb. destruct (is_finite a) eqn:Fa, (is_finite b) eqn:Fb.
  - rewrite Bltb_correct, Bleb_correct by assumption. destruct (Rlt_bool_spec (val a) (val b)); [|discriminate]. intros _. apply Rle_bool_true. lra.
  - destruct a as [sa| | |sa ma ea Ea], b as [|[|]| |]; try discriminate; reflexivity.
  - destruct a as [|[|]| |], b as [sb| | |sb mb eb Eb]; try discriminate; reflexivity.
  - destruct a as [|[|]| |], b as [|[|]| |]; try discriminate; reflexivity.
Qed.
Lemma nlt_le (a b : f64) : is_nan a = false -> is_nan b = false -> fltb a b = false -> fleb b a = true.
Proof.
  unfold fltb, fleb. intros Na Nb. destruct (is_finite a) eqn:Fa, (is_finite b) eqn:Fb.
  - rewrite Bltb_correct, Bleb_correct by assumption. destruct (Rlt_bool_spec (val a) (val b)); [discriminate|]. intros _. apply Rle_bool_true. assumption.
  - destruct a as [sa| | |sa ma ea Ea], b as [|[|]| |]; try discriminate; reflexivity.
  - destruct a as [|[|]| |], b as [sb| | |sb mb eb Eb]; try discriminate; reflexivity.
  - destruct a as [|[|]| |], b as [|[|]| |]; try discriminate; reflexivity.
Qed.

(** ** Maxima and minima *)
Lemma nan_stays_max l : forall a, is_nan a = true -> is_nan (fold_left max_equals l a) = true.
Proof. induction l as [|x l IH]; intros a Ha; [exact Ha|]. cbn [fold_left]. apply IH. unfold max_equals. destruct (is_nan x) eqn:Nx; [exact Nx|]. rewrite Ha. exact Ha. Qed.
Lemma nan_stays_min l : forall a, is_nan a = true -> is_nan (fold_left min_equals l a) = true.
Proof. induction l as [|x l IH]; intros a Ha; [exact Ha|]. cbn [fold_left]. apply IH. unfold min_equals. destruct (is_nan x) eqn:Nx; [exact Nx|]. rewrite Ha. exact Ha. Qed.
Lemma max_nan_iff l : forall a, is_nan a = false -> is_nan (fold_left max_equals l a) = true <-> exists x, In x l /\ is_nan x = true.
Proof.
  induction l as [|x l IH]; intros a Ha; cbn [fold_left]; [split; [congruence|intros (x & [] & _)]|]. destruct (is_nan x) eqn:Nx.
  - unfold max_equals at 2. rewrite Nx. split; [intros _; exists x; split; [left; reflexivity|exact Nx]|]. intros _. apply nan_stays_max. exact Nx.
  - rewrite IH by (unfold max_equals; rewrite Nx, Ha; apply std_max_nan; assumption).
    split; intros (y & Hy & Ny); [exists y; split; [right; exact Hy|exact Ny]|]. destruct Hy as [<-|Hy]; [congruence|eauto].
Qed.
Lemma min_nan_iff l : forall a, is_nan a = false -> is_nan (fold_left min_equals l a) = true <-> exists x, In x l /\ is_nan x = true.
Proof.
  induction l as [|x l IH]; intros a Ha; cbn [fold_left]; [split; [congruence|intros (x & [] & _)]|]. destruct (is_nan x) eqn:Nx.
  - unfold min_equals at 2. rewrite Nx. split; [intros _; exists x; split; [left; reflexivity|exact Nx]|]. intros _. apply nan_stays_min. exact Nx.
  - rewrite IH by (unfold min_equals; rewrite Nx, Ha; apply std_min_nan; assumption).
    split; intros (y & Hy & Ny); [exists y; split; [right; exact Hy|exact Ny]|]. destruct Hy as [<-|Hy]; [congruence|eauto].
Qed.
Lemma max_fold l : forall a, is_nan a = false -> Forall (fun x => is_nan x = false) l -> let r := fold_left max_equals l a in
  is_nan r = false /\ (r = a \/ In r l) /\ fleb a r = true /\ forall x, In x l -> fleb x r = true.
Proof.
  induction l as [|x l IH]; intros a Ha Hl; cbn [fold_left]; [split; [exact Ha|split; [auto|split; [apply fleb_refl; exact Ha|intros x []]]]|].
  apply Forall_cons_iff in Hl as [Nx Hl]. destruct (IH (max_equals a x)) as (H1 & H2 & H3 & H4); [unfold max_equals; rewrite Nx, Ha; apply std_max_nan; assumption|exact Hl|].
  set (r := fold_left max_equals l (max_equals a x)) in *. assert (Eb : max_equals a x = std_max a x) by (unfold max_equals; rewrite Nx, Ha; reflexivity). rewrite Eb in *. unfold std_max in *.
  destruct (fltb a x) eqn:E.
  - split; [exact H1|]. split; [right; destruct H2 as [->|H2]; [left; reflexivity|right; exact H2]|]. split; [apply (fleb_trans a x r); [apply flt_le; exact E|exact H3]|].
    intros y [<-|Hy]; [exact H3|apply H4; exact Hy].
  - split; [exact H1|]. split; [destruct H2 as [->|H2]; [left; reflexivity|right; right; exact H2]|]. split; [exact H3|].
    intros y [<-|Hy]; [|apply H4; exact Hy]. apply (fleb_trans x a r); [apply nlt_le; assumption|exact H3].
Qed.
Lemma min_fold l : forall a, is_nan a = false -> Forall (fun x => is_nan x = false) l -> let r := fold_left min_equals l a in
  is_nan r = false /\ (r = a \/ In r l) /\ fleb r a = true /\ forall x, In x l -> fleb r x = true.
Proof.
  induction l as [|x l IH]; intros a Ha Hl; cbn [fold_left]; [split; [exact Ha|split; [auto|split; [apply fleb_refl; exact Ha|intros x []]]]|].
  apply Forall_cons_iff in Hl as [Nx Hl]. destruct (IH (min_equals a x)) as (H1 & H2 & H3 & H4); [unfold min_equals; rewrite Nx, Ha; apply std_min_nan; assumption|exact Hl|].
  set (r := fold_left min_equals l (min_equals a x)) in *. assert (Eb : min_equals a x = std_min a x) by (unfold min_equals; rewrite Nx, Ha; reflexivity). rewrite Eb in *. unfold std_min in *.
  destruct (fltb x a) eqn:E.
  - split; [exact H1|]. split; [right; destruct H2 as [->|H2]; [left; reflexivity|right; exact H2]|]. split; [apply (fleb_trans r x a); [exact H3|apply flt_le; exact E]|].
    intros y [<-|Hy]; [exact H3|apply H4; exact Hy].
  - split; [exact H1|]. split; [destruct H2 as [->|H2]; [left; reflexivity|right; right; exact H2]|]. split; [exact H3|].
    intros y [<-|Hy]; [|apply H4; exact Hy]. apply (fleb_trans r a x); [exact H3|apply nlt_le; assumption].
Qed.

(** Nothing but -inf is below the lowest finite double. *)
Lemma f_max_pos : (0 < val f_max)%R.
Proof. rewrite (proj1 f_max_val). apply Rmult_lt_0_compat; [apply IZR_lt; reflexivity|apply bpow_gt_0]. Qed.
Lemma strict (x : f64) : is_finite x = true -> val x <> 0%R -> is_finite_strict x = true.
Proof. destruct x as [s| | |s m e E]; try discriminate; [|reflexivity]. intros _ Hx. exfalso. apply Hx. reflexivity. Qed.
Lemma le_lowest (x : f64) : fleb x f_lowest = true -> x <> B754_infinity true -> x = f_lowest.
Proof.
  intros Hx Hi. pose proof f_max_pos as Hp. pose proof (proj1 lowest_val) as Hl. pose proof (proj2 lowest_val) as Fl. destruct (is_finite x) eqn:Fx.
  - unfold fleb in Hx. rewrite Bleb_correct in Hx by assumption. destruct (Rle_bool_spec (val x) (val f_lowest)) as [Hle|]; [|discriminate].
    pose proof (val_bound x) as Hb. apply Rabs_le_inv in Hb. assert (E : val x = val f_lowest) by lra.
    apply B2R_inj; [apply strict; [exact Fx|lra]|apply strict; [exact Fl|lra]|exact E].
  - exfalso. destruct x as [|[|]| |]; try discriminate; try (apply Hi; reflexivity); revert Hx Fl; destruct f_lowest as [|[|]| |]; discriminate.
Qed.
Lemma ge_max (x : f64) : fleb f_max x = true -> x <> B754_infinity false -> x = f_max.
Proof.
  intros Hx Hi. pose proof f_max_pos as Hp. pose proof (proj2 f_max_val) as Fl. destruct (is_finite x) eqn:Fx.
  - unfold fleb in Hx. rewrite Bleb_correct in Hx by assumption. destruct (Rle_bool_spec (val f_max) (val x)) as [Hle|]; [|discriminate].
    pose proof (val_bound x) as Hb. apply Rabs_le_inv in Hb. assert (E : val x = val f_max) by lra.
    apply B2R_inj; [apply strict; [exact Fx|lra]|apply strict; [exact Fl|lra]|exact E].
  - exfalso. destruct x as [|[|]| |]; try discriminate; try (apply Hi; reflexivity); revert Hx Fl; destruct f_max as [|[|]| |]; discriminate.
Qed.

(** ** Reductions of arrays *)
Lemma reduce_f_ok o var dim n : well_formed var -> has (dd var) dim n ->
  exists r, reduce_f o var dim = Ok r /\ well_formed r /\ pairs (dd r) = without_dim (dd var) dim /\
    forall ix, inside (dd r) ix -> dv r ix = fold_left (r_op o) (elements var dim n ix) (r_init o).
Proof.
  intros Hv Hn. apply (reduce_dim_ok [] (r_op o) (reduce_data (r_op o)) (serial_accumulates (r_op o)) (r_init o) var dim n Hv Hn). intros l [].
Qed.
Lemma count_f_ok p var dim n : well_formed var -> has (dd var) dim n ->
  exists r, count_f (counting p var) dim = Ok r /\ well_formed r /\ pairs (dd r) = without_dim (dd var) dim /\
    forall ix, inside (dd r) ix -> dv r ix = zlen (filter p (elements var dim n ix)).
Proof.
  intros Hv Hn. assert (Hc : well_formed (counting p var)).
  { split; [apply Hv|]. intros jx jx' Hj. cbn [counting dv]. rewrite (proj2 Hv jx jx' Hj). reflexivity. }
  destruct (reduce_dim_ok [] Z.add (reduce_data Z.add) (serial_accumulates Z.add) 0 (counting p var) dim n Hc Hn (fun l Hl => match Hl with end)) as (r & E & Hr & Hp & Hval).
  exists r. split; [exact E|]. split; [exact Hr|]. split; [exact Hp|]. intros ix Hix. rewrite Hval by exact Hix.
  rewrite (map_ext _ (fun jx => if negb (p (dv var jx)) then 0 else 1)) by (intros jx; cbn [counting dv]; destruct (p (dv var jx)); reflexivity).
  rewrite count_fold. unfold elements, zlen. rewrite <- (map_length (dv var)). rewrite Z.add_0_l. do 2 f_equal. clear.
  induction (along ix dim n) as [|j js IH]; [reflexivity|]. cbn [filter map]. rewrite Bool.negb_involutive. destruct (p (dv var j)); cbn [map]; rewrite IH; reflexivity.
Qed.
Lemma extent_pos d k n : wf d -> has d k n -> 0 <= n.
Proof. intros Hd Hk. apply wf_lwf in Hd as [(_ & Hf & _) _]. rewrite Forall_forall in Hf. apply Hf. unfold extents. apply in_map_iff. exists (k, n). auto. Qed.

Lemma mean_f_ok var dim n : well_formed var -> has (dd var) dim n ->
  exists r, mean_f var dim = Ok r /\ wf (dd r) /\ pairs (dd r) = without_dim (dd var) dim /\
    forall ix, inside (dd r) ix -> dv r ix = norm_f (sum_f (elements var dim n ix)) (zlen (elements var dim n ix)).
Proof.
  intros Hv Hn. unfold mean_f. rewrite (dat_has _ _ _ (proj1 Hv) Hn). cbn [bind]. destruct (reduce_f_ok RSum var dim n Hv Hn) as (s & -> & Hs & Hp & Hval). cbn [bind].
  unfold normalize_impl. cbn [dd]. rewrite (merge_includes (dd s) mempty (proj1 Hs) wf_empty) by (intros k x []). cbn [bind]. eexists. split; [reflexivity|]. cbn [dd dv].
  split; [apply Hs|]. split; [exact Hp|]. intros ix Hix. rewrite Hval by exact Hix. unfold sum_f. cbn [r_op r_init]. f_equal. unfold elements, along, zlen, zseq. rewrite !map_length, seq_length.
  pose proof (extent_pos _ _ _ (proj1 Hv) Hn). lia.
Qed.
Lemma finite_not_nan l : Forall not_infinite l -> filter is_finite l = not_nans l.
Proof.
  intros Hl. apply filter_ext_in. intros x Hx. rewrite Forall_forall in Hl. specialize (Hl x Hx). destruct x as [s|s| |s m e E]; try reflexivity. destruct Hl; discriminate.
Qed.
Lemma nanmean_f_ok var dim n : well_formed var -> has (dd var) dim n ->
  exists r, nanmean_f var dim = Ok r /\ wf (dd r) /\ pairs (dd r) = without_dim (dd var) dim /\
    forall ix, inside (dd r) ix -> Forall not_infinite (elements var dim n ix) ->
      dv r ix = norm_f (sum_f (not_nans (elements var dim n ix))) (zlen (not_nans (elements var dim n ix))).
Proof.
  intros Hv Hn. unfold nanmean_f. destruct (count_f_ok is_finite var dim n Hv Hn) as (c & -> & Hc & Hpc & Hvc). cbn [bind].
  destruct (reduce_f_ok RNansum var dim n Hv Hn) as (s & -> & Hs & Hp & Hval). cbn [bind].
  assert (Edd : dd c = dd s) by (apply pairs_inj; [apply Hc|apply Hs|congruence]). unfold normalize_impl.
  rewrite (merge_includes (dd s) (dd c) (proj1 Hs) (proj1 Hc)) by (rewrite Edd; auto). cbn [bind]. eexists. split; [reflexivity|]. cbn [dd dv]. split; [apply Hs|]. split; [exact Hp|].
  intros ix Hix Hl. rewrite Hval by exact Hix. rewrite Hvc by (rewrite Edd; exact Hix). f_equal; [|f_equal; exact (finite_not_nan _ Hl)].
  rewrite (variant_fold RNansum RSum _ nv_sum (fun _ => Hl)). reflexivity.
Qed.

Lemma nanmean_masked_ok var dim n l : well_formed var -> has (dd var) dim n -> (forall k m, In (k, m) l -> well_formed (k_arr m)) -> applicable l dim var ->
  exists r, nanmean_masked var dim l = Ok r /\ wf (dd r) /\ (forall k x, has (dd r) k x <-> has (dd var) k x /\ k <> dim) /\
    forall ix, inside (dd r) ix -> let e := map (dv var) (unmasked l dim (along ix dim n)) in Forall not_infinite e ->
      dv r ix = norm_f (sum_f (not_nans e)) (zlen (not_nans e)).
Proof.
  intros Hv Hn Hw Happ. unfold nanmean_masked. pose proof (proj1 Hv) as Hwv.
  destruct (irreducible_ok (dd var) dim l Hwv Hw Happ) as [[-> Hnone]|(u & -> & U1 & U2 & U3 & U4 & U5)]; cbn [bind].
  - destruct (nanmean_f_ok var dim n Hv Hn) as (r & E & Hr & Hp & Hval). exists r. split; [exact E|]. split; [exact Hr|]. split.
    { intros k x. unfold has at 1. rewrite Hp. apply without_dim_has. }
    intros ix Hix. cbv zeta. unfold unmasked. rewrite filter_all by (intros jx _; rewrite Hnone; reflexivity). apply Hval. exact Hix.
  - set (cn := counting (fun x => negb (is_nan x)) var).
    assert (Hcn : well_formed cn).
    { split; [apply Hv|]. intros jx jx' Hj. cbn [cn counting dv]. rewrite (proj2 Hv jx jx' Hj). reflexivity. }
    destruct (where_ok u 0 cn U1 U2 Hcn U3) as (b & -> & Hb & Hhb & _ & Hvb). cbn [bind]. unfold count_f.
    destruct (reduce_dim_ok [] Z.add (reduce_data Z.add) (serial_accumulates Z.add) 0 b dim n Hb (proj2 (Hhb _ _) Hn) (fun l Hl => match Hl with end)) as (c & -> & Hc & Hpc & Hvc). cbn [bind].
    destruct (where_ok u f_zero var U1 U2 Hv U3) as (w & -> & Hww & Hhw & _ & Hvw). cbn [bind].
    destruct (reduce_f_ok RNansum w dim n Hww (proj2 (Hhw _ _) Hn)) as (s & -> & Hs & Hp & Hval). cbn [bind]. unfold normalize_impl.
    assert (Hcs : forall k x, has (dd c) k x <-> has (dd s) k x).
    { intros k x. unfold has. rewrite Hpc, Hp, !without_dim_has. change (In (k, x) (pairs (dd b))) with (has (dd b) k x). change (In (k, x) (pairs (dd w))) with (has (dd w) k x).
      rewrite Hhb, Hhw. reflexivity. }
    rewrite (merge_includes (dd s) (dd c) (proj1 Hs) (proj1 Hc)) by (intros k x; apply Hcs). cbn [bind]. eexists. split; [reflexivity|]. cbn [dd dv]. split; [apply Hs|]. split.
    { intros k x. unfold has at 1. rewrite Hp, without_dim_has, Hhw. tauto. }
    intros ix Hix. cbv zeta. intros Hl. rewrite Hval by exact Hix. rewrite Hvc by (intros k x Hk; apply Hix, Hcs, Hk).
    unfold elements in *. set (js := along ix dim n) in *. clearbody js. clear - Hl Hvb Hvw U5. f_equal.
    + destruct ignores_nansum as (good & G1 & G2 & G3).
      transitivity (fold_left (r_op RNansum) (map (dv var) (unmasked l dim js)) (r_init RNansum)).
      2:{ rewrite (variant_fold RNansum RSum _ nv_sum (fun _ => Hl)). reflexivity. }
      unfold unmasked. rewrite <- (fold_filled (r_op RNansum) (r_fill RNansum) _ good (masked l dim) (dv var) js G2 G3); [| |exact G1].
      * f_equal. apply map_ext. intros jx. rewrite Hvw, U5. reflexivity.
      * intros jx Hj Hm. rewrite Forall_forall in Hl. apply Hl. apply in_map. apply filter_In. split; [exact Hj|]. rewrite Hm. reflexivity.
    + rewrite (map_ext _ (fun jx => if masked l dim jx || is_nan (dv var jx) then 0 else 1)).
      2:{ intros jx. rewrite Hvb, U5. cbn [cn counting dv]. destruct (masked l dim jx), (is_nan (dv var jx)); reflexivity. }
      rewrite (count_fold (fun jx => masked l dim jx || is_nan (dv var jx))), Z.add_0_l. unfold zlen, not_nans, unmasked. f_equal. clear.
      induction js as [|j js IH]; [reflexivity|]. cbn [filter]. destruct (masked l dim j); cbn [orb negb]; [exact IH|]. cbn [map filter]. destruct (is_nan (dv var j)); cbn [negb length]; rewrite IH; reflexivity.
Qed.

(** ** Accuracy of means *)
Lemma norm_f_val s n : (1 <= n <= 2 ^ 53)%Z -> is_finite s = true ->
  is_finite (norm_f s n) = true /\
  (Rabs (val (norm_f s n) - val s / IZR n) <= 3 * bpow radix2 (-53) * Rabs (val s / IZR n) + bpow radix2 (-1074))%R.
Proof.
  intros Hn Fs. assert (Hn0 : (1 <= IZR n)%R) by (apply IZR_le; lia).
  destruct (f_of_Z_exact n ltac:(lia)) as [Vn Fn]. destruct (f_of_Z_exact 1 ltac:(lia)) as [V1 F1].
  assert (Hle : (Rabs (rnd (1 / IZR n)) <= 1)%R).
  { apply abs_round_le_generic; try typeclasses eauto; [apply (fmt_Z 1); lia|]. rewrite Rabs_pos_eq by (apply Rlt_le, Rdiv_lt_0_compat; lra). apply Rmult_le_reg_r with (IZR n); [lra|]. field_simplify; lra. }
  destruct (fdiv_val (f_of_Z 1) (f_of_Z n) F1) as [Vq Fq]; [rewrite Vn; lra|rewrite V1, Vn; apply Rle_lt_trans with (1 := Hle); apply (bpow_lt radix2 0 1024); lia|].
  rewrite V1, Vn in Vq.
  assert (Hprod : (Rabs (val s * rnd (1 / IZR n)) <= val f_max)%R).
  { rewrite Rabs_mult. pose proof (val_bound s) as Hb. pose proof (Rabs_pos (val s)). nra. }
  assert (Hov : (Rabs (rnd (val s * rnd (1 / IZR n))) < bpow radix2 1024)%R).
  { apply Rle_lt_trans with (val f_max).
    - apply abs_round_le_generic; try typeclasses eauto; [|exact Hprod]. apply (generic_format_B2R 53 1024).
    - pose proof (abs_B2R_lt_emax 53 1024 f_max) as Hm. rewrite Rabs_pos_eq in Hm; [exact Hm|]. apply Rlt_le, f_max_pos. }
  unfold norm_f. destruct (fmul_val s (fdiv (f_of_Z 1) (f_of_Z n)) Fs Fq) as [Vm Fm]; [rewrite Vq; exact Hov|]. split; [exact Fm|]. rewrite Vm, Vq.
  assert (Hrel : (Rabs (rnd (1 / IZR n) - 1 / IZR n) <= bpow radix2 (-53) * Rabs (1 / IZR n))%R).
  { pose proof (relative_error_N_FLT radix2 (-1074) 53 ltac:(lia) (fun x => negb (Z.even x)) (1 / IZR n)) as Hr.
    replace (bpow radix2 (-53)) with (/ 2 * bpow radix2 (- (53) + 1))%R; [apply Hr|].
    - rewrite Rabs_pos_eq by (apply Rlt_le, Rdiv_lt_0_compat; lra). apply Rle_trans with (bpow radix2 (-53)).
      + apply bpow_le. lia.
      + unfold Rdiv. rewrite Rmult_1_l. change (-53)%Z with (- (53))%Z. rewrite bpow_opp. apply Rinv_le; [lra|]. rewrite <- (IZR_Zpower radix2 53) by lia. apply IZR_le. apply Hn.
    - change (- (53) + 1)%Z with (1 + (-53))%Z. rewrite bpow_plus. change (bpow radix2 1) with 2%R. lra. }
  pose proof (rnd_half (val s * rnd (1 / IZR n))) as Hh. set (q := rnd (1 / IZR n)) in *. set (u := bpow radix2 (-53)) in *.
  assert (Hu : (0 < u <= / 4)%R).
  { split; [apply bpow_gt_0|]. unfold u. replace (/ 4)%R with (bpow radix2 (-2)) by (cbn; lra). apply bpow_le. lia. }
  replace (/ 2 * bpow radix2 (-52))%R with u in Hh by (unfold u; change (-52)%Z with (1 + (-53))%Z; rewrite bpow_plus; change (bpow radix2 1) with 2%R; lra).
  set (e := bpow radix2 (-1074)) in *. assert (He : (0 < e)%R) by apply bpow_gt_0.
  replace (val s / IZR n)%R with (val s * (1 / IZR n))%R by (field; lra). set (t := (1 / IZR n)%R) in *.
  assert (Hst : (Rabs (val s * q - val s * t) <= u * Rabs (val s * t))%R).
  { replace (val s * q - val s * t)%R with (val s * (q - t))%R by ring. rewrite !Rabs_mult. pose proof (Rabs_pos (val s)). nra. }
  set (a := (val s * q)%R) in *. set (b := (val s * t)%R) in *. clearbody a b. clear - Hh Hst Hu He. pose proof (Rabs_pos b) as Hb.
  assert (Ha : (Rabs a <= Rabs b + u * Rabs b)%R).
  { replace a with (b + (a - b))%R by ring. eapply Rle_trans; [apply Rabs_triang|]. lra. }
  replace (rnd a - b)%R with ((rnd a - a) + (a - b))%R by ring. eapply Rle_trans; [apply Rabs_triang|].
  assert (u * Rabs a <= u * (Rabs b + u * Rabs b))%R by (apply Rmult_le_compat_l; lra).
  assert (u * (u * Rabs b) <= / 4 * (u * Rabs b))%R by (apply Rmult_le_compat_r; [apply Rmult_le_pos; lra|lra]).
  assert (0 <= u * Rabs b)%R by (apply Rmult_le_pos; lra). lra.
Qed.
Lemma norm_f_special s n : (1 <= n <= 2 ^ 53)%Z -> is_finite s = false -> norm_f s n = s.
Proof.
  intros Hn Fs. assert (Hn0 : (1 <= IZR n)%R) by (apply IZR_le; lia).
  destruct (f_of_Z_exact n ltac:(lia)) as [Vn Fn]. destruct (f_of_Z_exact 1 ltac:(lia)) as [V1 F1].
  assert (Hle : (Rabs (rnd (1 / IZR n)) <= 1)%R).
  { apply abs_round_le_generic; try typeclasses eauto; [apply (fmt_Z 1); lia|]. rewrite Rabs_pos_eq by (apply Rlt_le, Rdiv_lt_0_compat; lra). apply Rmult_le_reg_r with (IZR n); [lra|]. field_simplify; lra. }
  destruct (fdiv_val (f_of_Z 1) (f_of_Z n) F1) as [Vq Fq]; [rewrite Vn; lra|rewrite V1, Vn; apply Rle_lt_trans with (1 := Hle); apply (bpow_lt radix2 0 1024); lia|].
  rewrite V1, Vn in Vq. assert (Hpos : (0 < val (fdiv (f_of_Z 1) (f_of_Z n)))%R).
  { rewrite Vq. apply Rlt_le_trans with (bpow radix2 (-53)); [apply bpow_gt_0|]. apply round_ge_generic; try typeclasses eauto.
    - apply generic_format_bpow. unfold fexp64, FLT_exp. lia.
    - unfold Rdiv. rewrite Rmult_1_l. change (-53)%Z with (- (53))%Z. rewrite bpow_opp. apply Rinv_le; [lra|]. rewrite <- (IZR_Zpower radix2 53) by lia. apply IZR_le. apply Hn. }
  unfold norm_f. destruct (fdiv (f_of_Z 1) (f_of_Z n)) as [sq|sq| |[|] m e E]; try discriminate.
  - exfalso. cbn in Hpos. lra.
  - exfalso. apply Rlt_not_le in Hpos. apply Hpos. apply Rlt_le, F2R_lt_0. reflexivity.
  - destruct s as [| [|] | |]; try discriminate; reflexivity.
Qed.

(** ** One-dimensional arrays *)
Lemma line_along dim l : forall ix, elements (line_of dim l) dim (zlen l) ix = l.
Proof.
  intros ix. unfold elements, along, line_of, zlen. cbn [dv]. rewrite Nat2Z.id, map_map. rewrite (map_ext _ (fun i => nth (Z.to_nat i) l f_zero)) by (intros i; rewrite put_at; reflexivity).
  unfold zseq. rewrite map_map. rewrite (map_ext _ (fun k => nth k l f_zero)) by (intros k; f_equal; lia). apply nth_error_ext. intros i.
  destruct (Nat.lt_ge_cases i (length l)) as [Hi|Hi].
  - rewrite nth_error_map. rewrite (nth_error_nth' _ 0%nat) by (rewrite seq_length; exact Hi). cbn [option_map]. rewrite seq_nth by exact Hi. rewrite (nth_error_nth' l f_zero Hi). reflexivity.
  - rewrite (proj2 (nth_error_None _ _)) by (rewrite map_length, seq_length; exact Hi). symmetry. apply nth_error_None. exact Hi.
Qed.
Lemma line_wf dim l : dim <> InvalidDim -> well_formed (line_of dim l).
Proof.
  intros Hd. split.
  - split; [cbn; repeat constructor; tauto|]. split; [reflexivity|]. split; [cbn; repeat constructor; unfold zlen; lia|cbn; tauto].
  - intros jx jx' Hj. cbn [line_of dv dd labels m_keys] in *. rewrite Hj by (left; reflexivity). reflexivity.
Qed.
