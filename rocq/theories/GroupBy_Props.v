(** Properties of group-by operations (C34). *)
From Coq Require Import Sorting.Permutation.
From Coq Require Import Reals Lra.
From Flocq Require Import Core IEEE754.BinarySingleNaN.
From Verif Require Import Float Lookup_Proofs NanReduce_Proofs.
From Verif Require Sort_Props Extract_Model Equality_Proofs.
From Verif Require Import Base Arr Map_Model Dims_Model Dims_Spec Dims_Proofs View_Model View_Spec View_Proofs Mapper_Model Mapper_Proofs Transform_Spec
  Accumulate_Spec Accumulate_Model Accumulate_Proofs Mask_Model Mask_Spec Mask_Proofs Mask_Props GroupBy_Model GroupBy_Spec GroupBy_Proofs GroupBy_Reduce_Proofs.
Notation mapM := Mapper_Model.mapM.
Open Scope Z_scope.

(** ** Groups by value *)

(** C34. The keys of the groups are the distinct values of the key, in ascending order; the slices of a group cover, in
    order, exactly the positions with a value equal to its key. Equal values must have the same hash. *)
Theorem C34_groups : forall K (eq : K -> K -> bool) hash less key ks groups,
  key_order eq less -> (forall a b, eq a b = true -> hash a = hash b) -> may_group eq hash less key ks groups ->
  (forall i j a b, (i < j)%nat -> nth_error ks i = Some a -> nth_error ks j = Some b -> less a b = true) /\
  (forall k, In k ks -> In k key) /\ (forall x, In x key -> exists k, In k ks /\ eq x k = true) /\
  length groups = length ks /\
  forall i k g, nth_error ks i = Some k -> nth_error groups i = Some g ->
    positions g = where_key (fun x => eq x k) key /\ (forall b e, In (b, e) g -> 0 <= b <= e /\ e <= zlen key).
Proof.
  intros K eq hash less key ks groups Hko Hh Hm. destruct (may_group_ok eq hash less Hko Hh key ks groups Hm) as (M1 & M2 & M3 & M4).
  split; [exact M1|]. split; [exact M2|]. split; [exact M3|]. split; [clear - M4; induction M4 as [|? ? ? ? ? ? IHf]; [reflexivity|cbn [length]; rewrite IHf; reflexivity]|].
  clear M1 M2 M3 Hm. induction M4 as [|k0 g0 ks groups H0 M4 IH]; intros i k g Ek Eg; [destruct i; discriminate|].
  destruct i as [|i]; [|apply (IH i k g Ek Eg)]. injection Ek as <-. injection Eg as <-. destruct H0 as [P F]. split; [exact P|].
  intros b e Hbe. rewrite Forall_forall in F. specialize (F _ Hbe). cbn [fst snd] in F. lia.
Qed.
Print Assumptions C34_groups.

(** C34. Such groups exist for every key. *)
Theorem C34_exist : forall K (eq : K -> K -> bool) hash less key, key_order eq less -> (forall a b, eq a b = true -> hash a = hash b) ->
  exists ks groups, may_group eq hash less key ks groups.
Proof.
  intros K eq hash less key Hko Hh. destruct (make_entries_ok eq hash less Hko Hh key) as (entries & Ee & E1 & _).
  assert (Hsw : Sort_Props.strict_weak less).
  { split; [apply (ko_irr _ _ Hko)|apply (ko_trans _ _ Hko)|]. intros a b c X1 X2 X3 X4. apply (ko_eq _ _ Hko). apply (ko_eq_trans _ _ Hko a b c); apply (ko_eq _ _ Hko); auto. }
  destruct (Sort_Props.exists_sorted less Hsw (map (fun e => (fst e, 0)) entries)) as (out & Hp & Hs).
  assert (Hpk : Permutation (map fst out) (map fst entries)).
  { rewrite (Permutation_map fst Hp), map_map. apply Permutation_refl. }
  destruct (groups_at eq hash less Hko Hh entries (map fst out) E1) as (groups & Eg & _).
  { intros k Hk. apply (Permutation_in _ Hpk). exact Hk. }
  exists (map fst out), groups, entries. split; [exact Ee|]. split; [exact Hpk|]. split; [|exact Eg].
  intros i j a b Hij Ha Hb. apply Sort_Props.sorted_sorted_by in Hs.
  destruct (nth_error out i) as [xa|] eqn:Ea; [|apply nth_error_None in Ea; rewrite (proj2 (nth_error_None (map fst out) i)) in Ha by (rewrite map_length; exact Ea); discriminate].
  destruct (nth_error out j) as [xb|] eqn:Eb; [|apply nth_error_None in Eb; rewrite (proj2 (nth_error_None (map fst out) j)) in Hb by (rewrite map_length; exact Eb); discriminate].
  rewrite (map_nth_error fst _ _ Ea) in Ha. rewrite (map_nth_error fst _ _ Eb) in Hb. injection Ha as <-. injection Hb as <-. exact (Hs i j xa xb Hij Ea Eb).
Qed.
Print Assumptions C34_exist.

Lemma where_key_In {K} p (key : list K) i : In i (where_key p key) <-> 0 <= i < zlen key /\ key_at p key i = true.
Proof. unfold where_key. rewrite filter_In, Sort_Props.zseq_In. unfold zlen. split; intros [X Y]; split; try assumption; lia. Qed.

(** C34. Every position belongs to exactly one group. *)
Theorem C34_partition : forall K (eq : K -> K -> bool) hash less key ks groups,
  key_order eq less -> (forall a b, eq a b = true -> hash a = hash b) -> may_group eq hash less key ks groups ->
  forall p, 0 <= p < zlen key -> exists! i, exists g, nth_error groups i = Some g /\ In p (positions g).
Proof.
  intros K eq hash less key ks groups Hko Hh Hm p Hp. destruct (C34_groups K eq hash less key ks groups Hko Hh Hm) as (G1 & G2 & G3 & G4 & G5).
  destruct (nth_error key (Z.to_nat p)) as [x|] eqn:Ex; [|apply nth_error_None in Ex; unfold zlen in Hp; lia].
  destruct (G3 x (nth_error_In _ _ Ex)) as (k & Hk & Exk). apply In_nth_error in Hk as [i Ei].
  destruct (nth_error groups i) as [g|] eqn:Eg; [|apply nth_error_None in Eg; assert (i < length ks)%nat by (apply nth_error_Some; congruence); lia].
  assert (Hsame : forall j g', nth_error groups j = Some g' -> In p (positions g') -> exists k', nth_error ks j = Some k' /\ eq x k' = true).
  { intros j g' Ej Hj. destruct (nth_error ks j) as [k'|] eqn:Ek; [|apply nth_error_None in Ek; assert (j < length groups)%nat by (apply nth_error_Some; congruence); lia].
    exists k'. split; [reflexivity|]. rewrite (proj1 (G5 j k' g' Ek Ej)) in Hj. apply where_key_In in Hj as [_ Hj]. unfold key_at in Hj. rewrite Ex in Hj. exact Hj. }
  exists i. split.
  - exists g. split; [exact Eg|]. rewrite (proj1 (G5 i k g Ei Eg)). apply where_key_In. split; [exact Hp|]. unfold key_at. rewrite Ex. exact Exk.
  - intros j (g' & Ej & Hj). destruct (Hsame j g' Ej Hj) as (k' & Ek & Exk').
    assert (Hkk : less k k' = false /\ less k' k = false).
    { apply (ko_eq _ _ Hko). apply (ko_eq_trans _ _ Hko k x k'); [|exact Exk']. apply (ko_eq _ _ Hko). destruct (proj1 (ko_eq _ _ Hko x k) Exk). auto. }
    destruct (Nat.lt_trichotomy i j) as [Hij|[Hij|Hij]]; [|exact Hij|].
    + rewrite (G1 i j k k' Hij Ei Ek) in Hkk. destruct Hkk; discriminate.
    + rewrite (G1 j i k' k Hij Ek Ei) in Hkk. destruct Hkk; discriminate.
Qed.
Print Assumptions C34_partition.

(** Floating-point keys: NaN is after all numbers and equal to NaN; zeros are equal. *)
Definition nan_equal (a b : f64) : bool := Beqb a b || (is_nan a && is_nan b).
Definition nan_less : f64 -> f64 -> bool := Extract_Model.nan_sensitive_less fltb (@is_nan 53 1024).
Lemma Beqb_key (a b : f64) : is_nan a = false -> is_nan b = false -> Beqb a b = true <-> key a = key b.
Proof.
  intros Na Nb. split.
  - intros E. assert (E1 : fleb a b = true) by (unfold fleb, Bleb, Beqb, SpecFloat.SFleb, SpecFloat.SFeqb in *; destruct (SpecFloat.SFcompare (B2SF a) (B2SF b)) as [[]|]; congruence || discriminate).
    assert (E2 : fltb a b = false) by (unfold fltb, Bltb, Beqb, SpecFloat.SFltb, SpecFloat.SFeqb in *; destruct (SpecFloat.SFcompare (B2SF a) (B2SF b)) as [[]|]; congruence || discriminate).
    rewrite fleb_key in E1 by assumption. rewrite fltb_key in E2 by assumption.
    destruct (Rle_bool_spec (key a) (key b)), (Rlt_bool_spec (key a) (key b)); try discriminate. lra.
  - intros E. assert (E1 : fleb a b = true) by (rewrite fleb_key by assumption; apply Rle_bool_true; lra).
    assert (E2 : fltb a b = false) by (rewrite fltb_key by assumption; apply Rlt_bool_false; lra).
    unfold fleb, Bleb, fltb, Bltb, Beqb, SpecFloat.SFleb, SpecFloat.SFltb, SpecFloat.SFeqb in *. destruct (SpecFloat.SFcompare (B2SF a) (B2SF b)) as [[]|]; congruence || discriminate.
Qed.
Theorem C34_order_float : key_order nan_equal nan_less.
Proof.
  pose proof Sort_Props.C35_order_float as Hsw. fold nan_less in Hsw.
  assert (He : forall a b, nan_equal a b = true <-> nan_less a b = false /\ nan_less b a = false).
  { intros a b. unfold nan_equal, nan_less, Extract_Model.nan_sensitive_less. destruct (is_nan a) eqn:Na, (is_nan b) eqn:Nb; cbn [andb negb]; rewrite ?Bool.orb_true_r, ?Bool.orb_false_r.
    - tauto.
    - destruct a; try discriminate. split; [destruct b; discriminate|intros [_ E]; discriminate].
    - destruct b; try discriminate. split; [destruct a; discriminate|intros [E _]; discriminate].
    - rewrite Beqb_key, !fltb_key by assumption. destruct (Rlt_bool_spec (key a) (key b)), (Rlt_bool_spec (key b) (key a)); split; intros X; try (destruct X; discriminate); try (split; reflexivity); lra. }
  split.
  - apply (Sort_Props.sw_irr _ Hsw).
  - apply (Sort_Props.sw_trans _ Hsw).
  - exact He.
  - intros a b c E1 E2. apply He in E1 as [X1 X2]. apply He in E2 as [X3 X4]. apply He. apply (Sort_Props.sw_incomparable _ Hsw a b c); assumption.
Qed.
Print Assumptions C34_order_float.
Theorem C34_order_integer : key_order Z.eqb Z.ltb.
Proof. split; intros; try lia. Qed.
Print Assumptions C34_order_integer.

(** ** Groups by bins *)

(** C34. One group per bin; its slices cover, in order, exactly the positions with a value in the bin. *)
Theorem C34_bins : forall K (good : K -> bool) (less le : K -> K -> bool) edges key,
  edge_order good less le -> Forall (fun e => good e = true) edges -> edges <> [] -> is_sorted less edges = true ->
  exists groups, make_bin_groups less le true key edges = Ok groups /\ zlen groups = zlen edges - 1 /\
    forall i g, nth_error groups i = Some g ->
      positions g = where_key (in_bin less le edges i) key /\ (forall b e, In (b, e) g -> 0 <= b <= e /\ e <= zlen key).
Proof.
  intros K good less le edges key Ho Hg Hne Hs. destruct (make_bin_groups_ok good less le edges key Ho Hg Hne Hs) as (groups & E & L & G).
  exists groups. split; [exact E|]. split; [exact L|]. intros i g Eg. destruct (G i g Eg) as [P F]. split; [exact P|].
  intros b e Hbe. rewrite Forall_forall in F. specialize (F _ Hbe). cbn [fst snd] in F. lia.
Qed.
Print Assumptions C34_bins.

(** C34. Every position belongs to at most one bin, and to one if its value is between the first and the last edge. *)
Theorem C34_bins_partition : forall K (good : K -> bool) (less le : K -> K -> bool) edges key groups,
  edge_order good less le -> Forall (fun e => good e = true) edges -> edges <> [] -> is_sorted less edges = true ->
  make_bin_groups less le true key edges = Ok groups -> forall p x, 0 <= p -> nth_error key (Z.to_nat p) = Some x ->
  (forall i j g g', nth_error groups i = Some g -> nth_error groups j = Some g' -> In p (positions g) -> In p (positions g') -> i = j) /\
  ((exists i g, nth_error groups i = Some g /\ In p (positions g)) <-> exists a b, nth_error edges 0 = Some a /\ nth_error edges (length edges - 1) = Some b /\
     le a x = true /\ less x b = true).
Proof.
  intros K good less le edges key groups Ho Hg Hne Hs E p x Hp Ex. destruct (C34_bins K good less le edges key Ho Hg Hne Hs) as (groups' & E' & L & G).
  assert (groups' = groups) as -> by congruence. clear E'.
  pose proof (is_sorted_ok good less le edges Ho Hg Hs) as Hso.
  assert (Hlt : (Z.to_nat p < length key)%nat) by (apply nth_error_Some; congruence).
  assert (Hin : forall i g, nth_error groups i = Some g -> (In p (positions g) <-> in_bin less le edges i x = true)).
  { intros i g Eg. rewrite (proj1 (G i g Eg)), where_key_In. unfold key_at. rewrite Ex. split; [tauto|]. intros X. split; [unfold zlen; lia|exact X]. }
  assert (Hgx : forall y, less x y = true -> good x = true).
  { intros y Hy. destruct (good x) eqn:Gx; [reflexivity|]. destruct (eo_bad _ _ _ Ho x y Gx). congruence. }
  split.
  - intros i j g g' Ei Ej Hi Hj. apply (in_bin_unique good less le edges Ho Hg Hso i j x); [apply (Hin i g Ei)|apply (Hin j g' Ej)]; assumption.
  - assert (Hlen : (0 < length edges)%nat) by (destruct edges; [contradiction|cbn; lia]). split.
    + intros (i & g & Ei & Hi). apply (Hin i g Ei) in Hi. unfold in_bin in Hi. destruct (nth_error edges i) as [a'|] eqn:Ea'; [|discriminate]. destruct (nth_error edges (S i)) as [b'|] eqn:Eb'; [|discriminate].
      apply andb_prop in Hi as [H1 H2']. destruct (nth_error edges 0) as [a|] eqn:Ea; [|apply nth_error_None in Ea; lia].
      destruct (nth_error edges (length edges - 1)) as [b|] eqn:Eb; [|apply nth_error_None in Eb; lia]. exists a, b. split; [reflexivity|]. split; [reflexivity|].
      assert (Hi' : (S i < length edges)%nat) by (apply nth_error_Some; congruence). pose proof (Hgx b' H2') as Gx.
      split.
      * apply (eo_trans _ _ _ Ho a a' x); try assumption; try (apply (good_at good edges Hg _ _ Ea)); try (apply (good_at good edges Hg _ _ Ea')). apply (Hso 0%nat i a a' ltac:(lia) Ea Ea').
      * apply (less_mono good less le Ho x b' b Gx (good_at good edges Hg _ _ Eb') (good_at good edges Hg _ _ Eb) H2'). apply (Hso (S i) (length edges - 1)%nat b' b ltac:(lia) Eb' Eb).
    + intros (a & b & Ea & Eb & Hax & Hxb). pose proof (Hgx b Hxb) as Gx.
      assert (Hf : forall m, (m <= length edges - 1)%nat -> (forall y, nth_error edges m = Some y -> less x y = true) -> exists i, (i < m)%nat /\ in_bin less le edges i x = true).
      { induction m as [|m IH]; intros Hm Hy.
        - exfalso. pose proof (Hy a Ea) as Hc. rewrite (eo_le _ _ _ Ho) in Hax by (assumption || apply (good_at good edges Hg _ _ Ea)). rewrite Hc in Hax. discriminate.
        - destruct (nth_error edges m) as [y|] eqn:Ey; [|apply nth_error_None in Ey; lia]. destruct (less x y) eqn:Exy.
          + destruct IH as (i & Hi & Hb); [lia|intros y' [= <-]; exact Exy|]. exists i. split; [lia|exact Hb].
          + exists m. split; [lia|]. unfold in_bin. rewrite Ey. destruct (nth_error edges (S m)) as [z|] eqn:Ez; [|apply nth_error_None in Ez; lia].
            rewrite (Hy z eq_refl). rewrite (eo_le _ _ _ Ho) by (assumption || apply (good_at good edges Hg _ _ Ey)). rewrite Exy. reflexivity. }
      destruct (Hf (length edges - 1)%nat (le_n _)) as (i & Hi & Hb); [intros y Hy; congruence|].
      destruct (nth_error groups i) as [g|] eqn:Eg; [|apply nth_error_None in Eg; unfold zlen in L; lia]. exists i, g. split; [exact Eg|]. apply (Hin i g Eg). exact Hb.
Qed.
Print Assumptions C34_bins_partition.

Theorem C34_edges_float : edge_order (fun x : f64 => negb (is_nan x)) fltb fleb.
Proof.
  split.
  - intros a b Na Nb. apply Bool.negb_true_iff in Na, Nb. rewrite fltb_key, fleb_key by assumption. destruct (Rle_bool_spec (key a) (key b)), (Rlt_bool_spec (key b) (key a)); try reflexivity; exfalso; lra.
  - intros a b c _ _ _. apply fleb_trans.
  - intros a b _ _. apply flt_le.
  - intros a b Na. apply Bool.negb_false_iff in Na. split; [apply Sort_Props.fltb_nan; exact Na|]. destruct a; try discriminate. destruct b; reflexivity.
Qed.
Print Assumptions C34_edges_float.
Theorem C34_edges_integer : edge_order (fun _ : Z => true) Z.ltb Z.leb.
Proof. split; intros; try lia; discriminate. Qed.
Print Assumptions C34_edges_integer.

(** C34. Refused: key and edges with different units, edges that are not sorted, no edges. *)
Theorem C34_errors : forall K (less le : K -> K -> bool) key edges,
  make_bin_groups less le false key edges = Throw UnitError /\
  (is_sorted less edges = false -> make_bin_groups less le true key edges = Throw BinEdgeError) /\
  make_bin_groups less le true key [] = Throw RuntimeError.
Proof. intros K less le key edges. split; [reflexivity|]. split; [|reflexivity]. intros E. unfold make_bin_groups. rewrite E. reflexivity. Qed.
Print Assumptions C34_errors.

(** ** Reductions *)
Lemma selected_ok {K} p (key : list K) l dim n ix : zlen key = n -> unmasked l dim (map (put ix dim) (where_key p key)) = selected p key l dim n ix.
Proof.
  intros <-. unfold unmasked, selected, along, where_key, zlen. rewrite Nat2Z.id. generalize (zseq 0 (length key)). intros zs.
  induction zs as [|z zs IH]; [reflexivity|]. cbn [filter map]. rewrite put_at. destruct (key_at p key z); cbn [andb map filter]; [|exact IH].
  destruct (masked l dim (put ix dim z)); cbn [negb]; [exact IH|]. rewrite IH. reflexivity.
Qed.

(** C34. Reduction of groups by value: the output has the group dimension in place of the reduced one; its element for the
    key [k] combines exactly the unmasked elements at which the key equals [k], in order, starting from the fill value. *)
Theorem C34_reduce : forall A K (eq : K -> K -> bool) hash less reserved (f : A -> A -> A) acc fill P data p1 p2 dim n gdim l key ks groups,
  accumulates_any reserved f acc -> ignores_for P f fill fill -> groupable reserved data p1 p2 dim n gdim l ->
  (forall jx, inside (dd data) jx -> masked l dim jx = false -> P (dv data jx)) ->
  key_order eq less -> (forall a b, eq a b = true -> hash a = hash b) -> zlen key = n -> may_group eq hash less key ks groups ->
  exists r, groupby_reduce acc fill dim dim gdim data l groups = Ok r /\ pairs (dd r) = p1 ++ (gdim, zlen ks) :: p2 /\
    forall ix k, inside (dd r) ix -> nth_error ks (Z.to_nat (ix gdim)) = Some k ->
      dv r ix = fold_left f (map (dv data) (selected (fun x => eq x k) key l dim n ix)) fill.
Proof.
  intros A K eq hash less reserved f acc fill P data p1 p2 dim n gdim l key ks groups Hacc Hig [D1 D2 D3 D4 D5 D6 D7 D8] HP Hko Hh Hn Hm.
  destruct (C34_groups K eq hash less key ks groups Hko Hh Hm) as (_ & _ & _ & G4 & G5).
  assert (Hin : forall g, In g groups -> slices_inside n g).
  { intros g Hg. apply In_nth_error in Hg as [i Ei]. destruct (nth_error ks i) as [k|] eqn:Ek; [|apply nth_error_None in Ek; assert (i < length groups)%nat by (apply nth_error_Some; congruence); lia].
    rewrite <- Hn. exact (proj2 (G5 i k g Ek Ei)). }
  destruct (groupby_ok reserved f acc Hacc fill data p1 p2 dim n gdim l D1 D2 D3 D4 D5 D6 D7 D8 P groups Hig HP Hin) as (r & Er & _ & Pr & Vr).
  exists r. split; [exact Er|]. split; [rewrite Pr; unfold zlen; rewrite G4; reflexivity|]. intros ix k Hix Ek.
  destruct (nth_error groups (Z.to_nat (ix gdim))) as [g|] eqn:Eg.
  2:{ apply nth_error_None in Eg. assert (Z.to_nat (ix gdim) < length ks)%nat by (apply nth_error_Some; congruence). lia. }
  rewrite (Vr ix g Hix Eg). rewrite (proj1 (G5 _ k g Ek Eg)), (selected_ok _ key l dim n ix Hn). reflexivity.
Qed.

(** C34. Reduction of groups by bins: likewise with the unmasked elements at which the key is in the bin. *)
Theorem C34_reduce_bins : forall A K (less : K -> K -> bool) good le reserved (f : A -> A -> A) acc fill P data p1 p2 dim n gdim l key edges groups,
  accumulates_any reserved f acc -> ignores_for P f fill fill -> groupable reserved data p1 p2 dim n gdim l ->
  (forall jx, inside (dd data) jx -> masked l dim jx = false -> P (dv data jx)) ->
  edge_order good less le -> Forall (fun e => good e = true) edges -> edges <> [] -> is_sorted less edges = true ->
  zlen key = n -> make_bin_groups less le true key edges = Ok groups ->
  exists r, groupby_reduce acc fill dim dim gdim data l groups = Ok r /\ pairs (dd r) = p1 ++ (gdim, zlen edges - 1) :: p2 /\
    forall ix, inside (dd r) ix ->
      dv r ix = fold_left f (map (dv data) (selected (in_bin less le edges (Z.to_nat (ix gdim))) key l dim n ix)) fill.
Proof.
  intros A K less good le reserved f acc fill P data p1 p2 dim n gdim l key edges groups Hacc Hig [D1 D2 D3 D4 D5 D6 D7 D8] HP Ho Hg Hne Hs Hn Hm.
  destruct (C34_bins K good less le edges key Ho Hg Hne Hs) as (groups' & E' & L & G). assert (groups' = groups) as -> by congruence.
  assert (Hin : forall g, In g groups -> slices_inside n g).
  { intros g Hg0. apply In_nth_error in Hg0 as [i Ei]. rewrite <- Hn. exact (proj2 (G i g Ei)). }
  destruct (groupby_ok reserved f acc Hacc fill data p1 p2 dim n gdim l D1 D2 D3 D4 D5 D6 D7 D8 P groups Hig HP Hin) as (r & Er & _ & Pr & Vr).
  exists r. split; [exact Er|]. split; [rewrite Pr, <- L; reflexivity|]. intros ix Hix.
  assert (Hb : 0 <= ix gdim < zlen groups) by (apply (Hix gdim); rewrite Pr; apply in_app_iff; right; left; reflexivity).
  destruct (nth_error groups (Z.to_nat (ix gdim))) as [g|] eqn:Eg; [|apply nth_error_None in Eg; unfold zlen in Hb; lia].
  rewrite (Vr ix g Hix Eg), (proj1 (G _ g Eg)), (selected_ok _ key l dim n ix Hn). reflexivity.
Qed.

(** C34. Means, if masks that depend on the reduced dimension have no other: the sum of the selected elements over their number. *)
Theorem C34_mean : forall A K (eq : K -> K -> bool) hash less B reserved (f : A -> A -> A) acc reserved' accZ zero (norm : A -> Z -> B) data p1 p2 dim n gdim l key ks groups,
  accumulates_any reserved f acc -> accumulates_any reserved' Z.add accZ -> ignores f zero zero -> groupable (reserved ++ reserved') data p1 p2 dim n gdim l ->
  (forall k m, In (k, m) l -> In dim (labels (k_dims m)) -> labels (k_dims m) = [dim]) ->
  key_order eq less -> (forall a b, eq a b = true -> hash a = hash b) -> zlen key = n -> may_group eq hash less key ks groups ->
  exists r, groupby_mean acc accZ zero norm dim dim gdim data l groups = Ok r /\ pairs (dd r) = p1 ++ (gdim, zlen ks) :: p2 /\
    forall ix k, inside (dd r) ix -> nth_error ks (Z.to_nat (ix gdim)) = Some k ->
      let js := selected (fun x => eq x k) key l dim n ix in dv r ix = norm (fold_left f (map (dv data) js) zero) (zlen js).
Proof.
  intros A K eq hash less B reserved f acc reserved' accZ zero norm data p1 p2 dim n gdim l key ks groups Hacc HaccZ Hig [D1 D2 D3 D4 D5 D6 D7 D8] Hone Hko Hh Hn Hm.
  destruct (C34_groups K eq hash less key ks groups Hko Hh Hm) as (_ & _ & _ & G4 & G5).
  assert (Hin : forall g, In g groups -> slices_inside n g).
  { intros g Hg. apply In_nth_error in Hg as [i Ei]. destruct (nth_error ks i) as [k|] eqn:Ek; [|apply nth_error_None in Ek; assert (i < length groups)%nat by (apply nth_error_Some; congruence); lia].
    rewrite <- Hn. exact (proj2 (G5 i k g Ek Ei)). }
  destruct (groupby_mean_ok reserved f acc reserved' accZ zero norm data p1 dim n p2 gdim l groups Hacc (any_accumulates _ _ _ HaccZ) Hig D1 D2 D3 D4 D5 Hone D6 D7 D8 Hin) as (r & Er & Pr & Vr).
  exists r. split; [exact Er|]. split; [rewrite Pr; unfold zlen; rewrite G4; reflexivity|]. intros ix k Hix Ek. cbn zeta.
  destruct (nth_error groups (Z.to_nat (ix gdim))) as [g|] eqn:Eg.
  2:{ apply nth_error_None in Eg. assert (Z.to_nat (ix gdim) < length ks)%nat by (apply nth_error_Some; congruence). lia. }
  rewrite (Vr ix g Hix Eg). rewrite (proj1 (G5 _ k g Ek Eg)), (selected_ok _ key l dim n ix Hn). reflexivity.
Qed.

Theorem C34_mean_bins : forall A K (less : K -> K -> bool) good le B reserved (f : A -> A -> A) acc reserved' accZ zero (norm : A -> Z -> B) data p1 p2 dim n gdim l key edges groups,
  accumulates_any reserved f acc -> accumulates_any reserved' Z.add accZ -> ignores f zero zero -> groupable (reserved ++ reserved') data p1 p2 dim n gdim l ->
  (forall k m, In (k, m) l -> In dim (labels (k_dims m)) -> labels (k_dims m) = [dim]) ->
  edge_order good less le -> Forall (fun e => good e = true) edges -> edges <> [] -> is_sorted less edges = true ->
  zlen key = n -> make_bin_groups less le true key edges = Ok groups ->
  exists r, groupby_mean acc accZ zero norm dim dim gdim data l groups = Ok r /\ pairs (dd r) = p1 ++ (gdim, zlen edges - 1) :: p2 /\
    forall ix, inside (dd r) ix ->
      let js := selected (in_bin less le edges (Z.to_nat (ix gdim))) key l dim n ix in dv r ix = norm (fold_left f (map (dv data) js) zero) (zlen js).
Proof.
  intros A K less good le B reserved f acc reserved' accZ zero norm data p1 p2 dim n gdim l key edges groups Hacc HaccZ Hig [D1 D2 D3 D4 D5 D6 D7 D8] Hone Ho Hg Hne Hs Hn Hm.
  destruct (C34_bins K good less le edges key Ho Hg Hne Hs) as (groups' & E' & L & G). assert (groups' = groups) as -> by congruence.
  assert (Hin : forall g, In g groups -> slices_inside n g).
  { intros g Hg0. apply In_nth_error in Hg0 as [i Ei]. rewrite <- Hn. exact (proj2 (G i g Ei)). }
  destruct (groupby_mean_ok reserved f acc reserved' accZ zero norm data p1 dim n p2 gdim l groups Hacc (any_accumulates _ _ _ HaccZ) Hig D1 D2 D3 D4 D5 Hone D6 D7 D8 Hin) as (r & Er & Pr & Vr).
  exists r. split; [exact Er|]. split; [rewrite Pr, <- L; reflexivity|]. intros ix Hix. cbn zeta.
  assert (Hb : 0 <= ix gdim < zlen groups) by (apply (Hix gdim); rewrite Pr; apply in_app_iff; right; left; reflexivity).
  destruct (nth_error groups (Z.to_nat (ix gdim))) as [g|] eqn:Eg; [|apply nth_error_None in Eg; unfold zlen in Hb; lia].
  rewrite (Vr ix g Hix Eg), (proj1 (G _ g Eg)), (selected_ok _ key l dim n ix Hn). reflexivity.
Qed.
Print Assumptions C34_reduce.
Print Assumptions C34_reduce_bins.
Print Assumptions C34_mean.
Print Assumptions C34_mean_bins.

(** The functions that accumulate: serial ones, and the parallel one if the operation is commutative and associative. *)
Theorem C34_serial : forall A (f : A -> A -> A), accumulates_any [] f (reduce_data f).
Proof. intros A f. apply serial_accumulates_any. Qed.
Print Assumptions C34_serial.
Theorem C34_parallel : forall A (f : A -> A -> A) eqb small internal order blocks,
  (forall x y, f x y = f y x) -> (forall x y z, f x (f y z) = f (f x y) z) -> (forall x y : A, eqb x y = true -> x = y) -> 1 < small ->
  internal <> InvalidDim -> (forall n, Permutation (order n) (zseq 0 (Z.to_nat n))) ->
  (forall n, 0 <= n -> exists bs, tiles 0 n bs /\ Permutation (blocks n) bs) ->
  accumulates_any [internal] f (fun out other => do_accumulate small f eqb internal out other order blocks).
Proof. intros A f eqb small internal order blocks. apply parallel_accumulates_any. Qed.
Print Assumptions C34_parallel.

(** The label of the groups must not be a further dimension of the data. *)
Theorem C34_label : forall A acc (fill : A) data p1 p2 dim n gdim l groups, well_formed data -> pairs (dd data) = p1 ++ (dim, n) :: p2 ->
  gdim <> InvalidDim -> In gdim (keys p1 ++ keys p2) -> groupby_reduce acc fill dim dim gdim data l groups = Throw DimensionError.
Proof.
  intros A acc fill data p1 p2 dim n gdim l groups Hw Hp Hg Hi. unfold groupby_reduce. destruct (SizedDict_Proofs.wf_mk_pairs (dd data) (proj1 Hw)) as [Edd Hl]. rewrite Hp in Edd, Hl.
  rewrite Edd, output_dims_ok by (try assumption; unfold zlen; lia).
  replace (mem gdim (keys p1) || mem gdim (keys p2)) with true; [reflexivity|]. symmetry. apply Bool.orb_true_iff. rewrite !mem_In. apply in_app_iff. exact Hi.
Qed.
Print Assumptions C34_label.

(** ** Concrete cases *)
Definition gdim_k : Dim := 8.
Definition gkey : list Z := [3; 1; 1; 3; 2].
Definition gks : list Z := [1; 2; 3].
Definition ggroups : list group := [[(1, 3)]; [(4, 5)]; [(0, 1); (3, 4)]].
Definition gdata : darr Z := mkd (mkmap [dim_y; dim_x] [2; 5]) (fun ix => 10 * ix dim_y + ix dim_x + 1).
Definition gmasks : list (Z * mask) := [(mask_m, bmask (line 5 dim_x [false; false; true; false; false])); (12, bmask (line 2 dim_y [true; false]))].
Lemma small_wf (ls : list Z) (ns : list Z) : NoDup ls -> ~ In InvalidDim ls -> Forall (fun n => 0 <= n) ns -> length ls = length ns -> wf (mkmap ls ns).
Proof. intros X1 X2 X3 X4. unfold wf. repeat split; cbn; auto. Qed.
Ltac small_tac := split; [apply small_wf; [repeat constructor; cbn; intuition discriminate|cbn; intuition discriminate|repeat constructor; lia|reflexivity]|].
Lemma gdata_wf : well_formed gdata.
Proof. small_tac. intros jx jx' Hj. cbn [gdata dv dd labels m_keys] in *. rewrite (Hj dim_x), (Hj dim_y) by (cbn; tauto). reflexivity. Qed.
Lemma gmasks_wf : forall k m, In (k, m) gmasks -> well_formed (k_arr m).
Proof.
  intros k m [E|[E|[]]]; injection E as <- <-; small_tac; intros jx jx' Hj; cbn [bmask k_arr line dv dd labels m_keys] in *; rewrite Hj by (left; reflexivity); reflexivity.
Qed.
Lemma gdata_groupable : groupable [] gdata [(dim_y, 2)] [] dim_x 5 gdim_k gmasks.
Proof.
  split; try exact gdata_wf; try reflexivity; try exact gmasks_wf; try (cbn; intuition discriminate).
  intros k m [E|[E|[]]] Hd; injection E as <- <-; (split; [split; reflexivity|]); intros d n Hh; cbn in Hh, Hd |- *; unfold has, pairs in *; cbn in *; tauto.
Qed.
Lemma ggroups_ok : may_group Z.eqb (fun z => z mod 2) Z.ltb gkey gks ggroups.
Proof.
  exists [(3, [(0, 1); (3, 4)]); (1, [(1, 3)]); (2, [(4, 5)])]. split; [reflexivity|]. split; [|split; [|reflexivity]].
  - cbn. apply Permutation_sym. etransitivity; [apply perm_swap|]. apply perm_skip. apply perm_swap.
  - intros i j a b Hij Ha Hb. do 3 (destruct i as [|i]; [do 3 (destruct j as [|j]; [cbn in Ha, Hb; try lia; injection Ha as <-; injection Hb as <-; reflexivity|]); destruct j; discriminate|]); destruct i; discriminate.
Qed.
Lemma parity_hash : forall a b, Z.eqb a b = true -> a mod 2 = b mod 2.
Proof. intros a b E. apply Z.eqb_eq in E. subst. reflexivity. Qed.

Example C34_groups_case : positions [(0, 1); (3, 4)] = where_key (fun x => x =? 3) gkey /\ length ggroups = length gks.
Proof.
  destruct (C34_groups Z Z.eqb (fun z => z mod 2) Z.ltb gkey gks ggroups C34_order_integer parity_hash ggroups_ok) as (_ & _ & _ & L & G). split; [|exact L].
  exact (proj1 (G 2%nat 3 _ eq_refl eq_refl)).
Qed.
Example C34_exist_case : exists ks groups, may_group nan_equal (fun x => if is_nan x then 0 else 1) nan_less [f_of_Z 1; B754_nan; B754_zero true; B754_zero false; B754_nan] ks groups.
Proof.
  apply C34_exist; [exact C34_order_float|]. intros a b E. unfold nan_equal in E. destruct a, b; try discriminate; reflexivity.
Qed.
(** Negative zero and zero are one group; so are the two NaN. *)
Example C34_float_case : (do e <- make_entries nan_equal (fun x => if is_nan x then 0 else 1) [f_of_Z 1; B754_nan; B754_zero true; B754_zero false; B754_nan]; Ok (map snd e))
  = Ok [[(0, 1)]; [(1, 2); (4, 5)]; [(2, 4)]].
Proof. vm_compute. reflexivity. Qed.
Example C34_partition_case : exists! i, exists g, nth_error ggroups i = Some g /\ In 3 (positions g).
Proof. apply (C34_partition Z Z.eqb (fun z => z mod 2) Z.ltb gkey gks ggroups C34_order_integer parity_hash ggroups_ok). cbn. lia. Qed.
Example C34_bins_case : make_bin_groups Z.ltb Z.leb true [5; 12; 10; -1; 20; 9] [0; 10; 10; 20] = Ok [[(0, 1); (5, 6)]; []; [(1, 3)]] /\
  make_bin_groups fltb fleb true [f_of_Z 1; B754_nan; f_of_Z 2] [f_of_Z 0; f_of_Z 3] = Ok [[(0, 1); (2, 3)]].
Proof. split; vm_compute; reflexivity. Qed.
Example C34_bins_hyp_case : exists groups, make_bin_groups fltb fleb true [f_of_Z 1; B754_nan; f_of_Z 2] [f_of_Z 0; f_of_Z 3] = Ok groups /\ zlen groups = 1.
Proof.
  destruct (C34_bins f64 _ fltb fleb [f_of_Z 0; f_of_Z 3] [f_of_Z 1; B754_nan; f_of_Z 2] C34_edges_float) as (groups & E & L & _); [repeat constructor|discriminate|vm_compute; reflexivity|].
  exists groups. split; [exact E|]. rewrite L. reflexivity.
Qed.
Example C34_bins_partition_case : (exists i g, nth_error [[(0, 1); (5, 6)]; []; [(1, 3)]] i = Some g /\ In 5 (positions g)) /\ ~ (exists i g, nth_error [[(0, 1); (5, 6)]; []; [(1, 3)]] i = Some g /\ In 4 (positions g)).
Proof.
  pose proof (fun p x => C34_bins_partition Z _ Z.ltb Z.leb [0; 10; 10; 20] [5; 12; 10; -1; 20; 9] [[(0, 1); (5, 6)]; []; [(1, 3)]] C34_edges_integer ltac:(repeat constructor) ltac:(discriminate) eq_refl eq_refl p x) as Hc.
  split.
  - apply (Hc 5 9 ltac:(lia) eq_refl). exists 0, 20. repeat split.
  - intros X. apply (Hc 4 20 ltac:(lia) eq_refl) in X. destruct X as (a & b & _ & Eb & _ & Hl). cbn in Eb. injection Eb as <-. discriminate.
Qed.
Example C34_errors_case : make_bin_groups Z.ltb Z.leb true [1] [0; 3; 2] = Throw BinEdgeError.
Proof. apply C34_errors. reflexivity. Qed.

(** The sums of the rows for the keys 1, 2, 3; the third column is masked. *)
Example C34_reduce_case : shown (groupby_reduce (reduce_data Z.add) 0 dim_x dim_x gdim_k gdata gmasks ggroups) [0; 1] = Some (mkmap [dim_y; gdim_k] [2; 3], [2; 10 + 5]) /\
  exists r, groupby_reduce (reduce_data Z.add) 0 dim_x dim_x gdim_k gdata gmasks ggroups = Ok r /\ pairs (dd r) = [(dim_y, 2); (gdim_k, 3)] /\
    dv r (fun k => if k =? dim_y then 1 else 2) = 11 + 14.
Proof.
  split; [vm_compute; reflexivity|].
  destruct (C34_reduce Z Z Z.eqb (fun z => z mod 2) Z.ltb [] Z.add (reduce_data Z.add) 0 (fun _ => True) gdata [(dim_y, 2)] [] dim_x 5 gdim_k gmasks gkey gks ggroups
    (C34_serial Z Z.add) add_ignores gdata_groupable (fun _ _ _ => I) C34_order_integer parity_hash eq_refl ggroups_ok) as (r & E & Pr & Vr).
  exists r. split; [exact E|]. split; [exact Pr|]. rewrite (Vr _ 3); [vm_compute; reflexivity| |reflexivity].
  intros k x Hk. rewrite Pr in Hk. destruct Hk as [[= <- <-]|[[= <- <-]|[]]]; cbn; lia.
Qed.
Example C34_reduce_bins_case : exists r, groupby_reduce (reduce_data Z.add) 0 dim_x dim_x dim_x gdata gmasks [[(1, 3); (4, 5)]; [(0, 1); (3, 4)]] = Ok r /\ pairs (dd r) = [(dim_y, 2); (dim_x, 2)] /\
    dv r (fun k => if k =? dim_y then 1 else 0) = 12 + 15.
Proof.
  assert (Hg : groupable [] gdata [(dim_y, 2)] [] dim_x 5 dim_x gmasks) by (destruct gdata_groupable; split; try assumption; cbn; intuition discriminate).
  destruct (C34_reduce_bins Z Z Z.ltb (fun _ => true) Z.leb [] Z.add (reduce_data Z.add) 0 (fun _ => True) gdata [(dim_y, 2)] [] dim_x 5 dim_x gmasks gkey [0; 3; 4] [[(1, 3); (4, 5)]; [(0, 1); (3, 4)]]
    (C34_serial Z Z.add) add_ignores Hg (fun _ _ _ => I) C34_edges_integer) as (r & E & Pr & Vr); try reflexivity; [repeat constructor|discriminate|].
  exists r. split; [exact E|]. split; [exact Pr|]. rewrite Vr; [vm_compute; reflexivity|].
  intros k x Hk. rewrite Pr in Hk. destruct Hk as [[= <- <-]|[[= <- <-]|[]]]; cbn; lia.
Qed.
Lemma gmasks_1d : forall k m, In (k, m) gmasks -> In dim_x (labels (k_dims m)) -> labels (k_dims m) = [dim_x].
Proof. intros k m [E|[E|[]]] Hd; injection E as <- <-; [reflexivity|]. cbn in Hd. destruct Hd as [Hd|[]]. discriminate. Qed.
Example C34_mean_case : exists r, groupby_mean (reduce_data Z.add) (reduce_data Z.add) 0 pair dim_x dim_x gdim_k gdata gmasks ggroups = Ok r /\
    dv r (fun k => if k =? dim_y then 1 else 0) = (12, 1) /\ dv r (fun k => if k =? dim_y then 1 else 2) = (11 + 14, 2).
Proof.
  destruct (C34_mean Z Z Z.eqb (fun z => z mod 2) Z.ltb (Z * Z) [] Z.add (reduce_data Z.add) [] (reduce_data Z.add) 0 pair gdata [(dim_y, 2)] [] dim_x 5 gdim_k gmasks gkey gks ggroups
    (C34_serial Z Z.add) (C34_serial Z Z.add) add_ignores gdata_groupable gmasks_1d C34_order_integer parity_hash eq_refl ggroups_ok) as (r & E & Pr & Vr).
  exists r. split; [exact E|]. split.
  - rewrite (Vr _ 1); [vm_compute; reflexivity| |reflexivity]. intros k x Hk. rewrite Pr in Hk. destruct Hk as [[= <- <-]|[[= <- <-]|[]]]; cbn; lia.
  - rewrite (Vr _ 3); [vm_compute; reflexivity| |reflexivity]. intros k x Hk. rewrite Pr in Hk. destruct Hk as [[= <- <-]|[[= <- <-]|[]]]; cbn; lia.
Qed.
Example C34_mean_bins_case : exists r, groupby_mean (reduce_data Z.add) (reduce_data Z.add) 0 pair dim_x dim_x gdim_k gdata gmasks [[(1, 3); (4, 5)]; [(0, 1); (3, 4)]] = Ok r /\
    dv r (fun k => if k =? dim_y then 1 else 0) = (12 + 15, 2).
Proof.
  destruct (C34_mean_bins Z Z Z.ltb (fun _ => true) Z.leb (Z * Z) [] Z.add (reduce_data Z.add) [] (reduce_data Z.add) 0 pair gdata [(dim_y, 2)] [] dim_x 5 gdim_k gmasks gkey [0; 3; 4] [[(1, 3); (4, 5)]; [(0, 1); (3, 4)]]
    (C34_serial Z Z.add) (C34_serial Z Z.add) add_ignores gdata_groupable gmasks_1d C34_edges_integer) as (r & E & Pr & Vr); try reflexivity; [repeat constructor|discriminate|].
  exists r. split; [exact E|]. rewrite Vr; [vm_compute; reflexivity|]. intros k x Hk. rewrite Pr in Hk. destruct Hk as [[= <- <-]|[[= <- <-]|[]]]; cbn; lia.
Qed.
Example C34_label_case : groupby_reduce (reduce_data Z.add) 0 dim_x dim_x dim_y gdata gmasks ggroups = Throw DimensionError.
Proof. apply (C34_label Z (reduce_data Z.add) 0 gdata [(dim_y, 2)] [] dim_x 5 dim_y gmasks ggroups gdata_wf eq_refl); [discriminate|left; reflexivity]. Qed.

(** ** What does not hold *)

(** The mean fails if a mask has a further dimension, although the mean without groups (C31_mean) handles such masks. *)
Definition gmask2 : list (Z * mask) := [(mask_n, bmask (mkd (mkmap [dim_y; dim_x] [2; 5]) (fun ix => ix dim_x =? ix dim_y)))].
Theorem C34_mean_mask_refuted : exists (data : darr Z) p1 dim n p2 gdim l key ks groups,
  groupable [] data p1 p2 dim n gdim l /\ zlen key = n /\ may_group Z.eqb (fun z => z mod 2) Z.ltb key ks groups /\
  groupby_mean (reduce_data Z.add) (reduce_data Z.add) 0 (@pair Z Z) dim dim gdim data l groups = Throw DimensionError.
Proof.
  exists gdata, [(dim_y, 2)], dim_x, 5, [], gdim_k, gmask2, gkey, gks, ggroups. split; [|split; [reflexivity|split; [exact ggroups_ok|vm_compute; reflexivity]]].
  split; try exact gdata_wf; try reflexivity; try (cbn; intuition discriminate).
  - intros k m [E|[]]; injection E as <- <-. small_tac. intros jx jx' Hj; cbn [bmask k_arr dv dd labels m_keys] in *; rewrite (Hj dim_x), (Hj dim_y) by (cbn; tauto). reflexivity.
  - intros k m [E|[]] _; injection E as <- <-; (split; [split; reflexivity|]). intros d n Hh. exact Hh.
Qed.
Print Assumptions C34_mean_mask_refuted.

(** Nothing checks the length of the key: with a bin-edge coordinate as key the groups exist and the reduction fails. *)
Theorem C34_edge_key_refuted : exists (data : darr Z) p1 dim n p2 gdim key ks groups,
  groupable [] data p1 p2 dim n gdim [] /\ zlen key = n + 1 /\ may_group Z.eqb (fun z => z) Z.ltb key ks groups /\
  groupby_reduce (reduce_data Z.add) 0 dim dim gdim data [] groups = Throw SliceError.
Proof.
  exists gdata, [(dim_y, 2)], dim_x, 5, [], gdim_k, [1; 1; 1; 1; 1; 2], [1; 2], [[(0, 5)]; [(5, 6)]]. split; [|split; [reflexivity|split; [|vm_compute; reflexivity]]].
  - split; try exact gdata_wf; try reflexivity; try (intros k m []); try (cbn; intuition discriminate).
  - exists [(1, [(0, 5)]); (2, [(5, 6)])]. split; [reflexivity|]. split; [reflexivity|]. split; [|reflexivity].
    intros i j a b Hij Ha Hb. do 2 (destruct i as [|i]; [do 2 (destruct j as [|j]; [cbn in Ha, Hb; try lia; injection Ha as <-; injection Hb as <-; reflexivity|]); destruct j; discriminate|]); destruct i; discriminate.
Qed.
Print Assumptions C34_edge_key_refuted.

(** NaN with different payloads are equal but may have different hashes (here a NaN is its payload): then there are two
    groups with equal keys. *)
Definition payload_equal (a b : option Z) : bool := match a, b with None, None => true | Some _, Some _ => true | _, _ => false end.
Definition payload_less (a b : option Z) : bool := match a, b with None, Some _ => true | _, _ => false end.
Theorem C34_nan_hash_refuted : exists (eq less : option Z -> option Z -> bool) hash key ks groups, key_order eq less /\ may_group eq hash less key ks groups /\
  exists i j k k', (i < j)%nat /\ nth_error ks i = Some k /\ nth_error ks j = Some k' /\ eq k k' = true.
Proof.
  exists payload_equal, payload_less, (fun x => match x with Some p => p | None => 0 end), [Some 7; None; Some 8], [None; Some 7; Some 8], [[(1, 2)]; [(0, 1)]; [(2, 3)]].
  split; [|split].
  - split.
    + intros [a|]; reflexivity.
    + intros [a|] [b|] [c|]; cbn; congruence.
    + intros [a|] [b|]; cbn; intuition congruence.
    + intros [a|] [b|] [c|]; cbn; congruence.
  - exists [(Some 7, [(0, 1)]); (None, [(1, 2)]); (Some 8, [(2, 3)])]. split; [reflexivity|]. split; [apply perm_swap|]. split; [|reflexivity].
    intros i j a b Hij Ha Hb. do 3 (destruct i as [|i]; [do 3 (destruct j as [|j]; [cbn in Ha, Hb; try lia; injection Ha as <-; injection Hb as <-; reflexivity|]); destruct j; discriminate|]); destruct i; discriminate.
  - exists 1%nat, 2%nat, (Some 7), (Some 8). split; [lia|]. repeat split.
Qed.
Print Assumptions C34_nan_hash_refuted.

(** The reduction starts from the fill value, which shows if all elements of a group are beyond it: the maximum of minus
    infinity is the lowest finite number. *)
Theorem C34_infinity_refuted : exists (data : darr f64) dim n gdim key ks groups r, groupable [] data [] [] dim n gdim [] /\ zlen key = n /\
  may_group Z.eqb (fun z => z) Z.ltb key ks groups /\ groupby_reduce (reduce_data (r_op RMax)) (r_fill RMax) dim dim gdim data [] groups = Ok r /\
  (forall i, 0 <= i < n -> dv data (put (fun _ => 0) dim i) = inf true) /\ dv r (fun _ => 0) = f_lowest.
Proof.
  set (data := line_f [inf true; inf true]).
  assert (Hd : groupable [] data [] [] dim_x 2 gdim_k []).
  { split; try reflexivity; try (intros k m []; fail); try (cbn; intuition discriminate). split; [apply (small_wf [dim_x] [2]); [constructor; [intros []|constructor]|intros [E|[]]; discriminate|constructor; [lia|constructor]|reflexivity]|]. unfold data, line_f. intros jx jx' Hj. cbn [dv dd labels m_keys] in *. rewrite (Hj dim_x) by (cbn; tauto). reflexivity. }
  assert (Hm : may_group Z.eqb (fun z => z) Z.ltb [4; 4] [4] [[(0, 2)]]).
  { exists [(4, [(0, 2)])]. split; [reflexivity|]. split; [reflexivity|]. split; [|reflexivity]. intros [|[|i]] [|[|j]] a b Hij Ha Hb; try lia; discriminate. }
  destruct (C34_reduce f64 Z Z.eqb (fun z => z) Z.ltb [] (r_op RMax) _ (r_fill RMax) (fun _ => True) data [] [] dim_x 2 gdim_k [] [4; 4] [4] [[(0, 2)]]
    (C34_serial _ _) (C31_doubles RMax ltac:(discriminate)) Hd (fun _ _ _ => I) C34_order_integer) as (r & E & Pr & Vr); [|reflexivity|exact Hm|].
  { intros a b Hab. apply Z.eqb_eq. exact Hab. }
  exists data, dim_x, 2, gdim_k, [4; 4], [4], [[(0, 2)]], r. split; [exact Hd|]. split; [reflexivity|]. split; [exact Hm|]. split; [exact E|]. split.
  - intros i Hi. cbn [data line_f dv]. rewrite put_at. assert (i = 0 \/ i = 1) as [-> | ->] by lia; reflexivity.
  - rewrite (Vr _ 4); [|intros k x Hk; rewrite Pr in Hk; destruct Hk as [[= <- <-]|[]]; cbn; lia|reflexivity].
    change (map (dv data) _) with [inf true; inf true]. cbn [fold_left r_op r_fill]. unfold max_equals.
    assert (Hf : fltb f_lowest (inf true) = false) by (vm_compute; reflexivity). rewrite ?Hf. reflexivity.
Qed.
Print Assumptions C34_infinity_refuted.
