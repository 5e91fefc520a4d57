From Coq Require Import Sorted Permutation.
From Verif Require Import Base Map_Model Map_Spec Map_Proofs Dims_Model Dims_Spec Dims_Proofs View_Model View_Spec View_Proofs Index_Proofs
  Transform_Model Transform_Spec Transform_Proofs SizedDict_Model SizedDict_Spec SizedDict_Proofs Equality_Proofs Accumulate_Spec
  Reduce_Proofs Label_Proofs Accumulate_Model Accumulate_Proofs Mask_Model Mask_Spec.

(** ** Elements along a dimension *)
Lemma sorted_unique l : forall l', StronglySorted Z.lt l -> StronglySorted Z.lt l' -> (forall x, In x l <-> In x l') -> l = l'.
Proof.
  induction l as [|a l IH]; intros [|b l'] S S' E.
  - reflexivity.
  - exfalso. apply (E b). left; reflexivity.
  - exfalso. apply (E a). left; reflexivity.
  - apply StronglySorted_inv in S as [S Ha]. apply StronglySorted_inv in S' as [S' Hb]. rewrite Forall_forall in Ha, Hb.
    assert (a = b) as ->.
    { destruct (proj1 (E a) (or_introl eq_refl)) as [->|Hi]; [reflexivity|]. destruct (proj2 (E b) (or_introl eq_refl)) as [->|Hj]; [reflexivity|].
      specialize (Ha b Hj). specialize (Hb a Hi). lia. }
    f_equal. apply IH; try assumption. intros x. split; intros Hx.
    + destruct (proj1 (E x) (or_intror Hx)) as [->|Hi]; [specialize (Ha x Hx); lia|exact Hi].
    + destruct (proj2 (E x) (or_intror Hx)) as [->|Hi]; [specialize (Hb x Hx); lia|exact Hi].
Qed.
Lemma zseq_sorted a n : StronglySorted Z.lt (zseq a n).
Proof.
  revert a. induction n as [|n IH]; intros a; [constructor|].
  replace (zseq a (S n)) with (a :: zseq (a + 1) n).
  - constructor; [apply IH|]. apply Forall_forall. intros x Hx. apply zseq_In in Hx. lia.
  - unfold zseq. cbn [seq map]. f_equal; [lia|]. rewrite <- seq_shift, map_map. apply map_ext. intros. lia.
Qed.
Lemma filter_sorted {A} (R : A -> A -> Prop) p l : StronglySorted R l -> StronglySorted R (filter p l).
Proof.
  induction 1 as [|x l S IH Hx]; cbn; [constructor|]. destruct (p x); [|exact IH]. constructor; [exact IH|].
  rewrite Forall_forall in *. intros y Hy. apply filter_In in Hy. apply Hx. apply Hy.
Qed.
Lemma map_sorted (g : Z -> Z) l : (forall x y, In x l -> In y l -> x < y -> g x < g y) -> StronglySorted Z.lt l -> StronglySorted Z.lt (map g l).
Proof.
  intros Hg S. induction S as [|x l S IH Hx]; cbn; constructor.
  - apply IH. intros; apply Hg; cbn; auto.
  - rewrite Forall_forall in *. intros y Hy. apply in_map_iff in Hy as (z & <- & Hz). apply Hg; cbn; auto.
Qed.

Lemma put_at (ix : lindex) k x : put ix k x k = x. Proof. unfold put. rewrite Z.eqb_refl. reflexivity. Qed.
Lemma put_else (ix : lindex) k x j : j <> k -> put ix k x j = ix j.
Proof. unfold put. destruct (Z.eqb_spec j k); [contradiction|reflexivity]. Qed.

(** Position as a function of one index. *)
Lemma position_line p dim (ix : lindex) : NoDup (keys p) -> (forall k n, In (k, n) p -> k <> dim -> 0 <= ix k < n) -> In dim (keys p) ->
  exists c s, 0 < s /\ forall i, position (extents p) (map (put ix dim i) (keys p)) = c + i * s.
Proof.
  induction p as [|[k n] p IH]; intros Hnd Hv Hin; [destruct Hin|]. cbn [keys map fst] in Hnd, Hin. apply NoDup_cons_iff in Hnd as [Hni Hnd].
  change (keys ((k, n) :: p)) with (k :: keys p). change (extents ((k, n) :: p)) with (n :: extents p). cbn [map position].
  destruct (Z.eq_dec k dim) as [->|Hne].
  - exists (position (extents p) (map ix (keys p))), (vol (extents p)). split.
    + apply (valid_vol_pos _ (map ix (keys p))). apply valid_at_idx. intros k n' Hk. apply Hv; [right; exact Hk|].
      intros ->. apply Hni. apply in_map_iff. exists (dim, n'). auto.
    + intros i. rewrite put_at. rewrite (map_ext_in _ ix); [lia|]. intros k Hk. apply put_else. intros ->. contradiction.
  - destruct Hin as [E|Hin]; [contradiction|]. destruct IH as (c & s & Hs & E); try assumption.
    { intros k' n' Hk. apply Hv. right; exact Hk. }
    exists (ix k * vol (extents p) + c), s. split; [exact Hs|]. intros i. rewrite E, put_else by assumption. lia.
Qed.

Lemma without_dim_has d dim k n : In (k, n) (without_dim d dim) <-> has d k n /\ k <> dim.
Proof.
  unfold without_dim. rewrite filter_In. cbn [fst]. unfold has. rewrite Bool.negb_true_iff, Z.eqb_neq. tauto.
Qed.
Lemma pairs_labels d k : wf d -> (In k (labels d) <-> exists n, has d k n).
Proof.
  intros Hd. rewrite labels_keys by assumption. unfold keys, has. rewrite in_map_iff. split.
  - intros ([k' n] & <- & Hi). eauto.
  - intros (n & Hn). exists (k, n). auto.
Qed.

Lemma inside_put m d dim n ix i : wf m -> has m dim n -> pairs d = without_dim m dim -> inside d ix -> 0 <= i < n -> inside m (put ix dim i).
Proof.
  intros Hm Hn Hd Hin Hi k n' Hk. destruct (Z.eq_dec k dim) as [->|Hne].
  - rewrite put_at. rewrite (has_unique' m dim n' n Hm Hk Hn). exact Hi.
  - rewrite put_else by assumption. apply Hin. rewrite Hd. apply without_dim_has. auto.
Qed.

Lemma agreeing_along {A} (a : darr A) d dim n ix : well_formed a -> wf d -> has (dd a) dim n -> pairs d = without_dim (dd a) dim -> inside d ix ->
  map (dv a) (agreeing (dd a) d ix) = map (dv a) (along ix dim n).
Proof.
  intros [Hm Hp] Hwd Hn Hd Hin. set (m := dd a) in *. set (pos := fun jx => position (extents (pairs m)) (map jx (keys (pairs m)))).
  assert (Hpair : lwf (pairs m)) by (apply wf_lwf; assumption).
  destruct (position_line (pairs m) dim ix) as (c & s & Hs & Eline).
  { apply Hpair. }
  { intros k n' Hk Hne. apply Hin. rewrite Hd. apply without_dim_has. auto. }
  { rewrite <- labels_keys by assumption. apply pairs_labels; eauto. }
  assert (Hks : filter (fun k => forallb (fun l => index_of m k l =? ix l) (labels d)) (zseq 0 (Z.to_nat (volume m)))
    = map (fun i => pos (put ix dim i)) (zseq 0 (Z.to_nat n))).
  { apply sorted_unique.
    - apply filter_sorted, zseq_sorted.
    - apply map_sorted; [|apply zseq_sorted]. intros x y _ _ Hxy. unfold pos. rewrite !Eline. nia.
    - assert (Hvol : volume m = vol (extents (pairs m))) by (rewrite volume_vol, shape_extents by assumption; reflexivity).
      intros k. rewrite filter_In, zseq_In, in_map_iff, forallb_forall. split.
      + intros [Hk Hall]. assert (Hk' : 0 <= k < volume m) by lia. pose proof (inside_index_of m k Hm Hk') as Hjx.
        exists (index_of m k dim). split.
        * assert (Hsame : same_at (pairs m) (put ix dim (index_of m k dim)) (index_of m k)).
          { intros l Hl. destruct (Z.eq_dec l dim) as [->|Hne]; [apply put_at|]. rewrite put_else by assumption.
            symmetry. apply Z.eqb_eq. apply Hall. apply pairs_labels; [assumption|]. apply In_keys in Hl as [n' Hn'].
            exists n'. unfold has. rewrite Hd. apply without_dim_has. auto. }
          unfold pos. rewrite (map_ext_in _ (index_of m k)) by (intros l Hl; apply Hsame; exact Hl).
          rewrite <- labels_keys, index_of_labels by assumption. rewrite <- shape_extents by assumption.
          apply position_index_at; [apply Hm|]. rewrite volume_vol in Hk'. exact Hk'.
        * apply zseq_In. specialize (Hjx dim n Hn). lia.
      + intros (i & <- & Hi). apply zseq_In in Hi. assert (Hv : inside m (put ix dim i)) by (apply (inside_put m d dim n); try assumption; lia).
        assert (Hb : 0 <= pos (put ix dim i) < volume m) by (rewrite Hvol; apply position_bound, valid_at_idx; exact Hv).
        split; [lia|]. intros l Hl. apply Z.eqb_eq. pose proof (index_of_position (pairs m) (put ix dim i) Hpair Hv) as Hsame.
        rewrite mk_pairs in Hsame by apply Hm. apply pairs_labels in Hl as [n' Hl]; [|assumption]. unfold has in Hl. rewrite Hd in Hl.
        apply without_dim_has in Hl as [Hl Hne]. fold (pos (put ix dim i)) in Hsame. rewrite Hsame.
        * apply put_else. assumption.
        * apply In_keys. eauto. }
  unfold agreeing, indices. rewrite filter_map. change (fun x => forallb (fun l => index_of m x l =? ix l) (labels d)) with
    (fun k => forallb (fun l => index_of m k l =? ix l) (labels d)). rewrite Hks. unfold along. rewrite !map_map. apply map_ext_in.
  intros i Hi. apply zseq_In in Hi. apply Hp. intros l Hl.
  pose proof (index_of_position (pairs m) (put ix dim i) Hpair ltac:(apply (inside_put m d dim n); try assumption; lia)) as Hsame.
  rewrite mk_pairs in Hsame by apply Hm. apply Hsame. rewrite <- labels_keys by assumption. exact Hl.
Qed.

(** ** Accumulating *)
Lemma dims_same a b : wf a -> wf b -> labels a = labels b -> (forall k n, has a k n <-> has b k n) -> a = b.
Proof.
  intros Ha Hb Hl Hh. pose proof (proj1 (wf_lwf _) Ha) as [La Ea]. pose proof (proj1 (wf_lwf _) Hb) as [Lb Eb].
  rewrite <- (mk_pairs a Ea), <- (mk_pairs b Eb). f_equal. rewrite !labels_keys in Hl by assumption.
  unfold has in Hh. destruct La as (Na & _), Lb as (Nb & _). clear Ha Hb Ea Eb. revert Hh Hl Na Nb. generalize (pairs a) as p, (pairs b) as q.
  induction p as [|[k n] p IH]; intros [|[k' n'] q] Hh Hl Na Nb; try discriminate; [reflexivity|].
  cbn [keys map fst] in Hl. injection Hl as <- Hl. cbn [keys map fst] in Na, Nb. apply NoDup_cons_iff in Na as [Nik Na]. apply NoDup_cons_iff in Nb as [Nik' Nb].
  assert (n = n') as <-.
  { destruct (proj1 (Hh k n) (or_introl eq_refl)) as [E|Hi]; [congruence|]. exfalso. apply Nik'. apply in_map_iff. exists (k, n). auto. }
  f_equal. apply IH; try assumption. intros j m. split; intros Hi.
  - destruct (proj1 (Hh j m) (or_intror Hi)) as [E|Hx]; [|exact Hx]. injection E as <- <-. exfalso. apply Nik. apply in_map_iff. exists (k, n). auto.
  - destruct (proj2 (Hh j m) (or_intror Hi)) as [E|Hx]; [|exact Hx]. injection E as <- <-. exfalso. apply Nik'. apply in_map_iff. exists (k, n). auto.
Qed.
Lemma filter_all {A} (p : A -> bool) l : (forall x, In x l -> p x = true) -> filter p l = l.
Proof. induction l as [|x l IH]; intros Hp; [reflexivity|]. cbn. rewrite (Hp x (or_introl eq_refl)), IH; [reflexivity|]. intros; apply Hp; right; assumption. Qed.
Lemma memb_labels d k : memb d k = true <-> In k (labels d).
Proof. apply mem_In. Qed.
(** Merging with a shape that has all labels, in the same order. *)
Lemma merge_into a b : wf a -> wf b -> (forall k n, has a k n -> has b k n) -> labels a = only a (labels b) -> dims_merge a b = Ok b.
Proof.
  intros Ha Hb Hi Ho. pose proof (sub_noconf a b Hb Hi) as Hnc. destruct (merge_ok a b Ha Hb Hnc) as (m & Em & Hm & Hh & _).
  assert (Hin : incl (labels a) (labels b)) by (apply has_incl; assumption).
  assert (Hor : only b (labels a) = only a (labels b)).
  { rewrite <- Ho. apply filter_all. intros x Hx. apply memb_labels. apply Hin. exact Hx. }
  pose proof (merge_order a b m Ha Hb Em Hnc Hor) as Hl.
  assert (Hmb : forall k n, has m k n <-> has b k n) by (intros k n; rewrite Hh; split; [intros [Hx|Hx]; auto|auto]).
  rewrite Em. f_equal. apply dims_same; try assumption. rewrite <- Hl. symmetry. apply filter_all.
  intros x Hx. apply memb_labels. apply pairs_labels in Hx as [n Hx]; [|assumption]. apply pairs_labels; [assumption|]. exists n. apply Hmb. exact Hx.
Qed.

Lemma keys_filter (q : Z -> bool) (p : list (Z * Z)) : keys (filter (fun e => q (fst e)) p) = filter q (keys p).
Proof. induction p as [|[k n] p IH]; [reflexivity|]. cbn [keys map filter fst]. destruct (q k); cbn [keys map fst]; [f_equal|]; exact IH. Qed.
Lemma without_dim_labels d m dim : wf d -> wf m -> pairs d = without_dim m dim -> labels d = only d (labels m) /\ forall k, In k (labels d) <-> In k (labels m) /\ k <> dim.
Proof.
  intros Hd Hm E.
  assert (Hk : labels d = filter (fun k => negb (k =? dim)) (labels m)).
  { rewrite !labels_keys by assumption. rewrite E. unfold without_dim. apply (keys_filter (fun k => negb (k =? dim))). }
  assert (Hi : forall k, In k (labels d) <-> In k (labels m) /\ k <> dim).
  { intros k. rewrite Hk, filter_In, Bool.negb_true_iff, Z.eqb_neq. tauto. }
  split; [|exact Hi]. rewrite Hk at 1. unfold only. apply filter_ext_in. intros k Hkm. apply Bool.eq_true_iff_eq.
  rewrite memb_labels, Hi, Bool.negb_true_iff, Z.eqb_neq. tauto.
Qed.

Lemma serial_accumulates {A} (f : A -> A -> A) : accumulates [] f (reduce_data f).
Proof.
  intros out other dim n Ho Hb Hn Hd _. pose proof (proj1 Ho) as Hwo. pose proof (proj1 Hb) as Hwb.
  assert (Hi : forall k x, has (dd out) k x -> has (dd other) k x).
  { intros k x Hk. unfold has in Hk. rewrite Hd in Hk. apply without_dim_has in Hk. apply Hk. }
  destruct (reduce_ok f out other Ho Hb Hi) as (r & Er & Hdr & Hokr & _). exists r. split; [exact Er|]. split; [exact Hdr|]. split; [exact Hokr|].
  destruct (without_dim_labels _ _ _ Hwo Hwb Hd) as [Hl _].
  unfold reduce_data in Er. rewrite (merge_into _ _ Hwo Hwb Hi Hl) in Er. cbn [bind] in Er. injection Er as <-. cbn [dv]. intros ix Hix.
  rewrite <- (agreeing_along other (dd out) dim n ix Hb Hwo Hn Hd Hix), fold_left_map. reflexivity.
Qed.

Lemma parallel_accumulates {A} (f : A -> A -> A) eqb small internal order blocks :
  (forall x y, f x y = f y x) -> (forall x y z, f x (f y z) = f (f x y) z) -> (forall x y : A, eqb x y = true -> x = y) -> 1 < small ->
  internal <> InvalidDim ->
  (forall n, Permutation (order n) (zseq 0 (Z.to_nat n))) ->
  (forall n, 0 <= n -> exists bs, tiles 0 n bs /\ Permutation (blocks n) bs) ->
  accumulates [internal] f (fun out other => do_accumulate small f eqb internal out other order blocks).
Proof.
  intros Hc Ha He Hs Hne Hor Hbl out other dim n Ho Hb Hn Hd Hint. pose proof (proj1 Ho) as Hwo. pose proof (proj1 Hb) as Hwb.
  assert (Hi : forall k x, has (dd out) k x -> has (dd other) k x).
  { intros k x Hk. unfold has in Hk. rewrite Hd in Hk. apply without_dim_has in Hk. apply Hk. }
  destruct (without_dim_labels _ _ _ Hwo Hwb Hd) as [Hl Hlk].
  destruct (accumulate_ok f Hc Ha eqb He small internal out other order blocks Ho Hb Hs Hi) as (r & Er & Hdr & Hokr & Hv); try assumption.
  { intros Hx. apply Hlk in Hx. apply (Hint internal); [left; reflexivity|apply Hx]. }
  exists r. split; [exact Er|]. split; [exact Hdr|]. split; [exact Hokr|]. intros ix Hix. rewrite Hv by exact Hix. unfold reduced.
  rewrite (agreeing_along other (dd out) dim n ix Hb Hwo Hn Hd Hix). reflexivity.
Qed.

(** ** The union of masks *)
Lemma merase_dim d dim n : wf d -> has d dim n -> exists d', merase Z.eqb d dim = Ok d' /\ wf d' /\ pairs d' = without_dim d dim.
Proof.
  intros Hd Hn. pose proof (proj1 (wf_lwf _) Hd) as [L El]. unfold has in Hn. apply in_split in Hn as (p1 & p2 & E).
  assert (Hni : ~ In dim (keys p1) /\ ~ In dim (keys p2)).
  { destruct L as (Hnd & _). rewrite E, keys_app in Hnd. cbn [keys map fst] in Hnd. apply NoDup_remove_2 in Hnd.
    split; intros Hx; apply Hnd; apply in_app_iff; auto. }
  exists (mk (p1 ++ p2)). rewrite <- (mk_pairs d El) at 1. rewrite E. split; [apply merase_sp; apply Hni|]. rewrite pairs_mk. split.
  - apply mk_wf. rewrite E in L. destruct L as (Hnd & Hf & Hi). unfold lwf in *. rewrite keys_app, extents_app in *. cbn [keys extents map fst snd] in *.
    fold (keys p2) in *. fold (extents p2) in *. split; [apply NoDup_remove_1 in Hnd; exact Hnd|]. split.
    + apply Forall_app in Hf as [Hf1 Hf2]. apply Forall_cons_iff in Hf2 as [_ Hf2]. apply Forall_app. auto.
    + intros Hx. apply Hi. apply in_app_iff in Hx. apply in_app_iff. cbn. tauto.
  - unfold without_dim. rewrite E, filter_app. cbn [filter fst]. rewrite Z.eqb_refl. cbn [negb].
    rewrite !filter_all; [reflexivity| |]; intros [k m] Hk; cbn [fst]; apply Bool.negb_true_iff, Z.eqb_neq; intros ->.
    + apply (proj2 Hni). apply in_map_iff. exists (dim, m). auto.
    + apply (proj1 Hni). apply in_map_iff. exists (dim, m). auto.
Qed.
Lemma has_valid d k n : wf d -> has d k n -> k <> InvalidDim.
Proof. intros Hd Hn ->. apply Hd. apply (pairs_labels d InvalidDim Hd). eauto. Qed.
Lemma dcontains_In d k : wf d -> dcontains d k = mem k (labels d).
Proof.
  intros Hd. pose proof (proj1 (wf_lwf _) Hd) as [_ El]. rewrite <- (mk_pairs d El) at 1. rewrite dcontains_mk, labels_keys by assumption. reflexivity.
Qed.

Lemma or_well_formed d a b : well_formed (k_arr a) -> well_formed (k_arr b) -> wf d ->
  (forall k n, has d k n <-> has (k_dims a) k n \/ has (k_dims b) k n) -> well_formed (or_arr d a b).
Proof.
  intros [Ha Pa] [Hb Pb] Hd Hh. split; [exact Hd|]. intros jx jx' Hj. cbn [or_arr dd dv] in *. f_equal.
  - apply Pa. intros l Hl. apply Hj. apply (pairs_labels _ _ Ha) in Hl as [n Hl]. apply (pairs_labels _ _ Hd). exists n. apply Hh. auto.
  - apply Pb. intros l Hl. apply Hj. apply (pairs_labels _ _ Hb) in Hl as [n Hl]. apply (pairs_labels _ _ Hd). exists n. apply Hh. auto.
Qed.
Lemma mask_or_ok a b : well_formed (k_arr a) -> well_formed (k_arr b) -> usable a -> usable b -> ~ conflict (k_dims a) (k_dims b) ->
  exists u, mask_or a b = Ok u /\ well_formed (k_arr u) /\ usable u /\ k_ro u = false /\
    (forall k n, has (k_dims u) k n <-> has (k_dims a) k n \/ has (k_dims b) k n) /\
    forall jx, dv (k_arr u) jx = dv (k_arr a) jx || dv (k_arr b) jx.
Proof.
  intros Ha Hb [A1 A2] [B1 B2] Hnc. unfold mask_or. rewrite A1, A2, B1, B2. cbn [andb negb].
  destruct (merge_ok (k_dims a) (k_dims b) (proj1 Ha) (proj1 Hb) Hnc) as (d & -> & Hd & Hh & _). cbn [bind]. eexists. split; [reflexivity|].
  cbn [k_arr k_bool k_none k_ro k_dims or_arr dd dv]. split; [apply or_well_formed; assumption|]. split; [split; reflexivity|]. split; [reflexivity|]. split; [exact Hh|reflexivity].
Qed.

Lemma within_noconf d a b : wf d -> (forall k n, has a k n -> has d k n) -> (forall k n, has b k n -> has d k n) -> ~ conflict a b.
Proof. intros Hd Ha Hb (k & m & n & Hm & Hn & Hne). apply Hne. apply (has_unique' d k); auto. Qed.

Definition union_spec (d : sizes) (dim : Dim) (g : (Dim -> Z) -> bool) (u : mask) : Prop :=
  well_formed (k_arr u) /\ usable u /\ (forall k n, has (k_dims u) k n -> has d k n) /\ In dim (labels (k_dims u)) /\
  forall jx, dv (k_arr u) jx = g jx.
Lemma irreducible_loop_ok d dim : wf d -> forall l u g,
  (forall k m, In (k, m) l -> well_formed (k_arr m)) ->
  (forall k m, In (k, m) l -> In dim (labels (k_dims m)) -> usable m /\ forall k' n, has (k_dims m) k' n -> has d k' n) ->
  union_spec d dim g u ->
  exists u', irreducible_loop (Some u) dim l = Ok (Some u') /\ union_spec d dim (fun jx => g jx || masked l dim jx) u'.
Proof.
  intros Hd. induction l as [|[k m] l IH]; intros u g Hw Hu Hs; cbn [irreducible_loop].
  - exists u. split; [reflexivity|]. destruct Hs as (S1 & S2 & S3 & S4 & S5). repeat (split; [assumption|]). intros jx. rewrite S5. cbn. rewrite Bool.orb_false_r. reflexivity.
  - assert (Hm : well_formed (k_arr m)) by (apply (Hw k); left; reflexivity). rewrite dcontains_In by apply Hm.
    change (masked ((k, m) :: l) dim) with (fun jx => (mem dim (labels (k_dims m)) && dv (k_arr m) jx) || masked l dim jx).
    destruct (mem dim (labels (k_dims m))) eqn:E; cbn [andb orb].
    + destruct (Hu k m (or_introl eq_refl)) as [Um Wm]; [apply mem_In; exact E|]. destruct Hs as (S1 & S2 & S3 & S4 & S5).
      destruct (mask_or_ok u m S1 Hm S2 Um (within_noconf d _ _ Hd S3 Wm)) as (v & -> & V1 & V2 & _ & V3 & V4). cbn [bind].
      destruct (IH v (fun jx => g jx || dv (k_arr m) jx)) as (u' & E' & Hu').
      * intros k' m' Hi. apply (Hw k'). right; exact Hi.
      * intros k' m' Hi. apply (Hu k'). right; exact Hi.
      * split; [exact V1|]. split; [exact V2|]. split; [intros k' n Hk; apply V3 in Hk as [Hk|Hk]; auto|]. split.
        -- apply (pairs_labels _ _ (proj1 V1)). apply (pairs_labels _ _ (proj1 S1)) in S4 as [n S4]. exists n. apply V3. auto.
        -- intros jx. rewrite V4, S5. reflexivity.
      * exists u'. split; [exact E'|]. destruct Hu' as (U1 & U2 & U3 & U4 & U5). repeat (split; [assumption|]). intros jx. rewrite U5. apply eq_sym, Bool.orb_assoc.
    + apply IH; try assumption; intros k' m' Hi; [apply (Hw k')|apply (Hu k')]; right; exact Hi.
Qed.
Lemma irreducible_ok d dim l : wf d -> (forall k m, In (k, m) l -> well_formed (k_arr m)) ->
  (forall k m, In (k, m) l -> In dim (labels (k_dims m)) -> usable m /\ forall k' n, has (k_dims m) k' n -> has d k' n) ->
  (irreducible_mask l dim = Ok None /\ forall jx, masked l dim jx = false) \/
  exists u, irreducible_mask l dim = Ok (Some u) /\ union_spec d dim (masked l dim) u.
Proof.
  intros Hd. unfold irreducible_mask. induction l as [|[k m] l IH]; intros Hw Hu; cbn [irreducible_loop].
  - left. split; reflexivity.
  - assert (Hm : well_formed (k_arr m)) by (apply (Hw k); left; reflexivity). rewrite dcontains_In by apply Hm.
    change (masked ((k, m) :: l) dim) with (fun jx => (mem dim (labels (k_dims m)) && dv (k_arr m) jx) || masked l dim jx).
    assert (Hw' : forall k' m', In (k', m') l -> well_formed (k_arr m')) by (intros k' m' Hi; apply (Hw k'); right; exact Hi).
    assert (Hu' : forall k' m', In (k', m') l -> In dim (labels (k_dims m')) -> usable m' /\ forall k' n, has (k_dims m') k' n -> has d k' n)
      by (intros k' m' Hi; apply (Hu k'); right; exact Hi).
    destruct (mem dim (labels (k_dims m))) eqn:E; cbn [andb orb].
    + right. apply mem_In in E. destruct (Hu k m (or_introl eq_refl) E) as [Um Wm]. cbn [bind].
      apply (irreducible_loop_ok d dim Hd l (mask_copy m) (dv (k_arr m)) Hw' Hu'). destruct m as [a bo no ro]. unfold union_spec, usable, k_dims in *. cbn [mask_copy k_arr k_bool k_none] in *.
      split; [exact Hm|]. split; [exact Um|]. split; [exact Wm|]. split; [exact E|reflexivity].
    + apply IH; assumption.
Qed.

(** ** Masked reductions *)
Section Reduce.
Context {A : Type}.
Variables (reserved : list Z) (f : A -> A -> A) (acc : darr A -> darr A -> res (darr A)) (Hacc : accumulates reserved f acc).

Lemma const_well_formed {B} d (c : B) : wf d -> well_formed (Accumulate_Model.mkd d (fun _ => c)).
Proof. intros Hd. split; [exact Hd|reflexivity]. Qed.

Lemma reduce_dim_ok init var dim n : well_formed var -> has (dd var) dim n -> (forall l, In l reserved -> ~ In l (labels (dd var))) ->
  exists r, reduce_dim acc init var dim = Ok r /\ well_formed r /\ pairs (dd r) = without_dim (dd var) dim /\
    forall ix, inside (dd r) ix -> dv r ix = fold_left f (map (dv var) (along ix dim n)) init.
Proof.
  intros Hv Hn Hres. unfold reduce_dim. destruct (Z.eqb_spec dim InvalidDim) as [E|_]; [exfalso; exact (has_valid _ _ _ (proj1 Hv) Hn E)|].
  destruct (merase_dim (dd var) dim n (proj1 Hv) Hn) as (d & -> & Hd & Ep). cbn [bind].
  destruct (Hacc (Accumulate_Model.mkd d (fun _ => init)) var dim n (const_well_formed d init Hd) Hv Hn Ep Hres) as (r & Er & Hdr & Hr & Hval). cbn [dd dv] in *.
  exists r. split; [exact Er|]. split; [exact Hr|]. split; [rewrite Hdr; exact Ep|]. intros ix Hix. apply Hval. rewrite <- Hdr. exact Hix.
Qed.

Lemma where_ok (c : mask) (x : A) var : well_formed (k_arr c) -> usable c -> well_formed var -> (forall k n, has (k_dims c) k n -> has (dd var) k n) ->
  exists w, where_ c x var = Ok w /\ well_formed w /\ (forall k n, has (dd w) k n <-> has (dd var) k n) /\
    (labels (k_dims c) = only (k_dims c) (labels (dd var)) -> dd w = dd var) /\
    forall ix, dv w ix = if dv (k_arr c) ix then x else dv var ix.
Proof.
  intros Hc [U1 U2] Hv Hi. unfold where_. rewrite U1, U2. cbn [negb].
  rewrite (merge_includes (k_dims c) mempty (proj1 Hc) wf_empty) by (intros k n []). cbn [bind].
  destruct (merge_ok (k_dims c) (dd var) (proj1 Hc) (proj1 Hv) (sub_noconf _ _ (proj1 Hv) Hi)) as (d & Ed & Hd & Hh & _). rewrite Ed. cbn [bind].
  assert (Hh' : forall k n, has d k n <-> has (dd var) k n) by (intros k n; rewrite Hh; split; [intros [Hx|Hx]; auto|auto]).
  eexists. split; [reflexivity|]. cbn [dd dv]. split; [|split; [exact Hh'|split; [|reflexivity]]].
  - split; [exact Hd|]. intros jx jx' Hj. cbn [dd dv] in *.
    assert (Hjv : forall l, In l (labels (dd var)) -> jx l = jx' l).
    { intros l Hl. apply Hj. apply (pairs_labels _ _ (proj1 Hv)) in Hl as [n Hl]. apply (pairs_labels _ _ Hd). exists n. apply Hh'. exact Hl. }
    rewrite (proj2 Hc jx jx'), (proj2 Hv jx jx'); [reflexivity|exact Hjv|]. intros l Hl. apply Hjv.
    apply (pairs_labels _ _ (proj1 Hc)) in Hl as [n Hl]. apply (pairs_labels _ _ (proj1 Hv)). exists n. apply Hi. exact Hl.
  - intros Hl. rewrite (merge_into (k_dims c) (dd var) (proj1 Hc) (proj1 Hv) Hi Hl) in Ed. congruence.
Qed.

(** Replacing masked elements by a fill value that changes nothing. *)
Lemma fold_filled fill (P good : A -> Prop) (p : (Z -> Z) -> bool) (g : (Z -> Z) -> A) js :
  (forall a x, P x -> good a -> good (f a x)) -> (forall a, good a -> f a fill = a) -> (forall jx, In jx js -> p jx = false -> P (g jx)) -> forall a, good a ->
  fold_left f (map (fun jx => if p jx then fill else g jx) js) a = fold_left f (map g (filter (fun jx => negb (p jx)) js)) a.
Proof.
  intros Hg Hf. induction js as [|jx js IH]; intros Hp a Ha; [reflexivity|]. specialize (IH (fun j Hj => Hp j (or_intror Hj))).
  cbn [map filter fold_left]. destruct (p jx) eqn:Ep; cbn [negb].
  - rewrite (Hf a Ha). apply IH. exact Ha.
  - cbn [map fold_left]. apply IH. apply Hg; [apply (Hp jx (or_introl eq_refl) Ep)|exact Ha].
Qed.

Theorem reduce_masked_ok init fill var dim n l P : ignores_for P f init fill ->
  (forall jx, inside (dd var) jx -> masked l dim jx = false -> P (dv var jx)) -> well_formed var -> has (dd var) dim n ->
  (forall l, In l reserved -> ~ In l (labels (dd var))) ->
  (forall k m, In (k, m) l -> well_formed (k_arr m)) -> applicable l dim var ->
  exists r, reduce_masked acc init fill var dim l = Ok r /\ well_formed r /\ pairs (dd r) = without_dim (dd var) dim /\
    forall ix, inside (dd r) ix -> dv r ix = fold_left f (map (dv var) (unmasked l dim (along ix dim n))) init.
Proof.
  intros (good & G1 & G2 & G3) HP Hv Hn Hres Hw Happ. unfold reduce_masked. pose proof (proj1 Hv) as Hwv.
  destruct (irreducible_ok (dd var) dim l Hwv Hw Happ) as [[-> Hnone]|(u & -> & U1 & U2 & U3 & U4 & U5)]; cbn [bind].
  - destruct (reduce_dim_ok init var dim n Hv Hn Hres) as (r & Er & Hr & Hp & Hval). exists r. split; [exact Er|]. split; [exact Hr|]. split; [exact Hp|].
    intros ix Hix. rewrite Hval by exact Hix. unfold unmasked. rewrite filter_all; [reflexivity|]. intros jx _. rewrite Hnone. reflexivity.
  - destruct (intersection_ok (dd var) (k_dims u) Hwv (proj1 U1)) as (i & -> & Hi & Hhi & Hli).
    { intros Hc. apply (sub_noconf (k_dims u) (dd var) Hwv U3). apply conflict_sym. exact Hc. }
    cbn [bind]. unfold mask_transpose.
    assert (Hperm : Permutation (labels i) (labels (k_dims u))).
    { apply NoDup_Permutation; [apply Hi|apply (proj1 U1)|]. intros x. rewrite Hli. unfold only. rewrite filter_In, memb_labels. split; [tauto|]. intros Hx. split; [|exact Hx].
      apply (has_incl (k_dims u) (dd var)); try assumption. apply U1. }
    assert (Hne : labels i <> []).
    { intros E. rewrite E in Hperm. apply Permutation_nil in Hperm. rewrite Hperm in U4. destruct U4. }
    destruct (proj1 (dims_transpose_ok (k_dims u) (labels i) (proj1 U1)) Hne Hperm) as (t & -> & Ht & Hlt & Hst). cbn [bind].
    set (c := mkmask (Accumulate_Model.mkd t (dv (k_arr u))) (k_bool u) (k_none u) (k_ro u)).
    assert (Hlab : forall x, In x (labels t) <-> In x (labels (k_dims u))).
    { intros x. rewrite Hlt. split; apply Permutation_in; [|apply Permutation_sym]; exact Hperm. }
    assert (Hc : well_formed (k_arr c)).
    { split; [exact Ht|]. intros jx jx' Hj. apply (proj2 U1). intros x Hx. apply Hj. cbn [c k_arr dd]. apply Hlab. exact Hx. }
    destruct (where_ok c fill var Hc U2 Hv) as (w & -> & Hww & _ & Hdw & Hvw).
    { intros k x Hk. apply U3. apply Hst. exact Hk. }
    cbn [bind]. assert (Edw : dd w = dd var).
    { apply Hdw. change (k_dims c) with t. rewrite Hlt at 1. rewrite Hli. unfold only. apply filter_ext. intros x. apply Bool.eq_true_iff_eq.
      rewrite !memb_labels. symmetry. apply Hlab. }
    destruct (reduce_dim_ok init w dim n Hww) as (r & Er & Hr & Hp & Hval); try (rewrite Edw; assumption).
    exists r. split; [exact Er|]. split; [exact Hr|]. split; [rewrite Hp, Edw; reflexivity|].
    intros ix Hix. rewrite Hval by exact Hix. unfold unmasked. rewrite <- (fold_filled fill P good); try assumption.
    2:{ intros jx Hj. apply HP. unfold along in Hj. apply in_map_iff in Hj as (i0 & <- & Hi0). apply zseq_In in Hi0.
        apply (inside_put (dd var) (dd r) dim n); try assumption; [|lia]. rewrite Hp, Edw. reflexivity. }
    f_equal. apply map_ext. intros jx. rewrite Hvw. cbn [c k_arr dv]. rewrite U5. reflexivity.
Qed.
End Reduce.

(** ** Means *)
Lemma count_fold (p : (Z -> Z) -> bool) js : forall a,
  fold_left Z.add (map (fun jx => if p jx then 0 else 1) js) a = a + zlen (filter (fun jx => negb (p jx)) js).
Proof.
  induction js as [|jx js IH]; intros a; [unfold zlen; cbn; lia|]. cbn [map fold_left filter]. rewrite IH. destruct (p jx); cbn [negb]; [lia|].
  unfold zlen. cbn [length]. lia.
Qed.

Theorem mean_masked_ok {A B} reserved (f : A -> A -> A) acc reserved' accZ zero (norm : A -> Z -> B) var dim n l :
  accumulates reserved f acc -> accumulates reserved' Z.add accZ ->
  ignores f zero zero -> well_formed var -> has (dd var) dim n ->
  (forall l, In l (reserved ++ reserved') -> ~ In l (labels (dd var))) ->
  (forall k m, In (k, m) l -> well_formed (k_arr m)) -> applicable l dim var ->
  exists r, mean_masked acc accZ zero norm var dim l = Ok r /\ wf (dd r) /\
    (forall k x, has (dd r) k x <-> has (dd var) k x /\ k <> dim) /\
    forall ix, inside (dd r) ix ->
      dv r ix = norm (fold_left f (map (dv var) (unmasked l dim (along ix dim n))) zero) (zlen (unmasked l dim (along ix dim n))).
Proof.
  intros Hacc HaccZ (good & G1 & G2 & G3) Hv Hn Hres Hw Happ. unfold mean_masked. pose proof (proj1 Hv) as Hwv.
  assert (Hres1 : forall l, In l reserved -> ~ In l (labels (dd var))) by (intros x Hx; apply Hres, in_app_iff; auto).
  destruct (irreducible_ok (dd var) dim l Hwv Hw Happ) as [[-> Hnone]|(u & -> & U1 & U2 & U3 & U4 & U5)]; cbn [bind].
  - rewrite (dat_has _ _ _ Hwv Hn). cbn [bind].
    destruct (reduce_dim_ok reserved f acc Hacc zero var dim n Hv Hn Hres1) as (s & -> & Hs & Hp & Hval). cbn [bind]. unfold normalize_impl. cbn [dd].
    rewrite (merge_includes (dd s) mempty (proj1 Hs) wf_empty) by (intros k x []). cbn [bind]. eexists. split; [reflexivity|]. cbn [dd dv].
    split; [apply Hs|]. split.
    { intros k x. unfold has at 1. rewrite Hp. apply without_dim_has. }
    intros ix Hix. rewrite Hval by exact Hix. unfold unmasked. rewrite filter_all by (intros jx _; rewrite Hnone; reflexivity). f_equal.
    unfold along, zlen, zseq. rewrite !map_length, seq_length. apply wf_lwf in Hwv as [(_ & Hf & _) _]. rewrite Forall_forall in Hf.
    assert (0 <= n) by (apply Hf; unfold extents; apply in_map_iff; exists (dim, n); auto). lia.
  - assert (Hun : has (k_dims u) dim n).
    { apply (pairs_labels _ _ (proj1 U1)) in U4 as [n' Hn']. rewrite (has_unique' _ _ _ _ Hwv Hn (U3 _ _ Hn')). exact Hn'. }
    assert (Hcnt : well_formed (unmasked_count u)).
    { split; [apply U1|]. intros jx jx' Hj. cbn [unmasked_count dv]. rewrite (proj2 U1 jx jx' Hj). reflexivity. }
    destruct (reduce_dim_ok reserved' Z.add accZ HaccZ 0 (unmasked_count u) dim n Hcnt Hun) as (cnt & -> & Hc & Hpc & Hvc).
    { intros x Hx Hl. apply (Hres x); [apply in_app_iff; auto|]. apply (has_incl (k_dims u) (dd var)); try assumption. apply U1. }
    cbn [bind]. destruct (where_ok u zero var U1 U2 Hv U3) as (w & -> & Hww & Hhw & _ & Hvw). cbn [bind].
    assert (Hres2 : forall l, In l reserved -> ~ In l (labels (dd w))).
    { intros x Hx Hl. apply (Hres1 x Hx). apply (has_incl (dd w) (dd var)); [apply Hww|assumption| |exact Hl]. intros k m. apply Hhw. }
    destruct (reduce_dim_ok reserved f acc Hacc zero w dim n Hww (proj2 (Hhw _ _) Hn) Hres2) as (s & -> & Hs & Hp & Hval). cbn [bind]. unfold normalize_impl.
    assert (Hcs : forall k x, has (dd cnt) k x -> has (dd s) k x).
    { intros k x Hk. unfold has in *. rewrite Hpc in Hk. rewrite Hp. apply without_dim_has in Hk as [Hk Hne]. apply without_dim_has. split; [|exact Hne]. apply Hhw, U3. exact Hk. }
    rewrite (merge_includes (dd s) (dd cnt) (proj1 Hs) (proj1 Hc) Hcs). cbn [bind]. eexists. split; [reflexivity|]. cbn [dd dv].
    split; [apply Hs|]. split.
    { intros k x. unfold has at 1. rewrite Hp, without_dim_has, Hhw. tauto. }
    intros ix Hix. rewrite Hval by exact Hix. rewrite Hvc by (intros k x Hk; apply Hix; apply Hcs; exact Hk). unfold unmasked. f_equal.
    + rewrite <- (fold_filled f zero (fun _ => True) good); try assumption; [|trivial]. f_equal. apply map_ext. intros jx. rewrite Hvw, U5. reflexivity.
    + cbn [unmasked_count dv]. rewrite (map_ext _ (fun jx => if masked l dim jx then 0 else 1)) by (intros jx; rewrite U5; reflexivity).
      rewrite count_fold. lia.
Qed.

(** ** Masks that are kept *)
Notation md := SizedDict_Proofs.mkd.
Definition kept (dim : Dim) (l : list (Z * mask)) : list (Z * mask) :=
  map (fun e => (fst e, mask_copy (snd e))) (filter (fun e => negb (mem dim (labels (k_dims (snd e))))) l).
Lemma kept_keys dim l k : In k (map fst (kept dim l)) -> In k (map fst l).
Proof.
  unfold kept. rewrite map_map. cbn [fst]. intros Hk. apply in_map_iff in Hk as (e & <- & He). apply filter_In in He. apply in_map. apply He.
Qed.
Lemma kept_nodup dim l : NoDup (map fst l) -> NoDup (map fst (kept dim l)).
Proof.
  induction l as [|e l IH]; intros Hn; [constructor|]. cbn [map] in Hn. apply NoDup_cons_iff in Hn as [Hni Hn]. specialize (IH Hn).
  unfold kept. cbn [filter]. destruct (negb _); [|exact IH]. cbn [map fst]. constructor; [|exact IH].
  intros Hi. apply Hni. apply (kept_keys dim). exact Hi.
Qed.
Lemma kept_In dim l k m : In (k, m) (kept dim l) <-> exists m', m = mask_copy m' /\ In (k, m') l /\ ~ In dim (labels (k_dims m')).
Proof.
  unfold kept. rewrite in_map_iff. split.
  - intros ([k' m'] & E & Hi). cbn [fst snd] in *. injection E as <- <-. apply filter_In in Hi as [Hi Hn]. cbn [snd] in Hn. exists m'.
    split; [reflexivity|]. split; [exact Hi|]. apply mem_nIn. apply Bool.negb_true_iff. exact Hn.
  - intros (m' & -> & Hi & Hn). exists (k, m'). split; [reflexivity|]. apply filter_In. split; [exact Hi|]. cbn [snd]. apply Bool.negb_true_iff, mem_nIn. exact Hn.
Qed.
Lemma copy_independent_ok dim l : (forall k m, In (k, m) l -> well_formed (k_arr m)) -> forall lo, NoDup (map fst lo ++ map fst l) ->
  copy_independent dim (md lo) l = Ok (md (lo ++ kept dim l)).
Proof.
  induction l as [|[k m] l IH]; intros Hw lo Hn; cbn [copy_independent].
  - rewrite app_nil_r. reflexivity.
  - assert (Hm : well_formed (k_arr m)) by (apply (Hw k); left; reflexivity). rewrite dcontains_In by apply Hm.
    assert (Hw' : forall k' m', In (k', m') l -> well_formed (k_arr m')) by (intros k' m' Hi; apply (Hw k'); right; exact Hi).
    unfold kept. cbn [filter snd map fst] in *. destruct (mem dim (labels (k_dims m))) eqn:E; cbn [negb bind].
    + apply IH; [exact Hw'|]. apply NoDup_remove_1 in Hn. exact Hn.
    + rewrite insert_new by (intros Hi; apply NoDup_remove_2 in Hn; apply Hn, in_app_iff; auto). cbn [bind map fst snd].
      rewrite (IH Hw'); [rewrite <- app_assoc; reflexivity|]. rewrite map_app. cbn [map fst]. rewrite <- app_assoc. exact Hn.
Qed.

(** ** Reductions over all dimensions *)
Lemma masked_any l dim jx : (forall k m, In (k, m) l -> well_formed (k_arr m)) -> forall ix, (forall x, x <> dim -> jx x = ix x) ->
  any_masked l jx = masked l dim jx || any_masked (kept dim l) ix.
Proof.
  intros Hw ix Hj. induction l as [|[k m] l IH]; [reflexivity|]. specialize (IH (fun k' m' Hi => Hw k' m' (or_intror Hi))).
  change (any_masked ((k, m) :: l) jx) with (negb (zlen (labels (k_dims m)) =? 0) && dv (k_arr m) jx || any_masked l jx).
  change (masked ((k, m) :: l) dim jx) with (mem dim (labels (k_dims m)) && dv (k_arr m) jx || masked l dim jx). rewrite IH. clear IH.
  unfold kept. cbn [filter snd]. destruct (mem dim (labels (k_dims m))) eqn:E; cbn [negb].
  - fold (kept dim l). apply mem_In in E. destruct (labels (k_dims m)) as [|x ls]; [destruct E|].
    replace (zlen (x :: ls) =? 0) with false by (symmetry; apply Z.eqb_neq; unfold zlen; cbn [length]; lia). cbn [negb andb].
    rewrite Bool.orb_assoc. reflexivity.
  - cbn [map fst snd]. fold (kept dim l). cbn [andb orb]. apply mem_nIn in E.
    change (any_masked ((k, mask_copy m) :: kept dim l) ix) with (negb (zlen (labels (k_dims m)) =? 0) && dv (k_arr m) ix || any_masked (kept dim l) ix).
    rewrite (proj2 (Hw k m (or_introl eq_refl)) jx ix).
    + destruct (negb (zlen (labels (k_dims m)) =? 0) && dv (k_arr m) ix), (masked l dim jx), (any_masked (kept dim l) ix); reflexivity.
    + intros x Hx. apply Hj. intros ->. contradiction.
Qed.

Lemma NoDup_flat_map' {X Y} (g : X -> list Y) l : NoDup l -> (forall x, In x l -> NoDup (g x)) ->
  (forall x x' y, In x l -> In x' l -> In y (g x) -> In y (g x') -> x = x') -> NoDup (flat_map g l).
Proof.
  induction 1 as [|x l Hni Hn IH]; intros Hg Hd; [constructor|]. cbn [flat_map].
  assert (Hr : NoDup (flat_map g l)) by (apply IH; [intros; apply Hg; right; assumption|intros a b y Ha Hb; apply Hd; right; assumption]).
  assert (Hx : forall y, In y (g x) -> ~ In y (flat_map g l)).
  { intros y Hy Hi. apply in_flat_map in Hi as (x' & Hx' & Hy'). apply Hni. rewrite (Hd x x' y); cbn; auto. }
  pose proof (Hg x (or_introl eq_refl)) as Hgx. clear IH Hg Hd. revert Hx Hgx. generalize (g x) as L. induction L as [|y L IHL]; intros Hx Hgx; [exact Hr|].
  apply NoDup_cons_iff in Hgx as [Hy HL]. cbn [app]. constructor.
  - intros Hi. apply in_app_iff in Hi as [Hi|Hi]; [contradiction|]. apply (Hx y); cbn; auto.
  - apply IHL; [|exact HL]. intros z Hz. apply Hx. right; exact Hz.
Qed.

Lemma indices_enum m : wf m -> enum (inside m) (labels m) (indices m).
Proof.
  intros Hm. unfold enum, coords, indices. rewrite map_map. split; [|split].
  - apply NoDup_map_inj; [apply zseq_NoDup|]. intros x y Hx Hy E. apply zseq_In in Hx, Hy. apply (index_of_inj m x y Hm); try lia.
    intros k Hk. rewrite <- labels_keys in Hk by assumption. apply (map_eq_in _ _ _ E). exact Hk.
  - intros jx Hj. apply in_map_iff in Hj as (k & <- & Hk). apply zseq_In in Hk. apply inside_index_of; [assumption|lia].
  - intros jx Hj. destruct (index_of_inside m jx Hm Hj) as (k & Hk & Hs). apply in_map_iff. exists k. split.
    + apply map_ext_in. intros l Hl. apply Hs. rewrite <- labels_keys by assumption. exact Hl.
    + apply zseq_In. lia.
Qed.
Lemma enum_filter (P : (Z -> Z) -> Prop) ls js p : (forall jx jx', (forall l, In l ls -> jx l = jx' l) -> p jx = p jx') ->
  enum P ls js -> enum (fun jx => P jx /\ p jx = true) ls (filter p js).
Proof.
  intros Hp (E1 & E2 & E3). split; [|split].
  - clear E2 E3. unfold coords in *. induction js as [|jx js IH]; [constructor|]. cbn [map filter] in *. apply NoDup_cons_iff in E1 as [Hni E1]. destruct (p jx); [|auto].
    cbn [map]. constructor; [|auto]. intros Hi. apply Hni. apply in_map_iff in Hi as (jy & E & Hy). apply filter_In in Hy. apply in_map_iff. exists jy. split; [exact E|apply Hy].
  - intros jx Hj. apply filter_In in Hj as [Hj Hpj]. auto.
  - intros jx [HP Hpj]. specialize (E3 jx HP). unfold coords in *. apply in_map_iff in E3 as (jy & E & Hy). apply in_map_iff. exists jy. split; [exact E|].
    apply filter_In. split; [exact Hy|]. rewrite <- Hpj. apply Hp. apply (map_eq_in _ _ _ E).
Qed.

Section All.
Context {A : Type}.
Variables (reserved : list Z) (f : A -> A -> A) (acc : darr A -> darr A -> res (darr A)) (Hacc : accumulates reserved f acc).
Hypothesis fcomm : forall x y, f x y = f y x.
Hypothesis fassoc : forall x y z, f x (f y z) = f (f x y) z.
Variable init : A.
Hypothesis Hig : ignores f init init.

Definition total (var : darr A) (l : list (Z * mask)) : A :=
  fold_left f (map (dv var) (filter (fun jx => negb (any_masked l jx)) (indices (dd var)))) init.
Definition state_ok (var : darr A) (l : list (Z * mask)) : Prop :=
  well_formed var /\ (forall x, In x reserved -> ~ In x (labels (dd var))) /\ masks_fine l /\ all_applicable l var.

Lemma any_masked_ext l (ls : list Z) : (forall k m, In (k, m) l -> well_formed (k_arr m) /\ incl (labels (k_dims m)) ls) ->
  forall jx jx', (forall x, In x ls -> jx x = jx' x) -> any_masked l jx = any_masked l jx'.
Proof.
  intros Hw jx jx' Hj. unfold any_masked. induction l as [|[k m] l IH]; [reflexivity|]. cbn [existsb snd].
  rewrite IH by (intros k' m' Hi; apply (Hw k'); right; exact Hi). f_equal. f_equal. destruct (Hw k m (or_introl eq_refl)) as [Hm Hi].
  apply (proj2 Hm). intros x Hx. apply Hj, Hi, Hx.
Qed.
Lemma applicable_incl (var : darr A) l : wf (dd var) -> masks_fine l -> all_applicable l var ->
  forall k m, In (k, m) l -> well_formed (k_arr m) /\ incl (labels (k_dims m)) (labels (dd var)).
Proof.
  intros Hv [_ Hw] Happ k m Hi. split; [apply (Hw k m Hi)|]. intros x Hx. destruct (labels (k_dims m)) eqn:E; [destruct Hx|].
  destruct (Happ k m Hi) as [_ Hh]; [rewrite E; discriminate|]. rewrite <- E in Hx. revert x Hx.
  apply has_incl; try assumption. apply (Hw k m Hi).
Qed.

Lemma step_ok' var l dim n : state_ok var l -> has (dd var) dim n ->
  exists r, reduce_array acc init init (var, md l) dim = Ok (r, md (kept dim l)) /\ pairs (dd r) = without_dim (dd var) dim /\
    state_ok r (kept dim l) /\ total r (kept dim l) = total var l /\ (forall ix, inside (dd r) ix -> f init (dv r ix) = dv r ix).
Proof.
  intros (Hv & Hres & [Hnd Hw] & Happ) Hn. unfold reduce_array. cbn [fst snd]. rewrite ditems_mkd.
  change (@mempty Z mask) with (md (@nil (Z * mask))).
  rewrite (copy_independent_ok dim l Hw []) by exact Hnd. cbn [bind app].
  assert (Happd : applicable l dim var).
  { intros k m Hi Hd. apply (Happ k m Hi). intros E. rewrite E in Hd. destruct Hd. }
  destruct (reduce_masked_ok reserved f acc Hacc init init var dim n l (fun _ => True) Hig (fun _ _ _ => I) Hv Hn Hres Hw Happd) as (r & -> & Hr & Hp & Hval). cbn [bind].
  exists r. split; [reflexivity|]. split; [exact Hp|].
  assert (Hlab : forall k, In k (labels (dd r)) <-> In k (labels (dd var)) /\ k <> dim) by (apply (without_dim_labels (dd r) (dd var) dim (proj1 Hr) (proj1 Hv) Hp)).
  assert (Hfine : masks_fine (kept dim l)).
  { split; [apply kept_nodup; exact Hnd|]. intros k m Hi. apply kept_In in Hi as (m' & -> & Hi & _). apply (Hw k m' Hi). }
  assert (Happ' : all_applicable (kept dim l) r).
  { intros k m Hi Hne. apply kept_In in Hi as (m' & -> & Hi & Hnd'). change (k_dims (mask_copy m')) with (k_dims m') in *. destruct (Happ k m' Hi Hne) as [Hus Hh].
    split; [exact Hus|]. intros d x Hd. unfold has. rewrite Hp. apply without_dim_has. split; [apply Hh; exact Hd|]. intros ->. apply Hnd'.
    apply (pairs_labels _ _ (proj1 (Hw k m' Hi))). eauto. }
  split; [|split].
  - split; [exact Hr|]. split; [intros x Hx Hl; apply Hlab in Hl; apply (Hres x Hx); apply Hl|]. split; assumption.
  - destruct Hig as (good & G1 & G2 & G3). unfold total.
    set (P' := fun jx => negb (any_masked (kept dim l) jx)). set (P := fun jx => negb (any_masked l jx)).
    set (L := fun ix : Z -> Z => map (dv var) (unmasked l dim (along ix dim n))).
    rewrite (map_ext_in (dv r) (fun ix => fold_left f (L ix) init)).
    2:{ intros ix Hix. apply filter_In in Hix as [Hix _]. apply Hval. apply (indices_enum (dd r) (proj1 Hr)). exact Hix. }
    rewrite <- (map_map L (fun X => fold_left f X init)). rewrite (fold_chunks f fcomm fassoc init) by (apply G3; exact G1).
    rewrite <- flat_map_concat_map. unfold L.
    assert (Hfm : forall js : list (Z -> Z), flat_map (fun ix => map (dv var) (unmasked l dim (along ix dim n))) js
      = map (dv var) (flat_map (fun ix => unmasked l dim (along ix dim n)) js)).
    { induction js as [|j js IH]; [reflexivity|]. cbn [flat_map]. rewrite map_app, IH. reflexivity. }
    rewrite Hfm. apply (fold_perm f fcomm fassoc).
    pose proof (applicable_incl var l (proj1 Hv) (conj Hnd Hw) Happ) as Hinc.
    apply (enum_perm (fun jx => inside (dd var) jx /\ P jx = true) (fun jx => inside (dd var) jx /\ P jx = true) (labels (dd var))); [apply Hv|apply Hv|tauto| |].
    2:{ apply enum_filter; [|apply indices_enum, Hv]. intros jx jx' Hj. unfold P. rewrite (any_masked_ext l (labels (dd var)) Hinc jx jx' Hj). reflexivity. }
    assert (Hbase : enum (fun ix => inside (dd r) ix /\ P' ix = true) (labels (dd r)) (filter P' (indices (dd r)))).
    { apply enum_filter; [|apply indices_enum, Hr]. intros jx jx' Hj. unfold P'.
      rewrite (any_masked_ext (kept dim l) (labels (dd r)) (applicable_incl r _ (proj1 Hr) Hfine Happ') jx jx' Hj). reflexivity. }
    destruct Hbase as (B1 & B2 & B3).
    assert (Hsplit : forall ix i, P (put ix dim i) = negb (masked l dim (put ix dim i)) && P' ix).
    { intros ix i. unfold P, P'. rewrite (masked_any l dim (put ix dim i) Hw ix) by (intros x Hx; apply put_else; exact Hx). apply Bool.negb_orb. }
    assert (Hmem : forall ix jx, In jx (unmasked l dim (along ix dim n)) <-> exists i, jx = put ix dim i /\ 0 <= i < n /\ masked l dim jx = false).
    { intros ix jx. unfold unmasked, along. rewrite filter_In, in_map_iff. split.
      - intros [(i & <- & Hi) Hm]. apply zseq_In in Hi. exists i. split; [reflexivity|]. split; [lia|]. apply Bool.negb_true_iff. exact Hm.
      - intros (i & -> & Hi & Hm). split; [exists i; split; [reflexivity|apply zseq_In; lia]|]. apply Bool.negb_true_iff. exact Hm. }
    assert (Hdl : In dim (labels (dd var))) by (apply (pairs_labels _ _ (proj1 Hv)); eauto).
    split; [|split].
    + unfold coords. rewrite flat_map_concat_map, concat_map, map_map, <- flat_map_concat_map. apply NoDup_flat_map'.
      * apply (NoDup_map_inv _ _ B1).
      * intros ix _. unfold unmasked, along. rewrite filter_map, map_map. apply NoDup_map_inj; [apply NoDup_filter, zseq_NoDup|].
        intros x y _ _ E. apply (map_eq_in _ _ _ E dim) in Hdl. rewrite !put_at in Hdl. exact Hdl.
      * intros ix iy c Hix Hiy Hx Hy. apply in_map_iff in Hx as (jx & <- & Hx). apply in_map_iff in Hy as (jy & E & Hy).
        apply Hmem in Hx as (i & -> & _ & _). apply Hmem in Hy as (j & -> & _ & _).
        assert (Ec : map ix (labels (dd r)) = map iy (labels (dd r))).
        { apply map_ext_in. intros x Hx. apply Hlab in Hx as [Hx Hne]. pose proof (map_eq_in _ _ _ E x Hx) as E'. rewrite !put_else in E' by exact Hne. symmetry. exact E'. }
        clear - B1 Hix Hiy Ec. unfold coords in B1. revert B1 Hix Hiy. generalize (filter P' (indices (dd r))) as js. induction js as [|j js IH]; intros Hn Hix Hiy; [destruct Hix|].
        cbn [map] in Hn. apply NoDup_cons_iff in Hn as [Hni Hn]. destruct Hix as [<-|Hix], Hiy as [<-|Hiy]; auto.
        -- exfalso. apply Hni. apply in_map_iff. exists iy. auto.
        -- exfalso. apply Hni. apply in_map_iff. exists ix. auto.
    + intros jx Hj. apply in_flat_map in Hj as (ix & Hix & Hj). destruct (B2 ix Hix) as [Hin Hpix]. apply Hmem in Hj as (i & -> & Hi & Hm).
      split; [apply (inside_put (dd var) (dd r) dim n); try assumption; apply Hv|]. rewrite Hsplit, Hm, Hpix. reflexivity.
    + intros jx [Hj Hpj]. unfold coords. apply in_map_iff.
      assert (Hself : forall ix, (forall x, x <> dim -> ix x = jx x) -> forall x, put ix dim (jx dim) x = jx x).
      { intros ix Hx x. destruct (Z.eq_dec x dim) as [->|Hne]; [apply put_at|]. rewrite put_else by exact Hne. apply Hx. exact Hne. }
      assert (Hjr : inside (dd r) jx).
      { intros k x Hk. unfold has in Hk. rewrite Hp in Hk. apply without_dim_has in Hk as [Hk _]. apply Hj. exact Hk. }
      assert (HP : P jx = negb (masked l dim jx) && P' jx).
      { unfold P, P'. rewrite (masked_any l dim jx Hw jx) by reflexivity. apply Bool.negb_orb. }
      rewrite Hpj in HP. symmetry in HP. apply andb_prop in HP as [Hm HP']. apply Bool.negb_true_iff in Hm.
      specialize (B3 jx (conj Hjr HP')). unfold coords in B3. apply in_map_iff in B3 as (iy & E & Hiy).
      exists (put iy dim (jx dim)).
      assert (Hagree : forall x, In x (labels (dd var)) -> put iy dim (jx dim) x = jx x).
      { intros x Hx. destruct (Z.eq_dec x dim) as [->|Hne]; [apply put_at|]. rewrite put_else by exact Hne. apply (map_eq_in _ _ _ E). apply Hlab. auto. }
      split; [apply map_ext_in; exact Hagree|]. apply in_flat_map. exists iy. split; [exact Hiy|]. apply Hmem. exists (jx dim). split; [reflexivity|].
      split; [apply Hj; exact Hn|]. rewrite <- Hm. unfold masked. clear - Hagree Hinc.
      induction l as [|[k m] l IH]; [reflexivity|]. cbn [existsb snd]. rewrite IH by (intros k' m' Hi; apply (Hinc k'); right; exact Hi). do 2 f_equal.
      destruct (Hinc k m (or_introl eq_refl)) as [Hm Hi]. apply (proj2 Hm). intros x Hx. apply Hagree, Hi, Hx.
  - intros ix Hix. rewrite Hval by exact Hix. destruct Hig as (good & G1 & G2 & G3). rewrite <- (fold_shift f fassoc). rewrite (G3 init G1). reflexivity.
Qed.

Lemma last_In (l : list Z) d : l <> [] -> In (last l d) l.
Proof.
  intros Hl. destruct (exists_last Hl) as (l' & a & ->). rewrite last_last. apply in_app_iff. right; left; reflexivity.
Qed.
Definition scalars (l : list (Z * mask)) (r : list (Z * mask)) : Prop :=
  forall k m, In (k, m) r <-> exists m', m = mask_copy m' /\ In (k, m') l /\ labels (k_dims m') = [].
Lemma loop_ok : forall fuel var l, state_ok var l -> length (labels (dd var)) = fuel ->
  (forall ix, inside (dd var) ix -> f init (dv var ix) = dv var ix) -> (forall k m, In (k, m) l -> k_ro m = false) ->
  exists r l', reduce_all_loop acc init init fuel (var, md l) = Ok (r, md l') /\ dd r = mempty /\ scalars l l' /\ NoDup (map fst l') /\
    forall ix, dv r ix = total var l.
Proof.
  induction fuel as [|fuel IH]; intros var l Hst Hlen Habs Hro; cbn [reduce_all_loop fst].
  - destruct (labels (dd var)) eqn:El; [|discriminate]. destruct Hst as (Hv & _ & [Hnd Hw] & Happ). exists var, l. split; [reflexivity|].
    assert (Edd : dd var = mempty).
    { destruct Hv as [(_ & E & _) _]. unfold labels in El. destruct (dd var) as [ks vs]; cbn in *. subst ks. destruct vs; [reflexivity|discriminate]. }
    split; [exact Edd|]. split; [|split; [exact Hnd|]].
    + intros k m. split.
      * intros Hi. exists m. split; [specialize (Hro k m Hi); destruct m as [a b c d]; cbn in *; subst; reflexivity|]. split; [exact Hi|].
        destruct (labels (k_dims m)) eqn:E; [reflexivity|]. exfalso. destruct (Happ k m Hi) as [_ Hh]; [rewrite E; discriminate|].
        assert (Hz : In z (labels (k_dims m))) by (rewrite E; left; reflexivity). apply (pairs_labels _ _ (proj1 (Hw k m Hi))) in Hz as [x Hz].
        specialize (Hh _ _ Hz). rewrite Edd in Hh. destruct Hh.
      * intros (m' & -> & Hi & _). specialize (Hro k m' Hi). destruct m' as [a b c d]; cbn in *; subst. exact Hi.
    + intros ix. unfold total. rewrite Edd. change (indices mempty) with [fun _ : Z => 0]. cbn [filter].
      assert (Hno : any_masked l (fun _ => 0) = false).
      { destruct (any_masked l (fun _ => 0)) eqn:E; [|reflexivity]. exfalso. unfold any_masked in E. apply existsb_exists in E as ([k m] & Hi & E). cbn [snd] in E.
        apply andb_prop in E as [E _]. destruct (labels (k_dims m)) eqn:El'; [discriminate|]. destruct (Happ k m Hi) as [_ Hh]; [rewrite El'; discriminate|].
        assert (Hz : In z (labels (k_dims m))) by (rewrite El'; left; reflexivity). apply (pairs_labels _ _ (proj1 (Hw k m Hi))) in Hz as [x Hz].
        specialize (Hh _ _ Hz). rewrite Edd in Hh. destruct Hh. }
      rewrite Hno. cbn [negb map fold_left]. rewrite Habs by (rewrite Edd; intros k x []). apply (proj2 Hv). rewrite El. intros x [].
  - destruct (labels (dd var)) as [|x0 xs] eqn:El; [discriminate|].
    assert (Hin : In (dims_inner (dd var)) (labels (dd var))) by (apply last_In; rewrite El; discriminate).
    set (dim := dims_inner (dd var)) in *. pose proof (proj1 (proj1 Hst)) as Hwv. pose proof Hin as Hd. apply (pairs_labels _ _ Hwv) in Hd as [n Hn].
    destruct (step_ok' var l dim n Hst Hn) as (r1 & -> & Hp & Hst1 & Ht1 & Habs1). cbn [bind].
    destruct (IH r1 (kept dim l) Hst1) as (r & l' & Er & Hdr & Hsc & Hnd' & Hval).
    + pose proof (proj1 (proj1 Hst1)) as Hw1. rewrite labels_keys by exact Hw1. rewrite Hp. unfold without_dim.
      change (fun e : Z * Z => negb (fst e =? dim)) with (fun e : Z * Z => (fun k => negb (k =? dim)) (fst e)). rewrite keys_filter, <- labels_keys by assumption.
      destruct Hwv as (Hnd & _). change (m_keys (dd var)) with (labels (dd var)) in Hnd. rewrite <- El in Hlen. clear - Hin Hnd Hlen. revert Hin Hnd Hlen. generalize (labels (dd var)) as ls.
      intros ls Hin Hnd Hlen. apply in_split in Hin as (l1 & l2 & ->). apply NoDup_remove_2 in Hnd. rewrite filter_app. cbn [filter]. rewrite Z.eqb_refl. cbn [negb].
      rewrite !filter_all; [rewrite app_length in *; cbn [length] in *; lia| |]; intros y Hy; apply Bool.negb_true_iff, Z.eqb_neq; intros ->; apply Hnd, in_app_iff; auto.
    + exact Habs1.
    + intros k m Hi. apply kept_In in Hi as (m' & -> & _). reflexivity.
    + exists r, l'. split; [exact Er|]. split; [exact Hdr|]. split; [|split; [exact Hnd'|intros ix; rewrite Hval; exact Ht1]].
      intros k m. rewrite (Hsc k m). split.
      * intros (m' & -> & Hi & Hlm). apply kept_In in Hi as (m'' & -> & Hi & _). exists m''. auto.
      * intros (m' & -> & Hi & Hlm). exists (mask_copy m'). split; [reflexivity|]. split; [|exact Hlm]. apply kept_In. exists m'. split; [reflexivity|]. split; [exact Hi|].
        rewrite Hlm. intros [].
Qed.

Theorem reduce_all_ok var l : state_ok var l -> labels (dd var) <> [] ->
  exists r l', reduce_all acc init init (var, md l) = Ok (r, md l') /\ dd r = mempty /\ scalars l l' /\ NoDup (map fst l') /\
    forall ix, dv r ix = total var l.
Proof.
  intros Hst Hne. unfold reduce_all. cbn [fst]. destruct (labels (dd var)) as [|x0 xs] eqn:El; [congruence|]. cbn [length reduce_all_loop fst]. rewrite El.
  assert (Hin : In (dims_inner (dd var)) (labels (dd var))) by (apply last_In; rewrite El; discriminate).
  set (dim := dims_inner (dd var)) in *. pose proof (proj1 (proj1 Hst)) as Hwv. pose proof Hin as Hd. apply (pairs_labels _ _ Hwv) in Hd as [n Hn].
  destruct (step_ok' var l dim n Hst Hn) as (r1 & -> & Hp & Hst1 & Ht1 & Habs1). cbn [bind].
  destruct (loop_ok (length xs) r1 (kept dim l) Hst1) as (r & l' & Er & Hdr & Hsc & Hnd' & Hval).
  - pose proof (proj1 (proj1 Hst1)) as Hw1. rewrite labels_keys by exact Hw1. rewrite Hp. unfold without_dim.
    change (fun e : Z * Z => negb (fst e =? dim)) with (fun e : Z * Z => (fun k => negb (k =? dim)) (fst e)). rewrite keys_filter, <- labels_keys by assumption.
    destruct Hwv as (Hnd & _). change (m_keys (dd var)) with (labels (dd var)) in Hnd. assert (Hlen : length (labels (dd var)) = S (length xs)) by (rewrite El; reflexivity).
    clear - Hin Hnd Hlen. revert Hin Hnd Hlen. generalize (labels (dd var)) as ls.
    intros ls Hin Hnd Hlen. apply in_split in Hin as (l1 & l2 & ->). apply NoDup_remove_2 in Hnd. rewrite filter_app. cbn [filter]. rewrite Z.eqb_refl. cbn [negb].
    rewrite !filter_all; [rewrite app_length in *; cbn [length] in *; lia| |]; intros y Hy; apply Bool.negb_true_iff, Z.eqb_neq; intros ->; apply Hnd, in_app_iff; auto.
  - exact Habs1.
  - intros k m Hi. apply kept_In in Hi as (m' & -> & _). reflexivity.
  - exists r, l'. split; [exact Er|]. split; [exact Hdr|]. split; [|split; [exact Hnd'|intros ix; rewrite Hval; exact Ht1]].
    intros k m. rewrite (Hsc k m). split.
    + intros (m' & -> & Hi & Hlm). apply kept_In in Hi as (m'' & -> & Hi & _). exists m''. auto.
    + intros (m' & -> & Hi & Hlm). exists (mask_copy m'). split; [reflexivity|]. split; [|exact Hlm]. apply kept_In. exists m'. split; [reflexivity|]. split; [exact Hi|].
      rewrite Hlm. intros [].
Qed.
End All.

(** ** Combination of masks *)
Lemma set_at_app l1 l2 k ix : set_at (l1 ++ l2) k ix = set_at l1 k ix || set_at l2 k ix.
Proof. unfold set_at. apply existsb_app. Qed.
Lemma set_at_cons k' m l k ix : set_at ((k', m) :: l) k ix = (k' =? k) && dv (k_arr m) ix || set_at l k ix.
Proof. reflexivity. Qed.
Lemma dim_at_app l1 l2 k d n : dim_at (l1 ++ l2) k d n <-> dim_at l1 k d n \/ dim_at l2 k d n.
Proof.
  unfold dim_at. split.
  - intros (m & Hi & Hh). apply in_app_iff in Hi as [Hi|Hi]; [left|right]; eauto.
  - intros [(m & Hi & Hh)|(m & Hi & Hh)]; exists m; (split; [apply in_app_iff; auto|exact Hh]).
Qed.
Lemma dim_at_cons k' m l k d n : dim_at ((k', m) :: l) k d n <-> (k' = k /\ has (k_dims m) d n) \/ dim_at l k d n.
Proof.
  unfold dim_at. split.
  - intros (x & [E|Hi] & Hh); [injection E as <- <-; auto|right; eauto].
  - intros [[-> Hh]|(x & Hi & Hh)]; [exists m; split; [left; reflexivity|exact Hh]|exists x; split; [right; exact Hi|exact Hh]].
Qed.
Lemma dim_at_nil k d n : dim_at [] k d n <-> False.
Proof. split; [intros (m & [] & _)|tauto]. Qed.

Lemma mask_or_total a b : well_formed (k_arr a) -> well_formed (k_arr b) ->
  match mask_or a b with
  | Ok u => usable a /\ usable b /\ ~ conflict (k_dims a) (k_dims b) /\ well_formed (k_arr u) /\ k_ro u = false /\
      (forall k n, has (k_dims u) k n <-> has (k_dims a) k n \/ has (k_dims b) k n) /\
      forall jx, dv (k_arr u) jx = dv (k_arr a) jx || dv (k_arr b) jx
  | Throw _ => ~ (usable a /\ usable b /\ ~ conflict (k_dims a) (k_dims b))
  | Ub => False
  end.
Proof.
  intros Ha Hb. destruct (mask_or a b) as [u|e|] eqn:E.
  - assert (Hu : usable a /\ usable b /\ ~ conflict (k_dims a) (k_dims b)).
    { unfold mask_or, usable in *. destruct (k_bool a), (k_bool b); try discriminate. destruct (k_none a), (k_none b); try discriminate. cbn [andb negb] in E.
      destruct (dims_merge (k_dims a) (k_dims b)) as [d|e|] eqn:Ed; try discriminate. repeat split; try reflexivity.
      apply (merge_Ok_noconf _ _ d (proj1 Ha) (proj1 Hb) Ed). }
    destruct Hu as (U1 & U2 & U3). destruct (mask_or_ok a b Ha Hb U1 U2 U3) as (u' & E' & W & _ & R & Hd & Hv). rewrite E' in E. injection E as <-. auto 10.
  - intros (U1 & U2 & U3). destruct (mask_or_ok a b Ha Hb U1 U2 U3) as (u' & E' & _). congruence.
  - unfold mask_or in E. destruct (k_bool a && k_bool b); try discriminate. destruct (k_none a && k_none b); try discriminate. cbn [negb] in E.
    destruct (dims_merge (k_dims a) (k_dims b)) as [d|e|] eqn:Ed; try discriminate.
    assert (Hn : ~ conflict (k_dims a) (k_dims b)).
    { intros Hc. rewrite (merge_conflict (k_dims a) (k_dims b) (proj1 Ha) (proj1 Hb) Hc) in Ed. discriminate. }
    destruct (merge_ok (k_dims a) (k_dims b) (proj1 Ha) (proj1 Hb) Hn) as (d & Ed' & _). congruence.
Qed.

(** [|=] is [|] when the output has all dimensions. *)
Lemma mask_or_eq_total a b : well_formed (k_arr a) -> well_formed (k_arr b) -> k_ro a = false ->
  exists inc, includes (k_dims a) (k_dims b) = Ok inc /\ (inc = true <-> within b a) /\
  mask_or_eq a b = (if negb (k_bool a && k_bool b) then Throw TypeError else if negb (k_none a && k_none b) then Throw UnitError
                    else if inc then mask_or a b else Throw DimensionError).
Proof.
  intros Ha Hb Hro. destruct (includes_ok (k_dims a) (k_dims b) (wf_wfm _ (proj1 Ha)) (wf_wfm _ (proj1 Hb))) as (inc & Ei & Hi). exists inc. split; [exact Ei|].
  split; [exact Hi|]. unfold mask_or_eq, mask_or. rewrite Hro, Ei. cbn [bind]. destruct (k_bool a && k_bool b); [|reflexivity]. destruct (k_none a && k_none b); [|reflexivity].
  cbn [negb]. destruct inc; [|reflexivity]. rewrite (merge_includes (k_dims a) (k_dims b) (proj1 Ha) (proj1 Hb) (proj1 Hi eq_refl)). reflexivity.
Qed.

Lemma or_first_ok l : forall lo, NoDup (map fst lo ++ map fst l) ->
  or_first (md lo) l = Ok (md (lo ++ map (fun e : Z * mask => (fst e, mask_copy (snd e))) l)).
Proof.
  induction l as [|[k m] l IH]; intros lo Hn; cbn [or_first map fst snd]; [rewrite app_nil_r; reflexivity|]. cbn [map fst] in Hn.
  rewrite insert_new by (intros Hi; apply NoDup_remove_2 in Hn; apply Hn, in_app_iff; auto). cbn [bind]. rewrite IH.
  - rewrite <- app_assoc. reflexivity.
  - rewrite map_app, <- app_assoc. exact Hn.
Qed.

Lemma key_split {X} (l : list (Z * X)) k : In k (map fst l) -> exists l1 o l2, l = l1 ++ (k, o) :: l2.
Proof. intros Hi. apply in_map_iff in Hi as ([k' o] & E & Hi). cbn in E. subst k'. apply in_split in Hi as (l1 & l2 & ->). eauto. Qed.
Lemma In_swap {X} (l1 l2 : list (Z * X)) k o r k' x : k' <> k -> In (k', x) (l1 ++ (k, o) :: l2) <-> In (k', x) (l1 ++ (k, r) :: l2).
Proof.
  intros Hne. rewrite !in_app_iff. cbn [In]. split; (intros [Hi|[Hi|Hi]]; [auto| |auto]); exfalso; apply Hne; congruence.
Qed.

Lemma or_second_ok a l : (forall k m, In (k, m) l -> well_formed (k_arr m)) -> NoDup (map fst l) -> forall lo,
  masks_fine lo -> (forall k m, In (k, m) lo -> k_ro m = false) ->
  (forall k, In k (map fst l) -> (mcontains Z.eqb a k = true <-> In k (map fst lo))) ->
  match or_second a (md lo) l with
  | Ok out => exists lo', out = md lo' /\ combinable lo l /\ masks_fine lo' /\ (forall k m, In (k, m) lo' -> k_ro m = false) /\
      map fst lo' = map fst lo ++ filter (fun k => negb (mem k (map fst lo))) (map fst l) /\
      (forall k ix, set_at lo' k ix = set_at lo k ix || set_at l k ix) /\
      forall k d n, dim_at lo' k d n <-> dim_at lo k d n \/ dim_at l k d n
  | Throw _ => ~ combinable lo l
  | Ub => False
  end.
Proof.
  intros Hwl Hnl. induction l as [|[k m] l IH]; intros lo [Hnd Hw] Hro Hc; cbn [or_second].
  - exists lo. split; [reflexivity|]. split; [intros ? ? ? _ []|]. split; [split; assumption|]. split; [exact Hro|]. cbn [map filter]. rewrite app_nil_r.
    split; [reflexivity|]. split; [intros; unfold set_at at 3; cbn; rewrite Bool.orb_false_r; reflexivity|]. intros. rewrite dim_at_nil. tauto.
  - cbn [map fst] in Hnl. apply NoDup_cons_iff in Hnl as [Hk Hnl].
    assert (Hm : well_formed (k_arr m)) by (apply (Hwl k); left; reflexivity).
    specialize (IH (fun k' m' Hi => Hwl k' m' (or_intror Hi)) Hnl).
    assert (Hkl : forall m', ~ In (k, m') l) by (intros m' Hi; apply Hk, in_map_iff; exists (k, m'); auto).
    pose proof (Hc k (or_introl eq_refl)) as Hck. destruct (mcontains Z.eqb a k) eqn:Ec; cbn [negb].
    + assert (Hin : In k (map fst lo)) by (apply Hck; reflexivity). destruct (key_split lo k Hin) as (l1 & o & l2 & ->).
      rewrite at_old by exact Hnd. cbn [bind].
      assert (Ho : well_formed (k_arr o)) by (apply (Hw k), in_app_iff; right; left; reflexivity).
      assert (Hro' : k_ro o = false) by (apply (Hro k), in_app_iff; right; left; reflexivity).
      destruct (mask_or_eq_total o m Ho Hm Hro') as (inc & Ei & _ & Eeq). rewrite Ei. cbn [bind].
      assert (Hbad : ~ (usable o /\ usable m /\ ~ conflict (k_dims o) (k_dims m)) -> ~ combinable (l1 ++ (k, o) :: l2) ((k, m) :: l)).
      { intros Hn Hcm. apply Hn. apply (Hcm k); [apply in_app_iff; right; left; reflexivity|left; reflexivity]. }
      pose proof (mask_or_total o m Ho Hm) as Hmo.
      destruct (k_bool m) eqn:B1; cbn [negb orb bind]; [|apply Hbad; intros (_ & [U _] & _); congruence].
      destruct (k_bool o) eqn:B2; cbn [negb orb bind]; [|apply Hbad; intros ([U _] & _); congruence].
      destruct (k_none m) eqn:N1; cbn [negb orb bind]; [|apply Hbad; intros (_ & [_ U] & _); congruence].
      destruct (k_none o) eqn:N2; cbn [negb orb bind]; [|apply Hbad; intros ([_ U] & _); congruence].
      assert (Esame : (if inc then mask_or_eq o m else mask_or o m) = mask_or o m) by (rewrite Eeq; cbn [andb negb]; destruct inc; reflexivity).
      rewrite Esame. clear Esame Eeq. destruct (mask_or o m) as [u|e|] eqn:Eu; cbn [bind]; [|apply Hbad; exact Hmo|exact Hmo].
      destruct Hmo as (U1 & U2 & U3 & Wu & Ru & Du & Vu). rewrite insert_old by exact Hnd. cbn [bind].
      assert (Hkeys : map fst (l1 ++ (k, u) :: l2) = map fst (l1 ++ (k, o) :: l2)) by (rewrite !map_app; reflexivity).
      assert (Hcomb : combinable (l1 ++ (k, u) :: l2) l <-> combinable (l1 ++ (k, o) :: l2) ((k, m) :: l)).
      { unfold combinable. split.
        - intros Hx k' x y Hi Hj. destruct (Z.eq_dec k' k) as [->|Hne].
          + destruct Hj as [E|Hj]; [injection E as <-|exfalso; apply (Hkl _ Hj)].
            assert (x = o) as ->.
            { pose proof (at_In _ _ _ NotFoundError Hnd Hi) as E1. rewrite at_old in E1 by exact Hnd. congruence. }
            auto.
          + destruct Hj as [E|Hj]; [congruence|]. apply (Hx k' x y); [|exact Hj]. apply (In_swap l1 l2 k o u) in Hi; assumption.
        - intros Hx k' x y Hi Hj. assert (k' <> k) as Hne by (intros ->; apply (Hkl _ Hj)). apply (Hx k' x y); [|right; exact Hj].
          apply (In_swap l1 l2 k o u); assumption. }
      specialize (IH (l1 ++ (k, u) :: l2)).
      destruct (or_second a (md (l1 ++ (k, u) :: l2)) l) as [out|e|].
      * destruct IH as (lo' & -> & I1 & I2 & I3 & I4 & I5 & I6).
        { split; [rewrite Hkeys; exact Hnd|]. intros k' x Hi. apply in_app_iff in Hi as [Hi|[E|Hi]]; [apply (Hw k'), in_app_iff; auto|injection E as <- <-; exact Wu|].
          apply (Hw k'), in_app_iff; right; right; exact Hi. }
        { intros k' x Hi. apply in_app_iff in Hi as [Hi|[E|Hi]]; [apply (Hro k'), in_app_iff; auto|injection E as <- <-; exact Ru|].
          apply (Hro k'), in_app_iff; right; right; exact Hi. }
        { intros k' Hi. rewrite Hkeys. apply Hc. right; exact Hi. }
        exists lo'. split; [reflexivity|]. split; [apply Hcomb; exact I1|]. split; [exact I2|]. split; [exact I3|]. split; [|split].
        -- rewrite I4, Hkeys. cbn [map fst filter]. rewrite (proj2 (mem_In k _) Hin). reflexivity.
        -- intros k' ix. rewrite I5, !set_at_app, !set_at_cons, Vu. destruct (k =? k'), (set_at l1 k' ix), (dv (k_arr o) ix), (dv (k_arr m) ix), (set_at l2 k' ix), (set_at l k' ix); reflexivity.
        -- intros k' d n. rewrite I6, !dim_at_app, !dim_at_cons, Du. tauto.
      * intros Hcm. apply IH; [| | |apply Hcomb; exact Hcm].
        { split; [rewrite Hkeys; exact Hnd|]. intros k' x Hi. apply in_app_iff in Hi as [Hi|[E|Hi]]; [apply (Hw k'), in_app_iff; auto|injection E as <- <-; exact Wu|].
          apply (Hw k'), in_app_iff; right; right; exact Hi. }
        { intros k' x Hi. apply in_app_iff in Hi as [Hi|[E|Hi]]; [apply (Hro k'), in_app_iff; auto|injection E as <- <-; exact Ru|].
          apply (Hro k'), in_app_iff; right; right; exact Hi. }
        { intros k' Hi. rewrite Hkeys. apply Hc. right; exact Hi. }
      * apply IH.
        { split; [rewrite Hkeys; exact Hnd|]. intros k' x Hi. apply in_app_iff in Hi as [Hi|[E|Hi]]; [apply (Hw k'), in_app_iff; auto|injection E as <- <-; exact Wu|].
          apply (Hw k'), in_app_iff; right; right; exact Hi. }
        { intros k' x Hi. apply in_app_iff in Hi as [Hi|[E|Hi]]; [apply (Hro k'), in_app_iff; auto|injection E as <- <-; exact Ru|].
          apply (Hro k'), in_app_iff; right; right; exact Hi. }
        { intros k' Hi. rewrite Hkeys. apply Hc. right; exact Hi. }
    + assert (Hin : ~ In k (map fst lo)) by (intros Hi; apply Hck in Hi; discriminate). rewrite insert_new by exact Hin. cbn [bind].
      assert (Hcomb : combinable (lo ++ [(k, mask_copy m)]) l <-> combinable lo ((k, m) :: l)).
      { unfold combinable. split; intros Hx k' x y Hi Hj.
        - destruct Hj as [E|Hj]; [injection E as -> <-; exfalso; apply Hin, in_map_iff; exists (k', x); auto|]. apply (Hx k' x y); [apply in_app_iff; auto|exact Hj].
        - apply in_app_iff in Hi as [Hi|[E|[]]]; [apply (Hx k' x y); [exact Hi|right; exact Hj]|]. injection E as <- <-. exfalso. apply (Hkl _ Hj). }
      assert (J1 : masks_fine (lo ++ [(k, mask_copy m)])).
      { split; [rewrite map_app; cbn [map fst]; apply NoDup_snoc; assumption|]. intros k' x Hi. apply in_app_iff in Hi as [Hi|[E|[]]]; [apply (Hw k' x Hi)|]. injection E as <- <-. exact Hm. }
      assert (J2 : forall k' x, In (k', x) (lo ++ [(k, mask_copy m)]) -> k_ro x = false).
      { intros k' x Hi. apply in_app_iff in Hi as [Hi|[E|[]]]; [apply (Hro k' x Hi)|]. injection E as <- <-. reflexivity. }
      assert (J3 : forall k', In k' (map fst l) -> (mcontains Z.eqb a k' = true <-> In k' (map fst (lo ++ [(k, mask_copy m)])))).
      { intros k' Hi. rewrite (Hc k' (or_intror Hi)), map_app, in_app_iff. cbn [map fst In]. split; [auto|]. intros [Hj|[<-|[]]]; [exact Hj|]. exfalso. exact (Hk Hi). }
      specialize (IH _ J1 J2 J3). destruct (or_second a (md (lo ++ [(k, mask_copy m)])) l) as [out|e|]; [|intros Hcm; apply IH, Hcomb, Hcm|exact IH].
      destruct IH as (lo' & -> & I1 & I2 & I3 & I4 & I5 & I6). exists lo'. split; [reflexivity|]. split; [apply Hcomb; exact I1|]. split; [exact I2|]. split; [exact I3|]. split; [|split].
      * rewrite I4, map_app. cbn [map fst filter]. replace (mem k (map fst lo)) with false by (symmetry; apply mem_nIn; exact Hin). cbn [negb]. rewrite <- app_assoc. cbn [app].
        do 2 f_equal. apply filter_ext_in. intros k' Hi. f_equal. unfold mem. rewrite existsb_app. cbn [existsb]. rewrite Bool.orb_false_r.
        replace (k' =? k) with false by (symmetry; apply Z.eqb_neq; intros ->; exact (Hk Hi)). rewrite Bool.orb_false_r. reflexivity.
      * intros k' ix. rewrite I5, set_at_app, !set_at_cons. cbn [mask_copy k_arr]. unfold set_at at 2. cbn [existsb]. rewrite Bool.orb_false_r, <- Bool.orb_assoc. reflexivity.
      * intros k' d n. rewrite I6, dim_at_app, !dim_at_cons, dim_at_nil. cbn [mask_copy]. change (k_dims (mask_copy m)) with (k_dims m). tauto.
Qed.

Lemma copies_set l k ix : set_at (map (fun e : Z * mask => (fst e, mask_copy (snd e))) l) k ix = set_at l k ix.
Proof. induction l as [|[k' m] l IH]; [reflexivity|]. cbn [map fst snd]. rewrite !set_at_cons, IH. reflexivity. Qed.
Lemma copies_dim l k d n : dim_at (map (fun e : Z * mask => (fst e, mask_copy (snd e))) l) k d n <-> dim_at l k d n.
Proof. induction l as [|[k' m] l IH]; [reflexivity|]. cbn [map fst snd]. rewrite !dim_at_cons, IH. reflexivity. Qed.
Lemma copies_keys (l : list (Z * mask)) : map fst (map (fun e : Z * mask => (fst e, mask_copy (snd e))) l) = map fst l.
Proof. rewrite map_map. reflexivity. Qed.
Lemma copies_In l k m : In (k, m) (map (fun e : Z * mask => (fst e, mask_copy (snd e))) l) <-> exists m', m = mask_copy m' /\ In (k, m') l.
Proof.
  rewrite in_map_iff. split.
  - intros ([k' m'] & E & Hi). cbn in E. injection E as <- <-. eauto.
  - intros (m' & -> & Hi). exists (k, m'). auto.
Qed.

Theorem union_or_ok a b : masks_fine a -> masks_fine b ->
  match union_or (md a) (md b) with
  | Ok out => exists o, out = md o /\ combinable a b /\ masks_fine o /\
      map fst o = map fst a ++ filter (fun k => negb (mem k (map fst a))) (map fst b) /\
      (forall k ix, set_at o k ix = set_at a k ix || set_at b k ix) /\
      forall k d n, dim_at o k d n <-> dim_at a k d n \/ dim_at b k d n
  | Throw _ => ~ combinable a b
  | Ub => False
  end.
Proof.
  intros [Na Wa] [Nb Wb]. unfold union_or. rewrite !ditems_mkd. change (@mempty Z mask) with (md (@nil (Z * mask))). rewrite or_first_ok by exact Na. cbn [bind app].
  set (c := map (fun e : Z * mask => (fst e, mask_copy (snd e))) a).
  assert (Hc : combinable c b <-> combinable a b).
  { unfold combinable. split; intros Hx k x y Hi Hj.
    - apply (Hx k (mask_copy x) y); [apply copies_In; eauto|exact Hj].
    - apply copies_In in Hi as (x' & -> & Hi). apply (Hx k x' y Hi Hj). }
  pose proof (or_second_ok (md a) b Wb Nb c) as Ho. destruct (or_second (md a) (md c) b) as [out|e|].
  - destruct Ho as (lo & -> & I1 & I2 & _ & I4 & I5 & I6).
    + split; [unfold c; rewrite copies_keys; exact Na|]. intros k m Hi. apply copies_In in Hi as (m' & -> & Hi). apply (Wa k m' Hi).
    + intros k m Hi. apply copies_In in Hi as (m' & -> & _). reflexivity.
    + intros k _. unfold c. rewrite copies_keys. apply contains_In.
    + exists lo. split; [reflexivity|]. split; [apply Hc; exact I1|]. split; [exact I2|]. unfold c in *. rewrite copies_keys in I4. split; [exact I4|].
      split; intros; [rewrite I5, copies_set; reflexivity|rewrite I6, copies_dim; reflexivity].
  - intros Hcm. apply Ho; [| | |apply Hc; exact Hcm].
    + split; [unfold c; rewrite copies_keys; exact Na|]. intros k m Hi. apply copies_In in Hi as (m' & -> & Hi). apply (Wa k m' Hi).
    + intros k m Hi. apply copies_In in Hi as (m' & -> & _). reflexivity.
    + intros k _. unfold c. rewrite copies_keys. apply contains_In.
  - apply Ho.
    + split; [unfold c; rewrite copies_keys; exact Na|]. intros k m Hi. apply copies_In in Hi as (m' & -> & Hi). apply (Wa k m' Hi).
    + intros k m Hi. apply copies_In in Hi as (m' & -> & _). reflexivity.
    + intros k _. unfold c. rewrite copies_keys. apply contains_In.
Qed.

(** ** Combination in place *)
Definition checked (d : masks) (b : list (Z * mask)) : Prop :=
  forall k m', In (k, m') b ->
  (forall m, In (k, m) (ditems (ms_items d)) -> usable m /\ usable m' /\ (k_ro m = true -> within m' m /\ adds_nothing m m')) /\
  (~ In k (map fst (ditems (ms_items d))) -> ms_ro d = false).
Lemma updatable_checked d b : updatable d b -> checked d b.
Proof.
  intros Hu k m' Hi. destruct (Hu k m' Hi) as [U1 U2]. split.
  - intros m Hm. destruct (U1 m Hm) as (A1 & A2 & A3 & A4). split; [exact A1|]. split; [exact A2|]. intros Hr. split; [exact A3|exact (A4 Hr)].
  - intros Hn. apply (U2 Hn).
Qed.

Lemma mask_or_within o m : well_formed (k_arr o) -> well_formed (k_arr m) -> usable o -> usable m -> within m o ->
  mask_or o m = Ok (mkmask (or_arr (k_dims o) o m) true true false).
Proof.
  intros Ho Hm [A1 A2] [B1 B2] Hi. unfold mask_or. rewrite A1, A2, B1, B2. cbn [andb negb].
  rewrite (merge_includes (k_dims o) (k_dims m) (proj1 Ho) (proj1 Hm) Hi). reflexivity.
Qed.

Lemma within_labels m o : well_formed (k_arr o) -> well_formed (k_arr m) -> within m o -> incl (labels (k_dims m)) (labels (k_dims o)).
Proof. intros Ho Hm Hi. apply has_incl; [apply Hm|apply Ho|exact Hi]. Qed.

Lemma differs_spec o m u : well_formed (k_arr o) -> well_formed (k_arr m) -> mask_or o m = Ok u ->
  mask_differs o u = false <-> within m o /\ adds_nothing o m.
Proof.
  intros Ho Hm Eu. pose proof (mask_or_total o m Ho Hm) as Ht. rewrite Eu in Ht. destruct Ht as (U1 & U2 & _ & Wu & _ & Du & Vu).
  unfold mask_differs. rewrite Bool.negb_false_iff, andb_true_iff, (dims_eqb_pairs (k_dims o) (k_dims u) (proj1 Ho) (proj1 Wu)).
  assert (Hsame : within m o -> same_values Bool.eqb (k_arr o) (k_arr u) = true <-> adds_nothing o m).
  { intros Hwi. unfold same_values. rewrite forallb_forall. split.
    - intros Hx ix Hix Ht. destruct (index_of_inside (k_dims o) ix (proj1 Ho) Hix) as (i & Hi & Hs).
      assert (Hag : forall l, In l (labels (k_dims o)) -> ix l = index_of (k_dims o) i l) by (intros l Hl; symmetry; apply Hs; rewrite <- labels_keys by apply Ho; exact Hl).
      rewrite (proj2 Ho ix (index_of (k_dims o) i)) by exact Hag. rewrite (proj2 Hm ix (index_of (k_dims o) i)) in Ht
        by (intros l Hl; apply Hag, (within_labels m o Ho Hm Hwi), Hl).
      specialize (Hx (index_of (k_dims o) i)). rewrite Vu, Ht, Bool.orb_true_r in Hx.
      assert (Hb : Bool.eqb (dv (k_arr o) (index_of (k_dims o) i)) true = true).
      { apply Hx. apply in_map_iff. exists i. split; [reflexivity|]. apply zseq_In. unfold k_dims in *. lia. }
      apply Bool.eqb_prop in Hb. exact Hb.
    - intros Hx jx Hj. apply in_map_iff in Hj as (i & <- & Hi). apply zseq_In in Hi. rewrite Vu.
      fold (k_dims o) in *. destruct (dv (k_arr m) (index_of (k_dims o) i)) eqn:E; [|rewrite Bool.orb_false_r; apply Bool.eqb_reflx].
      rewrite (Hx _ (inside_index_of (k_dims o) i (proj1 Ho) ltac:(lia)) E). reflexivity. }
  split.
  - intros [Hp Hv]. assert (Hwi : within m o).
    { intros k n Hk. unfold has. rewrite Hp. apply Du. right; exact Hk. }
    split; [exact Hwi|]. apply Hsame; assumption.
  - intros [Hwi Ha]. split; [|apply Hsame; assumption]. rewrite (mask_or_within o m Ho Hm U1 U2 Hwi) in Eu. injection Eu as <-. reflexivity.
Qed.

Lemma check_ok d l : (forall k m, In (k, m) l -> well_formed (k_arr m)) -> ms_items d = md (ditems (ms_items d)) -> masks_fine (ditems (ms_items d)) ->
  match check_in_place d l with Ok _ => checked d l | Throw _ => ~ checked d l | Ub => False end.
Proof.
  intros Hwl Ed [Hnd Hw]. induction l as [|[k m] l IH]; cbn [check_in_place]; [intros ? ? []|]. specialize (IH (fun k' m' Hi => Hwl k' m' (or_intror Hi))).
  assert (Hm : well_formed (k_arr m)) by (apply (Hwl k); left; reflexivity).
  set (lo := ditems (ms_items d)) in *.
  assert (Hstep : forall P : Prop, (checked d ((k, m) :: l) <-> P /\ checked d l) ->
    forall r : res unit, match r with Ok _ => P | Throw _ => ~ P | Ub => False end ->
    match (do _ <- r; check_in_place d l) with Ok _ => checked d ((k, m) :: l) | Throw _ => ~ checked d ((k, m) :: l) | Ub => False end).
  { intros P HP r Hr. destruct r as [x|e|]; cbn [bind]; [|rewrite HP; tauto|exact Hr]. destruct (check_in_place d l) as [y|e|]; rewrite ?HP; tauto. }
  rewrite Ed. destruct (mcontains Z.eqb (md lo) k) eqn:Ec; cbn [negb].
  - apply contains_In in Ec. destruct (key_split lo k Ec) as (l1 & o & l2 & El). assert (Hi : In (k, o) lo) by (rewrite El; apply in_app_iff; right; left; reflexivity).
    rewrite (at_In lo k o NotFoundError Hnd Hi). cbn [bind]. assert (Ho : well_formed (k_arr o)) by exact (Hw k o Hi).
    apply (Hstep (usable o /\ usable m /\ (k_ro o = true -> within m o /\ adds_nothing o m))).
    { unfold checked. fold lo. split.
      - intros Hx. split; [apply (proj1 (Hx k m (or_introl eq_refl)) o Hi)|]. intros k' m' Hj. apply Hx. right; exact Hj.
      - intros [Hp Hx] k' m' [E|Hj]; [|apply (Hx k' m' Hj)]. injection E as <- <-. split; [|contradiction]. intros o' Hi'.
        assert (o' = o) as -> by (pose proof (at_In lo k o NotFoundError Hnd Hi) as E1; pose proof (at_In lo k o' NotFoundError Hnd Hi') as E2; congruence). exact Hp. }
    destruct (k_ro o) eqn:Er.
    + pose proof (mask_or_total o m Ho Hm) as Ht. destruct (mask_or o m) as [u|e|] eqn:Eu; cbn [bind].
      * pose proof (differs_spec o m u Ho Hm Eu) as Hd. destruct (mask_differs o u); cbn [bind].
        { intros (_ & _ & Hx). specialize (Hx eq_refl). apply Hd in Hx. discriminate. }
        destruct Ht as (U1 & U2 & _). destruct U1 as [A1 A2], U2 as [B1 B2]. rewrite A1, A2, B1, B2. cbn [negb orb]. split; [split; assumption|]. split; [split; assumption|]. intros _. apply Hd. reflexivity.
      * intros (U1 & U2 & Hx). apply Ht. split; [exact U1|]. split; [exact U2|]. destruct (Hx eq_refl) as [Hwi _]. apply (within_noconf (k_dims o)); [apply Ho|auto|exact Hwi].
      * exact Ht.
    + cbn [bind]. unfold usable. destruct (k_bool m), (k_bool o), (k_none m), (k_none o); cbn [negb orb]; intuition discriminate.
  - apply contains_nIn in Ec. apply (Hstep (ms_ro d = false)).
    { unfold checked. fold lo. split.
      - intros Hx. split; [apply (proj2 (Hx k m (or_introl eq_refl)) Ec)|]. intros k' m' Hj. apply Hx. right; exact Hj.
      - intros [Hp Hx] k' m' [E|Hj]; [|apply (Hx k' m' Hj)]. injection E as <- <-. split; [|auto]. intros o' Hi'. exfalso. apply Ec, in_map_iff. exists (k, o'). auto. }
    destruct (ms_ro d); [discriminate|reflexivity].
Qed.

Lemma set_spec d k m : wf (ms_sizes d) -> well_formed (k_arr m) -> ms_ro d = false -> ~ In k (map fst (ditems (ms_items d))) -> ms_items d = md (ditems (ms_items d)) ->
  match masks_set d k m with
  | Ok d' => fits (pairs (ms_sizes d)) (pairs (k_dims m)) /\ d' = mkmasks (ms_sizes d) (md (ditems (ms_items d) ++ [(k, m)])) (ms_ro d)
  | Throw e => ~ fits (pairs (ms_sizes d)) (pairs (k_dims m)) /\ e = DimensionError
  | Ub => False
  end.
Proof.
  intros Hs Hm Hr Hk Ed. unfold masks_set. rewrite Hr.
  assert (Hins : dinsert_or_assign Z.eqb (ms_items d) k m = Ok (md (ditems (ms_items d) ++ [(k, m)]))).
  { pose proof (insert_new (ditems (ms_items d)) k m Hk) as E. rewrite <- Ed in E. exact E. }
  assert (Hrel : relaxed (pairs (ms_sizes d)) (pairs (k_dims m)) (do dims <- relax (ms_sizes d) (k_dims m) (labels (k_dims m)); includes (ms_sizes d) dims)).
  { destruct (wf_mk_pairs _ Hs) as [E1 L1]. destruct (wf_mk_pairs (k_dims m) (proj1 Hm)) as [E2 L2].
    set (p := pairs (ms_sizes d)) in *. set (q := pairs (k_dims m)) in *. clearbody p q. rewrite E1, E2. change (labels (mk q)) with (keys q).
    apply (relax_spec p q []); [assumption|assumption|]. intros ? ? []. }
  destruct (relax (ms_sizes d) (k_dims m) (labels (k_dims m))) as [dims|e|]; cbn [bind] in *.
  - destruct Hrel as [[-> Hf]|[[->| ->] Hf]]; cbn [bind]; [|auto..]. rewrite Hins. cbn [bind]. auto.
  - destruct Hrel as [[E _]|[[E|E] Hf]]; try discriminate. injection E as ->. auto.
  - destruct Hrel as [[E _]|[[E|E] _]]; discriminate.
Qed.

Definition applied (d d' : masks) (l : list (Z * mask)) : Prop :=
  ms_sizes d' = ms_sizes d /\ ms_ro d' = ms_ro d /\ ms_items d' = md (ditems (ms_items d')) /\ masks_fine (ditems (ms_items d')) /\
  map fst (ditems (ms_items d')) = map fst (ditems (ms_items d)) ++ filter (fun k => negb (mem k (map fst (ditems (ms_items d))))) (map fst l) /\
  (forall k ix, (forall m, In (k, m) (ditems (ms_items d)) -> k_ro m = true -> inside (k_dims m) ix) ->
     set_at (ditems (ms_items d')) k ix = set_at (ditems (ms_items d)) k ix || set_at l k ix) /\
  (forall k dm n, In k (map fst (ditems (ms_items d))) -> dim_at (ditems (ms_items d')) k dm n <-> dim_at (ditems (ms_items d)) k dm n) /\
  (forall k dm n, ~ In k (map fst (ditems (ms_items d))) -> dim_at (ditems (ms_items d')) k dm n <-> dim_at l k dm n) /\
  forall k m, In (k, m) (ditems (ms_items d)) -> k_ro m = true -> In (k, m) (ditems (ms_items d')).

Lemma set_at_one l k m ix : NoDup (map fst l) -> In (k, m) l -> set_at l k ix = dv (k_arr m) ix.
Proof.
  intros Hn Hi. apply in_split in Hi as (l1 & l2 & ->). rewrite set_at_app, set_at_cons, Z.eqb_refl. cbn [andb].
  assert (Hz : forall l', (forall x, ~ In (k, x) l') -> set_at l' k ix = false).
  { intros l' Hx. unfold set_at. apply Bool.not_true_iff_false. intros Ht. apply existsb_exists in Ht as ([k' x] & Hi & Ht). cbn in Ht. apply andb_prop in Ht as [Ht _].
    apply Z.eqb_eq in Ht. subst k'. exact (Hx x Hi). }
  rewrite map_app in Hn. cbn [map fst] in Hn. apply NoDup_remove_2 in Hn.
  rewrite (Hz l1), (Hz l2); [rewrite Bool.orb_false_r; reflexivity|intros x Hi; apply Hn, in_app_iff; right; apply in_map_iff; exists (k, x); auto
    |intros x Hi; apply Hn, in_app_iff; left; apply in_map_iff; exists (k, x); auto].
Qed.
Lemma set_at_none l k ix : ~ In k (map fst l) -> set_at l k ix = false.
Proof.
  intros Hn. unfold set_at. apply Bool.not_true_iff_false. intros Ht. apply existsb_exists in Ht as ([k' x] & Hi & Ht). cbn in Ht. apply andb_prop in Ht as [Ht _].
  apply Z.eqb_eq in Ht. subst k'. apply Hn, in_map_iff. exists (k, x). auto.
Qed.
Lemma dim_at_none l k d n : ~ In k (map fst l) -> ~ dim_at l k d n.
Proof. intros Hn (m & Hi & _). apply Hn, in_map_iff. exists (k, m). auto. Qed.

Lemma apply_ok l : (forall k m, In (k, m) l -> well_formed (k_arr m)) -> NoDup (map fst l) -> forall d,
  wf (ms_sizes d) -> ms_items d = md (ditems (ms_items d)) -> masks_fine (ditems (ms_items d)) -> checked d l ->
  match apply_in_place d l with
  | (d', Ok _) => updatable d l /\ applied d d' l
  | (_, Throw e) => ~ updatable d l /\ e = DimensionError
  | (_, Ub) => False
  end.
Proof.
  induction l as [|[k m] l IH]; intros Hwl Hnl d Hs Ed Hfine Hck; cbn [apply_in_place].
  - split; [intros ? ? []|]. unfold applied. cbn [map filter]. rewrite app_nil_r. do 4 (split; [auto|]). split; [reflexivity|].
    split; [intros; change (set_at [] k ix) with false; rewrite Bool.orb_false_r; reflexivity|]. split; [reflexivity|]. split; [|auto].
    intros k dm n Hk. rewrite dim_at_nil. split; [intros Hx; exact (dim_at_none _ _ _ _ Hk Hx)|tauto].
  - cbn [map fst] in Hnl. apply NoDup_cons_iff in Hnl as [Hk Hnl]. assert (Hm : well_formed (k_arr m)) by (apply (Hwl k); left; reflexivity).
    specialize (IH (fun k' m' Hi => Hwl k' m' (or_intror Hi)) Hnl). destruct Hfine as [Hnd Hw].
    set (lo := ditems (ms_items d)) in *. assert (Hkl : forall m', ~ In (k, m') l) by (intros m' Hi; apply Hk, in_map_iff; exists (k, m'); auto).
    assert (Hck' : checked d l) by (intros k' m' Hi; apply Hck; right; exact Hi).
    rewrite Ed. destruct (mcontains Z.eqb (md lo) k) eqn:Ec; cbn [negb].
    + apply contains_In in Ec. destruct (key_split lo k Ec) as (l1 & o & l2 & El). assert (Hi : In (k, o) lo) by (rewrite El; apply in_app_iff; right; left; reflexivity).
      rewrite (at_In lo k o NotFoundError Hnd Hi). cbn [bind]. assert (Ho : well_formed (k_arr o)) by exact (Hw k o Hi).
      assert (Hone : forall o', In (k, o') lo -> o' = o).
      { intros o' Hi'. pose proof (at_In lo k o NotFoundError Hnd Hi) as E1. pose proof (at_In lo k o' NotFoundError Hnd Hi') as E2. congruence. }
      destruct (proj1 (Hck k m (or_introl eq_refl)) o Hi) as (U1 & U2 & U3).
      assert (Hupd : within m o -> updatable d l <-> updatable d ((k, m) :: l)).
      { intros Hwi. unfold updatable. fold lo. split.
        - intros Hx k' m' [E|Hj]; [|apply (Hx k' m' Hj)]. injection E as <- <-. split; [|contradiction]. intros o' Hi'. rewrite (Hone o' Hi'). split; [exact U1|]. split; [exact U2|].
          split; [exact Hwi|]. intros Hr. apply (U3 Hr).
        - intros Hx k' m' Hj. apply (Hx k' m'). right; exact Hj. }
      destruct (k_ro o) eqn:Er.
      * destruct (U3 eq_refl) as [Hwi Hadd].
        specialize (IH d Hs Ed (conj Hnd Hw) Hck'). destruct (apply_in_place d l) as [d' [x|e|]].
        -- destruct IH as (I1 & A1 & A2 & A3 & A4 & A5 & A6 & A7 & A8 & A9). fold lo in A4, A5, A6, A7, A8, A9. split; [apply Hupd; assumption|]. unfold applied. fold lo.
           split; [exact A1|]. split; [exact A2|]. split; [exact A3|]. split; [exact A4|]. split; [|split; [|split; [exact A7|split; [|exact A9]]]].
           ++ rewrite A5. cbn [map fst filter]. rewrite (proj2 (mem_In k _) Ec). reflexivity.
           ++ intros k' ix Hin. rewrite A6 by exact Hin. rewrite set_at_cons. destruct (Z.eqb_spec k k') as [<-|Hne]; [|reflexivity].
              cbn [andb]. rewrite (set_at_one lo k o ix Hnd Hi). destruct (dv (k_arr m) ix) eqn:Em; [|reflexivity]. rewrite (Hadd ix (Hin o Hi Er) Em). reflexivity.
           ++ intros k' dm n Hk'. rewrite A8 by exact Hk'. rewrite dim_at_cons. split; [auto|]. intros [[-> _]|Hx]; [contradiction|exact Hx].
        -- destruct IH as [I1 I2]. split; [|exact I2]. intros Hx. apply I1, Hupd; assumption.
        -- exact IH.
      * destruct (mask_or_eq_total o m Ho Hm Er) as (inc & _ & Hinc & Eeq). rewrite Eeq. destruct U1 as [A1 A2], U2 as [B1 B2]. rewrite A1, A2, B1, B2. cbn [andb negb].
        destruct inc.
        2:{ cbn [bind]. split; [|reflexivity]. intros Hx. destruct (proj1 (Hx k m (or_introl eq_refl)) o Hi) as (_ & _ & Hwi & _). apply Hinc in Hwi. discriminate. }
        assert (Hwi : within m o) by (apply Hinc; reflexivity). rewrite (mask_or_within o m Ho Hm (conj A1 A2) (conj B1 B2) Hwi). cbn [bind].
        set (u := mkmask (or_arr (k_dims o) o m) true true false). rewrite El. rewrite insert_old by (rewrite <- El; exact Hnd). cbn [bind].
        set (d1 := mkmasks (ms_sizes d) (md (l1 ++ (k, u) :: l2)) (ms_ro d)).
        assert (Ed1 : ditems (ms_items d1) = l1 ++ (k, u) :: l2) by apply ditems_mkd.
        assert (Hkeys : map fst (l1 ++ (k, u) :: l2) = map fst lo) by (rewrite El, !map_app; reflexivity).
        assert (Hsw : forall k' x, k' <> k -> In (k', x) (l1 ++ (k, u) :: l2) <-> In (k', x) lo) by (intros k' x Hne; rewrite El; apply In_swap; exact Hne).
        assert (Wu : well_formed (k_arr u)).
        { cbn [u k_arr]. apply or_well_formed; try assumption; [apply Ho|]. intros k' n. split; [auto|]. intros [Hh|Hh]; [exact Hh|apply Hwi; exact Hh]. }
        assert (Hu1 : In (k, u) (l1 ++ (k, u) :: l2)) by (apply in_app_iff; right; left; reflexivity).
        assert (Hnd1 : NoDup (map fst (l1 ++ (k, u) :: l2))) by (rewrite Hkeys; exact Hnd).
        assert (Hlook : forall k' m', In (k', m') l -> forall x, In (k', x) (l1 ++ (k, u) :: l2) <-> In (k', x) lo).
        { intros k' m' Hj x. apply Hsw. intros ->. exact (Hkl _ Hj). }
        assert (Hup1 : updatable d1 l <-> updatable d l).
        { unfold updatable. rewrite Ed1. fold lo. cbn [d1 ms_ro ms_sizes]. rewrite Hkeys. split; intros Hx k' m' Hj; (destruct (Hx k' m' Hj) as [X1 X2]; split; [|exact X2]);
          intros x Hx1; apply X1; apply (Hlook k' m' Hj); exact Hx1. }
        specialize (IH d1 Hs). rewrite Ed1 in IH. specialize (IH eq_refl).
        assert (HF : masks_fine (l1 ++ (k, u) :: l2)).
        { split; [exact Hnd1|]. intros k' x Hx. destruct (Z.eq_dec k' k) as [->|Hne]; [|apply (Hw k' x), Hsw; assumption].
          assert (x = u) as ->; [|exact Wu]. pose proof (at_In _ _ _ NotFoundError Hnd1 Hu1) as E1. pose proof (at_In _ _ _ NotFoundError Hnd1 Hx) as E2. congruence. }
        assert (HC : checked d1 l).
        { unfold checked. rewrite Ed1. cbn [d1 ms_ro]. rewrite Hkeys. intros k' m' Hj. destruct (Hck' k' m' Hj) as [X1 X2]. split; [|exact X2]. intros x Hx1. apply X1. apply (Hlook k' m' Hj). exact Hx1. }
        specialize (IH HF HC). destruct (apply_in_place d1 l) as [d' [x|e|]].
        -- destruct IH as (I1 & C1 & C2 & C3 & C4 & C5 & C6 & C7 & C8 & C9). rewrite Ed1 in C5, C6, C7, C8, C9. rewrite Hkeys in C5, C7, C8. split; [apply Hupd; [exact Hwi|]; apply Hup1; exact I1|].
           unfold applied. fold lo. split; [exact C1|]. split; [exact C2|]. split; [exact C3|]. split; [exact C4|]. split; [|split; [|split; [|split]]].
           ++ rewrite C5. cbn [map fst filter]. rewrite (proj2 (mem_In k _) Ec). reflexivity.
           ++ intros k' ix Hin. rewrite C6.
              ** rewrite El, !set_at_app, !set_at_cons. cbn [u k_arr or_arr dv]. destruct (k =? k'), (set_at l1 k' ix), (dv (k_arr o) ix), (dv (k_arr m) ix), (set_at l2 k' ix), (set_at l k' ix); reflexivity.
              ** intros x0 Hx0 Hr0. destruct (Z.eq_dec k' k) as [->|Hne]; [|apply Hin; [apply Hsw; assumption|exact Hr0]].
                 assert (x0 = u) as ->; [|discriminate]. pose proof (at_In _ _ _ NotFoundError Hnd1 Hu1) as E1. pose proof (at_In _ _ _ NotFoundError Hnd1 Hx0) as E2. congruence.
           ++ intros k' dm n Hk'. rewrite C7 by exact Hk'. rewrite El, !dim_at_app, !dim_at_cons. reflexivity.
           ++ intros k' dm n Hk'. rewrite C8 by exact Hk'. rewrite dim_at_cons. split; [auto|]. intros [[-> _]|Hx]; [contradiction|exact Hx].
           ++ intros k' x0 Hx0 Hr0. apply C9; [|exact Hr0]. apply Hsw; [|exact Hx0]. intros ->. rewrite (Hone x0 Hx0) in Hr0. congruence.
        -- destruct IH as [I1 I2]. split; [|exact I2]. intros Hx. apply I1, Hup1, Hupd; assumption.
        -- exact IH.
    + apply contains_nIn in Ec. assert (Hr : ms_ro d = false) by (apply (proj2 (Hck k m (or_introl eq_refl))); exact Ec).
      pose proof (set_spec d k (mask_copy m) Hs Hm Hr Ec Ed) as Hset. destruct (masks_set d k (mask_copy m)) as [d1|e|]; [|
        destruct Hset as [Hnf ->]; split; [intros Hx; apply Hnf; apply (proj2 (Hx k m (or_introl eq_refl)) Ec)|reflexivity]|exact Hset].
      destruct Hset as [Hf ->]. fold lo. set (d1 := mkmasks (ms_sizes d) (md (lo ++ [(k, mask_copy m)])) (ms_ro d)).
      assert (Ed1 : ditems (ms_items d1) = lo ++ [(k, mask_copy m)]) by apply ditems_mkd.
      assert (Hlook : forall k' x, k' <> k -> In (k', x) (lo ++ [(k, mask_copy m)]) <-> In (k', x) lo).
      { intros k' x Hne. rewrite in_app_iff. cbn [In]. split; [intros [Hx|[E|[]]]; [exact Hx|congruence]|auto]. }
      assert (Hkey : forall k', k' <> k -> In k' (map fst (lo ++ [(k, mask_copy m)])) <-> In k' (map fst lo)).
      { intros k' Hne. rewrite map_app, in_app_iff. cbn [map fst In]. split; [intros [Hx|[E|[]]]; [exact Hx|congruence]|auto]. }
      assert (Hne' : forall k' m', In (k', m') l -> k' <> k) by (intros k' m' Hj ->; exact (Hkl _ Hj)).
      assert (Hup1 : updatable d1 l <-> updatable d ((k, m) :: l)).
      { unfold updatable. rewrite Ed1. fold lo. cbn [d1 ms_ro ms_sizes]. split.
        - intros Hx k' m' [E|Hj].
          + injection E as <- <-. split; [intros o' Hi'; exfalso; apply Ec, in_map_iff; exists (k, o'); auto|]. intros _. split; [exact Hr|exact Hf].
          + destruct (Hx k' m' Hj) as [X1 X2]. pose proof (Hne' k' m' Hj) as Hne. split; [intros x Hx1; apply X1, Hlook; assumption|]. intros Hn. apply X2. rewrite Hkey by exact Hne. exact Hn.
        - intros Hx k' m' Hj. destruct (Hx k' m' (or_intror Hj)) as [X1 X2]. pose proof (Hne' k' m' Hj) as Hne.
          split; [intros x Hx1; apply X1; apply Hlook in Hx1; assumption|]. rewrite Hkey by exact Hne. exact X2. }
      specialize (IH d1 Hs). rewrite Ed1 in IH. specialize (IH eq_refl).
      assert (HF : masks_fine (lo ++ [(k, mask_copy m)])).
      { split; [rewrite map_app; cbn [map fst]; apply NoDup_snoc; assumption|]. intros k' x Hx. apply in_app_iff in Hx as [Hx|[E|[]]]; [exact (Hw k' x Hx)|]. injection E as <- <-. exact Hm. }
      assert (HC : checked d1 l).
      { unfold checked. rewrite Ed1. cbn [d1 ms_ro]. intros k' m' Hj. destruct (Hck' k' m' Hj) as [X1 X2]. pose proof (Hne' k' m' Hj) as Hne. fold lo in X1, X2.
        split; [intros x Hx1; apply X1; apply Hlook in Hx1; assumption|]. rewrite Hkey by exact Hne. exact X2. }
      specialize (IH HF HC). destruct (apply_in_place d1 l) as [d' [x|e|]].
      * destruct IH as (I1 & C1 & C2 & C3 & C4 & C5 & C6 & C7 & C8 & C9). rewrite Ed1 in C5, C6, C7, C8, C9. split; [apply Hup1; exact I1|].
        unfold applied. fold lo. split; [exact C1|]. split; [exact C2|]. split; [exact C3|]. split; [exact C4|]. split; [|split; [|split; [|split]]].
        -- rewrite C5, map_app. cbn [map fst filter]. replace (mem k (map fst lo)) with false by (symmetry; apply mem_nIn; exact Ec). cbn [negb]. rewrite <- app_assoc. cbn [app].
           do 2 f_equal. apply filter_ext_in. intros k' Hi. f_equal. unfold mem. rewrite existsb_app. cbn [existsb]. rewrite Bool.orb_false_r.
           replace (k' =? k) with false by (symmetry; apply Z.eqb_neq; intros ->; exact (Hk Hi)). rewrite Bool.orb_false_r. reflexivity.
        -- intros k' ix Hin. rewrite C6.
           ++ rewrite set_at_app, !set_at_cons. cbn [mask_copy k_arr]. change (set_at [] k' ix) with false. rewrite Bool.orb_false_r, Bool.orb_assoc. reflexivity.
           ++ intros x0 Hx0 Hr0. apply in_app_iff in Hx0 as [Hx0|[E|[]]]; [apply Hin; assumption|]. injection E as <- <-. discriminate.
        -- intros k' dm n Hk'. rewrite C7 by (rewrite map_app; apply in_app_iff; auto). rewrite dim_at_app, dim_at_cons, dim_at_nil.
           split; [intros [Hx|[[-> _]|[]]]; [exact Hx|contradiction]|auto].
        -- intros k' dm n Hk'. rewrite dim_at_cons. destruct (Z.eq_dec k' k) as [->|Hne].
           ++ rewrite C7 by (rewrite map_app; apply in_app_iff; right; left; reflexivity). rewrite dim_at_app, dim_at_cons, dim_at_nil. change (k_dims (mask_copy m)) with (k_dims m).
              split; [intros [Hx|[Hx|[]]]; [exfalso; exact (dim_at_none _ _ _ _ Hk' Hx)|auto]|]. intros [Hx|Hx]; [auto|]. exfalso. exact (dim_at_none _ _ _ _ Hk Hx).
           ++ rewrite C8 by (rewrite Hkey by exact Hne; exact Hk'). split; [auto|]. intros [[E _]|Hx]; [congruence|exact Hx].
        -- intros k' x0 Hx0 Hr0. apply C9; [|exact Hr0]. apply in_app_iff; auto.
      * destruct IH as [I1 I2]. split; [|exact I2]. intros Hx. apply I1, Hup1; assumption.
      * exact IH.
Qed.

Theorem in_place_ok d b : wf (ms_sizes d) -> ms_items d = md (ditems (ms_items d)) -> masks_fine (ditems (ms_items d)) -> masks_fine b ->
  match union_or_in_place d (md b) with
  | (d', Ok _) => updatable d b /\ applied d d' b
  | (d', Throw e) => ~ updatable d b /\ (e <> DimensionError -> d' = d)
  | (_, Ub) => False
  end.
Proof.
  intros Hs Ed Hf [Nb Wb]. unfold union_or_in_place. rewrite ditems_mkd. pose proof (check_ok d b Wb Ed Hf) as Hc. destruct (check_in_place d b) as [x|e|].
  - pose proof (apply_ok b Wb Nb d Hs Ed Hf Hc) as Ha. destruct (apply_in_place d b) as [d' [y|e|]]; [exact Ha| |exact Ha]. destruct Ha as [H1 ->]. split; [exact H1|congruence].
  - split; [|reflexivity]. intros Hu. apply Hc, updatable_checked, Hu.
  - exact Hc.
Qed.
