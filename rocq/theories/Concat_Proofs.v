(** Proofs about concatenation. *)
From Verif Require Import Base Map_Model Dims_Model Dims_Spec Dims_Proofs Index_Model View_Model View_Spec View_Proofs SizedDict_Proofs
  Transform_Model Transform_Spec Transform_Proofs Concat_Model Concat_Spec.

Lemma dims_add_mk p k n : k <> InvalidDim -> 0 <= n ->
  dims_add (mk p) k n = if mem k (keys p) then Throw DimensionError else Ok (mk ((k, n) :: p)).
Proof.
  intros Hk Hn. unfold dims_add, valid_dim, valid_extent. destruct (Z.eqb_spec k InvalidDim); [contradiction|].
  cbn [bind]. replace (n <? 0) with false by lia. cbn [bind]. unfold minsert_left, mexpect_unique.
  fold (dcontains (mk p) k). rewrite dcontains_mk. destruct (mem k (keys p)); reflexivity.
Qed.

Section OneCopy.
Context (dim : Dim) (p1 p2 : list (Z * Z)) (T : Z) (Hp : lwf (p1 ++ (dim, T) :: p2)) (out tmp : nat) (Hot : out <> tmp).
Let p := p1 ++ (dim, T) :: p2.
Let o := mkarr out (var_fresh (mk p)).
Hypothesis Hrank : (length p <= NDIM_OP_MAX)%nat.

Lemma o_one ix ix' : valid_at p ix -> valid_at p ix' -> vaddr (a_var o) ix = vaddr (a_var o) ix' -> same_at p ix ix'.
Proof.
  intros H1 H2 E. cbn [a_var o] in E. rewrite (fresh_SV p (proj1 Hp)) in E. apply (proj2 (fresh_state p Hp)); assumption.
Qed.

Lemma slice_of_o off n : 0 <= off -> 0 <= n -> off + n <= T ->
  exists v, (do s <- slice_range dim off (off + n) 1; var_slice (a_var o) s) = Ok v /\ pairs (v_dims v) = p1 ++ (dim, n) :: p2 /\ wfv v /\
    v_readonly v = false /\ v_size v = vol (extents p) /\ v_offset v = off * vol (extents p2) /\
    forall ix, valid_at (p1 ++ (dim, n) :: p2) ix -> valid_at p (put ix dim (off + ix dim)) /\ vaddr v ix = vaddr (a_var o) (put ix dim (off + ix dim)).
Proof.
  intros Ho Hn Ht. destruct (lwf_app _ _ _ _ Hp) as (_ & _ & Hk1 & Hk2 & Hki).
  unfold slice_range. replace (off <? 0) with false by lia. replace (off >? off + n) with false by lia. rewrite andb_false_r. cbn [Z.eqb Z.ltb Z.compare bind].
  set (s := mkslice dim off (off + n) 1). assert (Hs : slice_ok s) by (right; cbn; lia).
  assert (Ed : slice_eqb s slice_default = false) by (unfold slice_eqb; cbn; replace (off =? -1) with false by lia; rewrite andb_false_r; reflexivity).
  assert (Esd : slice_dims p s = Some (p1 ++ (dim, n) :: p2)).
  { unfold slice_dims. rewrite Ed. cbn [s_dim s_end s_begin s_stride s]. replace (extent p dim) with (Some T).
    - replace (off + n =? -1) with false by lia. replace (off + n <=? T) with true by lia. f_equal. unfold p. rewrite map_split by assumption. cbn [fst].
      do 3 f_equal. unfold ceil_div. rewrite Z.div_1_r. lia.
    - symmetry. apply extent_In; [apply Hp|]. apply in_or_app. right. left. reflexivity. }
  assert (Hv : wfv (a_var o)).
  { cbn [a_var o]. rewrite (fresh_SV p (proj1 Hp)). apply SV_wfv; [exact Hp|apply sfc_nonneg, Hp]. }
  pose proof (slice_accept (a_var o) s Hv Hs) as Hx. pose proof (var_slice_ok p (sfc p) 0 false (vol (extents p)) s Hp Hs) as Hy.
  rewrite <- (fresh_SV p (proj1 Hp)) in Hy. cbn [a_var o v_dims var_fresh] in Hx. fold (var_fresh (mk p)) in Hx. rewrite pairs_mk, Esd in Hx. rewrite Esd in Hy.
  destruct Hx as (v & E & E1 & Hw & Er & Esz & Ha). cbn [a_var o]. exists v. split; [exact E|]. split; [exact E1|]. split; [exact Hw|]. split; [exact Er|]. split; [rewrite Esz; cbn [v_size var_fresh]; apply volume_vol|].
  split.
  - rewrite E in Hy. injection Hy as ->. cbn [v_offset SV]. unfold sl_off. rewrite Ed. cbn [s_begin s_dim s]. unfold p at 1. rewrite sfc_split by apply Hp. lia.
  - intros ix Hix. destruct (Ha ix Hix) as [Ha1 Ha2]. unfold pull in Ha1, Ha2. rewrite Ed in Ha1, Ha2. cbn [s_dim s_end s_begin s_stride s] in Ha1, Ha2.
    replace (off + n =? -1) with false in Ha1, Ha2 by lia. rewrite Z.mul_1_l in Ha1, Ha2. split; assumption.
Qed.

Context {A : Type} (default : A) (unit : nat -> Z) (blocks : sizes -> list (Z * Z)) (Hbl : forall d, wf d -> tiles 0 (volume d) (blocks d)).

Definition good (n : Z) (a : arr) : Prop :=
  wfv (a_var a) /\ a_buf a <> out /\ a_buf a <> tmp /\ In (dim, n) (ashape a) /\ forall k m, In (k, m) (ashape a) -> k <> dim -> In (k, m) (p1 ++ p2).

(** The parts [i] of the result. *)
Definition effect (h h' : heap A) (off n : Z) (a : arr) : Prop :=
  (forall ix, valid_at p ix -> off <= ix dim < off + n -> value_at h' o ix = value_at h a (put ix dim (ix dim - off))) /\
  (forall ix, valid_at p ix -> ~ off <= ix dim < off + n -> value_at h' o ix = value_at h o ix) /\
  forall c, fst c <> out -> fst c <> tmp -> h' c = h c.

Lemma copy_one (h : heap A) u off n a : 0 <= off -> 0 <= n -> off + n <= T -> good n a -> (unit (a_buf a) = u) ->
  exists h1 ps, (do s <- slice_range dim off (off + n) 1; do v <- var_slice (a_var o) s; copy_into default unit tmp blocks h u (mkarr (a_buf o) v) a) = Ok (h1, ps, u) /\
    (exists h', may_end h1 ps h') /\ forall h', may_end h1 ps h' -> effect h h' off n a.
Proof.
  intros Ho Hn Ht (Hw & Hb1 & Hb2 & Hd & Hf) Hu. destruct (slice_of_o off n Ho Hn Ht) as (v & E & Ep & Hv & Er & _ & _ & Ha).
  destruct (lwf_app _ _ _ _ Hp) as (_ & _ & Hk1 & Hk2 & Hki).
  replace (do s <- slice_range dim off (off + n) 1; do v0 <- var_slice (a_var o) s; copy_into default unit tmp blocks h u (mkarr (a_buf o) v0) a)
    with (do v0 <- (do s <- slice_range dim off (off + n) 1; var_slice (a_var o) s); copy_into default unit tmp blocks h u (mkarr (a_buf o) v0) a)
    by (destruct (slice_range dim off (off + n) 1); reflexivity).
  rewrite E. cbn [bind]. set (dst := mkarr (a_buf o) v). unfold copy_into.
  assert (Hinc : forall k m, has (a_dims a) k m -> has (a_dims dst) k m).
  { intros k m Hk. unfold has, a_dims. cbn [a_var dst]. rewrite Ep. destruct (Z.eq_dec k dim) as [->|Hne].
    - replace m with n; [apply in_or_app; right; left; reflexivity|]. pose proof (proj1 (proj1 (wf_lwf _) (proj1 Hw))) as (Hnd & _).
      pose proof (proj2 (extent_In _ _ _ Hnd) Hk) as X. pose proof (proj2 (extent_In _ _ _ Hnd) Hd) as Y. unfold a_dims in X. congruence.
    - specialize (Hf k m Hk Hne). apply in_app_or in Hf as [Hf|Hf]; apply in_or_app; [left|right; right]; exact Hf. }
  destruct (includes_ok (a_dims dst) (a_dims a) (wf_wfm _ (proj1 Hv)) (wf_wfm _ (proj1 Hw))) as (r & -> & Hr). cbn [bind].
  replace r with true by (symmetry; apply Hr; exact Hinc). cbn [negb]. rewrite Hu, Z.eqb_refl. cbn [negb andb].
  assert (Hall : Forall (fun a => wfv (a_var a)) (dst :: [a])) by (constructor; [exact Hv|constructor; [exact Hw|constructor]]).
  assert (Hdist : distinct_elements dst).
  { intros ix ix' Hi Hi' Ee. unfold inside, a_dims in Hi, Hi'. cbn [a_var dst] in *. unfold a_dims. cbn [a_var dst]. rewrite Ep in *.
    destruct (Ha ix Hi) as [V1 E1]. destruct (Ha ix' Hi') as [V2 E2]. rewrite E1, E2 in Ee. pose proof (o_one _ _ V1 V2 Ee) as Hs. intros k Hk.
    assert (Hkp : In k (keys p)) by (unfold p; rewrite keys_app in *; exact Hk). specialize (Hs k Hkp).
    destruct (Z.eq_dec k dim) as [->|Hne]; [rewrite !put_same in Hs; lia|rewrite !put_other in Hs by exact Hne; exact Hs]. }
  destruct (in_place_total (do_copy default) h dst [a] tmp blocks Hall Hdist) as (h1 & ps & h' & Et & Hm).
  - exact Er.
  - unfold a_dims. cbn [a_var dst]. destruct (wf_mk_pairs _ (proj1 Hv)) as [Em _]. rewrite Em, Ep. change (labels (mk (p1 ++ (dim, n) :: p2))) with (keys (p1 ++ (dim, n) :: p2)).
    unfold keys. rewrite map_length. unfold p in Hrank. rewrite app_length in *. cbn [length] in *. exact Hrank.
  - exact Hbl.
  - left. cbn. lia.
  - intros b [<-|[]]. exact Hinc.
  - rewrite Et. cbn [bind]. eexists _, _. split; [reflexivity|]. split; [exists h'; exact Hm|]. clear h' Hm. intros h' Hm.
    assert (Hbuf : forall x, In x (dst :: [a]) -> a_buf x <> tmp) by (intros x [<-|[<-|[]]]; assumption).
    assert (Hal : forall b, In b [a] -> ~ hidden_alias dst b) by (intros b [<-|[]] (Eb & _); cbn in Eb; congruence).
    destruct (in_place_correct (do_copy default) h dst [a] tmp blocks h1 ps h' Hall Hdist Hbuf Hbl Hal Et Hm) as [V F].
    split; [|split].
    + intros ix Hix Hr'. set (jx := put ix dim (ix dim - off)). assert (Hj : valid_at (p1 ++ (dim, n) :: p2) jx).
      { unfold p in Hix. apply valid_at_app in Hix as [X Y]. apply valid_at_cons in Y as [Y Z0]. apply valid_at_app. split; [apply valid_at_put; assumption|].
        apply valid_at_cons. unfold jx. rewrite !put_same. split; [lia|]. apply valid_at_put; assumption. }
      assert (Hin : inside (a_dims dst) jx) by (unfold inside, a_dims; cbn [a_var dst]; rewrite Ep; exact Hj).
      specialize (V jx Hin). cbn [map do_copy nth] in V. rewrite <- V. unfold value_at. cbn [a_buf a_var dst o]. destruct (Ha jx Hj) as [_ ->].
      do 2 f_equal. unfold vaddr. f_equal. f_equal. apply map_ext_in. intros k _. unfold jx. destruct (Z.eq_dec k dim) as [->|Hne]; [rewrite !put_same; lia|rewrite !put_other by exact Hne; reflexivity].
    + intros ix Hix Hr'. unfold value_at. cbn [a_buf o]. apply F; [|cbn; exact Hot]. intros (jx & Hj & Ec). unfold inside, a_dims in Hj. cbn [a_var dst] in Hj. rewrite Ep in Hj.
      cbn [a_buf a_var dst o] in Ec. injection Ec as Ec. destruct (Ha jx Hj) as [V1 E1]. rewrite E1 in Ec.
      pose proof (o_one _ _ Hix V1 Ec dim) as Hs. rewrite put_same in Hs. apply valid_at_app in Hj as [_ Hj]. apply valid_at_cons in Hj as [Hj _].
      apply Hr'. rewrite Hs; [lia|]. unfold p. rewrite keys_app. apply in_or_app. right. left. reflexivity.
    + intros c H1 H2. apply F; [|exact H2]. intros (jx & _ & ->). apply H1. reflexivity.
Qed.

(** All copies: the parts of the result. *)
Definition filled (h h' : heap A) (off : Z) (ns : list Z) (l : list arr) : Prop :=
  (forall i n a ix, nth_error ns i = Some n -> nth_error l i = Some a -> valid_at p ix ->
     off + sumZ (firstn i ns) <= ix dim < off + sumZ (firstn i ns) + n -> value_at h' o ix = value_at h a (put ix dim (ix dim - (off + sumZ (firstn i ns))))) /\
  (forall ix, valid_at p ix -> ~ off <= ix dim < off + sumZ ns -> value_at h' o ix = value_at h o ix) /\
  forall c, fst c <> out -> fst c <> tmp -> h' c = h c.

Lemma good_extent n a : good n a -> dat (a_dims a) dim = Ok n.
Proof.
  intros (Hw & _ & _ & Hd & _). destruct (wf_mk_pairs _ (proj1 Hw)) as [Em Hl]. unfold a_dims. rewrite Em, dat_mk by apply Hl.
  apply (extent_In _ _ _ (proj1 Hl)) in Hd. unfold a_dims in Hd. rewrite Hd. reflexivity.
Qed.

Lemma copies_ok u : forall ns l, Forall2 good ns l -> Forall (fun n => 0 <= n) ns -> (forall a, In a l -> unit (a_buf a) = u) ->
  forall (h : heap A) off, 0 <= off -> off + sumZ ns <= T ->
  (exists r, copy_all default unit dim o tmp blocks h u off l r) /\
  forall r, copy_all default unit dim o tmp blocks h u off l r -> exists h', r = Ok (h', u) /\ filled h h' off ns l.
Proof.
  intros ns l Hf. induction Hf as [|n a ns l Ha Hf IH]; intros Hnn Hu h off Ho Ht.
  - split; [eexists; constructor|]. intros r Hr. inversion Hr; subst. exists h. split; [reflexivity|]. split; [|split; auto]. intros i n a ix Hi. destruct i; discriminate.
  - apply Forall_cons_iff in Hnn as [Hn Hnn]. cbn [sumZ fold_right] in Ht. fold (sumZ ns) in Ht.
    assert (Hs : 0 <= sumZ ns) by (clear - Hnn; induction Hnn as [|x l Hx _ IHl]; cbn [sumZ fold_right]; [lia|fold (sumZ l); lia]).
    destruct (copy_one h u off n a Ho Hn) as (h1 & ps & E & [h2 Hm] & Hall); [lia|exact Ha|apply Hu; left; reflexivity|].
    assert (Hu' : forall b, In b l -> unit (a_buf b) = u) by (intros b Hb; apply Hu; right; exact Hb).
    split.
    + destruct (IH Hnn Hu' h2 (off + n)) as [[r Hr] _]; [lia|lia|]. exists r. eapply ca_step; [apply good_extent, Ha|exact E|exact Hm|exact Hr].
    + intros r Hr. inversion Hr as [|? ? ? ? ? ? ? Hd Ef|? ? ? ? ? ? ? ? ? h3 ? Hd Eo Hm' Hrest]; subst.
      * rewrite (good_extent n a Ha) in Hd. injection Hd as <-. rewrite E in Ef. discriminate.
      * rewrite (good_extent n a Ha) in Hd. injection Hd as <-. rewrite E in Eo. injection Eo as <- <- <-. destruct (Hall _ Hm') as (W1 & W2 & W3).
        destruct (IH Hnn Hu' h3 (off + n) ltac:(lia) ltac:(lia)) as [_ Hx]. destruct (Hx r Hrest) as (h'' & -> & X1 & X2 & X3). exists h''. split; [reflexivity|].
        split; [|split].
        -- intros [|i] m b ix Hi Hb Hix Hrg.
           ++ cbn in Hi, Hb. injection Hi as <-. injection Hb as <-. cbn [firstn sumZ fold_right] in *. rewrite Z.add_0_r in *.
              rewrite (X2 ix Hix) by lia. apply W1; assumption.
           ++ cbn [nth_error] in Hi, Hb. cbn [firstn sumZ fold_right] in *. fold (sumZ (firstn i ns)) in *.
              rewrite (X1 i m b ix Hi Hb Hix) by lia. replace (ix dim - (off + n + sumZ (firstn i ns))) with (ix dim - (off + (n + sumZ (firstn i ns)))) by lia.
              assert (Hgb : exists m', good m' b).
              { clear - Hf Hb. revert i Hb. induction Hf as [|x y ns l Hxy _ IHf]; intros [|i] Hb; try discriminate; [injection Hb as <-; eauto|apply (IHf i Hb)]. }
              destruct Hgb as (m' & _ & G1 & G2 & _). unfold value_at. apply W3; assumption.
        -- intros ix Hix Hrg. cbn [sumZ fold_right] in Hrg. fold (sumZ ns) in Hrg. rewrite (X2 ix Hix) by lia. apply W2; [exact Hix|lia].
        -- intros c H1 H2. rewrite X3 by assumption. apply W3; assumption.
Qed.

(** An input with other dimensions. *)
Definition unfit (n : Z) (a : arr) : Prop :=
  wfv (a_var a) /\ In (dim, n) (ashape a) /\ ~ forall k m, In (k, m) (ashape a) -> k <> dim -> In (k, m) (p1 ++ p2).
Lemma unfit_extent n a : unfit n a -> dat (a_dims a) dim = Ok n.
Proof.
  intros (Hw & Hd & _). destruct (wf_mk_pairs _ (proj1 Hw)) as [Em Hl]. unfold a_dims. rewrite Em, dat_mk by apply Hl.
  apply (extent_In _ _ _ (proj1 Hl)) in Hd. unfold a_dims in Hd. rewrite Hd. reflexivity.
Qed.
Lemma copy_unfit (h : heap A) u off n a : 0 <= off -> 0 <= n -> off + n <= T -> unfit n a ->
  (do s <- slice_range dim off (off + n) 1; do v <- var_slice (a_var o) s; copy_into default unit tmp blocks h u (mkarr (a_buf o) v) a) = Throw DimensionError.
Proof.
  intros Ho Hn Ht (Hw & Hd & Hf). destruct (slice_of_o off n Ho Hn Ht) as (v & E & Ep & Hv & _). destruct (lwf_app _ _ _ _ Hp) as (_ & _ & Hk1 & Hk2 & Hki).
  replace (do s <- slice_range dim off (off + n) 1; do v0 <- var_slice (a_var o) s; copy_into default unit tmp blocks h u (mkarr (a_buf o) v0) a)
    with (do v0 <- (do s <- slice_range dim off (off + n) 1; var_slice (a_var o) s); copy_into default unit tmp blocks h u (mkarr (a_buf o) v0) a)
    by (destruct (slice_range dim off (off + n) 1); reflexivity).
  rewrite E. cbn [bind]. unfold copy_into, a_dims at 1. cbn [a_var].
  destruct (includes_ok (v_dims v) (a_dims a) (wf_wfm _ (proj1 Hv)) (wf_wfm _ (proj1 Hw))) as (r & -> & Hr). cbn [bind].
  destruct r; [exfalso|reflexivity]. apply Hf. intros k m Hk Hne. pose proof (proj1 Hr eq_refl k m Hk) as Hh. unfold has in Hh. rewrite Ep in Hh.
  apply in_app_or in Hh as [Hh|[[= E1 _]|Hh]]; [apply in_or_app; left; exact Hh|congruence|apply in_or_app; right; exact Hh].
Qed.

Lemma copies_unfit u ns1 l1 n a l2 : Forall2 good ns1 l1 -> Forall (fun n => 0 <= n) ns1 -> (forall b, In b l1 -> unit (a_buf b) = u) -> unfit n a -> 0 <= n ->
  forall (h : heap A) off, 0 <= off -> off + sumZ ns1 + n <= T ->
  (exists r, copy_all default unit dim o tmp blocks h u off (l1 ++ a :: l2) r) /\
  forall r, copy_all default unit dim o tmp blocks h u off (l1 ++ a :: l2) r -> r = Throw DimensionError.
Proof.
  intros Hf Hnn Hu Ha Hn. induction Hf as [|m b ns l Hb Hf IH]; intros h off Ho Ht.
  - cbn [app]. cbn [sumZ fold_right] in Ht. pose proof (copy_unfit h u off n a Ho Hn ltac:(lia) Ha) as E. split.
    + eexists. eapply ca_fail; [apply unfit_extent, Ha|exact E].
    + intros r Hr. inversion Hr as [|? ? ? ? ? ? ? Hd Ef|? ? ? ? ? ? ? ? ? h3 ? Hd Eo Hm' Hrest]; subst; rewrite (unfit_extent n a Ha) in Hd; injection Hd as <-; congruence.
  - apply Forall_cons_iff in Hnn as [Hm Hnn]. cbn [sumZ fold_right] in Ht. fold (sumZ ns) in Ht. cbn [app].
    assert (Hs : 0 <= sumZ ns) by (clear - Hnn; induction Hnn as [|x l Hx _ IHl]; cbn [sumZ fold_right]; [lia|fold (sumZ l); lia]).
    destruct (copy_one h u off m b Ho Hm) as (h1 & ps & E & [h2 Hme] & Hall); [lia|exact Hb|apply Hu; left; reflexivity|].
    assert (Hu' : forall b, In b l -> unit (a_buf b) = u) by (intros x Hx; apply Hu; right; exact Hx).
    split.
    + destruct (IH Hnn Hu' h2 (off + m) ltac:(lia) ltac:(lia)) as [[r Hr] _]. exists r. eapply ca_step; [apply good_extent, Hb|exact E|exact Hme|exact Hr].
    + intros r Hr. inversion Hr as [|? ? ? ? ? ? ? Hd Ef|? ? ? ? ? ? ? ? ? h3 ? Hd Eo Hm' Hrest]; subst.
      * rewrite (good_extent m b Hb) in Hd. injection Hd as <-. congruence.
      * rewrite (good_extent m b Hb) in Hd. injection Hd as <-. rewrite E in Eo. injection Eo as <- <- <-.
        apply (IH Hnn Hu' h3 (off + m) ltac:(lia) ltac:(lia)). exact Hrest.
Qed.

(** An input with another unit. *)
Lemma copies_unit u ns1 l1 n a l2 : Forall2 good ns1 l1 -> Forall (fun n => 0 <= n) ns1 -> (forall b, In b l1 -> unit (a_buf b) = u) -> good n a -> 0 <= n -> unit (a_buf a) <> u ->
  0 < vol (extents p2) -> forall (h : heap A) off, 0 <= off -> 0 < off + sumZ ns1 -> off + sumZ ns1 + n <= T ->
  (exists r, copy_all default unit dim o tmp blocks h u off (l1 ++ a :: l2) r) /\
  forall r, copy_all default unit dim o tmp blocks h u off (l1 ++ a :: l2) r -> r = Throw UnitError.
Proof.
  intros Hf Hnn Hu Ha Hn Hne Hvol. induction Hf as [|m b ns l Hb Hf IH]; intros h off Ho Hpos Ht.
  - cbn [app]. cbn [sumZ fold_right] in Ht, Hpos.
    assert (E : (do s <- slice_range dim off (off + n) 1; do v <- var_slice (a_var o) s; copy_into default unit tmp blocks h u (mkarr (a_buf o) v) a) = Throw UnitError).
    { destruct (slice_of_o off n Ho Hn ltac:(lia)) as (v & E & Ep & Hv & _ & _ & Eo & _).
      replace (do s <- slice_range dim off (off + n) 1; do v0 <- var_slice (a_var o) s; copy_into default unit tmp blocks h u (mkarr (a_buf o) v0) a)
        with (do v0 <- (do s <- slice_range dim off (off + n) 1; var_slice (a_var o) s); copy_into default unit tmp blocks h u (mkarr (a_buf o) v0) a)
        by (destruct (slice_range dim off (off + n) 1); reflexivity).
      rewrite E. cbn [bind]. unfold copy_into, a_dims at 1. cbn [a_var]. destruct Ha as (Hw & _ & _ & Hd & Hfit).
      destruct (includes_ok (v_dims v) (a_dims a) (wf_wfm _ (proj1 Hv)) (wf_wfm _ (proj1 Hw))) as (r & -> & Hr). cbn [bind].
      replace r with true.
      - cbn [negb]. replace (u =? unit (a_buf a)) with false by lia. unfold var_is_slice. rewrite Eo. replace (off * vol (extents p2) =? 0) with false by nia. reflexivity.
      - symmetry. apply Hr. intros k m Hk. unfold has. rewrite Ep. destruct (Z.eq_dec k dim) as [->|Hnk].
        + replace m with n; [apply in_or_app; right; left; reflexivity|]. pose proof (proj1 (proj1 (wf_lwf _) (proj1 Hw))) as (Hnd & _).
          pose proof (proj2 (extent_In _ _ _ Hnd) Hk) as X. pose proof (proj2 (extent_In _ _ _ Hnd) Hd) as Y. unfold a_dims in X. congruence.
        + specialize (Hfit k m Hk Hnk). apply in_app_or in Hfit as [Hx|Hx]; apply in_or_app; [left|right; right]; exact Hx. }
    split.
    + eexists. eapply ca_fail; [apply good_extent, Ha|exact E].
    + intros r Hr. inversion Hr as [|? ? ? ? ? ? ? Hd Ef|? ? ? ? ? ? ? ? ? h3 ? Hd Eo Hm' Hrest]; subst; rewrite (good_extent n a Ha) in Hd; injection Hd as <-; congruence.
  - apply Forall_cons_iff in Hnn as [Hm Hnn]. cbn [sumZ fold_right] in Ht, Hpos. fold (sumZ ns) in Ht, Hpos. cbn [app].
    assert (Hs : 0 <= sumZ ns) by (clear - Hnn; induction Hnn as [|x l Hx _ IHl]; cbn [sumZ fold_right]; [lia|fold (sumZ l); lia]).
    destruct (copy_one h u off m b Ho Hm) as (h1 & ps & E & [h2 Hme] & Hall); [lia|exact Hb|apply Hu; left; reflexivity|].
    assert (Hu' : forall b, In b l -> unit (a_buf b) = u) by (intros x Hx; apply Hu; right; exact Hx).
    split.
    + destruct (IH Hnn Hu' h2 (off + m) ltac:(lia) ltac:(lia) ltac:(lia)) as [[r Hr] _]. exists r. eapply ca_step; [apply good_extent, Hb|exact E|exact Hme|exact Hr].
    + intros r Hr. inversion Hr as [|? ? ? ? ? ? ? Hd Ef|? ? ? ? ? ? ? ? ? h3 ? Hd Eo Hm' Hrest]; subst.
      * rewrite (good_extent m b Hb) in Hd. injection Hd as <-. congruence.
      * rewrite (good_extent m b Hb) in Hd. injection Hd as <-. rewrite E in Eo. injection Eo as <- <- <-.
        apply (IH Hnn Hu' h3 (off + m) ltac:(lia) ltac:(lia) ltac:(lia)). exact Hrest.
Qed.
End OneCopy.

Lemma concat_base_In dim l p : concat_base dim l = Some p -> exists a, In a l /\ p = ashape a /\ In dim (keys p).
Proof.
  induction l as [|a l IH]; cbn [concat_base]; [discriminate|]. destruct (mem dim (keys (ashape a))) eqn:E.
  - intros [= <-]. exists a. split; [left; reflexivity|]. split; [reflexivity|]. apply mem_In, E.
  - intros Hx. destruct (IH Hx) as (b & Hb & ? & ?). exists b. split; [right; exact Hb|auto].
Qed.
Lemma concat_base_None dim l : concat_base dim l = None -> forall a, In a l -> ~ In dim (keys (ashape a)).
Proof.
  induction l as [|a l IH]; cbn [concat_base]; [intros _ a []|]. destruct (mem dim (keys (ashape a))) eqn:E; [discriminate|].
  intros Hx b [<-|Hb]; [apply mem_nIn, E|apply (IH Hx b Hb)].
Qed.
Lemma contains_wf a dim : wfv (a_var a) -> dcontains (a_dims a) dim = mem dim (keys (ashape a)).
Proof. intros Hw. destruct (wf_mk_pairs _ (proj1 Hw)) as [E _]. unfold a_dims at 1. rewrite E. apply dcontains_mk. Qed.

Lemma find_base dim l : Forall (fun a => wfv (a_var a)) l ->
  match find (fun a => dcontains (a_dims a) dim) l with
  | Some a => In a l /\ concat_base dim l = Some (ashape a) /\ In dim (keys (ashape a))
  | None => concat_base dim l = None
  end.
Proof.
  induction l as [|a l IH]; intros Hw; cbn [find concat_base]; [reflexivity|]. apply Forall_cons_iff in Hw as [Ha Hw].
  rewrite (contains_wf a dim Ha). destruct (mem dim (keys (ashape a))) eqn:E.
  - split; [left; reflexivity|]. split; [reflexivity|]. apply mem_In, E.
  - specialize (IH Hw). destruct (find _ l) as [b|]; [|exact IH]. destruct IH as (H1 & H2). split; [right; exact H1|exact H2].
Qed.

Lemma base_ok dim l : l <> [] -> Forall (fun a => wfv (a_var a)) l -> dim <> InvalidDim ->
  exists p1 p2, lwf (p1 ++ (dim, 1) :: p2) /\ concat_dims l dim = Ok (mk (p1 ++ (dim, 1) :: p2)) /\ concat_shape dim l = p1 ++ (dim, total dim l) :: p2 /\
    (concat_base dim l = None -> p1 = [] /\ exists a, hd_error l = Some a /\ p2 = ashape a) /\
    (forall p, concat_base dim l = Some p -> exists m, p = p1 ++ (dim, m) :: p2).
Proof.
  intros Hne Hw Hd. destruct l as [|front l]; [contradiction|]. set (L := front :: l) in *.
  pose proof (find_base dim L Hw) as Hf. unfold concat_dims. cbn [L]. fold L. unfold concat_shape.
  destruct (find (fun a => dcontains (a_dims a) dim) L) as [a|] eqn:Ef.
  - destruct Hf as (Hi & Eb & Hk). rewrite Eb. rewrite Forall_forall in Hw. specialize (Hw a Hi). destruct (wf_mk_pairs _ (proj1 Hw)) as [Em Hl].
    apply In_keys in Hk as [n Hn]. pose proof (proj2 (extent_In _ _ _ (proj1 Hl)) Hn) as En. destruct (extent_split _ _ _ En) as (p1 & p2 & E & Hk1).
    fold (a_dims a) in Em, Hl, E. fold (ashape a) in Em, Hl, E. rewrite E in *. destruct (lwf_app _ _ _ _ Hl) as (L12 & Hn0 & _ & Hk2 & _).
    exists p1, p2. split; [apply lwf_app_inv; [exact L12|lia|exact Hk1|exact Hk2|exact Hd]|]. split; [rewrite Em; apply resize_sp; [exact Hk1|lia]|].
    split; [rewrite map_split by assumption; reflexivity|]. split; [discriminate|]. intros p [= <-]. eauto.
  - rewrite Hf. pose proof (concat_base_None dim L Hf front (or_introl eq_refl)) as Hn. apply Forall_cons_iff in Hw as [Hwf Hw].
    destruct (wf_mk_pairs _ (proj1 Hwf)) as [Em Hl]. fold (a_dims front) in Em, Hl. fold (ashape front) in Em, Hl. exists [], (ashape front).
    split; [apply (lwf_app_inv []); [exact Hl|lia|intros []|exact Hn|exact Hd]|]. split.
    + rewrite Em, dims_add_mk by (assumption || lia). apply mem_nIn in Hn. rewrite Hn. reflexivity.
    + split; [|split; [intros _; split; [reflexivity|exists front; split; reflexivity]|discriminate]].
      cbn [L]. apply (map_split (fun _ => (dim, total dim (front :: l))) [] dim 1 (ashape front)) in Hn; [exact Hn|intros []].
Qed.

Lemma part_nonneg dim a : wfv (a_var a) -> 0 <= part dim a.
Proof.
  intros Hw. unfold part. destruct (extent (ashape a) dim) as [n|] eqn:E; [|lia]. destruct (wf_mk_pairs _ (proj1 Hw)) as [_ (Hn & Hf & _)].
  apply (extent_In _ _ _ Hn) in E. rewrite Forall_forall in Hf. apply Hf. unfold extents. apply in_map_iff. exists (dim, n). split; [reflexivity|exact E].
Qed.

Section Parts.
Context (dim : Dim) (p1 p2 : list (Z * Z)) (Hp : lwf (p1 ++ (dim, 1) :: p2)).
Definition inner_fit (a : arr) : Prop := forall k m, In (k, m) (ashape a) -> k <> dim -> In (k, m) (p1 ++ p2).
Definition part_of (a b : arr) : Prop :=
  a_buf b = a_buf a /\ wfv (a_var b) /\ In (dim, part dim a) (ashape b) /\ (inner_fit a <-> inner_fit b) /\
  forall ix, valid_at (p1 ++ (dim, part dim a) :: p2) ix -> vaddr (a_var b) ix = vaddr (a_var a) ix.

Lemma one_part a : wfv (a_var a) ->
  (exists v, (if dcontains (a_dims a) dim then Ok (a_var a) else var_broadcast (a_var a) (mk (p1 ++ (dim, 1) :: p2))) = Ok v /\ part_of a (mkarr (a_buf a) v) /\
     (dcontains (a_dims a) dim = false -> inner_fit a)) \/
  ((if dcontains (a_dims a) dim then Ok (a_var a) else var_broadcast (a_var a) (mk (p1 ++ (dim, 1) :: p2))) = Throw DimensionError /\ ~ inner_fit a).
Proof.
  intros Hw. destruct (wf_mk_pairs _ (proj1 Hw)) as [Em Hl]. fold (a_dims a) in Em, Hl. fold (ashape a) in Em, Hl.
  rewrite (contains_wf a dim Hw). destruct (mem dim (keys (ashape a))) eqn:E.
  - left. exists (a_var a). split; [reflexivity|]. split; [|discriminate]. apply mem_In, In_keys in E as [n Hn]. pose proof (proj2 (extent_In _ _ _ (proj1 Hl)) Hn) as En.
    unfold part_of, part. rewrite En. cbn [a_buf a_var]. split; [reflexivity|]. split; [exact Hw|]. split; [exact Hn|]. split; [reflexivity|]. reflexivity.
  - apply mem_nIn in E. destruct (wfv_SV _ Hw) as (sf & _ & Hnn & Ev). fold (a_dims a) in Ev, Hnn. fold (ashape a) in Ev, Hnn.
    set (q := p1 ++ (dim, 1) :: p2) in *.
    assert (Epa : part dim a = 1) by (unfold part; replace (extent (ashape a) dim) with (@None Z); [reflexivity|symmetry; apply extent_None, E]).
    pose proof (broadcast_step_ok (ashape a) (mk q) Hl (mk_wf _ Hp) sf (v_offset (a_var a)) (v_readonly (a_var a)) (v_size (a_var a)) Hnn) as Hb.
    rewrite <- Ev in Hb. cbn [view_dims view_step pull] in Hb. rewrite pairs_mk in Hb.
    destruct (broadcast_dims_iff (ashape a) q (proj1 Hl) (proj1 Hp)) as [Eb Hiff]. rewrite Eb in Hb.
    assert (Hinc : incl (ashape a) q <-> inner_fit a).
    { split.
      - intros Hi k m Hk Hne. specialize (Hi _ Hk). unfold q in Hi. apply in_app_or in Hi as [Hi|[[= E1 _]|Hi]]; [apply in_or_app; left; exact Hi|congruence|apply in_or_app; right; exact Hi].
      - intros Hi [k m] Hk. assert (Hne : k <> dim) by (intros ->; apply E, In_keys; eauto). specialize (Hi k m Hk Hne). unfold q.
        apply in_app_or in Hi as [Hi|Hi]; apply in_or_app; [left|right; right]; exact Hi. }
    destruct (forallb _ (ashape a)).
    + left. destruct Hb as (Hlq & _ & _ & c & sf' & off' & ro' & sz' & Ex & Hn' & Hc). destruct (var_broadcast (a_var a) (mk q)) as [v| |]; cbn [bind] in Ex; [|discriminate..].
      injection Ex as <- ->. destruct Hc as (_ & _ & Hc). eexists. split; [reflexivity|]. rewrite <- Hinc. split; [|intros _; apply Hiff; reflexivity].
      unfold part_of. rewrite Epa. fold q. split; [reflexivity|]. split; [apply SV_wfv; assumption|]. unfold ashape at 1, a_dims at 1. cbn [a_var SV v_dims]. rewrite pairs_mk.
      split; [unfold q; apply in_or_app; right; left; reflexivity|]. split.
      * split; [|intros _; apply Hinc, Hiff; reflexivity]. intros _ k m Hk Hne. unfold ashape, a_dims in Hk. cbn [a_var SV v_dims] in Hk. rewrite pairs_mk in Hk. unfold q in Hk.
        apply in_app_or in Hk as [Hi|[[= E1 _]|Hi]]; [apply in_or_app; left; exact Hi|congruence|apply in_or_app; right; exact Hi].
      * intros ix Hix. cbn [a_var]. rewrite vaddr_SV, (Hc ix Hix). symmetry. rewrite Ev at 1. apply vaddr_SV.
    + right. split; [|intros Hi; apply Hinc, Hiff in Hi; discriminate]. destruct Hb as [e Hb]. unfold var_broadcast in *.
      destruct (includes_ok (mk q) (v_dims (a_var a)) (wf_wfm _ (mk_wf _ Hp)) (wf_wfm _ (proj1 Hw))) as (r & Er & Hr). rewrite Er in *. cbn [bind] in *.
      destruct r; [exfalso|reflexivity]. assert (Hx : incl (ashape a) q) by (intros [k m] Hk; pose proof (proj1 Hr eq_refl k m Hk) as Hh; unfold has in Hh; rewrite pairs_mk in Hh; exact Hh).
      apply Hiff in Hx. discriminate.
Qed.

Lemma parts_ok l : Forall (fun a => wfv (a_var a)) l ->
  (exists parts, concat_parts (mk (p1 ++ (dim, 1) :: p2)) dim l = Ok (parts, total dim l) /\ Forall2 part_of l parts) \/
  (concat_parts (mk (p1 ++ (dim, 1) :: p2)) dim l = Throw DimensionError /\ exists a, In a l /\ ~ inner_fit a).
Proof.
  induction l as [|a l IH]; intros Hw; cbn [concat_parts].
  - left. exists []. split; [reflexivity|constructor].
  - apply Forall_cons_iff in Hw as [Ha Hw]. destruct (one_part a Ha) as [(v & -> & Hpart & _)|[-> Hn]]; cbn [bind].
    + assert (Ed : dat (v_dims v) dim = Ok (part dim a)).
      { destruct Hpart as (_ & Hwv & Hi & _). destruct (wf_mk_pairs _ (proj1 Hwv)) as [Em Hl]. cbn [a_var] in *. unfold ashape, a_dims in Hi. cbn [a_var] in Hi. rewrite Em, dat_mk by apply Hl.
        apply (extent_In _ _ _ (proj1 Hl)) in Hi. rewrite Hi. reflexivity. }
      rewrite Ed. cbn [bind]. destruct (IH Hw) as [(parts & -> & Hf)|[-> (b & Hb & Hn)]]; cbn [bind fst snd].
      * left. eexists. split; [reflexivity|]. constructor; assumption.
      * right. split; [reflexivity|]. exists b. split; [right; exact Hb|exact Hn].
    + right. split; [reflexivity|]. exists a. split; [left; reflexivity|exact Hn].
Qed.
End Parts.

Lemma sum_parts dim l : sumZ (map (part dim) l) = total dim l.
Proof. reflexivity. Qed.
Lemma fits_inner dim l p1 p2 a : concat_shape dim l = p1 ++ (dim, total dim l) :: p2 -> (fits_in dim l a <-> inner_fit dim p1 p2 a).
Proof.
  intros E. unfold fits_in, inner_fit. rewrite E. split; intros Hx k m Hk Hne; specialize (Hx k m Hk Hne).
  - apply in_app_or in Hx as [Hi|[[= E1 _]|Hi]]; [apply in_or_app; left; exact Hi|congruence|apply in_or_app; right; exact Hi].
  - apply in_app_or in Hx as [Hi|Hi]; apply in_or_app; [left|right; right]; exact Hi.
Qed.
Lemma inner_dec dim p1 p2 a : inner_fit dim p1 p2 a \/ ~ inner_fit dim p1 p2 a.
Proof.
  assert (Hd : forall e : Z * Z, {fst e <> dim -> In e (p1 ++ p2)} + {~ (fst e <> dim -> In e (p1 ++ p2))}).
  { intros e. destruct (Z.eq_dec (fst e) dim) as [E|E]; [left; contradiction|].
    assert (Hp : forall x y : Z * Z, {x = y} + {x <> y}) by (decide equality; apply Z.eq_dec).
    destruct (in_dec Hp e (p1 ++ p2)) as [Hi|Hi]; [left; auto|right; auto]. }
  destruct (Forall_dec _ Hd (ashape a)) as [Hf|Hf].
  - left. rewrite Forall_forall in Hf. intros k m Hk. exact (Hf (k, m) Hk).
  - right. intros Hx. apply Hf. apply Forall_forall. intros [k m] Hk. exact (Hx k m Hk).
Qed.

Lemma total_nonneg dim l' : Forall (fun a => wfv (a_var a)) l' -> 0 <= total dim l' /\ Forall (fun n => 0 <= n) (map (part dim) l').
Proof.
  intros Hl'. induction Hl' as [|a l' Ha _ [IH1 IH2]]; [split; [cbn; lia|constructor]|]. pose proof (part_nonneg dim a Ha) as Hx.
  unfold total. cbn [map sumZ fold_right]. fold (sumZ (map (part dim) l')). fold (total dim l'). split; [lia|constructor; assumption].
Qed.

Lemma sum_nonneg zs : Forall (fun n => 0 <= n) zs -> 0 <= sumZ zs.
Proof. intros Hz. induction Hz as [|y ys Hy _ IH]; unfold sumZ in *; cbn [fold_right]; lia. Qed.

Lemma vol_pos_iff (p : list (Z * Z)) : lwf p -> ~ (exists k, In (k, 0) p) -> 0 < vol (extents p).
Proof.
  intros (_ & Hf & _) Hn. apply vol_pos, Forall_forall. intros n Hi. rewrite Forall_forall in Hf. specialize (Hf n Hi).
  assert (n <> 0); [|lia]. intros ->. apply Hn. unfold extents in Hi. apply in_map_iff in Hi as ([k m] & E & Hi). cbn in E. subst m. eauto.
Qed.

Section Main.
Context {A : Type} (default : A) (unit : nat -> Z) (dim : Dim) (out tmp : nat) (blocks : sizes -> list (Z * Z)) (l : list arr).
Hypothesis (Hbl : forall d, wf d -> tiles 0 (volume d) (blocks d)) (Hot : out <> tmp) (Hne : l <> []) (Hdim : dim <> InvalidDim)
  (Hw : Forall (fun a => wfv (a_var a)) l) (Hbuf : forall a, In a l -> a_buf a <> out /\ a_buf a <> tmp)
  (Hrank : (length (concat_shape dim l) <= NDIM_OP_MAX)%nat).

Lemma start_ok : exists p1 p2, lwf (p1 ++ (dim, total dim l) :: p2) /\ concat_shape dim l = p1 ++ (dim, total dim l) :: p2 /\
  ((exists parts, concat_start l dim out = Ok (mkarr out (var_fresh (mk (p1 ++ (dim, total dim l) :: p2))), parts) /\ Forall2 (part_of dim p1 p2) l parts) \/
   (concat_start l dim out = Throw DimensionError /\ exists a, In a l /\ ~ inner_fit dim p1 p2 a)).
Proof.
  destruct (base_ok dim l Hne Hw Hdim) as (p1 & p2 & Hp & Ed & Es & _). exists p1, p2. destruct (lwf_app _ _ _ _ Hp) as (L12 & _ & Hk1 & Hk2 & _).
  destruct (total_nonneg dim l Hw) as [Ht _]. split; [apply lwf_app_inv; assumption|]. split; [exact Es|]. unfold concat_start. rewrite Ed. cbn [bind].
  destruct (parts_ok dim p1 p2 Hp l Hw) as [(parts & -> & Hf)|[-> Hx]]; cbn [bind snd fst]; [left|right; auto].
  rewrite resize_sp by (assumption || lia). cbn [bind]. eauto.
Qed.

Lemma goods p1 p2 l' parts : (forall a, In a l' -> a_buf a <> out /\ a_buf a <> tmp) -> Forall2 (part_of dim p1 p2) l' parts -> (forall a, In a l' -> inner_fit dim p1 p2 a) ->
  Forall2 (good dim p1 p2 out tmp) (map (part dim) l') parts.
Proof.
  intros Hb Hf Hi. induction Hf as [|a b l' parts (E1 & E2 & E3 & E4 & E5) Hf IH]; cbn [map]; constructor.
  - destruct (Hb a (or_introl eq_refl)) as [B1 B2]. split; [exact E2|]. rewrite E1. split; [exact B1|]. split; [exact B2|]. split; [exact E3|]. apply E4, Hi. left. reflexivity.
  - apply IH; intros x Hx; [apply Hb|apply Hi]; right; exact Hx.
Qed.
Lemma same_units p1 p2 u l' parts : Forall2 (part_of dim p1 p2) l' parts -> (forall a, In a l' -> unit (a_buf a) = u) -> forall b, In b parts -> unit (a_buf b) = u.
Proof.
  intros Hf Hu b Hb. induction Hf as [|a c l' parts (E1 & _) Hf IH]; [destruct Hb|]. destruct Hb as [<-|Hb].
  - rewrite E1. apply Hu. left. reflexivity.
  - apply IH; [|exact Hb]. intros x Hx. apply Hu. right. exact Hx.
Qed.

(** ** Success *)
Lemma concat_ok u (h : heap A) : (forall a, In a l -> fits_in dim l a) -> (forall a, In a l -> unit (a_buf a) = u) ->
  (exists r, concat_run default unit l dim out tmp blocks h r) /\
  forall r, concat_run default unit l dim out tmp blocks h r -> exists o h', r = Ok (o, h', u) /\ o = mkarr out (var_fresh (a_dims o)) /\ wf (a_dims o) /\
    ashape o = concat_shape dim l /\
    (forall i a ix, nth_error l i = Some a -> inside (a_dims o) ix -> start_of dim l i <= ix dim < start_of dim l i + part dim a ->
       value_at h' o ix = value_at h a (put ix dim (ix dim - start_of dim l i))) /\
    forall c, fst c <> out -> fst c <> tmp -> h' c = h c.
Proof.
  intros Hfit Hu. destruct start_ok as (p1 & p2 & Hp & Es & [(parts & E & Hf)|[E (a & Ha & Hn)]]).
  2:{ exfalso. apply Hn, (fits_inner dim l p1 p2 a Es), Hfit, Ha. }
  assert (Hin : forall a, In a l -> inner_fit dim p1 p2 a) by (intros a Ha; apply (fits_inner dim l p1 p2 a Es), Hfit, Ha).
  pose proof (goods p1 p2 l parts Hbuf Hf Hin) as Hg. destruct (total_nonneg dim l Hw) as [Ht Hnn]. rewrite Es in Hrank.
  destruct (copies_ok dim p1 p2 (total dim l) Hp out tmp Hot Hrank default unit blocks Hbl u (map (part dim) l) parts Hg Hnn (same_units p1 p2 u l parts Hf Hu) h 0) as [[r Hr] Hall]; [lia|rewrite sum_parts; lia|].
  destruct l as [|front l0] eqn:El; [contradiction|]. rewrite <- El in *. assert (Ehd : hd_error l = Some front) by (rewrite El; reflexivity).
  assert (Efu : unit (a_buf front) = u) by (apply Hu; rewrite El; left; reflexivity).
  split.
  - destruct (Hall r Hr) as (h' & -> & _). eexists. eapply cr_ok; [exact E|exact Ehd|]. rewrite Efu. exact Hr.
  - intros r' Hr'. inversion Hr' as [e Ee|o parts' fr e Eo Eh Hc|o parts' fr h' u' Eo Eh Hc]; subst r'.
    + congruence.
    + rewrite E in Eo. injection Eo as <- <-. rewrite Ehd in Eh. injection Eh as <-. rewrite Efu in Hc. destruct (Hall _ Hc) as (? & ? & _). discriminate.
    + rewrite E in Eo. injection Eo as <- <-. rewrite Ehd in Eh. injection Eh as <-. rewrite Efu in Hc. destruct (Hall _ Hc) as (h2 & Eh2 & F1 & F2 & F3). injection Eh2 as <- ->.
      eexists _, _. split; [reflexivity|]. unfold a_dims. cbn [a_var v_dims var_fresh]. split; [reflexivity|]. split; [apply mk_wf, Hp|].
      unfold ashape, a_dims. cbn [a_var v_dims var_fresh]. rewrite pairs_mk. split; [symmetry; exact Es|]. split; [|exact F3].
      intros i a ix Hi Hix Hrg. unfold inside in Hix. rewrite pairs_mk in Hix.
      assert (Hex : exists b, nth_error parts i = Some b /\ part_of dim p1 p2 a b).
      { clear - Hf Hi. revert i Hi. induction Hf as [|x y xs ys Hxy _ IHf]; intros [|i] Hi; try discriminate; [injection Hi as <-; exists y; split; [reflexivity|exact Hxy]|apply (IHf i Hi)]. }
      destruct Hex as (b & Hb & (B1 & _ & _ & _ & B5)). unfold start_of in *.
      assert (En : nth_error (map (part dim) l) i = Some (part dim a)) by (rewrite nth_error_map, Hi; reflexivity).
      specialize (F1 i (part dim a) b ix En Hb Hix). rewrite firstn_map in F1. rewrite !Z.add_0_l in F1. rewrite (F1 Hrg). unfold value_at. rewrite B1. do 2 f_equal. apply B5.
      destruct (lwf_app _ _ _ _ Hp) as (_ & _ & Hk1 & Hk2 & _). apply valid_at_app in Hix as [X Y]. apply valid_at_cons in Y as [Y Z0]. apply valid_at_app. split; [apply valid_at_put; assumption|].
      apply valid_at_cons. rewrite put_same. split; [lia|apply valid_at_put; assumption].
Qed.

(** ** Failure *)
Lemma first_such (P : arr -> Prop) (Hdec : forall a, P a \/ ~ P a) l' : (exists a, In a l' /\ ~ P a) -> exists l1 a l2, l' = l1 ++ a :: l2 /\ (forall b, In b l1 -> P b) /\ ~ P a.
Proof.
  induction l' as [|b l' IH]; intros (a & Ha & Hn); [destruct Ha|]. destruct (Hdec b) as [Hb|Hb].
  - destruct Ha as [<-|Ha]; [contradiction|]. destruct IH as (l1 & c & l2 & -> & H1 & H2); [eauto|]. exists (b :: l1), c, l2. split; [reflexivity|]. split; [|exact H2].
    intros x [<-|Hx]; [exact Hb|apply H1, Hx].
  - exists [], b, l'. split; [reflexivity|]. split; [intros ? []|exact Hb].
Qed.

Lemma concat_dim_error u (h : heap A) : (exists a, In a l /\ ~ fits_in dim l a) -> (forall a, In a l -> unit (a_buf a) = u) ->
  (exists r, concat_run default unit l dim out tmp blocks h r) /\ forall r, concat_run default unit l dim out tmp blocks h r -> r = Throw DimensionError.
Proof.
  intros Hunfit Hu. destruct start_ok as (p1 & p2 & Hp & Es & [(parts & E & Hf)|[E _]]).
  2:{ split; [eexists; apply cr_throw, E|]. intros r Hr. inversion Hr; subst; congruence. }
  assert (Hbad : exists a, In a l /\ ~ inner_fit dim p1 p2 a).
  { destruct Hunfit as (a & Ha & Hn). exists a. split; [exact Ha|]. intros Hi. apply Hn, (fits_inner dim l p1 p2 a Es), Hi. }
  destruct (first_such (inner_fit dim p1 p2) (inner_dec dim p1 p2) l Hbad) as (l1 & a & l2 & El & Hl1 & Hna).
  destruct (total_nonneg dim l Hw) as [Ht Hnn]. rewrite Es in Hrank.
  rewrite El in Hf. apply Forall2_app_inv_l in Hf as (q1 & q2' & Hf1 & Hf2 & Ep). destruct q2' as [|b q2]; [inversion Hf2|]. assert (Hb : part_of dim p1 p2 a b) by (inversion Hf2; assumption).
  assert (Hsub : forall x, In x l1 -> In x l) by (intros x Hx; rewrite El; apply in_or_app; left; exact Hx).
  assert (Hina : In a l) by (rewrite El; apply in_or_app; right; left; reflexivity).
  pose proof (goods p1 p2 l1 q1 (fun x Hx => Hbuf x (Hsub x Hx)) Hf1 Hl1) as Hg.
  assert (Hnn1 : Forall (fun n => 0 <= n) (map (part dim) l1)) by (apply total_nonneg, Forall_forall; intros x Hx; rewrite Forall_forall in Hw; apply Hw, Hsub, Hx).
  pose proof (same_units p1 p2 u l1 q1 Hf1 (fun x Hx => Hu x (Hsub x Hx))) as Hu1.
  assert (Hub : unfit dim p1 p2 (part dim a) b).
  { destruct Hb as (B1 & B2 & B3 & B4 & _). split; [exact B2|]. split; [exact B3|]. intros Hi. exact (Hna (proj2 B4 Hi)). }
  assert (Hpa : 0 <= part dim a) by (apply part_nonneg; rewrite Forall_forall in Hw; apply Hw, Hina).
  assert (Hsum : 0 + sumZ (map (part dim) l1) + part dim a <= total dim l).
  { rewrite El. unfold total. rewrite map_app. cbn [map]. assert (Hsa : forall x y, sumZ (x ++ y) = sumZ x + sumZ y) by (induction x; intros y; cbn; [reflexivity|]; unfold sumZ in *; cbn; rewrite IHx; lia).
    rewrite Hsa. cbn [sumZ fold_right]. fold (sumZ (map (part dim) l2)).
    assert (0 <= sumZ (map (part dim) l2)); [|lia]. apply (total_nonneg dim l2). apply Forall_forall. intros x Hx. rewrite Forall_forall in Hw. apply Hw. rewrite El. apply in_or_app. right. right. exact Hx. }
  destruct (copies_unfit dim p1 p2 (total dim l) Hp out tmp Hot Hrank default unit blocks Hbl u _ q1 (part dim a) b q2 Hg Hnn1 Hu1 Hub Hpa h 0 ltac:(lia) Hsum) as [[r Hr] Hall].
  rewrite <- Ep in Hr, Hall.
  destruct l as [|front l0] eqn:Ell; [contradiction|]. rewrite <- Ell in *. assert (Ehd : hd_error l = Some front) by (rewrite Ell; reflexivity).
  assert (Efu : unit (a_buf front) = u) by (apply Hu; rewrite Ell; left; reflexivity).
  split.
  - rewrite (Hall r Hr) in Hr. eexists. eapply cr_fail; [exact E|exact Ehd|]. rewrite Efu. exact Hr.
  - intros r' Hr'. inversion Hr' as [e Ee|o parts' fr e Eo Eh Hc|o parts' fr h' u' Eo Eh Hc]; subst r'.
    + congruence.
    + rewrite E in Eo. injection Eo as <- <-. rewrite Ehd in Eh. injection Eh as <-. rewrite Efu in Hc. specialize (Hall _ Hc). congruence.
    + rewrite E in Eo. injection Eo as <- <-. rewrite Ehd in Eh. injection Eh as <-. rewrite Efu in Hc. specialize (Hall _ Hc). discriminate.
Qed.

Lemma concat_unit_error front l0 (h : heap A) : l = front :: l0 -> (forall a, In a l -> fits_in dim l a) ->
  ~ empty_shape (concat_shape dim l) -> 0 < part dim front -> (exists a, In a l /\ unit (a_buf a) <> unit (a_buf front)) ->
  (exists r, concat_run default unit l dim out tmp blocks h r) /\ forall r, concat_run default unit l dim out tmp blocks h r -> r = Throw UnitError.
Proof.
  intros Ell Hfit Hnemp Hfr Hdiff. set (u := unit (a_buf front)) in *.
  destruct start_ok as (p1 & p2 & Hp & Es & [(parts & E & Hf)|[E (a & Ha & Hn)]]).
  2:{ exfalso. apply Hn, (fits_inner dim l p1 p2 a Es), Hfit, Ha. }
  assert (Hin : forall a, In a l -> inner_fit dim p1 p2 a) by (intros a Ha; apply (fits_inner dim l p1 p2 a Es), Hfit, Ha).
  destruct (first_such (fun a => unit (a_buf a) = u) ltac:(intros a; cbn; lia) l Hdiff) as (l1 & a & l2 & El & Hl1 & Hna).
  destruct (total_nonneg dim l Hw) as [Ht Hnn]. rewrite Es in Hrank.
  rewrite El in Hf. apply Forall2_app_inv_l in Hf as (q1 & q2' & Hf1 & Hf2 & Ep). destruct q2' as [|b q2]; [inversion Hf2|]. assert (Hb : part_of dim p1 p2 a b) by (inversion Hf2; assumption).
  assert (Hsub : forall x, In x l1 -> In x l) by (intros x Hx; rewrite El; apply in_or_app; left; exact Hx).
  assert (Hina : In a l) by (rewrite El; apply in_or_app; right; left; reflexivity).
  pose proof (goods p1 p2 l1 q1 (fun x Hx => Hbuf x (Hsub x Hx)) Hf1 (fun x Hx => Hin x (Hsub x Hx))) as Hg.
  assert (Hnn1 : Forall (fun n => 0 <= n) (map (part dim) l1)) by (apply total_nonneg, Forall_forall; intros x Hx; rewrite Forall_forall in Hw; apply Hw, Hsub, Hx).
  pose proof (same_units p1 p2 u l1 q1 Hf1 Hl1) as Hu1.
  assert (Hgb : good dim p1 p2 out tmp (part dim a) b).
  { destruct Hb as (B1 & B2 & B3 & B4 & _). destruct (Hbuf a Hina). split; [exact B2|]. rewrite B1. split; [assumption|]. split; [assumption|]. split; [exact B3|]. exact (proj1 B4 (Hin a Hina)). }
  assert (Hub : unit (a_buf b) <> u) by (destruct Hb as (-> & _); exact Hna).
  assert (Hpa : 0 <= part dim a) by (apply part_nonneg; rewrite Forall_forall in Hw; apply Hw, Hina).
  assert (Hsa : forall x y, sumZ (x ++ y) = sumZ x + sumZ y) by (induction x; intros y; cbn; [reflexivity|]; unfold sumZ in *; cbn; rewrite IHx; lia).
  assert (Hsum : 0 + sumZ (map (part dim) l1) + part dim a <= total dim l).
  { rewrite El. unfold total. rewrite map_app. cbn [map]. rewrite Hsa. cbn [sumZ fold_right]. fold (sumZ (map (part dim) l2)).
    assert (0 <= sumZ (map (part dim) l2)); [|lia]. apply (total_nonneg dim l2). apply Forall_forall. intros x Hx. rewrite Forall_forall in Hw. apply Hw. rewrite El. apply in_or_app. right. right. exact Hx. }
  assert (Hpos : 0 < 0 + sumZ (map (part dim) l1)).
  { destruct l1 as [|x l1]; [exfalso; rewrite Ell in El; cbn [app] in El; injection El as -> _; apply Hna; reflexivity|]. rewrite Ell in El. cbn [app] in El. injection El as <- _.
    cbn [map sumZ fold_right]. apply Forall_cons_iff in Hnn1 as [_ Hnn1]. fold (sumZ (map (part dim) l1)).
    assert (0 <= sumZ (map (part dim) l1)); [|lia]. apply sum_nonneg, Hnn1. }
  assert (Hvol : 0 < vol (extents p2)).
  { apply vol_pos_iff; [destruct (lwf_app _ _ _ _ Hp) as (L12 & _); apply lwf_app2 in L12; apply L12|]. intros [k Hk]. apply Hnemp. exists k. rewrite Es. apply in_or_app. right. right. exact Hk. }
  destruct (copies_unit dim p1 p2 (total dim l) Hp out tmp Hot Hrank default unit blocks Hbl u _ q1 (part dim a) b q2 Hg Hnn1 Hu1 Hgb Hpa Hub Hvol h 0 ltac:(lia) Hpos Hsum) as [[r Hr] Hall].
  rewrite <- Ep in Hr, Hall. assert (Ehd : hd_error l = Some front) by (rewrite Ell; reflexivity).
  split.
  - rewrite (Hall r Hr) in Hr. eexists. eapply cr_fail; [exact E|exact Ehd|exact Hr].
  - intros r' Hr'. inversion Hr' as [e Ee|o parts' fr e Eo Eh Hc|o parts' fr h' u' Eo Eh Hc]; subst r'.
    + congruence.
    + rewrite E in Eo. injection Eo as <- <-. rewrite Ehd in Eh. injection Eh as <-. specialize (Hall _ Hc). congruence.
    + rewrite E in Eo. injection Eo as <- <-. rewrite Ehd in Eh. injection Eh as <-. specialize (Hall _ Hc). discriminate.
Qed.
End Main.
