(** C16: operands with variances are never read more than once per element (unless the kernel allows it), and
    operands that are read once per element are accepted. *)
From Verif Require Import Base Map_Model Map_Spec Map_Proofs Dims_Model Dims_Spec Dims_Proofs View_Model View_Spec
  View_Proofs Variance_Model.

(** ** Specification *)
(** Variables the API can make: views of views of ... of a new variable (copies in between allowed). *)
Definition reachable (v : var) : Prop :=
  exists d os (buf' : Z -> unit), wf d /\ Forall op_ok os /\ view_chain (fun _ => tt) (var_fresh d) os = Ok (buf', v).

(** Different positions of the output read different elements of the operand. *)
Definition read_once (dims : sizes) (o : operand) : Prop :=
  forall ix ix', valid_at (pairs dims) ix -> valid_at (pairs dims) ix' ->
    vaddr (o_view o) ix = vaddr (o_view o) ix' -> same_at (pairs dims) ix ix'.

(** Values with variances that are not events, next to events: each is used for all the events of a bin. *)
Definition used_for_events (os : list operand) : Prop :=
  (exists o, In o os /\ o_bins o = true) /\ (exists o, In o os /\ o_variances o = true /\ o_bins o = false).

(** ** Strides of views: labels of stride 0 are the only ones that can repeat elements. *)
Definition spread (p : list (Z * Z)) (sf : Z -> Z) : Prop :=
  forall ix ix', valid_at p ix -> valid_at p ix' -> asum p sf ix = asum p sf ix' ->
    forall k, In k (keys p) -> sf k <> 0 -> ix k = ix' k.

Lemma valid_put p ix k x : valid_at p ix -> (forall n, In (k, n) p -> 0 <= x < n) -> valid_at p (put ix k x).
Proof.
  intros Hv Hx j n Hj. unfold put. destruct (Z.eqb_spec j k) as [->|]; [apply Hx, Hj|apply Hv, Hj].
Qed.

Lemma asum_put_in p sf ix k x : NoDup (keys p) -> In k (keys p) ->
  asum p sf (put ix k x) = asum p sf ix + sf k * (x - ix k).
Proof.
  induction p as [|[l n] p IH]; intros Hnd Hk; [contradiction|]. rewrite !asum_cons.
  cbn [keys map fst] in Hnd, Hk. apply NoDup_cons_iff in Hnd as [Hl Hnd].
  destruct (Z.eq_dec l k) as [->|Hne].
  - rewrite put_same, asum_put by exact Hl. ring.
  - rewrite put_other by exact Hne. destruct Hk as [Hk|Hk]; [congruence|]. rewrite (IH Hnd Hk). ring.
Qed.

Lemma pull_rename_coord names k : exists g, forall ix, pull_rename names ix k = ix g.
Proof.
  revert k. induction names as [|[f t] names IH]; intros k; [exists k; reflexivity|]. cbn [pull_rename].
  unfold put. destruct (Z.eqb_spec k f) as [->|]; apply IH.
Qed.

Lemma puts_in ix ix' ls : forall xs k, length xs = length ls -> In k ls -> puts ix ls xs k = puts ix' ls xs k.
Proof.
  induction ls as [|l ls IH]; intros [|x xs] k Hl Hk; try discriminate; [contradiction|]. cbn [puts].
  unfold put. destruct (Z.eqb_spec k l) as [->|Hne]; [reflexivity|].
  destruct Hk as [Hk|Hk]; [congruence|]. apply IH; [|assumption]. injection Hl as Hl. exact Hl.
Qed.
Lemma puts_out ix ls : forall xs k, ~ In k ls -> puts ix ls xs k = ix k.
Proof.
  induction ls as [|l ls IH]; intros [|x xs] k Hk; try reflexivity. cbn [puts].
  rewrite put_other by (intros ->; apply Hk; left; reflexivity). apply IH. intros Hi. apply Hk. right. exact Hi.
Qed.

Lemma index_at_length sh : forall k, length (index_at sh k) = length sh.
Proof. induction sh as [|n sh IH]; intros k; cbn [index_at length]; [reflexivity|]. rewrite IH. reflexivity. Qed.

(** Every pulled coordinate depends on one coordinate (all operations but fold). *)
Lemma pull_coord p o k : (forall d t, o <> VwFold d t) ->
  exists g (h : Z -> Z), forall ix, pull p o ix k = h (ix g).
Proof.
  intros Hnf. destruct o as [s|t|d t|l|names f|sel|from to|]; cbn [pull].
  - destruct (slice_eqb s slice_default); [exists k, (fun x => x); reflexivity|].
    destruct (s_end s =? -1); unfold put; (destruct (Z.eqb_spec k (s_dim s)) as [->|]; [|exists k, (fun x => x); reflexivity]).
    + exists (s_dim s), (fun _ => s_begin s). reflexivity.
    + exists (s_dim s), (fun x => s_begin s + s_stride s * x). reflexivity.
  - exists k, (fun x => x). reflexivity.
  - destruct (Hnf d t eq_refl).
  - exists k, (fun x => x). reflexivity.
  - destruct (pull_rename_coord names k) as [g Hg]. exists g, (fun x => x). exact Hg.
  - destruct (mem k (squeezed p sel)); [exists k, (fun _ => 0)|exists k, (fun x => x)]; reflexivity.
  - destruct (in_dec Z.eq_dec k from) as [Hk|Hk].
    + exists to, (fun x => puts (fun _ => 0) from (index_at (map (ext p) from) x) k). intros ix.
      apply puts_in; [|assumption]. rewrite index_at_length, map_length. reflexivity.
    + exists k, (fun x => x). intros ix. apply puts_out. exact Hk.
  - exists k, (fun x => x). reflexivity.
Qed.

Lemma fold_dims_valid p d t p' ix : fold_dims p d t = Some p' -> valid_at p' ix -> In d (keys p) -> valid_at t ix.
Proof.
  unfold fold_dims. set (r := flat_map _ p). destruct (_ && _ && _); [|discriminate]. injection 1 as <-.
  intros Hv Hd k n Hk. apply Hv. apply in_map_iff in Hd as (e & He & Hin). unfold r. apply in_flat_map.
  exists e. split; [assumption|]. rewrite He, Z.eqb_refl. exact Hk.
Qed.
Lemma fold_dims_mem p d t p' : fold_dims p d t = Some p' -> In d (keys p).
Proof.
  unfold fold_dims, mem. destruct (existsb (Z.eqb d) (keys p)) eqn:E; [|discriminate]. intros _.
  apply existsb_exists in E as (x & Hx & Hd). apply Z.eqb_eq in Hd. subst. assumption.
Qed.

Lemma position_inj_at t ix ix' : valid_at t ix -> valid_at t ix' ->
  position (extents t) (map ix (keys t)) = position (extents t) (map ix' (keys t)) -> same_at t ix ix'.
Proof.
  intros Hv Hv' E k Hk. apply (map_eq_in _ _ (keys t)); [|assumption]. apply valid_at_idx in Hv, Hv'.
  rewrite <- (index_at_position _ _ Hv), <- (index_at_position _ _ Hv'), E. reflexivity.
Qed.

Lemma spread_step p o p' sf off ro sz c sf' off' ro' sz' : lwf p -> op_ok o -> nonneg_at p sf -> spread p sf ->
  view_dims p o = Some p' -> view_step (SV p sf off ro sz) o = Ok (c, SV p' sf' off' ro' sz') ->
  spread p' sf'.
Proof.
  intros Hp Ho Hnn Hs Hd HE. pose proof (view_step_ok p o Hp Ho sf off ro sz Hnn) as Hst. rewrite Hd in Hst.
  destruct Hst as (Hw & Hv & Hi & c2 & sf2 & off2 & ro2 & sz2 & HE2 & Hn2 & Hc).
  rewrite HE in HE2. injection HE2 as <- Hsf <- <- <-.
  assert (Hsfk : forall k, In k (keys p') -> sf' k = sf2 k).
  { intros k Hk. apply (map_eq_in sf' sf2 (keys p')); assumption. }
  assert (Has : forall ix, asum p' sf' ix = asum p' sf2 ix) by (intros ix; apply asum_sf; exact Hsfk).
  intros ix ix' Hix Hix' E k' Hk' Hne.
  destruct c.
  - destruct Hc as (_ & _ & Hm & Hc). rewrite !Has in E.
    apply (Hi ix ix' Hm Hix Hix'); [|assumption]. apply position_inj_at; [apply Hv, Hix|apply Hv, Hix'|].
    rewrite <- !Hc by assumption. lia.
  - destruct Hc as (_ & _ & Hc). rewrite !Has in E.
    assert (Hpe : forall k, In k (keys p) -> sf k <> 0 -> pull p o ix k = pull p o ix' k).
    { apply Hs; [apply Hv, Hix|apply Hv, Hix'|]. pose proof (Hc ix Hix). pose proof (Hc ix' Hix'). lia. }
    set (jx := put ix k' (ix' k')).
    assert (Hjx : valid_at p' jx).
    { apply valid_put; [assumption|]. intros n Hn. apply (Hix' k' n Hn). }
    assert (Hjk : forall k, jx k = ix k \/ jx k = ix' k).
    { intros k. unfold jx, put. destruct (Z.eqb_spec k k') as [->|]; auto. }
    assert (Hpj : forall k, In k (keys p) -> sf k <> 0 -> pull p o jx k = pull p o ix k).
    { intros k Hk Hsk.
      assert (Hcase : (exists d t, o = VwFold d t) \/ forall d t, o <> VwFold d t).
      { destruct o; try (right; intros; discriminate). left. eauto. }
      destruct Hcase as [(d & t & ->)|Hnf].
      - cbn [pull]. cbn [view_dims] in Hd. unfold put at 1 2. destruct (Z.eqb_spec k d) as [->|Hkd].
        + pose proof (fold_dims_mem _ _ _ _ Hd) as Hdm.
          pose proof (Hpe d Hk Hsk) as Hpd. cbn [pull] in Hpd. rewrite !put_same in Hpd.
          apply position_inj_at in Hpd; [|eapply fold_dims_valid; eauto|eapply fold_dims_valid; eauto].
          f_equal. apply map_ext_in. intros l Hl. destruct (Hjk l) as [->| ->]; [reflexivity|]. symmetry. apply Hpd, Hl.
        + pose proof (Hpe k Hk Hsk) as Hpd. cbn [pull] in Hpd. rewrite !put_other in Hpd by assumption.
          destruct (Hjk k) as [->| ->]; [reflexivity|]. symmetry. exact Hpd.
      - destruct (pull_coord p o k Hnf) as (g & h & Hg). rewrite !Hg. pose proof (Hpe k Hk Hsk) as Hpk.
        rewrite !Hg in Hpk. destruct (Hjk g) as [->| ->]; [reflexivity|]. symmetry. exact Hpk. }
    assert (Hae : asum p sf (pull p o jx) = asum p sf (pull p o ix)).
    { apply lsum_ext. intros k Hk. destruct (Z.eq_dec (sf k) 0) as [Hz|Hz]; [rewrite Hz; ring|].
      rewrite (Hpj k Hk Hz). reflexivity. }
    pose proof (Hc ix Hix) as Hci. pose proof (Hc jx Hjx) as Hcj. unfold jx in Hcj.
    rewrite asum_put_in in Hcj by (apply Hw || assumption). fold jx in Hcj.
    rewrite (Hsfk _ Hk') in Hne. nia.
Qed.

Lemma spread_chain os : forall p (buf : Z -> unit) sf off ro sz buf' v', lwf p -> nonneg_at p sf -> Forall op_ok os ->
  spread p sf -> view_chain buf (SV p sf off ro sz) os = Ok (buf', v') ->
  exists p' sf' off' ro' sz', v' = SV p' sf' off' ro' sz' /\ lwf p' /\ nonneg_at p' sf' /\ spread p' sf'.
Proof.
  induction os as [|o os IH]; intros p buf sf off ro sz buf' v' Hp Hn Hos Hs HE; cbn [view_chain] in HE.
  - injection HE as <- <-. exists p, sf, off, ro, sz. auto.
  - apply Forall_cons_iff in Hos as [Ho Hos]. pose proof (view_step_ok p o Hp Ho sf off ro sz Hn) as Hst.
    destruct (view_dims p o) as [p1|] eqn:Ed; [|destruct Hst as [e Hst]; rewrite Hst in HE; discriminate].
    destruct Hst as (Hw & _ & _ & c & sf2 & off2 & ro2 & sz2 & HE2 & Hn2 & _). rewrite HE2 in HE. cbn [bind fst snd] in HE.
    refine (IH p1 _ sf2 off2 ro2 sz2 buf' v' Hw Hn2 Hos _ HE).
    apply (spread_step p o p1 sf off ro sz c sf2 off2 ro2 sz2 Hp Ho Hn Hs Ed HE2).
Qed.

Lemma reachable_spread v : reachable v ->
  exists p sf off ro sz, v = SV p sf off ro sz /\ lwf p /\ nonneg_at p sf /\ spread p sf.
Proof.
  intros (d & os & buf' & Hd & Hos & HE). pose proof (proj1 (wf_lwf _) Hd) as [Hp Hlen].
  assert (Hf : var_fresh d = SV (pairs d) (sfc (pairs d)) 0 false (vol (extents (pairs d)))).
  { rewrite <- (mk_pairs d Hlen) at 1. apply fresh_SV, Hp. }
  rewrite Hf in HE. apply (spread_chain os _ _ _ _ _ _ _ _ Hp (sfc_nonneg _ Hp) Hos) in HE; [exact HE|].
  intros ix ix' Hix Hix' E k Hk _. destruct (fresh_state _ Hp) as [_ Hinj].
  apply (Hinj ix ix' Hix Hix'); [|assumption]. rewrite !vaddr_SV. lia.
Qed.
Lemma reachable_wfv v : reachable v -> wfv v.
Proof. intros Hr. destruct (reachable_spread v Hr) as (p & sf & off & ro & sz & -> & Hp & Hn & _). apply SV_wfv; assumption. Qed.

(** ** Merging of many shapes *)
Lemma dims_merge_inv a b m : wf a -> wf b -> dims_merge a b = Ok m ->
  wf m /\ forall k n, has m k n <-> has a k n \/ has b k n.
Proof.
  intros Ha Hb HE. assert (Hnc : ~ conflict a b).
  { intros Hc. rewrite (merge_conflict a b Ha Hb Hc) in HE. discriminate. }
  destruct (merge_ok a b Ha Hb Hnc) as (m' & HE' & Hw & Hh & _). rewrite HE in HE'. injection HE' as <-. auto.
Qed.
Lemma merge_from_inv os : forall a m, wf a -> Forall (fun o => wf (o_dims o)) os -> merge_from a os = Ok m ->
  wf m /\ forall k n, has m k n <-> has a k n \/ exists o, In o os /\ has (o_dims o) k n.
Proof.
  induction os as [|o os IH]; intros a m Ha Hos HE; cbn [merge_from] in HE.
  - injection HE as <-. split; [assumption|]. intros k n. split; [auto|]. intros [Hh|(o & [] & _)]. exact Hh.
  - apply Forall_cons_iff in Hos as [Ho Hos]. destruct (dims_merge a (o_dims o)) as [b| |] eqn:Eb; try discriminate.
    cbn [bind] in HE. destruct (dims_merge_inv _ _ _ Ha Ho Eb) as [Hb Hh]. destruct (IH b m Hb Hos HE) as [Hm Hm'].
    split; [assumption|]. intros k n. rewrite Hm', Hh. split.
    + intros [[Hk|Hk]|(o' & Hi & Hk)]; [left|right; exists o|right; exists o']; cbn [In]; auto.
    + intros [Hk|(o' & [<-|Hi] & Hk)]; auto. right. exists o'. auto.
Qed.
Lemma merge_all_inv os m : Forall (fun o => wf (o_dims o)) os -> merge_all os = Ok m ->
  wf m /\ forall k n, has m k n <-> exists o, In o os /\ has (o_dims o) k n.
Proof.
  destruct os as [|o os]; [discriminate|]. intros Hos HE. apply Forall_cons_iff in Hos as [Ho Hos].
  destruct (merge_from_inv os _ _ Ho Hos HE) as [Hm Hh]. split; [assumption|]. intros k n. rewrite Hh. split.
  - intros [Hk|(o' & Hi & Hk)]; [exists o|exists o']; cbn [In]; auto.
  - intros (o' & [<-|Hi] & Hk); [auto|]. right. exists o'. auto.
Qed.

Lemma NoDup_fst_inj (l : list (Z * Z)) k m n : NoDup (map fst l) -> In (k, m) l -> In (k, n) l -> m = n.
Proof.
  induction l as [|[a b] l IH]; intros Hnd Hm Hn; [contradiction|]. cbn [map fst] in Hnd.
  apply NoDup_cons_iff in Hnd as [Ha Hnd].
  destruct Hm as [Em|Hm], Hn as [En|Hn].
  - congruence.
  - exfalso. apply Ha. injection Em as -> _. apply (in_map fst) in Hn. exact Hn.
  - exfalso. apply Ha. injection En as -> _. apply (in_map fst) in Hm. exact Hm.
  - apply IH; assumption.
Qed.

(** Merging into a shape that has everything keeps its content. *)
Lemma merge_from_includes os : forall a, wf a -> Forall (fun o => wf (o_dims o)) os ->
  (forall o k n, In o os -> has (o_dims o) k n -> has a k n) ->
  exists m, merge_from a os = Ok m /\ wf m /\ forall k n, has m k n <-> has a k n.
Proof.
  induction os as [|o os IH]; intros a Ha Hos Hi; cbn [merge_from].
  - exists a. repeat split; auto; apply Ha.
  - apply Forall_cons_iff in Hos as [Ho Hos].
    assert (Hnc : ~ conflict a (o_dims o)).
    { intros (k & m & n & Hk & Hn & Hne). apply Hne. apply (Hi o k n) in Hn; [|left; reflexivity].
      apply (NoDup_fst_inj (pairs a) k m n); [|assumption|assumption].
      pose proof (proj1 (wf_lwf _) Ha) as [Hl _]. apply Hl. }
    destruct (merge_ok a (o_dims o) Ha Ho Hnc) as (b & Eb & Hb & Hh & _). rewrite Eb. cbn [bind].
    assert (Hha : forall k n, has b k n <-> has a k n).
    { intros k n. rewrite Hh. split; [|auto]. intros [Hk|Hk]; [assumption|]. apply (Hi o k n); [left; reflexivity|assumption]. }
    destruct (IH b Hb Hos) as (m & Em & Hm & Hhm).
    + intros o' k n Ho' Hk. apply Hha, (Hi o' k n); [right; assumption|assumption].
    + exists m. split; [assumption|]. split; [assumption|]. intros k n. rewrite Hhm. apply Hha.
Qed.

(** ** One operand *)
Lemma pairs_keys d : wf d -> keys (pairs d) = labels d.
Proof. intros Hd. pose proof (proj1 (wf_lwf _) Hd) as [_ Hl]. rewrite <- (mk_pairs d Hl) at 2. reflexivity. Qed.
Lemma pairs_extents d : wf d -> extents (pairs d) = shape d.
Proof. intros Hd. pose proof (proj1 (wf_lwf _) Hd) as [_ Hl]. rewrite <- (mk_pairs d Hl) at 2. reflexivity. Qed.
Lemma In_keys_has d k : In k (keys (pairs d)) <-> exists n, has d k n.
Proof.
  unfold has, keys. rewrite in_map_iff. split.
  - intros ([k' n] & <- & Hi). exists n. exact Hi.
  - intros (n & Hi). exists (k, n). auto.
Qed.

Lemma zero_extent_vol l : In 0 l -> vol l = 0.
Proof. induction l as [|n l IH]; intros []; cbn [vol fold_right]; [subst; reflexivity|]. rewrite IH by assumption. ring. Qed.

Lemma not_bad_read_once dims o : wf dims -> reachable (o_view o) ->
  (forall k n, has (o_dims o) k n -> has dims k n) -> o_variances o = true ->
  bad_variance_broadcast dims o = false -> read_once dims o.
Proof.
  intros Hd Hr Hi Hvar Hb ix ix' Hix Hix' E.
  unfold bad_variance_broadcast in Hb. rewrite Hvar in Hb. cbn [negb] in Hb.
  destruct (Z.ltb_spec (zlen (labels (o_dims o))) (zlen (labels dims))) as [|Hlen]; [discriminate|].
  destruct (reachable_spread _ Hr) as (p & sf & off & ro & sz & Ev & Hp & Hn & Hs).
  unfold o_dims in *. rewrite Ev in *. cbn [SV v_dims v_strides] in *.
  assert (Hkeys : forall k, In k (keys (pairs dims)) -> In k (keys p)).
  { assert (Hincl : incl (keys p) (labels dims)).
    { intros k Hk. rewrite <- pairs_keys by assumption. apply In_keys_has. apply In_keys in Hk as [n Hk].
      exists n. apply Hi. unfold has. rewrite pairs_mk. exact Hk. }
    intros k Hk. rewrite pairs_keys in Hk by assumption.
    apply (NoDup_length_incl (l := keys p) (l' := labels dims)); [apply Hp| |exact Hincl|exact Hk].
    unfold labels, mk in Hlen |- *. cbn [m_keys] in Hlen. unfold zlen in Hlen. lia. }
  assert (Hvp : forall jx, valid_at (pairs dims) jx -> valid_at p jx).
  { intros jx Hjx k n Hk. apply Hjx. apply Hi. unfold has. rewrite pairs_mk. exact Hk. }
  rewrite !vaddr_SV in E.
  destruct (Z.eqb_spec (volume dims) 0) as [Hv0|Hv0].
  - exfalso. rewrite volume_vol, <- pairs_extents in Hv0 by assumption.
    apply valid_at_idx in Hix. apply position_bound in Hix. lia.
  - intros k Hk. apply (Hs ix ix'); [apply Hvp, Hix|apply Hvp, Hix'|lia|apply Hkeys, Hk|].
    intros Hz. assert (Ht : existsb (fun s => s =? 0) (map sf (keys p)) = true).
    { apply existsb_exists. exists (sf k). split; [apply in_map, Hkeys, Hk|]. apply Z.eqb_eq, Hz. }
    congruence.
Qed.

Lemma read_once_not_bad dims o : wf dims -> wfv (o_view o) ->
  (forall k n, has (o_dims o) k n -> has dims k n) -> (forall k n, has dims k n -> 2 <= n) ->
  read_once dims o -> bad_variance_broadcast dims o = false.
Proof.
  intros Hd Hw Hi H2 Hro. unfold bad_variance_broadcast. destruct (o_variances o); [cbn [negb]|reflexivity].
  destruct (wfv_SV _ Hw) as (sf & Hp & Hn & Ev). unfold o_dims in *.
  set (p := pairs (v_dims (o_view o))) in *.
  set (z := fun _ : Z => 0).
  assert (Hz : valid_at (pairs dims) z) by (intros k n Hk; specialize (H2 k n Hk); unfold z; lia).
  assert (Hone : forall k, In k (keys (pairs dims)) -> valid_at (pairs dims) (put z k 1)).
  { intros k Hk. apply valid_put; [assumption|]. intros n Hn'. specialize (H2 k n Hn'). lia. }
  assert (Hdiff : forall k, In k (keys (pairs dims)) -> vaddr (o_view o) z <> vaddr (o_view o) (put z k 1)).
  { intros k Hk E. specialize (Hro z (put z k 1) Hz (Hone k Hk) E k Hk). rewrite put_same in Hro. unfold z in Hro. lia. }
  assert (Hin : forall k, In k (keys (pairs dims)) -> In k (keys p) /\ sf k <> 0).
  { intros k Hk. specialize (Hdiff k Hk). rewrite Ev, !vaddr_SV in Hdiff.
    destruct (in_dec Z.eq_dec k (keys p)) as [Hkp|Hkp].
    - split; [assumption|]. intros Hs0. apply Hdiff. rewrite asum_put_in by (apply Hp || assumption). rewrite Hs0. ring.
    - exfalso. apply Hdiff. rewrite asum_put by assumption. reflexivity. }
  destruct (Z.ltb_spec (zlen (labels (v_dims (o_view o)))) (zlen (labels dims))) as [Hlt|_].
  - exfalso. assert (Hle : (length (labels dims) <= length (labels (v_dims (o_view o))))%nat).
    { apply NoDup_incl_length; [apply Hd|]. intros k Hk. rewrite <- pairs_keys in Hk by assumption.
      rewrite <- pairs_keys by apply Hw. apply (Hin k Hk). }
    unfold zlen in Hlt. lia.
  - destruct (volume dims =? 0); [reflexivity|]. apply not_true_iff_false. intros Ht.
    apply existsb_exists in Ht as (s & Hs & Hs0). apply Z.eqb_eq in Hs0. subst s.
    rewrite Ev in Hs. cbn [SV v_strides] in Hs. apply in_map_iff in Hs as (k & Hk0 & Hk).
    apply (Hin k); [|exact Hk0]. apply In_keys_has. apply In_keys_has in Hk as (n & Hk). exists n. apply Hi, Hk.
Qed.

Lemma existsb_used os : existsb o_bins os && existsb dense_with_variances os = true <-> used_for_events os.
Proof.
  unfold used_for_events, dense_with_variances. rewrite andb_true_iff, !existsb_exists. split.
  - intros [(o & Ho & Hb) (o' & Ho' & Hv)]. apply andb_prop in Hv as [Hv Hb']. apply negb_true_iff in Hb'. eauto 10.
  - intros [(o & Ho & Hb) (o' & Ho' & Hv & Hb')]. split; [eauto|]. exists o'. rewrite Hv, Hb'. auto.
Qed.

(** ** C16 *)
(** C16: if the check passes, every operand with variances is read once per output element, and no value with
    variances is used for the events of a bin. *)
Theorem C16_detects : forall os dims, Forall (fun o => reachable (o_view o)) os ->
  transform_check false os = Ok dims ->
  (forall o, In o os -> o_variances o = true -> read_once dims o) /\ ~ used_for_events os.
Proof.
  intros os dims Hr HE. unfold transform_check in HE. destruct (merge_all os) as [m| |] eqn:Em; try discriminate.
  cbn [bind] in HE. destruct (existsb (bad_variance_broadcast m) os) eqn:Eb; [discriminate|].
  destruct (existsb o_bins os && existsb dense_with_variances os) eqn:Eu; [discriminate|]. injection HE as ->.
  assert (Hw : Forall (fun o => wf (o_dims o)) os).
  { eapply Forall_impl; [|exact Hr]. intros o Ho. apply (reachable_wfv _ Ho). }
  destruct (merge_all_inv _ _ Hw Em) as [Hd Hh]. rewrite Forall_forall in Hr. split.
  - intros o Ho Hv. apply not_bad_read_once; auto.
    + intros k n Hk. apply Hh. eauto.
    + apply not_true_iff_false. intros Hb. apply not_true_iff_false in Eb. apply Eb. apply existsb_exists. eauto.
  - intros Hu. apply existsb_used in Hu. congruence.
Qed.
Print Assumptions C16_detects.

(** C16: if all extents of the output are at least 2, nothing else is rejected: the operation fails with a
    variances error exactly if an operand with variances is read more than once or used for events. *)
Theorem C16_accepts : forall os dims, Forall (fun o => reachable (o_view o)) os -> merge_all os = Ok dims ->
  (forall k n, has dims k n -> 2 <= n) ->
  (forall o, In o os -> o_variances o = true -> read_once dims o) -> ~ used_for_events os ->
  transform_check false os = Ok dims.
Proof.
  intros os dims Hr Em H2 Hro Hu. unfold transform_check. rewrite Em. cbn [bind].
  assert (Hw : Forall (fun o => wf (o_dims o)) os).
  { eapply Forall_impl; [|exact Hr]. intros o Ho. apply (reachable_wfv _ Ho). }
  destruct (merge_all_inv _ _ Hw Em) as [Hd Hh]. rewrite Forall_forall in Hr.
  destruct (existsb (bad_variance_broadcast dims) os) eqn:Eb.
  - exfalso. apply existsb_exists in Eb as (o & Ho & Hb). destruct (o_variances o) eqn:Ev.
    + rewrite read_once_not_bad in Hb; [discriminate|assumption|apply reachable_wfv, Hr, Ho| |assumption|auto].
      intros k n Hk. apply Hh. eauto.
    + unfold bad_variance_broadcast in Hb. rewrite Ev in Hb. discriminate.
  - destruct (existsb o_bins os && existsb dense_with_variances os) eqn:Eu; [|reflexivity].
    apply existsb_used in Eu. contradiction.
Qed.
Print Assumptions C16_accepts.

Lemma includes_all_inv v os : wf v -> Forall (fun o => wf (o_dims o)) os -> 
  (includes_all v os = Ok tt /\ forall o k n, In o os -> has (o_dims o) k n -> has v k n) \/
  (includes_all v os = Throw DimensionError /\ exists o k n, In o os /\ has (o_dims o) k n /\ ~ has v k n).
Proof.
  intros Hv. induction os as [|o os IH]; intros Hos; cbn [includes_all]; [left; split; [reflexivity|intros ? ? ? []]|].
  apply Forall_cons_iff in Hos as [Ho Hos].
  destruct (includes_ok v (o_dims o)) as (b & -> & Hb); [apply wf_wfm, Hv|apply wf_wfm, Ho|]. cbn [bind]. destruct b.
  - destruct (IH Hos) as [(-> & Hall)|(-> & o' & k & n & Hi & Hk & Hn)].
    + left. split; [reflexivity|]. intros o' k n [<-|Hi] Hk; [apply (proj1 Hb eq_refl), Hk|apply (Hall o' k n Hi Hk)].
    + right. split; [reflexivity|]. exists o', k, n. cbn [In]. auto.
  - right. split; [reflexivity|].
    assert (Hn : ~ forall d n, has (o_dims o) d n -> has v d n) by (intros Hc; apply Hb in Hc; discriminate).
    assert (Hx : Exists (fun e => ~ In e (pairs v)) (pairs (o_dims o))).
    { apply neg_Forall_Exists_neg.
      - intros e. apply in_dec. decide equality; apply Z.eq_dec.
      - intros Hc. apply Hn. intros d n Hdn. rewrite Forall_forall in Hc. apply (Hc (d, n) Hdn). }
    apply Exists_exists in Hx as ([k n] & Hk & Hkn). exists o, k, n. cbn [In]. auto.
Qed.

(** C16, in place: the target [v] must have all dimensions of the operands; the operands are checked against its
    shape. *)
Theorem C16_in_place : forall v os, reachable (o_view v) -> Forall (fun o => reachable (o_view o)) os ->
  (transform_in_place_check false v os = Ok tt ->
     (forall o k n, In o os -> has (o_dims o) k n -> has (o_dims v) k n) /\
     (forall o, In o os -> o_variances o = true -> read_once (o_dims v) o) /\
     ~ ((exists o, In o (v :: os) /\ o_bins o = true) /\
        exists o, In o os /\ o_variances o = true /\ o_bins o = false)) /\
  ((forall o k n, In o os -> has (o_dims o) k n -> has (o_dims v) k n) ->
   (o_bins v = true \/ forall o, In o os -> o_bins o = false) ->
   (forall k n, has (o_dims v) k n -> 2 <= n) ->
   (forall o, In o os -> o_variances o = true -> read_once (o_dims v) o) ->
   ~ ((exists o, In o (v :: os) /\ o_bins o = true) /\
      exists o, In o os /\ o_variances o = true /\ o_bins o = false) ->
   transform_in_place_check false v os = Ok tt).
Proof.
  intros v os Hrv Hr.
  assert (Hw : Forall (fun o => wf (o_dims o)) os).
  { eapply Forall_impl; [|exact Hr]. intros o Ho. apply (reachable_wfv _ Ho). }
  assert (Hwv : wf (o_dims v)) by apply (reachable_wfv _ Hrv).
  assert (Hu : (o_bins v || existsb o_bins os) && existsb dense_with_variances os = true <->
     ((exists o, In o (v :: os) /\ o_bins o = true) /\ exists o, In o os /\ o_variances o = true /\ o_bins o = false)).
  { change (o_bins v || existsb o_bins os) with (existsb o_bins (v :: os)). unfold dense_with_variances.
    rewrite andb_true_iff, !existsb_exists. split.
    - intros [Ha (o' & Ho' & Hv)]. split; [exact Ha|]. apply andb_prop in Hv as [Hv Hb']. apply negb_true_iff in Hb'. eauto.
    - intros [Ha (o' & Ho' & Hv & Hb')]. split; [exact Ha|]. exists o'. rewrite Hv, Hb'. auto. }
  assert (Hro : forall m o, (forall k n, has m k n <-> has (o_dims v) k n) -> wf m -> (read_once m o <-> read_once (o_dims v) o)).
  { intros m o Hmh Hm. unfold read_once, valid_at, same_at.
    assert (Hk : forall k, In k (keys (pairs m)) <-> In k (keys (pairs (o_dims v)))).
    { intros k. rewrite !In_keys_has. split; intros (n & Hn); exists n; apply Hmh, Hn. }
    split; intros Hx ix ix' Hi Hi' E k Hkk; (apply (Hx ix ix'); [| |exact E|apply Hk, Hkk]);
      intros j n Hj; (apply Hi || apply Hi'); apply Hmh, Hj. }
  rewrite Forall_forall in Hr. unfold transform_in_place_check. split.
  - intros HE. destruct (includes_all_inv _ os Hwv Hw) as [(Ei & Hi)|(Ei & _)]; rewrite Ei in HE; [|discriminate].
    cbn [bind] in HE. split; [exact Hi|].
    destruct (negb (o_bins v) && existsb o_bins os); [discriminate|].
    destruct (merge_from_includes os _ Hwv Hw Hi) as (m & Em & Hm & Hmh). rewrite Em in HE. cbn [bind] in HE.
    destruct (existsb (bad_variance_broadcast m) os) eqn:Eb; [discriminate|].
    destruct ((o_bins v || existsb o_bins os) && existsb dense_with_variances os) eqn:Eu; [discriminate|].
    split; [|intros Hc; apply Hu in Hc; congruence].
    intros o Ho Hv. apply (Hro m o Hmh Hm). apply not_bad_read_once; auto.
    + intros k n Hk. apply Hmh, (Hi o k n Ho Hk).
    + apply not_true_iff_false. intros Hb. apply not_true_iff_false in Eb. apply Eb. apply existsb_exists. eauto.
  - intros Hi Hbin H2 Hr1 Hnu.
    destruct (includes_all_inv _ os Hwv Hw) as [(Ei & _)|(_ & o & k & n & Ho & Hk & Hn)].
    2:{ exfalso. apply Hn, (Hi o k n Ho Hk). }
    rewrite Ei. cbn [bind].
    destruct (negb (o_bins v) && existsb o_bins os) eqn:Enb.
    { exfalso. apply andb_prop in Enb as [Enb Eob]. apply negb_true_iff in Enb. apply existsb_exists in Eob as (o & Ho & Hob).
      destruct Hbin as [Hbin|Hbin]; [congruence|]. rewrite (Hbin o Ho) in Hob. discriminate. }
    destruct (merge_from_includes os _ Hwv Hw Hi) as (m & Em & Hm & Hmh). rewrite Em. cbn [bind].
    destruct (existsb (bad_variance_broadcast m) os) eqn:Eb.
    + exfalso. apply existsb_exists in Eb as (o & Ho & Hb). destruct (o_variances o) eqn:Ev.
      * rewrite read_once_not_bad in Hb; [discriminate|assumption|apply reachable_wfv, Hr, Ho| | |].
        -- intros k n Hk. apply Hmh, (Hi o k n Ho Hk).
        -- intros k n Hk. apply Hmh in Hk. apply (H2 k n Hk).
        -- apply (Hro m o Hmh Hm). auto.
      * unfold bad_variance_broadcast in Hb. rewrite Ev in Hb. discriminate.
    + destruct ((o_bins v || existsb o_bins os) && existsb dense_with_variances os) eqn:Eu; [|reflexivity].
      exfalso. apply Hnu, Hu. reflexivity.
Qed.
Print Assumptions C16_in_place.

(** ** Concrete cases. x: 3, y: 2. *)
Definition vx := mkop (var_fresh (mkmap [10] [3])) true false.
Definition vxy := mkop (var_fresh (mkmap [10; 11] [3; 2])) true false.
Definition plain (o : operand) := mkop (o_view o) false (o_bins o).
Lemma fresh_reachable d : wf d -> reachable (var_fresh d).
Proof. intros Hd. exists d, [], (fun _ => tt). split; [assumption|]. split; [constructor|reflexivity]. Qed.
Ltac wfd := repeat split; cbn; repeat constructor; cbn; try lia; intuition discriminate.
(** A (x) operand with variances and an (x,y) operand: rejected; without variances on the smaller one: accepted;
    equal shapes: accepted. *)
Example C16_ex_reject : transform_check false [vxy; vx] = Throw VariancesError /\
  transform_check false [vxy; plain vx] = Ok (mkmap [10; 11] [3; 2]) /\
  transform_check false [vxy; vxy] = Ok (mkmap [10; 11] [3; 2]) /\
  transform_in_place_check false vxy [vx] = Throw VariancesError /\
  transform_in_place_check false vxy [plain vx] = Ok tt.
Proof. vm_compute. repeat split; reflexivity. Qed.
Example C16_ex_reachable : Forall (fun o => reachable (o_view o)) [vxy; plain vx].
Proof. repeat constructor; apply fresh_reachable; wfd. Qed.
(** An explicit broadcast is found as well, also after a transpose. *)
Definition bxy : res operand :=
  do v <- var_broadcast (o_view vx) (mkmap [10; 11] [3; 2]); do w <- var_transpose v [11; 10]; Ok (mkop w true false).
Example C16_ex_explicit : (do b <- bxy; transform_check false [b; vxy]) = Throw VariancesError.
Proof. vm_compute. reflexivity. Qed.
(** Values with variances next to binned data are rejected. *)
Example C16_ex_bins : transform_check false [mkop (o_view vx) false true; vx] = Throw VariancesError.
Proof. vm_compute. reflexivity. Qed.

(** ** The condition on the extents is needed: operands that are read once per element are rejected if a missing
    dimension has extent 1 or another extent is 0, and after an explicit broadcast to extent 1. *)
Theorem C16_length_one_refuted : exists a b dims, reachable (o_view a) /\ reachable (o_view b) /\
  merge_all [a; b] = Ok dims /\ read_once dims a /\ read_once dims b /\ ~ used_for_events [a; b] /\
  transform_check false [a; b] = Throw VariancesError.
Proof.
  exists (mkop (var_fresh (mkmap [10; 11] [3; 1])) true false), vx, (mkmap [10; 11] [3; 1]).
  split; [apply fresh_reachable; wfd|]. split; [apply fresh_reachable; wfd|]. split; [reflexivity|].
  assert (Hv : forall ix, valid_at (pairs (mkmap [10; 11] [3; 1])) ix -> 0 <= ix 10 < 3 /\ 0 <= ix 11 < 1).
  { intros ix Hix. split; apply Hix; cbn; auto. }
  split; [|split; [|split; [|reflexivity]]].
  - intros ix ix' Hix Hix' E k Hk. apply Hv in Hix, Hix'. cbv -[Z.add Z.mul] in E. cbn in Hk.
    destruct Hk as [<-|[<-|[]]]; lia.
  - intros ix ix' Hix Hix' E k Hk. apply Hv in Hix, Hix'. cbv -[Z.add Z.mul] in E. cbn in Hk.
    destruct Hk as [<-|[<-|[]]]; lia.
  - intros [(o & [<-|[<-|[]]] & Hb) _]; discriminate.
Qed.
Print Assumptions C16_length_one_refuted.

Theorem C16_empty_refuted : exists a b dims, reachable (o_view a) /\ reachable (o_view b) /\
  merge_all [a; b] = Ok dims /\ volume dims = 0 /\ transform_check false [a; b] = Throw VariancesError.
Proof.
  exists (mkop (var_fresh (mkmap [10; 11] [0; 2])) true false), (mkop (var_fresh (mkmap [10] [0])) true false), (mkmap [10; 11] [0; 2]).
  split; [apply fresh_reachable; wfd|]. split; [apply fresh_reachable; wfd|]. repeat split; reflexivity.
Qed.
Print Assumptions C16_empty_refuted.

(** ** Units: for units other than [None] the correlated operation has the unit of the plain one; without a unit
    multiplying and dividing an operand with variances by itself is rejected although [a * b] is accepted. *)
Theorem C16_unit : forall u, u <> None ->
  unit_add true u u = unit_add false u u /\ unit_sub true u u = unit_sub false u u /\
  unit_mul true u u = unit_mul false u u /\ unit_div true u u = unit_div false u u.
Proof.
  intros [x|] Hu; [|congruence]. unfold unit_add, unit_sub, unit_mul, unit_div, pow_unit, factor_unit, bunit_add, bunit_div.
  cbn [bunit_eqb bunit_mul negb bunit_pow]. rewrite !Z.eqb_refl. cbn [negb].
  repeat split; try (rewrite Z.add_0_r; reflexivity).
  - destruct (Z.eqb_spec x 0) as [->|]; [reflexivity|]. do 2 f_equal. ring.
  - destruct (Z.eqb_spec x 0) as [->|]; [reflexivity|]. do 2 f_equal. ring.
Qed.
Print Assumptions C16_unit.

Theorem C16_unit_none_refuted :
  unit_mul false None None = Ok None /\ unit_mul true None None = Throw UnitError /\
  unit_div false None None = Ok None /\ unit_div true None None = Throw UnitError.
Proof. repeat split; reflexivity. Qed.
Print Assumptions C16_unit_none_refuted.

Example C16_ex_unit : unit_mul true (Some 3) (Some 3) = Ok (Some 6) /\ unit_div true (Some 3) (Some 3) = Ok (Some 0).
Proof. split; reflexivity. Qed.
