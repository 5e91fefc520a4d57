From Verif Require Import Base Map_Model Map_Spec Map_Proofs Dims_Model Dims_Spec Dims_Proofs View_Model View_Spec
  View_Proofs SizedDict_Model SizedDict_Spec.

(** ** Dictionaries as lists of pairs *)
Section Dict.
Context {V : Type}.
Definition mkd (l : list (Z * V)) : vmap Z V := mkmap (map fst l) (map snd l).
Definition wfd (m : vmap Z V) : Prop := NoDup (m_keys m) /\ length (m_values m) = length (m_keys m).

Lemma ditems_mkd l : ditems (mkd l) = l.
Proof. unfold ditems, mkd; cbn. induction l as [|[a b] l IH]; cbn; congruence. Qed.
Lemma mkd_ditems (m : vmap Z V) : length (m_values m) = length (m_keys m) -> mkd (ditems m) = m.
Proof.
  destruct m as [ks vs]; unfold ditems, mkd; cbn. intros E. f_equal.
  - revert vs E; induction ks as [|a ks IH]; intros [|b vs] E; try discriminate; cbn; [reflexivity|].
    injection E as E. rewrite IH by assumption. reflexivity.
  - revert ks E; induction vs as [|a vs IH]; intros [|b ks] E; try discriminate; cbn; [reflexivity|].
    injection E as E. rewrite IH by (symmetry; symmetry; assumption). reflexivity.
Qed.
Lemma wfd_mkd l : wfd (mkd l) <-> NoDup (map fst l).
Proof. unfold wfd, mkd; cbn. rewrite !map_length. tauto. Qed.

Lemma find_no k (l : list (Z * V)) : ~ In k (map fst l) -> find_index Z.eqb k (map fst l) = None.
Proof. apply find_index_None. exact Z.eqb_spec. Qed.
Lemma find_sp k v (l1 l2 : list (Z * V)) : NoDup (map fst (l1 ++ (k, v) :: l2)) ->
  find_index Z.eqb k (map fst (l1 ++ (k, v) :: l2)) = Some (length l1).
Proof.
  intros Hnd. apply find_index_nodup; [exact Z.eqb_spec|assumption|]. rewrite map_app, nth_error_app2 by (rewrite map_length; lia).
  rewrite map_length, Nat.sub_diag. reflexivity.
Qed.
Lemma upd_sp {A} (l1 l2 : list A) x y : upd (l1 ++ x :: l2) (length l1) y = l1 ++ y :: l2.
Proof. induction l1 as [|a l1 IH]; cbn; [reflexivity|]. f_equal. exact IH. Qed.
Lemma remove_sp {A} (l1 l2 : list A) x : remove_nth (l1 ++ x :: l2) (length l1) = l1 ++ l2.
Proof. induction l1 as [|a l1 IH]; cbn; [reflexivity|]. f_equal. exact IH. Qed.

Lemma in_keys_split k (l : list (Z * V)) : In k (map fst l) -> exists l1 v l2, l = l1 ++ (k, v) :: l2.
Proof. intros Hk. apply in_map_iff in Hk as ([k' v] & <- & Hi). apply in_split in Hi as (l1 & l2 & ->). eauto. Qed.

Lemma insert_new l k v : ~ In k (map fst l) -> dinsert_or_assign Z.eqb (mkd l) k v = Ok (mkd (l ++ [(k, v)])).
Proof.
  intros Hk. unfold dinsert_or_assign, mkd; cbn [m_keys m_values]. rewrite find_no by assumption. rewrite !map_app. reflexivity.
Qed.
Lemma insert_old l1 l2 k v0 v : NoDup (map fst (l1 ++ (k, v0) :: l2)) ->
  dinsert_or_assign Z.eqb (mkd (l1 ++ (k, v0) :: l2)) k v = Ok (mkd (l1 ++ (k, v) :: l2)).
Proof.
  intros Hnd. unfold dinsert_or_assign. cbn [mkd m_keys m_values]. rewrite find_sp by assumption.
  rewrite vset_nat by (rewrite map_length, app_length; cbn; lia). cbn [bind]. unfold mkd.
  rewrite !map_app. cbn [map fst snd]. rewrite <- (map_length snd l1), upd_sp. reflexivity.
Qed.
Lemma extract_old l1 l2 k v : NoDup (map fst (l1 ++ (k, v) :: l2)) ->
  dextract Z.eqb (mkd (l1 ++ (k, v) :: l2)) k = Ok (v, mkd (l1 ++ l2)).
Proof.
  intros Hnd. unfold dextract, mindex. cbn [mkd m_keys m_values]. rewrite find_sp by assumption. cbn [bind].
  rewrite verase_nat by (rewrite map_length, app_length; cbn; lia). cbn [bind].
  rewrite vget_nat, map_app, nth_error_app2 by (rewrite map_length; lia). rewrite map_length, Nat.sub_diag. cbn [map nth_error bind snd].
  rewrite verase_nat by (rewrite app_length, map_length; cbn; lia). cbn [bind]. unfold mkd. rewrite !map_app. cbn [map fst].
  rewrite <- (map_length snd l1), remove_sp. rewrite (map_length snd), <- (map_length fst l1), remove_sp. reflexivity.
Qed.
Lemma extract_no l k : ~ In k (map fst l) -> dextract Z.eqb (mkd l) k = Throw NotFoundError.
Proof. intros Hk. unfold dextract, mindex. cbn [mkd m_keys]. rewrite find_no by assumption. reflexivity. Qed.
Lemma at_old l1 l2 k v e : NoDup (map fst (l1 ++ (k, v) :: l2)) -> mat Z.eqb e (mkd (l1 ++ (k, v) :: l2)) k = Ok v.
Proof.
  intros Hnd. unfold mat, mindex. cbn [mkd m_keys m_values]. rewrite find_sp by assumption. cbn [bind].
  rewrite vget_nat, map_app, nth_error_app2 by (rewrite map_length; lia). rewrite map_length, Nat.sub_diag. reflexivity.
Qed.
Lemma at_no l k e : ~ In k (map fst l) -> mat Z.eqb e (mkd l) k = Throw e.
Proof. intros Hk. unfold mat, mindex. cbn [mkd m_keys]. rewrite find_no by assumption. reflexivity. Qed.
Lemma at_In l k v e : NoDup (map fst l) -> In (k, v) l -> mat Z.eqb e (mkd l) k = Ok v.
Proof. intros Hnd Hi. apply in_split in Hi as (l1 & l2 & ->). apply at_old. assumption. Qed.
Lemma contains_In l k : mcontains Z.eqb (mkd l) k = true <-> In k (map fst l).
Proof.
  unfold mcontains. cbn [mkd m_keys]. destruct (find_index Z.eqb k (map fst l)) as [n|] eqn:E.
  - apply (find_index_Some _ Z.eqb_spec) in E. apply nth_error_In in E. tauto.
  - apply (find_index_None _ Z.eqb_spec) in E. intuition discriminate.
Qed.
Lemma contains_nIn l k : mcontains Z.eqb (mkd l) k = false <-> ~ In k (map fst l).
Proof. rewrite <- contains_In. destruct (mcontains Z.eqb (mkd l) k); intuition congruence. Qed.
End Dict.

Lemma sd_ok_alt d : sd_ok d <-> wf (sd_sizes d) /\ sd_items d = mkd (sd_list d) /\ NoDup (map fst (sd_list d)) /\
  forall k it, In (k, it) (sd_list d) -> item_ok it /\ fits (sd_shape d) (ishape it).
Proof.
  unfold sd_ok, sd_list. split.
  - intros (Hw & Hnd & Hl & Hf). pose proof (mkd_ditems _ Hl) as E. split; [assumption|]. split; [symmetry; exact E|].
    split; [|exact Hf]. rewrite <- E in Hnd. exact Hnd.
  - intros (Hw & E & Hnd & Hf). split; [assumption|]. rewrite E in *. rewrite ditems_mkd in *. split; [exact Hnd|].
    split; [cbn; rewrite !map_length; reflexivity|exact Hf].
Qed.

Lemma NoDup_snoc {A} (l : list A) x : NoDup l -> ~ In x l -> NoDup (l ++ [x]).
Proof.
  intros Hl Hx. apply NoDup_rev in Hl. rewrite <- (rev_involutive (l ++ [x])), rev_app_distr. apply NoDup_rev. cbn [rev app].
  constructor; [|assumption]. rewrite <- in_rev. exact Hx.
Qed.

Lemma NoDup_app_l {A} (a b : list A) : NoDup (a ++ b) -> NoDup a.
Proof.
  induction a as [|x a IH]; intros Hn; [constructor|]. cbn [app] in Hn. apply NoDup_cons_iff in Hn as [Hx Hn].
  constructor; [|apply IH, Hn]. intros Hi. apply Hx, in_or_app. auto.
Qed.

(** ** Acceptance of an item *)
Lemma wf_mk p : lwf p -> wf (mk p).
Proof. apply mk_wf. Qed.
Lemma In_unique p k m n : NoDup (keys p) -> In (k, m) p -> In (k, n) p -> m = n.
Proof. intros Hnd Hm Hn. apply (extent_In p k m Hnd) in Hm. apply (extent_In p k n Hnd) in Hn. congruence. Qed.

Lemma includes_mk p q : lwf p -> lwf q -> exists r, includes (mk p) (mk q) = Ok r /\
  (r = true <-> forall k n, In (k, n) q -> In (k, n) p).
Proof.
  intros Hp Hq. destruct (includes_ok (mk p) (mk q)) as (r & E & Hr); [apply wf_wfm, wf_mk, Hp|apply wf_wfm, wf_mk, Hq|].
  exists r. split; [assumption|]. rewrite Hr. unfold has. rewrite !pairs_mk. reflexivity.
Qed.

Definition relaxed (p q : list (Z * Z)) (r : res bool) : Prop :=
  (r = Ok true /\ fits p q) \/ ((r = Ok false \/ r = Throw DimensionError) /\ ~ fits p q).

Lemma lwf_mid a k n b m : lwf (a ++ (k, n) :: b) -> 0 <= m -> lwf (a ++ (k, m) :: b).
Proof.
  intros (Hnd & Hf & Hi) Hm. split; [|split].
  - rewrite keys_app in *. exact Hnd.
  - rewrite extents_app in *. apply Forall_app in Hf as [Hf1 Hf2]. apply Forall_app. split; [assumption|].
    cbn [extents map snd] in *. apply Forall_cons_iff in Hf2 as [_ Hf2]. constructor; assumption.
  - rewrite keys_app in *. exact Hi.
Qed.

Lemma relax_spec p q2 : forall q1, lwf p -> lwf (q1 ++ q2) ->
  (forall k n, In (k, n) q1 -> exists m, In (k, m) p /\ n <> m + 1) ->
  relaxed p (q1 ++ q2) (do dims <- relax (mk p) (mk (q1 ++ q2)) (keys q2); includes (mk p) dims).
Proof.
  induction q2 as [|[l n] q2 IH]; intros q1 Hp Hq H1; cbn [keys map fst relax].
  - cbn [bind]. destruct (includes_mk p (q1 ++ []) Hp Hq) as (r & -> & Hr). destruct r.
    + left. split; [reflexivity|]. left. apply Hr. reflexivity.
    + right. split; [left; reflexivity|]. intros Hf.
      assert (Hall : false = true); [|discriminate]. apply Hr. destruct Hf as [Hf|(e & n & He & Ho & Hc)]; [exact Hf|].
      exfalso. rewrite app_nil_r in He. destruct (H1 e n He) as (m & Hm & Hne). destruct Hc as [Hc|[Hc _]].
      * apply Hne. pose proof (In_unique p e m (n - 1) (proj1 Hp) Hm Hc). lia.
      * apply Hc. apply In_keys. eauto.
  - assert (Hd : dat (mk (q1 ++ (l, n) :: q2)) l = Ok n).
    { rewrite dat_mk by apply Hq. rewrite (proj2 (extent_In _ l n (proj1 Hq))); [reflexivity|apply in_elt]. }
    rewrite Hd. cbn [bind]. rewrite dcontains_mk.
    destruct (lwf_app _ _ _ _ Hq) as (Hq12 & Hn0 & Hl1 & Hl2 & _).
    assert (Hsub : forall P : Z -> Z -> Prop, (forall k m, In (k, m) (q1 ++ (l, n) :: q2) -> k <> l -> P k m) <->
       (forall k m, In (k, m) (q1 ++ q2) -> P k m)).
    { intros P. split; intros HP k m Hk.
      - apply HP; [apply in_app_iff in Hk; apply in_app_iff; cbn [In]; tauto|].
        intros ->. apply in_app_iff in Hk as [Hk|Hk]; [apply Hl1|apply Hl2]; apply In_keys; eauto.
      - intros Hne. apply HP. apply in_app_iff. apply in_app_iff in Hk as [Hk|[Hk|Hk]]; auto. congruence. }
    destruct (mem l (keys p)) eqn:Em; cbn [negb andb].
    + apply mem_In, In_keys in Em as [m Hm]. rewrite dat_mk by apply Hp. rewrite (proj2 (extent_In p l m (proj1 Hp)) Hm). cbn [bind].
      assert (Hm0 : 0 <= m).
      { destruct Hp as (_ & Hf & _). rewrite Forall_forall in Hf. apply Hf. apply (in_map snd) in Hm. exact Hm. }
      destruct (Z.eqb_spec n (m + 1)) as [Hnm|Hnm].
      * rewrite resize_sp by assumption. cbn [bind].
        destruct (includes_mk p (q1 ++ (l, m) :: q2) Hp (lwf_mid _ _ _ _ _ Hq Hm0)) as (r & -> & Hr). destruct r.
        -- left. split; [reflexivity|]. right. exists l, n. split; [apply in_elt|]. split.
           ++ apply Hsub. intros k i Hk. apply (proj1 Hr eq_refl). apply in_app_iff in Hk. apply in_app_iff. cbn [In]. tauto.
           ++ left. replace (n - 1) with m by lia. exact Hm.
        -- right. split; [left; reflexivity|]. intros Hf. assert (Hx : false = true); [|discriminate]. apply Hr.
           assert (Hoth : forall k i, In (k, i) (q1 ++ q2) -> In (k, i) p).
           { destruct Hf as [Hf|(e & i & He & Ho & Hc)].
             - exfalso. pose proof (In_unique p l m n (proj1 Hp) Hm (Hf l n (in_elt _ _ _))). lia.
             - apply Hsub. destruct (Z.eq_dec e l) as [->|Hne]; [exact Ho|].
               exfalso. pose proof (In_unique p l m n (proj1 Hp) Hm (Ho l n (in_elt _ _ _) (not_eq_sym Hne))). lia. }
           intros k i Hk. apply in_app_iff in Hk as [Hk|[Hk|Hk]].
           ++ apply Hoth, in_app_iff. auto.
           ++ injection Hk as <- <-. exact Hm.
           ++ apply Hoth, in_app_iff. auto.
      * specialize (IH (q1 ++ [(l, n)])). rewrite <- app_assoc in IH. cbn [app] in IH. apply IH; [assumption|assumption|].
        intros k i Hk. apply in_app_iff in Hk as [Hk|[Hk|[]]]; [apply H1, Hk|]. injection Hk as <- <-. eauto.
    + apply mem_nIn in Em. destruct (Z.eqb_spec n 2) as [->|Hn2].
      * rewrite merase_sp by (assumption || apply Hq). cbn [bind].
        destruct (includes_mk p (q1 ++ q2) Hp Hq12) as (r & -> & Hr). destruct r.
        -- left. split; [reflexivity|]. right. exists l, 2. split; [apply in_elt|]. split; [|right; auto].
           apply Hsub. apply Hr. reflexivity.
        -- right. split; [left; reflexivity|]. intros Hf. assert (Hx : false = true); [|discriminate]. apply Hr.
           destruct Hf as [Hf|(e & i & He & Ho & Hc)].
           ++ exfalso. apply Em, In_keys. exists 2. apply Hf, in_elt.
           ++ apply Hsub. destruct (Z.eq_dec e l) as [->|Hne]; [exact Ho|].
              exfalso. apply Em, In_keys. exists 2. apply Ho; [apply in_elt|auto].
      * rewrite dat_mk by apply Hp. rewrite (proj2 (extent_None p l) Em). cbn [bind]. right. split; [right; reflexivity|].
        intros [Hf|(e & i & He & Ho & Hc)].
        -- apply Em, In_keys. exists n. apply Hf, in_elt.
        -- destruct (Z.eq_dec e l) as [->|Hne].
           ++ pose proof (In_unique _ l i n (proj1 Hq) He (in_elt _ _ _)) as ->. destruct Hc as [Hc|[_ Hc]]; [|lia].
              apply Em, In_keys. eauto.
           ++ apply Em, In_keys. exists n. apply Ho; [apply in_elt|auto].
Qed.

Lemma wf_mk_pairs d : wf d -> d = mk (pairs d) /\ lwf (pairs d).
Proof. intros Hd. pose proof (proj1 (wf_lwf _) Hd) as [Hl Hlen]. split; [symmetry; apply mk_pairs, Hlen|exact Hl]. Qed.

Lemma set_check d it : wf (sd_sizes d) -> wfv (i_var it) ->
  relaxed (sd_shape d) (ishape it) (do dims <- relax (sd_sizes d) (i_dims it) (labels (i_dims it)); includes (sd_sizes d) dims).
Proof.
  intros Hd Hi. destruct (wf_mk_pairs _ Hd) as [E1 L1]. destruct (wf_mk_pairs (i_dims it) (proj1 Hi)) as [E2 L2].
  unfold sd_shape, ishape. set (p := pairs (sd_sizes d)) in *. set (q := pairs (i_dims it)) in *. clearbody p q.
  rewrite E1, E2. change (labels (mk q)) with (keys q).
  apply (relax_spec p q []); [assumption|assumption|]. intros ? ? [].
Qed.

Lemma sd_set_ok d k it : sd_ok d -> item_ok it ->
  let same := exists old, In (k, old) (sd_list d) /\ is_same old it = true in
  (same -> sd_set d k it = Ok d) /\
  (~ same -> sd_readonly d = true -> sd_set d k it = Throw DataArrayError) /\
  (~ same -> sd_readonly d = false -> ~ fits (sd_shape d) (ishape it) -> sd_set d k it = Throw DimensionError) /\
  (~ same -> sd_readonly d = false -> fits (sd_shape d) (ishape it) ->
     exists l, sd_set d k it = Ok (mksd (sd_sizes d) (mkd l) false) /\ NoDup (map fst l) /\
       (~ In k (map fst (sd_list d)) -> l = sd_list d ++ [(k, it)]) /\
       forall l1 v0 l2, sd_list d = l1 ++ (k, v0) :: l2 -> l = l1 ++ (k, it) :: l2).
Proof.
  intros Hd [Hi Hbin] same. apply sd_ok_alt in Hd as (Hw & E & Hnd & Hf).
  assert (Hsame : exists b, (if sd_contains d k then do old <- sd_at d k; Ok (is_same old it) else Ok false) = Ok b /\ (b = true <-> same)).
  { unfold sd_contains, sd_at. rewrite E. destruct (mcontains Z.eqb (mkd (sd_list d)) k) eqn:Ec.
    - apply contains_In, in_keys_split in Ec as (l1 & v & l2 & El). rewrite El in *. rewrite at_old by assumption. cbn [bind].
      exists (is_same v it). split; [reflexivity|]. unfold same. split.
      + intros Hs. exists v. split; [rewrite El; apply in_elt|assumption].
      + intros (old & Ho & Hs). assert (old = v); [|congruence]. rewrite El in Ho.
        apply in_split in Ho as (m1 & m2 & Em). pose proof (at_old l1 l2 k v DimensionError Hnd) as A1.
        rewrite Em in A1, Hnd. rewrite (at_old m1 m2 k old DimensionError Hnd) in A1. congruence.
    - exists false. split; [reflexivity|]. split; [discriminate|]. intros (old & Ho & _). exfalso.
      apply contains_nIn in Ec. apply Ec. apply (in_map fst) in Ho. exact Ho. }
  destruct Hsame as (b & Eb & Hb). unfold sd_set. rewrite Eb. cbn [bind].
  pose proof (set_check d it Hw Hi) as Hc.
  assert (Hns : ~ same -> b = false) by (intros Hn; destruct b; [exfalso; apply Hn, Hb; reflexivity|reflexivity]).
  split; [|split; [|split]].
  - intros Hs. apply Hb in Hs. rewrite Hs. reflexivity.
  - intros Hn Hr. rewrite (Hns Hn), Hr. reflexivity.
  - intros Hn Hr Hnf. rewrite (Hns Hn), Hr, Hbin. destruct Hc as [[_ Hc]|[Hc _]]; [contradiction|].
    destruct (relax (sd_sizes d) (i_dims it) (labels (i_dims it))) as [dm| |]; cbn [bind] in *;
      [|destruct Hc; congruence|destruct Hc; congruence].
    destruct Hc as [Hc|Hc]; rewrite Hc; reflexivity.
  - intros Hn Hr Hfi. rewrite (Hns Hn), Hr, Hbin. destruct Hc as [[Hc _]|[_ Hc]]; [|contradiction].
    destruct (relax (sd_sizes d) (i_dims it) (labels (i_dims it))) as [dm| |]; cbn [bind] in *; try discriminate.
    rewrite Hc. cbn [bind]. rewrite E. destruct (in_dec Z.eq_dec k (map fst (sd_list d))) as [Hk|Hk].
    + destruct (in_keys_split _ _ Hk) as (l1 & v & l2 & El). rewrite El in *. rewrite insert_old by assumption. cbn [bind].
      exists (l1 ++ (k, it) :: l2). split; [reflexivity|]. rewrite map_app in *. split; [exact Hnd|].
      split; [intros Hnk; exfalso; apply Hnk; rewrite map_app; apply in_elt|].
      intros m1 v0 m2 Em.
      assert (Hl : l1 = m1 /\ l2 = m2).
      { clear -Em Hnd. rewrite <- map_app in *. revert m1 Em Hnd. induction l1 as [|[a x] l1 IH]; intros [|[b y] m1] Em Hnd; cbn [app] in Em.
        - injection Em as _ Em. auto.
        - exfalso. injection Em as <- _ ->. cbn [map fst app] in Hnd. apply NoDup_cons_iff in Hnd as [Hni _]. apply Hni.
          rewrite map_app. apply in_elt.
        - exfalso. injection Em as -> _ <-. cbn [map fst app] in Hnd. apply NoDup_cons_iff in Hnd as [Hni _]. apply Hni.
          rewrite map_app. apply in_elt.
        - injection Em as <- <- Em. cbn [map fst app] in Hnd. apply NoDup_cons_iff in Hnd as [_ Hnd].
          destruct (IH m1 Em Hnd) as [-> ->]. auto. }
      destruct Hl as [-> ->]. reflexivity.
    + rewrite insert_new by assumption. cbn [bind]. exists (sd_list d ++ [(k, it)]). split; [reflexivity|]. split.
      * rewrite map_app. cbn [map fst]. apply NoDup_snoc; assumption.
      * split; [auto|]. intros l1 v0 l2 El. exfalso. apply Hk. rewrite El, map_app. apply in_elt.
Qed.

(** ** Construction from items *)
Lemma sd_set_all_ok sz l : forall acc, wf sz -> NoDup (map fst (acc ++ l)) ->
  (forall k it, In (k, it) (acc ++ l) -> item_ok it /\ fits (pairs sz) (ishape it)) ->
  sd_set_all (mksd sz (mkd acc) false) l = Ok (mksd sz (mkd (acc ++ l)) false).
Proof.
  induction l as [|[k it] l IH]; intros acc Hsz Hnd Hf; cbn [sd_set_all].
  - rewrite app_nil_r. reflexivity.
  - assert (Hok : sd_ok (mksd sz (mkd acc) false)).
    { apply sd_ok_alt. unfold sd_list, sd_shape. cbn [sd_sizes sd_items]. rewrite ditems_mkd. split; [assumption|]. split; [reflexivity|].
      split; [rewrite map_app in Hnd; apply NoDup_app_l in Hnd; exact Hnd|].
      intros k' it' Hi. apply (Hf k'). apply in_or_app. auto. }
    assert (Hk : ~ In k (map fst acc)).
    { rewrite map_app in Hnd. cbn [map fst] in Hnd. apply NoDup_remove_2 in Hnd. intros Hk. apply Hnd, in_or_app. auto. }
    destruct (sd_set_ok (mksd sz (mkd acc) false) k it Hok) as (_ & _ & _ & Hset); [apply (Hf k); apply in_elt|].
    unfold sd_list, sd_shape in Hset. cbn [sd_sizes sd_items sd_readonly] in Hset. rewrite ditems_mkd in Hset.
    destruct Hset as (l' & -> & _ & Hl' & _).
    + intros (old & Ho & _). apply Hk. apply (in_map fst) in Ho. exact Ho.
    + reflexivity.
    + apply (Hf k). apply in_elt.
    + cbn [bind]. rewrite (Hl' Hk). specialize (IH (acc ++ [(k, it)])). rewrite <- app_assoc in IH. apply IH; assumption.
Qed.
Lemma sd_make_ok sz l ro : wf sz -> NoDup (map fst l) ->
  (forall k it, In (k, it) l -> item_ok it /\ fits (pairs sz) (ishape it)) ->
  sd_make sz (mkd l) ro = Ok (mksd sz (mkd l) ro).
Proof.
  intros Hsz Hnd Hf. unfold sd_make. rewrite ditems_mkd. change mempty with (mkd (@nil (Z * item))).
  rewrite (sd_set_all_ok sz l []) by assumption. reflexivity.
Qed.
Lemma sd_ok_mk sz l ro : wf sz -> NoDup (map fst l) ->
  (forall k it, In (k, it) l -> item_ok it /\ fits (pairs sz) (ishape it)) -> sd_ok (mksd sz (mkd l) ro).
Proof.
  intros Hsz Hnd Hf. apply sd_ok_alt. unfold sd_list, sd_shape. cbn [sd_sizes sd_items]. rewrite ditems_mkd. auto.
Qed.
Lemma sd_list_mk sz l ro : sd_list (mksd sz (mkd l) ro) = l.
Proof. apply ditems_mkd. Qed.

(** ** Slices of shapes *)
Lemma extent_some_In p k n : extent p k = Some n -> In (k, n) p.
Proof. intros E. destruct (extent_split _ _ _ E) as (p1 & p2 & -> & _). apply in_elt. Qed.

Lemma slice_dims_inv p s p' : lwf p -> slice_eqb s slice_default = false -> slice_dims p s = Some p' ->
  exists n, In (s_dim s, n) p /\
  ((s_end s = -1 /\ s_begin s < n /\ forall k m, In (k, m) p' <-> In (k, m) p /\ k <> s_dim s) \/
   (s_end s <> -1 /\ s_end s <= n /\ forall k m, In (k, m) p' <->
      (In (k, m) p /\ k <> s_dim s) \/ (k = s_dim s /\ m = ceil_div (s_end s - s_begin s) (s_stride s)))).
Proof.
  intros Hp Hs HE. unfold slice_dims in HE. rewrite Hs in HE. destruct (extent p (s_dim s)) as [n|] eqn:En; [|discriminate].
  apply extent_some_In in En. exists n. split; [assumption|].
  destruct (Z.eqb_spec (s_end s) (-1)) as [He|He].
  - left. destruct (Z.ltb_spec (s_begin s) n); [|discriminate]. injection HE as <-. split; [assumption|]. split; [assumption|].
    intros k m. rewrite filter_In. cbn [fst]. rewrite negb_true_iff, Z.eqb_neq. tauto.
  - right. destruct (Z.leb_spec (s_end s) n); [|discriminate]. injection HE as <-. split; [assumption|]. split; [assumption|].
    intros k m. rewrite in_map_iff. split.
    + intros ([k' m'] & E & Hi). cbn [fst] in E. destruct (Z.eqb_spec k' (s_dim s)) as [Hk|Hk]; injection E as <- <-; auto.
    + intros [[Hi Hk]|[-> ->]].
      * exists (k, m). cbn [fst]. destruct (Z.eqb_spec k (s_dim s)); [contradiction|]. auto.
      * exists (s_dim s, n). cbn [fst]. rewrite Z.eqb_refl. auto.
Qed.

Lemma sizes_slice_ok sz s : wf sz -> slice_ok s -> slice_eqb s slice_default = false ->
  match slice_dims (pairs sz) s with
  | Some p' => sizes_slice sz s = Ok (mk p') /\ lwf p'
  | None => sizes_slice sz s = Throw SliceError
  end.
Proof.
  intros Hsz Hs Hd.
  assert (Hwv : wfv (mkvar sz (map (fun _ => 0) (labels sz)) 0 false 0)).
  { split; [assumption|]. cbn [v_strides v_dims]. rewrite map_length. split; [reflexivity|].
    apply Forall_forall. intros x Hx. apply in_map_iff in Hx as (? & <- & _). lia. }
  pose proof (slice_accept _ s Hwv Hs) as Ha. cbn [v_dims] in Ha.
  destruct (slice_dims (pairs sz) s) as [p'|] eqn:Esd.
  - destruct Ha as (v' & HE & Hp & Hw' & _). unfold var_slice in HE. cbn [v_dims v_strides] in HE. unfold sizes_slice.
    destruct (valid_slice sz s) as [u| |] eqn:Ev; try discriminate. cbn [bind] in HE |- *. rewrite Hd in *.
    destruct (dindex sz (s_dim s)) as [i| |]; try discriminate. cbn [bind] in HE.
    destruct (vget _ i) as [x| |]; try discriminate. cbn [bind] in HE.
    assert (Hv' : v_dims v' = mk p').
    { destruct (wf_mk_pairs _ (proj1 Hw')) as [E _]. rewrite Hp in E. exact E. }
    split.
    2:{ rewrite <- Hp. apply (wf_mk_pairs _ (proj1 Hw')). }
    destruct (Z.eqb_spec (s_end s) (-1)) as [He|He].
    + unfold is_range. rewrite (proj2 (Z.eqb_eq _ _) He). cbn [negb].
      destruct (verase _ i) as [y| |]; try discriminate. cbn [bind] in HE.
      destruct (merase Z.eqb sz (s_dim s)) as [d'| |]; try discriminate. cbn [bind] in HE. injection HE as <-. cbn [v_dims] in Hv'. idtac. rewrite Hv'. reflexivity.
    + unfold sizes_slice in HE. rewrite Ev in HE. cbn [bind] in HE. rewrite Hd in HE.
      destruct (is_range s) eqn:Er; [|unfold is_range in Er; apply negb_false_iff, Z.eqb_eq in Er; contradiction].
      destruct (s_stride s =? 0); [discriminate|].
      destruct (sizes_resize _ _ _) as [d'| |]; try discriminate. cbn [bind] in HE.
      destruct (vset _ i _) as [y| |]; try discriminate. cbn [bind] in HE. injection HE as <-. cbn [v_dims] in Hv'. idtac. rewrite Hv'. reflexivity.
  - unfold var_slice in Ha. cbn [v_dims v_strides] in Ha. unfold sizes_slice.
    destruct (valid_slice sz s) as [u|e|] eqn:Ev; cbn [bind] in *; [exfalso|congruence|discriminate].
    rewrite Hd in *. unfold valid_slice in Ev. rewrite Hd in Ev.
    destruct (dcontains sz (s_dim s)) eqn:Ec; [|discriminate]. cbn [negb] in Ev.
    destruct (wf_mk_pairs _ Hsz) as [E L]. set (p := pairs sz) in *. clearbody p. subst sz.
    rewrite dcontains_mk in Ec. apply mem_In, In_keys in Ec as [n Hn].
    rewrite dat_mk in Ev by apply L. rewrite (proj2 (extent_In p _ n (proj1 L)) Hn) in Ev. cbn [bind] in Ev.
    unfold slice_dims in Esd. rewrite Hd, (proj2 (extent_In p _ n (proj1 L)) Hn) in Esd.
    destruct (Z.eqb_spec (s_end s) (-1)) as [He|He].
    + destruct (Z.ltb_spec (s_begin s) n) as [|Hge]; [discriminate|].
      destruct (s_end s <? 0) eqn:E0; [|lia]. destruct (s_begin s + 1 >? n) eqn:E1; [discriminate|]. lia.
    + destruct (Z.leb_spec (s_end s) n) as [|Hgt]; [discriminate|]. destruct (s_end s <? 0) eqn:E0.
      * destruct Hs as [->|(Hb0 & _ & [Hx|Hx])]; [discriminate|contradiction|lia].
      * destruct (s_end s >? n) eqn:E1; [discriminate|]. lia.
Qed.

(** ** Slices of items *)
Lemma item_mk it : item_ok it -> i_dims it = mk (ishape it) /\ lwf (ishape it).
Proof. intros [Hi _]. apply (wf_mk_pairs _ (proj1 Hi)). Qed.

Lemma slice_range_def s s' d b e : slice_range d b e 1 = Ok s -> s' = s -> s = mkslice d b e 1.
Proof. intros HE _. apply (slice_range_ok d b e 1 s HE). Qed.

Lemma ceil_div_1 x : ceil_div x 1 = x.
Proof. unfold ceil_div. rewrite Z.div_1_r. lia. Qed.

Lemma put_pull p s ix : slice_eqb s slice_default = false ->
  pull p (VwSlice s) ix = put ix (s_dim s) (s_begin s + if s_end s =? -1 then 0 else s_stride s * ix (s_dim s)).
Proof.
  intros Hd. cbn [pull]. rewrite Hd. destruct (s_end s =? -1); [rewrite Z.add_0_r|]; reflexivity.
Qed.

Lemma slice_fits_other p s p' : lwf p -> slice_eqb s slice_default = false -> slice_dims p s = Some p' ->
  forall k n, In (k, n) p -> k <> s_dim s -> In (k, n) p'.
Proof.
  intros Hp Hd HE k n Hk Hne. destruct (slice_dims_inv p s p' Hp Hd HE) as (m & _ & [(_ & _ & Hi)|(_ & _ & Hi)]); apply Hi; auto.
Qed.
Lemma slice_keys_other p s p' : lwf p -> slice_eqb s slice_default = false -> slice_dims p s = Some p' ->
  forall k, ~ In k (keys p) -> ~ In k (keys p').
Proof.
  intros Hp Hd HE k Hk Hk'. apply In_keys in Hk' as [n Hn].
  destruct (slice_dims_inv p s p' Hp Hd HE) as (m & Hm & [(_ & _ & Hi)|(_ & _ & Hi)]); apply Hi in Hn.
  - apply Hk, In_keys. exists n. tauto.
  - apply Hk, In_keys. destruct Hn as [[Hn _]|[-> _]]; eauto.
Qed.

Lemma slice_item_ok p it s p' : lwf p -> item_ok it -> fits p (ishape it) -> slice_ok s ->
  slice_eqb s slice_default = false -> slice_dims p s = Some p' ->
  (edges_along p (s_dim s) it -> s_stride s = 1) ->
  exists it', slice_item (mk p) it s = Ok it' /\ item_sliced p s it it' /\ i_aligned it' = i_aligned it /\
    item_ok it' /\ fits p' (ishape it').
Proof.
  intros Hp Hit Hf Hs Hd Hp' Hst. destruct (item_mk it Hit) as [Eq Hq]. destruct Hit as [Hwv Hbin].
  unfold slice_item. rewrite Eq. rewrite dcontains_mk. set (q := ishape it) in *.
  destruct (slice_dims_inv p s p' Hp Hd Hp') as (m & Hm & Hcase).
  assert (Hoth := slice_fits_other p s p' Hp Hd Hp').
  assert (Hsok : 0 <= s_begin s /\ 0 < s_stride s /\ (s_end s = -1 \/ s_begin s <= s_end s)).
  { destruct Hs as [->|Hs]; [discriminate|exact Hs]. }
  destruct (mem (s_dim s) (keys q)) eqn:Em.
  - apply mem_In, In_keys in Em as [n Hn]. rewrite dat_mk by apply Hq. rewrite (proj2 (extent_In q _ n (proj1 Hq)) Hn). cbn [bind].
    rewrite dat_mk by apply Hp. rewrite (proj2 (extent_In p _ m (proj1 Hp)) Hm). cbn [bind].
    assert (Hkin : In (s_dim s) (keys q)) by (apply In_keys; eauto).
    destruct (Z.eqb_spec n m) as [->|Hnm].
    + (* regular *)
      assert (Hne : ~ edges_along p (s_dim s) it).
      { intros (i & Hi & Hi'). fold q in Hi. pose proof (In_unique q _ _ _ (proj1 Hq) Hn Hi).
        pose proof (In_unique p _ _ _ (proj1 Hp) Hm Hi'). lia. }
      pose proof (slice_accept (i_var it) s Hwv Hs) as Ha. change (pairs (v_dims (i_var it))) with q in Ha.
      assert (Hsd : exists q', slice_dims q s = Some q').
      { unfold slice_dims. rewrite Hd, (proj2 (extent_In q _ m (proj1 Hq)) Hn).
        destruct Hcase as [(He & Hb & _)|(He & Hb & _)].
        - rewrite (proj2 (Z.eqb_eq _ _) He). destruct (Z.ltb_spec (s_begin s) m); [eauto|lia].
        - destruct (Z.eqb_spec (s_end s) (-1)); [contradiction|]. destruct (Z.leb_spec (s_end s) m); [eauto|lia]. }
      destruct Hsd as (q' & Hq'). rewrite Hq' in Ha. destruct Ha as (v' & -> & Hpd & Hwv' & _ & _ & Hadr). cbn [bind].
      eexists. split; [reflexivity|]. unfold item_sliced, with_var, item_ok, ishape, i_dims. cbn [i_obj i_var i_aligned i_bins].
      change (pairs (v_dims (i_var it))) with q. rewrite Hpd.
      split; [|split; [reflexivity|split; [auto|]]].
      * split; [reflexivity|]. split; [reflexivity|]. split; [contradiction|]. split.
        -- intros _ _. split; [assumption|]. intros ix Hix. destruct (Hadr ix Hix) as [_ ->]. rewrite put_pull by assumption. reflexivity.
        -- intros He. contradiction.
      * destruct (slice_dims_inv q s q' Hq Hd Hq') as (m2 & Hm2 & Hcase2).
        assert (Hreg : forall k i, In (k, i) q' -> (k <> s_dim s -> In (k, i) p) -> In (k, i) p').
        { intros k i Hk Hkp. destruct Hcase as [(He & _ & Hi)|(He & _ & Hi)], Hcase2 as [(He2 & _ & Hi2)|(He2 & _ & Hi2)];
            try contradiction; apply Hi; apply Hi2 in Hk; [tauto|]. destruct Hk as [[Hk Hk2]|Hk]; [left; auto|right; auto]. }
        destruct Hf as [Hf|(e & i & He & Ho & Hc)].
        -- left. intros k i Hk. apply Hreg; [assumption|]. intros Hkd. apply Hf.
           destruct Hcase2 as [(_ & _ & Hi2)|(_ & _ & Hi2)]; apply Hi2 in Hk; tauto.
        -- assert (Hed : e <> s_dim s).
           { intros ->. pose proof (In_unique q _ _ _ (proj1 Hq) Hn He) as <-. destruct Hc as [Hc|[Hc _]].
             - pose proof (In_unique p _ _ _ (proj1 Hp) Hm Hc). lia.
             - apply Hc, In_keys. eauto. }
           right. exists e, i. split; [|split].
           ++ destruct Hcase2 as [(_ & _ & Hi2)|(_ & _ & Hi2)]; apply Hi2; auto.
           ++ intros k j Hk Hke. apply Hreg; [assumption|]. intros Hkd. apply Ho; [|assumption].
              destruct Hcase2 as [(_ & _ & Hi2)|(_ & _ & Hi2)]; apply Hi2 in Hk; tauto.
           ++ destruct Hc as [Hc|[Hc ->]]; [left; apply Hoth; assumption|]. right. split; [|reflexivity].
              apply (slice_keys_other p s p' Hp Hd Hp'). assumption.
    + (* edges *)
      assert (Hn1 : n = m + 1 /\ forall k i, In (k, i) q -> k <> s_dim s -> In (k, i) p).
      { destruct Hf as [Hf|(e & i & He & Ho & Hc)].
        - exfalso. apply Hnm. apply (In_unique p _ _ _ (proj1 Hp) (Hf _ _ Hn) Hm).
        - destruct (Z.eq_dec e (s_dim s)) as [->|Hne].
          + pose proof (In_unique q _ _ _ (proj1 Hq) Hn He) as <-. destruct Hc as [Hc|[Hc _]].
            * pose proof (In_unique p _ _ _ (proj1 Hp) Hm Hc). split; [lia|assumption].
            * exfalso. apply Hc, In_keys. eauto.
          + exfalso. apply Hnm. apply (In_unique p _ _ _ (proj1 Hp) (Ho _ _ Hn (not_eq_sym Hne)) Hm). }
      destruct Hn1 as [-> Hrest].
      assert (Hedge : edges_along p (s_dim s) it) by (exists m; auto).
      specialize (Hst Hedge). rewrite Hst. cbn [Z.eqb negb Pos.eqb].
      set (e := if s_end s =? -1 then s_begin s + 2 else if s_begin s =? s_end s then s_end s else s_end s + 1).
      assert (Hke : kept_edges s = e - s_begin s).
      { unfold kept_edges, e. destruct (s_end s =? -1); [lia|]. destruct (Z.eqb_spec (s_begin s) (s_end s)); lia. }
      assert (He0 : s_begin s <= e /\ e <= m + 1).
      { unfold e. destruct (Z.eqb_spec (s_end s) (-1)).
        - destruct Hcase as [(_ & Hb & _)|(Hx & _)]; [lia|contradiction].
        - destruct Hcase as [(Hx & _)|(_ & Hb & _)]; [contradiction|]. destruct (Z.eqb_spec (s_begin s) (s_end s)); lia. }
      clearbody e.
      assert (Hrg : slice_range (s_dim s) (s_begin s) e 1 = Ok (mkslice (s_dim s) (s_begin s) e 1)).
      { unfold slice_range. destruct (s_begin s <? 0) eqn:E0; [lia|].
        destruct (e =? -1) eqn:E1; [lia|]. cbn [andb orb negb]. destruct (e <? s_begin s) eqn:E2; [lia|].
        destruct (s_begin s >? e) eqn:E3; [lia|]. reflexivity. }
      rewrite Hrg. cbn [bind]. set (es := mkslice (s_dim s) (s_begin s) e 1).
      assert (Hes : slice_ok es).
      { right. unfold es; cbn. lia. }
      assert (Hesd : slice_eqb es slice_default = false).
      { unfold es, slice_eqb, slice_default. cbn. destruct (Z.eqb_spec (s_begin s) (-1)); [lia|]. rewrite ?andb_false_r. reflexivity. }
      assert (Hee : e =? -1 = false) by lia.
      pose proof (slice_accept (i_var it) es Hwv Hes) as Ha. change (pairs (v_dims (i_var it))) with q in Ha.
      assert (Hq' : slice_dims q es = Some (map (fun x => if fst x =? s_dim s then (fst x, kept_edges s) else x) q)).
      { unfold slice_dims. rewrite Hesd. change (s_dim es) with (s_dim s). change (s_end es) with e. rewrite (proj2 (extent_In q _ _ (proj1 Hq)) Hn), Hee.
        destruct (Z.leb_spec e (m + 1)); [|lia]. f_equal. apply map_ext. intros x. unfold es. cbn [s_dim s_end s_begin s_stride].
        rewrite ceil_div_1, Hke. reflexivity. }
      rewrite Hq' in Ha. destruct Ha as (v' & -> & Hpd & Hwv' & _ & _ & Hadr). cbn [bind].
      eexists. split; [reflexivity|]. unfold item_sliced, with_var, item_ok, ishape, i_dims. cbn [i_obj i_var i_aligned i_bins].
      change (pairs (v_dims (i_var it))) with q. rewrite Hpd.
      split; [|split; [reflexivity|split; [auto|]]].
      * split; [reflexivity|]. split; [reflexivity|]. split; [contradiction|]. split; [contradiction|].
        intros _. split; [assumption|]. split; [reflexivity|]. intros ix Hix. destruct (Hadr ix Hix) as [_ ->].
        rewrite put_pull by assumption. unfold es; cbn [s_dim s_begin s_end s_stride]. rewrite Hee. do 2 f_equal. lia.
      * assert (Hin : forall k i, In (k, i) (map (fun x => if fst x =? s_dim s then (fst x, kept_edges s) else x) q) ->
                  (k <> s_dim s /\ In (k, i) q) \/ (k = s_dim s /\ i = kept_edges s)).
        { intros k i Hk. apply in_map_iff in Hk as ([k' i'] & E & Hk). cbn [fst] in E.
          destruct (Z.eqb_spec k' (s_dim s)); injection E as <- <-; auto. }
        assert (Hind : In (s_dim s, kept_edges s) (map (fun x => if fst x =? s_dim s then (fst x, kept_edges s) else x) q)).
        { apply in_map_iff. exists (s_dim s, m + 1). cbn [fst]. rewrite Z.eqb_refl. auto. }
        assert (Hreg : forall k i, In (k, i) (map (fun x => if fst x =? s_dim s then (fst x, kept_edges s) else x) q) -> k <> s_dim s -> In (k, i) p').
        { intros k i Hk Hkd. destruct (Hin k i Hk) as [[_ Hk2]|[Hk2 _]]; [|contradiction]. apply Hoth; [|assumption]. apply Hrest; assumption. }
        destruct Hcase as [(Hx & Hb & Hi)|(Hx & Hb & Hi)].
        -- right. exists (s_dim s), (kept_edges s). split; [assumption|]. split; [exact Hreg|]. right. split.
           ++ intros Hk. apply In_keys in Hk as [j Hk]. apply Hi in Hk. tauto.
           ++ unfold kept_edges. rewrite (proj2 (Z.eqb_eq _ _) Hx). reflexivity.
        -- destruct (Z.eq_dec (s_begin s) (s_end s)) as [Hbe|Hbe].
           ++ left. intros k i Hk. destruct (Z.eq_dec k (s_dim s)) as [->|Hkd]; [|apply Hreg; assumption].
              destruct (Hin _ _ Hk) as [[Hk2 _]|[_ ->]]; [contradiction|]. apply Hi. right. split; [reflexivity|].
              unfold kept_edges. destruct (Z.eqb_spec (s_end s) (-1)); [contradiction|]. rewrite (proj2 (Z.eqb_eq _ _) Hbe).
              rewrite Hst, ceil_div_1. lia.
           ++ right. exists (s_dim s), (kept_edges s). split; [assumption|]. split; [exact Hreg|]. left. apply Hi. right.
              split; [reflexivity|]. rewrite Hst, ceil_div_1. unfold kept_edges.
              destruct (Z.eqb_spec (s_end s) (-1)); [contradiction|]. destruct (Z.eqb_spec (s_begin s) (s_end s)); [contradiction|]. lia.
  - (* dimension not present *)
    apply mem_nIn in Em. rewrite Hd. eexists. split; [reflexivity|].
    unfold item_sliced, with_var, item_ok, ishape, i_dims, var_as_const. cbn [i_obj i_var i_aligned i_bins v_dims v_readonly].
    change (pairs (v_dims (i_var it))) with q.
    split; [|split; [reflexivity|split; [split; [exact Hwv|assumption]|]]].
    + split; [reflexivity|]. split; [reflexivity|]. split; [intros _; split; [reflexivity|]; split; [reflexivity|]; intros ix; reflexivity|].
      split; [contradiction|]. intros (i & Hi & _). exfalso. apply Em, In_keys. eauto.
    + assert (Hnd : forall k i, In (k, i) q -> k <> s_dim s) by (intros k i Hk ->; apply Em, In_keys; eauto).
      destruct Hf as [Hf|(e & i & He & Ho & Hc)].
      * left. intros k i Hk. apply Hoth; [apply Hf, Hk|apply (Hnd k i Hk)].
      * right. exists e, i. split; [assumption|]. split; [intros k j Hk Hke; apply Hoth; [apply Ho; assumption|apply (Hnd k j Hk)]|].
        destruct Hc as [Hc|[Hc ->]]; [left; apply Hoth; [assumption|apply (Hnd e i He)]|].
        right. split; [|reflexivity]. apply (slice_keys_other p s p' Hp Hd Hp'). assumption.
Qed.

Lemma slice_item_throw p it s : lwf p -> item_ok it -> slice_eqb s slice_default = false ->
  edges_along p (s_dim s) it -> s_stride s <> 1 -> slice_item (mk p) it s = Throw SliceError.
Proof.
  intros Hp Hit Hd (n & Hn & Hm) Hst. destruct (item_mk it Hit) as [Eq Hq]. unfold slice_item. rewrite Eq, dcontains_mk.
  rewrite (proj2 (mem_In _ _)) by (apply In_keys; eauto). rewrite dat_mk by apply Hq.
  rewrite (proj2 (extent_In _ _ _ (proj1 Hq)) Hn). cbn [bind]. rewrite dat_mk by apply Hp.
  rewrite (proj2 (extent_In _ _ _ (proj1 Hp)) Hm). cbn [bind]. destruct (Z.eqb_spec (n + 1) n); [lia|].
  destruct (Z.eqb_spec (s_stride s) 1); [contradiction|]. reflexivity.
Qed.

(** ** Slices of dictionaries *)
Lemma slice_map_loop_ok p s p' l : lwf p -> slice_ok s -> slice_eqb s slice_default = false -> slice_dims p s = Some p' ->
  (forall k it, In (k, it) l -> item_ok it /\ fits p (ishape it) /\ (edges_along p (s_dim s) it -> s_stride s = 1)) ->
  forall acc, NoDup (map fst (acc ++ l)) ->
  exists l', slice_map_loop (mk p) (mkd acc) l s = Ok (mkd (acc ++ l')) /\ dict_sliced p s l l' /\
    (forall k it, In (k, it) l' -> item_ok it /\ fits p' (ishape it)).
Proof.
  intros Hp Hs Hd Hp'. induction l as [|[k it] l IH]; intros Hl acc Hnd; cbn [slice_map_loop].
  - exists []. rewrite app_nil_r. split; [reflexivity|]. split; [constructor|]. intros ? ? [].
  - destruct (Hl k it (or_introl eq_refl)) as (Hio & Hif & Hie).
    destruct (slice_item_ok p it s p' Hp Hio Hif Hs Hd Hp' Hie) as (it' & -> & Hsl & Hal & Hio' & Hif'). cbn [bind].
    rewrite map_app in Hnd. cbn [map fst] in Hnd.
    assert (Hk : ~ In k (map fst acc)) by (apply NoDup_remove_2 in Hnd; intros Hi; apply Hnd, in_or_app; auto).
    rewrite insert_new by assumption. cbn [bind].
    destruct (IH (fun k0 it0 Hi => Hl k0 it0 (or_intror Hi)) (acc ++ [(k, it')])) as (l' & -> & Hds & Hok).
    { rewrite !map_app. cbn [map fst]. rewrite <- app_assoc. exact Hnd. }
    exists ((k, it') :: l'). rewrite <- app_assoc. split; [reflexivity|]. split.
    + constructor; [|exact Hds]. cbn [fst snd]. auto.
    + intros k0 it0 [Hi|Hi]; [injection Hi as <- <-; auto|apply (Hok k0 it0 Hi)].
Qed.

Lemma dict_sliced_keys p s l l' : dict_sliced p s l l' -> map fst l' = map fst l.
Proof. induction 1 as [|a b l l' (E & _) _ IH]; cbn; congruence. Qed.

Lemma sd_parts d : sd_ok d -> exists p l ro, d = mksd (mk p) (mkd l) ro /\ lwf p /\ NoDup (map fst l) /\
  sd_shape d = p /\ sd_list d = l /\ (forall k it, In (k, it) l -> item_ok it /\ fits p (ishape it)).
Proof.
  intros Hok. apply sd_ok_alt in Hok as (Hw & Hm & Hnd & Hf). exists (sd_shape d), (sd_list d), (sd_readonly d).
  destruct (wf_mk_pairs _ Hw) as [Hsz Hl]. split; [|auto 10].
  destruct d as [sz m ro]; cbn [sd_sizes sd_items sd_readonly] in *. unfold sd_shape; cbn [sd_sizes]. rewrite <- Hsz, <- Hm. reflexivity.
Qed.

Lemma sd_slice_ok d s : sd_ok d -> slice_ok s -> slice_eqb s slice_default = false ->
  match slice_dims (sd_shape d) s with
  | None => sd_slice d s = Throw SliceError
  | Some p' =>
    (forall k it, In (k, it) (sd_list d) -> edges_along (sd_shape d) (s_dim s) it -> s_stride s = 1) ->
    exists d', sd_slice d s = Ok d' /\ sd_ok d' /\ sd_shape d' = p' /\ sd_readonly d' = true /\
      dict_sliced (sd_shape d) s (sd_list d) (sd_list d')
  end.
Proof.
  intros Hok Hs Hd. destruct (sd_parts d Hok) as (p & l & ro & -> & Hp & Hnd & Ep & El & Hf).
  unfold sd_shape in *. cbn [sd_sizes] in *. rewrite sd_list_mk in *. rewrite pairs_mk in *.
  pose proof (sizes_slice_ok (mk p) s (mk_wf p Hp) Hs Hd) as Hsz. rewrite pairs_mk in Hsz. unfold sd_slice. cbn [sd_sizes sd_items].
  destruct (slice_dims p s) as [p'|] eqn:Ep'.
  - destruct Hsz as [-> Hp']. cbn [bind]. intros Hedge. unfold slice_map. rewrite ditems_mkd.
    destruct (slice_map_loop_ok p s p' l Hp Hs Hd Ep') with (acc := @nil (Z * item)) as (l' & E & Hds & Hok').
    { intros k it Hi. destruct (Hf k it Hi). split; [assumption|]. split; [assumption|]. exact (Hedge k it Hi). }
    { exact Hnd. }
    change (mkd []) with (@mempty Z item) in E. rewrite E. cbn [bind app]. pose proof (dict_sliced_keys _ _ _ _ Hds) as Hk.
    rewrite sd_make_ok; [|apply mk_wf, Hp'|rewrite Hk; assumption|rewrite pairs_mk; assumption].
    eexists. split; [reflexivity|]. split; [apply sd_ok_mk; [apply mk_wf, Hp'|rewrite Hk; assumption|rewrite pairs_mk; assumption]|].
    cbn [sd_sizes sd_readonly]. rewrite pairs_mk, sd_list_mk. auto.
  - rewrite Hsz. reflexivity.
Qed.

Lemma sd_slice_throw d s : sd_ok d -> slice_ok s -> slice_eqb s slice_default = false ->
  (exists k it, In (k, it) (sd_list d) /\ edges_along (sd_shape d) (s_dim s) it) -> s_stride s <> 1 ->
  sd_slice d s = Throw SliceError.
Proof.
  intros Hok Hs Hd (k & it & Hi & He) Hst. pose proof (sd_slice_ok d s Hok Hs Hd) as Hno.
  destruct (sd_parts d Hok) as (p & l & ro & -> & Hp & Hnd & Ep & El & Hf).
  unfold sd_shape in *. cbn [sd_sizes] in *. rewrite sd_list_mk in *. rewrite pairs_mk in *.
  pose proof (sizes_slice_ok (mk p) s (mk_wf p Hp) Hs Hd) as Hsz. rewrite pairs_mk in Hsz.
  destruct (slice_dims p s) as [p'|] eqn:Ep'; [|exact Hno]. clear Hno. unfold sd_slice. cbn [sd_sizes sd_items].
  destruct Hsz as [-> Hp']. cbn [bind]. unfold slice_map. rewrite ditems_mkd.
  enough (G : forall acc, NoDup (map fst (acc ++ l)) -> slice_map_loop (mk p) (mkd acc) l s = Throw SliceError).
  { change (@mempty Z item) with (mkd (@nil (Z * item))). rewrite G by exact Hnd. reflexivity. }
  clear Hok Hnd El. induction l as [|[k0 it0] l IH]; [destruct Hi|]. intros acc Hnd. cbn [slice_map_loop].
  destruct (Hf k0 it0 (or_introl eq_refl)) as [Hio Hif].
  assert (Hdec : edges_along p (s_dim s) it0 \/ ~ edges_along p (s_dim s) it0).
  { destruct (extent (ishape it0) (s_dim s)) as [n|] eqn:E1.
    - destruct (extent p (s_dim s)) as [m|] eqn:E2.
      + apply extent_some_In in E1, E2. destruct (Z.eq_dec n (m + 1)) as [->|Hne].
        * left. exists m. auto.
        * right. intros (i & Hi1 & Hi2). apply Hne. pose proof (In_unique p _ _ _ (proj1 Hp) E2 Hi2).
          pose proof (In_unique _ _ _ _ (proj1 (proj2 (item_mk it0 Hio))) E1 Hi1). lia.
      + right. intros (i & Hi1 & Hi2). rewrite extent_None in E2. apply E2, In_keys. eauto.
    - right. intros (i & Hi1 & Hi2). rewrite extent_None in E1. apply E1, In_keys. eauto. }
  destruct Hdec as [He0|He0].
  - rewrite slice_item_throw by assumption. reflexivity.
  - destruct (slice_item_ok p it0 s p' Hp Hio Hif Hs Hd Ep') as (it' & -> & _); [contradiction|]. cbn [bind].
    rewrite map_app in Hnd. cbn [map fst] in Hnd.
    assert (Hk : ~ In k0 (map fst acc)) by (apply NoDup_remove_2 in Hnd; intros Hx; apply Hnd, in_or_app; auto).
    rewrite insert_new by assumption. cbn [bind]. apply IH.
    + destruct Hi as [Hi|Hi]; [injection Hi as -> ->; contradiction|exact Hi].
    + intros k1 it1 Hi1. exact (Hf k1 it1 (or_intror Hi1)).
    + rewrite !map_app. cbn [map fst]. rewrite <- app_assoc. exact Hnd.
Qed.

(** ** The dimension of a coord *)
Lemma is_edges_loop_ok p q l r : lwf p -> lwf q -> (forall k, In k r -> In k (keys q)) ->
  exists b, is_edges_loop (mk p) (mk q) l r = Ok b /\
    (b = true <-> forall k n, In k r -> k <> l -> In (k, n) q -> In (k, n) p).
Proof.
  intros Hp Hq. induction r as [|k r IH]; intros Hr; cbn [is_edges_loop].
  - exists true. split; [reflexivity|]. split; [intros _ k n []|reflexivity].
  - destruct (IH (fun k0 H0 => Hr k0 (or_intror H0))) as (b & Eb & Hb).
    destruct (Z.eqb_spec k l) as [->|Hne].
    + exists b. split; [assumption|]. rewrite Hb. split; intros Ha k n.
      * intros [<-|Hk] Hne; [contradiction|]. apply Ha; assumption.
      * intros Hk. apply Ha. right. exact Hk.
    + rewrite dcontains_mk. pose proof (Hr k (or_introl eq_refl)) as Hkq. apply In_keys in Hkq as [n Hn].
      destruct (mem k (keys p)) eqn:Em.
      * apply mem_In, In_keys in Em as [m Hm]. rewrite !dat_mk by (apply Hp || apply Hq).
        rewrite (proj2 (extent_In p k m (proj1 Hp)) Hm), (proj2 (extent_In q k n (proj1 Hq)) Hn). cbn [bind].
        destruct (Z.eqb_spec m n) as [->|Hmn].
        -- exists b. split; [assumption|]. rewrite Hb. split; intros Ha k0 n0.
           ++ intros [<-|Hk] Hk0 Hi; [|apply Ha; assumption]. rewrite (In_unique q _ _ _ (proj1 Hq) Hi Hn). assumption.
           ++ intros Hk. apply Ha. right. exact Hk.
        -- exists false. split; [reflexivity|]. split; [discriminate|]. intros Ha. exfalso. apply Hmn.
           apply (In_unique p k m n (proj1 Hp) Hm). apply Ha; [left; reflexivity|assumption|assumption].
      * apply mem_nIn in Em. exists false. split; [reflexivity|]. split; [discriminate|]. intros Ha. exfalso. apply Em, In_keys.
        exists n. apply Ha; [left; reflexivity|assumption|assumption].
Qed.

Lemma fits_edge_unique p it e : fits p (ishape it) -> lwf p -> lwf (ishape it) -> edge_dim p it e ->
  forall k n, In (k, n) (ishape it) -> k <> e -> In (k, n) p.
Proof.
  intros Hf Hp Hq (i & Hi & Hc) k n Hk Hne. destruct Hf as [Hf|(e0 & i0 & He & Ho & Hc0)]; [apply Hf, Hk|].
  destruct (Z.eq_dec e e0) as [<-|Hee]; [apply Ho; assumption|]. pose proof (Ho e i Hi Hee) as Hip. exfalso.
  destruct Hc as [Hc|[Hc _]].
  - pose proof (In_unique p _ _ _ (proj1 Hp) Hip Hc). lia.
  - apply Hc, In_keys. eauto.
Qed.

Lemma is_edges_ok p it l : lwf p -> item_ok it -> fits p (ishape it) -> exists b, is_edges (mk p) (i_dims it) l = Ok b /\
  (b = true <-> edge_dim p it l).
Proof.
  intros Hp Hio Hf. destruct (item_mk it Hio) as [Eq Hq]. rewrite Eq. unfold is_edges.
  assert (Hno : ~ In l (keys (ishape it)) -> ~ edge_dim p it l).
  { intros Hn (i & Hi & _). apply Hn, In_keys. eauto. }
  destruct (Z.eqb_spec l InvalidDim) as [->|Hinv]; cbn [orb].
  - exists false. split; [reflexivity|]. split; [discriminate|]. intros He. exfalso. revert He. apply Hno, Hq.
  - rewrite dcontains_mk. destruct (mem l (keys (ishape it))) eqn:Em; cbn [negb].
    + apply mem_In, In_keys in Em as [n Hn].
      assert (Hchk : exists b, (if msize (mk p) =? 0 then Ok true else is_edges_loop (mk p) (mk (ishape it)) l (m_keys (mk (ishape it)))) = Ok b /\
        (b = true <-> forall k m, k <> l -> In (k, m) (ishape it) -> In (k, m) p \/ p = [])).
      { destruct (Z.eqb_spec (msize (mk p)) 0) as [Hz|Hz].
        - exists true. split; [reflexivity|]. assert (p = []).
          { destruct p; [reflexivity|]. exfalso. unfold msize, mk, zlen in Hz. cbn in Hz. lia. }
          split; [auto|reflexivity].
        - destruct (is_edges_loop_ok p (ishape it) l (keys (ishape it)) Hp Hq (fun _ Hx => Hx)) as (b & Eb & Hb). exists b.
          split; [exact Eb|]. rewrite Hb. split.
          + intros Ha k m Hk Hi. left. apply Ha; [apply In_keys; eauto|assumption|assumption].
          + intros Ha k m _ Hk Hi. destruct (Ha k m Hk Hi) as [Hx|Hx]; [assumption|]. exfalso. apply Hz. rewrite Hx. reflexivity. }
      destruct Hchk as (b & -> & Hb). cbn [bind]. rewrite dat_mk by apply Hq.
      rewrite (proj2 (extent_In _ l n (proj1 Hq)) Hn), dcontains_mk. cbn [bind].
      destruct b; cbn [negb].
      * destruct (mem l (keys p)) eqn:Emp.
        -- apply mem_In, In_keys in Emp as [m Hm]. rewrite dat_mk by apply Hp. rewrite (proj2 (extent_In _ l m (proj1 Hp)) Hm). cbn [bind].
           eexists. split; [reflexivity|]. rewrite Z.eqb_eq. split.
           ++ intros ->. exists (m + 1). split; [assumption|]. left. replace (m + 1 - 1) with m by lia. assumption.
           ++ intros (i & Hi & Hc). pose proof (In_unique _ _ _ _ (proj1 Hq) Hi Hn) as ->. destruct Hc as [Hc|[Hc _]].
              ** pose proof (In_unique _ _ _ _ (proj1 Hp) Hc Hm). lia.
              ** exfalso. apply Hc, In_keys. eauto.
        -- apply mem_nIn in Emp. cbn [bind]. eexists. split; [reflexivity|]. rewrite Z.eqb_eq. split.
           ++ intros ->. exists 2. auto.
           ++ intros (i & Hi & Hc). pose proof (In_unique _ _ _ _ (proj1 Hq) Hi Hn) as ->. destruct Hc as [Hc|[_ Hc]]; [|assumption].
              exfalso. apply Emp, In_keys. eauto.
      * exists false. split; [reflexivity|]. split; [discriminate|]. intros He. apply Hb. intros k m Hk Hi. left.
        apply (fits_edge_unique p it l Hf Hp Hq He); assumption.
    + apply mem_nIn in Em. exists false. split; [reflexivity|]. split; [discriminate|]. intros He. exfalso. exact (Hno Em He).
Qed.

Lemma first_edge_ok p it ls : lwf p -> item_ok it -> fits p (ishape it) ->
  exists o, first_edge (mk p) (i_dims it) ls = Ok o /\
    match o with Some l => edge_dim p it l | None => forall l, In l ls -> ~ edge_dim p it l end.
Proof.
  intros Hp Hio Hf. induction ls as [|l ls (o & Eo & Ho)]; cbn [first_edge].
  - exists None. split; [reflexivity|]. intros l [].
  - destruct (is_edges_ok p it l Hp Hio Hf) as (b & -> & Hb). cbn [bind]. destruct b.
    + exists (Some l). split; [reflexivity|]. apply Hb. reflexivity.
    + exists o. split; [assumption|]. destruct o as [l'|]; [assumption|]. intros l' [<-|Hl]; [|apply Ho, Hl].
      intros He. apply Hb in He. discriminate.
Qed.

Lemma edge_dim_unique p it a b : lwf p -> item_ok it -> fits p (ishape it) -> edge_dim p it a -> edge_dim p it b -> a = b.
Proof.
  intros Hp Hio Hf Ha Hb. destruct (item_mk it Hio) as [_ Hq]. destruct (Z.eq_dec a b) as [E|Hne]; [assumption|]. exfalso.
  pose proof (fits_edge_unique p it b Hf Hp Hq Hb) as Ho. destruct Ha as (n & Hn & Hc). specialize (Ho a n Hn Hne).
  destruct Hc as [Hc|[Hc _]].
  - pose proof (In_unique p _ _ _ (proj1 Hp) Ho Hc). lia.
  - apply Hc, In_keys. eauto.
Qed.

(** [dim_of] of a coord that is not 0-D. *)
Lemma dim_of_ok p l ro k it : lwf p -> NoDup (map fst l) -> In (k, it) l -> item_ok it -> fits p (ishape it) ->
  exists x, dim_of (mksd (mk p) (mkd l) ro) k = Ok x /\
    forall d, In d (keys (ishape it)) -> (x = d <-> coord_of p k it d).
Proof.
  intros Hp Hnd Hi Hio Hf. unfold dim_of, sd_at. cbn [sd_items sd_sizes]. rewrite (at_In _ _ _ _ Hnd Hi). cbn [bind].
  destruct (item_mk it Hio) as [Eq Hq]. pose proof Hq as (_ & _ & Hinv).
  assert (En : ndim (i_dims it) = zlen (ishape it)) by (rewrite Eq; unfold ndim, mk, zlen; cbn; unfold keys; rewrite map_length; reflexivity).
  rewrite En. destruct (first_edge_ok p it (labels (i_dims it)) Hp Hio Hf) as (o & Eo & Ho).
  destruct (ishape it) as [|[a n] q] eqn:Es.
  - exists InvalidDim. split; [reflexivity|]. intros d [].
  - destruct q as [|b q].
    + cbn. eexists. split; [reflexivity|]. rewrite Eq. cbn. intros d [<-|[]].
      split; [|reflexivity]. intros _. unfold coord_of. rewrite Es. split; [left; reflexivity|]. left. reflexivity.
    + destruct (Z.eqb_spec (zlen ((a, n) :: b :: q)) 0) as [Hz|_]; [unfold zlen in Hz; cbn [length] in Hz; lia|].
      destruct (Z.eqb_spec (zlen ((a, n) :: b :: q)) 1) as [Hz|_]; [unfold zlen in Hz; cbn [length] in Hz; lia|].
      rewrite Eo. cbn [bind]. rewrite Eq in Ho |- *. rewrite <- Es in *.
      assert (Hlen : length (ishape it) <> 1%nat) by (rewrite Es; cbn; lia).
      destruct o as [e|].
      * exists e. split; [reflexivity|]. intros d Hd. split.
        -- intros <-. split; [assumption|]. right. left. assumption.
        -- intros (_ & [Hx|[Hx|[Hx _]]]); [contradiction|apply (edge_dim_unique p it e d); assumption|]. exfalso. exact (Hx e Ho).
      * assert (Hn : forall e, ~ edge_dim p it e).
        { intros e He. apply (Ho e); [|assumption]. destruct He as (i & Hx & _). change (labels (mk (ishape it))) with (keys (ishape it)).
          apply In_keys. eauto. }
        rewrite dcontains_mk. destruct (mem k (keys (ishape it))) eqn:Em.
        -- exists k. split; [reflexivity|]. intros d Hd. split.
           ++ intros <-. split; [assumption|]. right. right. auto.
           ++ intros (_ & [Hx|[Hx|[_ Hx]]]); [contradiction|exfalso; exact (Hn d Hx)|exact Hx].
        -- exists InvalidDim. apply mem_nIn in Em. split; [reflexivity|]. intros d Hd. split.
           ++ intros <-. contradiction.
           ++ intros (_ & [Hx|[Hx|[_ Hx]]]); [contradiction|exfalso; exact (Hn d Hx)|]. subst d. contradiction.
Qed.

Lemma unaligned_ok p l ro k it s : lwf p -> NoDup (map fst l) -> In (k, it) l -> item_ok it -> fits p (ishape it) ->
  slice_eqb s slice_default = false ->
  exists b, unaligned_by_slice (mksd (mk p) (mkd l) ro) k it s = Ok b /\
    (b = true <-> s_end s = -1 /\ coord_of p k it (s_dim s)).
Proof.
  intros Hp Hnd Hi Hio Hf Hd. unfold unaligned_by_slice. rewrite Hd. cbn [orb].
  destruct (Z.eqb_spec (s_end s) (-1)) as [He|He]; cbn [negb].
  - destruct (item_mk it Hio) as [Eq Hq]. rewrite Eq, dcontains_mk. destruct (mem (s_dim s) (keys (ishape it))) eqn:Em.
    + apply mem_In in Em. destruct (dim_of_ok p l ro k it Hp Hnd Hi Hio Hf) as (x & -> & Hx). cbn [bind].
      eexists. split; [reflexivity|]. rewrite Z.eqb_eq, (Hx _ Em). tauto.
    + apply mem_nIn in Em. exists false. split; [reflexivity|]. split; [discriminate|]. intros (_ & Hc & _). contradiction.
  - exists false. split; [reflexivity|]. split; [discriminate|]. tauto.
Qed.

(** ** Slices of coords *)
Lemma unalign_loop_ok p l0 ro s sz l : lwf p -> NoDup (map fst l0) -> slice_eqb s slice_default = false ->
  (forall k it, In (k, it) l -> In (k, it) l0 /\ item_ok it /\ fits p (ishape it)) ->
  forall acc l', dict_sliced p s l l' -> NoDup (map fst (acc ++ l')) ->
  exists l'', unalign_loop (mksd (mk p) (mkd l0) ro) (mksd sz (mkd (acc ++ l')) false) l s = Ok (mksd sz (mkd (acc ++ l'')) false) /\
    coords_sliced p s l l'' /\ Forall2 (fun a b => fst b = fst a /\ i_var (snd b) = i_var (snd a) /\ i_bins (snd b) = i_bins (snd a)) l' l''.
Proof.
  intros Hp Hnd0 Hd. induction l as [|[k it] l IH]; intros Hl acc l' Hds Hnd; inversion Hds as [|? [k' it'] ? l1 (Hk & Hsl & Hal) Hds1 E1 E2]; subst.
  - exists []. split; [reflexivity|]. split; constructor.
  - cbn [fst snd] in Hk, Hsl, Hal. subst k'. cbn [unalign_loop]. destruct (Hl k it (or_introl eq_refl)) as (Hi0 & Hio & Hf).
    destruct (unaligned_ok p l0 ro k it s Hp Hnd0 Hi0 Hio Hf Hd) as (b & -> & Hb). cbn [bind].
    assert (Hl1 : forall k0 it0, In (k0, it0) l -> In (k0, it0) l0 /\ item_ok it0 /\ fits p (ishape it0)) by (intros; apply Hl; right; assumption).
    destruct b.
    + unfold sd_set_aligned. cbn [sd_readonly sd_items sd_sizes]. unfold sd_at. cbn [sd_items]. rewrite at_old by assumption. cbn [bind].
      rewrite insert_old by assumption. cbn [bind].
      destruct (IH Hl1 (acc ++ [(k, with_aligned it' false)]) l1 Hds1) as (l2 & E & Hcs & Hv).
      { rewrite <- app_assoc. rewrite map_app in *. exact Hnd. }
      rewrite <- !app_assoc in E. cbn [app] in E. rewrite E. exists ((k, with_aligned it' false) :: l2). split; [reflexivity|]. split.
      * constructor; [|exact Hcs]. cbn [fst snd]. split; [reflexivity|]. split; [exact Hsl|]. cbn [with_aligned i_aligned]. split; [reflexivity|].
        intros Hn. exfalso. apply Hn, Hb. reflexivity.
      * constructor; [|exact Hv]. auto.
    + cbn [bind]. destruct (IH Hl1 (acc ++ [(k, it')]) l1 Hds1) as (l2 & E & Hcs & Hv).
      { rewrite <- app_assoc. rewrite map_app in *. exact Hnd. }
      rewrite <- !app_assoc in E. cbn [app] in E. rewrite E. exists ((k, it') :: l2). split; [reflexivity|]. split.
      * constructor; [|exact Hcs]. cbn [fst snd]. split; [reflexivity|]. split; [exact Hsl|]. split; [|auto].
        intros Hy. apply Hb in Hy. discriminate.
      * constructor; [|exact Hv]. auto.
Qed.

Lemma Forall2_In_r {A B} (R : A -> B -> Prop) l l' y : Forall2 R l l' -> In y l' -> exists x, In x l /\ R x y.
Proof.
  induction 1 as [|a b l l' Hr _ IH]; [intros []|]. intros [<-|Hy]; [exists a; cbn; auto|]. destruct (IH Hy) as (x & Hx & Hxy). exists x; cbn; auto.
Qed.
Lemma Forall2_fst (R : Z * item -> Z * item -> Prop) l l' : (forall a b, R a b -> fst b = fst a) -> Forall2 R l l' -> map fst l' = map fst l.
Proof. intros Hr. induction 1 as [|a b l l' E _ IH]; cbn; [reflexivity|]. rewrite (Hr a b E), IH. reflexivity. Qed.

Lemma sd_slice_coords_ok d s : sd_ok d -> slice_ok s -> slice_eqb s slice_default = false ->
  match slice_dims (sd_shape d) s with
  | None => sd_slice_coords d s = Throw SliceError
  | Some p' =>
    (forall k it, In (k, it) (sd_list d) -> edges_along (sd_shape d) (s_dim s) it -> s_stride s = 1) ->
    exists d', sd_slice_coords d s = Ok d' /\ sd_ok d' /\ sd_shape d' = p' /\ sd_readonly d' = true /\
      coords_sliced (sd_shape d) s (sd_list d) (sd_list d')
  end.
Proof.
  intros Hok Hs Hd. pose proof (sd_slice_ok d s Hok Hs Hd) as Hsl. unfold sd_slice_coords.
  destruct (slice_dims (sd_shape d) s) as [p'|] eqn:Ep'; [|rewrite Hsl; reflexivity].
  intros Hedge. destruct (Hsl Hedge) as (c & -> & Hcok & Hcs & _ & Hds). cbn [bind]. clear Hsl.
  destruct (sd_parts d Hok) as (p & l & ro & -> & Hp & Hnd & Ep & El & Hf). rewrite Ep, El in *.
  destruct (sd_parts c Hcok) as (pc & lc & roc & -> & Hpc & Hndc & Epc & Elc & Hfc). rewrite Epc, Elc in *. subst pc. cbn [sd_sizes sd_items].
  rewrite ditems_mkd.
  destruct (unalign_loop_ok p l ro s (mk p') l Hp Hnd Hd (fun k it Hi => conj Hi (Hf k it Hi)) [] lc Hds Hndc) as (l2 & E & Hcs2 & Hv).
  cbn [app] in E. rewrite E. cbn [bind sd_sizes sd_items]. eexists. split; [reflexivity|]. split.
  - apply sd_ok_mk; [apply mk_wf, Hpc| |].
    + rewrite (Forall2_fst _ lc l2 (fun a b Hab => proj1 Hab) Hv). exact Hndc.
    + rewrite pairs_mk. intros k it Hi. destruct (Forall2_In_r _ _ _ _ Hv Hi) as ([k0 it0] & Hi0 & _ & Ev & Eb). cbn [snd] in Ev, Eb.
      destruct (Hfc k0 it0 Hi0) as [[Hw Hb] Hff]. unfold item_ok, ishape, i_dims in *. rewrite Ev, Eb. auto.
  - unfold sd_shape. cbn [sd_sizes sd_readonly]. rewrite pairs_mk, sd_list_mk. auto.
Qed.

Lemma sd_slice_coords_throw d s : sd_ok d -> slice_ok s -> slice_eqb s slice_default = false ->
  (exists k it, In (k, it) (sd_list d) /\ edges_along (sd_shape d) (s_dim s) it) -> s_stride s <> 1 ->
  sd_slice_coords d s = Throw SliceError.
Proof. intros. unfold sd_slice_coords. rewrite sd_slice_throw by assumption. reflexivity. Qed.

(** ** Renaming *)
Lemma rename_dims_mk names : forall p flag, lwf p -> ~ In InvalidDim (map snd names) ->
  match rename_pairs p names flag with
  | Some p' => rename_dims (mk p) names flag = Ok (mk p') /\ lwf p'
  | None => rename_dims (mk p) names flag = Throw DimensionError
  end.
Proof.
  induction names as [|[f t] names IH]; intros p flag Hp Hn; cbn [rename_pairs rename_dims].
  - auto.
  - cbn [map snd] in Hn. assert (Ht0 : t <> InvalidDim) by (intros ->; apply Hn; left; reflexivity).
    assert (Hn' : ~ In InvalidDim (map snd names)) by (intros Hx; apply Hn; right; assumption).
    rewrite dcontains_mk. destruct (mem f (keys p)) eqn:Ef.
    + apply mem_In in Ef. destruct (negb (f =? t) && mem t (keys p)) eqn:Et.
      * rewrite mreplace_key_same; [|apply Hp|assumption].
        replace (memb (mk p) t) with (mem t (keys p)) by reflexivity. rewrite Et. reflexivity.
      * assert (Hor : f = t \/ ~ In t (keys p)).
        { apply andb_false_iff in Et as [Et|Et]; [left; apply negb_false_iff, Z.eqb_eq in Et; assumption|right; apply mem_nIn; assumption]. }
        pose proof (rename_step p f t Hp Ef Hor Ht0) as Hst. cbn zeta in Hst.
        destruct Hst as (Hw1 & _ & _ & Hr1 & _). rewrite Hr1. cbn [bind]. apply IH; assumption.
    + destruct flag; [reflexivity|]. apply IH; assumption.
Qed.

Lemma rename_known names : forall p p' flag, rename_pairs p names true = Some p' -> rename_pairs p names flag = Some p'.
Proof.
  induction names as [|[f t] names IH]; intros p p' flag HE; cbn [rename_pairs] in *; [assumption|].
  destruct (mem f (keys p)); [|discriminate]. destruct (negb (f =? t) && mem t (keys p)); [discriminate|]. apply IH, HE.
Qed.

Definition ren1 (f t : Dim) (p : list (Dim * Z)) := map (fun e : Z * Z => (if fst e =? f then t else fst e, snd e)) p.
Lemma ren1_In f t p k n : In (k, n) (ren1 f t p) <-> exists j, In (j, n) p /\ k = if j =? f then t else j.
Proof.
  unfold ren1. rewrite in_map_iff. split.
  - intros ([j m] & [= <- <-] & Hj). eauto.
  - intros (j & Hj & ->). exists (j, n). auto.
Qed.
Lemma ren1_other f t p k n : In (k, n) p -> k <> f -> In (k, n) (ren1 f t p).
Proof. intros Hk Hne. apply ren1_In. exists k. destruct (Z.eqb_spec k f); [contradiction|auto]. Qed.
Lemma ren1_keys f t p k : In k (keys (ren1 f t p)) <-> exists j, In j (keys p) /\ k = if j =? f then t else j.
Proof.
  rewrite In_keys. split.
  - intros (n & Hn). apply ren1_In in Hn as (j & Hj & E). exists j. split; [apply In_keys; eauto|assumption].
  - intros (j & Hj & E). apply In_keys in Hj as [n Hn]. exists n. apply ren1_In. eauto.
Qed.
Lemma ren1_absent f t p : ~ In f (keys p) -> ren1 f t p = p.
Proof.
  unfold ren1. intros Hf. rewrite <- (map_id p) at 2. apply map_ext_in. intros [k n] Hk. cbn [fst snd].
  destruct (Z.eqb_spec k f) as [->|]; [|reflexivity]. exfalso. apply Hf, In_keys. eauto.
Qed.

(** One step: the item follows its parent. *)
Lemma fits_ren1 f t p q : lwf p -> lwf q -> In f (keys p) -> (f = t \/ ~ In t (keys p)) -> ~ In t (keys q) \/ In t (keys p) ->
  fits p q -> fits (ren1 f t p) (ren1 f t q).
Proof.
  intros Hp Hq Hfp Ht Htq Hf.
  assert (Hmap : forall k n, In (k, n) p -> In (if k =? f then t else k, n) (ren1 f t p)) by (intros k n Hk; apply ren1_In; eauto).
  destruct Hf as [Hf|(e & n & He & Ho & Hc)].
  - left. intros k n Hk. apply ren1_In in Hk as (j & Hj & ->). apply Hmap, Hf, Hj.
  - right. exists (if e =? f then t else e), n. split; [apply ren1_In; eauto|]. split.
    + intros k m Hk Hne. apply ren1_In in Hk as (j & Hj & ->). apply Hmap. apply Ho; [assumption|]. intros ->. apply Hne. reflexivity.
    + destruct Hc as [Hc|[Hc ->]]; [left; apply Hmap; assumption|]. right. split; [|reflexivity].
      assert (Hef : e <> f) by (intros ->; contradiction). destruct (Z.eqb_spec e f); [contradiction|].
      intros Hk. apply ren1_keys in Hk as (j & Hj & E). destruct (Z.eqb_spec j f) as [->|]; subst.
      * assert (Htq' : In t (keys q)) by (apply In_keys; eauto). destruct Htq; contradiction.
      * contradiction.
Qed.

Lemma rename_fits names : forall p q p', lwf p -> lwf q -> ~ In InvalidDim (map snd names) -> fits p q ->
  (forall e, In e (keys q) -> ~ In e (keys p) -> ~ In e (map snd names)) ->
  rename_pairs p names true = Some p' -> exists q', rename_pairs q names false = Some q' /\ fits p' q'.
Proof.
  induction names as [|[f t] names IH]; intros p q p' Hp Hq Hn Hf Hex HE; cbn [rename_pairs] in *.
  - injection HE as <-. eauto.
  - cbn [map snd] in Hn. assert (Ht0 : t <> InvalidDim) by (intros ->; apply Hn; left; reflexivity).
    assert (Hn' : ~ In InvalidDim (map snd names)) by (intros Hx; apply Hn; right; assumption).
    destruct (mem f (keys p)) eqn:Efp; [|discriminate]. apply mem_In in Efp.
    destruct (negb (f =? t) && mem t (keys p)) eqn:Et; [discriminate|].
    assert (Hor : f = t \/ ~ In t (keys p)).
    { apply andb_false_iff in Et as [Et|Et]; [left; apply negb_false_iff, Z.eqb_eq in Et; assumption|right; apply mem_nIn; assumption]. }
    assert (Htq : In t (keys q) -> In t (keys p)).
    { intros Hx. destruct (mem t (keys p)) eqn:Em; [apply mem_In, Em|]. apply mem_nIn in Em. exfalso. apply (Hex t Hx Em). left. reflexivity. }
    assert (Htq2 : ~ In t (keys q) \/ In t (keys p)).
    { destruct (mem t (keys q)) eqn:Em; [right; apply Htq, mem_In, Em|left; apply mem_nIn, Em]. }
    pose proof (rename_step p f t Hp Efp Hor Ht0) as Hst. cbn zeta in Hst. destruct Hst as (Hw1 & _).
    fold (ren1 f t p) in *. pose proof (fits_ren1 f t p q Hp Hq Efp Hor Htq2 Hf) as Hf1.
    assert (Hex1 : forall e, In e (keys (ren1 f t q)) -> ~ In e (keys (ren1 f t p)) -> ~ In e (map snd names)).
    { intros e He Hne Hin. apply ren1_keys in He as (j & Hj & E). destruct (Z.eqb_spec j f) as [->|Hjf].
      - apply Hne, ren1_keys. exists f. rewrite Z.eqb_refl. auto.
      - subst j. apply (Hex e Hj); [|right; assumption]. intros Hep. apply Hne, ren1_keys. exists e.
        destruct (Z.eqb_spec e f); [contradiction|auto]. }
    destruct (mem f (keys q)) eqn:Efq.
    + apply mem_In in Efq. assert (Hor2 : f = t \/ ~ In t (keys q)) by (destruct Hor as [->|Hx]; [left; reflexivity|right; tauto]).
      replace (negb (f =? t) && mem t (keys q)) with false.
      2:{ symmetry. apply andb_false_iff. destruct Hor2 as [->|Hx]; [left; rewrite Z.eqb_refl; reflexivity|right; apply mem_nIn; assumption]. }
      pose proof (rename_step q f t Hq Efq Hor2 Ht0) as Hst. cbn zeta in Hst. destruct Hst as (Hw2 & _). fold (ren1 f t q) in *.
      apply (IH (ren1 f t p) (ren1 f t q) p' Hw1 Hw2 Hn' Hf1 Hex1 HE).
    + apply mem_nIn in Efq. rewrite (ren1_absent f t q Efq) in *.
      apply (IH (ren1 f t p) q p' Hw1 Hq Hn' Hf1 Hex1 HE).
Qed.

Lemma rename_clash_iff p it names : item_ok it -> rename_clash (mk p) it names = true <->
  exists t, In t (map snd names) /\ ~ In t (keys p) /\ In t (keys (ishape it)).
Proof.
  intros Hio. destruct (item_mk it Hio) as [Eq _]. unfold rename_clash. rewrite existsb_exists. split.
  - intros ([f t] & Hin & E). cbn [snd] in E. rewrite Eq, !dcontains_mk in E. apply andb_true_iff in E as [E1 E2].
    apply negb_true_iff, mem_nIn in E1. apply mem_In in E2. exists t. split; [|auto]. apply in_map_iff. exists (f, t). auto.
  - intros (t & Hin & H1 & H2). apply in_map_iff in Hin as ([f t'] & <- & Hin). exists (f, t'). split; [assumption|]. cbn [snd] in *.
    rewrite Eq, !dcontains_mk. apply mem_nIn in H1. rewrite H1. apply mem_In in H2. rewrite H2. reflexivity.
Qed.

Lemma rename_item_ok it names q' : item_ok it -> ~ In InvalidDim (map snd names) -> rename_pairs (ishape it) names false = Some q' ->
  exists v, var_rename (i_var it) names false = Ok v /\ pairs (v_dims v) = q' /\ wfv v /\ v_strides v = v_strides (i_var it) /\
    v_offset v = v_offset (i_var it).
Proof.
  intros Hio Hn E. destruct (item_mk it Hio) as [Eq Hq]. pose proof (rename_dims_mk names (ishape it) false Hq Hn) as Hr. rewrite E in Hr.
  destruct Hr as [Hr Hw]. unfold var_rename. unfold i_dims in Eq. rewrite Eq, Hr. cbn [bind]. eexists. split; [reflexivity|].
  cbn [v_dims v_strides v_offset]. split; [apply pairs_mk|]. split; [|auto].
  destruct Hio as [(_ & Hl & Hs) _]. split; [apply mk_wf, Hw|]. cbn [v_dims v_strides]. split; [|exact Hs].
  rewrite Hl, Eq. clear -E. unfold mk. cbn [m_keys labels]. unfold keys. rewrite !map_length. revert E. generalize (ishape it) as q.
  induction names as [|[f t] names IH]; intros q E; cbn [rename_pairs] in E.
  - injection E as <-. reflexivity.
  - destruct (mem f (keys q)); [|apply IH, E]. destruct (negb (f =? t) && mem t (keys q)); [discriminate|].
    specialize (IH _ E). rewrite map_length in IH. exact IH.
Qed.

Lemma rename_items_ok p names p' l : lwf p -> ~ In InvalidDim (map snd names) -> rename_pairs p names true = Some p' ->
  (forall k it, In (k, it) l -> item_ok it /\ fits p (ishape it)) ->
  (forall k it t, In (k, it) l -> In t (map snd names) -> In t (keys (ishape it)) -> In t (keys p)) ->
  exists l', rename_items (mk p) l names = Ok (map snd l') /\ dict_renamed names l l' /\
    (forall k it, In (k, it) l' -> item_ok it /\ fits p' (ishape it)).
Proof.
  intros Hp Hn HE. induction l as [|[k it] l IH]; intros Hl Hc; cbn [rename_items].
  - exists []. split; [reflexivity|]. split; [constructor|]. intros ? ? [].
  - destruct (Hl k it (or_introl eq_refl)) as [Hio Hf].
    assert (Hcl : rename_clash (mk p) it names = false).
    { destruct (rename_clash (mk p) it names) eqn:E; [|reflexivity]. apply rename_clash_iff in E as (t & Ht & Htp & Htq); [|assumption].
      exfalso. apply Htp. apply (Hc k it t); [left; reflexivity|assumption|assumption]. }
    rewrite Hcl. destruct (item_mk it Hio) as [_ Hq].
    destruct (rename_fits names p (ishape it) p' Hp Hq Hn Hf) as (q' & Eq' & Hf'); [|exact HE|].
    { intros e He Hne Hin. apply Hne. apply (Hc k it e); [left; reflexivity|assumption|assumption]. }
    destruct (rename_item_ok it names q' Hio Hn Eq') as (v & -> & Hv & Hwv & Hst & Hof). cbn [bind].
    destruct IH as (l' & -> & Hdr & Hok); [intros; apply (Hl k0); right; assumption|intros k0 it0 t Hi; apply (Hc k0); right; exact Hi|].
    cbn [bind]. exists ((k, with_var it v) :: l'). split; [reflexivity|]. split.
    + constructor; [|exact Hdr]. cbn [fst snd with_var i_obj i_aligned i_bins i_var]. unfold ishape at 2, i_dims. cbn [with_var i_var].
      rewrite Hv. auto 10.
    + intros k0 it0 [Hi|Hi]; [|apply (Hok k0), Hi]. injection Hi as <- <-. unfold item_ok, ishape, i_dims. cbn [with_var i_var i_bins].
      rewrite Hv. split; [|assumption]. split; [assumption|apply Hio].
Qed.

Lemma sd_rename_ok d names flag : sd_ok d -> ~ In InvalidDim (map snd names) ->
  flag = true \/ known_names (sd_shape d) names ->
  (rename_pairs (sd_shape d) names true = None \/
   (exists k it t, In (k, it) (sd_list d) /\ In t (map snd names) /\ In t (keys (ishape it)) /\ ~ In t (keys (sd_shape d))) ->
   sd_rename d names flag = Throw DimensionError) /\
  (forall p', rename_pairs (sd_shape d) names true = Some p' ->
   (forall k it t, In (k, it) (sd_list d) -> In t (map snd names) -> In t (keys (ishape it)) -> In t (keys (sd_shape d))) ->
   exists d', sd_rename d names flag = Ok d' /\ sd_ok d' /\ sd_shape d' = p' /\ sd_readonly d' = false /\
     dict_renamed names (sd_list d) (sd_list d')).
Proof.
  intros Hok Hn Hfl. destruct (sd_parts d Hok) as (p & l & ro & -> & Hp & Hnd & Ep & El & Hf). rewrite Ep, El in *.
  unfold sd_rename. cbn [sd_sizes sd_items]. rewrite ditems_mkd. split.
  - intros Hbad. destruct (rename_pairs p names true) as [p'|] eqn:E.
    + destruct Hbad as [Hbad|(k & it & t & Hi & Ht & Htq & Htp)]; [discriminate|].
      pose proof (rename_dims_mk names p flag Hp Hn) as Hr. rewrite (rename_known _ _ _ flag E) in Hr. destruct Hr as [-> _]. cbn [bind].
      enough (G : rename_items (mk p) l names = Throw DimensionError) by (rewrite G; reflexivity).
      clear Hok Hnd El. induction l as [|[k0 it0] l IH]; [destruct Hi|]. cbn [rename_items].
      destruct (Hf k0 it0 (or_introl eq_refl)) as [Hio Hif].
      destruct (rename_clash (mk p) it0 names) eqn:Ec; [reflexivity|].
      assert (Hc0 : forall t0, In t0 (map snd names) -> In t0 (keys (ishape it0)) -> In t0 (keys p)).
      { intros t0 Ht0 Hq0. destruct (mem t0 (keys p)) eqn:Em; [apply mem_In, Em|]. apply mem_nIn in Em.
        assert (rename_clash (mk p) it0 names = true) by (apply rename_clash_iff; eauto). congruence. }
      destruct (item_mk it0 Hio) as [_ Hq].
      destruct (rename_fits names p (ishape it0) p' Hp Hq Hn Hif) as (q' & Eq' & Hf'); [|exact E|].
      { intros e He Hne Hin. apply Hne. apply Hc0; assumption. }
      destruct (rename_item_ok it0 names q' Hio Hn Eq') as (v & -> & _). cbn [bind].
      destruct Hi as [Hi|Hi]; [injection Hi as -> ->; exfalso; apply Htp, Hc0; assumption|].
      rewrite IH; [reflexivity|exact Ep|intros k1 it1 Hi1; exact (Hf k1 it1 (or_intror Hi1))|exact Hi].
    + destruct Hfl as [->|Hk]; [|exfalso; exact (Hk E)].
      pose proof (rename_dims_mk names p true Hp Hn) as Hr. rewrite E in Hr. rewrite Hr. reflexivity.
  - intros p' E Hc. pose proof (rename_dims_mk names p flag Hp Hn) as Hr. rewrite (rename_known _ _ _ flag E) in Hr. destruct Hr as [-> Hp']. cbn [bind].
    destruct (rename_items_ok p names p' l Hp Hn E Hf Hc) as (l' & -> & Hdr & Hok'). cbn [bind].
    assert (Hk : map fst l' = map fst l) by (apply (Forall2_fst _ l l' (fun a b Hab => proj1 Hab) Hdr)).
    assert (Em : mkmap (m_keys (mkd l)) (map snd l') = mkd l') by (unfold mkd; cbn [m_keys]; rewrite Hk; reflexivity). rewrite Em.
    eexists. split; [reflexivity|]. split; [apply sd_ok_mk; [apply mk_wf, Hp'|rewrite Hk; assumption|rewrite pairs_mk; assumption]|].
    unfold sd_shape. cbn [sd_sizes sd_readonly]. rewrite pairs_mk, sd_list_mk. auto.
Qed.

(** ** The other operations *)
Lemma sd_erase_ok d k : sd_ok d ->
  (sd_readonly d = true -> sd_erase d k = Throw DataArrayError) /\
  (sd_readonly d = false -> ~ In k (map fst (sd_list d)) -> sd_erase d k = Throw NotFoundError) /\
  (sd_readonly d = false -> forall l1 it l2, sd_list d = l1 ++ (k, it) :: l2 ->
     exists d', sd_erase d k = Ok d' /\ sd_ok d' /\ sd_list d' = l1 ++ l2 /\ sd_sizes d' = sd_sizes d).
Proof.
  intros Hok. destruct (sd_parts d Hok) as (p & l & ro & -> & Hp & Hnd & Ep & El & Hf). rewrite El. unfold sd_erase, sd_extract.
  cbn [sd_readonly sd_items sd_sizes]. split; [|split].
  - intros ->. reflexivity.
  - intros -> Hk. rewrite extract_no by assumption. reflexivity.
  - intros -> l1 it l2 ->. rewrite extract_old by assumption. cbn [bind fst snd]. eexists. split; [reflexivity|].
    rewrite sd_list_mk. split; [|auto]. apply sd_ok_mk; [apply mk_wf, Hp| |].
    + rewrite map_app in *. cbn [map fst] in Hnd. apply NoDup_remove_1 in Hnd. exact Hnd.
    + rewrite pairs_mk. intros k0 it0 Hi. apply (Hf k0). apply in_app_or in Hi. apply in_or_app. cbn [In]. tauto.
Qed.

Lemma sd_set_aligned_ok d k b : sd_ok d ->
  (sd_readonly d = true -> sd_set_aligned d k b = Throw DataArrayError) /\
  (sd_readonly d = false -> ~ In k (map fst (sd_list d)) -> sd_set_aligned d k b = Throw NotFoundError) /\
  (sd_readonly d = false -> forall l1 it l2, sd_list d = l1 ++ (k, it) :: l2 ->
     exists d', sd_set_aligned d k b = Ok d' /\ sd_ok d' /\ sd_list d' = l1 ++ (k, with_aligned it b) :: l2 /\ sd_sizes d' = sd_sizes d).
Proof.
  intros Hok. destruct (sd_parts d Hok) as (p & l & ro & -> & Hp & Hnd & Ep & El & Hf). rewrite El. unfold sd_set_aligned, sd_at.
  cbn [sd_readonly sd_items sd_sizes]. split; [|split].
  - intros ->. reflexivity.
  - intros -> Hk. rewrite at_no by assumption. reflexivity.
  - intros -> l1 it l2 ->. rewrite at_old by assumption. cbn [bind]. rewrite insert_old by assumption. cbn [bind].
    eexists. split; [reflexivity|]. rewrite sd_list_mk. split; [|auto]. apply sd_ok_mk; [apply mk_wf, Hp| |].
    + rewrite map_app in *. exact Hnd.
    + rewrite pairs_mk. intros k0 it0 Hi. apply in_app_or in Hi as [Hi|[Hi|Hi]].
      * apply (Hf k0). apply in_or_app. auto.
      * injection Hi as <- <-. apply (Hf k it). apply in_elt.
      * apply (Hf k0). apply in_or_app. right. right. assumption.
Qed.

Lemma sd_set_sizes_ok d sz : sd_ok d -> wf sz ->
  (~ (forall k n, In (k, n) (sd_shape d) -> In (k, n) (pairs sz)) -> sd_set_sizes d sz = Throw DimensionError) /\
  ((forall k n, In (k, n) (sd_shape d) -> In (k, n) (pairs sz)) ->
   sd_set_sizes d sz = Ok (mksd sz (sd_items d) (sd_readonly d)) /\
   ((forall k it e, In (k, it) (sd_list d) -> In e (keys (ishape it)) -> ~ In e (keys (sd_shape d)) -> ~ In e (keys (pairs sz))) ->
    sd_ok (mksd sz (sd_items d) (sd_readonly d)))).
Proof.
  intros Hok Hsz. destruct (sd_parts d Hok) as (p & l & ro & -> & Hp & Hnd & Ep & El & Hf). rewrite Ep, El.
  destruct (wf_mk_pairs _ Hsz) as [Es Hs]. set (p2 := pairs sz) in *. clearbody p2. subst sz.
  unfold sd_set_sizes. cbn [sd_sizes sd_items sd_readonly]. destruct (includes_mk p2 p Hs Hp) as (r & -> & Hr). cbn [bind].
  destruct r.
  - pose proof (proj1 Hr eq_refl) as Hi. split; [contradiction|]. intros _. split; [reflexivity|]. intros He.
    apply sd_ok_mk; [apply mk_wf, Hs|assumption|]. rewrite pairs_mk. intros k it Hk. destruct (Hf k it Hk) as [Hio Hfi]. split; [assumption|].
    destruct Hfi as [Hfi|(e & n & Hen & Ho & Hc)].
    + left. intros k0 n0 Hk0. apply Hi, Hfi, Hk0.
    + right. exists e, n. split; [assumption|]. split; [intros k0 n0 Hk0 Hne; apply Hi, Ho; assumption|].
      destruct Hc as [Hc|[Hc ->]]; [left; apply Hi, Hc|]. right. split; [|reflexivity]. apply (He k it e Hk); [|assumption]. apply In_keys. eauto.
  - split; [reflexivity|]. intros Hi. apply Hr in Hi. discriminate.
Qed.

Lemma sd_copy_ok d : sd_ok d -> sd_ok (sd_copy d).
Proof. intros Hok. exact Hok. Qed.

Lemma sd_as_const_ok d : sd_ok d -> exists d', sd_as_const d = Ok d' /\ sd_ok d' /\ sd_readonly d' = true /\ sd_shape d' = sd_shape d /\
  sd_list d' = map (fun e => (fst e, with_var (snd e) (var_as_const (i_var (snd e))))) (sd_list d).
Proof.
  intros Hok. destruct (sd_parts d Hok) as (p & l & ro & -> & Hp & Hnd & Ep & El & Hf). rewrite Ep, El. unfold sd_as_const. cbn [sd_sizes sd_items].
  set (l' := map (fun e => (fst e, with_var (snd e) (var_as_const (i_var (snd e))))) l).
  assert (Em : mkmap (m_keys (mkd l)) (map (fun it => with_var it (var_as_const (i_var it))) (m_values (mkd l))) = mkd l').
  { unfold mkd, l'. cbn [m_keys m_values]. rewrite !map_map. reflexivity. }
  rewrite Em. assert (Hk : map fst l' = map fst l) by (unfold l'; rewrite map_map; reflexivity).
  assert (Hf' : forall k it, In (k, it) l' -> item_ok it /\ fits (pairs (mk p)) (ishape it)).
  { rewrite pairs_mk. intros k it Hi. apply in_map_iff in Hi as ([k0 it0] & [= <- <-] & Hi). cbn [snd]. apply (Hf k0 it0 Hi). }
  rewrite sd_make_ok; [|apply mk_wf, Hp|rewrite Hk; assumption|assumption].
  eexists. split; [reflexivity|]. split; [apply sd_ok_mk; [apply mk_wf, Hp|rewrite Hk; assumption|assumption]|].
  unfold sd_shape. cbn [sd_sizes sd_readonly]. rewrite pairs_mk, sd_list_mk. auto.
Qed.

Lemma sd_set_keeps d k it : sd_ok d -> wfv (i_var it) ->
  match sd_set d k it with Ok d' => sd_ok d' /\ sd_sizes d' = sd_sizes d /\ sd_readonly d' = sd_readonly d | Throw _ => True | Ub => False end.
Proof.
  intros Hok Hw. destruct (i_bins it) eqn:Eb.
  - unfold sd_set. destruct (sd_parts d Hok) as (p & l & ro & -> & Hp & Hnd & Ep & El & Hf). unfold sd_contains, sd_at. cbn [sd_items].
    destruct (mcontains Z.eqb (mkd l) k) eqn:Ec.
    + apply contains_In, in_keys_split in Ec as (l1 & v & l2 & ->). rewrite at_old by assumption. cbn [bind].
      destruct (is_same v it); [auto|]. cbn [sd_readonly]. destruct ro; [exact I|]. rewrite Eb. exact I.
    + cbn [bind sd_readonly]. destruct ro; [exact I|]. rewrite Eb. exact I.
  - assert (Hio : item_ok it) by (split; assumption). pose proof (sd_set_ok d k it Hok Hio) as Hs. cbn zeta in Hs.
    assert (Hdec : (exists old, In (k, old) (sd_list d) /\ is_same old it = true) \/ ~ (exists old, In (k, old) (sd_list d) /\ is_same old it = true)).
    { destruct (existsb (fun e => (fst e =? k) && is_same (snd e) it) (sd_list d)) eqn:E.
      - left. apply existsb_exists in E as ([k0 o] & Hi & E). cbn [fst snd] in E. apply andb_true_iff in E as [E1 E2].
        apply Z.eqb_eq in E1. subst. eauto.
      - right. intros (o & Hi & E2). assert (existsb (fun e => (fst e =? k) && is_same (snd e) it) (sd_list d) = true); [|congruence].
        apply existsb_exists. exists (k, o). cbn [fst snd]. rewrite Z.eqb_refl. auto. }
    destruct Hs as (H1 & H2 & H3 & H4). destruct Hdec as [Hy|Hn].
    + rewrite (H1 Hy). auto.
    + destruct (sd_readonly d) eqn:Er; [rewrite (H2 Hn eq_refl); exact I|].
      destruct (set_check d it (proj1 Hok) Hw) as [[_ Hfit]|[_ Hnf]].
      * destruct (H4 Hn eq_refl Hfit) as (l & -> & Hnd & Hnew & Hold). split; [|auto].
        apply sd_ok_alt in Hok as (Hwf & Hm & Hnd0 & Hf). apply sd_ok_mk; [assumption|assumption|].
        intros k0 it0 Hi. destruct (in_dec Z.eq_dec k (map fst (sd_list d))) as [Hk|Hk].
        -- apply in_keys_split in Hk as (l1 & v & l2 & El). rewrite (Hold l1 v l2 El) in Hi.
           apply in_app_or in Hi as [Hi|[Hi|Hi]].
           ++ apply (Hf k0). rewrite El. apply in_or_app. auto.
           ++ injection Hi as <- <-. auto.
           ++ apply (Hf k0). rewrite El. apply in_or_app. right. right. assumption.
        -- rewrite (Hnew Hk) in Hi. apply in_app_or in Hi as [Hi|[Hi|[]]]; [apply (Hf k0), Hi|]. injection Hi as <- <-. auto.
      * rewrite (H3 Hn eq_refl Hnf). exact I.
Qed.

Lemma merge_loop_keeps l : forall out, sd_ok out -> (forall k it, In (k, it) l -> wfv (i_var it)) ->
  match merge_from_loop out l with Ok d' => sd_ok d' /\ sd_sizes d' = sd_sizes out | Throw _ => True | Ub => False end.
Proof.
  induction l as [|[k it] l IH]; intros out Hok Hl; cbn [merge_from_loop]; [auto|].
  destruct (sd_contains out k); [exact I|]. pose proof (sd_set_keeps out k it Hok (Hl k it (or_introl eq_refl))) as Hs.
  destruct (sd_set out k it) as [o| |]; [|exact I|contradiction]. cbn [bind]. destruct Hs as (Ho & Es & _). rewrite <- Es.
  apply IH; [assumption|]. intros k0 it0 Hi. exact (Hl k0 it0 (or_intror Hi)).
Qed.

Theorem step_keeps d o : sd_ok d -> allowed d o ->
  match sd_step d o with Ok d' => sd_ok d' | Throw _ => True | Ub => False end.
Proof.
  intros Hok Ha. destruct o as [k it|k|s|s|names flag|sz|k b|other| |]; cbn [sd_step allowed] in *.
  - pose proof (sd_set_keeps d k it Hok Ha) as Hs. destruct (sd_set d k it); [apply Hs|exact I|exact Hs].
  - destruct (sd_erase_ok d k Hok) as (H1 & H2 & H3). destruct (sd_readonly d); [rewrite (H1 eq_refl); exact I|].
    destruct (in_dec Z.eq_dec k (map fst (sd_list d))) as [Hk|Hk]; [|rewrite (H2 eq_refl Hk); exact I].
    apply in_keys_split in Hk as (l1 & v & l2 & El). destruct (H3 eq_refl l1 v l2 El) as (d' & -> & Hd & _). exact Hd.
  - destruct Ha as [Hs Hd]. pose proof (sd_slice_ok d s Hok Hs Hd) as Hsl.
    destruct (slice_dims (sd_shape d) s) as [p'|]; [|rewrite Hsl; exact I].
    destruct (Z.eq_dec (s_stride s) 1) as [E1|E1].
    + destruct Hsl as (d' & -> & Hd' & _); auto.
    + destruct (sd_slice d s) as [d'| |] eqn:E; [|exact I|].
      * destruct (Hsl) as (d2 & E2 & Hd2 & _); [|congruence].
        intros k it Hi He. exfalso. rewrite sd_slice_throw in E; [discriminate|assumption|assumption|assumption|eauto|assumption].
      * destruct (Hsl) as (d2 & E2 & Hd2 & _); [|congruence].
        intros k it Hi He. exfalso. rewrite sd_slice_throw in E; [discriminate|assumption|assumption|assumption|eauto|assumption].
  - destruct Ha as [Hs Hd]. pose proof (sd_slice_coords_ok d s Hok Hs Hd) as Hsl.
    destruct (slice_dims (sd_shape d) s) as [p'|]; [|rewrite Hsl; exact I].
    destruct (Z.eq_dec (s_stride s) 1) as [E1|E1].
    + destruct Hsl as (d' & -> & Hd' & _); auto.
    + destruct (sd_slice_coords d s) as [d'| |] eqn:E; [|exact I|].
      * destruct (Hsl) as (d2 & E2 & Hd2 & _); [|congruence].
        intros k it Hi He. exfalso. rewrite sd_slice_coords_throw in E; [discriminate|assumption|assumption|assumption|eauto|assumption].
      * destruct (Hsl) as (d2 & E2 & Hd2 & _); [|congruence].
        intros k it Hi He. exfalso. rewrite sd_slice_coords_throw in E; [discriminate|assumption|assumption|assumption|eauto|assumption].
  - destruct Ha as [Hn Hfl]. destruct (sd_rename_ok d names flag Hok Hn Hfl) as [H1 H2].
    destruct (rename_pairs (sd_shape d) names true) as [p'|] eqn:E; [|rewrite H1 by auto; exact I].
    set (bad := existsb (fun e => existsb (fun t => mem t (keys (ishape (snd e))) && negb (mem t (keys (sd_shape d)))) (map snd names)) (sd_list d)).
    destruct bad eqn:Eb; unfold bad in Eb.
    + apply existsb_exists in Eb as ([k it] & Hi & Eb). apply existsb_exists in Eb as (t & Ht & Eb). cbn [snd] in Eb.
      apply andb_true_iff in Eb as [E1 E2]. apply mem_In in E1. apply negb_true_iff, mem_nIn in E2.
      rewrite H1; [exact I|]. right. eauto 10.
    + destruct (H2 p' eq_refl) as (d' & -> & Hd' & _); [|exact Hd'].
      intros k it t Hi Ht Hq. destruct (mem t (keys (sd_shape d))) eqn:Em; [apply mem_In, Em|]. exfalso.
      assert (Hx : existsb (fun e => existsb (fun t => mem t (keys (ishape (snd e))) && negb (mem t (keys (sd_shape d)))) (map snd names)) (sd_list d) = true); [|congruence].
      apply existsb_exists. exists (k, it). split; [assumption|]. apply existsb_exists. exists t. split; [assumption|]. cbn [snd].
      apply mem_In in Hq. rewrite Hq, Em. reflexivity.
  - destruct Ha as [Hsz He]. destruct (sd_set_sizes_ok d sz Hok Hsz) as [H1 H2].
    destruct (sd_set_sizes d sz) as [d'| |] eqn:E.
    + unfold sd_set_sizes in E. destruct (includes sz (sd_sizes d)) as [[]| |] eqn:Ei; try discriminate.
      destruct (wf_mk_pairs _ Hsz) as [E1 L1]. destruct (wf_mk_pairs _ (proj1 Hok)) as [E2 L2]. cbn [bind] in E. injection E as <-.
      apply H2; [|exact He]. rewrite E1, E2 in Ei. destruct (includes_mk _ _ L1 L2) as (r & Er & Hr). rewrite Ei in Er. injection Er as <-.
      apply Hr. reflexivity.
    + exact I.
    + unfold sd_set_sizes in E. destruct (wf_mk_pairs _ Hsz) as [E1 L1]. destruct (wf_mk_pairs _ (proj1 Hok)) as [E2 L2].
      rewrite E1, E2 in E. destruct (includes_mk _ _ L1 L2) as (r & Er & Hr). rewrite Er in E. destruct r; discriminate.
  - destruct (sd_set_aligned_ok d k b Hok) as (H1 & H2 & H3). destruct (sd_readonly d); [rewrite (H1 eq_refl); exact I|].
    destruct (in_dec Z.eq_dec k (map fst (sd_list d))) as [Hk|Hk]; [|rewrite (H2 eq_refl Hk); exact I].
    apply in_keys_split in Hk as (l1 & v & l2 & El). destruct (H3 eq_refl l1 v l2 El) as (d' & -> & Hd & _). exact Hd.
  - unfold sd_merge_from. pose proof (merge_loop_keeps (ditems (sd_items other)) (sd_copy d) (sd_copy_ok d Hok)) as Hm.
    destruct (merge_from_loop (sd_copy d) (ditems (sd_items other))) as [o| |]; cbn [bind].
    + destruct Hm as [Ho _]; [|exact Ho]. intros k it Hi. apply (proj2 (proj2 (proj2 Ha)) k it Hi).
    + exact I.
    + apply Hm. intros k it Hi. apply (proj2 (proj2 (proj2 Ha)) k it Hi).
  - destruct (sd_as_const_ok d Hok) as (d' & -> & Hd' & _). exact Hd'.
  - exact Hok.
Qed.

(** ** Data arrays *)
Lemma set_sizes_same d : sd_ok d -> sd_set_sizes d (sd_sizes d) = Ok d.
Proof.
  intros Hok. destruct (sd_set_sizes_ok d (sd_sizes d) Hok (proj1 Hok)) as [_ Hs]. destruct Hs as [-> _]; [auto|]. destruct d; reflexivity.
Qed.

Theorem da_slice_ok a s : da_ok a -> slice_ok s -> slice_eqb s slice_default = false ->
  match slice_dims (da_shape a) s with
  | None => da_slice a s = Throw SliceError
  | Some p' =>
    ((exists k it, In (k, it) (da_items a) /\ edges_along (da_shape a) (s_dim s) it) -> s_stride s <> 1 ->
       da_slice a s = Throw SliceError) /\
    ((forall k it, In (k, it) (da_items a) -> edges_along (da_shape a) (s_dim s) it -> s_stride s = 1) ->
     exists a', da_slice a s = Ok a' /\ da_ok a' /\ da_shape a' = p' /\
       var_slice (i_var (da_data a)) s = Ok (i_var (da_data a')) /\ i_obj (da_data a') = i_obj (da_data a) /\
       coords_sliced (da_shape a) s (sd_list (da_coords a)) (sd_list (da_coords a')) /\
       dict_sliced (da_shape a) s (sd_list (da_masks a)) (sd_list (da_masks a')) /\
       dict_sliced (da_shape a) s (sd_list (da_attrs a)) (sd_list (da_attrs a')) /\
       da_readonly a' = true /\ sd_readonly (da_coords a') = true /\ sd_readonly (da_masks a') = true /\ sd_readonly (da_attrs a') = true)
  end.
Proof.
  intros (Hw & Ec & Em & Ea & Hc & Hm & Ht) Hs Hd. unfold da_shape.
  assert (Sc : sd_shape (da_coords a) = ishape (da_data a)) by (unfold sd_shape; rewrite Ec; reflexivity).
  assert (Sm : sd_shape (da_masks a) = ishape (da_data a)) by (unfold sd_shape; rewrite Em; reflexivity).
  assert (Sa : sd_shape (da_attrs a) = ishape (da_data a)) by (unfold sd_shape; rewrite Ea; reflexivity).
  pose proof (slice_accept _ s Hw Hs) as Hv. change (pairs (v_dims (i_var (da_data a)))) with (ishape (da_data a)) in Hv.
  pose proof (sd_slice_coords_ok _ s Hc Hs Hd) as Hc1. pose proof (sd_slice_ok _ s Hm Hs Hd) as Hm1. pose proof (sd_slice_ok _ s Ht Hs Hd) as Ht1.
  pose proof (sd_slice_coords_throw _ s Hc Hs Hd) as Hc2. pose proof (sd_slice_throw _ s Hm Hs Hd) as Hm2. pose proof (sd_slice_throw _ s Ht Hs Hd) as Ht2.
  rewrite Sc in *. rewrite Sm in *. rewrite Sa in *. unfold da_slice.
  destruct (slice_dims (ishape (da_data a)) s) as [p'|]; [|rewrite Hv; reflexivity].
  destruct Hv as (v' & Ev & Hpv & Hwv & _ & _ & _). rewrite Ev. cbn [bind]. split.
  - intros (k & it & Hi & He) Hst. unfold da_items in Hi.
    assert (Hdec : forall l : list (Z * item), (exists k it, In (k, it) l /\ edges_along (ishape (da_data a)) (s_dim s) it) \/
                    (forall k it, In (k, it) l -> ~ edges_along (ishape (da_data a)) (s_dim s) it)).
    { intros l. induction l as [|[k0 it0] l [(k1 & it1 & H1 & H2)|Hno]].
      - right. intros ? ? [].
      - left. exists k1, it1. split; [right; assumption|assumption].
      - assert (Hd1 : edges_along (ishape (da_data a)) (s_dim s) it0 \/ ~ edges_along (ishape (da_data a)) (s_dim s) it0).
        { unfold edges_along. destruct (existsb (fun e => (fst e =? s_dim s) && existsb (fun g => (fst g =? s_dim s) && (snd e =? snd g + 1)) (ishape (da_data a))) (ishape it0)) eqn:E.
          - left. apply existsb_exists in E as ([k1 n1] & H1 & E). apply andb_true_iff in E as [E1 E]. apply existsb_exists in E as ([k2 n2] & H2 & E).
            apply andb_true_iff in E as [E2 E3]. cbn [fst snd] in *. apply Z.eqb_eq in E1, E2, E3. subst. eauto.
          - right. intros (n & H1 & H2). assert (existsb (fun e => (fst e =? s_dim s) && existsb (fun g => (fst g =? s_dim s) && (snd e =? snd g + 1)) (ishape (da_data a))) (ishape it0) = true); [|congruence].
            apply existsb_exists. exists (s_dim s, n + 1). split; [assumption|]. cbn [fst snd]. rewrite Z.eqb_refl. cbn [andb]. apply existsb_exists.
            exists (s_dim s, n). cbn [fst snd]. rewrite !Z.eqb_refl. auto. }
        destruct Hd1 as [Hy|Hn]; [left; exists k0, it0; split; [left; reflexivity|assumption]|].
        right. intros k1 it1 [Hx|Hx]; [injection Hx as <- <-; assumption|apply (Hno k1), Hx]. }
    destruct (Hdec (sd_list (da_coords a))) as [Hy|Hn1]; [rewrite (Hc2 Hy Hst); reflexivity|].
    destruct Hc1 as (c' & -> & _); [intros k0 it0 Hi0 He0; exfalso; exact (Hn1 k0 it0 Hi0 He0)|]. cbn [bind].
    destruct (Hdec (sd_list (da_masks a))) as [Hy|Hn2]; [rewrite (Hm2 Hy Hst); reflexivity|].
    destruct Hm1 as (m' & -> & _); [intros k0 it0 Hi0 He0; exfalso; exact (Hn2 k0 it0 Hi0 He0)|]. cbn [bind].
    destruct (Hdec (sd_list (da_attrs a))) as [Hy|Hn3]; [rewrite (Ht2 Hy Hst); reflexivity|].
    exfalso. apply in_app_or in Hi as [Hi|Hi]; [exact (Hn1 k it Hi He)|]. apply in_app_or in Hi as [Hi|Hi]; [exact (Hn2 k it Hi He)|exact (Hn3 k it Hi He)].
  - intros Hedge. unfold da_items in Hedge.
    destruct Hc1 as (c' & -> & Hcok & Hcsh & Hcro & Hcs); [intros k it Hi; apply (Hedge k it); apply in_or_app; auto|]. cbn [bind].
    destruct Hm1 as (m' & -> & Hmok & Hmsh & Hmro & Hms); [intros k it Hi; apply (Hedge k it); apply in_or_app; right; apply in_or_app; auto|]. cbn [bind].
    destruct Ht1 as (t' & -> & Htok & Htsh & Htro & Hts); [intros k it Hi; apply (Hedge k it); apply in_or_app; right; apply in_or_app; auto|]. cbn [bind].
    destruct (wf_mk_pairs _ (proj1 Hwv)) as [Evd _]. rewrite Hpv in Evd.
    assert (Hss : forall d, sd_ok d -> sd_shape d = p' -> sd_sizes d = v_dims v').
    { intros d Hok E. rewrite Evd, <- E. apply (wf_mk_pairs _ (proj1 Hok)). }
    unfold da_make, with_var, i_dims. cbn [i_var].
    rewrite <- (Hss c' Hcok Hcsh), (set_sizes_same c' Hcok). cbn [bind].
    rewrite (Hss c' Hcok Hcsh), <- (Hss m' Hmok Hmsh), (set_sizes_same m' Hmok). cbn [bind].
    rewrite (Hss m' Hmok Hmsh), <- (Hss t' Htok Htsh), (set_sizes_same t' Htok). cbn [bind da_data da_coords da_masks da_attrs].
    eexists. split; [reflexivity|]. unfold da_ok, ishape, i_dims. cbn [da_data da_coords da_masks da_attrs da_readonly i_var i_obj].
    split; [|repeat (split; [solve [assumption|reflexivity|exact Hpv]|]); assumption].
    split; [exact Hwv|]. repeat (split; [solve [assumption|apply Hss; assumption]|]). assumption.
Qed.
