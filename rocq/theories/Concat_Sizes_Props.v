(** Concatenation of the sizes of datasets (C17): lib/core/sizes.cpp 174-187. *)
From Verif Require Accumulate_Proofs.
From Verif Require Import Base Map_Model Dims_Model Dims_Spec Dims_Proofs View_Model View_Spec View_Proofs SizedDict_Proofs.

(** The length contributed along [dim], and the other dimensions. *)
Definition spart (dim : Dim) (d : sizes) : Z := match extent (pairs d) dim with Some n => n | None => 1 end.
Definition others (dim : Dim) (d : sizes) : list (Dim * Z) := filter (fun e => negb (fst e =? dim)) (pairs d).

Lemma filter_all dim (p : list (Z * Z)) : ~ In dim (keys p) -> filter (fun e => negb (fst e =? dim)) p = p.
Proof.
  induction p as [|[k n] p IH]; intros Hk; cbn [filter fst]; [reflexivity|]. cbn [keys map fst] in Hk. replace (k =? dim) with false by (symmetry; apply Z.eqb_neq; intros ->; apply Hk; left; reflexivity).
  cbn [negb]. f_equal. apply IH. intros Hx. apply Hk. right. exact Hx.
Qed.
Lemma sizes_set_end p k n : lwf p -> k <> InvalidDim -> 0 <= n -> ~ In k (keys p) -> sizes_set (mk p) k n = Ok (mk (p ++ [(k, n)])) /\ lwf (p ++ [(k, n)]).
Proof.
  intros Hp Hk Hn Hi. split.
  - pose proof (add_inner_mk p k n Hk Hn) as Ha. unfold add_inner in Ha. unfold sizes_set. rewrite dcontains_mk.
    pose proof (proj2 (mem_nIn _ _) Hi) as Hm. rewrite Hm in *. destruct (valid_dim k); try discriminate. destruct (valid_extent n); try discriminate. cbn [bind] in *. exact Ha.
  - destruct Hp as (Hn1 & Hn2 & Hn3). split; [rewrite keys_app; apply NoDup_snoc; assumption|]. split.
    + rewrite extents_app. apply Forall_app. split; [exact Hn2|]. constructor; [exact Hn|constructor].
    + rewrite keys_app. intros Hx. apply in_app_or in Hx as [Hx|[Hx|[]]]; [contradiction|]. cbn [fst] in Hx. congruence.
Qed.
Lemma spart_nonneg dim d : wf d -> 0 <= spart dim d.
Proof.
  intros Hd. unfold spart. destruct (extent (pairs d) dim) eqn:E; [|lia]. apply extent_In in E; [|apply (wf_mk_pairs _ Hd)].
  destruct (wf_mk_pairs _ Hd) as [_ (_ & Hf & _)]. rewrite Forall_forall in Hf. apply Hf. apply (in_map snd) in E. exact E.
Qed.
Lemma dat_spart dim b : wf b -> (if dcontains b dim then dat b dim else Ok 1) = Ok (spart dim b).
Proof.
  intros Hb. destruct (wf_mk_pairs _ Hb) as [E Hp]. unfold spart.
  replace (dcontains b dim) with (mem dim (keys (pairs b))) by (rewrite <- dcontains_mk, <- E; reflexivity).
  replace (dat b dim) with (dat (mk (pairs b)) dim) by (rewrite <- E; reflexivity). destruct (mem dim (keys (pairs b))) eqn:Em.
  - rewrite dat_mk by apply Hp. destruct (extent (pairs b) dim) eqn:Ex; [reflexivity|]. apply extent_None in Ex. apply mem_In in Em. contradiction.
  - apply mem_nIn in Em. apply extent_None in Em. rewrite Em. reflexivity.
Qed.
Lemma concat2_ok dim a b : wf a -> wf b -> dim <> InvalidDim -> ~ has a dim 0 ->
  exists d, sizes_concat2 a b dim = Ok d /\ wf d /\ pairs d = others dim a ++ [(dim, spart dim a + spart dim b)].
Proof.
  intros Ha Hb Hd H0. unfold sizes_concat2. rewrite !dat_spart by assumption. pose proof (spart_nonneg dim a Ha) as Na. pose proof (spart_nonneg dim b Hb) as Nb.
  set (N := spart dim a + spart dim b). assert (HN : 0 <= N) by (unfold N; lia).
  assert (Hout : exists p, (if dcontains a dim then do s <- slice_point dim 0; sizes_slice a s else Ok a) = Ok (mk p) /\ lwf p /\ ~ In dim (keys p) /\ p = others dim a).
  { destruct (wf_mk_pairs _ Ha) as [E Hp]. unfold others. destruct (dcontains a dim) eqn:Ec.
    - rewrite E, dcontains_mk in Ec. apply mem_In, In_keys in Ec as [n Hn]. pose proof Hn as Hn'. apply in_split in Hn as (p1 & p2 & Es). rewrite Es in *.
      destruct (lwf_app _ _ _ _ Hp) as (L12 & Hnn & Hk1 & Hk2 & _). exists (p1 ++ p2).
      assert (n <> 0) by (intros ->; apply H0; unfold has; rewrite Es; exact Hn').
      assert (0 <= n) by exact Hnn.
      split; [|split; [exact L12|split]].
      + unfold slice_point. cbn [Z.ltb Z.compare bind]. unfold sizes_slice, valid_slice. rewrite E, dcontains_mk.
        cbn [s_end s_begin s_dim s_stride slice_eqb slice_default is_range].
        replace (mem dim (keys (p1 ++ (dim, n) :: p2))) with true by (symmetry; apply mem_In, In_keys; eauto).
        replace (slice_eqb _ slice_default) with false by (unfold slice_eqb; cbn; rewrite andb_false_r; reflexivity). cbn [negb].
        rewrite dat_sp by exact Hk1. cbn [bind]. cbn. replace (1 >? n) with false by lia. cbn [bind]. apply merase_sp. exact Hk1.
      + rewrite keys_app. intros Hx. apply in_app_or in Hx as [Hx|Hx]; contradiction.
      + rewrite filter_app. cbn [filter fst]. rewrite Z.eqb_refl. cbn [negb]. rewrite !filter_all by assumption. reflexivity.
    - exists (pairs a). rewrite E at 1. split; [reflexivity|]. split; [exact Hp|]. rewrite E, dcontains_mk in Ec. apply mem_nIn in Ec. split; [exact Ec|]. symmetry. apply filter_all, Ec. }
  destruct Hout as (p & -> & Hp & Hk & ->). cbn [bind]. fold N. destruct (sizes_set_end _ dim N Hp Hd HN Hk) as [-> Hl]. eexists. split; [reflexivity|]. split; [apply mk_wf, Hl|apply pairs_mk].
Qed.

(** C17. The sizes of the concatenation: those of the first, with the sum of the lengths along [dim]. *)
Theorem C17_sizes : forall dim front b l, wf front -> wf b -> Forall wf l -> dim <> InvalidDim -> ~ has front dim 0 ->
  exists d, sizes_concat (front :: b :: l) dim = Ok d /\ wf d /\
    pairs d = others dim front ++ [(dim, sumZ (map (spart dim) (front :: b :: l)))].
Proof.
  intros dim front b l Hf Hb Hl Hd H0. cbn [sizes_concat]. revert front b Hf Hb H0. induction l as [|c l IH]; intros front b Hf Hb H0.
  - destruct (concat2_ok dim front b Hf Hb Hd H0) as (d & E & Hw & Ep). cbn [sizes_concat_loop]. rewrite E. cbn [bind]. exists d. split; [reflexivity|]. split; [exact Hw|].
    rewrite Ep. do 3 f_equal. cbn. lia.
  - apply Forall_cons_iff in Hl as [Hc Hl]. destruct (concat2_ok dim front b Hf Hb Hd H0) as (d & E & Hw & Ep). cbn [sizes_concat_loop] in *. rewrite E. cbn [bind].
    assert (Hk : ~ In dim (keys (others dim front))).
    { unfold others. intros Hx. apply in_map_iff in Hx as ((k & n) & E1 & E2). apply filter_In in E2 as [_ E2]. cbn [fst] in *. subst k. rewrite Z.eqb_refl in E2. discriminate. }
    assert (Hsp : spart dim d = spart dim front + spart dim b).
    { unfold spart at 1. rewrite Ep. replace (extent _ dim) with (Some (spart dim front + spart dim b)); [reflexivity|]. symmetry. apply extent_In; [|apply in_or_app; right; left; reflexivity].
      rewrite <- Ep. apply (wf_mk_pairs _ Hw). }
    assert (Ho : others dim d = others dim front).
    { unfold others at 1. rewrite Ep, filter_app. cbn [filter fst]. rewrite Z.eqb_refl. cbn [negb]. rewrite filter_all by exact Hk. apply app_nil_r. }
    assert (Hpos : 0 < spart dim front).
    { pose proof (spart_nonneg dim front Hf). destruct (Z.eq_dec (spart dim front) 0) as [Ez|]; [|lia]. exfalso. unfold spart in Ez. destruct (extent (pairs front) dim) eqn:Ex; [|lia]. subst z.
      apply H0. unfold has. apply extent_In; [apply (wf_mk_pairs _ Hf)|exact Ex]. }
    pose proof (spart_nonneg dim b Hb) as Nb.
    destruct (IH Hl d c Hw Hc) as (d' & E' & Hw' & Ep').
    { intros Hz. unfold has in Hz. apply (extent_In _ _ _ (proj1 (proj2 (wf_mk_pairs _ Hw)))) in Hz. unfold spart in Hsp at 1. rewrite Hz in Hsp. lia. }
    exists d'. split; [exact E'|]. split; [exact Hw'|]. rewrite Ep', Ho. do 3 f_equal. cbn [map sumZ fold_right]. rewrite Hsp. lia.
Qed.
Print Assumptions C17_sizes.

Definition s_xy := mk [(5, 2); (6, 3)].
Example C17_sizes_case : exists d, sizes_concat [s_xy; mk [(6, 3)]; mk [(5, 0); (6, 3)]] 5 = Ok d /\ pairs d = [(6, 3); (5, 3)].
Proof. eexists. split; reflexivity. Qed.

(** C17. A single dataset without the dimension does not get it, although a single variable does. *)
Theorem C17_sizes_single_refuted : exists d, wf d /\ sizes_concat [d] 5 = Ok d /\ ~ has_label d 5.
Proof.
  exists (mk [(6, 3)]). split; [apply mk_wf; repeat split; [repeat constructor; cbn; intuition discriminate|repeat constructor; cbn; lia|cbn; intuition discriminate]|].
  split; [reflexivity|]. intros [n [[=]|[]]].
Qed.
Print Assumptions C17_sizes_single_refuted.

(** C17. Concatenation to something empty along the dimension fails. *)
Theorem C17_sizes_empty_refuted : exists a b, wf a /\ wf b /\ pairs a = [(5, 0)] /\ pairs b = [(5, 2)] /\ sizes_concat [a; b] 5 = Throw SliceError.
Proof.
  exists (mk [(5, 0)]), (mk [(5, 2)]).
  split; [apply mk_wf; repeat split; [repeat constructor; cbn; intuition discriminate|repeat constructor; cbn; lia|cbn; intuition discriminate]|].
  split; [apply mk_wf; repeat split; [repeat constructor; cbn; intuition discriminate|repeat constructor; cbn; lia|cbn; intuition discriminate]|].
  repeat split; reflexivity.
Qed.
Print Assumptions C17_sizes_empty_refuted.

(** ** C04: [merge] of sizes (used for the sizes of dictionaries): new labels follow those of the first argument *)
Lemma sizes_merge_loop_ok q : lwf q -> forall r p, lwf p -> (forall e, In e r -> In e q) -> NoDup (keys r) ->
  (forall k n m, In (k, n) p -> In (k, m) r -> n = m) ->
  sizes_merge_loop (mk p) (mk q) (keys r) = Ok (mk (p ++ filter (fun e => negb (mem (fst e) (keys p))) r)) /\ lwf (p ++ filter (fun e => negb (mem (fst e) (keys p))) r).
Proof.
  intros Hq. induction r as [|[k n] r IH]; intros p Hp Hin Hnd Hag; [cbn [keys map filter sizes_merge_loop]; rewrite app_nil_r; split; [reflexivity|exact Hp]|].
  cbn [keys map fst] in *. fold (keys r) in *. inversion_clear Hnd as [|? ? Hk Hnd']. pose proof (Hin _ (or_introl eq_refl)) as Hkq. cbn [sizes_merge_loop].
  assert (Hd : dat (mk q) k = Ok n) by (apply Accumulate_Proofs.dat_has; [apply mk_wf; exact Hq|unfold has; rewrite pairs_mk; exact Hkq]). rewrite Hd. cbn [bind].
  assert (Hv : k <> InvalidDim /\ 0 <= n). { destruct Hq as (_ & Hn & Hi). split; [intros ->; apply Hi; apply In_keys; eexists; exact Hkq|]. rewrite Forall_forall in Hn. first [apply (Hn (k, n)); exact Hkq|apply Hn; apply (in_map snd) in Hkq; exact Hkq]. }
  destruct Hv as [Hk0 Hn0]. cbn [filter fst]. destruct (mem k (keys p)) eqn:M; cbn [negb].
  - apply mem_In, In_keys in M. destruct M as [n' Hn']. assert (n' = n) as -> by (apply (Hag k n' n Hn'); left; reflexivity).
    assert (E : sizes_set (mk p) k n = Ok (mk p)).
    { unfold sizes_set. rewrite dcontains_mk. assert (M : mem k (keys p) = true) by (apply mem_In, In_keys; eexists; exact Hn'). rewrite M. rewrite (Accumulate_Proofs.dat_has (mk p) k n); [|apply mk_wf; exact Hp|unfold has; rewrite pairs_mk; exact Hn'].
      unfold valid_dim, valid_extent. destruct (Z.eqb_spec k InvalidDim); [contradiction|]. destruct (Z.ltb_spec n 0); [lia|]. cbn [bind]. rewrite Z.eqb_refl. reflexivity. }
    rewrite E. cbn [bind]. apply IH; [exact Hp|intros e He; apply Hin; right; exact He|exact Hnd'|]. intros k' a b Ha Hb. apply (Hag k' a b Ha). right; exact Hb.
  - apply mem_nIn in M. destruct (sizes_set_end p k n Hp Hk0 Hn0 M) as [-> Hl]. cbn [bind].
    destruct (IH (p ++ [(k, n)]) Hl) as [-> Hl']; [intros e He; apply Hin; right; exact He|exact Hnd'| |].
    + intros k' a b Ha Hb. apply in_app_iff in Ha. destruct Ha as [Ha|[Ha|[]]]; [apply (Hag k' a b Ha); right; exact Hb|]. injection Ha as <- <-. exfalso. apply Hk. apply In_keys. eexists. exact Hb.
    + assert (Ef : filter (fun e => negb (mem (fst e) (keys (p ++ [(k, n)])))) r = filter (fun e => negb (mem (fst e) (keys p))) r).
      { apply filter_ext_in. intros [k' n'] He. cbn [fst]. f_equal. apply Bool.eq_iff_eq_true. rewrite !mem_In. unfold keys. rewrite map_app. cbn [map fst]. rewrite in_app_iff. cbn [In]. split; [intros [Hx|[Hx|[]]]; [exact Hx|]|tauto]. exfalso. apply Hk. subst k'. apply In_keys. eexists. exact He. }
      rewrite Ef in Hl' |- *. rewrite <- app_assoc in Hl' |- *. split; [reflexivity|exact Hl'].
Qed.
Theorem C04_sizes_merge : forall a b, wf a -> wf b ->
  (conflict a b -> sizes_merge a b = Throw DimensionError) /\
  (~ conflict a b -> exists m, sizes_merge a b = Ok m /\ wf m /\ pairs m = pairs a ++ filter (fun e => negb (existsb (Z.eqb (fst e)) (labels a))) (pairs b)).
Proof.
  intros a b Ha Hb. destruct (wf_mk_pairs _ Ha) as [Ea La]. destruct (wf_mk_pairs _ Hb) as [Eb Lb]. unfold conflict, has. set (p := pairs a) in *. set (q := pairs b) in *. rewrite Ea, Eb. unfold sizes_merge. cbn [m_keys mk]. split.
  - intros (k & m & n & Hm & Hn & Hne).
    assert (Hgen : forall r acc, lwf acc -> (forall e, In e r -> In e q) -> NoDup (keys r) -> (forall e, In e p -> In e acc) -> (forall k', In k' (keys r) -> In k' (keys acc) -> In k' (keys p)) -> In (k, n) r -> sizes_merge_loop (mk acc) (mk q) (keys r) = Throw DimensionError).
    { induction r as [|[k' n'] r IH]; intros acc Hacc Hin Hnd Hpa Hnew Hi; [destruct Hi|]. cbn [keys map fst] in *. fold (keys r) in *. inversion_clear Hnd as [|? ? Hk' Hnd']. pose proof (Hin _ (or_introl eq_refl)) as Hkq. cbn [sizes_merge_loop].
      assert (Hd : dat (mk q) k' = Ok n') by (apply Accumulate_Proofs.dat_has; [apply mk_wf; exact Lb|unfold has; rewrite pairs_mk; exact Hkq]). rewrite Hd. cbn [bind].
      assert (Hv : k' <> InvalidDim /\ 0 <= n'). { destruct Lb as (_ & Hx & Hi'). split; [intros ->; apply Hi'; apply In_keys; eexists; exact Hkq|]. rewrite Forall_forall in Hx. first [apply (Hx (k', n')); exact Hkq|apply Hx; apply (in_map snd) in Hkq; exact Hkq]. }
      destruct Hv as [Hk0 Hn0]. destruct (mem k' (keys acc)) eqn:M.
      - pose proof M as M'. apply mem_In, In_keys in M'. destruct M' as [o Ho].
        assert (E : sizes_set (mk acc) k' n' = if o =? n' then Ok (mk acc) else Throw DimensionError).
        { unfold sizes_set. rewrite dcontains_mk, M. rewrite (Accumulate_Proofs.dat_has (mk acc) k' o); [|apply mk_wf; exact Hacc|unfold has; rewrite pairs_mk; exact Ho].
          unfold valid_dim, valid_extent. destruct (Z.eqb_spec k' InvalidDim); [contradiction|]. destruct (Z.ltb_spec n' 0); [lia|]. cbn [bind]. destruct (o =? n'); reflexivity. }
        rewrite E. destruct (Z.eqb_spec o n') as [->|Hx]; cbn [bind]; [|reflexivity]. destruct Hi as [Ei|Hi].
        + injection Ei as -> ->. exfalso. apply Hne. apply (In_unique acc k); [apply Hacc|apply Hpa; exact Hm|exact Ho].
        + apply IH; [exact Hacc|intros e He; apply Hin; right; exact He|exact Hnd'|exact Hpa| |exact Hi]. intros k2 Hx. apply Hnew. right. exact Hx.
      - apply mem_nIn in M. destruct (sizes_set_end acc k' n' Hacc Hk0 Hn0 M) as [-> Hl]. cbn [bind]. destruct Hi as [Ei|Hi].
        + injection Ei as -> ->. exfalso. apply M. apply In_keys. eexists. apply Hpa. exact Hm.
        + apply IH; [exact Hl|intros e He; apply Hin; right; exact He|exact Hnd'|intros e He; apply in_or_app; left; apply Hpa; exact He| |exact Hi].
          intros k2 Hx Hy. unfold keys in Hy. rewrite map_app, in_app_iff in Hy. destruct Hy as [Hy|[Hy|[]]]; [apply Hnew; [right; exact Hx|exact Hy]|]. cbn [fst] in Hy. subst k2. contradiction. }
    apply (Hgen q p La); [tauto|apply Lb|tauto|tauto|exact Hn].
  - intros Hc. destruct (sizes_merge_loop_ok q Lb q p La) as [E Hl]; [tauto|apply Lb| |].
    + intros k n m Hn Hm. destruct (Z.eq_dec n m) as [|Hne]; [assumption|]. exfalso. apply Hc. exists k, n, m. tauto.
    + eexists. split; [exact E|]. split; [apply mk_wf; exact Hl|]. rewrite pairs_mk. reflexivity.
Qed.
Print Assumptions C04_sizes_merge.
Example C04_sizes_merge_ex : sizes_merge (mk [(5, 2); (7, 3)]) (mk [(6, 4); (7, 3); (8, 1)]) = Ok (mk [(5, 2); (7, 3); (6, 4); (8, 1)]) /\ sizes_merge (mk [(5, 2)]) (mk [(6, 1); (5, 3)]) = Throw DimensionError.
Proof. split; reflexivity. Qed.
