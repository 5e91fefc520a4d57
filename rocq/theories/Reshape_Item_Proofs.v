(** Proofs: fold and flatten of each part of a data array. *)
From Verif Require Import Base Arr Map_Model Map_Proofs Dims_Model Dims_Spec Dims_Proofs View_Model View_Spec View_Proofs Transform_Proofs SizedDict_Model SizedDict_Spec SizedDict_Proofs Reshape_Model Reshape_Spec Reshape_Proofs.

Lemma is_edges_dec {A} p (x : varr A) l : lwf p -> wfv (va x) -> fits p (vshape x) -> In l (keys p) -> exists b, is_edges (mk p) (vdims x) l = Ok b /\ (b = true <-> edges_on p (vshape x) l).
Proof.
  intros Hp Hw Hf Hl. destruct (is_edges_ok p (mkitem 0 (va x) true false) l Hp (conj Hw eq_refl) Hf) as (b & E & Hb). exists b. split; [exact E|]. rewrite Hb.
  unfold edge_dim, edges_on, ishape, i_dims, vshape, vdims. cbn [i_var]. split.
  - intros (n & Hn & [Hc|[Hc _]]); [|contradiction]. exists (n - 1). replace (n - 1 + 1) with n by lia. auto.
  - intros (n & Hn & Hc). exists (n + 1). replace (n + 1 - 1) with n by lia. auto.
Qed.

Section Target.
Variables (px dp b : list (Z * Z)).
Hypotheses (Hpx : lwf px) (Hdp : lwf dp) (Hb : lwf b)
  (Hbx : forall k n, In (k, n) b -> In (k, n) px \/ (~ In k (keys px) /\ In (k, n) dp)).

Lemma add_missing_new b1 : forall b0 o, b = b0 ++ b1 -> NoDup (keys o) -> (forall k, In k (keys b1) -> ~ In k (keys o)) -> add_missing (mk px) (mk dp) (keys b1) (mk o) = Ok (mk (o ++ b1)).
Proof.
  induction b1 as [|[k n] b1 IH]; intros b0 o Eb Ho Hd; cbn [keys map fst add_missing]; [rewrite app_nil_r; reflexivity|]. fold (keys b1).
  assert (Hin : In (k, n) b) by (rewrite Eb; apply in_elt). assert (Hn0 : 0 <= n) by (destruct Hb as (_ & Hf & _); rewrite Forall_forall in Hf; apply Hf, in_map_iff; exists (k, n); auto).
  assert (Hki : k <> InvalidDim) by (intros ->; apply (proj2 (proj2 Hb)), In_keys; eauto).
  rewrite dcontains_mk. replace (mem k (keys o)) with false by (symmetry; apply mem_nIn, Hd; left; reflexivity).
  assert (En : (if dcontains (mk px) k then dat (mk px) k else dat (mk dp) k) = Ok n).
  { rewrite dcontains_mk. destruct (Hbx k n Hin) as [Hx|[Hx Hy]].
    - replace (mem k (keys px)) with true by (symmetry; apply mem_In, In_keys; eauto). rewrite dat_mk by apply Hpx. rewrite (proj2 (extent_In px k n (proj1 Hpx)) Hx). reflexivity.
    - replace (mem k (keys px)) with false by (symmetry; apply mem_nIn; exact Hx). rewrite dat_mk by apply Hdp. rewrite (proj2 (extent_In dp k n (proj1 Hdp)) Hy). reflexivity. }
  rewrite En. cbn [bind]. rewrite add_inner_mk by assumption. replace (mem k (keys o)) with false by (symmetry; apply mem_nIn, Hd; left; reflexivity). cbn [bind].
  rewrite (IH (b0 ++ [(k, n)])).
  - rewrite <- app_assoc. reflexivity.
  - rewrite Eb, <- app_assoc. reflexivity.
  - rewrite keys_app. cbn [keys map fst]. apply NoDup_app_intro; [exact Ho|repeat constructor; intros []|]. intros j Hj [<-|[]]. revert Hj. apply Hd. left. reflexivity.
  - intros j Hj. rewrite keys_app. cbn [keys map fst]. intros Hx. apply in_app_or in Hx as [Hx|[<-|[]]]; [revert Hx; apply Hd; right; exact Hj|].
    assert (Hnd := proj1 Hb). rewrite Eb, keys_app in Hnd. apply NoDup_remove_2 in Hnd. apply Hnd, in_or_app. right. exact Hj.
Qed.
Lemma add_missing_old ls : forall o, (forall k, In k ls -> In k (keys o)) -> add_missing (mk px) (mk dp) ls (mk o) = Ok (mk o).
Proof.
  induction ls as [|k ls IH]; intros o Hk; cbn [add_missing]; [reflexivity|]. rewrite dcontains_mk. replace (mem k (keys o)) with true by (symmetry; apply mem_In, Hk; left; reflexivity). cbn [bind].
  apply IH. intros j Hj. apply Hk. right. exact Hj.
Qed.

Lemma px_entry p0 k n p1 : px = p0 ++ (k, n) :: p1 -> dat (mk px) k = Ok n /\ 0 <= n /\ k <> InvalidDim.
Proof.
  intros E. assert (Hl := Hpx). rewrite E in Hl. destruct (lwf_app _ _ _ _ Hl) as (_ & Hn & Hk1 & _ & Hi). rewrite E. split; [apply dat_sp; exact Hk1|]. auto.
Qed.
Lemma target_rest p1 : forall p0 o, px = p0 ++ p1 -> (forall k, In k (keys b) -> In k (keys o)) -> (forall k, In k (keys p1) -> ~ In k (keys b) -> ~ In k (keys o)) ->
  broadcast_target (mk px) (mk dp) (keys b) (keys p1) (mk o) = Ok (mk (o ++ filter (fun e => negb (mem (fst e) (keys b))) p1)).
Proof.
  induction p1 as [|[k n] p1 IH]; intros p0 o E Ho Hn; cbn [keys map fst broadcast_target filter]; [rewrite app_nil_r; reflexivity|]. fold (keys p1).
  destruct (px_entry _ _ _ _ E) as (Ed & Hn0 & Hki). destruct (mem k (keys b)) eqn:Em; cbn [negb].
  - rewrite add_missing_old by exact Ho. cbn [bind]. rewrite (IH (p0 ++ [(k, n)])); [reflexivity|rewrite E, <- app_assoc; reflexivity|exact Ho|]. intros j Hj. apply Hn. right. exact Hj.
  - apply mem_nIn in Em. rewrite Ed. cbn [bind]. rewrite add_inner_mk by assumption. replace (mem k (keys o)) with false by (symmetry; apply mem_nIn, Hn; [left; reflexivity|exact Em]). cbn [bind].
    rewrite (IH (p0 ++ [(k, n)])); [rewrite <- app_assoc; reflexivity|rewrite E, <- app_assoc; reflexivity| |].
    + intros j Hj. rewrite keys_app. apply in_or_app. left. apply Ho, Hj.
    + intros j Hj Hjb. rewrite keys_app. cbn [keys map fst]. intros Hx. apply in_app_or in Hx as [Hx|[<-|[]]]; [revert Hx; apply Hn; [right; exact Hj|exact Hjb]|].
      assert (Hnd := proj1 Hpx). rewrite E, keys_app in Hnd. apply NoDup_remove_2 in Hnd. apply Hnd, in_or_app. right. exact Hj.
Qed.
Lemma target_all p1 : forall p0 o, px = p0 ++ p1 -> NoDup (keys o) -> (forall k, In k (keys o) -> In k (keys p0)) -> (forall k, In k (keys b) -> ~ In k (keys o)) ->
  broadcast_target (mk px) (mk dp) (keys b) (keys p1) (mk o) =
    Ok (mk (if existsb (fun e => mem (fst e) (keys b)) p1 then o ++ before (keys b) p1 ++ b ++ after (keys b) p1 else o ++ p1)).
Proof.
  induction p1 as [|[k n] p1 IH]; intros p0 o E Ho Hop Hd; cbn [keys map fst broadcast_target existsb before after]; [rewrite app_nil_r; reflexivity|]. fold (keys p1).
  assert (Hnd := proj1 Hpx). rewrite E, keys_app in Hnd. cbn [keys map fst] in Hnd. fold (keys p1) in Hnd.
  destruct (px_entry _ _ _ _ E) as (Ed & Hn0 & Hki). destruct (mem k (keys b)) eqn:Em; cbn [orb].
  - rewrite (add_missing_new b [] o eq_refl Ho Hd). cbn [bind app]. rewrite (target_rest p1 (p0 ++ [(k, n)])).
    + rewrite <- app_assoc. reflexivity.
    + rewrite E, <- app_assoc. reflexivity.
    + intros j Hj. rewrite keys_app. apply in_or_app. right. exact Hj.
    + intros j Hj Hjb. rewrite keys_app. intros Hx. apply in_app_or in Hx as [Hx|Hx]; [|contradiction]. apply Hop in Hx.
      clear -Hnd Hj Hx. induction p0 as [|[a m] p0 IH]; [destruct Hx|]. cbn [keys map fst app] in *. fold (keys p0) in *. inversion Hnd as [|? ? Hn Hnd']. subst. destruct Hx as [->|Hx]; [|apply IH; assumption].
      apply Hn, in_or_app. right. right. exact Hj.
  - apply mem_nIn in Em. rewrite Ed. cbn [bind]. rewrite add_inner_mk by assumption.
    assert (Hko : ~ In k (keys o)) by (intros Hx; apply Hop in Hx; apply NoDup_remove_2 in Hnd; apply Hnd, in_or_app; left; exact Hx).
    replace (mem k (keys o)) with false by (symmetry; apply mem_nIn; exact Hko). cbn [bind]. rewrite (IH (p0 ++ [(k, n)])).
    + destruct (existsb (fun e => mem (fst e) (keys b)) p1); rewrite <- app_assoc; reflexivity.
    + rewrite E, <- app_assoc. reflexivity.
    + rewrite keys_app. cbn [keys map fst]. apply NoDup_app_intro; [exact Ho|repeat constructor; intros []|]. intros j Hj [<-|[]]. contradiction.
    + intros j Hj. rewrite keys_app in *. apply in_app_or in Hj as [Hj|Hj]; apply in_or_app; [left; apply Hop, Hj|right; exact Hj].
    + intros j Hj. rewrite keys_app. cbn [keys map fst]. intros Hx. apply in_app_or in Hx as [Hx|[<-|[]]]; [revert Hx; apply Hd, Hj|contradiction].
Qed.

Lemma before_keys p k : In k (keys (before (keys b) p)) -> In k (keys p) /\ ~ In k (keys b).
Proof.
  induction p as [|[a m] p IH]; cbn [before keys map fst]; [intros []|]. destruct (mem a (keys b)) eqn:Em; [intros []|]. cbn [keys map fst]. intros [<-|Hk]; [split; [left; reflexivity|apply mem_nIn, Em]|].
  destruct (IH Hk). split; [right|]; assumption.
Qed.
Lemma filter_keys p k : In k (keys (filter (fun e => negb (mem (fst e) (keys b))) p)) -> In k (keys p) /\ ~ In k (keys b).
Proof.
  intros Hk. apply In_keys in Hk as [n Hk]. apply filter_In in Hk as [Hk Hc]. cbn in Hc. split; [apply In_keys; eauto|]. apply mem_nIn. destruct (mem k (keys b)); [discriminate|reflexivity].
Qed.
Lemma after_keys p k : In k (keys (after (keys b) p)) -> In k (keys p) /\ ~ In k (keys b).
Proof.
  induction p as [|[a m] p IH]; cbn [after keys map fst]; [intros []|]. destruct (mem a (keys b)); intros Hk; [apply filter_keys in Hk|apply IH in Hk]; destruct Hk; split; try right; assumption.
Qed.
Lemma before_after_In p k n : In (k, n) p -> In k (keys b) \/ In (k, n) (before (keys b) p ++ b ++ after (keys b) p).
Proof.
  induction p as [|[a m] p IH]; [intros []|]. cbn [before after fst]. destruct (mem a (keys b)) eqn:Em.
  - intros [[= <- <-]|Hk]; [left; apply mem_In, Em|]. destruct (mem k (keys b)) eqn:Ek; [left; apply mem_In, Ek|]. right. cbn [app]. apply in_or_app. right. apply filter_In. split; [exact Hk|]. cbn. rewrite Ek. reflexivity.
  - intros [[= <- <-]|Hk]; [right; left; reflexivity|]. destruct (IH Hk) as [Hx|Hx]; [left; exact Hx|right; right; exact Hx].
Qed.
Lemma before_incl p e : In e (before (keys b) p) -> In e p.
Proof. induction p as [|a p IH]; cbn [before]; [intros []|]. destruct (mem (fst a) (keys b)); [intros []|]. intros [<-|Hk]; [left; reflexivity|right; apply IH, Hk]. Qed.
Lemma after_incl p e : In e (after (keys b) p) -> In e p.
Proof. induction p as [|a p IH]; cbn [after]; [intros []|]. destruct (mem (fst a) (keys b)); intros Hk; right; [apply filter_In in Hk; apply Hk|apply IH, Hk]. Qed.
Lemma target_lwf p : lwf p -> lwf (before (keys b) p ++ b ++ after (keys b) p).
Proof.
  intros Hp. assert (Hnd : forall p, NoDup (keys p) -> NoDup (keys (before (keys b) p ++ after (keys b) p))).
  { clear p Hp. induction p as [|[a m] p IH]; intros Hn; cbn [before after fst keys map] in *; [constructor|]. inversion Hn as [|? ? Ha Hn']. subst. destruct (mem a (keys b)) eqn:Em.
    - cbn [app]. clear -Hn'. induction p as [|[a m] p IH]; cbn [filter fst keys map] in *; [constructor|]. inversion Hn' as [|? ? Ha Hn]. subst. destruct (mem a (keys b)); cbn [negb]; [apply IH, Hn|].
      cbn [keys map fst]. constructor; [|apply IH, Hn]. intros Hx. apply filter_keys in Hx. apply Ha, Hx.
    - cbn [app keys map fst]. constructor; [|apply IH, Hn']. intros Hx. fold (keys (before (keys b) p ++ after (keys b) p)) in Hx. rewrite keys_app in Hx. apply Ha.
      apply in_app_or in Hx as [Hx|Hx]; [apply before_keys in Hx|apply after_keys in Hx]; apply Hx. }
  specialize (Hnd p (proj1 Hp)). destruct Hp as (_ & Hf & Hi). rewrite Forall_forall in Hf. split; [|split].
  - rewrite keys_app in *. rewrite keys_app. set (B := keys (before (keys b) p)) in *. set (C := keys (after (keys b) p)) in *.
    assert (Hbc : forall k, In k (B ++ C) -> ~ In k (keys b)) by (intros k Hk; apply in_app_or in Hk as [Hk|Hk]; [apply before_keys in Hk|apply after_keys in Hk]; apply Hk).
    clearbody B C. pose proof (proj1 Hb) as Hnb. clear -Hnd Hbc Hnb. induction B as [|k B IH]; cbn [app] in *.
    + apply NoDup_app_intro; [exact Hnb|exact Hnd|]. intros k Hk Hc. apply (Hbc k Hc Hk).
    + inversion Hnd as [|? ? Hk Hnd']. subst. constructor; [|apply IH; [exact Hnd'|intros j Hj; apply Hbc; right; exact Hj]]. intros Hx. apply in_app_or in Hx as [Hx|Hx]; [apply Hk, in_or_app; left; exact Hx|].
      apply in_app_or in Hx as [Hx|Hx]; [apply (Hbc k (or_introl eq_refl) Hx)|apply Hk, in_or_app; right; exact Hx].
  - apply Forall_forall. intros n Hn. apply in_map_iff in Hn as ([k m] & <- & Hn). cbn [snd]. apply in_app_or in Hn as [Hn|Hn]; [apply Hf, in_map_iff; exists (k, m); split; [reflexivity|apply before_incl, Hn]|].
    apply in_app_or in Hn as [Hn|Hn]; [|apply Hf, in_map_iff; exists (k, m); split; [reflexivity|apply after_incl, Hn]]. destruct Hb as (_ & Hfb & _). rewrite Forall_forall in Hfb. apply Hfb, in_map_iff. exists (k, m). auto.
  - rewrite !keys_app. intros Hx. apply in_app_or in Hx as [Hx|Hx]; [apply Hi, before_keys, Hx|]. apply in_app_or in Hx as [Hx|Hx]; [apply (proj2 (proj2 Hb)), Hx|apply Hi, after_keys, Hx].
Qed.
End Target.

Lemma nodup_no_dup (l : list Z) : NoDup l -> no_dup l = true.
Proof. intros Hn. apply no_dup_NoDup. exact Hn. Qed.

Section Broadcast.
Context {A : Type} (x : varr A) (dp b : list (Z * Z)).
Hypotheses (Hw : wfv (va x)) (Hdp : lwf dp) (Hb : lwf b)
  (Hbx : forall k n, In (k, n) b -> In (k, n) (vshape x) \/ (~ In k (keys (vshape x)) /\ In (k, n) dp)).
Let touched := existsb (fun e => mem (fst e) (keys b)) (vshape x).

Lemma vdims_mk : vdims x = mk (vshape x) /\ lwf (vshape x).
Proof. apply (wf_mk_pairs _ (proj1 Hw)). Qed.

Lemma maybe_broadcast_ok : exists y, maybe_broadcast x (keys b) (mk dp) = Ok y /\ wfv (va y) /\
  vshape y = (if touched then before (keys b) (vshape x) ++ b ++ after (keys b) (vshape x) else vshape x) /\
  forall ix, valid_at (vshape y) ix -> val y ix = val x ix.
Proof.
  destruct vdims_mk as [Ed Hp]. unfold maybe_broadcast. rewrite Ed. change (labels (mk (vshape x))) with (keys (vshape x)).
  change mempty with (mk []). rewrite (target_all (vshape x) dp b Hp Hdp Hb Hbx (vshape x) [] []); [|reflexivity|constructor|intros k []|intros k _ []]. cbn [app bind]. fold touched.
  set (t := if touched then before (keys b) (vshape x) ++ b ++ after (keys b) (vshape x) else vshape x).
  assert (Ht : lwf t) by (unfold t; destruct touched; [apply target_lwf; assumption|exact Hp]).
  pose proof (apply_ok x (VwBroadcast (mk t)) Hw (mk_wf t Ht)) as Ha. cbn [view_dims pull] in Ha. rewrite pairs_mk in Ha. unfold broadcast_dims in Ha.
  replace (forallb _ (vshape x)) with true in Ha.
  - destruct Ha as (y & Ey & Es & Hy & Hv). exists y. split; [exact Ey|]. split; [exact Hy|]. split; [exact Es|]. rewrite Es. intros ix Hix. apply (Hv ix Hix).
  - symmetry. apply forallb_forall. intros [k n] Hk. cbn [fst snd]. assert (Hkt : In (k, n) t).
    { unfold t. destruct touched; [|exact Hk]. destruct (before_after_In b (vshape x) k n Hk) as [Hx|Hx]; [|exact Hx]. apply in_or_app. right. apply in_or_app. left. apply In_keys in Hx as [m Hm].
      destruct (Hbx k m Hm) as [Hx|[Hx _]]; [|exfalso; apply Hx, In_keys; eauto]. rewrite (In_unique (vshape x) k n m (proj1 Hp) Hk Hx). exact Hm. }
    rewrite (proj2 (extent_In t k n (proj1 Ht)) Hkt). apply Z.eqb_refl.
Qed.
End Broadcast.

Lemma keys_touched p ls : existsb (fun e => mem (fst e) ls) p = false -> forall k, In k (keys p) -> ~ In k ls.
Proof.
  intros E k Hk Hx. apply In_keys in Hk as [n Hk]. assert (existsb (fun e => mem (fst e) ls) p = true) by (apply existsb_exists; exists (k, n); split; [exact Hk|apply mem_In; exact Hx]). congruence.
Qed.
Lemma no_edges_found {A} (x : varr A) dp : lwf dp -> wfv (va x) -> fits dp (vshape x) -> forall ls, (forall k, In k ls -> In k (keys dp)) -> (forall k, In k ls -> ~ edges_on dp (vshape x) k) ->
  bin_edge_in (vdims x) (mk dp) ls = Ok InvalidDim.
Proof.
  intros Hdp Hw Hf. induction ls as [|l ls IH]; intros Hl Hn; cbn [bin_edge_in]; [reflexivity|]. destruct (is_edges_dec dp x l Hdp Hw Hf (Hl l (or_introl eq_refl))) as (b & -> & Hb). cbn [bind].
  destruct b; [exfalso; apply (Hn l (or_introl eq_refl)), Hb; reflexivity|]. apply IH; intros k Hk; [apply Hl|apply Hn]; right; exact Hk.
Qed.
Lemma edges_found {A} (x : varr A) dp e : lwf dp -> wfv (va x) -> fits dp (vshape x) -> edges_on dp (vshape x) e -> forall ls, (forall k, In k ls -> In k (keys dp)) -> (forall k, In k ls -> k <> e -> ~ edges_on dp (vshape x) k) -> In e ls ->
  bin_edge_in (vdims x) (mk dp) ls = Ok e.
Proof.
  intros Hdp Hw Hf He. induction ls as [|l ls IH]; intros Hl Hn Hin; [destruct Hin|]. cbn [bin_edge_in]. destruct (is_edges_dec dp x l Hdp Hw Hf (Hl l (or_introl eq_refl))) as (b & -> & Hb). cbn [bind].
  destruct (Z.eq_dec l e) as [->|Hle]; [rewrite (proj2 Hb He); reflexivity|]. destruct b; [exfalso; apply (Hn l (or_introl eq_refl) Hle), Hb; reflexivity|].
  apply IH; [intros k Hk; apply Hl; right; exact Hk|intros k Hk; apply Hn; right; exact Hk|]. destruct Hin; [congruence|assumption].
Qed.
Lemma fits_plain dp q k n : lwf dp -> lwf q -> fits dp q -> ~ edges_on dp q k -> In (k, n) q -> In k (keys dp) -> In (k, n) dp.
Proof.
  intros Hd Hq Hf He Hk Hkd. destruct Hf as [Hf|(e & m & Hem & Ho & Hc)]; [apply Hf, Hk|]. destruct (Z.eq_dec k e) as [->|Hke]; [|apply Ho; assumption].
  rewrite (In_unique q e n m (proj1 Hq) Hk Hem). destruct Hc as [Hc|[Hc _]]; [|contradiction]. exfalso. apply He. exists (m - 1). replace (m - 1 + 1) with m by lia. auto.
Qed.

(** Flatten: the data or a coord, mask or attribute without bin edges along the flattened dimensions. *)
Lemma flatten_item_ok {A} eqb junk (x : varr A) a b c to data : wfv (va x) -> lwf (a ++ b ++ c) -> b <> [] -> fits (a ++ b ++ c) (vshape x) ->
  (forall k, In k (keys b) -> ~ edges_on (a ++ b ++ c) (vshape x) k) -> to <> InvalidDim -> ~ In to (keys (before (keys b) (vshape x)) ++ keys (after (keys b) (vshape x))) ->
  (data = true -> vshape x = a ++ b ++ c) ->
  exists y, flatten_item eqb junk (mk (a ++ b ++ c)) (keys b) to data x = Ok (Some y) /\ wfv (va y) /\
    if existsb (fun e => mem (fst e) (keys b)) (vshape x)
    then vshape y = before (keys b) (vshape x) ++ (to, vol (extents b)) :: after (keys b) (vshape x) /\
         forall ix, valid_at (vshape y) ix -> val y ix = val x (puts ix (keys b) (index_at (extents b) (ix to)))
    else same_elements y x.
Proof.
  intros Hw Hd Hne Hf He Hto Hin Hdata. destruct (vdims_mk x Hw) as [Ed Hp]. destruct (lwf_parts _ _ _ Hd) as (Hb & Hnb & Hdis).
  assert (Hbd : forall k, In k (keys b) -> In k (keys (a ++ b ++ c))) by (intros k Hk; rewrite !keys_app; apply in_or_app; right; apply in_or_app; left; exact Hk).
  assert (Hbx : forall k n, In (k, n) b -> In (k, n) (vshape x) \/ (~ In k (keys (vshape x)) /\ In (k, n) (a ++ b ++ c))).
  { intros k n Hk. assert (Hkd : In (k, n) (a ++ b ++ c)) by (apply in_or_app; right; apply in_or_app; left; exact Hk).
    assert (Hkb : In k (keys b)) by (apply In_keys; eauto). destruct (mem k (keys (vshape x))) eqn:Em.
    - left. apply mem_In, In_keys in Em as [m Hm]. pose proof (fits_plain _ _ k m Hd Hp Hf (He k Hkb) Hm (Hbd k Hkb)) as Hmd. rewrite (In_unique _ k n m (proj1 Hd) Hkd Hmd). exact Hm.
    - right. apply mem_nIn in Em. auto. }
  assert (Hy : exists y, (if data then Ok x else maybe_broadcast x (keys b) (mk (a ++ b ++ c))) = Ok y /\ wfv (va y) /\
     vshape y = (if existsb (fun e => mem (fst e) (keys b)) (vshape x) then before (keys b) (vshape x) ++ b ++ after (keys b) (vshape x) else vshape x) /\
     forall ix, valid_at (vshape y) ix -> val y ix = val x ix).
  { destruct data.
    - exists x. split; [reflexivity|]. split; [exact Hw|]. split; [|reflexivity]. specialize (Hdata eq_refl). rewrite Hdata.
      assert (Hin' : forall l, (forall k, In k (keys l) -> ~ In k (keys b)) -> filter (fun e => negb (mem (fst e) (keys b))) l = l).
      { induction l as [|[k n] l IH]; intros Hl; cbn [filter fst]; [reflexivity|]. replace (mem k (keys b)) with false by (symmetry; apply mem_nIn, Hl; left; reflexivity). cbn [negb]. f_equal. apply IH. intros j Hj. apply Hl. right. exact Hj. }
      assert (Hfb : forall l m, (forall k, In k (keys l) -> ~ In k (keys b)) -> (forall k, In k (keys m) -> In k (keys b)) -> filter (fun e => negb (mem (fst e) (keys b))) (m ++ l) = l).
      { intros l m Hl Hm. rewrite filter_app, (Hin' l Hl). replace (filter _ m) with (@nil (Z * Z)); [reflexivity|]. symmetry. induction m as [|[k n] m IH]; cbn [filter fst]; [reflexivity|].
        replace (mem k (keys b)) with true by (symmetry; apply mem_In, Hm; left; reflexivity). cbn [negb]. apply IH. intros j Hj. apply Hm. right. exact Hj. }
      assert (Hae : forall k, In k (keys a) -> ~ In k (keys b)) by (intros k Hk Hx; apply (proj1 (Hdis k Hx)), Hk).
      assert (Hce : forall k, In k (keys c) -> ~ In k (keys b)) by (intros k Hk Hx; apply (proj2 (Hdis k Hx)), Hk).
      replace (existsb _ (a ++ b ++ c)) with true.
      + assert (Hba : before (keys b) (a ++ b ++ c) = a /\ after (keys b) (a ++ b ++ c) = c).
        { clear -Hne Hae Hce Hfb. induction a as [|[k n] a IH]; cbn [app before after fst].
          - destruct b as [|[k n] b0]; [congruence|]. cbn [app before after fst]. replace (mem k (keys ((k, n) :: b0))) with true by (symmetry; apply mem_In; left; reflexivity).
            split; [reflexivity|]. apply Hfb; [exact Hce|]. intros j Hj. right. exact Hj.
          - replace (mem k (keys b)) with false by (symmetry; apply mem_nIn, Hae; left; reflexivity). destruct IH as [-> ->]; [intros j Hj; apply Hae; right; exact Hj|]. auto. }
        destruct Hba as [-> ->]. reflexivity.
      + symmetry. apply existsb_exists. clear -Hne. destruct b as [|[k n] b0]; [congruence|]. exists (k, n). split; [apply in_or_app; right; left; reflexivity|]. apply mem_In. left. reflexivity.
    - apply (maybe_broadcast_ok x (a ++ b ++ c) b Hw Hd Hb Hbx). }
  destruct Hy as (y & Ey & Hwy & Esy & Hvy). unfold flatten_item. rewrite Ey. cbn [bind]. rewrite (no_edges_found x _ Hd Hw Hf (keys b) Hbd He). cbn [bind]. rewrite Z.eqb_refl. cbn [negb].
  assert (En : ndim (mk (a ++ b ++ c)) =? 0 = false).
  { change (ndim (mk (a ++ b ++ c))) with (zlen (keys (a ++ b ++ c))). unfold zlen. apply Z.eqb_neq. unfold keys. rewrite map_length, !app_length. clear -Hne. destruct b; [congruence|]. cbn [length]. lia. }
  rewrite En. cbn [orb]. assert (Edy : vdims y = mk (vshape y)) by (apply (vdims_mk y Hwy)). rewrite Edy, dcontains_mk, Esy.
  assert (Hhd : In (hd InvalidDim (keys b)) (keys b)) by (clear -Hne; destruct b as [|[k n] b0]; [congruence|left; reflexivity]).
  destruct (existsb (fun e => mem (fst e) (keys b)) (vshape x)) eqn:Et.
  - replace (mem (hd InvalidDim (keys b)) _) with true by (symmetry; apply mem_In; rewrite !keys_app; apply in_or_app; right; apply in_or_app; left; exact Hhd).
    destruct (flatten_ok y _ b _ to Hwy Hto Esy Hne Hin) as (z & Ez & Esz & Hz & Hvz). rewrite Ez. cbn [bind]. exists z. split; [reflexivity|]. split; [exact Hz|]. split; [exact Esz|].
    rewrite Esz. intros ix Hix. rewrite (Hvz ix Hix). apply Hvy. rewrite Esy.
    apply valid_at_app in Hix as [HA HC]. apply valid_at_cons in HC as [Hk HC]. apply valid_mid.
    assert (Hsafe : forall p, (forall k, In k (keys p) -> ~ In k (keys b)) -> valid_at p ix -> valid_at p (puts ix (keys b) (index_at (extents b) (ix to)))).
    { intros p Hnp Hvp j m Hj. rewrite puts_notin; [apply Hvp; exact Hj|]. apply Hnp, In_keys. eauto. }
    split; [apply Hsafe; [intros k Hkk; apply (before_keys b _ _ Hkk)|exact HA]|]. split; [apply puts_valid; [exact Hb|apply index_valid; assumption]|].
    apply Hsafe; [intros k Hkk; apply (after_keys b _ _ Hkk)|exact HC].
  - replace (mem (hd InvalidDim (keys b)) _) with false by (symmetry; apply mem_nIn; intros Hx; exact (keys_touched _ _ Et _ Hx Hhd)).
    exists y. split; [reflexivity|]. split; [exact Hwy|]. split; [exact Esy|]. exact Hvy.
Qed.

(** Flatten: bin edges along the last flattened dimension. *)
Lemma flatten_item_edges {A} eqb junk (x : varr A) a q e n c to : wfv (va x) -> lwf (a ++ (q ++ [(e, n)]) ++ c) -> (forall k, In k (keys (vshape x)) -> In k (keys (q ++ [(e, n)]))) ->
  In (e, n + 1) (vshape x) -> (forall k m, In (k, m) (vshape x) -> k <> e -> In (k, m) q) -> to <> InvalidDim -> 0 < vol (extents q) ->
  (~ joinable eqb x q e n -> flatten_item eqb junk (mk (a ++ (q ++ [(e, n)]) ++ c)) (keys (q ++ [(e, n)])) to false x = Ok None) /\
  (joinable eqb x q e n -> exists z, flatten_item eqb junk (mk (a ++ (q ++ [(e, n)]) ++ c)) (keys (q ++ [(e, n)])) to false x = Ok (Some z) /\ wfv (va z) /\ v_readonly (va z) = false /\
    vshape z = [(to, vol (extents (q ++ [(e, n)])) + 1)] /\
    val z (fun _ => vol (extents (q ++ [(e, n)]))) = val x (put (cell q (vol (extents q) - 1)) e n) /\
    forall k, 0 <= k < vol (extents (q ++ [(e, n)])) ->
      val z (fun _ => k) = val x (cell (q ++ [(e, n)]) k) /\
      (val z (fun _ => k + 1) = val x (next (cell (q ++ [(e, n)]) k) e) \/ eqb (val z (fun _ => k + 1)) (val x (next (cell (q ++ [(e, n)]) k) e)) = true)).
Proof.
  intros Hw Hd Hall He Ho Hto HR. destruct (vdims_mk x Hw) as [Ed Hp]. destruct (lwf_parts _ _ _ Hd) as (Hb & Hnb & Hdis). set (b := q ++ [(e, n)]) in *. set (b' := q ++ [(e, n + 1)]).
  destruct (lwf_app _ _ _ _ Hb) as (Hq & Hn0 & Heq & _ & Hei). rewrite app_nil_r in Hq.
  assert (Kb : keys b' = keys b) by (unfold b, b'; rewrite !keys_app; reflexivity).
  assert (Hb' : lwf b').
  { split; [rewrite Kb; apply Hb|]. split; [|rewrite Kb; apply Hb]. unfold b'. rewrite extents_app. apply Forall_app. split; [apply Hq|]. repeat constructor. cbn. lia. }
  assert (Hend : In (e, n) (a ++ b ++ c)) by (apply in_or_app; right; apply in_or_app; left; unfold b; apply in_or_app; right; left; reflexivity).
  assert (Hqd : forall k m, In (k, m) q -> In (k, m) (a ++ b ++ c)) by (intros k m Hk; apply in_or_app; right; apply in_or_app; left; unfold b; apply in_or_app; left; exact Hk).
  assert (Hfit : fits (a ++ b ++ c) (vshape x)).
  { right. exists e, (n + 1). split; [exact He|]. split; [intros k m Hk Hke; apply Hqd, Ho; assumption|]. left. replace (n + 1 - 1) with n by lia. exact Hend. }
  assert (Hedge : edges_on (a ++ b ++ c) (vshape x) e) by (exists n; auto).
  assert (Hbd : forall k, In k (keys b) -> In k (keys (a ++ b ++ c))) by (intros k Hk; rewrite !keys_app; apply in_or_app; right; apply in_or_app; left; exact Hk).
  assert (Hother : forall k, In k (keys b) -> k <> e -> ~ edges_on (a ++ b ++ c) (vshape x) k).
  { intros k Hk Hke (m & Hm & Hmd). specialize (Hqd _ _ (Ho _ _ Hm Hke)). pose proof (In_unique _ k _ _ (proj1 Hd) Hqd Hmd). lia. }
  assert (Heb : In e (keys b)) by (unfold b; rewrite keys_app; apply in_or_app; right; left; reflexivity).
  assert (Hbx : forall k m, In (k, m) b' -> In (k, m) (vshape x) \/ (~ In k (keys (vshape x)) /\ In (k, m) (a ++ b ++ c))).
  { intros k m Hk. unfold b' in Hk. apply in_app_or in Hk as [Hk|[Hk|[]]]; [|injection Hk as <- <-; left; exact He]. destruct (mem k (keys (vshape x))) eqn:Em.
    - left. apply mem_In, In_keys in Em as [m' Hm']. assert (Hke : k <> e) by (intros ->; apply Heq, In_keys; eauto). pose proof (Ho k m' Hm' Hke) as Hq'. rewrite (In_unique q k m m' (proj1 Hq) Hk Hq'). exact Hm'.
    - right. apply mem_nIn in Em. split; [exact Em|]. apply Hqd. exact Hk. }
  destruct (maybe_broadcast_ok x (a ++ b ++ c) b' Hw Hd Hb' Hbx) as (y & Ey & Hwy & Esy & Hvy). rewrite Kb in Ey.
  assert (Sy : vshape y = q ++ [(e, n + 1)]).
  { rewrite Esy, Kb. replace (existsb _ (vshape x)) with true by (symmetry; apply existsb_exists; exists (e, n + 1); split; [exact He|apply mem_In; exact Heb]).
    assert (Hba : before (keys b) (vshape x) = [] /\ after (keys b) (vshape x) = []).
    { assert (Hs : forall p, (forall k, In k (keys p) -> In k (keys b)) -> filter (fun e => negb (mem (fst e) (keys b))) p = []).
      { induction p as [|[k m] p IH]; intros Hk; cbn [filter fst]; [reflexivity|]. replace (mem k (keys b)) with true by (symmetry; apply mem_In, Hk; left; reflexivity). cbn [negb]. apply IH. intros j Hj. apply Hk. right. exact Hj. }
      destruct (vshape x) as [|[k m] p]; [auto|]. cbn [before after fst]. replace (mem k (keys b)) with true by (symmetry; apply mem_In, Hall; left; reflexivity).
      split; [reflexivity|]. apply Hs. intros j Hj. apply Hall. right. exact Hj. }
    destruct Hba as [-> ->]. cbn [app]. apply app_nil_r. }
  assert (Hvy' : forall r j, 0 <= r < vol (extents q) -> 0 <= j <= n -> val y (put (cell q r) e j) = val x (put (cell q r) e j)).
  { intros r j Hr Hj. apply Hvy. rewrite Sy. apply valid_at_app. split.
    - intros k m Hk. rewrite put_other by (intros ->; apply Heq, In_keys; eauto). exact (cell_valid q r Hq Hr k m Hk).
    - intros k m [[= <- <-]|[]]. rewrite put_same. lia. }
  assert (Hjj : joins eqb y q e n <-> joinable eqb x q e n).
  { unfold joins, joinable. split; intros Ha r Hr; specialize (Ha r Hr); rewrite !Hvy' in * by lia; exact Ha. }
  assert (Efl : flatten_item eqb junk (mk (a ++ b ++ c)) (keys b) to false x = flatten_bin_edge eqb junk y (keys q ++ [e]) to e).
  { unfold flatten_item. rewrite Ey. cbn [bind]. rewrite (edges_found x _ e Hd Hw Hfit Hedge (keys b) Hbd Hother Heb). cbn [bind]. replace (e =? InvalidDim) with false by (symmetry; apply Z.eqb_neq; exact Hei). cbn [negb].
    unfold b. rewrite keys_app. reflexivity. }
  rewrite Efl. assert (Evol : vol (extents b) = vol (extents q) * n) by (unfold b; rewrite extents_app, vol_app; cbn [extents map snd vol]; lia). rewrite Evol.
  destruct (flatten_edge_ok eqb junk y q e n to Hwy Sy Hn0 Hto HR) as [F1 F2]. split; [intros Hnj; apply F1; rewrite Hjj; exact Hnj|]. intros Hj.
  destruct (F2 (proj2 Hjj Hj)) as (z & Ez & Sz & Hz & Rz & Hl & Hv). exists z. split; [exact Ez|]. split; [exact Hz|]. split; [exact Rz|]. split; [exact Sz|]. split; [rewrite Hl; apply Hvy'; lia|].
  intros k Hk. assert (Hn : 0 < n) by nia. assert (Hdm : 0 <= k / n < vol (extents q)) by (split; [apply Z.div_pos; lia|apply Z.div_lt_upper_bound; lia]). pose proof (Z.mod_pos_bound k n Hn) as Hmod.
  assert (Hsc := cell_snoc q e n k Hb Hn Hk). fold b in Hsc.
  assert (Hsx : forall f g : Z -> Z, same_at b f g -> val x f = val x g) by (intros f g Hfg; apply val_same; [exact Hw|]; intros j Hjx; apply Hfg, Hall, Hjx).
  assert (Ek : k = n * (k / n) + k mod n) by (apply Z.div_mod; lia).
  split; [rewrite (Hv k Hk), Hvy' by lia; symmetry; apply Hsx, Hsc|].
  assert (Enx : val x (next (cell b k) e) = val x (put (cell q (k / n)) e (k mod n + 1))).
  { apply Hsx. intros j Hjb. unfold next, put at 1. rewrite (Hsc e Heb), put_same. unfold put. destruct (Z.eqb_spec j e) as [|Hje]; [reflexivity|]. rewrite (Hsc j Hjb), put_other by exact Hje. reflexivity. }
  rewrite Enx. destruct (Z.eq_dec (k mod n) (n - 1)) as [Em|Em].
  - rewrite Em. replace (n - 1 + 1) with n by lia. destruct (Z.eq_dec (k / n) (vol (extents q) - 1)) as [Ed1|Ed1].
    + left. replace (k + 1) with (vol (extents q) * n) by nia. rewrite Hl, Hvy' by lia. rewrite Ed1. reflexivity.
    + right. assert (Hk1 : 0 <= k + 1 < vol (extents q) * n) by nia. rewrite (Hv (k + 1) Hk1).
      assert (Eq1 : (k + 1) / n = k / n + 1) by (symmetry; apply (Z.div_unique (k + 1) n _ 0); lia).
      assert (Em1 : (k + 1) mod n = 0) by (symmetry; apply (Z.mod_unique (k + 1) n (k / n + 1)); lia).
      rewrite Eq1, Em1, Hvy' by lia. apply Hj. lia.
  - left. assert (Hk1 : 0 <= k + 1 < vol (extents q) * n) by nia. rewrite (Hv (k + 1) Hk1).
    assert (Eq1 : (k + 1) / n = k / n) by (symmetry; apply (Z.div_unique (k + 1) n _ (k mod n + 1)); lia).
    assert (Em1 : (k + 1) mod n = k mod n + 1) by (symmetry; apply (Z.mod_unique (k + 1) n (k / n)); lia).
    rewrite Eq1, Em1. apply Hvy'; lia.
Qed.

(** Fold *)
Lemma fold_item_ok {A} (x : varr A) dp d t : wfv (va x) -> lwf dp -> In d (keys dp) -> fits dp (vshape x) ->
  (~ In d (keys (vshape x)) -> fold_item (mk dp) d t x = Ok x) /\
  (edges_on dp (vshape x) d -> fold_item (mk dp) d t x = fold_bin_edge x d t) /\
  (In d (keys (vshape x)) -> ~ edges_on dp (vshape x) d -> fold_item (mk dp) d t x = apply_op x (VwFold d t)).
Proof.
  intros Hw Hd Hdd Hf. destruct (is_edges_dec dp x d Hd Hw Hf Hdd) as (b & Eb & Hb). unfold fold_item. rewrite Eb. cbn [bind]. destruct (vdims_mk x Hw) as [Ed Hp].
  repeat split.
  - intros Hn. destruct b; [exfalso; destruct (proj1 Hb eq_refl) as (m & Hm & _); apply Hn, In_keys; eauto|]. rewrite Ed, dcontains_mk. replace (mem d (keys (vshape x))) with false by (symmetry; apply mem_nIn; exact Hn). reflexivity.
  - intros He. rewrite (proj2 Hb He). reflexivity.
  - intros Hi Hn. destruct b; [exfalso; apply Hn, Hb; reflexivity|]. rewrite Ed, dcontains_mk. replace (mem d (keys (vshape x))) with true by (symmetry; apply mem_In; exact Hi). reflexivity.
Qed.

(** Edges folded and flattened again. *)
Lemma edges_round_trip {A} (eqb : A -> A -> bool) junk (x : varr A) d n t q e m dp : wfv (va x) -> wf t -> vshape x = [(d, n + 1)] -> pairs t = q ++ [(e, m)] -> vol (extents (pairs t)) = n ->
  0 < vol (extents q) -> (forall k, 0 <= k <= n -> eqb (val x (fun _ => k)) (val x (fun _ => k)) = true) -> lwf dp -> In (d, n) dp ->
  exists y z, fold_item (mk dp) d t x = Ok y /\ flatten_item eqb junk t (keys (pairs t)) d false y = Ok (Some z) /\ wfv (va z) /\ same_elements z x.
Proof.
  intros Hw Ht Ex Et Hv HR Hrefl Hdp Hdn. assert (Hlt : lwf (pairs t)) by apply (wf_mk_pairs t Ht). assert (Hnd : NoDup (keys ([] ++ pairs t ++ []))) by (cbn [app]; rewrite app_nil_r; apply Hlt).
  assert (Hxl : lwf [(d, n + 1)]) by (rewrite <- Ex; apply (wf_mk_pairs _ (proj1 Hw))). assert (Hdi : d <> InvalidDim) by (intros ->; apply (proj2 (proj2 Hxl)); left; reflexivity).
  assert (Hf : fits dp (vshape x)) by (rewrite Ex; right; exists d, (n + 1); split; [left; reflexivity|]; split; [intros k j [[= <- <-]|[]] Hk; congruence|left; replace (n + 1 - 1) with n by lia; exact Hdn]).
  destruct (fold_item_ok x dp d t Hw Hdp ltac:(apply In_keys; eauto) Hf) as (_ & F & _). rewrite F by (exists n; rewrite Ex; split; [left; reflexivity|exact Hdn]).
  destruct (fold_edge_ok x [] d n [] t q e m Hw Ht Ex Et Hnd Hv) as (y & Ey & Sy & Hy & Ry & Hval). cbn [app] in Sy. rewrite app_nil_r in Sy.
  assert (Hlt' : lwf ([] ++ (q ++ [(e, m)]) ++ [])) by (cbn [app]; rewrite app_nil_r, <- Et; exact Hlt).
  destruct (lwf_app q e m [] ltac:(rewrite <- Et; exact Hlt)) as (Hq & Hm0 & Heq & _ & Hei). rewrite app_nil_r in Hq.
  assert (HVn : vol (extents q) * m = n) by (rewrite <- Hv, Et, extents_app, vol_app; cbn [extents map snd vol]; lia).
  assert (Vy : forall r j, 0 <= r < vol (extents q) -> val y (put (cell q r) e j) = val x (fun _ => m * r + j)).
  { intros r j Hr. destruct (Hval (put (cell q r) e j)) as (_ & _ & ->). rewrite Et, position_last by exact Heq. rewrite put_same. apply val_same; [exact Hw|]. rewrite Ex. intros k [<-|[]]. cbn [fst]. rewrite put_same. f_equal. f_equal.
    transitivity (position (extents q) (map (cell q r) (keys q))).
    - f_equal. apply map_ext_in. intros k Hk. rewrite put_other; [reflexivity|]. intros ->. contradiction.
    - unfold cell. rewrite map_puts; [apply index_valid; assumption|apply Hq|]. rewrite index_at_length. unfold extents. apply map_length. }
  destruct (flatten_item_edges eqb junk y [] q e m [] d Hy Hlt') as [_ F2].
  - intros k Hk. rewrite Sy in Hk. rewrite keys_app in *. exact Hk.
  - rewrite Sy. apply in_or_app. right. left. reflexivity.
  - intros k j Hk Hke. rewrite Sy in Hk. apply in_app_or in Hk as [Hk|[[= <- <-]|[]]]; [exact Hk|congruence].
  - exact Hdi.
  - exact HR.
  - cbn [app] in F2. rewrite !app_nil_r in F2. rewrite <- Et in F2. change (mk (pairs t)) with (mk (pairs t)) in F2. rewrite <- (proj1 (wf_mk_pairs t Ht)) in F2. rewrite Hv in F2. destruct F2 as (z & Ez & Hz & _ & Sz & Hlast & Hk).
    { intros r Hr. rewrite !Vy by lia. replace (m * (r + 1) + 0) with (m * r + m) by lia. apply Hrefl. nia. }
    exists y, z. split; [exact Ey|]. split; [exact Ez|]. split; [exact Hz|]. split; [rewrite Sz, Ex; reflexivity|]. rewrite Sz. intros ix Hix. specialize (Hix d (n + 1) (or_introl eq_refl)).
    transitivity (val z (fun _ => ix d)); [apply val_same; [exact Hz|rewrite Sz; intros k [<-|[]]; reflexivity]|]. transitivity (val x (fun _ => ix d)); [|apply val_same; [exact Hw|rewrite Ex; intros k [<-|[]]; reflexivity]].
    destruct (Z.eq_dec (ix d) n) as [En|En].
    + rewrite En, Hlast, Vy by lia. replace (m * (vol (extents q) - 1) + m) with n by nia. reflexivity.
    + assert (Hkn : 0 <= ix d < n) by lia. rewrite (proj1 (Hk (ix d) Hkn)). destruct (Hval (cell (pairs t) (ix d))) as (_ & _ & ->).
      apply val_same; [exact Hw|]. rewrite Ex. intros k [<-|[]]. cbn [fst]. rewrite put_same. unfold cell. rewrite map_puts; [apply index_valid; [exact Hlt|rewrite Hv; exact Hkn]|apply Hlt|]. rewrite index_at_length. unfold extents. apply map_length.
Qed.

Lemma before_after_block a b c : NoDup (keys (a ++ b ++ c)) -> b <> [] -> before (keys b) (a ++ b ++ c) = a /\ after (keys b) (a ++ b ++ c) = c /\ existsb (fun e => mem (fst e) (keys b)) (a ++ b ++ c) = true.
Proof.
  intros Hn Hne. rewrite !keys_app in Hn.
  assert (Hce : forall k, In k (keys c) -> ~ In k (keys b)).
  { intros k Hk Hb. clear -Hn Hk Hb. induction (keys a) as [|j l IH]; cbn [app] in Hn; [|inversion Hn; subst; auto]. apply in_split in Hb as (u & v & E). rewrite E in Hn. rewrite <- app_assoc in Hn. cbn [app] in Hn. apply NoDup_remove_2 in Hn.
    apply Hn. apply in_or_app. right. apply in_or_app. right. exact Hk. }
  assert (Hae : forall k, In k (keys a) -> ~ In k (keys b)).
  { intros k Hk Hb. clear -Hn Hk Hb. apply in_split in Hk as (u & v & E). rewrite E, <- app_assoc in Hn. cbn [app] in Hn. apply NoDup_remove_2 in Hn. apply Hn. apply in_or_app. right. apply in_or_app. right. apply in_or_app. left. exact Hb. }
  clear Hn. induction a as [|[k n] a IH]; cbn [app before after existsb fst].
  - assert (Hf : forall l, (forall k, In k (keys l) -> In k (keys b)) -> filter (fun e => negb (mem (fst e) (keys b))) (l ++ c) = c).
    { induction l as [|[k n] l IH]; intros Hl; cbn [app filter fst].
      - clear -Hce. induction c as [|[k n] c IH]; cbn [filter fst]; [reflexivity|]. replace (mem k (keys b)) with false by (symmetry; apply mem_nIn, Hce; left; reflexivity). cbn [negb]. f_equal. apply IH. intros j Hj. apply Hce. right. exact Hj.
      - replace (mem k (keys b)) with true by (symmetry; apply mem_In, Hl; left; reflexivity). cbn [negb]. apply IH. intros j Hj. apply Hl. right. exact Hj. }
    remember (keys b) as B eqn:EB. destruct b as [|[k n] b0]; [congruence|]. cbn [app before after existsb fst]. replace (mem k B) with true by (symmetry; apply mem_In; rewrite EB; left; reflexivity).
    split; [reflexivity|]. split; [|reflexivity]. apply Hf. intros j Hj. rewrite EB. right. exact Hj.
  - replace (mem k (keys b)) with false by (symmetry; apply mem_nIn, Hae; left; reflexivity). cbn [orb]. destruct IH as (-> & -> & ->); [intros j Hj; apply Hae; right; exact Hj|]. auto.
Qed.

Lemma fits_block a d n c t p1 p2 : lwf (a ++ (d, n) :: c) -> lwf (a ++ t ++ c) -> lwf (p1 ++ (d, n) :: p2) -> lwf (p1 ++ t ++ p2) -> fits (a ++ (d, n) :: c) (p1 ++ (d, n) :: p2) ->
  fits (a ++ t ++ c) (p1 ++ t ++ p2) /\ forall k, In k (keys t) -> ~ edges_on (a ++ t ++ c) (p1 ++ t ++ p2) k.
Proof.
  intros Hd Ht Hp Hpt Hf. destruct (lwf_app _ _ _ _ Hp) as (_ & _ & Hk1 & Hk2 & _). destruct (lwf_app _ _ _ _ Hd) as (_ & _ & Ha1 & Ha2 & _).
  assert (Hrest : forall k m, In (k, m) (p1 ++ p2) -> In (k, m) (a ++ (d, n) :: c) -> In (k, m) (a ++ t ++ c)).
  { intros k m Hk Hx. apply in_app_or in Hx as [Hx|[Hx|Hx]]; [apply in_or_app; left; exact Hx| |apply in_or_app; right; apply in_or_app; right; exact Hx].
    injection Hx as <- <-. exfalso. apply in_app_or in Hk as [Hk|Hk]; [apply Hk1|apply Hk2]; apply In_keys; eauto. }
  assert (Hin : forall k m, In (k, m) t -> In (k, m) (a ++ t ++ c)) by (intros k m Hk; apply in_or_app; right; apply in_or_app; left; exact Hk).
  assert (Hsplit : forall k m, In (k, m) (p1 ++ t ++ p2) -> In (k, m) t \/ In (k, m) (p1 ++ p2)).
  { intros k m Hk. apply in_app_or in Hk as [Hk|Hk]; [right; apply in_or_app; left; exact Hk|]. apply in_app_or in Hk as [Hk|Hk]; [left; exact Hk|right; apply in_or_app; right; exact Hk]. }
  assert (Hold : forall k m, In (k, m) (p1 ++ p2) -> In (k, m) (p1 ++ (d, n) :: p2)) by (intros k m Hk; apply in_app_or in Hk as [Hk|Hk]; apply in_or_app; [left; exact Hk|right; right; exact Hk]).
  split.
  - destruct Hf as [Hf|(e & m & Hem & Ho & Hc)].
    + left. intros k m Hk. destruct (Hsplit k m Hk) as [Hx|Hx]; [apply Hin, Hx|]. apply Hrest; [exact Hx|]. apply Hf, Hold, Hx.
    + destruct (Z.eq_dec e d) as [->|Hed].
      * assert (m = n) as -> by (apply (In_unique (p1 ++ (d, n) :: p2) d m n (proj1 Hp) Hem); apply in_elt). destruct Hc as [Hc|[Hc _]].
        -- pose proof (In_unique _ d _ _ (proj1 Hd) Hc (in_elt _ _ _)). lia.
        -- exfalso. apply Hc. rewrite keys_app. apply in_elt.
      * apply in_app_or in Hem as [Hem|[Hem|Hem]]; [|injection Hem as <- <-; congruence|].
        all: assert (Hem' : In (e, m) (p1 ++ p2)) by (apply in_or_app; auto).
        all: assert (Hemt : In (e, m) (p1 ++ t ++ p2)) by (apply in_app_or in Hem' as [Hx|Hx]; apply in_or_app; [left; exact Hx|right; apply in_or_app; right; exact Hx]).
        all: right; exists e, m; split; [exact Hemt|]; split.
        1,3: intros k j Hk Hke; destruct (Hsplit k j Hk) as [Hx|Hx]; [apply Hin, Hx|]; apply Hrest; [exact Hx|]; apply Ho; [apply Hold, Hx|exact Hke].
        all: destruct Hc as [Hc|[Hc Hm]].
        1,3: left; apply in_app_or in Hc as [Hc|[Hc|Hc]]; [apply in_or_app; left; exact Hc|injection Hc as -> ->; congruence|apply in_or_app; right; apply in_or_app; right; exact Hc].
        all: right; split; [|exact Hm]; rewrite !keys_app; intros Hx; apply in_app_or in Hx as [Hx|Hx]; [apply Hc; rewrite keys_app; apply in_or_app; left; exact Hx|].
        all: apply in_app_or in Hx as [Hx|Hx]; [|apply Hc; rewrite keys_app; apply in_or_app; right; right; exact Hx].
        all: apply In_keys in Hx as [j Hx]; destruct (lwf_parts _ _ _ Hpt) as (_ & _ & Hdis); destruct (Hdis e ltac:(apply In_keys; eauto)) as [D1 D2]; apply in_app_or in Hem' as [Hy|Hy]; [apply D1|apply D2]; apply In_keys; eauto.
  - intros k Hk (j & Hj & Hjd). apply In_keys in Hk as [m Hm]. pose proof (In_unique _ k m j (proj1 Ht) (Hin k m Hm) Hjd) as ->.
    assert (Hjt : In (k, j) (p1 ++ t ++ p2)) by (apply in_or_app; right; apply in_or_app; left; exact Hm). pose proof (In_unique _ k _ _ (proj1 Hpt) Hj Hjt). lia.
Qed.

Lemma item_fold_flatten {A} eqb junk (x y : varr A) a d n c t p1 p2 data : wfv (va x) -> wf t -> lwf (a ++ (d, n) :: c) -> lwf (a ++ pairs t ++ c) -> pairs t <> [] -> vol (extents (pairs t)) = n ->
  fits (a ++ (d, n) :: c) (vshape x) -> vshape x = p1 ++ (d, n) :: p2 -> (data = true -> p1 = a /\ p2 = c) -> NoDup (keys (p1 ++ pairs t ++ p2)) ->
  fold_item (mk (a ++ (d, n) :: c)) d t x = Ok y -> exists z, flatten_item eqb junk (mk (a ++ pairs t ++ c)) (keys (pairs t)) d data y = Ok (Some z) /\ wfv (va z) /\ same_elements z x.
Proof.
  intros Hw Ht Hd Hdt Hne Hv Hf Ex Hdata Hnd Ey. assert (Hp : lwf (p1 ++ (d, n) :: p2)) by (rewrite <- Ex; apply (wf_mk_pairs _ (proj1 Hw))).
  assert (Hdd : In d (keys (a ++ (d, n) :: c))) by (rewrite keys_app; apply in_elt).
  assert (Hne' : ~ edges_on (a ++ (d, n) :: c) (vshape x) d).
  { intros (m & Hm & Hmd). rewrite Ex in Hm. pose proof (In_unique _ d _ n (proj1 Hp) Hm (in_elt _ _ _)). pose proof (In_unique _ d _ n (proj1 Hd) Hmd (in_elt _ _ _)). lia. }
  destruct (fold_item_ok x _ d t Hw Hd Hdd Hf) as (_ & _ & F). rewrite F in Ey by (try exact Hne'; rewrite Ex, keys_app; apply in_elt).
  destruct (fold_ok x p1 d n p2 t Hw Ht Ex Hnd Hv) as (y' & E & Sy & Hy & Vy). rewrite Ey in E. injection E as <-.
  assert (Hpt : lwf (p1 ++ pairs t ++ p2)) by (rewrite <- Sy; apply (wf_mk_pairs _ (proj1 Hy))). rewrite Ex in Hf.
  destruct (fits_block a d n c (pairs t) p1 p2 Hd Hdt Hp Hpt Hf) as [Hfy Hey]. destruct (before_after_block p1 (pairs t) p2 Hnd Hne) as (B1 & B2 & B3).
  destruct (lwf_app _ _ _ _ Hp) as (_ & _ & Hk1 & Hk2 & Hdi). destruct (lwf_parts _ _ _ Hpt) as (Hlt & _ & Hdis).
  destruct (flatten_item_ok eqb junk y a (pairs t) c d data Hy Hdt Hne) as (z & Ez & Hz & Hr).
  - rewrite Sy. exact Hfy.
  - rewrite Sy. exact Hey.
  - exact Hdi.
  - rewrite Sy, B1, B2. intros Hx. apply in_app_or in Hx as [Hx|Hx]; contradiction.
  - intros Eda. destruct (Hdata Eda) as [-> ->]. exact Sy.
  - rewrite Sy, B1, B2, B3 in Hr. destruct Hr as [Sz Vz]. exists z. split; [exact Ez|]. split; [exact Hz|]. rewrite Hv in Sz. split; [rewrite Sz, Ex; reflexivity|]. rewrite Sz in *. intros ix Hix. rewrite (Vz ix Hix).
    apply valid_at_app in Hix as [HA HC]. apply valid_at_cons in HC as [Hk HC]. assert (Hk' : 0 <= ix d < vol (extents (pairs t))) by lia. destruct (index_valid (pairs t) (ix d) Hlt Hk') as [Hiv Hip].
    rewrite Vy.
    + apply val_same; [exact Hw|]. rewrite Ex. rewrite map_puts; [|apply Hlt|rewrite index_at_length; unfold extents; apply map_length]. rewrite Hip. intros k Hkk. unfold put. destruct (Z.eqb_spec k d) as [->|Hkd]; [reflexivity|].
      apply puts_notin. intros Hx. destruct (Hdis k Hx) as [D1 D2]. rewrite keys_app in Hkk. apply in_app_or in Hkk as [Hkk|[Hkk|Hkk]]; [contradiction|cbn in Hkk; congruence|contradiction].
    + apply valid_mid. split; [|split; [apply puts_valid; [exact Hlt|exact Hiv]|]].
      * intros k m Hkm. rewrite puts_notin; [apply HA; exact Hkm|]. intros Hx. apply (proj1 (Hdis k Hx)), In_keys. eauto.
      * intros k m Hkm. rewrite puts_notin; [apply HC; exact Hkm|]. intros Hx. apply (proj2 (Hdis k Hx)), In_keys. eauto.
Qed.

Lemma fits_unblock a to N c t p1 p2 : lwf (a ++ t ++ c) -> lwf (p1 ++ t ++ p2) -> ~ In to (keys a ++ keys c) -> ~ In to (keys p1 ++ keys p2) -> fits (a ++ t ++ c) (p1 ++ t ++ p2) ->
  fits (a ++ (to, N) :: c) (p1 ++ (to, N) :: p2).
Proof.
  intros Ht Hpt Hta Htp Hf. destruct (lwf_parts _ _ _ Ht) as (_ & _ & Hdt). destruct (lwf_parts _ _ _ Hpt) as (_ & _ & Hdp).
  assert (Hrest : forall k m, In (k, m) (p1 ++ p2) -> In (k, m) (a ++ t ++ c) -> In (k, m) (a ++ (to, N) :: c)).
  { intros k m Hk Hx. apply in_app_or in Hx as [Hx|Hx]; [apply in_or_app; left; exact Hx|]. apply in_app_or in Hx as [Hx|Hx]; [|apply in_or_app; right; right; exact Hx].
    exfalso. destruct (Hdp k ltac:(apply In_keys; eauto)) as [D1 D2]. apply in_app_or in Hk as [Hk|Hk]; [apply D1|apply D2]; apply In_keys; eauto. }
  assert (Hold : forall k m, In (k, m) (p1 ++ p2) -> In (k, m) (p1 ++ t ++ p2)) by (intros k m Hk; apply in_app_or in Hk as [Hk|Hk]; apply in_or_app; [left; exact Hk|right; apply in_or_app; right; exact Hk]).
  assert (Hsplit : forall k m, In (k, m) (p1 ++ (to, N) :: p2) -> (k, m) = (to, N) \/ In (k, m) (p1 ++ p2)).
  { intros k m Hk. apply in_app_or in Hk as [Hk|[Hk|Hk]]; [right; apply in_or_app; left; exact Hk|left; symmetry; exact Hk|right; apply in_or_app; right; exact Hk]. }
  destruct Hf as [Hf|(e & m & Hem & Ho & Hc)].
  - left. intros k m Hk. destruct (Hsplit k m Hk) as [->|Hx]; [apply in_elt|]. apply Hrest; [exact Hx|]. apply Hf, Hold, Hx.
  - assert (Hcase : In (e, m) t \/ In (e, m) (p1 ++ p2)) by (apply in_app_or in Hem as [Hx|Hx]; [right; apply in_or_app; left; exact Hx|apply in_app_or in Hx as [Hx|Hx]; [left; exact Hx|right; apply in_or_app; right; exact Hx]]).
    destruct Hcase as [Hx|Hx].
    + left. intros k j Hk. destruct (Hsplit k j Hk) as [->|Hy]; [apply in_elt|]. apply Hrest; [exact Hy|]. apply Ho; [apply Hold, Hy|]. intros ->. destruct (Hdp e ltac:(apply In_keys; eauto)) as [D1 D2].
      apply in_app_or in Hy as [Hy|Hy]; [apply D1|apply D2]; apply In_keys; eauto.
    + assert (Het : e <> to) by (intros ->; apply Htp; apply in_app_or in Hx as [Hx|Hx]; apply in_or_app; [left|right]; apply In_keys; eauto).
      right. exists e, m. split; [apply in_app_or in Hx as [Hx|Hx]; apply in_or_app; [left; exact Hx|right; right; exact Hx]|]. split.
      * intros k j Hk Hke. destruct (Hsplit k j Hk) as [->|Hy]; [apply in_elt|]. apply Hrest; [exact Hy|]. apply Ho; [apply Hold, Hy|exact Hke].
      * assert (Hnt : ~ In e (keys t)) by (intros Hy; destruct (Hdp e Hy) as [D1 D2]; apply in_app_or in Hx as [Hx|Hx]; [apply D1|apply D2]; apply In_keys; eauto).
        destruct Hc as [Hc|[Hc Hm]].
        -- left. apply in_app_or in Hc as [Hc|Hc]; [apply in_or_app; left; exact Hc|]. apply in_app_or in Hc as [Hc|Hc]; [exfalso; apply Hnt, In_keys; eauto|apply in_or_app; right; right; exact Hc].
        -- right. split; [|exact Hm]. rewrite keys_app. intros Hy. apply Hc. rewrite !keys_app. apply in_app_or in Hy as [Hy|[Hy|Hy]]; [apply in_or_app; left; exact Hy|cbn in Hy; congruence|apply in_or_app; right; apply in_or_app; right; exact Hy].
Qed.

Lemma item_flatten_fold {A} eqb junk (x : varr A) a t c to p1 p2 data : wfv (va x) -> wf t -> lwf (a ++ pairs t ++ c) -> pairs t <> [] -> to <> InvalidDim -> ~ In to (keys a ++ keys c) -> ~ In to (keys p1 ++ keys p2) ->
  fits (a ++ pairs t ++ c) (vshape x) -> vshape x = p1 ++ pairs t ++ p2 -> (data = true -> p1 = a /\ p2 = c) ->
  exists y z, flatten_item eqb junk (mk (a ++ pairs t ++ c)) (keys (pairs t)) to data x = Ok (Some y) /\
    fold_item (mk (a ++ (to, vol (extents (pairs t))) :: c)) to t y = Ok z /\ wfv (va z) /\ same_elements z x.
Proof.
  intros Hw Ht Hd Hne Hto Hta Htp Hf Ex Hdata. assert (Hp : lwf (p1 ++ pairs t ++ p2)) by (rewrite <- Ex; apply (wf_mk_pairs _ (proj1 Hw))). rewrite Ex in Hf.
  destruct (lwf_parts _ _ _ Hp) as (Hlt & _ & Hdis). destruct (before_after_block p1 (pairs t) p2 (proj1 Hp) Hne) as (B1 & B2 & B3).
  assert (Hint : forall k m, In (k, m) (pairs t) -> In (k, m) (p1 ++ pairs t ++ p2) /\ In (k, m) (a ++ pairs t ++ c)) by (intros k m Hk; split; apply in_or_app; right; apply in_or_app; left; exact Hk).
  destruct (flatten_item_ok eqb junk x a (pairs t) c to data Hw Hd Hne) as (y & Ey & Hy & Hr).
  - rewrite Ex. exact Hf.
  - rewrite Ex. intros k Hk (m & Hm & Hmd). apply In_keys in Hk as [j Hj]. destruct (Hint k j Hj) as [J1 J2]. pose proof (In_unique _ k _ _ (proj1 Hp) Hm J1). pose proof (In_unique _ k _ _ (proj1 Hd) Hmd J2). lia.
  - exact Hto.
  - rewrite Ex, B1, B2. exact Htp.
  - intros Eda. destruct (Hdata Eda) as [-> ->]. exact Ex.
  - rewrite Ex, B1, B2, B3 in Hr. destruct Hr as [Sy Vy]. set (N := vol (extents (pairs t))) in *.
    assert (HN : 0 <= N) by (apply vol_nonneg, Hlt). pose proof (fits_unblock a to N c (pairs t) p1 p2 Hd Hp Hta Htp Hf) as Hfy.
    assert (Hda : lwf (a ++ (to, N) :: c)).
    { destruct Hd as (Hnd & Hfd & Hid). rewrite !keys_app in Hnd, Hid. rewrite !extents_app in Hfd. unfold lwf. rewrite keys_app, extents_app. split; [|split].
      - cbn [keys map fst]. fold (keys c). assert (Hac : NoDup (keys a ++ keys c)) by (clear -Hnd; induction (keys a) as [|k l IH]; cbn [app] in *; [induction (keys (pairs t)) as [|j m IHm]; cbn [app] in *; [exact Hnd|inversion Hnd; auto]|]; inversion Hnd as [|? ? Hk Hn]; subst; constructor; [intros Hx; apply Hk; apply in_app_or in Hx as [Hx|Hx]; apply in_or_app; [left|right; apply in_or_app; right]; exact Hx|apply IH, Hn]).
        apply NoDup_Add with (a := to) (l := keys a ++ keys c); [apply Add_app|]. split; [exact Hac|exact Hta].
      - cbn [extents map snd]. fold (extents c). apply Forall_app in Hfd as [F1 F2]. apply Forall_app in F2 as [_ F2]. apply Forall_app. split; [exact F1|]. constructor; [exact HN|exact F2].
      - intros Hx. apply in_app_or in Hx as [Hx|[Hx|Hx]]; [apply Hid, in_or_app; left; exact Hx|cbn in Hx; congruence|apply Hid, in_or_app; right; apply in_or_app; right; exact Hx]. }
    assert (Hyl : lwf (p1 ++ (to, N) :: p2)) by (rewrite <- Sy; apply (wf_mk_pairs _ (proj1 Hy))).
    destruct (fold_item_ok y (a ++ (to, N) :: c) to t Hy Hda) as (_ & _ & F); [rewrite keys_app; apply in_elt|rewrite Sy; exact Hfy|].
    destruct (fold_ok y p1 to N p2 t Hy Ht Sy (proj1 Hp) eq_refl) as (z & Ez & Sz & Hz & Vz). exists y, z. split; [exact Ey|]. split.
    { rewrite F; [exact Ez|rewrite Sy, keys_app; apply in_elt|]. rewrite Sy. intros (m & Hm & Hmd). pose proof (In_unique _ to _ _ (proj1 Hyl) Hm (in_elt _ _ _)). pose proof (In_unique _ to _ _ (proj1 Hda) Hmd (in_elt _ _ _)). lia. }
    split; [exact Hz|]. split; [rewrite Sz, Ex; reflexivity|]. rewrite Sz. intros ix Hix. rewrite (Vz ix Hix). pose proof (proj1 (valid_mid _ _ _ _) Hix) as (HA & HB & HC). apply valid_at_idx in HB.
    pose proof (position_bound _ _ HB) as Hpos. fold N in Hpos.
    rewrite Vy.
    + apply val_same; [exact Hw|]. rewrite Ex, put_same, index_at_position by exact HB. intros k Hk. destruct (mem k (keys (pairs t))) eqn:Em.
      * apply mem_In in Em. set (ix' := put ix to _). clearbody ix'. clear -Em. induction (keys (pairs t)) as [|j l IH]; [destruct Em|]. cbn [map puts]. unfold put at 1. destruct (Z.eqb_spec k j) as [->|Hkj]; [reflexivity|]. destruct Em as [Em|Em]; [congruence|apply IH, Em].
      * apply mem_nIn in Em. rewrite puts_notin by exact Em. apply put_other. intros ->. rewrite !keys_app in Hk. apply Htp. apply in_app_or in Hk as [Hk|Hk]; apply in_or_app; [left; exact Hk|right]. apply in_app_or in Hk as [Hk|Hk]; [contradiction|exact Hk].
    + rewrite Sy. apply valid_at_app. split; [|apply valid_at_cons; split].
      * intros k m Hk. rewrite put_other; [apply HA; exact Hk|]. intros ->. apply Htp, in_or_app. left. apply In_keys. eauto.
      * rewrite put_same. exact Hpos.
      * intros k m Hk. rewrite put_other; [apply HC; exact Hk|]. intros ->. apply Htp, in_or_app. right. apply In_keys. eauto.
Qed.

(** Edges flattened and folded again. *)
Lemma edges_flatten_fold {A} eqb junk (x : varr A) t q e n to : wfv (va x) -> wf t -> pairs t = q ++ [(e, n)] -> vshape x = q ++ [(e, n + 1)] -> to <> InvalidDim -> 0 < n -> 0 < vol (extents q) -> joinable eqb x q e n ->
  exists y z, flatten_item eqb junk t (keys (pairs t)) to false x = Ok (Some y) /\ fold_item (mk [(to, vol (extents (pairs t)))]) to t y = Ok z /\ wfv (va z) /\
    vshape z = vshape x /\ forall ix, valid_at (vshape x) ix -> val z ix = val x ix \/ eqb (val z ix) (val x ix) = true.
Proof.
  intros Hw Ht Et Ex Hto Hn HR Hj. assert (Hlt : lwf (pairs t)) by apply (wf_mk_pairs t Ht). assert (Hlt' : lwf ([] ++ (q ++ [(e, n)]) ++ [])) by (cbn [app]; rewrite app_nil_r, <- Et; exact Hlt).
  destruct (lwf_app q e n [] ltac:(rewrite <- Et; exact Hlt)) as (Hq & _ & Heq & _ & Hei). rewrite app_nil_r in Hq.
  destruct (flatten_item_edges eqb junk x [] q e n [] to Hw Hlt') as [_ F2]; [..|specialize (F2 Hj)].
  - intros k Hk. rewrite Ex in Hk. rewrite keys_app in *. exact Hk.
  - rewrite Ex. apply in_or_app. right. left. reflexivity.
  - intros k j Hk Hke. rewrite Ex in Hk. apply in_app_or in Hk as [Hk|[[= <- <-]|[]]]; [exact Hk|congruence].
  - exact Hto.
  - exact HR.
  - cbn [app] in F2. rewrite !app_nil_r in F2. rewrite <- Et in F2. rewrite <- (proj1 (wf_mk_pairs t Ht)) in F2. set (N := vol (extents (pairs t))) in *. destruct F2 as (y & Ey & Hy & _ & Sy & Hlast & Hk).
    assert (EN : N = vol (extents q) * n) by (unfold N; rewrite Et, extents_app, vol_app; cbn [extents map snd vol]; lia). assert (HN : 0 < N) by nia.
    assert (Hl1 : lwf [(to, N)]) by (split; [repeat constructor; intros []|split; [repeat constructor; cbn; lia|intros [Hx|[]]; cbn in Hx; congruence]]).
    destruct (fold_item_ok y [(to, N)] to t Hy Hl1) as (_ & F & _); [left; reflexivity|rewrite Sy; right; exists to, (N + 1); split; [left; reflexivity|]; split; [intros k j [[= <- <-]|[]] Hkk; congruence|left; replace (N + 1 - 1) with N by lia; left; reflexivity]|].
    destruct (fold_edge_ok y [] to N [] t q e n Hy Ht Sy Et) as (z & Ez & Sz & Hz & _ & Vz); [cbn [app]; rewrite app_nil_r; apply Hlt|reflexivity|]. cbn [app] in Sz. rewrite app_nil_r in Sz.
    exists y, z. split; [exact Ey|]. split; [rewrite F; [exact Ez|exists N; rewrite Sy; split; left; reflexivity]|]. split; [exact Hz|]. split; [rewrite Sz, Ex; reflexivity|].
    rewrite Ex. intros ix Hix. destruct (Vz ix) as (Hb & _ & ->). rewrite Sz in Hb. specialize (Hb Hix). set (k := position (extents (pairs t)) (map ix (keys (pairs t)))) in *.
    assert (Ez' : val y (put ix to k) = val y (fun _ => k)) by (apply val_same; [exact Hy|rewrite Sy; intros j [<-|[]]; apply put_same]). rewrite Ez'.
    pose proof (proj1 (valid_at_app _ _ _) Hix) as [HQ HE]. specialize (HE e (n + 1) (or_introl eq_refl)).
    assert (Ek : k = n * position (extents q) (map ix (keys q)) + ix e) by (unfold k; rewrite Et; apply position_last; exact Heq). pose proof (position_bound _ _ (proj1 (valid_at_idx _ _) HQ)) as Hpos. set (r := position (extents q) (map ix (keys q))) in *.
    assert (Hcell : forall j, 0 <= j < n -> forall l, In l (keys (pairs t)) -> cell (pairs t) (n * r + j) l = put ix e j l).
    { intros j Hjn l Hl. assert (Hpj : position (extents (pairs t)) (map (put ix e j) (keys (pairs t))) = n * r + j).
      { rewrite Et, position_last by exact Heq. rewrite put_same. f_equal. f_equal. unfold r. f_equal. apply map_ext_in. intros i Hi. apply put_other. intros ->. contradiction. }
      rewrite <- Hpj. assert (Hva : valid_at (pairs t) (put ix e j)).
      { rewrite Et. apply valid_at_app. split; [intros i m Hi; rewrite put_other; [apply HQ; exact Hi|intros ->; apply Heq, In_keys; eauto]|]. intros i m [[= <- <-]|[]]. rewrite put_same. exact Hjn. }
      unfold cell. rewrite index_at_position by (apply valid_at_idx; exact Hva). clear -Hl. induction (keys (pairs t)) as [|i ls IH]; [destruct Hl|]. cbn [map puts]. unfold put at 1. destruct (Z.eqb_spec l i) as [->|Hli]; [reflexivity|]. destruct Hl as [Hl|Hl]; [congruence|apply IH, Hl]. }
    assert (Kt : keys (q ++ [(e, n + 1)]) = keys (pairs t)) by (rewrite Et, !keys_app; reflexivity).
    assert (Het : In e (keys (pairs t))) by (rewrite Et, keys_app; apply in_or_app; right; left; reflexivity).
    destruct (Z.eq_dec (ix e) n) as [En|En].
    + assert (Hk1 : 0 <= k - 1 < N) by nia. destruct (Hk (k - 1) Hk1) as [_ Hnx]. replace (k - 1 + 1) with k in Hnx by lia.
      assert (Enx : val x (next (cell (pairs t) (k - 1)) e) = val x ix).
      { apply val_same; [exact Hw|]. rewrite Ex. intros l Hl. rewrite Kt in Hl. replace (k - 1) with (n * r + (n - 1)) by lia. unfold next, put. destruct (Z.eqb_spec l e) as [->|Hle].
        - rewrite Hcell by (try exact Het; lia). rewrite put_same. lia.
        - rewrite Hcell by (try exact Hl; lia). apply put_other. exact Hle. }
      rewrite Enx in Hnx. exact Hnx.
    + left. assert (Hk1 : 0 <= k < N) by nia. rewrite (proj1 (Hk k Hk1)). apply val_same; [exact Hw|]. rewrite Ex. intros l Hl. rewrite Kt in Hl. rewrite Ek, Hcell by (try exact Hl; lia). unfold put. destruct (Z.eqb_spec l e) as [->|]; reflexivity.
Qed.
