(** Reductions by [transform_data]: the output lacks dimensions of the inputs. *)
From Coq Require Import Permutation.
From Verif Require Import Base Map_Model Dims_Model Dims_Spec Dims_Proofs Index_Model Index_Spec Index_Proofs View_Model View_Spec View_Proofs
  Transform_Model Transform_Spec Machine_Proofs Transform_Proofs Accumulate_Spec.

(** ** Repeated calls on the same output *)
Lemma solo_reduce {A B} (f : list A -> A) (out : B -> cell) (oth : B -> list cell) ks : forall h : heap A,
  (forall j k, In j ks -> In k ks -> ~ In (out j) (oth k)) ->
  let s := solo (h, []) (flat_map (kcall f out (fun k => out k :: oth k)) ks) in
  snd s = [] /\
  forall c, fst s c = fold_left (fun acc k => f (acc :: map h (oth k))) (filter (fun k => cell_eqb (out k) c) ks) (h c).
Proof.
  induction ks as [|k ks IH]; intros h Hsep; [split; [reflexivity|intros; reflexivity]|].
  cbn [flat_map]. rewrite solo_app, solo_kcall. destruct (IH (hset h (out k) (f (map h (out k :: oth k))))) as [Hr Hv].
  { intros i j Hi Hj. apply Hsep; right; assumption. }
  split; [assumption|]. intros c. rewrite Hv.
  assert (Hext : forall l a, incl l ks ->
    fold_left (fun acc j => f (acc :: map (hset h (out k) (f (map h (out k :: oth k)))) (oth j))) l a =
    fold_left (fun acc j => f (acc :: map h (oth j))) l a).
  { induction l as [|j l IHl]; intros a Hl; [reflexivity|]. cbn [fold_left]. rewrite IHl by (intros x Hx; apply Hl; right; assumption).
    do 3 f_equal. apply map_ext_in. intros x Hx. apply hset_other. intros ->. apply (Hsep k j); cbn; auto. right. apply Hl. left. reflexivity. }
  rewrite Hext by (intros x Hx; apply filter_In in Hx; apply Hx). cbn [filter]. destruct (cell_eqb (out k) c) eqn:E.
  - apply cell_eqb_spec in E. subst c. cbn [fold_left]. rewrite hset_same. reflexivity.
  - rewrite hset_other; [reflexivity|]. intros ->. rewrite cell_eqb_refl in E. discriminate.
Qed.

(** ** When the threads may run in parallel *)
Lemma flatten_kept cap nf : forall l acc sfc dr es, flatten_dims cap nf sfc dr l acc = Ok es ->
  forall a, In a acc -> exists b, In b es /\ me_strides b = me_strides a.
Proof.
  induction l as [|e l IH]; intros acc sfc dr es E a Ha; cbn [flatten_dims] in E.
  - injection E as <-. exists a. split; [apply in_rev; rewrite rev_involutive; assumption|reflexivity].
  - destruct (cap <=? length acc)%nat; [discriminate|].
    destruct (if (dr >? nf) && negb match acc with [] => true | _ => false end then can_be_flattened sfc e else (false, sfc)) as [fl sfc'].
    destruct fl; [destruct acc as [|a0 acc]|].
    + destruct Ha.
    + destruct Ha as [<-|Ha].
      * destruct (IH _ _ _ _ E (mkmentry (me_size a0 * me_size e) (me_strides a0))) as (b & Hb & Eb); [left; reflexivity|eauto].
      * apply (IH _ _ _ _ E a). right. assumption.
    + apply (IH _ _ _ _ E a). right. assumption.
Qed.

Definition zeros (v : list Z) : Prop := Forall (fun x => x = 0) v.
Lemma hd_scale s v : hd 0 (map (Z.mul s) v) = s * hd 0 v.
Proof. destruct v; cbn; lia. Qed.
Lemma zeros_scale s v : zeros v -> zeros (map (Z.mul s) v).
Proof. induction 1 as [|x v -> _ IH]; constructor; [lia|assumption]. Qed.
Lemma zeros_hd v : zeros v -> hd 0 v = 0.
Proof. destruct 1; auto. Qed.

Lemma flatten_zero cap es : Forall (fun e => hd 0 (me_strides e) <> 0) es -> forall l acc sfc,
  acc <> [] -> (hd 0 sfc = 0 -> zeros sfc) -> Forall (fun e => 0 < me_size e) l ->
  flatten_dims cap 0 sfc (zlen l - 1) l acc = Ok es ->
  forall j e, nth_error l j = Some e -> hd 0 (me_strides e) = 0 ->
  Z.of_nat j < zlen l - 1 /\ zeros sfc /\ forall i e', (i <= j)%nat -> nth_error l i = Some e' -> zeros (me_strides e').
Proof.
  intros Hes. induction l as [|e0 l IH]; intros acc sfc Hacc Hz Hpos E j e Hj He; [destruct j; discriminate|].
  apply Forall_cons_iff in Hpos as [Hp0 Hpos]. cbn [flatten_dims] in E. destruct (cap <=? length acc)%nat; [discriminate|].
  assert (Hl : zlen (e0 :: l) - 1 = zlen l) by (unfold zlen; cbn [length]; lia). rewrite Hl in *.
  destruct acc as [|a acc]; [contradiction|]. rewrite andb_true_r in E.
  assert (Hw : forall acc', In e0 acc' -> forall sfc' dr, flatten_dims cap 0 sfc' dr l acc' = Ok es -> hd 0 (me_strides e0) <> 0).
  { intros acc' Hin sfc' dr E'. destruct (flatten_kept _ _ _ _ _ _ _ E' e0 Hin) as (b & Hb & Eb). rewrite Forall_forall in Hes.
    rewrite <- Eb. apply Hes. assumption. }
  destruct l as [|e1 l1].
  { cbn in E. destruct j as [|[|j]]; try discriminate. injection Hj as ->. exfalso.
    injection E as E. rewrite Forall_forall in Hes. apply (Hes e); [|assumption]. rewrite <- E. apply in_or_app. right. left. reflexivity. }
  assert (Hdr : zlen (e1 :: l1) >? 0 = true) by (unfold zlen; cbn [length]; lia). rewrite Hdr in E. set (l := e1 :: l1) in *.
  unfold can_be_flattened in E. destruct (list_eqb (me_strides e0) sfc) eqn:Eq.
  - apply list_eqb_spec in Eq.
    assert (Hz' : hd 0 (map (Z.mul (me_size e0)) (me_strides e0)) = 0 -> zeros (map (Z.mul (me_size e0)) (me_strides e0))).
    { intros H0. rewrite hd_scale in H0. apply zeros_scale. rewrite Eq. apply Hz. rewrite <- Eq. nia. }
    destruct j as [|j].
    + injection Hj as <-. split; [unfold zlen; cbn [l length]; lia|]. rewrite Eq in He. specialize (Hz He). split; [assumption|].
      intros i e' Hi He'. assert (i = 0)%nat as -> by lia. injection He' as <-. rewrite Eq. assumption.
    + destruct (IH (mkmentry (me_size a * me_size e0) (me_strides a) :: acc) (map (Z.mul (me_size e0)) (me_strides e0)) ltac:(discriminate) Hz' Hpos E j e Hj He) as (Hjl & Hs & Hall).
      assert (Hzs : zeros sfc).
      { apply Hz. rewrite <- Eq. apply zeros_hd in Hs. rewrite hd_scale in Hs. nia. }
      split; [lia|]. split; [assumption|]. intros [|i] e' Hi He'.
      * injection He' as <-. rewrite Eq. assumption.
      * apply (Hall i e'); [lia|assumption].
  - exfalso. pose proof (Hw (e0 :: a :: acc) (or_introl eq_refl) _ _ E) as Hne.
    destruct j as [|j]; [injection Hj as <-; contradiction|].
    destruct (IH (e0 :: a :: acc) (map (Z.mul (me_size e0)) (me_strides e0)) ltac:(discriminate)) with (j := j) (e := e) as (_ & Hs & _); try assumption.
    + rewrite hd_scale. nia.
    + apply zeros_hd in Hs. rewrite hd_scale in Hs. nia.
Qed.

Lemma iter_nth shape strides i n : nth_error shape i = Some n -> nth_error (iter_entries shape strides) i = Some (mkmentry n (map (stride_at i) strides)).
Proof.
  intros Hn. unfold iter_entries. assert (Hi : (i < length shape)%nat) by (apply nth_error_Some; congruence).
  rewrite nth_error_map, (nth_error_nth' _ 0%nat) by (rewrite seq_length; assumption). rewrite seq_nth by assumption. cbn [option_map plus].
  rewrite (nth_error_nth _ _ 0 Hn). reflexivity.
Qed.

Lemma nth_error_rev {A} (l : list A) j : (j < length l)%nat -> nth_error (rev l) j = nth_error l (length l - S j).
Proof.
  intros Hj. destruct l as [|d l']; [cbn in Hj; lia|]. set (l := d :: l') in *.
  rewrite !(nth_error_nth' _ d) by (rewrite ?rev_length; lia). rewrite rev_nth by assumption. reflexivity.
Qed.

(** If no stride of the output is zero after flattening, the output has all dimensions except some of extent one. *)
Lemma stride_zero_dims sh st sts m : mi_make sh (st :: sts) = Ok m -> mi_has_stride_zero m = false ->
  Forall (fun n => 0 < n) sh -> flattening_safe sh (st :: sts) ->
  forall i n, nth_error sh i = Some n -> nth i st 0 = 0 -> n = 1.
Proof.
  intros Hm Hz Hpos Hs i n Hi H0. unfold mi_make in Hm.
  destruct (flatten_dims NDIM_OP_MAX 0 (vzero (length (st :: sts))) (zlen sh - 1) (rev (iter_entries sh (st :: sts))) []) as [es| |] eqn:E;
    cbn [bind] in Hm; try discriminate. injection Hm as <-.
  set (L := iter_entries sh (st :: sts)) in *. assert (HL : length L = length sh) by (unfold L, iter_entries; rewrite map_length, seq_length; reflexivity).
  assert (Hilt : (i < length sh)%nat) by (apply nth_error_Some; congruence).
  pose proof (iter_nth sh (st :: sts) i n Hi) as Hei. fold L in Hei.
  destruct (rev L) as [|e0 l] eqn:Er.
  { apply (f_equal (@length _)) in Er. rewrite rev_length in Er. cbn in Er. lia. }
  assert (Hll : length l = (length sh - 1)%nat) by (apply (f_equal (@length _)) in Er; rewrite rev_length in Er; cbn in Er; lia).
  assert (Hnz : Forall (fun e => hd 0 (me_strides e) <> 0) es).
  { destruct es as [|e es']; [constructor|]. set (es := e :: es') in *. unfold mi_has_stride_zero, mi_of_entries in Hz. cbn [es] in Hz. fold es in Hz.
    cbn [mi_ndim mi_stride] in Hz. rewrite firstn_all2 in Hz by (rewrite map_length; lia).
    rewrite Forall_forall. intros x Hx Hx0. enough (existsb (fun st0 : list Z => hd 0 st0 =? 0) (map me_strides es) = true) by congruence.
    apply existsb_exists. exists (me_strides x). split; [apply in_map; assumption|lia]. }
  cbn [flatten_dims] in E. rewrite andb_false_r in E. assert (Hcap : (NDIM_OP_MAX <=? @length mentry [])%nat = false) by reflexivity.
  rewrite Hcap in E.
  assert (He0 : hd 0 (me_strides e0) <> 0).
  { destruct (flatten_kept _ _ _ _ _ _ _ E e0 (or_introl eq_refl)) as (b & Hb & Eb). rewrite Forall_forall in Hnz. rewrite <- Eb. auto. }
  assert (Hposl : Forall (fun e => 0 < me_size e) (rev L)).
  { apply Forall_rev. rewrite Forall_forall. intros x Hx. apply In_nth_error in Hx as [j Hx].
    destruct (nth_error sh j) as [nj|] eqn:Ej.
    - unfold L in Hx. rewrite (iter_nth _ _ _ _ Ej) in Hx. injection Hx as <-. rewrite Forall_forall in Hpos. apply Hpos.
      eapply nth_error_In. eassumption.
    - exfalso. apply nth_error_None in Ej. assert (j < length L)%nat by (apply nth_error_Some; congruence). lia. }
  rewrite Er in Hposl. apply Forall_cons_iff in Hposl as [Hp0 Hposl].
  (* position of dimension i when read from the inside *)
  assert (Hrev : forall j, (j < length sh)%nat -> nth_error (e0 :: l) j = nth_error L (length sh - S j)).
  { intros j Hj. rewrite <- Er, nth_error_rev by lia. rewrite HL. reflexivity. }
  destruct (Nat.eq_dec i (length sh - 1)) as [->|Hni].
  { exfalso. specialize (Hrev 0%nat ltac:(lia)). cbn [nth_error] in Hrev. rewrite Hei in Hrev. injection Hrev as ->. apply He0. cbn. exact H0. }
  assert (Hdr : zlen sh - 1 - 1 = zlen l - 1) by (unfold zlen; lia). rewrite Hdr in E.
  pose proof (Hrev (length sh - 1 - i)%nat ltac:(lia)) as Hji. replace (length sh - S (length sh - 1 - i))%nat with i in Hji by lia.
  rewrite Hei in Hji. destruct (length sh - 1 - i)%nat as [|j] eqn:Ej; [lia|]. cbn [nth_error] in Hji.
  destruct (flatten_zero NDIM_OP_MAX es Hnz l [e0] (vzero (length (st :: sts))) ltac:(discriminate)) with (j := j) (e := mkmentry n (map (stride_at i) (st :: sts)))
    as (Hjl & _ & Hall); try assumption.
  { intros _. unfold zeros, vzero. apply Forall_forall. intros x Hx. apply repeat_spec in Hx. assumption. }
  assert (Hi0 : (0 < i)%nat) by (unfold zlen in Hjl; lia).
  destruct Hs as [Hs|Hs].
  - exfalso. specialize (Hrev 0%nat ltac:(lia)). cbn [nth_error] in Hrev.
    destruct (nth_error sh (length sh - 1)) as [n0|] eqn:En; [|apply nth_error_None in En; lia].
    unfold L in Hrev. rewrite (iter_nth _ _ _ _ En) in Hrev. injection Hrev as ->. apply He0. cbn. apply (Hs st). left. reflexivity.
  - rewrite <- (nth_error_nth _ _ 0 Hi). apply Hs; [lia|]. intros d Hd x Hx.
    specialize (Hrev (length sh - 1 - d)%nat ltac:(lia)). replace (length sh - S (length sh - 1 - d))%nat with d in Hrev by lia.
    destruct (nth_error sh d) as [nd|] eqn:Ed; [|apply nth_error_None in Ed; lia].
    unfold L in Hrev. rewrite (iter_nth _ _ _ _ Ed) in Hrev. destruct (length sh - 1 - d)%nat as [|q] eqn:Eqd; [lia|]. cbn [nth_error] in Hrev.
    specialize (Hall q _ ltac:(lia) Hrev). cbn [me_strides] in Hall. unfold zeros in Hall. rewrite Forall_forall in Hall.
    apply (Hall (stride_at d x)). apply in_map. assumption.
Qed.

(** ** Reductions *)
Lemma backed_stride a k : wfv (a_var a) -> backed a k -> fstride a k <> 0.
Proof.
  intros Hw (i & s & Hi & Hs & Hne). rewrite (wfv_strides a Hw), nth_error_map, Hi in Hs. cbn in Hs. injection Hs as <-. assumption.
Qed.
Lemma nth_labels d i n : wf d -> nth_error (shape d) i = Some n -> exists k, nth_error (labels d) i = Some k /\ has d k n.
Proof.
  intros Hd Hi. rewrite shape_extents in Hi by assumption. rewrite labels_keys by assumption. unfold extents, keys in *.
  rewrite nth_error_map in *. destruct (nth_error (pairs d) i) as [[k m]|] eqn:E; cbn in *; [|discriminate]. injection Hi as ->.
  exists k. split; [reflexivity|]. unfold has. eapply nth_error_In. eassumption.
Qed.
Lemma all_backed_safe m ops : wf m -> Forall (fun a => wfv (a_var a)) ops -> union_of (map a_dims ops) m -> all_backed ops ->
  flattening_safe (shape m) (map (fun a => map (fstride a) (labels m)) ops).
Proof.
  intros Hm Hw Hu Hb. right. intros i Hi Hz.
  destruct (nth_error (shape m) i) as [n|] eqn:En; [|apply nth_error_None in En; lia].
  rewrite (nth_error_nth _ _ 0 En). destruct (Z.eq_dec n 1) as [|Hne]; [assumption|exfalso].
  destruct (nth_labels m i n Hm En) as (k & Hk & Hh). destruct (proj1 (Hu k n) Hh) as (e & He & Hhe).
  apply in_map_iff in He as (a & <- & Ha). destruct (Hb a k n Ha Hhe Hne) as (b & Hbin & Hbk).
  rewrite Forall_forall in Hw. apply (backed_stride b k (Hw b Hbin) Hbk).
  specialize (Hz i ltac:(lia) (map (fstride b) (labels m)) (in_map (fun a => map (fstride a) (labels m)) _ _ Hbin)).
  rewrite (nth_error_nth (map (fstride b) (labels m)) i 0 (x := fstride b k)) in Hz; [assumption|]. rewrite nth_error_map, Hk. reflexivity.
Qed.

Lemma opcell_eqb m out j ix : wf m -> fits m out -> distinct_elements out -> inside (a_dims out) ix -> 0 <= j < volume m ->
  cell_eqb (opcell m j out) (a_buf out, vaddr (a_var out) ix) = forallb (fun l => index_of m j l =? ix l) (labels (a_dims out)).
Proof.
  intros Hm Hf Hdist Hix Hj. pose proof (proj1 (proj1 Hf)) as Hwo.
  assert (Hin : inside (a_dims out) (index_of m j)).
  { intros k n Hin. apply (inside_index_of m j Hm Hj). apply Hf. assumption. }
  apply eq_true_iff_eq. rewrite cell_eqb_spec, forallb_forall. unfold opcell. split.
  - intros E l Hl. injection E as E. apply Z.eqb_eq. apply (Hdist _ _ Hin Hix E). fold (a_dims out) in Hwo. rewrite <- labels_keys by assumption. assumption.
  - intros Hall. f_equal. apply (vaddr_same (a_dims out)); [assumption| |].
    + split; [apply Hf|auto].
    + intros l Hl. apply Z.eqb_eq, Hall. fold (a_dims out) in Hwo. rewrite labels_keys by assumption. assumption.
Qed.

Lemma filter_map {X Y} (g : X -> Y) p l : filter p (map g l) = map g (filter (fun x => p (g x)) l).
Proof. induction l as [|x l IH]; [reflexivity|]. cbn. destruct (p (g x)); cbn; rewrite IH; reflexivity. Qed.
Lemma fold_left_map {X Y Z} (g : X -> Y) (f : Z -> Y -> Z) l : forall a, fold_left f (map g l) a = fold_left (fun a x => f a (g x)) l a.
Proof. induction l as [|x l IH]; intros a; [reflexivity|]. cbn. apply IH. Qed.
Lemma filter_single {X} (p : X -> bool) l x : NoDup l -> In x l -> p x = true -> (forall y, In y l -> p y = true -> y = x) -> filter p l = [x].
Proof.
  induction 1 as [|y l Hni Hnd IH]; intros Hin Hp Hu; [destruct Hin|]. cbn. destruct (p y) eqn:Ey.
  - assert (y = x) as -> by (apply Hu; cbn; auto). f_equal.
    destruct (filter p l) as [|z q] eqn:Ef; [reflexivity|]. exfalso. assert (In z (filter p l)) as Hz by (rewrite Ef; left; reflexivity).
    apply filter_In in Hz as [Hz Hpz]. apply Hni. rewrite <- (Hu z); cbn; auto.
  - destruct Hin as [->|Hin]; [congruence|]. apply IH; auto. intros z Hz. apply Hu. right. assumption.
Qed.
Lemma filter_ext_in' {X} (p q : X -> bool) l : (forall x, In x l -> p x = q x) -> filter p l = filter q l.
Proof. induction l as [|x l IH]; intros Hx; [reflexivity|]. cbn. rewrite (Hx x), IH by (cbn; auto; intros; apply Hx; right; assumption). reflexivity. Qed.

Theorem reduce_correct {A} (f : list A -> A) h out others tmp blocks h1 ps (h' : heap A) :
  Forall (fun a => wfv (a_var a)) (out :: others) -> distinct_elements out -> all_backed (out :: others) ->
  (forall b, In b others -> a_buf b <> a_buf out) -> (forall d, wf d -> tiles 0 (volume d) (blocks d)) ->
  transform_data f h out others tmp blocks = Ok (h1, ps) -> may_end h1 ps h' ->
  exists m, wf m /\ union_of (map a_dims (out :: others)) m /\
  (forall ix, inside (a_dims out) ix -> value_at h' out ix =
     fold_left (fun acc jx => f (acc :: map (fun a => value_at h a jx) others)) (agreeing m (a_dims out) ix) (value_at h out ix)) /\
  (forall c, ~ cell_of out c -> h' c = h c).
Proof.
  intros Hw Hdist Hback Hbuf Ht E Hend. unfold transform_data in E.
  destruct (expect_writable (a_var out)) as [u| |]; cbn [bind] in E; try discriminate.
  assert (Hov : existsb (overlaps out) others = false).
  { apply not_true_iff_false. intros Hx. apply existsb_exists in Hx as (b & Hb & Hx). unfold overlaps in Hx.
    apply andb_prop in Hx as [Hx _]. apply Nat.eqb_eq in Hx. apply (Hbuf b Hb). congruence. }
  unfold handle_overlap in E. rewrite Hov in E. cbn [bind] in E.
  destruct (merge_all (a_dims out) (map a_dims others)) as [m| |] eqn:Em; cbn [bind] in E; try discriminate.
  pose proof (Forall_wf _ Hw) as Hwd. cbn [map] in Hwd. apply Forall_cons_iff in Hwd as [Hwo Hwi].
  destruct (merge_all_ok _ _ _ Hwo Hwi Em) as (Hm & Hu & _). change (a_dims out :: map a_dims others) with (map a_dims (out :: others)) in Hu.
  assert (Hfits : Forall (fits m) (out :: others)).
  { apply (Forall_fits (map a_dims (out :: others))); [exact Hu| |assumption]. intros a Ha. apply in_map. assumption. }
  pose proof (redims_ok m (out :: others) Hm Hfits) as Hrd.
  rewrite Hrd in E. cbn [bind] in E. set (sts := map (fun a => map (fstride a) (labels m)) (out :: others)) in *.
  destruct (mi_make (shape m) sts) as [mi| |] eqn:Emi; cbn [bind] in E; try discriminate.
  destruct (in_place_programs f (out :: others) mi (volume m) (blocks m)) as [ps'| |] eqn:Eps; cbn [bind] in E; try discriminate.
  injection E as <- <-.
  assert (Hsafe : flattening_safe (shape m) sts) by (apply all_backed_safe; assumption).
  exists m. split; [assumption|]. split; [assumption|].
  pose proof (proj1 (Forall_cons_iff _ _ _) Hfits) as [Hfo Hfi].
  set (oc := fun k => opcell m k out). set (oth := fun k => map (opcell m k) others).
  assert (Hsep : forall j k, ~ In (oc j) (oth k)).
  { intros j k Hin. apply in_map_iff in Hin as (b & Eb & Hb). unfold oc, opcell in Eb. injection Eb as Eb _. apply (Hbuf b Hb). assumption. }
  assert (Hv0 : 0 <= volume m) by (rewrite volume_vol; apply vol_nonneg, Hm).
  assert (Hmap : forall (hh : heap A) k, map hh (oth k) = map (fun a => value_at hh a (index_of m k)) others) by (intros; apply map_map_cells).
  (* the reduction, given the fold over the calls *)
  assert (Hgoal : (forall c, h' c = fold_left (fun acc k => f (acc :: map h (oth k))) (filter (fun k => cell_eqb (oc k) c) (zseq 0 (Z.to_nat (volume m)))) (h c)) ->
    (forall ix, inside (a_dims out) ix -> value_at h' out ix =
     fold_left (fun acc jx => f (acc :: map (fun a => value_at h a jx) others)) (agreeing m (a_dims out) ix) (value_at h out ix)) /\
    (forall c, ~ cell_of out c -> h' c = h c)).
  { intros Hc. split.
    - intros ix Hix. unfold value_at at 1. rewrite Hc. unfold agreeing, indices. rewrite filter_map, fold_left_map.
      rewrite (filter_ext_in' (fun k => cell_eqb (oc k) (a_buf out, vaddr (a_var out) ix)) (fun x => forallb (fun l => index_of m x l =? ix l) (labels (a_dims out)))).
      + fold (value_at h out ix). generalize (value_at h out ix). generalize (filter (fun x => forallb (fun l => index_of m x l =? ix l) (labels (a_dims out))) (zseq 0 (Z.to_nat (volume m)))).
        induction l as [|k l IH]; intros a; [reflexivity|]. cbn [fold_left]. rewrite IH, Hmap. reflexivity.
      + intros k Hk. apply zseq_In in Hk. apply opcell_eqb; try assumption. lia.
    - intros c Hnc. rewrite Hc. replace (filter (fun k => cell_eqb (oc k) c) (zseq 0 (Z.to_nat (volume m)))) with (@nil Z); [reflexivity|].
      symmetry. destruct (filter (fun k => cell_eqb (oc k) c) (zseq 0 (Z.to_nat (volume m)))) as [|k q] eqn:Ef; [reflexivity|]. exfalso.
      assert (In k (filter (fun k => cell_eqb (oc k) c) (zseq 0 (Z.to_nat (volume m))))) as Hk by (rewrite Ef; left; reflexivity).
      apply filter_In in Hk as [Hk Ec]. apply zseq_In in Hk. apply cell_eqb_spec in Ec. apply Hnc. exists (index_of m k). split; [|symmetry; exact Ec].
      intros x n Hx. apply (inside_index_of m k Hm); [lia|]. apply Hfo. assumption. }
  apply Hgoal. clear Hgoal. intros c.
  unfold in_place_programs in Eps. destruct (mi_has_stride_zero mi) eqn:Ez.
  - rewrite (serial_ok (call_in_place f) m) in Eps by (try assumption; intros; assumption). injection Eps as <-.
    destruct Hend as (sched & Hfin & <-). cbn [map] in *.
    set (prog0 := flat_map (fun k => call_in_place f (map (opcell m k) (out :: others))) (zseq 0 (Z.to_nat (volume m)))) in *.
    assert (Hind : independent [prog0]).
    { intros t u0 x Htu Hwr. unfold prog in Hwr. destruct t as [|t]; [|destruct t; cbn in Hwr; destruct Hwr as (? & [] & _)].
      destruct u0 as [|u0]; [congruence|]. unfold prog. destruct u0; intros (? & [] & _). }
    destruct (noninterference h [prog0] sched Hind Hfin) as [Hrun Hun].
    assert (Hprog : prog0 = flat_map (kcall f oc (fun k => oc k :: oth k)) (zseq 0 (Z.to_nat (volume m)))) by reflexivity.
    destruct (solo_reduce f oc oth (zseq 0 (Z.to_nat (volume m))) h (fun j k _ _ => Hsep j k)) as [_ Hsolo]. rewrite <- Hprog in Hsolo.
    destruct (writes_dec prog0 c) as [Hwr|Hnw].
    + etransitivity; [exact (Hrun 0%nat c (writes_touches _ _ Hwr))|]. apply Hsolo.
    + etransitivity; [apply (Hun c)|rewrite <- Hsolo; symmetry; exact (solo_unwritten prog0 (h, []) c Hnw)]. intros [|t]; [assumption|].
      unfold prog. destruct t; intros (? & [] & _).
  - assert (Hdec : volume m = 0 \/ 0 < volume m) by lia. destruct Hdec as [Hv|Hv].
    { rewrite (block_programs_ok _ m) in Eps by (try assumption; try (apply Ht; assumption); intros; assumption). injection Eps as <-. rewrite Hv. cbn [Z.to_nat zseq seq map filter fold_left].
      destruct (tiles_concat _ _ _ (Ht m Hm)) as [_ Hc]. rewrite Hv in Hc. cbn in Hc.
      destruct Hend as (sched & Hfin & <-). assert (Hnone : forall t x, ~ touches (prog (map (fun ks => flat_map (fun k => call_in_place f (map (opcell m k) (out :: others))) ks) (ks_of (blocks m))) t) x).
      { intros t x (i & Hi & _). unfold prog in Hi. change (@nil (instr A)) with ((fun ks : list Z => flat_map (fun k => call_in_place f (map (opcell m k) (out :: others))) ks) []) in Hi.
        rewrite map_nth in Hi. apply in_flat_map in Hi as (k & Hk & _). apply nth_in_concat in Hk. rewrite Hc in Hk. destruct Hk. }
      destruct (noninterference h _ sched (fun t u0 x _ Hx => fun _ => Hnone t x (writes_touches _ _ Hx)) Hfin) as [_ Hun].
      apply Hun. intros t Hx. apply (Hnone t c). apply writes_touches. assumption. }
    assert (Hpos : Forall (fun n => 0 < n) (shape m)) by (apply vol_pos_all; [apply Hm|rewrite <- volume_vol; assumption]).
    assert (Hone : one_cell_each m out).
    { intros ix ix' Hix Hix' Ea k Hk.
      destruct (in_dec Z.eq_dec k (labels (a_dims out))) as [Hin|Hnin].
      - apply (Hdist ix ix'); [intros x n Hx; apply Hix; apply Hfo; assumption|intros x n Hx; apply Hix'; apply Hfo; assumption|assumption|].
        rewrite <- labels_keys by apply Hwo. assumption.
      - apply In_keys in Hk as [n Hn]. assert (n = 1) as ->.
        { apply In_nth_error in Hn as [i Hn]. apply (stride_zero_dims (shape m) (map (fstride out) (labels m)) (map (fun a => map (fstride a) (labels m)) others) mi Emi Ez Hpos Hsafe i).
          - rewrite shape_extents by assumption. unfold extents. rewrite nth_error_map, Hn. reflexivity.
          - assert (Hki : nth_error (labels m) i = Some k) by (rewrite labels_keys by assumption; unfold keys; rewrite nth_error_map, Hn; reflexivity).
            rewrite (nth_error_nth (map (fstride out) (labels m)) i 0 (x := fstride out k)) by (rewrite nth_error_map, Hki; reflexivity).
            unfold fstride. apply mem_nIn in Hnin. rewrite Hnin. reflexivity. }
        specialize (Hix k 1 Hn). specialize (Hix' k 1 Hn). lia. }
    rewrite (block_programs_ok _ m) in Eps by (try assumption; try (apply Ht; assumption); intros; assumption). injection Eps as <-.
    destruct (tiles_concat _ _ _ (Ht m Hm)) as [_ Hc]. rewrite Z.sub_0_r in Hc.
    destruct (elementwise f m out (out :: others) (ks_of (blocks m)) h h') as [Hval Hun]; try assumption.
    { intros j k a Hj Hk [<-|Ha] Ec; [assumption|]. exfalso. apply (Hsep j k). apply in_map_iff. exists a. split; [symmetry; exact Ec|assumption]. }
    destruct (in_dec cell_dec c (map oc (zseq 0 (Z.to_nat (volume m))))) as [Hin|Hnin].
    + apply in_map_iff in Hin as (k & <- & Hk). pose proof (proj1 (zseq_In _ _ _) Hk) as Hkb.
      rewrite (filter_single _ _ k); try assumption.
      * cbn [fold_left]. pose proof (Hval (index_of m k) (inside_index_of m k Hm ltac:(lia))) as Hvk. cbn [map] in Hvk. rewrite Hmap. exact Hvk.
      * apply zseq_NoDup.
      * apply cell_eqb_refl.
      * intros j Hj Ej. apply cell_eqb_spec in Ej. apply zseq_In in Hj. apply (index_of_inj m); try assumption; try lia.
        apply Hone; try (apply inside_index_of; [assumption|lia]). unfold oc, opcell in Ej. congruence.
    + rewrite Hun.
      * replace (filter (fun k => cell_eqb (oc k) c) (zseq 0 (Z.to_nat (volume m)))) with (@nil Z); [reflexivity|].
        symmetry. destruct (filter (fun k => cell_eqb (oc k) c) (zseq 0 (Z.to_nat (volume m)))) as [|k q] eqn:Ef; [reflexivity|]. exfalso.
        assert (In k (filter (fun k => cell_eqb (oc k) c) (zseq 0 (Z.to_nat (volume m))))) as Hk by (rewrite Ef; left; reflexivity).
        apply filter_In in Hk as [Hk Ec]. apply cell_eqb_spec in Ec. apply Hnin. rewrite <- Ec. apply in_map. assumption.
      * intros ix Hix ->. apply Hnin. destruct (index_of_inside m ix Hm Hix) as (k & Hk & Hs). apply in_map_iff. exists k. split.
        -- unfold oc, opcell. f_equal. apply (vaddr_same m); assumption.
        -- apply zseq_In. lia.
Qed.
