(** Proofs about the structure of datasets. *)
From Coq Require Import Sorting.Sorted.
From Verif Require Import Base Map_Model Map_Spec Map_Proofs Dims_Model Dims_Spec Dims_Proofs View_Model View_Spec View_Proofs SizedDict_Model SizedDict_Spec SizedDict_Proofs
  Equality_Model Equality_Spec Equality_Proofs Union_Model Union_Spec Union_Proofs Dataset_Model Dataset_Spec.

(** ** Shapes *)
Lemma same_shape_refl p : same_shape p p.
Proof. intros k n. reflexivity. Qed.
Lemma same_shape_sym p q : same_shape p q -> same_shape q p.
Proof. intros Hs k n. symmetry. apply Hs. Qed.
Lemma same_shape_trans p q r : same_shape p q -> same_shape q r -> same_shape p r.
Proof. intros Hs Ht k n. rewrite (Hs k n). apply Ht. Qed.
Lemma same_shape_keys p q : same_shape p q -> forall k, In k (keys p) <-> In k (keys q).
Proof. intros Hs k. rewrite !In_keys. split; intros [n Hn]; exists n; apply Hs; exact Hn. Qed.

Lemma sizes_eqb_shape a b : wf a -> wf b -> sizes_eqb a b = true <-> same_shape (pairs a) (pairs b).
Proof.
  intros Ha Hb. destruct (wf_mk_pairs a Ha) as [Ea La]. destruct (wf_mk_pairs b Hb) as [Eb Lb].
  set (p := pairs a) in *. set (q := pairs b) in *. clearbody p q. subst a b. clear Ha Hb.
  assert (Hdat : forall r k n, lwf r -> In (k, n) r -> dat (mk r) k = Ok n).
  { intros r k n Hr Hi. rewrite dat_mk by apply Hr. apply (extent_In r k n (proj1 Hr)) in Hi. rewrite Hi. reflexivity. }
  unfold sizes_eqb. change (m_keys (mk p)) with (keys p). change (m_keys (mk q)) with (keys q).
  rewrite andb_true_iff, Z.eqb_eq, forallb_forall. split.
  - intros [Hl Hall]. assert (Hpq : forall k n, In (k, n) p -> In (k, n) q).
    { intros k n Hi. assert (Hk : In k (keys p)) by (apply In_keys; eauto). specialize (Hall k Hk). rewrite (Hdat p k n La Hi) in Hall.
      destruct (in_dec Z.eq_dec k (keys q)) as [Hq|Hq].
      - apply In_keys in Hq as [m Hm]. rewrite (Hdat q k m Lb Hm) in Hall. apply andb_true_iff in Hall as [_ Hall]. apply Z.eqb_eq in Hall. subst. exact Hm.
      - exfalso. destruct (dat (mk q) k); try discriminate. apply andb_true_iff in Hall as [Hall _]. rewrite dcontains_mk in Hall.
        apply mem_In in Hall. contradiction. }
    intros k n. split; [apply Hpq|]. intros Hi.
    assert (Hinc : incl (keys q) (keys p)).
    { apply NoDup_length_incl; [apply La|unfold zlen in Hl; lia|]. intros e He. apply In_keys in He as [m Hm]. apply In_keys. exists m. apply Hpq, Hm. }
    assert (Hk : In k (keys p)) by (apply Hinc, In_keys; eauto). apply In_keys in Hk as [m Hm].
    rewrite (In_unique q k n m (proj1 Lb) Hi (Hpq k m Hm)). exact Hm.
  - intros Hs. pose proof (same_shape_keys _ _ Hs) as Hk. split.
    + unfold zlen. f_equal. apply Nat.le_antisymm; apply NoDup_incl_length; try apply La; try apply Lb; intros e He; apply Hk; exact He.
    + intros k Hi. apply In_keys in Hi as [n Hn]. rewrite (Hdat p k n La Hn), (Hdat q k n Lb (proj1 (Hs k n) Hn)).
      rewrite dcontains_mk, Z.eqb_refl. replace (mem k (keys q)) with true; [reflexivity|]. symmetry. apply mem_In, Hk, In_keys. eauto.
Qed.

(** ** Parts *)
Lemma ds_items d : ds_ok d -> ds_data d = mkd (ds_list d) /\ NoDup (map fst (ds_list d)).
Proof.
  intros (_ & _ & Hn & Hl & _). unfold ds_list. pose proof (mkd_ditems _ Hl) as E. split; [symmetry; exact E|].
  rewrite <- E in Hn. exact Hn.
Qed.
Lemma ds_list_mk c l r v : ds_list (mkds c (mkd l) r v) = l.
Proof. apply ditems_mkd. Qed.
Lemma ds_ok_mk c l r v : sd_ok c -> dict_comparable c -> NoDup (map fst l) ->
  (forall k a, In (k, a) l -> da_ok a /\ da_comparable a /\ sd_list (da_coords a) = [] /\ same_shape (da_shape a) (sd_shape c)) ->
  (r = false -> sd_readonly c = false) -> (v = false -> r = false /\ sd_shape c = [] /\ sd_list c = [] /\ l = []) -> ds_ok (mkds c (mkd l) r v).
Proof.
  intros Hc Hcc Hn Hf Hr Hv. split; [exact Hc|]. split; [exact Hcc|]. cbn [ds_data ds_coords ds_readonly ds_valid].
  split; [exact Hn|]. split; [cbn; rewrite !map_length; reflexivity|]. unfold item_fits, ds_shape. rewrite ds_list_mk. cbn [ds_coords]. auto.
Qed.

Lemma dict_comp sz l ro : NoDup (map fst l) -> (forall k i, In (k, i) l -> comparable i) -> dict_comparable (mksd sz (mkd l) ro).
Proof.
  intros Hn Hc. split; [exact Hn|]. split; [cbn; rewrite !map_length; reflexivity|]. rewrite sd_list_mk. exact Hc.
Qed.
Lemma comparable_const it : comparable it -> comparable (with_var it (var_as_const (i_var it))).
Proof. intros Hc. exact Hc. Qed.

Lemma da_plain_ok v : comparable v -> da_ok (da_plain v) /\ da_comparable (da_plain v) /\ sd_list (da_coords (da_plain v)) = [].
Proof.
  intros [Hw Hr]. assert (Hs : sd_ok (mksd (i_dims v) (mkd []) false)).
  { apply sd_ok_mk; [apply Hw|constructor|intros ? ? []]. }
  assert (Hd : dict_comparable (mksd (i_dims v) (mkd []) false)) by (apply dict_comp; [constructor|intros ? ? []]).
  unfold da_ok, da_comparable, da_plain. cbn [da_data da_coords da_masks da_attrs sd_sizes].
  change (@mempty Z item) with (@mkd item []). split; [|split].
  - auto 10.
  - split; [split; assumption|]. auto.
  - reflexivity.
Qed.

(** ** Items as seen by the user *)
Lemma within_applies p it : lwf p -> wfv (i_var it) -> item_applies_to it (mk p) = within p it.
Proof.
  intros Hp (Hw & _). unfold item_applies_to, within. destruct (wf_mk_pairs _ Hw) as [E _]. unfold ishape, i_dims.
  set (q := pairs (v_dims (i_var it))) in *. clearbody q. rewrite E. change (labels (mk q)) with (keys q). unfold keys. clear E.
  induction q as [|[k n] q IH]; [reflexivity|]. cbn [map forallb fst]. rewrite <- IH, dcontains_mk. reflexivity.
Qed.
Lemma select_ok p l : lwf p -> forall acc, NoDup (map fst (acc ++ l)) -> (forall k it, In (k, it) l -> wfv (i_var it)) ->
  select_coords (mk p) (mkd acc) l = Ok (mkd (acc ++ map as_const (filter (fun e => within p (snd e)) l))).
Proof.
  intros Hp. induction l as [|[k it] l IH]; intros acc Hn Hw; cbn [select_coords filter snd].
  - cbn [map]. rewrite app_nil_r. reflexivity.
  - assert (Hk : ~ In k (map fst acc)).
    { rewrite map_app in Hn. cbn [map fst] in Hn. apply NoDup_remove_2 in Hn. intros Hk. apply Hn, in_or_app. auto. }
    rewrite (within_applies p it Hp (Hw k it (or_introl eq_refl))). destruct (within p it); cbn [map].
    + rewrite insert_new by exact Hk. cbn [bind]. rewrite IH; [rewrite <- app_assoc; reflexivity| |intros k0 it0 Hi; apply (Hw k0); right; exact Hi].
      rewrite !map_app in *. cbn [map fst as_const app]. rewrite <- app_assoc. exact Hn.
    + cbn [bind]. apply IH; [|intros k0 it0 Hi; apply (Hw k0); right; exact Hi].
      rewrite map_app in *. cbn [map fst] in Hn. apply NoDup_remove_1 in Hn. exact Hn.
Qed.
Lemma filter_keys {A} (f : Z * A -> bool) l : NoDup (map fst l) -> NoDup (map fst (filter f l)).
Proof.
  induction l as [|[k x] l IH]; cbn [filter map fst]; intros Hn; [constructor|]. apply NoDup_cons_iff in Hn as [Hk Hn].
  destruct (f (k, x)); [|apply IH, Hn]. cbn [map fst]. constructor; [|apply IH, Hn]. intros Hi. apply Hk.
  apply in_map_iff in Hi as (e & <- & He). apply filter_In in He as [He _]. apply in_map. exact He.
Qed.
Lemma within_same p q it : same_shape p q -> within p it = within q it.
Proof.
  intros Hs. unfold within. induction (ishape it) as [|[k n] r IH]; [reflexivity|]. cbn [forallb fst]. rewrite IH. f_equal.
  apply eq_true_iff_eq. change (mem k (keys p) = true <-> mem k (keys q) = true). rewrite !mem_In. apply same_shape_keys, Hs.
Qed.

Lemma seen_ok d k a : ds_ok d -> In (k, a) (ds_list d) ->
  exists w, ds_item d k = Ok w /\ da_ok w /\ da_comparable w /\ da_data w = da_data a /\ da_masks w = da_masks a /\ da_attrs w = da_attrs a /\
    sd_list (da_coords w) = map as_const (filter (fun e => within (ds_shape d) (snd e)) (sd_list (ds_coords d))) /\
    sd_readonly (da_coords w) = true /\ da_readonly w = ds_readonly d.
Proof.
  intros Hd Hi. destruct (ds_items d Hd) as [Ed Hn]. pose proof Hd as (Hc & Hcc & _ & _ & Hf & _).
  destruct (Hf k a Hi) as (Ha & Hac & _ & Hsh). unfold ds_item. rewrite Ed, (at_In _ _ _ _ Hn Hi). cbn [bind]. unfold view_with_coords.
  pose proof Ha as (Hw & _). destruct (wf_mk_pairs _ (proj1 Hw)) as [Ev Lv]. change (pairs (v_dims (i_var (da_data a)))) with (da_shape a) in Ev, Lv.
  change (v_dims (i_var (da_data a))) with (i_dims (da_data a)) in Ev. rewrite Ev.
  apply sd_ok_alt in Hc as (_ & Ec & Hnc & Hfc). change (ditems (sd_items (ds_coords d))) with (sd_list (ds_coords d)).
  change (@mempty Z item) with (@mkd item []).
  rewrite (select_ok (da_shape a) (sd_list (ds_coords d)) Lv []) by (try exact Hnc; intros k0 it0 Hi0; apply (Hfc k0 it0 Hi0)). cbn [app bind].
  set (sel := map as_const (filter (fun e => within (da_shape a) (snd e)) (sd_list (ds_coords d)))).
  assert (Esel : sel = map as_const (filter (fun e => within (ds_shape d) (snd e)) (sd_list (ds_coords d)))).
  { unfold sel. f_equal. apply filter_ext. intros e. apply within_same, Hsh. }
  assert (Hns : NoDup (map fst sel)).
  { unfold sel. rewrite map_map. cbn [as_const fst]. apply filter_keys, Hnc. }
  assert (Hsel : forall k0 it0, In (k0, it0) sel -> item_ok it0 /\ fits (da_shape a) (ishape it0) /\ comparable it0).
  { intros k0 it0 H0. unfold sel in H0. apply in_map_iff in H0 as ([k1 it1] & E1 & H0). apply filter_In in H0 as [H0 _].
    unfold as_const in E1. cbn [fst snd] in E1. injection E1 as <- <-. destruct (Hfc k1 it1 H0) as [Hio Hfi]. split; [exact Hio|]. split.
    - apply (fits_same_shape (ds_shape d)); [apply same_shape_sym, Hsh|exact Hfi].
    - apply comparable_const. apply (proj2 (proj2 Hcc) k1 it1 H0). }
  assert (Hfs : forall k0 it0, In (k0, it0) sel -> item_ok it0 /\ fits (pairs (mk (da_shape a))) (ishape it0)).
  { rewrite pairs_mk. intros k0 it0 H0. destruct (Hsel k0 it0 H0) as (H1 & H2 & _). auto. }
  rewrite (sd_make_ok (mk (da_shape a)) sel true (wf_mk _ Lv) Hns Hfs). cbn [bind]. eexists. split; [reflexivity|].
  unfold da_ok, da_comparable. cbn [da_data da_coords da_masks da_attrs da_readonly sd_sizes sd_readonly].
  destruct Ha as (_ & _ & Em & Et & _ & Hm & Ht). destruct Hac as (Hda & _ & Hma & Hta).
  split; [|split; [|rewrite sd_list_mk; auto 10]].
  - split; [exact Hw|]. split; [symmetry; exact Ev|]. split; [exact Em|]. split; [exact Et|]. split; [|auto].
    apply sd_ok_mk; [apply wf_mk, Lv|exact Hns|exact Hfs].
  - split; [exact Hda|]. split; [|auto]. apply dict_comp; [exact Hns|]. intros k0 it0 H0. apply (Hsel k0 it0 H0).
Qed.
Lemma seen_iff d k w : ds_ok d -> ds_item d k = Ok w -> seen d k w.
Proof.
  intros Hd E. destruct (ds_items d Hd) as [Ed Hn]. destruct (in_dec Z.eq_dec k (map fst (ds_list d))) as [Hk|Hk].
  - apply in_keys_ex in Hk as [a Hi]. destruct (seen_ok d k a Hd Hi) as (w' & E' & Hw & _ & Hr). rewrite E' in E. injection E as <-.
    split; [exact Hw|]. exists a. split; [exact Hi|exact Hr].
  - exfalso. unfold ds_item in E. rewrite Ed, at_no in E by exact Hk. discriminate.
Qed.
Lemma seen_unique d k w w' : ds_ok d -> seen d k w -> seen d k w' -> da_data w = da_data w' /\ da_masks w = da_masks w' /\ da_attrs w = da_attrs w' /\
  sd_list (da_coords w) = sd_list (da_coords w').
Proof.
  intros Hd (_ & a & Hi & E1 & E2 & E3 & E4 & _) (_ & b & Hj & F1 & F2 & F3 & F4 & _). destruct (ds_items d Hd) as [_ Hn].
  rewrite (list_unique _ _ _ _ Hn Hi Hj) in *. repeat split; congruence.
Qed.

(** ** Inserting *)
Lemma insert_put {A} (l : list (Z * A)) k x : NoDup (map fst l) ->
  exists l', dinsert_or_assign Z.eqb (mkd l) k x = Ok (mkd l') /\ put_item l k x l' /\ NoDup (map fst l') /\
    forall k' y, In (k', y) l' <-> (k' = k /\ y = x) \/ (k' <> k /\ In (k', y) l).
Proof.
  intros Hn. destruct (in_dec Z.eq_dec k (map fst l)) as [Hk|Hk].
  - apply in_keys_split in Hk as (l1 & v & l2 & ->). exists (l1 ++ (k, x) :: l2). split; [apply insert_old; exact Hn|]. split; [right; eauto|].
    split; [rewrite map_app in *; exact Hn|]. rewrite map_app in Hn. cbn [map fst] in Hn. apply NoDup_remove_2 in Hn.
    intros k' y. rewrite !in_app_iff. cbn [In]. split.
    + intros [Hi|[E|Hi]].
      * right. split; [|auto]. intros ->. apply Hn, in_or_app. left. apply (in_map fst) in Hi. exact Hi.
      * injection E as <- <-. auto.
      * right. split; [|auto]. intros ->. apply Hn, in_or_app. right. apply (in_map fst) in Hi. exact Hi.
    + intros [[-> ->]|[Hne [Hi|[E|Hi]]]]; auto. injection E as E _. congruence.
  - exists (l ++ [(k, x)]). split; [apply insert_new; exact Hk|]. split; [left; auto|]. split; [rewrite map_app; apply NoDup_snoc; assumption|].
    intros k' y. rewrite in_app_iff. cbn [In]. split.
    + intros [Hi|[E|[]]].
      * right. split; [|exact Hi]. intros ->. apply Hk. apply (in_map fst) in Hi. exact Hi.
      * injection E as <- <-. auto.
    + intros [[-> ->]|[_ Hi]]; auto.
Qed.
Lemma put_put {A} (l l' : list (Z * A)) k x y l'' : NoDup (map fst l) -> put_item l k x l' -> put_item l' k y l'' -> put_item l k y l''.
Proof.
  intros Hn [[Hk ->]|(l1 & z & l2 & -> & ->)] Hp.
  - left. split; [exact Hk|]. destruct Hp as [[Hk' _]|(m1 & w & m2 & E & ->)].
    + exfalso. apply Hk'. rewrite map_app. apply in_or_app. right. left. reflexivity.
    + assert (Hm : m1 = l /\ m2 = []) .
      { clear -E Hk. revert m1 E. induction l as [|[a b] l IH]; intros [|[c e] m1] E; cbn [app] in E.
        - injection E as _ E. auto.
        - injection E as _ _ E. destruct m1; discriminate.
        - exfalso. injection E as -> _ _. apply Hk. left. reflexivity.
        - injection E as <- <- E. destruct (IH (fun Hx => Hk (or_intror Hx)) m1 E) as [-> ->]. auto. }
      destruct Hm as [-> ->]. reflexivity.
  - right. exists l1, z, l2. split; [reflexivity|]. destruct Hp as [[Hk' _]|(m1 & w & m2 & E & ->)].
    + exfalso. apply Hk'. rewrite map_app. apply in_elt.
    + assert (Hm : m1 = l1 /\ m2 = l2).
      { clear -E Hn. revert m1 E Hn. induction l1 as [|[a b] l1 IH]; intros [|[c e] m1] E Hn; cbn [app] in E.
        - injection E as _ E. auto.
        - exfalso. injection E as <- _ ->. cbn [map fst app] in Hn. apply NoDup_cons_iff in Hn as [Hni _]. apply Hni. rewrite map_app. apply in_elt.
        - exfalso. injection E as -> _ _. cbn [map fst app] in Hn. apply NoDup_cons_iff in Hn as [Hni _]. apply Hni. rewrite map_app. apply in_elt.
        - injection E as <- <- E. cbn [map fst app] in Hn. apply NoDup_cons_iff in Hn as [_ Hn]. destruct (IH m1 E Hn) as [-> ->]. auto. }
      destruct Hm as [-> ->]. reflexivity.
Qed.

Definition item_good (p : list (Dim * Z)) (a : darray) : Prop :=
  da_ok a /\ da_comparable a /\ sd_list (da_coords a) = [] /\ same_shape (da_shape a) p.

Lemma sd_remake v d : comparable v -> sd_ok d -> dict_comparable d -> same_shape (ishape v) (sd_shape d) ->
  sd_make (i_dims v) (sd_items d) false = Ok (mksd (i_dims v) (sd_items d) false) /\
  sd_ok (mksd (i_dims v) (sd_items d) false) /\ dict_comparable (mksd (i_dims v) (sd_items d) false).
Proof.
  intros [Hw _] Hd Hc Hs. apply sd_ok_alt in Hd as (_ & E & Hn & Hf). rewrite E.
  assert (Hf' : forall k it, In (k, it) (sd_list d) -> item_ok it /\ fits (pairs (i_dims v)) (ishape it)).
  { intros k it Hi. destruct (Hf k it Hi) as [Hio Hfi]. split; [exact Hio|]. apply (fits_same_shape (sd_shape d)); [apply same_shape_sym, Hs|exact Hfi]. }
  split; [apply sd_make_ok; [apply Hw|exact Hn|exact Hf']|]. split; [apply sd_ok_mk; [apply Hw|exact Hn|exact Hf']|].
  apply dict_comp; [exact Hn|apply Hc].
Qed.

Lemma set_var_ok keep d k v : ds_ok d -> comparable v ->
  (ds_readonly d = true \/ ds_valid d = false -> ds_set_var keep d k v = Throw DatasetError) /\
  (ds_readonly d = false -> ds_valid d = true -> ~ same_shape (ishape v) (ds_shape d) -> ds_set_var keep d k v = Throw DimensionError) /\
  (ds_readonly d = false -> ds_valid d = true -> same_shape (ishape v) (ds_shape d) ->
   exists l' a, ds_set_var keep d k v = Ok (mkds (ds_coords d) (mkd l') false true) /\ put_item (ds_list d) k a l' /\
     ds_ok (mkds (ds_coords d) (mkd l') false true) /\ da_data a = v /\
     (keep = false -> a = da_plain v) /\
     (forall old, keep = true -> In (k, old) (ds_list d) -> sd_list (da_masks a) = sd_list (da_masks old) /\ sd_list (da_attrs a) = sd_list (da_attrs old)) /\
     (keep = true -> ~ In k (map fst (ds_list d)) -> a = da_plain v)).
Proof.
  intros Hd Hv. destruct (ds_items d Hd) as [Ed Hn]. pose proof Hd as (Hc & Hcc & _ & _ & Hf & Hro & Hva). unfold ds_set_var, ds_check.
  split; [|split].
  - intros [->| ->]; [reflexivity|]. destruct (ds_readonly d); reflexivity.
  - intros -> -> Hs. cbn [bind]. replace (sizes_eqb (ds_sizes d) (i_dims v)) with false; [reflexivity|]. symmetry. apply not_true_is_false. intros E.
    apply Hs, same_shape_sym. apply (proj1 (sizes_eqb_shape _ _ (proj1 Hc) (proj1 (proj1 Hv)))) in E. exact E.
  - intros Hr Hvd Hs. rewrite Hr, Hvd. cbn [bind].
    assert (Eq : sizes_eqb (ds_sizes d) (i_dims v) = true).
    { apply (sizes_eqb_shape _ _ (proj1 Hc) (proj1 (proj1 Hv))). apply same_shape_sym, Hs. }
    rewrite Eq. cbn [negb].
    assert (Hnew : exists a, (if mcontains Z.eqb (ds_data d) k && keep
       then do old <- mat Z.eqb NotFoundError (ds_data d) k;
            do m <- sd_make (i_dims v) (sd_items (da_masks old)) false;
            do t <- sd_make (i_dims v) (sd_items (da_attrs old)) false;
            Ok (mkda v (mksd (i_dims v) mempty false) m t false)
       else Ok (da_plain v)) = Ok a /\ da_data a = v /\ item_good (ds_shape d) a /\ (keep = false -> a = da_plain v) /\
       (forall old, keep = true -> In (k, old) (ds_list d) -> sd_list (da_masks a) = sd_list (da_masks old) /\ sd_list (da_attrs a) = sd_list (da_attrs old)) /\
       (keep = true -> ~ In k (map fst (ds_list d)) -> a = da_plain v)).
    { assert (Hpl : item_good (ds_shape d) (da_plain v)).
      { destruct (da_plain_ok v Hv) as (H1 & H2 & H3). split; [exact H1|]. split; [exact H2|]. split; [exact H3|exact Hs]. }
      rewrite Ed. destruct (mcontains Z.eqb (mkd (ds_list d)) k) eqn:Ek; cbn [andb].
      - apply contains_In in Ek. destruct keep.
        + pose proof Ek as Ek0. apply in_keys_ex in Ek as [old Hold]. rewrite (at_In _ _ _ _ Hn Hold). cbn [bind].
          destruct (Hf k old Hold) as ((_ & _ & Esm & Est & _ & Hm & Ht) & (_ & _ & Hcm & Hct) & _ & Hsh).
          assert (Hsm : same_shape (ishape v) (sd_shape (da_masks old))).
          { unfold sd_shape. rewrite Esm. apply (same_shape_trans _ _ _ Hs), same_shape_sym, Hsh. }
          assert (Hst : same_shape (ishape v) (sd_shape (da_attrs old))).
          { unfold sd_shape. rewrite Est. apply (same_shape_trans _ _ _ Hs), same_shape_sym, Hsh. }
          destruct (sd_remake v _ Hv Hm Hcm Hsm) as (-> & Hm1 & Hm2). cbn [bind].
          destruct (sd_remake v _ Hv Ht Hct Hst) as (-> & Ht1 & Ht2). cbn [bind].
          eexists. split; [reflexivity|]. split; [reflexivity|]. split; [|split; [discriminate|split]].
          * destruct (da_plain_ok v Hv) as (H1 & H2 & H3). unfold item_good, da_ok, da_comparable. cbn [da_data da_coords da_masks da_attrs sd_sizes].
            destruct H1 as (V1 & _ & _ & _ & V5 & _). destruct H2 as (V6 & V7 & _). auto 12.
          * intros old' _ Hi. rewrite (list_unique _ _ _ _ Hn Hi Hold). split; reflexivity.
          * intros _ Hno. contradiction.
        + exists (da_plain v). repeat (split; [solve [reflexivity|exact Hpl|auto]|]). split; [discriminate|discriminate].
      - apply contains_nIn in Ek. exists (da_plain v). repeat (split; [solve [reflexivity|exact Hpl|auto]|]). split; [|auto].
        intros old _ Hi. exfalso. apply Ek, in_keys_ex. eauto. }
    destruct Hnew as (a & -> & Hda & Hg & Hrest). cbn [bind]. rewrite Ed.
    destruct (insert_put (ds_list d) k a Hn) as (l' & -> & Hp & Hn' & Hin). cbn [bind]. exists l', a. unfold with_data. rewrite Hr, Hvd.
    split; [reflexivity|]. split; [exact Hp|]. split; [|auto].
    apply ds_ok_mk; [exact Hc|exact Hcc|exact Hn'| |auto|discriminate].
    intros k0 a0 Hi. apply Hin in Hi as [[_ ->]|[_ Hi]]; [exact Hg|exact (Hf k0 a0 Hi)].
Qed.

(** ** Coords of an inserted data array *)
Lemma skip_ok st d l : dict_comparable (ds_coords d) -> (forall k j, In (k, j) l -> comparable j) ->
  ((exists k i j, In (k, i) (sd_list (ds_coords d)) /\ In (k, j) l /\ i_aligned i = i_aligned j /\ ~ var_same true st j i) ->
    coords_to_skip st d l = Throw CoordMismatchError) /\
  (~ (exists k i j, In (k, i) (sd_list (ds_coords d)) /\ In (k, j) l /\ i_aligned i = i_aligned j /\ ~ var_same true st j i) ->
    exists s, coords_to_skip st d l = Ok s /\ forall k, In k s -> In k (map fst (sd_list (ds_coords d)))).
Proof.
  intros Hc. induction l as [|[k x] l IH]; intros Hl; cbn [coords_to_skip].
  { split; [intros (? & ? & ? & _ & [] & _)|]. intros _. exists []. split; [reflexivity|]. intros ? []. }
  destruct IH as [IH1 IH2]; [intros k0 j Hj; apply (Hl k0); right; exact Hj|]. assert (Hx : comparable x) by (apply (Hl k); left; reflexivity).
  assert (Hhead : ((exists i, In (k, i) (sd_list (ds_coords d)) /\ i_aligned i = i_aligned x /\ ~ var_same true st x i) /\
       (if sd_contains (ds_coords d) k
        then do dst <- sd_at (ds_coords d) k;
             if Bool.eqb (i_aligned dst) (i_aligned x) then do _ <- matching_coord st x dst; Ok []
             else if i_aligned dst then Ok [k] else Ok []
        else Ok []) = Throw CoordMismatchError) \/
      (~ (exists i, In (k, i) (sd_list (ds_coords d)) /\ i_aligned i = i_aligned x /\ ~ var_same true st x i) /\
       exists s0, (if sd_contains (ds_coords d) k
        then do dst <- sd_at (ds_coords d) k;
             if Bool.eqb (i_aligned dst) (i_aligned x) then do _ <- matching_coord st x dst; Ok []
             else if i_aligned dst then Ok [k] else Ok []
        else Ok []) = Ok s0 /\ forall k', In k' s0 -> In k' (map fst (sd_list (ds_coords d))))).
  { destruct (lookup (ds_coords d) k Hc) as [[-> Hno]|(va & -> & -> & Hva & Cva & Hu)].
    - right. split; [intros (i & Hi & _); exact (Hno i Hi)|]. exists []. split; [reflexivity|]. intros ? [].
    - cbn [bind]. destruct (Bool.eqb (i_aligned va) (i_aligned x)) eqn:Ea.
      + apply eqb_prop in Ea. unfold matching_coord. destruct (compare_ok st true x va Hx Cva) as (r & -> & Hr). cbn [bind]. destruct r.
        * right. split; [|exists []; split; [reflexivity|intros ? []]].
          intros (i & Hi & _ & Hns). rewrite (Hu i Hi) in Hns. apply Hns, Hr. reflexivity.
        * left. split; [|reflexivity]. exists va. split; [exact Hva|]. split; [exact Ea|]. intros Hs. apply Hr in Hs. discriminate.
      + right. split.
        * intros (i & Hi & Ei & _). rewrite (Hu i Hi) in Ei. rewrite Ei, eqb_reflx in Ea. discriminate.
        * destruct (i_aligned va); [exists [k]|exists []]; (split; [reflexivity|]).
          -- intros k' [<-|[]]. apply in_keys_ex. eauto.
          -- intros ? []. }
  destruct Hhead as [[(i & Hi & Ei & Hs) ->]|[Hno (s0 & -> & Hs0)]]; cbn [bind].
  - split; [reflexivity|]. intros Hn. exfalso. apply Hn. exists k, i, x. split; [exact Hi|]. split; [left; reflexivity|auto].
  - split.
    + intros (k' & i & j & Hi & [E|Hj] & Hr); [exfalso; injection E as <- <-; apply Hno; eauto|]. rewrite IH1; [reflexivity|]. eauto 8.
    + intros Hn. destruct IH2 as (s & -> & Hs); [intros (k' & i & j & Hi & Hj & Hr); apply Hn; exists k', i, j; split; [exact Hi|]; split; [right; exact Hj|exact Hr]|].
      cbn [bind]. exists (s0 ++ s). split; [reflexivity|]. intros k' Hk. apply in_app_or in Hk as [Hk|Hk]; auto.
Qed.

Lemma missing_in have l k it : In (k, it) (missing have l) <-> In (k, it) l /\ ~ In k (map fst have).
Proof.
  unfold missing. rewrite filter_In. cbn [fst]. rewrite negb_true_iff. change (existsb (Z.eqb k) (map fst have)) with (mem k (map fst have)).
  rewrite mem_nIn. reflexivity.
Qed.

Lemma add_coords_ok skip l : forall d, sd_ok (ds_coords d) -> dict_comparable (ds_coords d) -> ds_readonly d = false -> ds_valid d = true -> sd_readonly (ds_coords d) = false ->
  NoDup (map fst l) -> (forall k it, In (k, it) l -> item_ok it /\ fits (ds_shape d) (ishape it) /\ comparable it) ->
  (forall k, In k skip -> In k (map fst (sd_list (ds_coords d)))) ->
  exists c, add_coords d skip l = (mkds c (ds_data d) false true, Ok tt) /\ sd_ok c /\ dict_comparable c /\ sd_readonly c = false /\
    sd_sizes c = ds_sizes d /\ sd_list c = sd_list (ds_coords d) ++ missing (sd_list (ds_coords d)) l.
Proof.
  induction l as [|[k it] l IH]; intros d Hok Hcc Hr Hv Hcr Hn Hl Hsk; cbn [add_coords].
  - exists (ds_coords d). unfold missing. cbn [filter]. rewrite app_nil_r. destruct d as [c m r v]; cbn [ds_readonly ds_valid ds_coords ds_data] in *. subst. auto 10.
  - cbn [map fst] in Hn. apply NoDup_cons_iff in Hn as [Hk Hn]. destruct (Hl k it (or_introl eq_refl)) as (Hio & Hfit & Hcmp).
    assert (Hl' : forall k0 it0, In (k0, it0) l -> item_ok it0 /\ fits (ds_shape d) (ishape it0) /\ comparable it0) by (intros k0 it0 Hi; apply (Hl k0); right; exact Hi).
    pose proof Hok as Hok0. apply sd_ok_alt in Hok0 as (Hw & E & Hnc & Hfc). unfold missing. cbn [filter fst].
    destruct (in_dec Z.eq_dec k (map fst (sd_list (ds_coords d)))) as [Hin|Hin].
    + assert (Ec : sd_contains (ds_coords d) k = true) by (unfold sd_contains; rewrite E; apply contains_In; exact Hin). rewrite Ec. cbn [negb andb].
      change (existsb (Z.eqb k) (map fst (sd_list (ds_coords d)))) with (mem k (map fst (sd_list (ds_coords d)))).
      apply mem_In in Hin. rewrite Hin. cbn [negb]. apply IH; assumption.
    + assert (Ec : sd_contains (ds_coords d) k = false) by (unfold sd_contains; rewrite E; apply contains_nIn; exact Hin). rewrite Ec. cbn [negb andb].
      assert (Es : existsb (Z.eqb k) skip = false).
      { change (mem k skip = false). apply mem_nIn. intros Hx. apply Hin, Hsk, Hx. }
      rewrite Es. cbn [negb]. unfold ds_set_coord, ds_check. rewrite Hr, Hv. cbn [bind].
      destruct (sd_set_ok (ds_coords d) k it Hok Hio) as (_ & _ & _ & Hset).
      destruct Hset as (l' & -> & Hnl & Hnew & _); [intros (old & Ho & _); apply Hin; apply (in_map fst) in Ho; exact Ho|exact Hcr|exact Hfit|]. cbn [bind].
      specialize (Hnew Hin). subst l'. set (c1 := mksd (sd_sizes (ds_coords d)) (mkd (sd_list (ds_coords d) ++ [(k, it)])) false).
      assert (Hl1 : sd_list c1 = sd_list (ds_coords d) ++ [(k, it)]) by apply sd_list_mk.
      assert (Hc1 : sd_ok c1).
      { apply sd_ok_mk; [exact Hw|exact Hnl|]. intros k0 it0 Hi. apply in_app_or in Hi as [Hi|[Hi|[]]]; [apply (Hfc k0 it0 Hi)|]. injection Hi as <- <-. auto. }
      destruct (IH (with_coords d c1)) as (c & Ea & H1 & H2 & H3 & H4 & H5).
      * exact Hc1.
      * apply dict_comp; [exact Hnl|]. intros k0 it0 Hi. apply in_app_or in Hi as [Hi|[Hi|[]]]; [apply (proj2 (proj2 Hcc) k0 it0 Hi)|]. injection Hi as <- <-. exact Hcmp.
      * exact Hr.
      * exact Hv.
      * reflexivity.
      * exact Hn.
      * exact Hl'.
      * intros k0 Hi. cbn [with_coords ds_coords]. rewrite Hl1, map_app. apply in_or_app. left. apply Hsk, Hi.
      * exists c. rewrite Ea. split; [reflexivity|]. split; [exact H1|]. split; [exact H2|]. split; [exact H3|]. split; [exact H4|].
        rewrite H5. cbn [with_coords ds_coords]. rewrite Hl1, <- app_assoc. cbn [app].
        apply mem_nIn in Hin. change (existsb (Z.eqb k) (map fst (sd_list (ds_coords d)))) with (mem k (map fst (sd_list (ds_coords d)))). rewrite Hin. cbn [negb].
        f_equal. f_equal. unfold missing. apply filter_ext_in. intros [k0 it0] Hi. cbn [fst]. f_equal. rewrite map_app, existsb_app. cbn [map fst existsb].
        destruct (Z.eqb_spec k0 k) as [->|]; [exfalso; apply Hk; apply (in_map fst) in Hi; exact Hi|]. rewrite !orb_false_r. reflexivity.
Qed.

Lemma same_item_ok st d k a : ds_ok d -> da_ok a -> da_comparable a ->
  exists b, same_item st d k a = Ok b /\ (b = true <-> identical st d k a).
Proof.
  intros Hd Ha Hca. destruct (ds_items d Hd) as [Ed Hn]. unfold same_item. rewrite Ed.
  destruct (mcontains Z.eqb (mkd (ds_list d)) k) eqn:Ek.
  - apply contains_In, in_keys_ex in Ek as [x Hx]. destruct (seen_ok d k x Hd Hx) as (w & Ew & Hw & Hcw & Hrest). rewrite Ew. cbn [bind].
    pose proof (seen_iff d k w Hd Ew) as Hseen. destruct Hcw as (Dw & Cw & Mw & Tw). destruct Hca as (Da & Ca & Ma & Ta).
    assert (Hid : identical st d k a <-> same_view (da_data w) (da_data a) /\ dict_same false st (da_masks w) (da_masks a) /\
        dict_same false st (da_attrs w) (da_attrs a) /\ dict_same false st (da_coords w) (da_coords a)).
    { split; [|intros Hs; exists w; auto]. intros (w' & Hs' & Hv & Hm & Ht & Hc). destruct (seen_unique d k w w' Hd Hseen Hs') as (-> & -> & -> & El).
      split; [exact Hv|]. split; [exact Hm|]. split; [exact Ht|]. destruct Hs' as (Hw' & _).
      destruct Hc as [Hk Hc]. split.
      - intros e. rewrite <- Hk. destruct Cw as (_ & Lw & _). destruct (dict_mkd _ Lw) as [_ ->]. rewrite El.
        destruct Hw' as (_ & _ & _ & _ & (_ & _ & Lw' & _) & _). destruct (dict_mkd _ Lw') as [_ ->]. reflexivity.
      - intros k0 i j Hi Hj. apply (Hc k0); [rewrite <- El; exact Hi|exact Hj]. }
    destruct (is_same (da_data w) (da_data a)) eqn:Es.
    + apply is_same_view in Es; [|apply Dw|apply Da].
      destruct (sd_compare_ok st false _ _ Mw Ma) as (rm & -> & Hrm). cbn [bind]. destruct rm.
      * destruct (sd_compare_ok st false _ _ Tw Ta) as (rt & -> & Hrt). cbn [bind]. destruct rt.
        -- destruct (sd_compare_ok st false _ _ Cw Ca) as (rc & -> & Hrc). exists rc. split; [reflexivity|]. rewrite Hid, Hrc.
           pose proof (proj1 Hrm eq_refl). pose proof (proj1 Hrt eq_refl). tauto.
        -- exists false. split; [reflexivity|]. split; [discriminate|]. rewrite Hid. intros (_ & _ & Ht & _). apply Hrt in Ht. discriminate.
      * exists false. split; [reflexivity|]. split; [discriminate|]. rewrite Hid. intros (_ & Hm & _). apply Hrm in Hm. discriminate.
    + exists false. split; [reflexivity|]. split; [discriminate|]. rewrite Hid. intros (Hv & _). apply is_same_view in Hv; [congruence|apply Dw|apply Da].
  - exists false. split; [reflexivity|]. split; [discriminate|]. intros (w & (_ & x & Hx & _) & _). apply contains_nIn in Ek. exfalso. apply Ek, in_keys_ex. eauto.
Qed.

(** ** Inserting a data array *)
Lemma clash_iff st d a : clash st d a <-> exists k i j, In (k, i) (sd_list (ds_coords d)) /\ In (k, j) (sd_list (da_coords a)) /\ i_aligned i = i_aligned j /\ ~ var_same true st j i.
Proof. reflexivity. Qed.
Lemma clash_dec st d l : dict_comparable (ds_coords d) -> (forall k j, In (k, j) l -> comparable j) ->
  let c := exists k i j, In (k, i) (sd_list (ds_coords d)) /\ In (k, j) l /\ i_aligned i = i_aligned j /\ ~ var_same true st j i in c \/ ~ c.
Proof.
  intros Hc Hl. cbn zeta. induction l as [|[k x] l IH]; [right; intros (? & ? & ? & _ & [] & _)|].
  destruct IH as [(k' & i & j & Hi & Hj & Hr)|Hn]; [intros k0 j Hj; apply (Hl k0); right; exact Hj| |].
  - left. exists k', i, j. split; [exact Hi|]. split; [right; exact Hj|exact Hr].
  - assert (Hx : comparable x) by (apply (Hl k); left; reflexivity).
    assert (Hh : (exists i, In (k, i) (sd_list (ds_coords d)) /\ i_aligned i = i_aligned x /\ ~ var_same true st x i) \/
                 ~ (exists i, In (k, i) (sd_list (ds_coords d)) /\ i_aligned i = i_aligned x /\ ~ var_same true st x i)).
    { destruct (lookup (ds_coords d) k Hc) as [[_ Hno]|(va & _ & _ & Hva & Cva & Hu)]; [right; intros (i & Hi & _); exact (Hno i Hi)|].
      destruct (bool_dec (i_aligned va) (i_aligned x)) as [Ea|Ea]; [|right; intros (i & Hi & Ei & _); rewrite (Hu i Hi) in Ei; contradiction].
      destruct (var_same_dec st true x va Hx Cva) as [Hs|Hs]; [right; intros (i & Hi & _ & Hns); rewrite (Hu i Hi) in Hns; contradiction|left; eauto]. }
    destruct Hh as [(i & Hi & Hr)|Hh]; [left; exists k, i, x; split; [exact Hi|]; split; [left; reflexivity|exact Hr]|].
    right. intros (k' & i & j & Hi & [E|Hj] & Hr); [injection E as <- <-; apply Hh; eauto|apply Hn; eauto 8].
Qed.

Lemma set_da_ok st d k a : ds_ok d -> da_ok a -> da_comparable a ->
  (identical st d k a -> ds_set_da st d k a = (d, Ok tt)) /\
  (~ identical st d k a -> clash st d a -> ds_set_da st d k a = (d, Throw CoordMismatchError)) /\
  (~ identical st d k a -> ~ clash st d a -> ds_readonly d = true \/ ds_valid d = false -> ds_set_da st d k a = (d, Throw DatasetError)) /\
  (~ identical st d k a -> ~ clash st d a -> ds_readonly d = false -> ds_valid d = true -> ~ same_shape (da_shape a) (ds_shape d) ->
     ds_set_da st d k a = (d, Throw DimensionError)) /\
  (~ identical st d k a -> ~ clash st d a -> ds_readonly d = false -> ds_valid d = true -> same_shape (da_shape a) (ds_shape d) ->
     exists d' b, ds_set_da st d k a = (d', Ok tt) /\ ds_ok d' /\ ds_readonly d' = false /\ ds_valid d' = true /\ ds_sizes d' = ds_sizes d /\
       put_item (ds_list d) k b (ds_list d') /\ bare a b /\
       sd_list (ds_coords d') = sd_list (ds_coords d) ++ missing (sd_list (ds_coords d)) (sd_list (da_coords a))).
Proof.
  intros Hd Ha Hca. pose proof Hd as (Hc & Hcc & _ & _ & Hf & Hro & Hva). destruct (ds_items d Hd) as [Ed Hn].
  pose proof Ha as (Hw & Es1 & Es2 & Es3 & Hac & Ham & Hat). pose proof Hca as (Ca1 & Ca2 & Ca3 & Ca4).
  unfold ds_set_da. destruct (same_item_ok st d k a Hd Ha Hca) as (b & -> & Hb). split; [intros Hid; apply Hb in Hid; rewrite Hid; reflexivity|].
  assert (Hbf : ~ identical st d k a -> b = false) by (intros Hni; destruct b; [exfalso; apply Hni, Hb; reflexivity|reflexivity]).
  change (ditems (sd_items (da_coords a))) with (sd_list (da_coords a)).
  destruct (skip_ok st d (sd_list (da_coords a)) Hcc (proj2 (proj2 Ca2))) as [Hs1 Hs2].
  split; [intros Hni Hcl; rewrite (Hbf Hni), (Hs1 Hcl); reflexivity|].
  destruct (set_var_ok false d k (da_data a) Hd Ca1) as (Hv1 & Hv2 & Hv3).
  split; [intros Hni Hcl Hx; rewrite (Hbf Hni); destruct (Hs2 Hcl) as (s & -> & _); rewrite (Hv1 Hx); reflexivity|].
  split; [intros Hni Hcl Hr Hv Hx; rewrite (Hbf Hni); destruct (Hs2 Hcl) as (s & -> & _); rewrite (Hv2 Hr Hv Hx); reflexivity|].
  intros Hni Hcl Hr Hv Hsh. rewrite (Hbf Hni). destruct (Hs2 Hcl) as (s & -> & Hsk).
  destruct (Hv3 Hr Hv Hsh) as (l1 & a1 & -> & Hp1 & Hd1 & _ & Hpl & _). specialize (Hpl eq_refl). subst a1.
  set (d1 := mkds (ds_coords d) (mkd l1) false true) in *.
  pose proof Hac as Hac0. apply sd_ok_alt in Hac0 as (_ & Eac & Hnac & Hfac).
  destruct (add_coords_ok s (sd_list (da_coords a)) d1) as (c & -> & Hc1 & Hc2 & Hc3 & Hc4 & Hc5);
    [exact Hc|exact Hcc|reflexivity|reflexivity|exact (Hro Hr)|exact Hnac| |exact Hsk|].
  { intros k0 it0 Hi. destruct (Hfac k0 it0 Hi) as [Hio Hfi]. split; [exact Hio|]. split; [|exact (proj2 (proj2 Ca2) k0 it0 Hi)].
    apply (fits_same_shape (sd_shape (da_coords a))); [|exact Hfi]. unfold sd_shape. rewrite Es1. exact Hsh. }
  destruct (ds_items d1 Hd1) as [_ Hn1]. unfold d1 in Hn1; rewrite ds_list_mk in Hn1. unfold set_meta. cbn [ds_data d1].
  assert (Hin1 : In (k, da_plain (da_data a)) l1).
  { destruct Hp1 as [[_ ->]|(m1 & y & m2 & _ & ->)]; [apply in_or_app; right; left; reflexivity|apply in_elt]. }
  rewrite (at_In _ _ _ _ Hn1 Hin1). cbn [bind].
  set (nb := mkda (da_data (da_plain (da_data a))) (da_coords (da_plain (da_data a))) (da_masks a) (da_attrs a) (da_readonly (da_plain (da_data a)))).
  destruct (insert_put l1 k nb Hn1) as (l2 & -> & Hp2 & Hn2 & Hin2). cbn [bind commit].
  exists (mkds c (mkd l2) false true), nb. split; [reflexivity|].
  assert (Hshc : sd_shape c = ds_shape d) by (unfold sd_shape; rewrite Hc4; reflexivity). split.
  { apply ds_ok_mk; [exact Hc1|exact Hc2|exact Hn2| |auto|discriminate].
    intros k0 a0 Hi. apply Hin2 in Hi as [[_ ->]|[Hne Hi]].
    - destruct (da_plain_ok (da_data a) Ca1) as ((P1 & P2 & _ & _ & P3 & _) & (_ & P4 & _) & P5). rewrite Hshc.
      unfold da_ok, da_comparable, nb. cbn [da_data da_coords da_masks da_attrs]. split; [auto 10|]. split; [auto 10|]. split; [exact P5|exact Hsh].
    - rewrite Hshc. destruct Hd1 as (_ & _ & _ & _ & Hf1 & _). unfold item_fits, d1 in Hf1; rewrite ds_list_mk in Hf1. exact (Hf1 k0 a0 Hi). }
  split; [reflexivity|]. split; [reflexivity|]. split; [exact Hc4|]. split.
  { rewrite ds_list_mk. apply (put_put (ds_list d) l1 k _ nb l2 Hn Hp1 Hp2). }
  split; [repeat split|]. cbn [ds_coords]. exact Hc5.
Qed.

(** ** Slicing *)
Lemma edges_dec p dim it : edges_along p dim it \/ ~ edges_along p dim it.
Proof.
  unfold edges_along. destruct (existsb (fun e => (fst e =? dim) && existsb (fun g => (fst g =? dim) && (snd e =? snd g + 1)) p) (ishape it)) eqn:E.
  - left. apply existsb_exists in E as ([k1 n1] & H1 & E). apply andb_true_iff in E as [E1 E]. apply existsb_exists in E as ([k2 n2] & H2 & E).
    apply andb_true_iff in E as [E2 E3]. cbn [fst snd] in *. apply Z.eqb_eq in E1, E2, E3. subst. eauto.
  - right. intros (n & H1 & H2). enough (existsb (fun e => (fst e =? dim) && existsb (fun g => (fst g =? dim) && (snd e =? snd g + 1)) p) (ishape it) = true) by congruence.
    apply existsb_exists. exists (dim, n + 1). split; [assumption|]. cbn [fst snd]. rewrite Z.eqb_refl. cbn [andb]. apply existsb_exists.
    exists (dim, n). cbn [fst snd]. rewrite !Z.eqb_refl. auto.
Qed.
Lemma slice_dims_length p s p' : slice_dims p s = Some p' -> (length p' <= length p)%nat.
Proof.
  unfold slice_dims. destruct (slice_eqb s slice_default); [intros [= <-]; lia|]. destruct (extent p (s_dim s)); [|discriminate].
  destruct (s_end s =? -1).
  - destruct (s_begin s <? z); [|discriminate]. intros [= <-]. clear. induction p as [|e p IH]; cbn [filter length]; [lia|].
    destruct (negb (fst e =? s_dim s)); cbn [length]; lia.
  - destruct (s_end s <=? z); [|discriminate]. intros [= <-]. rewrite map_length. lia.
Qed.
Lemma sliced_comparable p s it it' : item_sliced p s it it' -> comparable it -> wfv (i_var it') -> comparable it'.
Proof.
  intros (_ & _ & H1 & H2 & H3) [_ Hr] Hw. split; [exact Hw|].
  destruct (edges_dec p (s_dim s) it) as [He|He].
  - destruct (H3 He) as (_ & -> & _). rewrite map_length. exact Hr.
  - destruct (in_dec Z.eq_dec (s_dim s) (keys (ishape it))) as [Hk|Hk].
    + destruct (H2 Hk He) as [E _]. apply slice_dims_length in E. lia.
    + destruct (H1 Hk) as (-> & _). exact Hr.
Qed.
Lemma sliced_dict_comparable (R : Z * item -> Z * item -> Prop) p s d d' : (forall a b, R a b -> fst b = fst a /\ item_sliced p s (snd a) (snd b)) ->
  Forall2 R (sd_list d) (sd_list d') -> dict_comparable d -> sd_ok d' -> dict_comparable d'.
Proof.
  intros HR Hf (_ & _ & Hc) (_ & Hn & Hl & Hok). split; [exact Hn|]. split; [exact Hl|]. intros k it' Hi.
  destruct (Forall2_In_r _ _ _ _ Hf Hi) as ([k0 it] & Hi0 & Hr). destruct (HR _ _ Hr) as [_ Hs]. cbn [snd] in Hs.
  apply (sliced_comparable p s it it' Hs); [exact (Hc k0 it Hi0)|apply (Hok k it' Hi)].
Qed.

Lemma slice_dims_same p q s p' : lwf p -> lwf q -> same_shape p q -> slice_eqb s slice_default = false -> slice_dims p s = Some p' ->
  exists q', slice_dims q s = Some q' /\ same_shape p' q'.
Proof.
  intros Hp Hq Hs Hd E. assert (Ex : extent q (s_dim s) = extent p (s_dim s)).
  { destruct (extent p (s_dim s)) as [n|] eqn:Ep.
    - apply (extent_In q _ n (proj1 Hq)). apply Hs. apply (extent_In p _ n (proj1 Hp)). exact Ep.
    - apply extent_None. apply extent_None in Ep. intros Hk. apply Ep. apply (same_shape_keys _ _ Hs). exact Hk. }
  assert (Hq' : exists q', slice_dims q s = Some q').
  { revert E. unfold slice_dims. rewrite Hd, Ex. destruct (extent p (s_dim s)) as [n|]; [|discriminate]. destruct (s_end s =? -1).
    - destruct (s_begin s <? n); [eauto|discriminate].
    - destruct (s_end s <=? n); [eauto|discriminate]. }
  destruct Hq' as [q' Eq']. exists q'. split; [exact Eq'|].
  destruct (slice_dims_inv p s p' Hp Hd E) as (n & Hn & Hc). destruct (slice_dims_inv q s q' Hq Hd Eq') as (m & Hm & Hc').
  intros k x. destruct Hc as [(E1 & _ & Hi)|(E1 & _ & Hi)], Hc' as [(E2 & _ & Hi')|(E2 & _ & Hi')]; try congruence; rewrite Hi, Hi', (Hs k x); reflexivity.
Qed.

Definition da_sliced (s : slice) (a a' : darray) : Prop :=
  var_slice (i_var (da_data a)) s = Ok (i_var (da_data a')) /\ i_obj (da_data a') = i_obj (da_data a) /\
  dict_sliced (da_shape a) s (sd_list (da_masks a)) (sd_list (da_masks a')) /\ dict_sliced (da_shape a) s (sd_list (da_attrs a)) (sd_list (da_attrs a')).

Lemma da_slice_good a s p p' : item_good p a -> lwf p -> slice_ok s -> slice_eqb s slice_default = false -> slice_dims p s = Some p' ->
  ((exists k it, In (k, it) (sd_list (da_masks a) ++ sd_list (da_attrs a)) /\ edges_along (da_shape a) (s_dim s) it) -> s_stride s <> 1 ->
     da_slice a s = Throw SliceError) /\
  ((forall k it, In (k, it) (sd_list (da_masks a) ++ sd_list (da_attrs a)) -> edges_along (da_shape a) (s_dim s) it -> s_stride s = 1) ->
     exists a', da_slice a s = Ok a' /\ item_good p' a' /\ da_sliced s a a').
Proof.
  intros (Ha & Hca & Hno & Hsh) Hp Hs Hd E. pose proof Ha as (Hw & _). destruct (wf_mk_pairs _ (proj1 Hw)) as [_ Lv].
  change (pairs (v_dims (i_var (da_data a)))) with (da_shape a) in Lv.
  destruct (slice_dims_same p (da_shape a) s p' Hp Lv (same_shape_sym _ _ Hsh) Hd E) as (q' & Eq & Hsq).
  pose proof (da_slice_ok a s Ha Hs Hd) as Hsl. rewrite Eq in Hsl. destruct Hsl as [H1 H2]. unfold da_items in H1, H2. rewrite Hno in H1, H2. cbn [app] in H1, H2.
  split; [exact H1|]. intros Hed. destruct (H2 Hed) as (a' & -> & Ha' & Esh & Ev & Eo & Hcs & Hms & Hts & _). exists a'. split; [reflexivity|]. split; [|repeat split; assumption].
  destruct Ha' as (Hw' & Ec' & Em' & Et' & Hc' & Hm' & Ht'). split; [repeat (split; [assumption|]); assumption|].
  destruct Hca as (Hcd & Hcc & Hcm & Hct). split; [|split].
  - split; [split; [exact Hw'|]|split; [|split]].
    + change (ishape (da_data a')) with (da_shape a'). rewrite Esh. apply slice_dims_length in Eq. unfold comparable in Hcd. unfold da_shape in Eq. lia.
    + destruct Hc' as (_ & Hn & Hl & _). split; [exact Hn|]. split; [exact Hl|]. inversion Hcs. intros ? ? [].
    + refine (sliced_dict_comparable _ (da_shape a) s _ _ _ Hms Hcm Hm'). intros x y (F1 & F2 & _). auto.
    + refine (sliced_dict_comparable _ (da_shape a) s _ _ _ Hts Hct Ht'). intros x y (F1 & F2 & _). auto.
  - inversion Hcs. reflexivity.
  - rewrite Esh. apply same_shape_sym, Hsq.
Qed.

Lemma slice_da_eq p a s p' : item_good p a -> lwf p -> slice_eqb s slice_default = false -> slice_dims p s = Some p' -> slice_da (mk p) a s = da_slice a s.
Proof.
  intros (Ha & _ & _ & Hsh) Hp Hd E. pose proof Ha as (Hw & _). destruct (wf_mk_pairs _ (proj1 Hw)) as [Ev Lv].
  change (pairs (v_dims (i_var (da_data a)))) with (da_shape a) in Lv, Ev. change (v_dims (i_var (da_data a))) with (i_dims (da_data a)) in Ev.
  destruct (slice_dims_inv p s p' Hp Hd E) as (n & Hn & _). unfold slice_da. rewrite Ev, dcontains_mk.
  assert (Hk : mem (s_dim s) (keys (da_shape a)) = true) by (apply mem_In, In_keys; exists n; apply Hsh, Hn). rewrite Hk.
  rewrite !dat_mk by (apply Lv || apply Hp). apply Hsh in Hn as Hn'. apply (extent_In _ _ _ (proj1 Lv)) in Hn'. rewrite Hn'.
  apply (extent_In _ _ _ (proj1 Hp)) in Hn. rewrite Hn. cbn [bind]. rewrite Z.eqb_refl. reflexivity.
Qed.

Lemma slice_data_ok p p' s l : lwf p -> slice_ok s -> slice_eqb s slice_default = false -> slice_dims p s = Some p' ->
  forall acc, NoDup (map fst (acc ++ l)) -> (forall k a, In (k, a) l -> item_good p a) ->
  ((exists name a k it, In (name, a) l /\ In (k, it) (sd_list (da_masks a) ++ sd_list (da_attrs a)) /\ edges_along (da_shape a) (s_dim s) it) -> s_stride s <> 1 ->
     slice_data (mk p) (mkd acc) l s = Throw SliceError) /\
  ((forall name a k it, In (name, a) l -> In (k, it) (sd_list (da_masks a) ++ sd_list (da_attrs a)) -> edges_along (da_shape a) (s_dim s) it -> s_stride s = 1) ->
     exists l', slice_data (mk p) (mkd acc) l s = Ok (mkd (acc ++ l')) /\ Forall2 (fun x y => fst y = fst x /\ da_sliced s (snd x) (snd y)) l l' /\
       forall k a, In (k, a) l' -> item_good p' a).
Proof.
  intros Hp Hs Hd E. induction l as [|[k a] l IH]; intros acc Hn Hg; cbn [slice_data].
  - split; [intros (? & ? & ? & ? & [] & _)|]. intros _. exists []. rewrite app_nil_r. split; [reflexivity|]. split; [constructor|]. intros ? ? [].
  - assert (Hga : item_good p a) by (apply (Hg k); left; reflexivity). rewrite (slice_da_eq p a s p' Hga Hp Hd E).
    destruct (da_slice_good a s p p' Hga Hp Hs Hd E) as [H1 H2].
    assert (Hk : ~ In k (map fst acc)).
    { rewrite map_app in Hn. cbn [map fst] in Hn. apply NoDup_remove_2 in Hn. intros Hk. apply Hn, in_or_app. auto. }
    assert (Hn' : forall b : darray, NoDup (map fst ((acc ++ [(k, b)]) ++ l))) by (intros b; rewrite <- app_assoc, map_app in *; exact Hn).
    assert (Hg' : forall k0 a0, In (k0, a0) l -> item_good p a0) by (intros k0 a0 Hi; apply (Hg k0); right; exact Hi).
    split.
    + intros (name & b & k0 & it0 & Hin & Hit & Hed) Hst.
      assert (Hdec : (exists k it, In (k, it) (sd_list (da_masks a) ++ sd_list (da_attrs a)) /\ edges_along (da_shape a) (s_dim s) it) \/
                     (forall k it, In (k, it) (sd_list (da_masks a) ++ sd_list (da_attrs a)) -> ~ edges_along (da_shape a) (s_dim s) it)).
      { clear. induction (sd_list (da_masks a) ++ sd_list (da_attrs a)) as [|[k1 it1] r [(k2 & it2 & F1 & F2)|Hno]].
        - right. intros ? ? [].
        - left. exists k2, it2. split; [right; exact F1|exact F2].
        - destruct (edges_dec (da_shape a) (s_dim s) it1) as [Hy|Hy]; [left; exists k1, it1; split; [left; reflexivity|exact Hy]|].
          right. intros k2 it2 [F|F]; [injection F as <- <-; exact Hy|exact (Hno k2 it2 F)]. }
      destruct Hdec as [Hy|Hno]; [rewrite (H1 Hy Hst); reflexivity|].
      destruct H2 as (a' & -> & _); [intros k1 it1 Hi1 He1; exfalso; exact (Hno k1 it1 Hi1 He1)|]. cbn [bind].
      rewrite insert_new by exact Hk. cbn [bind].
      apply (proj1 (IH (acc ++ [(k, a')]) (Hn' a') Hg')); [|exact Hst]. exists name, b, k0, it0.
      destruct Hin as [F|Hin]; [injection F as <- <-; exfalso; exact (Hno k0 it0 Hit Hed)|auto].
    + intros Hed. destruct H2 as (a' & -> & Hga' & Hsl); [intros k1 it1 Hi1; apply (Hed k a k1); [left; reflexivity|exact Hi1]|]. cbn [bind].
      rewrite insert_new by exact Hk. cbn [bind].
      destruct (proj2 (IH (acc ++ [(k, a')]) (Hn' a') Hg')) as (l' & -> & Hf & Hgl); [intros nm b k1 it1 Hb; apply (Hed nm b k1); right; exact Hb|].
      exists ((k, a') :: l'). rewrite <- app_assoc. split; [reflexivity|]. split; [constructor; [split; [reflexivity|exact Hsl]|exact Hf]|].
      intros k0 a0 [F|Hi]; [injection F as <- <-; exact Hga'|exact (Hgl k0 a0 Hi)].
Qed.

(** Filling a dataset with data arrays without coords. *)
Lemma fill_ok st l : forall d, ds_ok d -> ds_readonly d = false -> ds_valid d = true -> NoDup (map fst (ds_list d ++ l)) ->
  (forall k a, In (k, a) l -> item_good (ds_shape d) a) ->
  exists d' l', set_da_all st d l = Ok d' /\ ds_ok d' /\ ds_readonly d' = false /\ ds_valid d' = true /\ ds_sizes d' = ds_sizes d /\
    sd_list (ds_coords d') = sd_list (ds_coords d) /\ ds_list d' = ds_list d ++ l' /\
    Forall2 (fun x y => fst y = fst x /\ bare (snd x) (snd y)) l l'.
Proof.
  induction l as [|[k a] l IH]; intros d Hd Hr Hv Hn Hg; cbn [set_da_all].
  - exists d, []. rewrite app_nil_r. auto 12.
  - destruct (Hg k a (or_introl eq_refl)) as (Ha & Hca & Hno & Hsh). destruct (set_da_ok st d k a Hd Ha Hca) as (_ & _ & _ & _ & H5).
    assert (Hk : ~ In k (map fst (ds_list d))).
    { rewrite map_app in Hn. cbn [map fst] in Hn. apply NoDup_remove_2 in Hn. intros Hk. apply Hn, in_or_app. auto. }
    destruct H5 as (d' & b & -> & Hd' & Hr' & Hv' & Hsz & Hput & Hbare & Hcs); try assumption.
    + intros (w & (_ & x & Hx & _) & _). apply Hk, in_keys_ex. eauto.
    + intros (k0 & i & j & _ & Hj & _). rewrite Hno in Hj. destruct Hj.
    + cbn [result bind]. rewrite Hno in Hcs. unfold missing in Hcs. cbn [filter] in Hcs. rewrite app_nil_r in Hcs.
      assert (El : ds_list d' = ds_list d ++ [(k, b)]).
      { destruct Hput as [[_ E]|(l1 & y & l2 & E & _)]; [exact E|]. exfalso. apply Hk. rewrite E, map_app. apply in_elt. }
      destruct (IH d' Hd' Hr' Hv') as (d2 & l' & -> & Hd2 & Hr2 & Hv2 & Hsz2 & Hcs2 & El2 & Hf).
      * rewrite El, <- app_assoc. rewrite map_app in *. exact Hn.
      * intros k0 a0 Hi. replace (ds_shape d') with (ds_shape d); [apply (Hg k0); right; exact Hi|]. unfold ds_shape, sd_shape. unfold ds_sizes in Hsz. rewrite Hsz. reflexivity.
      * exists d2, ((k, b) :: l'). split; [reflexivity|]. split; [exact Hd2|]. split; [exact Hr2|]. split; [exact Hv2|]. split; [congruence|]. split; [congruence|].
        split; [rewrite El2, El, <- app_assoc; reflexivity|]. constructor; [split; [reflexivity|exact Hbare]|exact Hf].
Qed.
Lemma empty_ok sz : wf sz -> ds_ok (mkds (mksd sz mempty false) mempty false true).
Proof.
  intros Hw. change (@mempty Z item) with (@mkd item []). change (@mempty Z darray) with (@mkd darray []).
  apply ds_ok_mk; [apply sd_ok_mk; [exact Hw|constructor|intros ? ? []]|apply dict_comp; [constructor|intros ? ? []]|constructor|intros ? ? []|reflexivity|discriminate].
Qed.

Lemma ds_parts d : ds_ok d -> exists p, ds_sizes d = mk p /\ ds_shape d = p /\ lwf p.
Proof. intros (Hc & _). destruct (wf_mk_pairs _ (proj1 Hc)) as [E L]. exists (ds_shape d). split; [exact E|]. split; [reflexivity|exact L]. Qed.

Lemma const_dict d d' : sd_ok d' -> sd_list d' = map as_const (sd_list d) -> dict_comparable d -> dict_comparable d'.
Proof.
  intros (_ & Hn & Hl & _) E (_ & _ & Hc). split; [exact Hn|]. split; [exact Hl|]. rewrite E. intros k i Hi.
  apply in_map_iff in Hi as ([k0 i0] & [= <- <-] & Hi). apply comparable_const, (Hc k0 i0 Hi).
Qed.
Lemma da_as_const_ok p a : item_good p a -> exists a', da_as_const a = Ok a' /\ item_good p a'.
Proof.
  intros ((Hw & Ec & Em & Et & Hc & Hm & Ht) & (Cd & Cc & Cm & Ct) & Hno & Hsh). unfold da_as_const.
  destruct (sd_as_const_ok _ Hc) as (c' & -> & Hc' & _ & Sc & Lc). destruct (sd_as_const_ok _ Hm) as (m' & -> & Hm' & _ & Sm & Lm).
  destruct (sd_as_const_ok _ Ht) as (t' & -> & Ht' & _ & St & Lt). cbn [bind].
  assert (Hss : forall x y, sd_ok x -> sd_ok y -> sd_shape x = sd_shape y -> sd_sizes x = sd_sizes y).
  { intros x y Hx Hy E. rewrite (proj1 (wf_mk_pairs _ (proj1 Hx))), (proj1 (wf_mk_pairs _ (proj1 Hy))). unfold sd_shape in E. rewrite E. reflexivity. }
  assert (E1 : sd_sizes c' = i_dims (da_data a)) by (rewrite <- Ec; apply Hss; assumption).
  assert (E2 : sd_sizes m' = i_dims (da_data a)) by (rewrite <- Em; apply Hss; assumption).
  assert (E3 : sd_sizes t' = i_dims (da_data a)) by (rewrite <- Et; apply Hss; assumption).
  unfold da_make. change (i_dims (with_var (da_data a) (var_as_const (i_var (da_data a))))) with (i_dims (da_data a)).
  rewrite <- E1, (set_sizes_same c' Hc'). cbn [bind]. rewrite E1, <- E2, (set_sizes_same m' Hm'). cbn [bind]. rewrite E2, <- E3, (set_sizes_same t' Ht').
  cbn [bind da_data da_coords da_masks da_attrs]. eexists. split; [reflexivity|]. unfold item_good, da_ok, da_comparable, da_shape. cbn [da_data da_coords da_masks da_attrs].
  split; [repeat (split; [solve [assumption|apply Hw]|]); assumption|]. split; [split; [apply comparable_const, Cd|]|].
  - split; [exact (const_dict _ _ Hc' Lc Cc)|]. split; [exact (const_dict _ _ Hm' Lm Cm)|exact (const_dict _ _ Ht' Lt Ct)].
  - split; [rewrite Lc, Hno; reflexivity|exact Hsh].
Qed.

Lemma slice_data_none p s l : lwf p -> slice_ok s -> slice_eqb s slice_default = false -> slice_dims p s = None ->
  forall acc, NoDup (map fst (acc ++ l)) -> (forall k a, In (k, a) l -> item_good p a) ->
  slice_data (mk p) (mkd acc) l s = Throw SliceError \/
  exists l', slice_data (mk p) (mkd acc) l s = Ok (mkd (acc ++ l')) /\ map fst l' = map fst l /\ forall k a, In (k, a) l' -> item_good p a.
Proof.
  intros Hp Hs Hd E. induction l as [|[k a] l IH]; intros acc Hn Hg; cbn [slice_data].
  - right. exists []. rewrite app_nil_r. split; [reflexivity|]. split; [reflexivity|]. intros ? ? [].
  - assert (Hga : item_good p a) by (apply (Hg k); left; reflexivity). pose proof Hga as (Ha & _ & _ & Hsh). pose proof Ha as (Hw & _).
    destruct (wf_mk_pairs _ (proj1 Hw)) as [Ev Lv]. change (pairs (v_dims (i_var (da_data a)))) with (da_shape a) in Lv, Ev.
    change (v_dims (i_var (da_data a))) with (i_dims (da_data a)) in Ev.
    assert (Hk : ~ In k (map fst acc)).
    { rewrite map_app in Hn. cbn [map fst] in Hn. apply NoDup_remove_2 in Hn. intros Hk. apply Hn, in_or_app. auto. }
    assert (Hn' : forall b : darray, NoDup (map fst ((acc ++ [(k, b)]) ++ l))) by (intros b; rewrite <- app_assoc, map_app in *; exact Hn).
    assert (Hg' : forall k0 a0, In (k0, a0) l -> item_good p a0) by (intros k0 a0 Hi; apply (Hg k0); right; exact Hi).
    assert (Hcase : slice_da (mk p) a s = Throw SliceError \/ exists a', slice_da (mk p) a s = Ok a' /\ item_good p a').
    { unfold slice_da. rewrite Ev, dcontains_mk. destruct (mem (s_dim s) (keys (da_shape a))) eqn:Em.
      - left. apply mem_In, In_keys in Em as [n Hin]. pose proof (proj1 (Hsh _ _) Hin) as Hin'. rewrite !dat_mk by (apply Lv || apply Hp).
        apply (extent_In _ _ _ (proj1 Lv)) in Hin. apply (extent_In _ _ _ (proj1 Hp)) in Hin'. rewrite Hin, Hin'. cbn [bind]. rewrite Z.eqb_refl.
        pose proof (da_slice_ok a s Ha Hs Hd) as Hda. destruct (slice_dims (da_shape a) s) as [q'|] eqn:Eq; [|exact Hda].
        destruct (slice_dims_same _ p s q' Lv Hp Hsh Hd Eq) as (p' & E' & _). congruence.
      - right. rewrite Hd. apply da_as_const_ok, Hga. }
    destruct Hcase as [->|(a' & -> & Hga')]; [left; reflexivity|]. cbn [bind]. rewrite insert_new by exact Hk. cbn [bind].
    destruct (IH (acc ++ [(k, a')]) (Hn' a') Hg') as [->|(l' & -> & Hk' & Hgl)]; [left; reflexivity|]. right. exists ((k, a') :: l').
    rewrite <- app_assoc. split; [reflexivity|]. split; [cbn [map fst]; rewrite Hk'; reflexivity|].
    intros k0 a0 [F|Hi]; [injection F as <- <-; exact Hga'|exact (Hgl k0 a0 Hi)].
Qed.

Lemma make_bare st p l : lwf p -> NoDup (map fst l) -> (forall k a, In (k, a) l -> item_good p a) ->
  exists o l', ds_make st l mempty = Ok o /\ ds_valid o = true /\ ds_data o = mkd l' /\ map fst l' = map fst l /\
    (forall k a, In (k, a) l' -> item_good p a) /\ Forall2 (fun x y => fst y = fst x /\ bare (snd x) (snd y)) l l'.
Proof.
  intros Hp Hn Hg. destruct l as [|[k a] l].
  - exists (mkds (mksd mempty mempty false) mempty false true), []. do 4 (split; [reflexivity|]). split; [intros ? ? []|constructor].
  - cbn [ds_make]. change (ditems (@mempty Z item)) with (@nil (Z * item)). cbn [set_coord_all bind].
    destruct (Hg k a (or_introl eq_refl)) as (Ha & _ & _ & Hsh). pose proof Ha as (Hw & _).
    set (d0 := mkds (mksd (i_dims (da_data a)) mempty false) mempty false true).
    assert (H0 : ds_ok d0) by (apply empty_ok, Hw).
    destruct (fill_ok st ((k, a) :: l) d0 H0 eq_refl eq_refl Hn) as (o & l' & -> & Ho & _ & Hv & Hsz & _ & El & Hf).
    { intros k0 a0 Hi. destruct (Hg k0 a0 Hi) as (G1 & G2 & G3 & G4). split; [exact G1|]. split; [exact G2|]. split; [exact G3|].
      apply (same_shape_trans _ p); [exact G4|]. apply same_shape_sym, Hsh. }
    exists o, l'. split; [reflexivity|]. split; [exact Hv|]. change (ds_list d0) with (@nil (Z * darray)) in El. cbn [app] in El.
    destruct (ds_items o Ho) as [Ed _]. rewrite El in Ed. split; [exact Ed|].
    assert (Hk : map fst l' = map fst ((k, a) :: l)) by (clear -Hf; induction Hf as [|x y u v (E & _) _ IH]; [reflexivity|cbn [map]; congruence]).
    split; [exact Hk|]. split; [|exact Hf]. intros k0 a0 Hi. destruct Ho as (_ & _ & _ & _ & Hfit & _). rewrite El in Hfit.
    destruct (Hfit k0 a0 Hi) as (G1 & G2 & G3 & G4). split; [exact G1|]. split; [exact G2|]. split; [exact G3|].
    refine (same_shape_trans _ _ _ G4 _). unfold ds_shape, sd_shape. unfold ds_sizes in Hsz. rewrite Hsz. exact Hsh.
Qed.

Theorem ds_slice_ok st d s : ds_ok d -> slice_ok s -> slice_eqb s slice_default = false ->
  match slice_dims (ds_shape d) s with
  | None => ds_slice st d s = Throw SliceError
  | Some p' =>
    (any_edges d (s_dim s) -> s_stride s <> 1 -> ds_slice st d s = Throw SliceError) /\
    ((any_edges d (s_dim s) -> s_stride s = 1) ->
     exists d', ds_slice st d s = Ok d' /\ ds_ok d' /\ ds_shape d' = p' /\ ds_readonly d' = true /\ ds_valid d' = true /\
       coords_sliced (ds_shape d) s (sd_list (ds_coords d)) (sd_list (ds_coords d')) /\ data_sliced s (ds_list d) (ds_list d'))
  end.
Proof.
  intros Hok Hs Hd. destruct (ds_items d Hok) as [Ed Hn]. destruct (ds_parts d Hok) as (p & Esz & Esh & Hp). pose proof Hok as (Hc & Hcc & _ & _ & Hf & _).
  unfold ds_slice. rewrite Esz. change (ditems (ds_data d)) with (ds_list d). change (@mempty Z darray) with (@mkd darray []).
  pose proof (sd_slice_coords_ok _ s Hc Hs Hd) as Hco. pose proof (sd_slice_coords_throw _ s Hc Hs Hd) as Hct. fold (ds_shape d) in Hco, Hct. rewrite Esh in *.
  assert (Hg : forall k a, In (k, a) (ds_list d) -> item_good p a) by (intros k a Hi; rewrite <- Esh; exact (Hf k a Hi)).
  destruct (slice_dims p s) as [p'|] eqn:Ep.
  - destruct (slice_data_ok p p' s (ds_list d) Hp Hs Hd Ep [] Hn Hg) as [H1 H2].
    assert (Hp' : lwf p').
    { pose proof (sizes_slice_ok _ s (proj1 Hc) Hs Hd) as Hx. change (pairs (sd_sizes (ds_coords d))) with (ds_shape d) in Hx. rewrite Esh, Ep in Hx. apply Hx. }
    split.
    + intros Hed Hst.
      assert (Hdec : (exists name a k it, In (name, a) (ds_list d) /\ In (k, it) (sd_list (da_masks a) ++ sd_list (da_attrs a)) /\ edges_along (da_shape a) (s_dim s) it) \/
                ~ exists name a k it, In (name, a) (ds_list d) /\ In (k, it) (sd_list (da_masks a) ++ sd_list (da_attrs a)) /\ edges_along (da_shape a) (s_dim s) it).
      { clear. induction (ds_list d) as [|[nm a] l IH]; [right; intros (? & ? & ? & ? & [] & _)|].
        destruct IH as [(nm1 & a1 & k1 & it1 & F1 & F2)|Hno]; [left; exists nm1, a1, k1, it1; split; [right; exact F1|exact F2]|].
        assert (Hr : (exists k it, In (k, it) (sd_list (da_masks a) ++ sd_list (da_attrs a)) /\ edges_along (da_shape a) (s_dim s) it) \/
                 ~ exists k it, In (k, it) (sd_list (da_masks a) ++ sd_list (da_attrs a)) /\ edges_along (da_shape a) (s_dim s) it).
        { clear. induction (sd_list (da_masks a) ++ sd_list (da_attrs a)) as [|[k1 it1] r [(k2 & it2 & F1 & F2)|Hno]].
          - right. intros (? & ? & [] & _).
          - left. exists k2, it2. split; [right; exact F1|exact F2].
          - destruct (edges_dec (da_shape a) (s_dim s) it1) as [Hy|Hy]; [left; exists k1, it1; split; [left; reflexivity|exact Hy]|].
            right. intros (k2 & it2 & [F|F] & G); [injection F as <- <-; exact (Hy G)|apply Hno; eauto]. }
        destruct Hr as [(k & it & F1 & F2)|Hr]; [left; exists nm, a, k, it; split; [left; reflexivity|auto]|].
        right. intros (nm1 & a1 & k1 & it1 & [F|F] & G); [injection F as <- <-; apply Hr; eauto|apply Hno; exists nm1, a1, k1, it1; auto]. }
      destruct Hdec as [Hy|Hno]; [rewrite (H1 Hy Hst); reflexivity|].
      destruct H2 as (l' & -> & Hds & Hfl); [intros nm a k it F1 F2 F3; exfalso; apply Hno; exists nm, a, k, it; auto|]. cbn [app bind]. rewrite ditems_mkd.
      assert (Hgl : NoDup (map fst l')).
      { replace (map fst l') with (map fst (ds_list d)); [exact Hn|]. clear -Hds. induction Hds as [|x y u v (E & _) _ IH]; [reflexivity|cbn [map]; congruence]. }
      destruct (make_bare st p' l' Hp' Hgl Hfl) as (o & l2 & -> & _). cbn [bind]. rewrite Hct; [reflexivity| |exact Hst].
      destruct Hed as [(k & it & F)|Hy]; [exists k, it; rewrite <- Esh; exact F|contradiction].
    + intros Hed. destruct H2 as (l' & -> & Hds & Hfl); [intros nm a k it F1 F2 F3; apply Hed; right; exists nm, a, k, it; auto|]. cbn [app bind]. rewrite ditems_mkd.
      assert (Hgl : NoDup (map fst l')).
      { replace (map fst l') with (map fst (ds_list d)); [exact Hn|]. clear -Hds. induction Hds as [|x y u v (E & _) _ IH]; [reflexivity|cbn [map]; congruence]. }
      destruct (make_bare st p' l' Hp' Hgl Hfl) as (o & l2 & -> & Hv & Edo & Hk2 & Hg2 & Hb). cbn [bind].
      destruct Hco as (c & -> & Hcok & Hcs & Hcr & Hcsl); [intros k it Hi He; apply Hed; left; exists k, it; rewrite Esh; auto|]. cbn [bind].
      rewrite Hv, Edo. eexists. split; [reflexivity|]. split; [|split; [exact Hcs|]].
      * apply ds_ok_mk; [exact Hcok| |rewrite Hk2; exact Hgl| |discriminate|discriminate].
        -- refine (sliced_dict_comparable _ p s _ _ _ Hcsl Hcc Hcok). intros x y (F1 & F2 & _). auto.
        -- intros k a Hi. rewrite Hcs. exact (Hg2 k a Hi).
      * cbn [ds_readonly ds_valid ds_coords]. split; [reflexivity|]. split; [reflexivity|]. split; [exact Hcsl|]. rewrite ds_list_mk.
        clear -Hds Hb. revert l2 Hb. induction Hds as [|[k a] [k1 a1] l l1 (Ek & Hda) _ IH]; intros l2 Hb; inversion Hb as [|? [k2 a2] ? l3 (Ek2 & B1 & B2 & B3 & _) Hb']; subst; constructor; [|apply IH, Hb'].
        cbn [fst snd] in *. subst. destruct Hda as (D1 & D2 & D3 & D4). rewrite B1, B2, B3. auto.
  - destruct (slice_data_none p s (ds_list d) Hp Hs Hd Ep [] Hn Hg) as [->|(l' & -> & Hk & Hgl)]; [reflexivity|]. cbn [app bind]. rewrite ditems_mkd.
    rewrite <- Hk in Hn. destruct (make_bare st p l' Hp Hn Hgl) as (o & l2 & -> & _). cbn [bind]. rewrite Hco. reflexivity.
Qed.

(** ** Renaming *)
Lemma rename_same names : forall p q p', same_shape p q -> rename_pairs p names true = Some p' ->
  exists q', rename_pairs q names true = Some q' /\ same_shape p' q'.
Proof.
  induction names as [|[f t] names IH]; intros p q p' Hs E; cbn [rename_pairs] in *; [injection E as <-; eauto|].
  assert (Hm : forall k, mem k (keys q) = mem k (keys p)).
  { intros k. apply eq_true_iff_eq. rewrite !mem_In. symmetry. apply same_shape_keys, Hs. }
  rewrite !Hm. destruct (mem f (keys p)); [|discriminate]. destruct (negb (f =? t) && mem t (keys p)); [discriminate|].
  apply (IH _ _ _) with (2 := E). intros k n. rewrite !in_map_iff. split; intros ([k0 n0] & [= <- <-] & Hi); exists (k0, n0); (split; [reflexivity|]); apply Hs, Hi.
Qed.
Lemma rename_length names : forall p p' flag, rename_pairs p names flag = Some p' -> length p' = length p.
Proof.
  induction names as [|[f t] names IH]; intros p p' flag E; cbn [rename_pairs] in E; [injection E as <-; reflexivity|].
  destruct (mem f (keys p)).
  - destruct (negb (f =? t) && mem t (keys p)); [discriminate|]. rewrite (IH _ _ _ E), map_length. reflexivity.
  - destruct flag; [discriminate|]. apply (IH _ _ _ E).
Qed.
Lemma renamed_comparable names d d' : dict_renamed names (sd_list d) (sd_list d') -> dict_comparable d -> sd_ok d' -> dict_comparable d'.
Proof.
  intros Hf (_ & _ & Hc) (_ & Hn & Hl & Hok). split; [exact Hn|]. split; [exact Hl|]. intros k it' Hi.
  destruct (Forall2_In_r _ _ _ _ Hf Hi) as ([k0 it] & Hi0 & (_ & _ & _ & _ & _ & _ & E)). cbn [snd] in E. split; [apply (Hok k it' Hi)|].
  rewrite (rename_length _ _ _ _ E). apply (Hc k0 it Hi0).
Qed.

Lemma name_taken_dec names parent l : name_taken names parent l \/ ~ name_taken names parent l.
Proof.
  unfold name_taken. induction l as [|[k it] l [(k1 & it1 & t & F1 & F2)|Hno]].
  - right. intros (? & ? & ? & [] & _).
  - left. exists k1, it1, t. split; [right; exact F1|exact F2].
  - destruct (existsb (fun t => mem t (keys (ishape it)) && negb (mem t (keys parent))) (map snd names)) eqn:E.
    + left. apply existsb_exists in E as (t & Ht & E). apply andb_true_iff in E as [E1 E2]. apply mem_In in E1. apply negb_true_iff, mem_nIn in E2.
      exists k, it, t. split; [left; reflexivity|auto].
    + right. intros (k1 & it1 & t & [F|F] & G1 & G2 & G3); [injection F as <- <-|apply Hno; exists k1, it1, t; auto].
      enough (existsb (fun t => mem t (keys (ishape it)) && negb (mem t (keys parent))) (map snd names) = true) by congruence.
      apply existsb_exists. exists t. split; [exact G1|]. apply mem_In in G2. apply mem_nIn in G3. rewrite G2, G3. reflexivity.
Qed.
Lemma not_taken names parent l : ~ name_taken names parent l ->
  forall k it t, In (k, it) l -> In t (map snd names) -> In t (keys (ishape it)) -> In t (keys parent).
Proof.
  intros Hno k it t H1 H2 H3. destruct (in_dec Z.eq_dec t (keys parent)) as [Hy|Hy]; [exact Hy|]. exfalso. apply Hno. exists k, it, t. auto.
Qed.
Lemma taken_app names parent l l' : name_taken names parent (l ++ l') <-> name_taken names parent l \/ name_taken names parent l'.
Proof.
  unfold name_taken. split.
  - intros (k & it & t & Hi & G). apply in_app_or in Hi as [Hi|Hi]; [left|right]; exists k, it, t; auto.
  - intros [(k & it & t & Hi & G)|(k & it & t & Hi & G)]; exists k, it, t; (split; [apply in_or_app; auto|exact G]).
Qed.

Lemma da_rename_good names a p p' : item_good p a -> lwf p -> ~ In InvalidDim (map snd names) -> rename_pairs p names true = Some p' ->
  (name_taken names (da_shape a) (sd_list (da_masks a) ++ sd_list (da_attrs a)) -> da_rename a names false = Throw DimensionError) /\
  (~ name_taken names (da_shape a) (sd_list (da_masks a) ++ sd_list (da_attrs a)) ->
   exists a', da_rename a names false = Ok a' /\ item_good p' a' /\ data_renamed names [(0, a)] [(0, a')]).
Proof.
  intros (Ha & Hca & Hno & Hsh) Hp Hn E. pose proof Ha as (Hw & Ec & Em & Et & Hc & Hm & Ht). destruct Hca as (Cd & Cc & Cm & Ct).
  destruct (rename_same names p (da_shape a) p' (same_shape_sym _ _ Hsh) E) as (q' & Eq & Hsq). unfold da_rename.
  assert (Hio : item_ok (mkitem (i_obj (da_data a)) (i_var (da_data a)) true false)) by (split; [exact Hw|reflexivity]).
  destruct (rename_item_ok _ names q' Hio Hn (rename_known _ _ _ false Eq)) as (v & Ev & Hpv & Hwv & Hst & Hof). cbn [i_var] in *. rewrite Ev. cbn [bind].
  assert (Sc : sd_shape (da_coords a) = da_shape a) by (unfold sd_shape; rewrite Ec; reflexivity).
  assert (Sm : sd_shape (da_masks a) = da_shape a) by (unfold sd_shape; rewrite Em; reflexivity).
  assert (Sa : sd_shape (da_attrs a) = da_shape a) by (unfold sd_shape; rewrite Et; reflexivity).
  assert (Hkn : known_names (da_shape a) names) by (unfold known_names; rewrite Eq; discriminate).
  destruct (sd_rename_ok _ names false Hc Hn) as [_ Hc2]; [right; rewrite Sc; exact Hkn|]. rewrite Sc in Hc2.
  destruct (Hc2 q' Eq) as (c & -> & Hcok & Hcs & _ & Hcr); [rewrite Hno; intros ? ? ? []|]. cbn [bind]. clear Hc2.
  destruct (sd_rename_ok _ names false Hm Hn) as [Hm1 Hm2]; [right; rewrite Sm; exact Hkn|]. rewrite Sm in Hm1, Hm2.
  destruct (sd_rename_ok _ names false Ht Hn) as [Ht1 Ht2]; [right; rewrite Sa; exact Hkn|]. rewrite Sa in Ht1, Ht2.
  rewrite taken_app. split.
  - intros Htk. destruct (name_taken_dec names (da_shape a) (sd_list (da_masks a))) as [Hy|Hy]; [rewrite (Hm1 (or_intror Hy)); reflexivity|].
    destruct (Hm2 q' Eq (not_taken _ _ _ Hy)) as (m & -> & _). cbn [bind]. destruct Htk as [Htk|Htk]; [contradiction|]. rewrite (Ht1 (or_intror Htk)). reflexivity.
  - intros Htk. destruct (Hm2 q' Eq) as (m & -> & Hmok & Hms & _ & Hmr); [apply not_taken; tauto|]. cbn [bind].
    destruct (Ht2 q' Eq) as (t & -> & Htok & Hts & _ & Htr); [apply not_taken; tauto|]. cbn [bind].
    destruct (wf_mk_pairs _ (proj1 Hwv)) as [Evd _]. rewrite Hpv in Evd.
    assert (Hss : forall d, sd_ok d -> sd_shape d = q' -> sd_sizes d = v_dims v).
    { intros d Hok E'. rewrite Evd, <- E'. apply (wf_mk_pairs _ (proj1 Hok)). }
    unfold da_make. change (i_dims (with_var (da_data a) v)) with (v_dims v).
    rewrite <- (Hss c Hcok Hcs), (set_sizes_same c Hcok). cbn [bind].
    rewrite (Hss c Hcok Hcs), <- (Hss m Hmok Hms), (set_sizes_same m Hmok). cbn [bind].
    rewrite (Hss m Hmok Hms), <- (Hss t Htok Hts), (set_sizes_same t Htok). cbn [bind].
    eexists. split; [reflexivity|]. unfold item_good, da_ok, da_comparable, da_shape, ishape, i_dims, comparable. cbn [da_data da_coords da_masks da_attrs with_var i_var].
    split.
    + split; [split; [exact Hwv|]; repeat (split; [solve [assumption|apply Hss; assumption]|]); assumption|]. split; [|split].
      * split; [split; [exact Hwv|]|].
        { unfold ishape, i_dims. cbn [with_var i_var]. rewrite Hpv, (rename_length _ _ _ _ Eq). apply Cd. }
        split; [exact (renamed_comparable _ _ _ Hcr Cc Hcok)|]. split; [exact (renamed_comparable _ _ _ Hmr Cm Hmok)|exact (renamed_comparable _ _ _ Htr Ct Htok)].
      * rewrite Hno in Hcr. inversion Hcr. reflexivity.
      * rewrite Hpv. apply same_shape_sym, Hsq.
    + constructor; [|constructor]. cbn [fst snd da_data da_masks da_attrs with_var i_var i_obj]. unfold da_shape, ishape, i_dims. cbn [da_data with_var i_var].
      rewrite Hpv. change (pairs (v_dims (i_var (da_data a)))) with (da_shape a). auto 10.
Qed.

Lemma rename_data_ok st names p p' l : lwf p -> ~ In InvalidDim (map snd names) -> rename_pairs p names true = Some p' ->
  forall out, ds_ok out -> ds_readonly out = false -> ds_valid out = true -> ds_shape out = p' -> NoDup (map fst (ds_list out ++ l)) ->
  (forall k a, In (k, a) l -> item_good p a) ->
  (taken_any names l -> rename_data st out l names = Throw DimensionError) /\
  (~ taken_any names l -> exists d' l', rename_data st out l names = Ok d' /\ ds_ok d' /\ ds_readonly d' = false /\ ds_valid d' = true /\ ds_sizes d' = ds_sizes out /\
    sd_list (ds_coords d') = sd_list (ds_coords out) /\ ds_list d' = ds_list out ++ l' /\ data_renamed names l l').
Proof.
  intros Hp Hn E. induction l as [|[k a] l IH]; intros d Hd Hr Hv Hds Hnd Hg; cbn [rename_data].
  - split; [intros (? & ? & [] & _)|]. intros _. exists d, []. rewrite app_nil_r. do 6 (split; [assumption || reflexivity|]). split; [reflexivity|constructor].
  - assert (Hga : item_good p a) by (apply (Hg k); left; reflexivity). destruct (da_rename_good names a p p' Hga Hp Hn E) as [H1 H2].
    destruct (name_taken_dec names (da_shape a) (sd_list (da_masks a) ++ sd_list (da_attrs a))) as [Hy|Hy].
    { rewrite (H1 Hy). split; [reflexivity|]. intros Hx. exfalso. apply Hx. exists k, a. split; [left; reflexivity|exact Hy]. }
    destruct (H2 Hy) as (a' & -> & (Ha & Hca & Hno & Hsh) & Hren). cbn [bind].
    destruct (set_da_ok st d k a' Hd Ha Hca) as (_ & _ & _ & _ & H5).
    assert (Hk : ~ In k (map fst (ds_list d))).
    { rewrite map_app in Hnd. cbn [map fst] in Hnd. apply NoDup_remove_2 in Hnd. intros Hk. apply Hnd, in_or_app. auto. }
    destruct H5 as (d' & b & -> & Hd' & Hr' & Hv' & Hsz & Hput & Hbare & Hcs); try assumption.
    + intros (w & (_ & x & Hx & _) & _). apply Hk, in_keys_ex. eauto.
    + intros (k0 & i & j & _ & Hj & _). rewrite Hno in Hj. destruct Hj.
    + rewrite Hds. exact Hsh.
    + cbn [result bind]. rewrite Hno in Hcs. unfold missing in Hcs. cbn [filter] in Hcs. rewrite app_nil_r in Hcs.
      assert (El : ds_list d' = ds_list d ++ [(k, b)]).
      { destruct Hput as [[_ El]|(l1 & y & l2 & El & _)]; [exact El|]. exfalso. apply Hk. rewrite El, map_app. apply in_elt. }
      assert (Hds' : ds_shape d' = p') by (rewrite <- Hds; unfold ds_shape, sd_shape; unfold ds_sizes in Hsz; rewrite Hsz; reflexivity).
      destruct (IH d' Hd' Hr' Hv' Hds') as [I1 I2].
      * rewrite El, <- app_assoc. rewrite map_app in *. exact Hnd.
      * intros k0 a0 Hi. apply (Hg k0). right. exact Hi.
      * split.
        -- intros (nm & x & [F|F] & G); [injection F as <- <-; contradiction|]. apply I1. exists nm, x. auto.
        -- intros Hx. destruct I2 as (d2 & l' & -> & Hd2 & Hr2 & Hv2 & Hsz2 & Hcs2 & El2 & Hf); [intros (nm & x & F & G); apply Hx; exists nm, x; split; [right; exact F|exact G]|].
           exists d2, ((k, b) :: l'). split; [reflexivity|]. split; [exact Hd2|]. split; [exact Hr2|]. split; [exact Hv2|]. split; [congruence|]. split; [congruence|].
           split; [rewrite El2, El, <- app_assoc; reflexivity|]. constructor; [|exact Hf]. inversion Hren as [|? ? ? ? (_ & R) _]. cbn [fst snd] in *.
           destruct Hbare as (B1 & B2 & B3 & _). unfold da_shape in *. rewrite B1, B2, B3. split; [reflexivity|exact R].
Qed.

Theorem ds_rename_ok st d names : ds_ok d -> ~ In InvalidDim (map snd names) ->
  (rename_pairs (ds_shape d) names true = None \/ name_taken names (ds_shape d) (sd_list (ds_coords d)) \/ taken_any names (ds_list d) ->
   ds_rename st d names = Throw DimensionError) /\
  (forall p', rename_pairs (ds_shape d) names true = Some p' -> ~ name_taken names (ds_shape d) (sd_list (ds_coords d)) -> ~ taken_any names (ds_list d) ->
   exists d', ds_rename st d names = Ok d' /\ ds_ok d' /\ ds_shape d' = p' /\ ds_readonly d' = false /\ ds_valid d' = true /\
     dict_renamed names (sd_list (ds_coords d)) (sd_list (ds_coords d')) /\ data_renamed names (ds_list d) (ds_list d')).
Proof.
  intros Hok Hn. destruct (ds_items d Hok) as [Ed Hnd]. destruct (ds_parts d Hok) as (p & Esz & Esh & Hp). pose proof Hok as (Hc & Hcc & _ & _ & Hf & _).
  unfold ds_rename. change (ditems (ds_data d)) with (ds_list d).
  destruct (sd_rename_ok _ names true Hc Hn (or_introl eq_refl)) as [H1 H2]. fold (ds_shape d) in H1, H2.
  assert (Hmain : forall p', rename_pairs (ds_shape d) names true = Some p' -> ~ name_taken names (ds_shape d) (sd_list (ds_coords d)) ->
     exists c, sd_rename (ds_coords d) names true = Ok c /\ sd_shape c = p' /\ dict_renamed names (sd_list (ds_coords d)) (sd_list c) /\
      (taken_any names (ds_list d) -> rename_data st (mkds c mempty false true) (ds_list d) names = Throw DimensionError) /\
      (~ taken_any names (ds_list d) -> exists d' l', rename_data st (mkds c mempty false true) (ds_list d) names = Ok d' /\ ds_ok d' /\ ds_readonly d' = false /\
        ds_valid d' = true /\ ds_sizes d' = sd_sizes c /\ sd_list (ds_coords d') = sd_list c /\ ds_list d' = l' /\ data_renamed names (ds_list d) l')).
  { intros p' E Hnt. destruct (H2 p' E (not_taken _ _ _ Hnt)) as (c & Ec & Hcok & Hcs & Hcr & Hren). exists c. split; [exact Ec|]. split; [exact Hcs|]. split; [exact Hren|].
    rewrite Esh in E. change (@mempty Z darray) with (@mkd darray []).
    assert (H0 : ds_ok (mkds c (mkd []) false true)).
    { apply ds_ok_mk; [exact Hcok|exact (renamed_comparable _ _ _ Hren Hcc Hcok)|constructor|intros ? ? []|intros _; exact Hcr|discriminate]. }
    apply (rename_data_ok st names p p' (ds_list d) Hp Hn E (mkds c (mkd []) false true) H0 eq_refl eq_refl Hcs); [exact Hnd|].
    intros k a Hi. rewrite <- Esh. exact (Hf k a Hi). }
  split.
  - intros Hbad. destruct (rename_pairs (ds_shape d) names true) as [p'|] eqn:E; [|rewrite (H1 (or_introl eq_refl)); reflexivity].
    destruct (name_taken_dec names (ds_shape d) (sd_list (ds_coords d))) as [Hy|Hy]; [rewrite (H1 (or_intror Hy)); reflexivity|].
    destruct Hbad as [Hbad|[Hbad|Hbad]]; [discriminate|contradiction|].
    destruct (Hmain p' eq_refl Hy) as (c & -> & _ & _ & Hx & _). exact (Hx Hbad).
  - intros p' E Hnt Hna. destruct (Hmain p' E Hnt) as (c & -> & Hcs & Hren & _ & Hx). destruct (Hx Hna) as (d' & l' & E2 & Hd' & Hr & Hv & Hsz & Hcl & Hl & Hdr).
    cbn [bind]. exists d'. split; [exact E2|]. split; [exact Hd'|]. split; [unfold ds_shape, sd_shape; unfold ds_sizes in Hsz; rewrite Hsz; exact Hcs|].
    rewrite Hcl, Hl. auto.
Qed.

(** ** Merging *)
Lemma sizes_set_new p k n : lwf p -> k <> InvalidDim -> 0 <= n -> ~ In k (keys p) -> sizes_set (mk p) k n = Ok (mk (p ++ [(k, n)])).
Proof.
  intros Hp Hk Hn Hi. pose proof (add_inner_mk p k n Hk Hn) as Ha. unfold add_inner in Ha. unfold sizes_set. rewrite dcontains_mk.
  apply mem_nIn in Hi. rewrite Hi in *. destruct (valid_dim k); try discriminate. destruct (valid_extent n); try discriminate. cbn [bind] in *. exact Ha.
Qed.
Lemma lwf_snoc p k n : lwf p -> k <> InvalidDim -> 0 <= n -> ~ In k (keys p) -> lwf (p ++ [(k, n)]).
Proof.
  intros (Hn1 & Hn2 & Hn3) Hk Hn Hi. split; [rewrite keys_app; apply NoDup_snoc; assumption|]. split.
  - rewrite extents_app. apply Forall_app. split; [exact Hn2|]. constructor; [exact Hn|constructor].
  - rewrite keys_app. intros Hx. apply in_app_or in Hx as [Hx|[Hx|[]]]; [contradiction|]. cbn [fst] in Hx. congruence.
Qed.
Lemma merge_loop_ok q ls : forall p, lwf p -> lwf q -> incl ls (keys q) ->
  merge_sizes_loop (mk p) (mk q) ls = Throw DimensionError \/ exists p', merge_sizes_loop (mk p) (mk q) ls = Ok (mk p') /\ lwf p'.
Proof.
  induction ls as [|l ls IH]; intros p Hp Hq Hi; cbn [merge_sizes_loop]; [right; eauto|].
  assert (Hl : In l (keys q)) by (apply Hi; left; reflexivity). assert (Hi' : incl ls (keys q)) by (intros x Hx; apply Hi; right; exact Hx).
  apply In_keys in Hl as [b Hb]. rewrite (dat_mk q l) by apply Hq. rewrite (proj2 (extent_In q l b (proj1 Hq)) Hb). cbn [bind].
  assert (Hb0 : 0 <= b) by (destruct Hq as (_ & Hq & _); rewrite Forall_forall in Hq; apply Hq; apply (in_map snd) in Hb; exact Hb).
  assert (Hli : l <> InvalidDim) by (intros ->; apply (proj2 (proj2 Hq)), In_keys; eauto).
  rewrite dcontains_mk. destruct (mem l (keys p)) eqn:Em.
  - apply mem_In, In_keys in Em as [a Ha]. pose proof Ha as Ha'. apply in_split in Ha as (p1 & p2 & ->).
    assert (Hk1 : ~ In l (keys p1)) by (destruct Hp as (Hn & _); rewrite keys_app in Hn; apply NoDup_remove_2 in Hn; intros Hx; apply Hn, in_or_app; auto).
    rewrite dat_sp by exact Hk1. cbn [bind]. destruct (a =? b + 1).
    + rewrite resize_sp by assumption. cbn [bind]. apply IH; [apply (lwf_mid _ _ _ _ _ Hp Hb0)|assumption|assumption].
    + destruct (a + 1 =? b); [cbn [bind]; apply IH; assumption|]. destruct (a =? b); [cbn [bind]; apply IH; assumption|left; reflexivity].
  - apply mem_nIn in Em. rewrite sizes_set_new by assumption. cbn [bind]. apply IH; [apply lwf_snoc; assumption|assumption|assumption].
Qed.
Lemma auto_sizes_ok l : forall p, lwf p -> (forall k it, In (k, it) l -> wfv (i_var it)) ->
  auto_sizes (mk p) l = Throw DimensionError \/ exists p', auto_sizes (mk p) l = Ok (mk p') /\ lwf p'.
Proof.
  induction l as [|[k it] l IH]; intros p Hp Hl; cbn [auto_sizes]; [right; eauto|].
  destruct (wf_mk_pairs _ (proj1 (Hl k it (or_introl eq_refl)))) as [Ei Li]. change (v_dims (i_var it)) with (i_dims it) in *. rewrite Ei.
  change (labels (mk (pairs (i_dims it)))) with (keys (pairs (i_dims it))).
  destruct (merge_loop_ok _ (keys (pairs (i_dims it))) p Hp Li (incl_refl _)) as [->|(p' & -> & Hp')]; [left; reflexivity|]. cbn [bind].
  apply IH; [exact Hp'|]. intros k0 it0 Hi. apply (Hl k0). right. exact Hi.
Qed.
Lemma sd_set_comp d k it : sd_ok d -> dict_comparable d -> comparable it ->
  match sd_set d k it with
  | Ok d' => sd_ok d' /\ dict_comparable d' /\ sd_sizes d' = sd_sizes d /\ sd_readonly d' = sd_readonly d /\
      (~ In k (map fst (sd_list d)) -> sd_list d' = sd_list d ++ [(k, it)])
  | Throw _ => True
  | Ub => False
  end.
Proof.
  intros Hok Hc Hit. pose proof (sd_set_keeps d k it Hok (proj1 Hit)) as Hk. destruct (sd_set d k it) as [d'|e|] eqn:E; [|exact I|exact Hk].
  destruct Hk as (H1 & H2 & H3). split; [exact H1|]. revert E. unfold sd_set. destruct (dict_cases d Hc) as [Ed Hn].
  unfold sd_contains, sd_at. rewrite Ed. destruct (mcontains Z.eqb (mkd (sd_list d)) k) eqn:Em.
  - destruct (mat Z.eqb NotFoundError (mkd (sd_list d)) k) as [old| |]; cbn [bind]; try discriminate. destruct (is_same old it).
    { intros [= <-]. split; [exact Hc|]. split; [reflexivity|]. split; [reflexivity|]. apply contains_In in Em. contradiction. }
    destruct (sd_readonly d); [discriminate|]. destruct (i_bins it); [discriminate|]. destruct (relax _ _ _); try discriminate. cbn [bind].
    destruct (includes _ _) as [[]| |]; try discriminate. cbn [bind]. destruct (insert_put (sd_list d) k it Hn) as (l' & -> & Hp & Hn' & Hi). cbn [bind]. intros [= <-].
    split; [|split; [reflexivity|split; [reflexivity|apply contains_In in Em; contradiction]]]. apply dict_comp; [exact Hn'|]. intros k0 i0 Hi0. apply Hi in Hi0 as [[-> ->]|[_ Hi0]]; [exact Hit|exact (proj2 (proj2 Hc) k0 i0 Hi0)].
  - cbn [bind]. destruct (sd_readonly d); [discriminate|]. destruct (i_bins it); [discriminate|]. destruct (relax _ _ _); try discriminate. cbn [bind].
    destruct (includes _ _) as [[]| |]; try discriminate. cbn [bind]. apply contains_nIn in Em. rewrite insert_new by exact Em. cbn [bind]. intros [= <-].
    split; [|split; [reflexivity|split; [reflexivity|intros _; apply sd_list_mk]]]. apply dict_comp; [rewrite map_app; apply NoDup_snoc; assumption|].
    intros k0 i0 Hi0. apply in_app_or in Hi0 as [Hi0|[Hi0|[]]]; [exact (proj2 (proj2 Hc) k0 i0 Hi0)|]. injection Hi0 as <- <-. exact Hit.
Qed.

Lemma set_coord_ok d k it : ds_ok d -> comparable it ->
  match ds_set_coord d k it with
  | Ok d' => ds_ok d' /\ ds_readonly d' = false /\ ds_valid d' = true /\ ds_list d' = ds_list d /\ ds_sizes d' = ds_sizes d /\
      (~ In k (map fst (sd_list (ds_coords d))) -> sd_list (ds_coords d') = sd_list (ds_coords d) ++ [(k, it)])
  | Throw _ => True
  | Ub => False
  end.
Proof.
  intros Hd Hit. pose proof Hd as (Hc & Hcc & Hn & Hl & Hf & Hro & Hva). unfold ds_set_coord, ds_check. destruct (ds_readonly d) eqn:Er; [exact I|].
  destruct (ds_valid d) eqn:Ev; [|exact I]. cbn [bind]. pose proof (sd_set_comp _ k it Hc Hcc Hit) as Hs. destruct (sd_set (ds_coords d) k it) as [c| |]; cbn [bind]; [|exact I|exact Hs].
  destruct Hs as (H1 & H2 & H3 & H4 & H5). unfold with_coords. rewrite Er, Ev. split; [|do 2 (split; [reflexivity|]); split; [reflexivity|split; [exact H3|exact H5]]].
  split; [exact H1|]. split; [exact H2|]. split; [exact Hn|]. split; [exact Hl|]. split.
  - intros k0 a Hi. destruct (Hf k0 a Hi) as (G1 & G2 & G3 & G4). split; [exact G1|]. split; [exact G2|]. split; [exact G3|].
    unfold ds_shape, sd_shape in *. cbn [ds_coords]. rewrite H3. exact G4.
  - split; [intros _; cbn [ds_coords]; rewrite H4; apply Hro; reflexivity|discriminate].
Qed.
Lemma set_coord_all_ok l : forall d, ds_ok d -> ds_readonly d = false -> ds_valid d = true -> NoDup (map fst (sd_list (ds_coords d) ++ l)) ->
  (forall k it, In (k, it) l -> comparable it) ->
  match set_coord_all d l with
  | Ok d' => ds_ok d' /\ ds_readonly d' = false /\ ds_valid d' = true /\ ds_list d' = ds_list d /\ ds_sizes d' = ds_sizes d /\
      sd_list (ds_coords d') = sd_list (ds_coords d) ++ l
  | Throw _ => True
  | Ub => False
  end.
Proof.
  induction l as [|[k it] l IH]; intros d Hd Hr Hv Hn Hl; cbn [set_coord_all].
  - rewrite app_nil_r. auto 10.
  - pose proof (set_coord_ok d k it Hd (Hl k it (or_introl eq_refl))) as Hs. destruct (ds_set_coord d k it) as [d1| |]; cbn [bind]; [|exact I|exact Hs].
    destruct Hs as (H1 & H2 & H3 & H4 & H5 & H6).
    assert (Hk : ~ In k (map fst (sd_list (ds_coords d)))).
    { rewrite map_app in Hn. cbn [map fst] in Hn. apply NoDup_remove_2 in Hn. intros Hx. apply Hn, in_or_app. auto. }
    specialize (H6 Hk). specialize (IH d1 H1 H2 H3). destruct (set_coord_all d1 l) as [d2| |]; [|exact I|].
    + destruct IH as (I1 & I2 & I3 & I4 & I5 & I6).
      * rewrite H6, <- app_assoc. exact Hn.
      * intros k0 it0 Hi. apply (Hl k0). right. exact Hi.
      * rewrite H6, <- app_assoc in I6. repeat (split; [solve [assumption|congruence]|]). exact I6.
    + apply IH; [rewrite H6, <- app_assoc; exact Hn|]. intros k0 it0 Hi. apply (Hl k0). right. exact Hi.
Qed.

(** Filling a dataset with data arrays in general. *)
Lemma fill_gen st l : forall d, ds_ok d -> ds_readonly d = false -> ds_valid d = true -> NoDup (map fst (ds_list d ++ l)) ->
  (forall k a, In (k, a) l -> da_ok a /\ da_comparable a) ->
  match set_da_all st d l with
  | Ok d' => ds_ok d' /\ ds_readonly d' = false /\ ds_valid d' = true /\ ds_sizes d' = ds_sizes d /\
      incl (sd_list (ds_coords d)) (sd_list (ds_coords d')) /\
      exists l', ds_list d' = ds_list d ++ l' /\ Forall2 (fun x y => fst y = fst x /\ bare (snd x) (snd y)) l l'
  | Throw _ => True
  | Ub => False
  end.
Proof.
  induction l as [|[k a] l IH]; intros d Hd Hr Hv Hn Hl; cbn [set_da_all].
  - split; [exact Hd|]. do 3 (split; [assumption || reflexivity|]). split; [apply incl_refl|]. exists []. rewrite app_nil_r. auto.
  - destruct (Hl k a (or_introl eq_refl)) as [Ha Hca]. destruct (set_da_ok st d k a Hd Ha Hca) as (_ & H2 & _ & H4 & H5).
    assert (Hk : ~ In k (map fst (ds_list d))).
    { rewrite map_app in Hn. cbn [map fst] in Hn. apply NoDup_remove_2 in Hn. intros Hk. apply Hn, in_or_app. auto. }
    assert (Hni : ~ identical st d k a) by (intros (w & (_ & x & Hx & _) & _); apply Hk, in_keys_ex; eauto).
    destruct (clash_dec st d (sd_list (da_coords a)) (proj1 (proj2 Hd)) (proj2 (proj2 (proj1 (proj2 Hca))))) as [Hcl|Hcl].
    { rewrite (H2 Hni Hcl). exact I. }
    pose proof Ha as (Hw & _). pose proof (sizes_eqb_shape (ds_sizes d) (i_dims (da_data a)) (proj1 (proj1 Hd)) (proj1 Hw)) as Hdec.
    destruct (sizes_eqb (ds_sizes d) (i_dims (da_data a))).
    + assert (Hsh : same_shape (da_shape a) (ds_shape d)) by (apply same_shape_sym, Hdec; reflexivity).
      destruct (H5 Hni Hcl Hr Hv Hsh) as (d' & b & -> & Hd' & Hr' & Hv' & Hsz & Hput & Hbare & Hcs). cbn [result bind].
      assert (El : ds_list d' = ds_list d ++ [(k, b)]).
      { destruct Hput as [[_ El]|(l1 & y & l2 & El & _)]; [exact El|]. exfalso. apply Hk. rewrite El, map_app. apply in_elt. }
      specialize (IH d' Hd' Hr' Hv'). destruct (set_da_all st d' l) as [d2| |]; [|exact I|].
      * destruct IH as (I1 & I2 & I3 & I4 & I5 & l' & I6 & I7).
        -- rewrite El, <- app_assoc. rewrite map_app in *. exact Hn.
        -- intros k0 a0 Hi. apply (Hl k0). right. exact Hi.
        -- split; [exact I1|]. split; [exact I2|]. split; [exact I3|]. split; [congruence|]. split; [intros x Hx; apply I5; rewrite Hcs; apply in_or_app; auto|].
           exists ((k, b) :: l'). rewrite I6, El, <- app_assoc. split; [reflexivity|]. constructor; [split; [reflexivity|exact Hbare]|exact I7].
      * apply IH; [rewrite El, <- app_assoc; rewrite map_app in *; exact Hn|]. intros k0 a0 Hi. apply (Hl k0). right. exact Hi.
    + rewrite (H4 Hni Hcl Hr Hv); [exact I|]. intros Hs. enough (false = true) by discriminate. apply Hdec, same_shape_sym, Hs.
Qed.

Definition lsorted {A} (l : list (Z * A)) : Prop := StronglySorted Z.lt (map fst l).
Lemma lsorted_nodup {A} (l : list (Z * A)) : lsorted l -> NoDup (map fst l).
Proof.
  unfold lsorted. induction (map fst l) as [|x r IH]; intros Hs; [constructor|]. inversion Hs as [|? ? Hs' Hf]; subst. constructor; [|apply IH, Hs'].
  intros Hx. rewrite Forall_forall in Hf. specialize (Hf x Hx). lia.
Qed.
Lemma emplace_ok k a l : lsorted l -> lsorted (emplace k a l) /\
  forall k' x, In (k', x) (emplace k a l) <-> In (k', x) l \/ (~ In k (map fst l) /\ k' = k /\ x = a).
Proof.
  unfold lsorted. induction l as [|[k0 a0] l IH]; intros Hs; cbn [emplace].
  - split; [repeat constructor|]. intros k' x. cbn [In map]. split; [intros [[= <- <-]|[]]; right; auto|intros [[]|(_ & -> & ->)]; auto].
  - cbn [map fst] in Hs. inversion Hs as [|? ? Hs' Hf]; subst. rewrite Forall_forall in Hf. destruct (Z.ltb_spec k k0).
    + split.
      * cbn [map fst]. constructor; [exact Hs|]. constructor; [assumption|]. apply Forall_forall. intros x Hx. specialize (Hf x Hx). lia.
      * intros k' x. cbn [In map fst]. split.
        -- intros [[= <- <-]|Hi]; [right|left; exact Hi]. split; [|auto]. intros [->|Hx]; [lia|]. specialize (Hf k Hx). lia.
        -- intros [Hi|(_ & -> & ->)]; auto.
    + destruct (Z.ltb_spec k0 k).
      * destruct (IH Hs') as [I1 I2]. split.
        -- cbn [map fst]. constructor; [exact I1|]. apply Forall_forall. intros x Hx. apply in_keys_ex in Hx as [y Hy]. apply I2 in Hy as [Hy|(_ & -> & _)]; [|assumption].
           apply Hf. apply (in_map fst) in Hy. exact Hy.
        -- intros k' x. cbn [In map fst]. rewrite I2. split.
           ++ intros [Hx|[Hx|(Hn & -> & ->)]]; auto. right. split; [|auto]. intros [->|Hx]; [lia|contradiction].
           ++ intros [[Hx|Hx]|(Hn & -> & ->)]; auto. right. right. split; [|auto]. intros Hx. apply Hn. auto.
      * assert (k = k0) by lia. subst k0. split; [exact Hs|]. intros k' x. cbn [In map fst]. split; [auto|]. intros [Hx|(Hn & _)]; [exact Hx|]. exfalso. apply Hn. auto.
Qed.

Lemma union_first_items a : ds_ok a -> forall ks out, (forall k, In k ks -> In k (map fst (ds_list a))) -> lsorted out ->
  (forall k x, In (k, x) out -> ds_item a k = Ok x) ->
  exists out', ds_union_first a out ks = Ok out' /\ lsorted out' /\
    forall k x, In (k, x) out' <-> ((In k (map fst out) \/ In k ks) /\ ds_item a k = Ok x).
Proof.
  intros Ha. induction ks as [|k ks IH]; intros out Hk Hs Ho; cbn [ds_union_first].
  - exists out. split; [reflexivity|]. split; [exact Hs|]. intros k x. split.
    + intros Hi. split; [left; apply (in_map fst) in Hi; exact Hi|exact (Ho k x Hi)].
    + intros [[Hi|[]] E]. apply in_keys_ex in Hi as [y Hy]. pose proof (Ho k y Hy). congruence.
  - destruct (in_keys_ex (ds_list a) k) as [F _]. destruct (F (Hk k (or_introl eq_refl))) as [y Hy]. destruct (seen_ok a k y Ha Hy) as (w & Ew & _). rewrite Ew. cbn [bind].
    destruct (emplace_ok k w out Hs) as [H1 H2]. destruct (IH (emplace k w out)) as (out' & E & Hs' & Hm); [intros k0 H0; apply Hk; right; exact H0|exact H1| |].
    + intros k0 x Hi. apply H2 in Hi as [Hi|(_ & -> & ->)]; [exact (Ho k0 x Hi)|exact Ew].
    + exists out'. split; [exact E|]. split; [exact Hs'|]. intros k0 x. rewrite Hm. cbn [In].
      assert (G : In k0 (map fst (emplace k w out)) <-> In k0 (map fst out) \/ k = k0).
      { rewrite !in_keys_ex. split.
        - intros [z Hz]. apply H2 in Hz as [Hz|(_ & -> & _)]; [left; eauto|right; reflexivity].
        - intros [[z Hz]|<-]; [exists z; apply H2; auto|]. destruct (in_dec Z.eq_dec k (map fst out)) as [Hi|Hi].
          + apply in_keys_ex in Hi as [z Hz]. exists z. apply H2. auto.
          + exists w. apply H2. auto. }
      rewrite G. tauto.
Qed.

Lemma seen_same st nan d k w w' x : ds_ok d -> seen d k w -> seen d k w' -> (da_same nan st w x <-> da_same nan st w' x) /\ (da_same nan st x w <-> da_same nan st x w').
Proof.
  intros Hd Hw Hw'. destruct (seen_unique d k w w' Hd Hw Hw') as (E1 & E2 & E3 & E4).
  assert (E5 : sd_items (da_coords w) = sd_items (da_coords w')).
  { destruct Hw as ((_ & _ & _ & _ & Hc & _) & _). destruct Hw' as ((_ & _ & _ & _ & Hc' & _) & _).
    apply sd_ok_alt in Hc as (_ & -> & _). apply sd_ok_alt in Hc' as (_ & -> & _). rewrite E4. reflexivity. }
  unfold da_same, dict_same, sd_list. rewrite E1, E2, E3, E5. split; reflexivity.
Qed.

Lemma union_second_items st a b : ds_ok a -> ds_ok b -> forall ks out, (forall k, In k ks -> In k (map fst (ds_list b))) -> lsorted out ->
  (exists k x y, In k ks /\ seen a k x /\ seen b k y /\ ~ da_same false st y x) /\ ds_union_second st a b out ks = Throw DataArrayError \/
  ~ (exists k x y, In k ks /\ seen a k x /\ seen b k y /\ ~ da_same false st y x) /\
  exists out', ds_union_second st a b out ks = Ok out' /\ lsorted out' /\
    forall k x, In (k, x) out' <-> In (k, x) out \/ (In k ks /\ ~ In k (map fst out) /\ ~ In k (map fst (ds_list a)) /\ ds_item b k = Ok x).
Proof.
  intros Ha Hb. destruct (ds_items a Ha) as [Ea Hna]. induction ks as [|k ks IH]; intros out Hk Hs; cbn [ds_union_second].
  - right. split; [intros (? & ? & ? & [] & _)|]. exists out. split; [reflexivity|]. split; [exact Hs|]. intros k x. cbn [In]. tauto.
  - assert (Hk' : forall k0, In k0 ks -> In k0 (map fst (ds_list b))) by (intros k0 H0; apply Hk; right; exact H0).
    destruct (in_keys_ex (ds_list b) k) as [F _]. destruct (F (Hk k (or_introl eq_refl))) as [y Hy]. destruct (seen_ok b k y Hb Hy) as (w & Ew & _ & Cw & _). rewrite Ew. cbn [bind].
    pose proof (seen_iff b k w Hb Ew) as Hsw. rewrite Ea. destruct (mcontains Z.eqb (mkd (ds_list a)) k) eqn:Em.
    + apply contains_In in Em. pose proof Em as Em'. apply in_keys_ex in Em as [z Hz]. destruct (seen_ok a k z Ha Hz) as (v & Ev & _ & Cv & _). rewrite Ev. cbn [bind].
      pose proof (seen_iff a k v Ha Ev) as Hsv. destruct (da_compare_ok st false w v Cw Cv) as (r & -> & Hr). cbn [bind]. destruct r.
      * destruct (IH out Hk' Hs) as [[(k0 & x0 & y0 & H0) E]|[Hno (out' & E & Hs' & Hm)]].
        -- left. split; [exists k0, x0, y0; split; [right; apply H0|apply H0]|exact E].
        -- right. split.
           ++ intros (k0 & x0 & y0 & [<-|H0] & H1 & H2 & H3); [|apply Hno; exists k0, x0, y0; auto].
              apply H3. apply (proj1 (seen_same st false b k y0 w x0 Hb H2 Hsw)). apply (proj2 (seen_same st false a k x0 v w Ha H1 Hsv)). apply Hr. reflexivity.
           ++ exists out'. split; [exact E|]. split; [exact Hs'|]. intros k0 x0. rewrite Hm. cbn [In]. split; [tauto|]. intros [Hi|([<-|Hi] & H1 & H2 & H3)]; [tauto|contradiction|tauto].
      * left. split; [|reflexivity]. exists k, v, w. split; [left; reflexivity|]. split; [exact Hsv|]. split; [exact Hsw|]. intros Hx. apply Hr in Hx. discriminate.
    + apply contains_nIn in Em. destruct (emplace_ok k w out Hs) as [H1 H2].
      destruct (IH (emplace k w out) Hk' H1) as [[(k0 & x0 & y0 & H0) E]|[Hno (out' & E & Hs' & Hm)]].
      * left. split; [exists k0, x0, y0; split; [right; apply H0|apply H0]|exact E].
      * right. split.
        -- intros (k0 & x0 & y0 & [<-|H0] & G1 & G2 & G3); [|apply Hno; exists k0, x0, y0; auto]. destruct G1 as (_ & z & Hz & _). apply Em, in_keys_ex. eauto.
        -- exists out'. split; [exact E|]. split; [exact Hs'|]. intros k0 x0. rewrite Hm, H2. cbn [In].
           assert (G : In k0 (map fst (emplace k w out)) <-> In k0 (map fst out) \/ k = k0).
           { rewrite !in_keys_ex. split.
             - intros [z Hz]. apply H2 in Hz as [Hz|(_ & -> & _)]; [left; eauto|right; reflexivity].
             - intros [[z Hz]|<-]; [exists z; apply H2; auto|]. destruct (in_dec Z.eq_dec k (map fst out)) as [Hi|Hi].
               + apply in_keys_ex in Hi as [z Hz]. exists z. apply H2. auto.
               + exists w. apply H2. auto. }
           rewrite G. split.
           ++ intros [[Hi|(G1 & -> & ->)]|(G1 & G2 & G3 & G4)]; [auto|right; auto|right]. split; [auto|]. split; [tauto|auto].
           ++ intros [Hi|(G1 & G2 & G3 & G4)]; [auto|]. destruct (Z.eq_dec k k0) as [<-|Hne].
              ** left. right. split; [exact G2|]. split; [reflexivity|congruence].
              ** right. destruct G1 as [G1|G1]; [contradiction|]. split; [exact G1|]. split; [tauto|auto].
Qed.

Lemma ds_union_ok st a b : ds_ok a -> ds_ok b ->
  (items_differ st a b -> ds_union st a b = Throw DataArrayError) /\
  (~ items_differ st a b -> exists l, ds_union st a b = Ok l /\ lsorted l /\
     forall k x, In (k, x) l <-> ds_item a k = Ok x \/ (~ In k (map fst (ds_list a)) /\ ds_item b k = Ok x)) /\
  (items_differ st a b \/ ~ items_differ st a b).
Proof.
  intros Ha Hb. destruct (ds_items a Ha) as [Ea Hna]. destruct (ds_items b Hb) as [Eb Hnb]. unfold ds_union.
  assert (Ka : forall k, In k (m_keys (ds_data a)) <-> In k (map fst (ds_list a))) by (intros k; rewrite Ea at 1; reflexivity).
  assert (Kb : forall k, In k (m_keys (ds_data b)) <-> In k (map fst (ds_list b))) by (intros k; rewrite Eb at 1; reflexivity).
  assert (Hit : forall d k x, ds_ok d -> ds_item d k = Ok x -> In k (map fst (ds_list d))).
  { intros d k x Hd E. destruct (seen_iff d k x Hd E) as (_ & y & Hy & _). apply in_keys_ex. eauto. }
  destruct (union_first_items a Ha (m_keys (ds_data a)) [] (fun k => proj1 (Ka k))) as (out & -> & Hs & Hm); [constructor|intros ? ? []|]. cbn [bind].
  assert (Hd : (exists k x y, In k (m_keys (ds_data b)) /\ seen a k x /\ seen b k y /\ ~ da_same false st y x) <-> items_differ st a b).
  { unfold items_differ. split; [intros (k & x & y & _ & G); eauto|]. intros (k & x & y & G1 & G2 & G3). exists k, x, y. split; [|auto].
    apply Kb. destruct G2 as (_ & z & Hz & _). apply in_keys_ex. eauto. }
  destruct (union_second_items st a b Ha Hb (m_keys (ds_data b)) out (fun k => proj1 (Kb k)) Hs) as [[H1 E]|[H1 (out' & E & Hs' & Hm')]]; rewrite Hd in H1.
  - split; [intros _; exact E|]. split; [contradiction|auto].
  - split; [contradiction|]. split; [|auto]. intros _. exists out'. split; [exact E|]. split; [exact Hs'|]. intros k x. rewrite Hm', Hm. cbn [map In].
    assert (Ho : In k (map fst out) <-> In k (map fst (ds_list a))).
    { rewrite in_keys_ex. split; [intros [y Hy]; apply Hm in Hy as [[[]|Hy] _]; apply Ka, Hy|]. intros Hi. pose proof Hi as Hi'. apply in_keys_ex in Hi as [y Hy].
      destruct (seen_ok a k y Ha Hy) as (w & Ew & _). exists w. apply Hm. split; [right; apply Ka, Hi'|exact Ew]. }
    rewrite Ho. split.
    + intros [[_ G]|(G1 & G2 & G3 & G4)]; auto.
    + intros [G|[G1 G2]]; [left; split; [right; apply Ka, (Hit a k x Ha G)|exact G]|right]. split; [apply Kb, (Hit b k x Hb G2)|auto].
Qed.

Theorem ds_merge_ok st a b : ds_ok a -> ds_ok b ->
  (items_differ st a b -> ds_merge st a b = Throw DataArrayError) /\
  (~ items_differ st a b -> mismatch st (ds_coords a) (ds_coords b) -> ds_merge st a b = Throw CoordMismatchError) /\
  match ds_merge st a b with
  | Ok d => ds_ok d /\ ds_readonly d = false /\ ds_valid d = true /\
      (forall k it, united st (sd_list (ds_coords a)) (sd_list (ds_coords b)) k it -> In (k, it) (sd_list (ds_coords d))) /\
      lsorted (ds_list d) /\ (forall k, In k (map fst (ds_list d)) <-> In k (map fst (ds_list a)) \/ In k (map fst (ds_list b))) /\
      forall k x, In (k, x) (ds_list d) -> merged_item a b k x
  | Throw _ => True
  | Ub => False
  end.
Proof.
  intros Ha Hb. destruct (ds_union_ok st a b Ha Hb) as (H1 & H2 & Hdec). pose proof Ha as (Hca & Hcca & _). pose proof Hb as (Hcb & Hccb & _).
  destruct (union_ok st _ _ Hcca Hccb) as [U1 U2]. unfold ds_merge.
  split; [intros Hx; rewrite (H1 Hx); reflexivity|]. split; [intros Hx Hy; destruct (H2 Hx) as (l & -> & _); cbn [bind]; rewrite (U1 Hy); reflexivity|].
  destruct Hdec as [Hx|Hx]; [rewrite (H1 Hx); exact I|]. destruct (H2 Hx) as (l & -> & Hs & Hm). cbn [bind].
  destruct (mismatch_dec st _ _ Hcca Hccb) as [Hy|Hy]; [rewrite (U1 Hy); exact I|]. destruct (U2 Hy) as (lc & -> & Hn & Hu). cbn [bind]. clear H1 H2 U1 U2.
  assert (Hcomp : forall k it, In (k, it) lc -> comparable it).
  { intros k it Hi. apply Hu in Hi as [[Hi _]|[[Hi _]|[Hi _]]]; [apply (proj2 (proj2 Hcca) k it Hi)|apply (proj2 (proj2 Hccb) k it Hi)|apply (proj2 (proj2 Hccb) k it Hi)]. }
  assert (Hio : forall k it, In (k, it) lc -> item_ok it).
  { apply sd_ok_alt in Hca as (_ & _ & _ & Hfa). apply sd_ok_alt in Hcb as (_ & _ & _ & Hfb).
    intros k it Hi. apply Hu in Hi as [[Hi _]|[[Hi _]|[Hi _]]]; [apply (Hfa k it Hi)|apply (Hfb k it Hi)|apply (Hfb k it Hi)]. }
  assert (Hda : forall k x, In (k, x) l -> da_ok x /\ da_comparable x).
  { intros k x Hi. assert (Hone : forall d, ds_ok d -> ds_item d k = Ok x -> da_ok x /\ da_comparable x).
    { intros d Hd E. destruct (seen_iff d k x Hd E) as (_ & y & Hy' & _). destruct (seen_ok d k y Hd Hy') as (w & Ew & W1 & W2 & _). rewrite Ew in E. injection E as <-. auto. }
    apply Hm in Hi as [Hi|[_ Hi]]; [exact (Hone a Ha Hi)|exact (Hone b Hb Hi)]. }
  assert (Hkeys : forall k, In k (map fst l) <-> In k (map fst (ds_list a)) \/ In k (map fst (ds_list b))).
  { assert (Hit : forall d k, ds_ok d -> (exists x, ds_item d k = Ok x) <-> In k (map fst (ds_list d))).
    { intros d k Hd. rewrite in_keys_ex. split; [intros [x E]; destruct (seen_iff d k x Hd E) as (_ & y & Hy' & _); eauto|].
      intros [y Hy']. destruct (seen_ok d k y Hd Hy') as (w & Ew & _). eauto. }
    intros k. rewrite in_keys_ex, <- (Hit a k Ha), <- (Hit b k Hb). split.
    - intros [x Hi]. apply Hm in Hi as [Hi|[_ Hi]]; eauto.
    - intros [[x Hi]|[x Hi]]; [exists x; apply Hm; auto|]. destruct (in_dec Z.eq_dec k (map fst (ds_list a))) as [Hk|Hk].
      + apply Hit in Hk as [z Hz]; [|exact Ha]. exists z. apply Hm. auto.
      + exists x. apply Hm. auto. }
  assert (Hbare : forall k x y, In (k, x) l -> bare x y -> merged_item a b k y).
  { intros k x y Hi (B1 & B2 & B3 & B4). apply Hm in Hi as [Hi|[Hk Hi]].
    - left. destruct (seen_iff a k x Ha Hi) as (_ & z & Hz & E1 & E2 & E3 & _). exists z. split; [exact Hz|]. repeat split; congruence.
    - right. split; [exact Hk|]. destruct (seen_iff b k x Hb Hi) as (_ & z & Hz & E1 & E2 & E3 & _). exists z. split; [exact Hz|]. repeat split; congruence. }
  pose proof (lsorted_nodup l Hs) as Hnl. unfold ds_make. destruct l as [|[k0 a0] l].
  - unfold sd_make_auto. rewrite ditems_mkd. destruct (auto_sizes_ok lc []) as [E|(p & E & Hp)]; [split; [constructor|split; [constructor|intros []]]|intros k it Hi; apply (Hcomp k it Hi)| |];
      change (@mempty Dim Z) with (mk []); rewrite E; [exact I|]. cbn [bind].
    assert (Hok : sd_make (mk p) (mkd lc) false = Throw DimensionError \/ (forall k it, In (k, it) lc -> item_ok it /\ fits (pairs (mk p)) (ishape it))).
    { assert (Hfd : (forall k it, In (k, it) lc -> fits (pairs (mk p)) (ishape it)) \/ ~ (forall k it, In (k, it) lc -> fits (pairs (mk p)) (ishape it))).
      { clear -Hio Hp. induction lc as [|[k it] lc IH]; [left; intros ? ? []|]. destruct IH as [Hy|Hn]; [intros k1 it1 Hi; apply (Hio k1); right; exact Hi| |].
        - destruct (set_check (mksd (mk p) mempty false) it (mk_wf p Hp) (proj1 (Hio k it (or_introl eq_refl)))) as [[_ Hf]|[_ Hf]].
          + left. intros k1 it1 [Hi|Hi]; [injection Hi as <- <-; exact Hf|exact (Hy k1 it1 Hi)].
          + right. intros Hx. apply Hf, (Hx k it). left. reflexivity.
        - right. intros Hx. apply Hn. intros k1 it1 Hi. apply (Hx k1). right. exact Hi. }
      destruct Hfd as [Hf|Hf]; [right; intros k it Hi; split; [exact (Hio k it Hi)|exact (Hf k it Hi)]|left].
      apply sd_make_fails; [apply mk_wf, Hp|exact Hn|exact Hio|exact Hf]. }
    destruct Hok as [->|Hok]; [exact I|]. rewrite sd_make_ok; [|apply mk_wf, Hp|exact Hn|exact Hok]. cbn [bind].
    change (@mempty Z darray) with (@mkd darray []). rewrite ds_list_mk. cbn [ds_coords ds_readonly ds_valid]. rewrite sd_list_mk. split.
    + apply ds_ok_mk; [apply sd_ok_mk; [apply mk_wf, Hp|exact Hn|exact Hok]|apply dict_comp; [exact Hn|exact Hcomp]|constructor|intros ? ? []|reflexivity|discriminate].
    + split; [reflexivity|]. split; [reflexivity|]. split; [intros k it Hi; apply Hu, Hi|]. split; [constructor|]. split; [exact Hkeys|intros ? ? []].
  - destruct (Hda k0 a0 (or_introl eq_refl)) as [(Hw & _) _].
    set (d0 := mkds (mksd (i_dims (da_data a0)) mempty false) mempty false true). assert (H0 : ds_ok d0) by (apply empty_ok, Hw).
    rewrite ditems_mkd. pose proof (set_coord_all_ok lc d0 H0 eq_refl eq_refl Hn Hcomp) as Hset. destruct (set_coord_all d0 lc) as [d1| |]; cbn [bind]; [|exact I|exact Hset].
    destruct Hset as (S1 & S2 & S3 & S4 & S5 & S6). change (ds_list d0) with (@nil (Z * darray)) in S4. change (sd_list (ds_coords d0)) with (@nil (Z * item)) in S6. cbn [app] in S6.
    pose proof (fill_gen st ((k0, a0) :: l) d1 S1 S2 S3) as Hfill. rewrite S4 in Hfill. cbn [app] in Hfill. specialize (Hfill Hnl Hda).
    destruct (set_da_all st d1 ((k0, a0) :: l)) as [d2| |]; [|exact I|exact Hfill]. destruct Hfill as (F1 & F2 & F3 & F4 & F5 & l' & F6 & F7).
    split; [exact F1|]. split; [exact F2|]. split; [exact F3|]. split; [intros k it Hi; apply F5; rewrite S6; apply Hu, Hi|]. rewrite F6.
    assert (Hk : map fst l' = map fst ((k0, a0) :: l)) by (clear -F7; induction F7 as [|x y u v (E & _) _ IH]; [reflexivity|cbn [map]; congruence]).
    split; [unfold lsorted; rewrite Hk; exact Hs|]. split; [intros k; rewrite Hk; apply Hkeys|].
    intros k y Hi. destruct (Forall2_In_r _ _ _ _ F7 Hi) as ([k1 x1] & Hi1 & E1 & Hb1). cbn [fst snd] in *. subst k1. exact (Hbare k x1 y Hi1 Hb1).
Qed.

(** ** Any operation *)
Definition kept (d : dset) (r : dset * res unit) : Prop :=
  match snd r with Ok _ => ds_ok (fst r) | Throw _ => fst r = d | Ub => False end.
Lemma kept_commit d r : match r with Ok d' => ds_ok d' | Throw _ => True | Ub => False end -> kept d (commit d r).
Proof. destruct r; cbn; auto. Qed.

Lemma shape_dec d v : ds_ok d -> comparable v -> same_shape (ishape v) (ds_shape d) \/ ~ same_shape (ishape v) (ds_shape d).
Proof.
  intros Hd Hv. pose proof (sizes_eqb_shape (ds_sizes d) (i_dims v) (proj1 (proj1 Hd)) (proj1 (proj1 Hv))) as Hdec.
  destruct (sizes_eqb (ds_sizes d) (i_dims v)); [left; apply same_shape_sym, Hdec; reflexivity|]. right. intros Hs. enough (false = true) by discriminate.
  apply Hdec, same_shape_sym, Hs.
Qed.
Lemma set_da_kept st d k a : ds_ok d -> da_ok a -> da_comparable a -> kept d (ds_set_da st d k a).
Proof.
  intros Hd Ha Hca. destruct (set_da_ok st d k a Hd Ha Hca) as (H1 & H2 & H3 & H4 & H5). destruct (same_item_ok st d k a Hd Ha Hca) as (b & _ & Hb).
  destruct b; [rewrite H1 by (apply Hb; reflexivity); exact Hd|]. assert (Hni : ~ identical st d k a) by (intros Hx; apply Hb in Hx; discriminate).
  destruct (clash_dec st d (sd_list (da_coords a)) (proj1 (proj2 Hd)) (proj2 (proj2 (proj1 (proj2 Hca))))) as [Hcl|Hcl]; [rewrite (H2 Hni Hcl); reflexivity|].
  destruct (ds_readonly d) eqn:Er; [rewrite H3 by auto; reflexivity|]. destruct (ds_valid d) eqn:Ev; [|rewrite H3 by auto; reflexivity].
  destruct (shape_dec d (da_data a) Hd (proj1 Hca)) as [Hs|Hs]; [|rewrite H4 by auto; reflexivity].
  destruct (H5 Hni Hcl eq_refl eq_refl Hs) as (d' & x & -> & Hd' & _). exact Hd'.
Qed.
Lemma init_ok d v : ds_ok d -> comparable v -> ds_valid d = false ->
  exists d', ds_init d v = Ok d' /\ ds_ok d' /\ ds_readonly d' = false /\ ds_valid d' = true /\ ds_sizes d' = i_dims v /\ sd_list (ds_coords d') = [] /\ ds_list d' = [].
Proof.
  intros Hd Hv Ev. pose proof Hd as (Hc & Hcc & _ & _ & _ & Hro & Hva). destruct (Hva Ev) as (Er & Hs & Hl & Hi). unfold ds_init. rewrite Ev.
  destruct (sd_set_sizes_ok (ds_coords d) (i_dims v) Hc (proj1 (proj1 Hv))) as [_ Hx]. fold (ds_shape d) in Hx. rewrite Hs in Hx. destruct Hx as [-> Hx]; [intros ? ? []|]. cbn [bind].
  destruct (ds_items d Hd) as [Ed _]. rewrite Hi in Ed. rewrite Ed, Er. eexists. split; [reflexivity|]. rewrite ds_list_mk. cbn [ds_readonly ds_valid ds_coords].
  split; [|do 3 (split; [reflexivity|]); split; [exact Hl|reflexivity]].
  apply ds_ok_mk; [apply Hx; rewrite Hl; intros ? ? ? []| |constructor|intros ? ? []|intros _; apply Hro, Er|discriminate].
  destruct Hcc as (C1 & C2 & _). split; [exact C1|]. split; [exact C2|]. change (forall k i, In (k, i) (sd_list (ds_coords d)) -> comparable i). rewrite Hl. intros ? ? [].
Qed.

Lemma erase_list d k : ds_ok d -> match ds_erase d k with
  | Ok d' => ds_ok d' /\ ds_coords d' = ds_coords d /\ exists l1 x l2, ds_list d = l1 ++ (k, x) :: l2 /\ ds_list d' = l1 ++ l2
  | Throw _ => True | Ub => False end.
Proof.
  intros Hd. destruct (ds_items d Hd) as [Ed Hn]. pose proof Hd as (Hc & Hcc & _ & _ & Hf & Hro & Hva). unfold ds_erase. destruct (ds_readonly d) eqn:Er; [exact I|]. rewrite Ed.
  destruct (in_dec Z.eq_dec k (map fst (ds_list d))) as [Hk|Hk]; [|rewrite extract_no by exact Hk; exact I].
  apply in_keys_split in Hk as (l1 & x & l2 & El). rewrite El in Hn. rewrite El, extract_old by exact Hn. cbn [bind snd]. unfold with_data. rewrite Er, ds_list_mk. split; [|split; [reflexivity|eauto]].
  apply ds_ok_mk; [exact Hc|exact Hcc| | |intros _; apply Hro; reflexivity|].
  - rewrite map_app in *. cbn [map fst] in Hn. apply NoDup_remove_1 in Hn. exact Hn.
  - intros k0 a0 Hi. apply (Hf k0 a0). rewrite El. apply in_app_or in Hi. apply in_or_app. cbn [In]. tauto.
  - intros Ev. destruct (Hva Ev) as (_ & _ & _ & Hx). rewrite El in Hx. destruct l1; discriminate.
Qed.

Lemma with_coords_ok d c : ds_ok d -> sd_ok c -> dict_comparable c -> same_shape (sd_shape c) (ds_shape d) -> (ds_readonly d = false -> sd_readonly c = false) ->
  (ds_valid d = false -> sd_shape c = [] /\ sd_list c = []) -> ds_ok (with_coords d c).
Proof.
  intros (Hc & Hcc & Hn & Hl & Hf & Hro & Hva) H1 H2 H3 H4 H5. split; [exact H1|]. split; [exact H2|]. split; [exact Hn|]. split; [exact Hl|]. split.
  - intros k a Hi. destruct (Hf k a Hi) as (G1 & G2 & G3 & G4). split; [exact G1|]. split; [exact G2|]. split; [exact G3|]. apply (same_shape_trans _ (ds_shape d)); [exact G4|apply same_shape_sym, H3].
  - split; [exact H4|]. intros Ev. destruct (Hva Ev) as (G1 & _ & _ & G4). destruct (H5 Ev) as [G2 G3]. auto.
Qed.

Lemma copy_ok d : ds_ok d -> ds_ok (ds_copy d) /\ ds_shape (ds_copy d) = ds_shape d /\ sd_list (ds_coords (ds_copy d)) = sd_list (ds_coords d) /\
  Forall2 (fun x y => fst y = fst x /\ da_data (snd y) = da_data (snd x) /\ sd_list (da_masks (snd y)) = sd_list (da_masks (snd x)) /\
    sd_list (da_attrs (snd y)) = sd_list (da_attrs (snd x))) (ds_list d) (ds_list (ds_copy d)).
Proof.
  intros Hd. destruct (ds_items d Hd) as [Ed Hn]. pose proof Hd as (Hc & Hcc & _ & _ & Hf & Hro & Hva). unfold ds_copy.
  set (l' := map (fun e : Z * darray => (fst e, da_copy (snd e))) (ds_list d)).
  assert (Em : mkmap (m_keys (ds_data d)) (map da_copy (m_values (ds_data d))) = mkd l') by (rewrite Ed at 1 2; unfold mkd, l'; cbn [m_keys m_values]; rewrite !map_map; reflexivity).
  rewrite Em, ds_list_mk. split; [|split; [reflexivity|split; [reflexivity|]]].
  - apply ds_ok_mk; [exact Hc|exact Hcc|unfold l'; rewrite map_map; exact Hn| |reflexivity|].
    + intros k a Hi. apply in_map_iff in Hi as ([k0 a0] & [= <- <-] & Hi). exact (Hf k0 a0 Hi).
    + intros Ev. destruct (Hva Ev) as (_ & G2 & G3 & G4). split; [reflexivity|]. split; [exact G2|]. split; [exact G3|]. unfold l'. rewrite G4. reflexivity.
  - unfold l'. clear. induction (ds_list d) as [|[k a] l IH]; constructor; [auto|exact IH].
Qed.

Lemma ex_list_dec {A} (P : A -> Prop) (l : list A) : (forall x, P x \/ ~ P x) -> (exists x, In x l /\ P x) \/ ~ exists x, In x l /\ P x.
Proof.
  intros Hd. induction l as [|x l [(y & Hy & Hp)|Hn]]; [right; intros (? & [] & _)|left; exists y; split; [right; exact Hy|exact Hp]|].
  destruct (Hd x) as [Hp|Hp]; [left; exists x; split; [left; reflexivity|exact Hp]|]. right. intros (y & [<-|Hy] & Hp'); [contradiction|]. apply Hn. eauto.
Qed.
Lemma any_edges_dec d dim : any_edges d dim \/ ~ any_edges d dim.
Proof.
  unfold any_edges. destruct (ex_list_dec (fun e => edges_along (ds_shape d) dim (snd e)) (sd_list (ds_coords d)) (fun e => edges_dec _ _ _)) as [([k it] & Hi & He)|H1].
  { left. left. eauto. }
  destruct (ex_list_dec (fun x : Z * darray => exists e, In e (sd_list (da_masks (snd x)) ++ sd_list (da_attrs (snd x))) /\ edges_along (da_shape (snd x)) dim (snd e)) (ds_list d)
    (fun x => ex_list_dec (fun e : Z * item => edges_along (da_shape (snd x)) dim (snd e)) _ (fun e => edges_dec _ _ _))) as [([nm a] & Hi & [k it] & He & Hx)|H2].
  { left. right. exists nm, a, k, it. auto. }
  right. intros [(k & it & Hi & He)|(nm & a & k & it & Hi & He & Hx)]; [apply H1; exists (k, it); auto|]. apply H2. exists (nm, a). split; [exact Hi|]. exists (k, it). auto.
Qed.
Lemma taken_any_dec names l : taken_any names l \/ ~ taken_any names l.
Proof.
  unfold taken_any. destruct (ex_list_dec (fun x : Z * darray => name_taken names (da_shape (snd x)) (sd_list (da_masks (snd x)) ++ sd_list (da_attrs (snd x)))) l
    (fun x => name_taken_dec _ _ _)) as [([nm a] & Hi & Ht)|Hn]; [left; eauto|]. right. intros (nm & a & Hi & Ht). apply Hn. exists (nm, a). auto.
Qed.

Theorem step_ok st d o : ds_ok d -> ds_allowed d o -> kept d (ds_step st d o).
Proof.
  intros Hd Ho. pose proof Hd as (Hc & Hcc & _ & _ & Hf & Hro & Hva). destruct (ds_items d Hd) as [Ed Hn]. destruct o as [keep k v|k a|k a|k|k| |k it|k|k b|c|s|names|other|]; cbn [ds_step ds_allowed] in *.
  - apply kept_commit. destruct (set_var_ok keep d k v Hd Ho) as (H1 & H2 & H3). destruct (ds_readonly d) eqn:Er; [rewrite H1 by auto; exact I|].
    destruct (ds_valid d) eqn:Ev; [|rewrite H1 by auto; exact I]. destruct (shape_dec d v Hd Ho) as [Hs|Hs]; [|rewrite H2 by auto; exact I].
    destruct (H3 eq_refl eq_refl Hs) as (l' & a & -> & _ & Hx & _). exact Hx.
  - apply set_da_kept; [exact Hd|apply Ho|apply Ho].
  - destruct Ho as [Ha Hca]. unfold ds_set_da_init. destruct (ds_valid d) eqn:Ev.
    + unfold ds_init. rewrite Ev. apply set_da_kept; assumption.
    + destruct (init_ok d (da_data a) Hd (proj1 Hca) Ev) as (d' & -> & Hd' & Er & Ev' & Es & Hl & Hi).
      destruct (set_da_ok st d' k a Hd' Ha Hca) as (_ & _ & _ & _ & H5). destruct H5 as (d2 & x & -> & Hd2 & _); [| |exact Er|exact Ev'| |exact Hd2].
      * intros (w & (_ & y & Hy & _) & _). rewrite Hi in Hy. destruct Hy.
      * intros (k0 & i & j & Hx & _). rewrite Hl in Hx. destruct Hx.
      * unfold ds_shape, sd_shape. unfold ds_sizes in Es. rewrite Es. apply same_shape_refl.
  - apply kept_commit. pose proof (erase_list d k Hd) as He. destruct (ds_erase d k); [apply He|exact I|exact He].
  - apply kept_commit. unfold ds_extract. destruct (in_dec Z.eq_dec k (map fst (ds_list d))) as [Hk|Hk].
    + apply in_keys_ex in Hk as [a Hi]. destruct (seen_ok d k a Hd Hi) as (w & -> & _). cbn [bind].
      pose proof (erase_list d k Hd) as He. destruct (ds_erase d k); cbn [bind snd]; [apply He|exact I|exact He].
    + unfold ds_item. rewrite Ed, at_no by exact Hk. exact I.
  - apply kept_commit. unfold ds_clear. destruct (ds_readonly d) eqn:Er; [exact I|]. unfold with_data. rewrite Er. change (@mempty Z darray) with (@mkd darray []).
    apply ds_ok_mk; [exact Hc|exact Hcc|constructor|intros ? ? []|intros _; apply Hro; reflexivity|]. intros Ev. destruct (Hva Ev) as (_ & G2 & G3 & _). auto.
  - apply kept_commit. pose proof (set_coord_ok d k it Hd Ho) as Hs. destruct (ds_set_coord d k it); [apply Hs|exact I|exact Hs].
  - apply kept_commit. destruct (sd_erase_ok (ds_coords d) k Hc) as (H1 & H2 & H3). destruct (sd_readonly (ds_coords d)) eqn:Er; [rewrite H1 by reflexivity; exact I|].
    destruct (in_dec Z.eq_dec k (map fst (sd_list (ds_coords d)))) as [Hk|Hk]; [|rewrite H2 by auto; exact I]. apply in_keys_split in Hk as (l1 & it & l2 & El).
    destruct (H3 eq_refl l1 it l2 El) as (c & E & Hcok & Hcl & Hcs). rewrite E. cbn [bind]. apply with_coords_ok; [exact Hd|exact Hcok| | | |].
    + destruct Hcok as (_ & C1 & C2 & _). split; [exact C1|]. split; [exact C2|]. rewrite Hcl. intros k0 i0 Hi. apply (proj2 (proj2 Hcc) k0 i0). rewrite El.
      apply in_app_or in Hi. apply in_or_app. cbn [In]. tauto.
    + unfold sd_shape. rewrite Hcs. apply same_shape_refl.
    + intros _. revert E. unfold sd_erase, sd_extract. rewrite Er. destruct (dextract _ _ _) as [r| |]; cbn [bind]; try discriminate. intros [= <-]. reflexivity.
    + intros Ev. destruct (Hva Ev) as (_ & _ & G3 & _). rewrite El in G3. destruct l1; discriminate.
  - apply kept_commit. destruct (sd_set_aligned_ok (ds_coords d) k b Hc) as (H1 & H2 & H3). destruct (sd_readonly (ds_coords d)) eqn:Er; [rewrite H1 by reflexivity; exact I|].
    destruct (in_dec Z.eq_dec k (map fst (sd_list (ds_coords d)))) as [Hk|Hk]; [|rewrite H2 by auto; exact I]. apply in_keys_split in Hk as (l1 & it & l2 & El).
    destruct (H3 eq_refl l1 it l2 El) as (c & E & Hcok & Hcl & Hcs). rewrite E. cbn [bind]. apply with_coords_ok; [exact Hd|exact Hcok| | | |].
    + destruct Hcok as (_ & C1 & C2 & _). split; [exact C1|]. split; [exact C2|]. rewrite Hcl. intros k0 i0 Hi. apply in_app_or in Hi as [Hi|[Hi|Hi]].
      * apply (proj2 (proj2 Hcc) k0 i0). rewrite El. apply in_or_app. auto.
      * injection Hi as <- <-. apply (proj2 (proj2 Hcc) k it). rewrite El. apply in_elt.
      * apply (proj2 (proj2 Hcc) k0 i0). rewrite El. apply in_or_app. right. right. exact Hi.
    + unfold sd_shape. rewrite Hcs. apply same_shape_refl.
    + intros _. revert E. unfold sd_set_aligned. rewrite Er. destruct (sd_at _ _) as [r| |]; cbn [bind]; try discriminate. destruct (dinsert_or_assign _ _ _ _); cbn [bind]; try discriminate.
      intros [= <-]. cbn [sd_readonly]. reflexivity.
    + intros Ev. destruct (Hva Ev) as (_ & _ & G3 & _). rewrite El in G3. destruct l1; discriminate.
  - apply kept_commit. destruct Ho as (O1 & O2 & O3 & O4). unfold ds_set_coords. destruct (ds_valid d) eqn:Ev; cbn [negb]; [|exact I].
    destruct (wf_mk_pairs _ (proj1 O1)) as [E1 L1]. destruct (wf_mk_pairs _ (proj1 Hc)) as [E2 L2]. unfold ds_sizes. rewrite E1, E2.
    destruct (includes_mk _ _ L1 L2) as (r & -> & _). cbn [bind]. destruct r; [|exact I]. apply with_coords_ok; auto. congruence.
  - apply kept_commit. destruct Ho as [O1 O2]. pose proof (ds_slice_ok st d s Hd O1 O2) as Hs. destruct (slice_dims (ds_shape d) s); [|rewrite Hs; exact I]. destruct Hs as [H1 H2].
    destruct (Z.eq_dec (s_stride s) 1) as [Est|Est]; [destruct H2 as (d' & -> & Hd' & _); [auto|exact Hd']|].
    assert (Hdec : any_edges d (s_dim s) \/ ~ any_edges d (s_dim s)) by apply any_edges_dec.
    destruct Hdec as [Hy|Hy]; [rewrite H1 by assumption; exact I|]. destruct H2 as (d' & -> & Hd' & _); [contradiction|exact Hd'].
  - apply kept_commit. destruct (ds_rename_ok st d names Hd Ho) as [H1 H2]. destruct (rename_pairs (ds_shape d) names true) as [p'|] eqn:E; [|rewrite H1 by auto; exact I].
    destruct (name_taken_dec names (ds_shape d) (sd_list (ds_coords d))) as [Hy|Hy]; [rewrite H1 by auto; exact I|].
    assert (Hdec : taken_any names (ds_list d) \/ ~ taken_any names (ds_list d)) by apply taken_any_dec.
    destruct Hdec as [Hz|Hz]; [rewrite H1 by auto; exact I|]. destruct (H2 p' eq_refl Hy Hz) as (d' & -> & Hd' & _). exact Hd'.
  - apply kept_commit. destruct (ds_merge_ok st d other Hd Ho) as (_ & _ & Hm). destruct (ds_merge st d other); [apply Hm|exact I|exact Hm].
  - cbn. apply copy_ok, Hd.
Qed.
