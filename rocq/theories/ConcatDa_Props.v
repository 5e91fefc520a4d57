(** Concatenation of data arrays (property C49). *)
From Verif Require Import Base Map_Model Dims_Model Dims_Spec Dims_Proofs Index_Model View_Model View_Spec View_Proofs SizedDict_Model SizedDict_Spec SizedDict_Proofs
  Transform_Model Transform_Spec Transform_Proofs Concat_Model Concat_Spec Concat_Proofs ConcatDa_Model ConcatDa_Spec ConcatDa_Proofs ConcatDa_Entry_Proofs ConcatDa_Success_Proofs.

Section Props.
Context {A : Type} (default : A) (eqb eqb_nan : A -> A -> bool) (blocks : sizes -> list (Z * Z)).
(** The threads write blocks that cover the output without overlap (C03). *)
Hypothesis Hbl : forall d, wf d -> tiles 0 (volume d) (blocks d).

(** ** Bin edges *)
(** Joining the bin edges of consecutive inputs succeeds if and only if all inputs meet (and no input between two others is
    without bins): then the edges of the result are, in the range of bins of every input, the edges of that input. *)
Theorem C49_join_edges w dim l : l <> [] -> dim <> InvalidDim ->
  (forall a, In a l -> wfv (a_var a) /\ In dim (keys (ashape a)) /\ (a_buf a < w_next w)%nat /\ (length (ashape a) <= NDIM_OP_MAX)%nat) ->
  joinable eqb w dim l ->
  (exists r w', join_edges default eqb blocks w l dim r w') /\
  forall r w', join_edges default eqb blocks w l dim r w' -> exists o, r = Ok o /\ keeps w w' /\ wfv (a_var o) /\ (w_next w <= a_buf o < w_next w')%nat /\
    joined eqb (w_heap w) (w_heap w') dim l o /\
    forall front, hd_error l = Some front -> w_unit w' (a_buf o) = w_unit w (a_buf front) /\
      ashape o = map (fun e => if fst e =? dim then (dim, bins_before dim l (length l) + 1) else e) (ashape front).
Proof.
  intros Hne Hd Hl Hj. destruct (proj1 (join_ok default eqb blocks w dim Hbl l Hne Hd Hl) Hj) as [Hex Hall]. split; [exact Hex|].
  intros r w' Hr. destruct (Hall r w' Hr) as (o & -> & K & Eb & Hlt & Wo & Hf & Hjd). exists o. split; [reflexivity|]. split; [exact K|]. split; [exact Wo|]. split; [lia|]. split; [exact Hjd|exact Hf].
Qed.

(** Otherwise there is an error, and no memory is changed. *)
Theorem C49_join_error w dim l : (1 < length l)%nat -> dim <> InvalidDim ->
  (forall a, In a l -> wfv (a_var a) /\ In dim (keys (ashape a)) /\ (a_buf a < w_next w)%nat /\ (length (ashape a) <= NDIM_OP_MAX)%nat) ->
  ~ joinable eqb w dim l ->
  exists e, (e = RuntimeError \/ e = SliceError) /\ forall r w', join_edges default eqb blocks w l dim r w' <-> r = Throw e /\ w' = w.
Proof.
  intros Hlen Hd Hl Hj. assert (Hne : l <> []) by (intros ->; cbn in Hlen; lia).
  destruct (proj2 (join_ok default eqb blocks w dim Hbl l Hne Hd Hl) Hj) as [X|X]; [lia|exact X].
Qed.

(** ** Dictionaries *)
(** The coords (or masks) of the result: those of the first input, in its order, each made of the items of all inputs. *)
Theorem C49_maps is_mask maps dim us w l w' : dim <> InvalidDim -> maps <> [] -> (forall m, In m maps -> sd_ok m) ->
  (forall key, items_in w maps key (us key) /\ all_depend dim maps key) ->
  concat_maps default eqb eqb_nan blocks is_mask maps dim w (Ok l) w' ->
  keeps w w' /\ (exists a, hd_error maps = Some a /\ map fst l = map fst (sd_list a)) /\
  forall key o, In (key, o) l -> entry_spec eqb eqb_nan (w_heap w) (w_heap w') dim maps key o /\ item_ok o /\ in_world w' (us key) o.
Proof.
  intros Hd Hne Hm Hw Hc. destruct maps as [|a maps]; [contradiction|]. unfold concat_maps in Hc.
  destruct (entries_ok default eqb eqb_nan blocks Hbl is_mask (a :: maps) a dim us _ Hd eq_refl Hm w l w' (fun key _ => Hw key) Hc) as (K & Ef & Hall).
  split; [exact K|]. split; [|exact Hall]. exists a. split; [reflexivity|]. rewrite Ef. pose proof (Hm a (or_introl eq_refl)) as Ha. apply sd_ok_alt in Ha as (_ & E & _). rewrite E at 1. reflexivity.
Qed.

(** If another input does not have a key of the first input, there is no result. *)
Theorem C49_missing is_mask maps dim w r w' a m key ks1 ks2 : hd_error maps = Some a -> In m maps -> (forall m, In m maps -> sd_ok m) ->
  map fst (sd_list a) = ks1 ++ key :: ks2 -> (forall it, ~ holds m key it) ->
  concat_maps default eqb eqb_nan blocks is_mask maps dim w r w' -> forall l, r <> Ok l.
Proof.
  intros Hhd Hmm Hm Ek Hno Hc l ->.
  assert (Hne : maps <> []) by (intros ->; discriminate).
  destruct maps as [|a' maps]; [contradiction|]. injection Hhd as ->. unfold concat_maps in Hc.
  assert (Eks : m_keys (sd_items a) = ks1 ++ key :: ks2). { pose proof (Hm a (or_introl eq_refl)) as Ha. apply sd_ok_alt in Ha as (_ & E & _). rewrite E, <- Ek. reflexivity. }
  rewrite Eks in Hc. clear Eks Ek. revert w l Hc. induction ks1 as [|k ks1 IH]; intros w l Hc; cbn [app concat_entries] in Hc; destruct Hc as (x & w1 & He & Hr); (destruct x as [it|e|]; [|destruct Hr; discriminate..]);
    destruct Hr as (y & Hr & Ey); (destruct y as [l'| |]; cbn [bind] in Ey; try discriminate).
  - unfold concat_entry in He. destruct (collect (fun m0 => sd_at m0 key) (a :: maps)) as [its| |] eqn:E; cbn [bind] in He; [|destruct He; discriminate..].
    apply collect_Ok in E. apply In_nth_error in Hmm as [i Hi]. destruct (F2_nth _ _ _ E i m Hi) as (it' & _ & X). apply (Hno it'). apply (sd_at_holds m key it'); [apply Hm, (nth_error_In _ _ Hi)|exact X].
  - exact (IH w1 l' Hr).
Qed.

(** ** Data arrays *)
(** Inputs: consistent data arrays with dense data, the items of a key having the same unit in all inputs. *)
Definition data_ok (w : world (A := A)) (u : Z) (a : darray) : Prop :=
  da_ok a /\ item_ok (da_data a) /\ in_world w u (da_data a) /\ (length (da_shape a) < NDIM_OP_MAX)%nat.
Definition dict_ok (w : world (A := A)) (dim : Dim) (maps : list sdict) : Prop :=
  exists us, forall key, items_in w maps key (us key) /\ all_depend dim maps key.
(** The items of the result are those of the inputs in order. *)
Definition dict_result (w w' : world (A := A)) (dim : Dim) (maps : list sdict) (r : sdict) : Prop :=
  (exists a, hd_error maps = Some a /\ map fst (sd_list r) = map fst (sd_list a)) /\
  forall key o, holds r key o -> entry_spec eqb eqb_nan (w_heap w) (w_heap w') dim maps key o.

Theorem C49_data_array das dim u w r w' : das <> [] -> dim <> InvalidDim -> (forall a, In a das -> data_ok w u a) ->
  dict_ok w dim (map da_coords das) -> dict_ok w dim (map da_masks das) -> dict_ok w dim (map da_attrs das) ->
  concat_da default eqb eqb_nan blocks das dim w (Ok r) w' ->
  keeps w w' /\ da_ok r /\
  (* the data *)
  da_shape r = concat_shape dim (map (fun a => arr_of (da_data a)) das) /\
  (forall i a ix, nth_error das i = Some a -> inside (i_dims (da_data r)) ix ->
     start_of dim (map (fun a => arr_of (da_data a)) das) i <= ix dim < start_of dim (map (fun a => arr_of (da_data a)) das) i + len dim (da_coords a) ->
     value_at (w_heap w') (arr_of (da_data r)) ix = value_at (w_heap w) (arr_of (da_data a)) (put ix dim (ix dim - start_of dim (map (fun a => arr_of (da_data a)) das) i))) /\
  (* every input begins at the same position in the data and in its coords, masks and attributes *)
  (forall i, start_of dim (map (fun a => arr_of (da_data a)) das) i = begin_of dim (map da_coords das) i /\
     begin_of dim (map da_masks das) i = begin_of dim (map da_coords das) i /\ begin_of dim (map da_attrs das) i = begin_of dim (map da_coords das) i) /\
  (* coords, masks and attributes *)
  dict_result w w' dim (map da_coords das) (da_coords r) /\
  dict_result w w' dim (map da_masks das) (da_masks r) /\
  dict_result w w' dim (map da_attrs das) (da_attrs r) /\
  (forall key o, holds (da_coords r) key o -> i_aligned o = true).
Proof.
  intros Hne Hd Hdas (uc & Hc) (um & Hm) (ua & Ha) (x & w1 & Hcat & Hx). destruct x as [data|e|]; [|discriminate..].
  destruct Hx as (y & w2 & Hmk & Hy). destruct y as [masks|e|]; [|discriminate..].
  destruct (sd_make (a_dims data) (mkmap (map fst masks) (map snd masks)) false) as [masks'| |] eqn:Emk; [|discriminate..].
  destruct Hy as (z & w3 & Hco & Hz). destruct z as [coords|e|]; [|discriminate..].
  destruct (sd_set_all (mksd (a_dims data) mempty false) (aligned_coords (map da_coords das) dim coords)) as [coords'| |] eqn:Eco; [|discriminate..].
  destruct Hz as (t & Hat & Er). destruct t as [attrs| |]; cbn [bind] in Er; try discriminate.
  destruct (sd_set_all (mksd (a_dims data) mempty false) attrs) as [attrs'| |] eqn:Eat; cbn [bind] in Er; try discriminate. injection Er as ->.
  set (L := map (fun a => arr_of (da_data a)) das) in *.
  assert (HL : forall b, In b L -> exists a, In a das /\ b = arr_of (da_data a)) by (intros b Hb; apply in_map_iff in Hb as (a & <- & Hb); eauto).
  assert (HneL : L <> []) by (unfold L; destruct das; [contradiction|discriminate]).
  assert (Hin : input_ok w dim L).
  { split; [exact HneL|]. split; [exact Hd|]. split.
    - intros b Hb. destruct (HL b Hb) as (a & Hax & ->). destruct (Hdas a Hax) as (Hda & _ & (_ & Hlt & _) & _). split; [apply Hda|exact Hlt].
    - apply concat_rank; [exact HneL|]. intros b Hb. destruct (HL b Hb) as (a & Hax & ->). destruct (Hdas a Hax) as (_ & _ & _ & Hr). exact Hr. }
  assert (Hu : forall b, In b L -> w_unit w (a_buf b) = u) by (intros b Hb; destruct (HL b Hb) as (a & Hax & ->); destruct (Hdas a Hax) as (_ & _ & (_ & _ & X) & _); exact X).
  destruct (cat_success default blocks Hbl w dim L u data w1 Hin Hu Hcat) as [_ (K1 & Eb & Hlt & Eu & Wo & Es & Hv)].
  assert (Hlift : forall (f : darray -> sdict) us w0, keeps w w0 -> (forall key, items_in w (map f das) key (us key) /\ all_depend dim (map f das) key) ->
            forall key, items_in w0 (map f das) key (us key) /\ all_depend dim (map f das) key).
  { intros f us w0 K Hf key. destruct (Hf key) as [X Y]. split; [exact (items_in_keeps _ _ _ _ _ K X)|exact Y]. }
  assert (Hnem : forall f : darray -> sdict, map f das <> []) by (intros f; destruct das; [contradiction|discriminate]).
  assert (Hok : forall f : darray -> sdict, (forall a, In a das -> sd_ok (f a)) -> forall m, In m (map f das) -> sd_ok m) by (intros f Hf m Hmm; apply in_map_iff in Hmm as (a & <- & Hax); apply Hf, Hax).
  assert (Okc : forall a, In a das -> sd_ok (da_coords a)) by (intros a Hax; destruct (Hdas a Hax) as [(_ & _ & _ & _ & X & _) _]; exact X).
  assert (Okm : forall a, In a das -> sd_ok (da_masks a)) by (intros a Hax; destruct (Hdas a Hax) as [(_ & _ & _ & _ & _ & X & _) _]; exact X).
  assert (Oka : forall a, In a das -> sd_ok (da_attrs a)) by (intros a Hax; destruct (Hdas a Hax) as [(_ & _ & _ & _ & _ & _ & X) _]; exact X).
  destruct (C49_maps true (map da_masks das) dim um w1 masks w2 Hd (Hnem _) (Hok _ Okm) (Hlift _ _ _ K1 Hm) Hmk) as (K2 & Fm & Rm).
  pose proof (keeps_trans _ _ _ K1 K2) as K02.
  destruct (C49_maps false (map da_coords das) dim uc w2 coords w3 Hd (Hnem _) (Hok _ Okc) (Hlift _ _ _ K02 Hc) Hco) as (K3 & Fc & Rc).
  pose proof (keeps_trans _ _ _ K02 K3) as K03.
  destruct (C49_maps false (map da_attrs das) dim ua w3 attrs w' Hd (Hnem _) (Hok _ Oka) (Hlift _ _ _ K03 Ha) Hat) as (K4 & Fa & Ra).
  pose proof (keeps_trans _ _ _ K03 K4) as K04.
  (* the new dictionaries *)
  assert (Hinv : forall (f : darray -> sdict) l r, (forall a, In a das -> sd_ok (f a)) -> (exists a, hd_error (map f das) = Some a /\ map fst l = map fst (sd_list a)) -> (forall key o, In (key, o) l -> item_ok o) ->
            sd_set_all (mksd (a_dims data) mempty false) l = Ok r -> sd_ok r /\ sd_list r = l /\ sd_sizes r = a_dims data).
  { intros f l r Hf (a & Hhd & Ef) Hio Hs. change mempty with (mkd (@nil (Z * item))) in Hs.
    assert (Hsa : sd_ok a). { apply (Hok f Hf). destruct (map f das) as [|b bs]; [discriminate|]. injection Hhd as ->. left. reflexivity. }
    apply sd_ok_alt in Hsa as (_ & _ & Hnd & _).
    destruct (set_all_inv (a_dims data) l [] r (proj1 Wo) ltac:(cbn [app]; rewrite Ef; exact Hnd) Hio ltac:(intros k it []) Hs) as [-> Hsd]. split; [exact Hsd|]. split; [unfold sd_list; cbn [sd_items]; apply ditems_mkd|reflexivity]. }
  assert (Em : sd_ok masks' /\ sd_list masks' = masks /\ sd_sizes masks' = a_dims data).
  { unfold sd_make in Emk. change (mkmap (map fst masks) (map snd masks)) with (mkd masks) in Emk. rewrite ditems_mkd in Emk.
    destruct (sd_set_all (mksd (a_dims data) mempty false) masks) as [d| |] eqn:Ed; cbn [bind] in Emk; try discriminate. injection Emk as <-.
    destruct (Hinv da_masks masks d Okm Fm (fun k o Hi => proj1 (proj2 (Rm k o Hi))) Ed) as (X1 & X2 & X3). split; [exact X1|]. split; [exact X2|exact X3]. }
  assert (Ec : sd_ok coords' /\ sd_list coords' = aligned_coords (map da_coords das) dim coords /\ sd_sizes coords' = a_dims data).
  { apply (Hinv da_coords); [exact Okc| | |exact Eco].
    - destruct Fc as (a & Hhd & Ef). exists a. split; [exact Hhd|]. rewrite <- Ef. unfold aligned_coords. rewrite map_map. reflexivity.
    - intros key o Ho. unfold aligned_coords in Ho. apply in_map_iff in Ho as ([k it] & [= <- <-] & Hi). destruct (Rc k it Hi) as (_ & [W B] & _). split; assumption. }
  assert (Ea : sd_ok attrs' /\ sd_list attrs' = attrs /\ sd_sizes attrs' = a_dims data) by (apply (Hinv da_attrs); [exact Oka|exact Fa|intros k o Hi; apply (Ra k o Hi)|exact Eat]).
  destruct Em as (Om & Lm & Sm). destruct Ec as (Oc & Lc & Sc). destruct Ea as (Oa & La & Sa).
  assert (Elen : forall f : darray -> sdict, (forall a, In a das -> sd_sizes (f a) = i_dims (da_data a)) -> forall i, begin_of dim (map f das) i = start_of dim L i).
  { intros f Hf i. unfold begin_of, start_of, L. rewrite !firstn_map, !map_map. f_equal. apply map_ext_in. intros a Hax. unfold len, sd_shape, part.
    rewrite (Hf a); [reflexivity|]. rewrite <- (firstn_skipn i das). apply in_or_app. left. exact Hax. }
  assert (Szc : forall a, In a das -> sd_sizes (da_coords a) = i_dims (da_data a)) by (intros a Hax; apply (Hdas a Hax)).
  split; [exact K04|]. split.
  { split; [exact Wo|]. cbn [da_coords da_masks da_attrs da_data]. change (i_dims (item_of data)) with (a_dims data). auto 10. }
  split; [exact Es|]. split.
  { intros i a ix Hi Hix Hr. cbn [da_data] in *. rewrite arr_item.
    assert (HiL : nth_error L i = Some (arr_of (da_data a))) by (unfold L; rewrite nth_error_map, Hi; reflexivity).
    rewrite (value_keeps w1 w'); [|exact (keeps_trans _ _ _ K2 (keeps_trans _ _ _ K3 K4))|lia]. apply (Hv i (arr_of (da_data a)) ix HiL Hix).
    unfold len, sd_shape in Hr. rewrite (Szc a (nth_error_In _ _ Hi)) in Hr. exact Hr. }
  split.
  { intros i. rewrite (Elen da_coords Szc i), (Elen da_masks), (Elen da_attrs); [auto|intros a Hax; apply (Hdas a Hax)..]. }
  split.
  { split.
    - cbn [da_coords]. rewrite Lc. destruct Fc as (a & Hhd & Ef). exists a. split; [exact Hhd|]. rewrite <- Ef. unfold aligned_coords. rewrite map_map. reflexivity.
    - intros key o Ho. unfold holds in Ho. cbn [da_coords] in Ho. rewrite Lc in Ho. unfold aligned_coords in Ho. apply in_map_iff in Ho as ([k it] & [= <- <-] & Hi). destruct (Rc k it Hi) as (Hs & _ & Hiw).
      exact (entry_spec_keeps eqb eqb_nan w w2 w3 w' dim (map da_coords das) k (uc k) (uc k) it K02 K4 (proj1 (Hc k)) Hiw Hs). }
  split.
  { split; [cbn [da_masks]; rewrite Lm; exact Fm|]. intros key o Ho. unfold holds in Ho. cbn [da_masks] in Ho. rewrite Lm in Ho. destruct (Rm key o Ho) as (Hs & _ & Hiw).
    exact (entry_spec_keeps eqb eqb_nan w w1 w2 w' dim (map da_masks das) key (um key) (um key) o K1 (keeps_trans _ _ _ K3 K4) (proj1 (Hm key)) Hiw Hs). }
  split.
  { split; [cbn [da_attrs]; rewrite La; exact Fa|]. intros key o Ho. unfold holds in Ho. cbn [da_attrs] in Ho. rewrite La in Ho. destruct (Ra key o Ho) as (Hs & _ & Hiw).
    exact (entry_spec_keeps eqb eqb_nan w w3 w' w' dim (map da_attrs das) key (ua key) (ua key) o K03 (keeps_refl w') (proj1 (Ha key)) Hiw Hs). }
  intros key o Ho. unfold holds in Ho. cbn [da_coords] in Ho. rewrite Lc in Ho. unfold aligned_coords in Ho. apply in_map_iff in Ho as ([k it] & [= <- <-] & Hi). cbn [with_aligned i_aligned snd fst].
  destruct Fc as (a & Hhd & Ef). apply orb_true_iff. right. apply existsb_exists. exists a. split; [destruct (map da_coords das); [discriminate|]; injection Hhd as ->; left; reflexivity|].
  assert (Hsa : sd_ok a). { apply (Hok _ Okc). destruct (map da_coords das) as [|b bs]; [discriminate|]. injection Hhd as ->. left. reflexivity. }
  apply sd_ok_alt in Hsa as (_ & E & _). unfold sd_contains. rewrite E. apply contains_In. rewrite <- Ef. apply in_map_iff. exists (k, it). split; [reflexivity|exact Hi].
Qed.

(** Concatenation succeeds if the first input depends on [dim], the data of the other inputs fit, and every coord, mask and
    attribute of the first input exists in all inputs and is a coord for [dim] or does not depend on [dim] and is the same. *)
Definition dict_good (w : world (A := A)) (dim : Dim) (maps : list sdict) : Prop :=
  dict_ok w dim maps /\ forall a key it, hd_error maps = Some a -> holds a key it -> along eqb w dim maps key \/ constant eqb_nan w dim maps key.
Theorem C49_succeeds das dim u w front : hd_error das = Some front -> In dim (keys (da_shape front)) -> dim <> InvalidDim -> (forall a, In a das -> data_ok w u a) ->
  (forall a, In a das -> fits_in dim (map (fun a => arr_of (da_data a)) das) (arr_of (da_data a))) ->
  dict_good w dim (map da_coords das) -> dict_good w dim (map da_masks das) -> dict_good w dim (map da_attrs das) ->
  exists r w', concat_da default eqb eqb_nan blocks das dim w (Ok r) w'.
Proof.
  intros Hhd Kf Hd Hdas Hfit [(uc & Hc) Gc] [(um & Hm) Gm] [(ua & Ha) Ga].
  assert (Hfr : In front das) by (destruct das; [discriminate|]; injection Hhd as ->; left; reflexivity).
  set (L := map (fun a => arr_of (da_data a)) das) in *.
  assert (HL : forall b, In b L -> exists a, In a das /\ b = arr_of (da_data a)) by (intros b Hb; apply in_map_iff in Hb as (a & <- & Hb); eauto).
  assert (HneL : L <> []) by (unfold L; destruct das; [discriminate|discriminate]).
  assert (Hin : input_ok w dim L).
  { split; [exact HneL|]. split; [exact Hd|]. split.
    - intros b Hb. destruct (HL b Hb) as (a & Hax & ->). destruct (Hdas a Hax) as (Hda & _ & (_ & Hlt & _) & _). split; [apply Hda|exact Hlt].
    - apply concat_rank; [exact HneL|]. intros b Hb. destruct (HL b Hb) as (a & Hax & ->). destruct (Hdas a Hax) as (_ & _ & _ & Hr). exact Hr. }
  assert (Hu : forall b, In b L -> w_unit w (a_buf b) = u) by (intros b Hb; destruct (HL b Hb) as (a & Hax & ->); destruct (Hdas a Hax) as (_ & _ & (_ & _ & X) & _); exact X).
  assert (HfL : forall b, In b L -> fits_in dim L b) by (intros b Hb; destruct (HL b Hb) as (a & Hax & ->); apply Hfit, Hax).
  destruct (cat_ok default blocks Hbl w dim L u Hin Hu HfL) as [(x & w1 & Hcat) Hall]. destruct (Hall x w1 Hcat) as (data & -> & K1 & Eb & Hlt & Eu & Wo & Es & _).
  (* the shape of the result *)
  assert (Ecs : concat_shape dim L = map (fun e => if fst e =? dim then (dim, total dim L) else e) (da_shape front)).
  { unfold concat_shape. assert (Ecb : concat_base dim L = Some (da_shape front)); [|rewrite Ecb; reflexivity]. unfold L. destruct das as [|f das']; [discriminate|]. injection Hhd as ->. cbn [map concat_base].
    change (ashape (arr_of (da_data front))) with (da_shape front). rewrite (proj2 (mem_In dim _) Kf). reflexivity. }
  assert (Hkeys : forall k, In k (keys (da_shape front)) <-> In k (keys (ashape data))).
  { intros k. rewrite Es, Ecs. unfold keys. rewrite map_map, !in_map_iff. split.
    - intros ([k' n] & <- & Hk). exists (k', n). cbn [fst]. destruct (Z.eqb_spec k' dim) as [->|X]; auto.
    - intros ([k' n] & E & Hk). exists (k', n). split; [|exact Hk]. cbn [fst] in *. destruct (Z.eqb_spec k' dim) as [->|X]; exact E. }
  assert (Hother : forall k n, k <> dim -> In (k, n) (da_shape front) -> In (k, n) (ashape data)).
  { intros k n Hk Hi. rewrite Es, Ecs. apply in_map_iff. exists (k, n). cbn [fst]. destruct (Z.eqb_spec k dim); [contradiction|auto]. }
  assert (Hdimtot : In (dim, total dim L) (ashape data)).
  { rewrite Es, Ecs. apply In_keys in Kf as [n Hn]. apply in_map_iff. exists (dim, n). cbn [fst]. rewrite Z.eqb_refl. auto. }
  assert (Okx : forall (f : darray -> sdict), (forall a, In a das -> sd_ok (f a)) -> forall m, In m (map f das) -> sd_ok m) by (intros f Hf m Hmm; apply in_map_iff in Hmm as (a & <- & Hax); apply Hf, Hax).
  assert (Hfits : forall (f : darray -> sdict) key o, (forall a, In a das -> sd_ok (f a) /\ sd_sizes (f a) = i_dims (da_data a)) -> entry_fits dim (map f das) key o -> SizedDict_Spec.fits (ashape data) (ishape o)).
  { intros f key o Hf Ho. assert (Et : sumZ (map (len dim) (map f das)) = total dim L).
    { unfold total, L. rewrite !map_map. f_equal. apply map_ext_in. intros a Hax. unfold len, sd_shape, part. rewrite (proj2 (Hf a Hax)). reflexivity. }
    rewrite <- Et in Hdimtot. destruct Ho as [Eo|[Eo|(m & it & Hh1 & Hh & Hn & Eo)]]; rewrite Eo.
    - left. intros k n [[= <- <-]|[]]. exact Hdimtot.
    - right. exists dim, (sumZ (map (len dim) (map f das)) + 1). split; [left; reflexivity|]. split; [intros k n [[= <- <-]|[]] X; congruence|]. left. replace (sumZ (map (len dim) (map f das)) + 1 - 1) with (sumZ (map (len dim) (map f das))) by lia. exact Hdimtot.
    - destruct das as [|f0 das']; [discriminate|]. injection Hhd as ->. cbn [map hd_error] in Hh1. injection Hh1 as <-. destruct (Hf front Hfr) as [Hok Esz]. destruct (item_fits (f front) key it Hok Hh) as [Hio Hfi].
      assert (Esh : sd_shape (f front) = da_shape front) by (unfold sd_shape; rewrite Esz; reflexivity). rewrite Esh in Hfi.
      assert (Hkd : forall k n, In (k, n) (ishape it) -> k <> dim) by (intros k n Hk ->; apply Hn, In_keys; eauto).
      destruct Hfi as [Hfi|(e & n & He & Hrest & Hedge)]; [left; intros k n Hk; apply Hother; [apply (Hkd k n Hk)|apply Hfi, Hk]|].
      right. exists e, n. split; [exact He|]. split; [intros k m Hk Hne; apply Hother; [apply (Hkd k m Hk)|apply Hrest; assumption]|].
      destruct Hedge as [Hedge|[Hedge ->]]; [left; apply Hother; [apply (Hkd e n He)|exact Hedge]|right; split; [intros X; apply Hedge, Hkeys, X|reflexivity]]. }
  (* one dictionary *)
  assert (Hone : forall is_mask (f : darray -> sdict) us w0, keeps w w0 -> (forall a, In a das -> sd_ok (f a) /\ sd_sizes (f a) = i_dims (da_data a)) ->
            (forall key, items_in w (map f das) key (us key) /\ all_depend dim (map f das) key) ->
            (forall a key it, hd_error (map f das) = Some a -> holds a key it -> along eqb w dim (map f das) key \/ constant eqb_nan w dim (map f das) key) ->
            exists l w2, concat_maps default eqb eqb_nan blocks is_mask (map f das) dim w0 (Ok l) w2 /\ keeps w0 w2 /\ NoDup (map fst l) /\ forall k it, In (k, it) l -> item_ok it /\ SizedDict_Spec.fits (ashape data) (ishape it)).
  { intros is_mask f us w0 K0 Hf Hi Hg.
    assert (Hokf : forall m, In m (map f das) -> sd_ok m) by (apply Okx; intros a Hax; apply (Hf a Hax)).
    assert (Hhdf : hd_error (map f das) = Some (f front)) by (destruct das as [|b das']; [discriminate|]; injection Hhd as ->; reflexivity).
    assert (Hi0 : forall key, items_in w0 (map f das) key (us key) /\ all_depend dim (map f das) key) by (intros key; destruct (Hi key) as [X Y]; split; [exact (items_in_keeps _ _ _ _ _ K0 X)|exact Y]).
    pose proof (proj1 (Hf front Hfr)) as Hff. apply sd_ok_alt in Hff as (_ & Ei & Hnd & _).
    destruct (entries_succeed default eqb eqb_nan blocks Hbl is_mask (map f das) (f front) dim us (m_keys (sd_items (f front))) Hd Hhdf Hokf w0) as (l & w2 & Hl & Hlf).
    { intros key Hk. destruct (Hi0 key) as [X Y]. split; [exact X|]. split; [exact Y|]. rewrite Ei in Hk. change (In key (map fst (sd_list (f front)))) in Hk. apply in_map_iff in Hk as ([k it] & Ek & Hin'). cbn [fst] in Ek. subst k.
      apply (good_keeps eqb eqb_nan w w0 dim (map f das) key (us key) K0 (proj1 (Hi key))). apply (Hg (f front) key it Hhdf Hin'). }
    assert (Hcm : concat_maps default eqb eqb_nan blocks is_mask (map f das) dim w0 (Ok l) w2) by (destruct (map f das) as [|b bs]; [discriminate|]; injection Hhdf as ->; exact Hl).
    exists l, w2. split; [exact Hcm|].
    destruct (C49_maps is_mask (map f das) dim us w0 l w2 Hd ltac:(intros X; rewrite X in Hhdf; discriminate) Hokf Hi0 Hcm) as (K2 & (a & Hha & Ef) & Hr). split; [exact K2|]. rewrite Hhdf in Hha. injection Hha as <-. split; [rewrite Ef; exact Hnd|].
    intros k it Hk. split; [apply (Hr k it Hk)|]. apply (Hfits f k it Hf). apply (Hlf k it Hk). }
  assert (Wd : wf (a_dims data)) by apply Wo.
  assert (Hset : forall l, NoDup (map fst l) -> (forall k it, In (k, it) l -> item_ok it /\ SizedDict_Spec.fits (ashape data) (ishape it)) -> exists r, sd_set_all (mksd (a_dims data) mempty false) l = Ok r).
  { intros l Hnd Hl. exists (mksd (a_dims data) (mkd l) false). change mempty with (mkd (@nil (Z * item))). apply (sd_set_all_ok (a_dims data) l []); assumption. }
  destruct (Hone true da_masks um w1 K1) as (lm & w2 & Cm & K2 & Nm & Im); [intros a Hax; destruct (Hdas a Hax) as ((_ & _ & S2 & _ & _ & S3 & _) & _); auto|exact Hm|exact Gm|].
  pose proof (keeps_trans _ _ _ K1 K2) as K02.
  destruct (Hone false da_coords uc w2 K02) as (lc & w3 & Cc & K3 & Nc & Ic); [intros a Hax; destruct (Hdas a Hax) as ((_ & S1 & _ & _ & S3 & _) & _); auto|exact Hc|exact Gc|].
  pose proof (keeps_trans _ _ _ K02 K3) as K03.
  destruct (Hone false da_attrs ua w3 K03) as (la & w4 & Ca & K4 & Na & Ia); [intros a Hax; destruct (Hdas a Hax) as ((_ & _ & _ & S1 & _ & _ & S3) & _); auto|exact Ha|exact Ga|].
  destruct (Hset lm Nm Im) as [rm Erm]. destruct (Hset la Na Ia) as [ra Era].
  destruct (Hset (aligned_coords (map da_coords das) dim lc)) as [rc Erc].
  { unfold aligned_coords. rewrite map_map. exact Nc. }
  { intros k it Hk. unfold aligned_coords in Hk. apply in_map_iff in Hk as ([k' it'] & [= <- <-] & Hk). destruct (Ic k' it' Hk) as [[X1 X2] X3]. split; [split; assumption|exact X3]. }
  assert (Emk : sd_make (a_dims data) (mkmap (map fst lm) (map snd lm)) false = Ok (mksd (sd_sizes rm) (sd_items rm) false)).
  { unfold sd_make. change (mkmap (map fst lm) (map snd lm)) with (mkd lm). rewrite ditems_mkd, Erm. reflexivity. }
  exists (mkda (item_of data) rc (mksd (sd_sizes rm) (sd_items rm) false) ra false), w4.
  exists (Ok data), w1. split; [exact Hcat|]. exists (Ok lm), w2. split; [exact Cm|]. rewrite Emk. exists (Ok lc), w3. split; [exact Cc|]. rewrite Erc. exists (Ok la). split; [exact Ca|]. cbn [bind]. rewrite Era. reflexivity.
Qed.
End Props.
Print Assumptions C49_join_edges.
Print Assumptions C49_join_error.
Print Assumptions C49_maps.
Print Assumptions C49_missing.
Print Assumptions C49_data_array.
Print Assumptions C49_succeeds.

(** ** Concrete cases *)
From Verif Require Import Concat_Props.
Notation kX := 5 (only parsing).
Notation kT := 6 (only parsing).
Definition d1 (b : Z) (n : Z) : item := mkitem b (var_fresh (mk [(kX, n)])) true false.
Definition d0 (b : Z) : item := mkitem b (var_fresh (mk [])) true false.
Definition sd (n : Z) (l : list (Z * item)) : sdict := mksd (mk [(kX, n)]) (mkd l) false.
(** Buffers of the inputs. *)
Definition cells (b : nat) (k : Z) : Z :=
  nth (Z.to_nat k) (nth b [[10; 20]; [30]; [1; 2; 4]; [4; 7]; [20]; [20]; [0; 1]; [1]; [5; 7]; [4]] []) 0.
Definition cw : world (A := Z) := mkw (fun c => cells (fst c) (snd c)) (fun _ => 3) 10.
(** Two data arrays of 2 bins and 1 bin, with bin edges, a temperature, and a mask. *)
Definition da1 : darray := mkda (d1 0 2) (sd 2 [(kX, d1 2 3); (kT, d0 4)]) (sd 2 [(1, d1 6 2)]) (sd 2 []) false.
Definition da2 : darray := mkda (d1 1 1) (sd 1 [(kX, d1 3 2); (kT, d0 5)]) (sd 1 [(1, d1 7 1)]) (sd 1 []) false.

Lemma d1_wf b n : 0 <= n -> item_ok (d1 b n).
Proof.
  intros Hn. split; [|reflexivity]. apply fresh_wfv, mk_wf. apply (lwf_app_inv [] kX n []); [split; [constructor|]; split; [constructor|intros []]|exact Hn|intros []|intros []|discriminate].
Qed.
Lemma d0_wf b : item_ok (d0 b).
Proof. split; [|reflexivity]. apply fresh_wfv, mk_wf. split; [constructor|]. split; [constructor|intros []]. Qed.
Lemma d1_shape b n : ishape (d1 b n) = [(kX, n)]. Proof. reflexivity. Qed.
Lemma sd_ok_case n l : 0 <= n -> NoDup (map fst l) -> (forall k it, In (k, it) l -> (exists b, it = d1 b n) \/ (exists b, it = d1 b (n + 1)) \/ (exists b, it = d0 b)) -> sd_ok (sd n l).
Proof.
  intros Hn Hnd Hl. apply sd_ok_alt. unfold sd_list, sd_shape, sd. cbn [sd_sizes sd_items]. rewrite ditems_mkd. split; [apply (d1_wf 0 n Hn)|]. split; [reflexivity|]. split; [exact Hnd|].
  intros k it Hi. destruct (Hl k it Hi) as [[b ->]|[[b ->]|[b ->]]].
  - split; [apply d1_wf, Hn|]. left. intros k' m Hk. exact Hk.
  - split; [apply d1_wf; lia|]. right. exists kX, (n + 1). split; [left; reflexivity|]. split; [intros k' m [[= <- <-]|[]] X; congruence|]. left. replace (n + 1 - 1) with n by lia. left. reflexivity.
  - split; [apply d0_wf|]. left. intros k' m [].
Qed.
Ltac dict_case := apply sd_ok_case; [lia|cbn; repeat constructor; cbn; intuition discriminate|
  let k := fresh in let it := fresh in let X := fresh in intros k it X; cbn in X; repeat (destruct X as [X|X]; [injection X as <- <-; first [left; eexists; reflexivity|right; left; eexists; reflexivity|right; right; eexists; reflexivity]|]); destruct X].
Lemma da1_ok : da_ok da1. Proof. split; [apply (d1_wf 0 2); lia|]. do 3 (split; [reflexivity|]). unfold da1. cbn [da_coords da_masks da_attrs]. split; [dict_case|]. split; dict_case. Qed.
Lemma da2_ok : da_ok da2. Proof. split; [apply (d1_wf 0 1); lia|]. do 3 (split; [reflexivity|]). unfold da2. cbn [da_coords da_masks da_attrs]. split; [dict_case|]. split; dict_case. Qed.

Ltac held X := unfold holds, sd_list in X; cbn in X; repeat (destruct X as [X|X]; [first [discriminate X|injection X as <- <-|injection X as <-]|]); try (destruct X; fail).
Ltac member X := cbn [map In] in X; repeat (destruct X as [<-|X]); try (destruct X; fail).
(** Items of the cases are in memory. *)
Definition small (it : item) : Prop := (exists b n, it = d1 b n /\ 0 <= b < 10) \/ exists b, it = d0 b /\ 0 <= b < 10.
Lemma small_in it : small it -> in_world cw 3 it /\ (length (ishape it) < NDIM_OP_MAX)%nat.
Proof.
  intros [(b & n & -> & Hb)|(b & -> & Hb)]; (split; [|cbn; unfold NDIM_OP_MAX; lia]); split; cbn [i_obj d1 d0]; [lia| |lia|]; (split; [cbn [cw w_next]; lia|reflexivity]).
Qed.
Lemma dict_ok_case maps : (forall m key it, In m maps -> holds m key it -> small it) ->
  (forall a m key it it', hd_error maps = Some a -> In m maps -> holds a key it -> holds m key it' -> In kX (keys (ishape it)) -> In kX (keys (ishape it')) \/ len kX m = 1) -> dict_ok cw kX maps.
Proof.
  intros Hs Hd. exists (fun _ => 3). intros key. split; [intros m it Hm Hh; apply small_in, (Hs m key it Hm Hh)|]. intros a it Ha Hh Hk m it' Hm Hh'. exact (Hd a m key it it' Ha Hm Hh Hh' Hk).
Qed.
Ltac small_case := first [left; eexists _, _; split; [reflexivity|lia]|right; eexists; split; [reflexivity|lia]].
Lemma c_data a : In a [da1; da2] -> data_ok cw 3 a.
Proof.
  intros Ha. member Ha; (split; [apply da1_ok || apply da2_ok|]; split; [apply d1_wf; lia|]; split; [apply small_in; small_case|cbn; unfold NDIM_OP_MAX; lia]).
Qed.
Lemma c_dicts (f : darray -> sdict) : In f [da_coords; da_masks; da_attrs] -> dict_ok cw kX (map f [da1; da2]).
Proof.
  intros Hf. apply dict_ok_case.
  - intros m key it Hm Hh. member Hf; member Hm; held Hh; small_case.
  - intros a m key it it' Ha Hm Hh Hh' Hk. member Hf; injection Ha as <-; member Hm; held Hh; held Hh'; first [left; left; reflexivity|exfalso; exact Hk].
Qed.
Lemma c_joinable : joinable Z.eqb cw kX [arr_of (d1 2 3); arr_of (d1 3 2)].
Proof.
  split; [intros a Ha; member Ha; cbn; lia|]. split.
  - intros [|[|i]] a b E1 E2; cbn in E1, E2; [|discriminate|destruct i; discriminate]. injection E1 as <-. injection E2 as <-. split; [reflexivity|]. split; [reflexivity|]. intros ix _. reflexivity.
  - intros [|[|i]] a E1 E2; cbn in E1, E2; [lia|discriminate|destruct i; discriminate].
Qed.
Lemma c_good (f : darray -> sdict) : In f [da_coords; da_masks; da_attrs] -> dict_good Z.eqb Z.eqb cw kX (map f [da1; da2]).
Proof.
  intros Hf. split; [exact (c_dicts f Hf)|]. intros a key it Ha Hh. member Hf; injection Ha as <-; held Hh.
  - left. exists [d1 2 3; d1 3 2]. split; [repeat constructor|]. split; [intros it Hi; member Hi; eexists; reflexivity|]. left. split; [|exact c_joinable].
    intros m it Hm Hh'. member Hm; held Hh'; eexists; (split; [left; reflexivity|left; left; reflexivity]).
  - right. exists (d0 4), [d0 5]. split; [constructor; [right; left; reflexivity|]; constructor; [right; left; reflexivity|constructor]|]. split; [intros []|]. intros it Hi. member Hi; (split; [reflexivity|]; split; [reflexivity|]; intros ix _; reflexivity).
  - left. exists [d1 6 2; d1 7 1]. split; [repeat constructor|]. split; [intros it Hi; member Hi; eexists; reflexivity|]. right.
    intros m it Hm Hh' He. member Hm; held Hh'; destruct He as (n & [[= <-]|[]] & [[[= Hn]|[]]|[Hn _]]); first [lia|apply Hn; left; reflexivity].
Qed.
Example C49_case : exists r w', concat_da 0 Z.eqb Z.eqb cwhole [da1; da2] kX cw (Ok r) w' /\ da_shape r = [(kX, 3)] /\
  (forall i, 0 <= i < 3 -> value_at (w_heap w') (arr_of (da_data r)) (fun _ => i) = nth (Z.to_nat i) [10; 20; 30] 0) /\
  exists e, holds (da_coords r) kX e /\ In (kX, 4) (ishape e) /\ forall i, 0 <= i < 4 -> value_at (w_heap w') (arr_of e) (fun _ => i) = nth (Z.to_nat i) [1; 2; 4; 7] 0.
Proof.
  destruct (C49_succeeds 0 Z.eqb Z.eqb cwhole cwhole_tiles [da1; da2] kX 3 cw da1 eq_refl ltac:(left; reflexivity) ltac:(discriminate) c_data) as (r & w' & Hr).
  { intros a Ha. member Ha; intros k n [[= <- <-]|[]] X; exfalso; apply X; reflexivity. }
  1,2,3: apply c_good; cbn; tauto.
  exists r, w'. split; [exact Hr|].
  destruct (C49_data_array 0 Z.eqb Z.eqb cwhole cwhole_tiles [da1; da2] kX 3 cw r w' ltac:(discriminate) ltac:(discriminate) c_data (c_dicts da_coords ltac:(cbn; tauto)) (c_dicts da_masks ltac:(cbn; tauto)) (c_dicts da_attrs ltac:(cbn; tauto)) Hr)
    as (_ & Hok & Es & Hv & _ & [(a & [= <-] & Ek) Hc] & _). split; [exact Es|]. split.
  - intros i Hi. assert (Hin : inside (i_dims (da_data r)) (fun _ => i)) by (intros k n Hk; unfold da_shape, ishape in Es; rewrite Es in Hk; destruct Hk as [[= <- <-]|[]]; exact Hi).
    destruct (Z.eq_dec i 2) as [->|Hi2]; [rewrite (Hv 1%nat da2 _ eq_refl Hin); [reflexivity|cbn; lia]|].
    rewrite (Hv 0%nat da1 _ eq_refl Hin); [|cbn; lia]. destruct (Z.eq_dec i 0) as [->|]; [reflexivity|]. replace i with 1 by lia. reflexivity.
  - assert (Hk : In kX (map fst (sd_list (da_coords r)))) by (rewrite Ek; left; reflexivity). apply in_map_iff in Hk as ([k e] & Ekk & He). cbn [fst] in Ekk. subst k. exists e. split; [exact He|].
    destruct (Hc 5 e He) as ((S1 & _ & S3) & Hedge & _).
    assert (H1e : holds (da_coords da1) 5 (d1 2 3)) by (left; reflexivity). assert (H2e : holds (da_coords da2) 5 (d1 3 2)) by (left; reflexivity).
    assert (Ed1 : edge_dim (sd_shape (da_coords da1)) (d1 2 3) 5) by (exists 3; split; [left; reflexivity|left; left; reflexivity]).
    assert (Ed2 : edge_dim (sd_shape (da_coords da2)) (d1 3 2) 5) by (exists 2; split; [left; reflexivity|left; left; reflexivity]).
    pose proof (S1 _ _ (or_introl eq_refl) H1e Ed1) as Hlen. change (begin_of 5 (map da_coords [da1; da2]) (length (map da_coords [da1; da2])) + 1) with 4 in Hlen. split; [exact Hlen|].
    intros i Hi. assert (Hin : inside (i_dims e) (fun _ => i)).
    { destruct Hok as (_ & _ & _ & _ & Hoc & _). destruct (item_fits _ _ _ Hoc He) as [Hio _]. destruct (item_mk e Hio) as [_ [Hnd _]].
      intros k n Hk. fold (ishape e) in Hk. destruct (Z.eq_dec k 5) as [->|Hk5]; [apply (extent_In _ _ _ Hnd) in Hk, Hlen; rewrite Hlen in Hk; injection Hk as <-; exact Hi|].
      exfalso. apply (S3 k n Hk5) in Hk as (m & it & Hm & Hh & Hk). member Hm; held Hh; destruct Hk as [[= X _]|[]]; congruence. }
    destruct (Z.eq_dec i 3) as [->|Hi3]; [rewrite (proj1 (Hedge 1%nat _ _ eq_refl H2e Ed2 _ 1 Hin eq_refl ltac:(cbn; lia))) by lia; reflexivity|].
    rewrite (proj1 (Hedge 0%nat _ _ eq_refl H1e Ed1 _ i Hin eq_refl ltac:(cbn; lia))) by lia. assert (Hi' : i = 0 \/ i = 1 \/ i = 2) by lia. destruct Hi' as [->|[->| ->]]; reflexivity.
Qed.

(** The inputs of [C49_join_edges] and [C49_join_error] in one case: [1 2 4] and [4 7] can be joined, in the other order they cannot. *)
Example C49_join_case : joinable Z.eqb cw kX [arr_of (d1 2 3); arr_of (d1 3 2)] /\ ~ joinable Z.eqb cw kX [arr_of (d1 3 2); arr_of (d1 2 3)] /\
  forall a, In a [arr_of (d1 3 2); arr_of (d1 2 3)] -> wfv (a_var a) /\ In kX (keys (ashape a)) /\ (a_buf a < w_next cw)%nat /\ (length (ashape a) <= NDIM_OP_MAX)%nat.
Proof.
  split; [exact c_joinable|]. split.
  - intros (_ & X & _). destruct (X 0%nat _ _ eq_refl eq_refl) as (_ & _ & Hv). assert (V : valid_at (rest kX (arr_of (d1 3 2))) (fun _ => 0)) by (intros k n []). specialize (Hv (fun _ => 0) V). discriminate Hv.
  - intros a Ha. member Ha; (split; [apply d1_wf; lia|]; split; [left; reflexivity|]; split; [cbn; lia|cbn; unfold NDIM_OP_MAX; lia]).
Qed.

(** ** Counterexamples *)
(** An input without bins (one edge) between two others is refused, although all edges meet. *)
Theorem C49_no_bins_refuted : exists (w : world (A := Z)) l, (forall a, In a l -> 1 <= part kX a) /\
  (forall i a b, nth_error l i = Some a -> nth_error l (S i) = Some b -> meets Z.eqb w kX a b) /\
  forall r w', join_edges 0 Z.eqb cwhole w l kX r w' <-> r = Throw SliceError /\ w' = w.
Proof.
  exists cw, [arr_of (d1 2 3); arr_of (d1 9 1); arr_of (d1 3 2)]. split; [intros a Ha; member Ha; cbn; lia|]. split; [|reflexivity].
  intros [|[|[|i]]] a b E1 E2; cbn in E1, E2; [| |discriminate|destruct i; discriminate]; injection E1 as <-; injection E2 as <-; (split; [reflexivity|]; split; [reflexivity|]; intros ix _; reflexivity).
Qed.
Print Assumptions C49_no_bins_refuted.

(** Whether a coord that one of two inputs does not have is an error depends on the order of the inputs: it is an error if the
    second one does not have it, otherwise the coord is dropped. *)
Theorem C49_order_refuted : exists m1 m2, sd_ok m1 /\ sd_ok m2 /\ (exists it, holds m1 kT it) /\ forall w : world (A := Z),
  (forall r w', concat_maps 0 Z.eqb Z.eqb cwhole false [m1; m2] kX w r w' -> r = Throw NotFoundError) /\
  concat_maps 0 Z.eqb Z.eqb cwhole false [m2; m1] kX w (Ok []) w.
Proof.
  exists (sd 2 [(kT, d0 4)]), (sd 1 []). split; [dict_case|]. split; [dict_case|]. split; [exists (d0 4); left; reflexivity|]. intros w. split.
  - intros r w' (x & w1 & He & Hx). cbn in He. destruct He as [-> ->]. apply Hx.
  - split; reflexivity.
Qed.
Print Assumptions C49_order_refuted.

(** Without [all_depend] the coord can become longer than the data: a coord of 2 points and a scalar coord of an input of length 0
    give 3 values for 2 elements, which are then taken for bin edges, although no input has bin edges. *)
Theorem C49_length_refuted : exists m1 m2, sd_ok m1 /\ sd_ok m2 /\ len kX m1 + len kX m2 = 2 /\
  (forall m it, In m [m1; m2] -> holds m kX it -> ~ edge_dim (sd_shape m) it kX) /\
  (exists r w', concat_entry 0 Z.eqb Z.eqb cwhole false m1 [m1; m2] kX kX cw r w') /\
  forall r w', concat_entry 0 Z.eqb Z.eqb cwhole false m1 [m1; m2] kX kX cw r w' -> exists o, r = Ok o /\ ishape o = [(kX, 3)].
Proof.
  exists (sd 2 [(kX, d1 8 2)]), (sd 0 [(kX, d0 9)]). split; [dict_case|]. split; [dict_case|]. split; [reflexivity|]. split.
  { intros m it Hm Hh He. member Hm; held Hh; [destruct He as (n & [[= <-]|[]] & [[[= Hn]|[]]|[Hn _]]); first [lia|apply Hn; left; reflexivity]|destruct He as (n & [] & _)]. }
  destruct (cat_ok 0 cwhole cwhole_tiles cw kX [arr_of (d1 8 2); arr_of (d0 9)] 3) as [(r & w' & Hr) Hall].
  { split; [discriminate|]. split; [discriminate|]. split; [|cbn; unfold NDIM_OP_MAX; lia]. intros a Ha. member Ha; (split; [first [apply d1_wf; lia|apply d0_wf]|cbn; lia]). }
  { reflexivity. }
  { intros a Ha. member Ha; intros k n Hk X; [destruct Hk as [[= <- <-]|[]]; exfalso; apply X; reflexivity|destruct Hk]. }
  split.
  - exists (finish r), w'. exists r. split; [exact Hr|reflexivity].
  - intros r' w2 (o & Ho & ->). destruct (Hall o w2 Ho) as (o' & -> & _ & _ & _ & _ & _ & Es & _). exists (item_of o'). split; [reflexivity|]. exact Es.
Qed.
Print Assumptions C49_length_refuted.

(** Coords of the result are aligned even if the coord is unaligned in every input. *)
Theorem C49_alignment_refuted : exists da it, da_ok da /\ holds (da_coords da) kT it /\ i_aligned it = false /\
  (exists r w', concat_da 0 Z.eqb Z.eqb cwhole [da] kX cw (Ok r) w') /\
  forall r w', concat_da 0 Z.eqb Z.eqb cwhole [da] kX cw (Ok r) w' -> exists o, holds (da_coords r) kT o /\ i_aligned o = true.
Proof.
  pose (du := with_aligned (d0 4) false). pose (da := mkda (d1 0 2) (sd 2 [(kT, du)]) (sd 2 []) (sd 2 []) false).
  assert (Hda : da_ok da).
  { split; [apply (d1_wf 0 2); lia|]. do 3 (split; [reflexivity|]). cbn [da da_coords da_masks da_attrs]. split; [|split; dict_case].
    apply sd_ok_alt. unfold sd_list, sd_shape, sd. cbn [sd_sizes sd_items]. rewrite ditems_mkd. split; [apply (d1_wf 0 2); lia|]. split; [reflexivity|]. split; [repeat constructor; intros []|].
    intros k it [[= <- <-]|[]]. split; [apply (d0_wf 4)|]. left. intros k' m []. }
  assert (Hd : forall a, In a [da] -> data_ok cw 3 a).
  { intros a Ha. member Ha. split; [exact Hda|]. split; [apply d1_wf; lia|]. split; [apply small_in; small_case|cbn; unfold NDIM_OP_MAX; lia]. }
  assert (Hdict : forall f : darray -> sdict, In f [da_coords; da_masks; da_attrs] -> dict_ok cw kX (map f [da])).
  { intros f Hf. exists (fun _ => 3). intros key. split.
    - intros m it Hm Hh. member Hf; member Hm; held Hh. apply (small_in (d0 4)). small_case.
    - intros a it Ha Hh Hk m it' Hm Hh'. member Hf; injection Ha as <-; member Hm; held Hh. destruct Hk. }
  assert (Hgood : forall f : darray -> sdict, In f [da_coords; da_masks; da_attrs] -> dict_good Z.eqb Z.eqb cw kX (map f [da])).
  { intros f Hf. split; [exact (Hdict f Hf)|]. intros a key it Ha Hh. member Hf; injection Ha as <-; held Hh. right. exists du, []. split; [constructor; [left; reflexivity|constructor]|]. split; [intros []|].
    intros it Hi. member Hi. split; [reflexivity|]. split; [reflexivity|]. intros ix _. apply Z.eqb_refl. }
  exists da, du. split; [exact Hda|]. split; [left; reflexivity|]. split; [reflexivity|]. split.
  - apply (C49_succeeds 0 Z.eqb Z.eqb cwhole cwhole_tiles [da] kX 3 cw da eq_refl); [left; reflexivity|discriminate|exact Hd| |apply Hgood; cbn; tauto..].
    intros a Ha. member Ha. intros k n [[= <- <-]|[]] X; exfalso; apply X; reflexivity.
  - intros r w' Hr. destruct (C49_data_array 0 Z.eqb Z.eqb cwhole cwhole_tiles [da] kX 3 cw r w' ltac:(discriminate) ltac:(discriminate) Hd (Hdict da_coords ltac:(cbn; tauto)) (Hdict da_masks ltac:(cbn; tauto)) (Hdict da_attrs ltac:(cbn; tauto)) Hr)
      as (_ & _ & _ & _ & _ & [(a & [= <-] & Ek) _] & _ & _ & Hal).
    assert (Hk : In kT (map fst (sd_list (da_coords r)))) by (rewrite Ek; left; reflexivity). apply in_map_iff in Hk as ([k e] & Ekk & He). cbn [fst] in Ekk. subst k. exists e. split; [exact He|exact (Hal 6 e He)].
Qed.
Print Assumptions C49_alignment_refuted.
