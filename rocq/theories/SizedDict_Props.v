(** C28 and C29: coords, masks and attributes always fit the shape of their parent, and slicing keeps the items
    belonging to the kept elements. *)
From Verif Require Import Base Map_Model Dims_Model Dims_Spec View_Model View_Spec View_Proofs.
From Verif Require Import SizedDict_Model SizedDict_Spec SizedDict_Proofs.

(** C28: [set] accepts exactly the items that fit. Nothing happens if the very same view is already there (even if the
    dictionary is read-only); read-only dictionaries and items that do not fit are rejected. *)
Theorem C28_set : forall d k it, sd_ok d -> item_ok it ->
  let same := exists old, In (k, old) (sd_list d) /\ is_same old it = true in
  (same -> sd_set d k it = Ok d) /\
  (~ same -> sd_readonly d = true -> sd_set d k it = Throw DataArrayError) /\
  (~ same -> sd_readonly d = false -> ~ fits (sd_shape d) (ishape it) -> sd_set d k it = Throw DimensionError) /\
  (~ same -> sd_readonly d = false -> fits (sd_shape d) (ishape it) ->
     exists l, sd_set d k it = Ok (mksd (sd_sizes d) (mkd l) false) /\ NoDup (map fst l) /\
       (~ In k (map fst (sd_list d)) -> l = sd_list d ++ [(k, it)]) /\
       (forall l1 old l2, sd_list d = l1 ++ (k, old) :: l2 -> l = l1 ++ (k, it) :: l2)).
Proof. exact sd_set_ok. Qed.
Print Assumptions C28_set.

(** C28: the constructor accepts any items that fit. *)
Theorem C28_make : forall sz l readonly, wf sz -> NoDup (map fst l) ->
  (forall k it, In (k, it) l -> item_ok it /\ fits (pairs sz) (ishape it)) ->
  exists d, sd_make sz (mkd l) readonly = Ok d /\ sd_ok d /\ sd_list d = l /\ sd_readonly d = readonly.
Proof.
  intros sz l ro Hsz Hnd Hf. rewrite sd_make_ok by assumption. eexists. split; [reflexivity|].
  split; [apply sd_ok_mk; assumption|]. rewrite sd_list_mk. auto.
Qed.
Print Assumptions C28_make.

(** C28: every item fits after any sequence of set, erase, slicing, renaming, resizing, change of alignment, merging,
    copies and [as_const], and no call is undefined. *)
Theorem C28_history : forall d0 d, sd_ok d0 -> reachable d0 d ->
  sd_ok d /\ forall o, allowed d o -> sd_step d o <> Ub.
Proof.
  intros d0 d H0 Hr.
  assert (Hok : sd_ok d).
  { induction Hr as [|d o d' _ IH Ha E]; [assumption|]. pose proof (step_keeps d o IH Ha) as Hs. rewrite E in Hs. exact Hs. }
  split; [assumption|]. intros o Ha E. pose proof (step_keeps d o Hok Ha) as Hs. rewrite E in Hs. exact Hs.
Qed.
Print Assumptions C28_history.

(** C28: renaming the dimensions of the dictionary renames those of the items, and is refused if a label would clash with
    an extra dimension of an item. *)
Theorem C28_rename : forall d names flag, sd_ok d -> ~ In InvalidDim (map snd names) ->
  flag = true \/ known_names (sd_shape d) names ->
  (rename_pairs (sd_shape d) names true = None \/
   (exists k it t, In (k, it) (sd_list d) /\ In t (map snd names) /\ In t (keys (ishape it)) /\ ~ In t (keys (sd_shape d))) ->
   sd_rename d names flag = Throw DimensionError) /\
  (forall p', rename_pairs (sd_shape d) names true = Some p' ->
   (forall k it t, In (k, it) (sd_list d) -> In t (map snd names) -> In t (keys (ishape it)) -> In t (keys (sd_shape d))) ->
   exists d', sd_rename d names flag = Ok d' /\ sd_ok d' /\ sd_shape d' = p' /\ sd_readonly d' = false /\
     dict_renamed names (sd_list d) (sd_list d')).
Proof. exact sd_rename_ok. Qed.
Print Assumptions C28_rename.

(** ** Counterexamples to C28 without the two restrictions *)
Ltac pairs_ex := let k := fresh in let n := fresh in let Hi := fresh in
  intros k n Hi; cbn in Hi; repeat (destruct Hi as [Hi|Hi]; [injection Hi as <- <-; cbn; tauto|]); destruct Hi.
Definition it1 (d n : Z) : item := mkitem d (var_fresh (mkmap [d] [n])) true false.
(** x: 4 with the edges of a selected bin of z as an extra dimension. *)
Definition sd_ex : sdict := mksd (mkmap [10] [4]) (mkd [(10, it1 10 5); (12, it1 12 2)]) false.
Lemma it1_ok d n : 0 <= n -> d <> InvalidDim -> item_ok (it1 d n).
Proof.
  intros Hn Hd. split; [|reflexivity]. split.
  - apply wf_lwf. split; [|reflexivity]. split; [|split].
    + cbn. constructor; [intros []|constructor].
    + cbn. repeat constructor. assumption.
    + cbn. intros [E|[]]. congruence.
  - cbn. split; [reflexivity|]. repeat constructor. lia.
Qed.
Example C28_ex_ok : sd_ok sd_ex.
Proof.
  apply sd_ok_mk.
  - apply wf_lwf. split; [|reflexivity]. split; [|split]; cbn.
    + constructor; [intros []|constructor].
    + repeat constructor. lia.
    + intros [E|[]]; discriminate.
  - cbn. repeat constructor; cbn; intuition discriminate.
  - intros k it [E|[E|[]]]; injection E as <- <-; (split; [apply it1_ok; [lia|discriminate]|]).
    + right. exists 10, 5. cbn. split; [auto|]. split; [|left; auto]. intros k m [E|[]] Hne. congruence.
    + right. exists 12, 2. cbn. split; [auto|]. split; [|right; intuition discriminate]. intros k m [E|[]] Hne. congruence.
Qed.
(** [set] accepts a second coord of edges, rejects one with two extra elements. *)
Example C28_set_ex : (exists d, sd_set sd_ex 11 (it1 10 5) = Ok d) /\ sd_set sd_ex 11 (it1 10 6) = Throw DimensionError /\
  sd_set (mksd (sd_sizes sd_ex) (sd_items sd_ex) true) 11 (it1 10 4) = Throw DataArrayError.
Proof. split; [eexists; vm_compute; reflexivity|]. split; vm_compute; reflexivity. Qed.
Example C28_rename_ex : exists d', sd_rename sd_ex [(10, 20)] true = Ok d' /\ sd_shape d' = [(20, 4)] /\
  map (fun e => ishape (snd e)) (sd_list d') = [[(20, 5)]; [(12, 2)]] /\ sd_rename sd_ex [(10, 12)] true = Throw DimensionError.
Proof. eexists. vm_compute. repeat split; reflexivity. Qed.

(** C28 fails: enlarging the shape by a dimension that an item has as an extra dimension. *)
Theorem C28_sizes_refuted : exists d sz d', sd_ok d /\ wf sz /\ sd_set_sizes d sz = Ok d' /\ ~ sd_ok d'.
Proof.
  exists sd_ex, (mkmap [10; 12] [4; 7]). eexists. split; [exact C28_ex_ok|]. split.
  { apply wf_lwf. split; [|reflexivity]. split; [|split]; cbn.
    - repeat constructor; cbn; intuition discriminate.
    - repeat constructor; lia.
    - intuition discriminate. }
  split; [vm_compute; reflexivity|]. intros (_ & _ & _ & Hf).
  destruct (Hf 12 (it1 12 2)) as [_ Hfit]; [vm_compute; auto|]. cbn in Hfit.
  destruct Hfit as [Hall|(e & n & He & _ & Hc)].
  - specialize (Hall 12 2 (or_introl eq_refl)). cbn in Hall. intuition discriminate.
  - cbn in He. destruct He as [E|[]]. injection E as <- <-. cbn in Hc. intuition (try discriminate; try congruence).
Qed.
Print Assumptions C28_sizes_refuted.

(** C28 fails: renaming an extra dimension (unknown to the dictionary) to a dimension of the dictionary, with
    [fail_on_unknown = false]. *)
Theorem C28_rename_refuted : exists d names d', sd_ok d /\ ~ In InvalidDim (map snd names) /\
  sd_rename d names false = Ok d' /\ ~ sd_ok d'.
Proof.
  exists sd_ex, [(12, 10)]. eexists. split; [exact C28_ex_ok|]. split; [cbn; intuition discriminate|].
  split; [vm_compute; reflexivity|]. intros (_ & _ & _ & Hf).
  match type of Hf with context [sd_list ?d] => let l := eval vm_compute in (sd_list d) in
    match l with [_; (12, ?i)] => destruct (Hf 12 i) as [_ Hfit]; [vm_compute; auto|] end end.
  vm_compute in Hfit. destruct Hfit as [Hall|(e & n & He & _ & Hc)].
  - specialize (Hall 10 2 (or_introl eq_refl)). intuition discriminate.
  - destruct He as [E|[]]. injection E as <- <-. intuition (try discriminate; try congruence).
Qed.
Print Assumptions C28_rename_refuted.

(** ** C29 *)
(** C29: a slice of a data array consists of the slices of data, coords, masks and attributes: the same keys, each item
    giving the elements that belong to the selected part ([item_sliced]; items with bin edges keep the edges of the
    selected bins), only the coords for the dimension of a point slice become unaligned, everything fits, and the
    result is read-only. It is refused exactly if the slice is not within the data, or has a step and some item has bin edges. *)
Theorem C29_slice : forall a s, da_ok a -> slice_ok s -> slice_eqb s slice_default = false ->
  match slice_dims (da_shape a) s with
  | None => da_slice a s = Throw SliceError
  | Some p' =>
    ((exists k it, In (k, it) (da_items a) /\ edges_along (da_shape a) (s_dim s) it) -> s_stride s <> 1 ->
       da_slice a s = Throw SliceError) /\
    ((forall k it, In (k, it) (da_items a) -> edges_along (da_shape a) (s_dim s) it -> s_stride s = 1) ->
     exists a', da_slice a s = Ok a' /\ da_ok a' /\ da_shape a' = p' /\
       var_slice (i_var (da_data a)) s = Ok (i_var (da_data a')) /\ i_obj (da_data a') = i_obj (da_data a) /\
       coords_sliced (da_shape a) s (sd_list (da_coords a)) (sd_list (da_coords a')) /\
       dict_sliced (da_shape a) s (sd_list (da_masks a)) (sd_list (da_masks a')) /\
       dict_sliced (da_shape a) s (sd_list (da_attrs a)) (sd_list (da_attrs a')) /\
       da_readonly a' = true /\ sd_readonly (da_coords a') = true /\ sd_readonly (da_masks a') = true /\ sd_readonly (da_attrs a') = true)
  end.
Proof. exact da_slice_ok. Qed.
Print Assumptions C29_slice.

(** C29: slicing a dictionary alone (no data). *)
Theorem C29_dict : forall d s, sd_ok d -> slice_ok s -> slice_eqb s slice_default = false ->
  match slice_dims (sd_shape d) s with
  | None => sd_slice d s = Throw SliceError
  | Some p' =>
    ((exists k it, In (k, it) (sd_list d) /\ edges_along (sd_shape d) (s_dim s) it) -> s_stride s <> 1 -> sd_slice d s = Throw SliceError) /\
    ((forall k it, In (k, it) (sd_list d) -> edges_along (sd_shape d) (s_dim s) it -> s_stride s = 1) ->
     exists d', sd_slice d s = Ok d' /\ sd_ok d' /\ sd_shape d' = p' /\ sd_readonly d' = true /\
      dict_sliced (sd_shape d) s (sd_list d) (sd_list d'))
  end.
Proof.
  intros d s Hok Hs Hd. pose proof (sd_slice_ok d s Hok Hs Hd) as H1. pose proof (sd_slice_throw d s Hok Hs Hd) as H2.
  destruct (slice_dims (sd_shape d) s); [|exact H1]. split; [exact H2|exact H1].
Qed.
Print Assumptions C29_dict.

(** x: 4, y: 2 with edges along x, a 2-D coord, a mask along y. *)
Definition it2 (o d1 n1 d2 n2 : Z) : item := mkitem o (var_fresh (mkmap [d1; d2] [n1; n2])) true false.
Definition da_ex : darray :=
  let sz := mkmap [10; 11] [4; 2] in
  mkda (it2 1 10 4 11 2) (mksd sz (mkd [(10, it1 10 5); (13, it2 2 11 2 10 4)]) false) (mksd sz (mkd [(1, it1 11 2)]) false)
    (mksd sz (mkd []) false) false.
Lemma ex_wf2 d1 n1 d2 n2 : d1 <> d2 -> d1 <> InvalidDim -> d2 <> InvalidDim -> 0 <= n1 -> 0 <= n2 -> wf (mkmap [d1; d2] [n1; n2]).
Proof.
  intros. apply wf_lwf. split; [|reflexivity]. split; [|split]; cbn.
  - constructor; [cbn; intuition congruence|]. constructor; [intros []|constructor].
  - repeat constructor; assumption.
  - intuition congruence.
Qed.
Lemma it2_ok o d1 n1 d2 n2 : d1 <> d2 -> d1 <> InvalidDim -> d2 <> InvalidDim -> 0 <= n1 -> 0 <= n2 -> item_ok (it2 o d1 n1 d2 n2).
Proof.
  intros. split; [|reflexivity]. split; [apply ex_wf2; assumption|]. cbn. split; [reflexivity|].
  apply Forall_cons; [destruct n2; lia|]. apply Forall_cons; [lia|]. constructor.
Qed.
Example C29_ex_ok : da_ok da_ex.
Proof.
  assert (Hsz : wf (mkmap [10; 11] [4; 2])) by (apply ex_wf2; (discriminate || lia)).
  unfold da_ok, da_ex. cbn [da_data da_coords da_masks da_attrs sd_sizes].
  split; [apply it2_ok; (discriminate || lia)|]. split; [reflexivity|]. split; [reflexivity|]. split; [reflexivity|].
  split; [|split]; (apply sd_ok_mk; [assumption|cbn; repeat constructor; cbn; intuition discriminate|]); intros k it Hi; cbn in Hi.
  - destruct Hi as [E|[E|[]]]; injection E as <- <-.
    + split; [apply it1_ok; (discriminate || lia)|]. right. exists 10, 5. cbn. split; [auto|]. split; [|left; auto]. intros k m [E|[]] Hne. congruence.
    + split; [apply it2_ok; (discriminate || lia)|]. left. intros k n Hi. cbn in *. tauto.
  - destruct Hi as [E|[]]; injection E as <- <-. split; [apply it1_ok; (discriminate || lia)|]. left. intros k n Hi. cbn in *. tauto.
  - destruct Hi.
Qed.
(** Shapes and alignment of the coords for x 1:3, x 2 and y 0. *)
Definition show (r : res darray) : res (list (list (Z * Z) * bool)) :=
  do a <- r; Ok (map (fun e => (ishape (snd e), i_aligned (snd e))) (sd_list (da_coords a))).
Example C29_ex : show (da_slice da_ex (mkslice 10 1 3 1)) = Ok [([(10, 3)], true); ([(11, 2); (10, 2)], true)] /\
  show (da_slice da_ex (mkslice 10 2 (-1) 1)) = Ok [([(10, 2)], false); ([(11, 2)], true)] /\
  show (da_slice da_ex (mkslice 11 0 (-1) 1)) = Ok [([(10, 5)], true); ([(10, 4)], true)] /\
  show (da_slice da_ex (mkslice 10 0 4 2)) = Throw SliceError.
Proof. repeat split; vm_compute; reflexivity. Qed.

(** C29, corner case: of an empty range no edge is kept, although zero bins have one edge: the coord of the result is
    no longer one of bin edges. *)
Theorem C29_empty_range_refuted : exists a s a' it, da_ok a /\ slice_ok s /\ slice_eqb s slice_default = false /\
  (exists k, In (k, it) (da_items a) /\ edges_along (da_shape a) (s_dim s) it) /\
  da_slice a s = Ok a' /\ (forall k it', In (k, it') (sd_list (da_coords a')) -> ~ edges_along (da_shape a') (s_dim s) it').
Proof.
  exists da_ex, (mkslice 10 1 1 1). do 2 eexists. split; [exact C29_ex_ok|]. split; [right; cbn; lia|]. split; [reflexivity|].
  split; [exists 10; split; [left; reflexivity|exists 4; cbn; auto]|]. split; [vm_compute; reflexivity|].
  intros k it' Hi (n & H1 & H2). vm_compute in Hi. destruct Hi as [E|[E|[]]]; injection E as <- <-; vm_compute in H1, H2.
  - destruct H1 as [E|[]]. destruct H2 as [F|[F|[]]]; try discriminate. injection E as E. injection F as <-. discriminate.
  - destruct H1 as [E|[E|[]]]; [discriminate|]. destruct H2 as [F|[F|[]]]; try discriminate. injection E as E. injection F as <-. discriminate.
Qed.
Print Assumptions C29_empty_range_refuted.
