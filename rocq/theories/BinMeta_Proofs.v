From Coq Require Import Permutation.
From Verif Require Import Base Map_Model Map_Spec Map_Proofs Dims_Model Dims_Spec Dims_Proofs View_Model View_Spec View_Proofs Index_Proofs
  Transform_Model Transform_Spec Transform_Proofs SizedDict_Model SizedDict_Spec SizedDict_Proofs Equality_Proofs Accumulate_Spec
  Reduce_Proofs Label_Proofs Accumulate_Model Accumulate_Proofs Mask_Model Mask_Spec Mask_Proofs BinMeta_Model BinMeta_Spec.

Notation mk := View_Proofs.mk.
Notation mkd := SizedDict_Proofs.mkd.

(** ** The inner dimension *)
Lemma last_map {A B} (f : A -> B) l d : last (map f l) (f d) = f (last l d).
Proof. induction l as [|x l IH]; [reflexivity|]. cbn [map]. destruct l as [|y l]; [reflexivity|]. exact IH. Qed.
Lemma last_In {A} (l : list A) d : l <> [] -> In (last l d) l.
Proof. induction l as [|x l IH]; [contradiction|]. intros _. destruct l as [|y l]; [left; reflexivity|]. right. apply IH. discriminate. Qed.

Lemma inner_dim it : item_ok it -> dims_inner (i_dims it) = idim it.
Proof.
  intros Hi. destruct (item_mk it Hi) as [-> _]. unfold dims_inner, idim, inner, labels. cbn [mk View_Proofs.mk m_keys]. unfold keys.
  exact (last_map (@fst Z Z) (ishape it) (InvalidDim, 0)).
Qed.
Lemma inner_In it : ishape it <> [] -> In (idim it, snd (inner it)) (ishape it).
Proof. intros Hne. unfold idim. rewrite <- surjective_pairing. apply last_In. exact Hne. Qed.
Lemma inner_valid it : item_ok it -> ishape it <> [] -> idim it <> InvalidDim.
Proof. intros Hi Hne E. destruct (item_mk it Hi) as [_ (_ & _ & Hv)]. apply Hv. rewrite <- E. apply In_keys. eexists. apply inner_In. exact Hne. Qed.
Lemma inner_at it : item_ok it -> ishape it <> [] -> dat (i_dims it) (idim it) = Ok (snd (inner it)).
Proof.
  intros Hi Hne. destruct (item_mk it Hi) as [-> Hl]. apply dat_has; [apply mk_wf; exact Hl|]. unfold has. rewrite pairs_mk. apply inner_In. exact Hne.
Qed.

(** ** Adding axes *)
Definition dim_of_axis (a : axis) : Z := fst (extent_of a).
Definition axis_valid (a : axis) : Prop :=
  match a with
  | Erased d => d <> InvalidDim
  | Grouped it => arg_ok 0 it
  | Binned it => arg_ok 1 it
  | Kept d n => d <> InvalidDim /\ 0 <= n
  end.
Definition add_axis (b : builder) (a : axis) : res builder :=
  match a with Erased d => b_erase b d | Grouped it => b_group b it | Binned it => b_bin b it | Kept d n => b_existing b d n end.
Fixpoint add_axes (b : builder) (l : list axis) : res builder := match l with [] => Ok b | a :: l' => do b' <- add_axis b a; add_axes b' l' end.

Lemma axis_valid_extent a : axis_valid a -> dim_of_axis a <> InvalidDim /\ 0 <= snd (extent_of a).
Proof.
  destruct a as [d|it|it|d n]; unfold dim_of_axis; cbn [axis_valid extent_of fst snd].
  - intros Hd. split; [exact Hd|lia].
  - intros (Hi & Hne & Hn). split; [apply inner_valid; assumption|exact Hn].
  - intros (Hi & Hne & Hn). split; [apply inner_valid; assumption|lia].
  - intros [Hd Hn]. split; assumption.
Qed.
Lemma add_axis_ok p acts a : axis_valid a ->
  add_axis (mkb (mk p) acts) a =
  if mem (dim_of_axis a) (keys p) then Throw DimensionError else Ok (mkb (mk (p ++ [extent_of a])) (acts ++ action_of a)).
Proof.
  intros Hv. destruct (axis_valid_extent a Hv) as [Hd Hn]. pose proof (add_inner_mk p (dim_of_axis a) (snd (extent_of a)) Hd Hn) as E.
  replace (dim_of_axis a, snd (extent_of a)) with (extent_of a) in E by (unfold dim_of_axis; apply surjective_pairing).
  destruct a as [d|it|it|d n]; unfold dim_of_axis in *; cbn [axis_valid extent_of fst snd add_axis action_of] in *.
  - unfold b_erase. cbn [b_dims b_acts]. rewrite E, app_nil_r. destruct (mem d (keys p)); reflexivity.
  - destruct Hv as (Hi & Hne & _). unfold b_group. cbn [b_dims b_acts]. rewrite inner_dim, inner_at by assumption. cbn [bind]. change (fst (inner it)) with (idim it) in *.
    rewrite E. destruct (mem (idim it) (keys p)); reflexivity.
  - destruct Hv as (Hi & Hne & _). unfold b_bin. cbn [b_dims b_acts]. rewrite inner_dim, inner_at by assumption. cbn [bind]. rewrite E. destruct (mem (idim it) (keys p)); reflexivity.
  - unfold b_existing. cbn [b_dims b_acts]. rewrite E. destruct (mem d (keys p)); reflexivity.
Qed.
Lemma no_dup_dup a x b : In x a -> no_dup (a ++ x :: b) = false.
Proof.
  intros Hx. destruct (no_dup (a ++ x :: b)) eqn:E; [|reflexivity]. apply no_dup_NoDup in E. apply NoDup_remove_2 in E. exfalso. apply E. apply in_or_app. left. exact Hx.
Qed.
Lemma add_axes_ok l : forall p acts, NoDup (keys p) -> Forall axis_valid l ->
  add_axes (mkb (mk p) acts) l =
  if no_dup (keys p ++ map dim_of_axis l) then Ok (mkb (mk (p ++ map extent_of l)) (acts ++ flat_map action_of l)) else Throw DimensionError.
Proof.
  induction l as [|a l IH]; intros p acts Hp Hl; cbn [add_axes map flat_map].
  - rewrite !app_nil_r. apply no_dup_NoDup in Hp. rewrite Hp. reflexivity.
  - inversion_clear Hl as [|? ? Ha Hl']. rewrite add_axis_ok by exact Ha. destruct (mem (dim_of_axis a) (keys p)) eqn:E; cbn [bind].
    + apply mem_In in E. rewrite no_dup_dup by exact E. reflexivity.
    + rewrite IH; [|rewrite keys_app; change (keys [extent_of a]) with [dim_of_axis a]; apply NoDup_snoc; [exact Hp|apply mem_nIn; exact E]|exact Hl'].
      rewrite keys_app. change (keys [extent_of a]) with [dim_of_axis a]. rewrite <- !app_assoc. reflexivity.
Qed.
Lemma add_axes_app l1 l2 b : add_axes b (l1 ++ l2) = do b' <- add_axes b l1; add_axes b' l2.
Proof. revert b. induction l1 as [|a l1 IH]; intros b; [reflexivity|]. cbn [app add_axes]. destruct (add_axis b a); cbn [bind]; [apply IH|reflexivity|reflexivity]. Qed.

Lemma erase_all_axes l b : erase_all b l = add_axes b (map Erased l).
Proof. revert b. induction l as [|d l IH]; intros b; [reflexivity|]. cbn [erase_all map add_axes add_axis]. destruct (b_erase b d); cbn [bind]; [apply IH|reflexivity|reflexivity]. Qed.
Lemma add_new_axes (add : builder -> item -> res builder) (mka : item -> axis) p l : (forall b it, add b it = add_axis b (mka it)) -> (forall it, In it l -> item_ok it) ->
  forall b, add_new add (mk p) b l = add_axes b (map mka (filter (is_new p) l)).
Proof.
  intros Hadd. induction l as [|it l IH]; intros Hok b; [reflexivity|]. cbn [add_new filter]. rewrite inner_dim by (apply Hok; left; reflexivity). rewrite dcontains_mk.
  unfold is_new at 1. destruct (mem (idim it) (keys p)); cbn [negb bind map add_axes].
  - apply IH. intros x Hx. apply Hok. right; exact Hx.
  - rewrite Hadd. destruct (add_axis b (mka it)); cbn [bind]; try reflexivity. apply IH. intros x Hx. apply Hok. right; exact Hx.
Qed.

(** ** The dimensions with edges and groups *)
Lemma get_dims_ok l : forall q, NoDup (keys q) -> (forall it, In it l -> item_ok it /\ ishape it <> []) ->
  get_dims (mk q) l = if no_dup (keys q ++ map idim l) then Ok (mk (q ++ map (fun it => (idim it, 1)) l)) else Throw DimensionError.
Proof.
  induction l as [|it l IH]; intros q Hq Hl; cbn [get_dims map].
  - rewrite !app_nil_r. apply no_dup_NoDup in Hq. rewrite Hq. reflexivity.
  - destruct (Hl it (or_introl eq_refl)) as [Hi Hne]. rewrite inner_dim by exact Hi. rewrite add_inner_mk by (try apply inner_valid; try lia; assumption).
    destruct (mem (idim it) (keys q)) eqn:E; cbn [bind].
    + apply mem_In in E. rewrite no_dup_dup by exact E. reflexivity.
    + rewrite IH; [|rewrite keys_app; cbn; apply NoDup_snoc; [exact Hq|apply mem_nIn; exact E]|intros x Hx; apply Hl; right; exact Hx].
      rewrite keys_app. change (keys [(idim it, 1)]) with [idim it]. rewrite <- !app_assoc. reflexivity.
Qed.
Definition unit_dims (l : list item) : sizes := mk (map (fun it => (idim it, 1)) l).
Lemma unit_dims_contains l d : dcontains (unit_dims l) d = mem d (map idim l).
Proof. unfold unit_dims. rewrite dcontains_mk. unfold keys. rewrite map_map. reflexivity. Qed.
Lemma named_index l d : match named d l with
  | Some it => mem d (map idim l) = true /\ idim it = d /\ In it l /\ exists i, dindex (unit_dims l) d = Ok i /\ vget l i = Ok it
  | None => mem d (map idim l) = false end.
Proof.
  unfold unit_dims, dindex, mindex. cbn [mk View_Proofs.mk m_keys]. unfold keys. rewrite map_map. cbn [fst].
  induction l as [|x l IH]; [reflexivity|]. cbn [named find map find_index mem existsb]. fold (named d l). fold (mem d (map idim l)). rewrite (Z.eqb_sym d (idim x)).
  destruct (Z.eqb_spec (idim x) d) as [E|E]; cbn [orb].
  - split; [reflexivity|]. split; [exact E|]. split; [left; reflexivity|]. exists 0. split; [reflexivity|]. reflexivity.
  - destruct (named d l) as [it|]; [|exact IH]. destruct IH as (M & I & J & i & Ei & Ev). split; [exact M|]. split; [exact I|]. split; [right; exact J|].
    change (map (fun x => idim x) l) with (map idim l) in *. destruct (find_index Z.eqb d (map idim l)) as [n|]; [|discriminate]. cbn [option_map]. injection Ei as <-. exists (Z.of_nat (S n)). split; [reflexivity|].
    revert Ev. unfold vget. destruct (Z.ltb_spec (Z.of_nat n) 0); [lia|]. destruct (Z.ltb_spec (Z.of_nat (S n)) 0); [lia|]. rewrite !Nat2Z.id. cbn [nth_error]. tauto.
Qed.

(** ** The loop over the dimensions of the data *)
Definition coord_at (coords : list (Z * item)) (d : Z) : option item := option_map snd (find (fun e => fst e =? d) coords).
Definition kept_okb (coords : list (Z * item)) (a : axis) : bool :=
  match a with
  | Kept d _ => match coord_at coords d with Some it => Nat.eqb (length (ishape it)) 1 | None => true end
  | _ => true
  end.
Lemma coord_at_some coords d it : coord_at coords d = Some it -> In (d, it) coords.
Proof.
  unfold coord_at. destruct (find (fun e => fst e =? d) coords) as [[k x]|] eqn:E; [|discriminate]. cbn [option_map snd]. intros [= ->].
  apply find_some in E. destruct E as [Hi Hk]. cbn [fst] in Hk. apply Z.eqb_eq in Hk. subst k. exact Hi.
Qed.
Lemma coord_at_none coords d : coord_at coords d = None -> ~ In d (map fst coords).
Proof.
  unfold coord_at. destruct (find (fun e => fst e =? d) coords) as [[k x]|] eqn:E; [discriminate|]. intros _ Hi. apply in_map_iff in Hi. destruct Hi as (e & <- & He).
  pose proof (find_none _ _ E e He) as N. cbn in N. rewrite Z.eqb_refl in N. discriminate.
Qed.
Lemma in_map_inj_fst (l : list (Z * item)) d x y : NoDup (map fst l) -> In (d, x) l -> In (d, y) l -> x = y.
Proof.
  induction l as [|[k z] l IH]; intros Hnd Hx Hy; [destruct Hx|]. cbn [map fst] in Hnd. inversion_clear Hnd as [|? ? Hk Hl].
  destruct Hx as [E|Hx]; destruct Hy as [E0|Hy]; [congruence| | |apply IH; assumption].
  - injection E as -> ->. exfalso. apply Hk. apply (in_map fst) in Hy. exact Hy.
  - injection E0 as -> ->. exfalso. apply Hk. apply (in_map fst) in Hx. exact Hx.
Qed.
Lemma kept_okb_iff coords l : NoDup (map fst coords) -> forallb (kept_okb coords) l = true <-> kept_1d coords l.
Proof.
  intros Hnd. rewrite forallb_forall. unfold kept_1d. split.
  - intros Hf d n it Hi Hc. specialize (Hf _ Hi). cbn [kept_okb] in Hf. destruct (coord_at coords d) as [it'|] eqn:E.
    + apply coord_at_some in E. assert (it = it') as ->. { apply (in_map_inj_fst coords d); assumption. } apply Nat.eqb_eq. exact Hf.
    + exfalso. apply (coord_at_none coords d E). apply (in_map fst) in Hc. exact Hc.
  - intros Hk [d|it|it|d n] Hi; cbn [kept_okb]; try reflexivity. destruct (coord_at coords d) as [it'|] eqn:E; [|reflexivity]. apply Nat.eqb_eq. apply (Hk d n); [exact Hi|apply coord_at_some; exact E].
Qed.

Section Visit.
Variables (P : list (Z * Z)) (coords : list (Z * item)) (edges groups : list item) (erase : list Z).
Hypothesis HP : lwf P.
Hypothesis Hc : NoDup (map fst coords).
Hypothesis Hci : forall d it, In (d, it) coords -> item_ok it.
Hypothesis He : Forall (arg_ok 1) edges.
Hypothesis Hg : Forall (arg_ok 0) groups.

Lemma bad_coord d : (if mcontains Z.eqb (mkd coords) d then do c <- mat Z.eqb NotFoundError (mkd coords) d; Ok (negb (ndim (i_dims c) =? 1)) else Ok false) =
  Ok (negb (match coord_at coords d with Some it => Nat.eqb (length (ishape it)) 1 | None => true end)).
Proof.
  destruct (coord_at coords d) as [it|] eqn:E.
  - apply coord_at_some in E. assert (M : mcontains Z.eqb (mkd coords) d = true) by (apply contains_In; apply (in_map fst) in E; exact E). rewrite M, (at_In coords d it) by assumption. cbn [bind].
    do 2 f_equal. destruct (item_mk it (Hci d it E)) as [-> _]. unfold ndim, labels, zlen. cbn [mk View_Proofs.mk m_keys]. unfold keys. rewrite map_length.
    destruct (Nat.eqb_spec (length (ishape it)) 1) as [->|Hne]; [reflexivity|]. apply Z.eqb_neq. lia.
  - assert (M : mcontains Z.eqb (mkd coords) d = false) by (apply contains_nIn; apply coord_at_none; exact E). rewrite M. reflexivity.
Qed.

(** [visit_dim] adds the axes of one dimension. *)
Lemma visit_dim_ok p acts rebin d n : NoDup (keys p) -> In (d, n) P -> mem d (keys p) = mem d erase -> (given edges groups d = true -> rebin = true) ->
  visit_dim (mk P) (mkd coords) edges groups (unit_dims edges) (unit_dims groups) rebin (mkb (mk p) acts) d =
  let l := if rebin then axis_of edges groups erase (d, n) else [] in
  if forallb (kept_okb coords) l then add_axes (mkb (mk p) acts) l else Throw DimensionError.
Proof.
  intros Hp Hd Hm Hr. unfold visit_dim, axis_of. cbn [fst snd]. rewrite !unit_dims_contains. unfold given in Hr.
  pose proof (named_index groups d) as Ng. destruct (named d groups) as [g|].
  { destruct Ng as (M & I & J & i & Ei & Ev). rewrite M in *. rewrite Bool.orb_true_r in Hr. rewrite Hr by reflexivity. rewrite Ei. cbn [bind]. rewrite Ev. cbn [bind forallb kept_okb andb add_axes add_axis]. destruct (b_group (mkb (mk p) acts) g); reflexivity. }
  rewrite Ng in *. rewrite Bool.orb_false_r in Hr. pose proof (named_index edges d) as Ne. destruct (named d edges) as [e|].
  { destruct Ne as (M & I & J & i & Ei & Ev). rewrite M in *. rewrite Hr by reflexivity. rewrite Ei. cbn [bind]. rewrite Ev. cbn [bind forallb kept_okb andb add_axes add_axis]. destruct (b_bin (mkb (mk p) acts) e); reflexivity. }
  rewrite Ne in *. cbn [b_dims]. rewrite dcontains_mk, Hm. destruct rebin; cbn [andb]; [|reflexivity]. destruct (mem d erase); cbn [negb]; [reflexivity|].
  rewrite bad_coord. cbn [bind forallb kept_okb]. rewrite Bool.andb_true_r. destruct (match coord_at coords d with Some it => Nat.eqb (length (ishape it)) 1 | None => true end); cbn [negb]; [|reflexivity].
  rewrite (dat_has (mk P) d n); [|apply mk_wf; exact HP|unfold has; rewrite pairs_mk; exact Hd]. cbn [bind add_axes add_axis]. destruct (b_existing (mkb (mk p) acts) d n); reflexivity.
Qed.
Lemma axis_of_dim d n a : In a (axis_of edges groups erase (d, n)) -> dim_of_axis a = d.
Proof.
  unfold axis_of. cbn [fst snd]. pose proof (named_index groups d) as Ng. pose proof (named_index edges d) as Ne. destruct (named d groups) as [g|]; [intros [<-|[]]; apply Ng|].
  destruct (named d edges) as [e|]; [intros [<-|[]]; apply Ne|]. destruct (mem d erase); [intros []|intros [<-|[]]; reflexivity].
Qed.
Lemma axis_of_valid d n a : In (d, n) P -> In a (axis_of edges groups erase (d, n)) -> axis_valid a.
Proof.
  intros Hd. unfold axis_of. cbn [fst snd]. pose proof (named_index groups d) as Ng. pose proof (named_index edges d) as Ne. pose proof (proj1 (Forall_forall _ _) He) as He'. pose proof (proj1 (Forall_forall _ _) Hg) as Hg'.
  destruct (named d groups) as [g|]; [intros [<-|[]]; apply Hg', Ng|]. destruct (named d edges) as [e|]; [intros [<-|[]]; apply He', Ne|].
  destruct (mem d erase); [intros []|intros [<-|[]]]. destruct HP as (_ & Hn & Hi). cbn [axis_valid]. split; [intros ->; apply Hi; apply In_keys; eexists; exact Hd|].
  rewrite Forall_forall in Hn. apply Hn. unfold extents. apply in_map_iff. exists (d, n). split; [reflexivity|exact Hd].
Qed.

Lemma visit_ok Q : forall rebin p acts, (exists P0, P = P0 ++ Q) -> NoDup (keys p) -> (forall d, In d (keys Q) -> mem d (keys p) = mem d erase) ->
  visit (mk P) (mkd coords) edges groups (unit_dims edges) (unit_dims groups) rebin (mkb (mk p) acts) (keys Q) =
  let l := flat_map (axis_of edges groups erase) (if rebin then Q else from_first edges groups Q) in
  if forallb (kept_okb coords) l then add_axes (mkb (mk p) acts) l else Throw DimensionError.
Proof.
  induction Q as [|[d n] Q IH]; intros rebin p acts [P0 EP] Hp Hm; [destruct rebin; reflexivity|].
  assert (Hd : In (d, n) P) by (rewrite EP; apply in_elt). assert (HQ : exists P1, P = P1 ++ Q) by (exists (P0 ++ [(d, n)]); rewrite <- app_assoc; exact EP).
  assert (Hdq : ~ In d (keys Q)). { destruct HP as [Hn _]. rewrite EP, keys_app in Hn. cbn [keys map fst] in Hn. apply NoDup_remove_2 in Hn. intros Hi. apply Hn. apply in_or_app. right. exact Hi. }
  change (keys ((d, n) :: Q)) with (d :: keys Q) in *. cbn [visit from_first fst]. rewrite !unit_dims_contains. change (mem d (map idim edges) || mem d (map idim groups)) with (given edges groups d).
  set (r := rebin || given edges groups d). rewrite (visit_dim_ok p acts r d n); [|exact Hp|exact Hd|apply Hm; left; reflexivity|unfold r; intros ->; apply Bool.orb_true_r].
  replace (if rebin then (d, n) :: Q else if given edges groups d then (d, n) :: Q else from_first edges groups Q)
    with (if r then (d, n) :: Q else from_first edges groups Q) by (unfold r; destruct rebin; reflexivity).
  destruct r.
  - cbv zeta. cbn [flat_map]. set (l1 := axis_of edges groups erase (d, n)). rewrite forallb_app. destruct (forallb (kept_okb coords) l1); cbn [andb]; [|reflexivity].
    rewrite add_axes_app. assert (V1 : Forall axis_valid l1) by (apply Forall_forall; intros a Ha; apply (axis_of_valid d n a Hd Ha)).
    assert (D1 : forall a, In a l1 -> dim_of_axis a = d) by (intros a Ha; apply (axis_of_dim d n a Ha)).
    rewrite (add_axes_ok l1 p acts Hp V1). destruct (no_dup (keys p ++ map dim_of_axis l1)) eqn:En; cbn [bind].
    + apply no_dup_NoDup in En. assert (Ek : keys (p ++ map extent_of l1) = keys p ++ map dim_of_axis l1) by (rewrite keys_app; f_equal; unfold keys; rewrite map_map; reflexivity).
      rewrite IH; [reflexivity|exact HQ|rewrite Ek; exact En|]. intros x Hx. rewrite <- (Hm x (or_intror Hx)), Ek. apply Bool.eq_true_iff_eq. rewrite !mem_In, in_app_iff. split; [|tauto].
      intros [Hi|Hi]; [exact Hi|]. exfalso. apply in_map_iff in Hi. destruct Hi as (a & <- & Ha). rewrite (D1 a Ha) in Hx. exact (Hdq Hx).
    + destruct (forallb (kept_okb coords) (flat_map (axis_of edges groups erase) Q)); reflexivity.
  - cbn [forallb add_axes bind]. rewrite IH; [reflexivity|exact HQ|exact Hp|]. intros x Hx. apply Hm. right; exact Hx.
Qed.

Lemma from_first_incl e : In e (from_first edges groups P) -> In e P.
Proof. clear. induction P as [|a p IH]; [intros []|]. cbn [from_first]. destruct (given edges groups (fst a)); [intros Hi; exact Hi|]. intros Hi. right. apply IH. exact Hi. Qed.
Hypothesis Her : ~ In InvalidDim erase.
Lemma axes_valid : Forall axis_valid (axes P edges groups erase).
Proof.
  pose proof (proj1 (Forall_forall _ _) He) as He'. pose proof (proj1 (Forall_forall _ _) Hg) as Hg'.
  unfold axes. rewrite !Forall_app, !Forall_forall. repeat split.
  - intros a Ha. apply in_map_iff in Ha. destruct Ha as (d & <- & Hd). cbn [axis_valid]. intros ->. exact (Her Hd).
  - intros a Ha. apply in_flat_map in Ha. destruct Ha as ([d n] & Hd & Ha). apply (axis_of_valid d n a); [apply from_first_incl; exact Hd|exact Ha].
  - intros a Ha. apply in_map_iff in Ha. destruct Ha as (d & <- & Hd). apply filter_In in Hd. apply Hg', Hd.
  - intros a Ha. apply in_map_iff in Ha. destruct Ha as (d & <- & Hd). apply filter_In in Hd. apply He', Hd.
Qed.

Theorem axis_actions_ok :
  (compatible P coords edges groups erase ->
   axis_actions (mk P) (mkd coords) edges groups erase =
   Ok (mkb (mk (map extent_of (axes P edges groups erase))) (flat_map action_of (axes P edges groups erase)))) /\
  (~ compatible P coords edges groups erase -> axis_actions (mk P) (mkd coords) edges groups erase = Throw DimensionError).
Proof.
  assert (Hi : forall l least, Forall (arg_ok least) l -> forall it, In it l -> item_ok it /\ ishape it <> []).
  { intros l least Hl it Hit. rewrite Forall_forall in Hl. destruct (Hl it Hit) as (A & B & _). split; assumption. }
  pose proof axes_valid as Hv. set (A1 := map Erased erase). set (A2 := flat_map (axis_of edges groups erase) (from_first edges groups P)).
  set (A3 := map Grouped (filter (is_new P) groups)). set (A4 := map Binned (filter (is_new P) edges)).
  assert (EA : axes P edges groups erase = A1 ++ A2 ++ A3 ++ A4) by reflexivity.
  assert (E : axis_actions (mk P) (mkd coords) edges groups erase =
    if no_dup (map idim edges) && no_dup (map idim groups) && forallb (kept_okb coords) (axes P edges groups erase) then add_axes (mkb (mk []) []) (axes P edges groups erase) else Throw DimensionError).
  { unfold axis_actions. change (mkb mempty []) with (mkb (mk []) []). rewrite erase_all_axes. fold A1. rewrite EA.
    rewrite (add_axes_app A1). rewrite EA in Hv. apply Forall_app in Hv. destruct Hv as [V1 V2].
    rewrite (add_axes_ok A1 [] []) by first [apply NoDup_nil|exact V1]. change (keys [] ++ map dim_of_axis A1) with (map dim_of_axis A1).
    assert (Ed : map dim_of_axis A1 = erase). { unfold A1. rewrite map_map. unfold dim_of_axis. cbn [extent_of fst]. apply map_id. }
    destruct (no_dup (map dim_of_axis A1)) eqn:N1; cbn [bind]; [|destruct (_ && _); reflexivity].
    change mempty with (mk []). rewrite (get_dims_ok edges []) by first [apply NoDup_nil|apply (Hi edges 1 He)]. change (keys [] ++ map idim edges) with (map idim edges).
    destruct (no_dup (map idim edges)); cbn [bind andb]; [|reflexivity].
    rewrite (get_dims_ok groups []) by first [apply NoDup_nil|apply (Hi groups 0 Hg)]. change (keys [] ++ map idim groups) with (map idim groups).
    destruct (no_dup (map idim groups)); cbn [bind andb]; [|reflexivity].
    change (mk ([] ++ map (fun it => (idim it, 1)) edges)) with (unit_dims edges). change (mk ([] ++ map (fun it => (idim it, 1)) groups)) with (unit_dims groups).
    cbn [app]. assert (Ek : keys (map extent_of A1) = erase) by (unfold keys; rewrite map_map; exact Ed).
    assert (N1' : NoDup (keys (map extent_of A1))) by (rewrite Ek, <- Ed; apply no_dup_NoDup; exact N1).
    change (labels (mk P)) with (keys P). rewrite (visit_ok P false); [|exists []; reflexivity|exact N1'|intros d _; rewrite Ek; reflexivity].
    cbv zeta. fold A2. rewrite !forallb_app.
    assert (K1 : forallb (kept_okb coords) A1 = true) by (unfold A1; rewrite forallb_forall; intros a Ha; apply in_map_iff in Ha; destruct Ha as (? & <- & _); reflexivity).
    assert (K3 : forallb (kept_okb coords) A3 = true) by (unfold A3; rewrite forallb_forall; intros a Ha; apply in_map_iff in Ha; destruct Ha as (? & <- & _); reflexivity).
    assert (K4 : forallb (kept_okb coords) A4 = true) by (unfold A4; rewrite forallb_forall; intros a Ha; apply in_map_iff in Ha; destruct Ha as (? & <- & _); reflexivity).
    rewrite K1, K3, K4, Bool.andb_true_r. cbn [andb]. destruct (forallb (kept_okb coords) A2); cbn [bind]; [|reflexivity].
    rewrite (add_axes_app A2). destruct (add_axes _ A2) as [b2|?|]; cbn [bind]; try reflexivity.
    rewrite (add_new_axes b_group Grouped P groups) by (try reflexivity; intros; apply (Hi groups 0 Hg); assumption). fold A3. rewrite (add_axes_app A3).
    destruct (add_axes b2 A3) as [b3|?|]; cbn [bind]; try reflexivity.
    rewrite (add_new_axes b_bin Binned P edges) by (try reflexivity; intros; apply (Hi edges 1 He); assumption). reflexivity. }
  rewrite E. rewrite (add_axes_ok _ [] []) by first [apply NoDup_nil|exact Hv]. change (keys [] ++ map dim_of_axis (axes P edges groups erase)) with (map dim_of_axis (axes P edges groups erase)). cbn [app].
  unfold compatible. rewrite <- (kept_okb_iff coords _ Hc), <- !no_dup_NoDup. change (map (fun a => fst (extent_of a)) (axes P edges groups erase)) with (map dim_of_axis (axes P edges groups erase)).
  destruct (no_dup (map idim edges)); cbn [andb]; [|split; [intros (? & _); discriminate|reflexivity]].
  destruct (no_dup (map idim groups)); cbn [andb]; [|split; [intros (_ & ? & _); discriminate|reflexivity]].
  destruct (forallb (kept_okb coords) (axes P edges groups erase)); [|split; [intros (_ & _ & _ & ?); discriminate|reflexivity]].
  destruct (no_dup (map dim_of_axis (axes P edges groups erase))); [|split; [intros (_ & _ & ? & _); discriminate|reflexivity]].
  split; [reflexivity|]. intros N. exfalso. apply N. repeat split; reflexivity.
Qed.
End Visit.

(** ** The dimensions of the result *)
Lemma outer_loop_ok P B Q : forall o, lwf P -> (exists P0, P = P0 ++ Q) -> (forall d, In d (keys Q) -> ~ In d (keys o)) ->
  outer_loop (mk P) (mk B) (mk o) (keys Q) = Ok (mk (o ++ filter (fun e => negb (mem (fst e) (keys B))) Q)).
Proof.
  induction Q as [|[d n] Q IH]; intros o HP [P0 EP] Ho; [cbn; rewrite app_nil_r; reflexivity|].
  assert (Hd : In (d, n) P) by (rewrite EP; apply in_elt). assert (HQ : exists P1, P = P1 ++ Q) by (exists (P0 ++ [(d, n)]); rewrite <- app_assoc; exact EP).
  assert (Hdq : ~ In d (keys Q)). { destruct HP as [Hn _]. rewrite EP, keys_app in Hn. cbn [keys map fst] in Hn. apply NoDup_remove_2 in Hn. intros Hi. apply Hn. apply in_or_app. right. exact Hi. }
  change (keys ((d, n) :: Q)) with (d :: keys Q) in *. cbn [outer_loop filter fst]. rewrite dcontains_mk. destruct (mem d (keys B)); cbn [negb bind].
  - apply IH; [exact HP|exact HQ|]. intros x Hx. apply Ho. right; exact Hx.
  - rewrite (dat_has (mk P) d n); [|apply mk_wf; exact HP|unfold has; rewrite pairs_mk; exact Hd]. cbn [bind].
    destruct HP as (HPn & HPf & HPi). rewrite add_inner_mk.
    + destruct (mem d (keys o)) eqn:E; [exfalso; apply mem_In in E; exact (Ho d (or_introl eq_refl) E)|]. cbn [bind]. rewrite IH.
      * rewrite <- app_assoc. reflexivity.
      * repeat split; assumption.
      * exact HQ.
      * intros x Hx Hi. rewrite keys_app in Hi. apply in_app_iff in Hi. destruct Hi as [Hi|[<-|[]]]; [exact (Ho x (or_intror Hx) Hi)|exact (Hdq Hx)].
    + intros ->. apply HPi. apply In_keys. eexists. exact Hd.
    + rewrite Forall_forall in HPf. apply HPf. unfold extents. apply in_map_iff. exists (d, n). split; [reflexivity|exact Hd].
Qed.
Lemma lwf_entry p d n : lwf p -> In (d, n) p -> d <> InvalidDim /\ 0 <= n.
Proof.
  intros (_ & Hf & Hi) Hd. split; [intros ->; apply Hi; apply In_keys; eexists; exact Hd|]. rewrite Forall_forall in Hf. apply Hf. unfold extents. apply in_map_iff. exists (d, n). split; [reflexivity|exact Hd].
Qed.
Lemma suffix_new (A : Type) (p q : list (Z * A)) (d : Z) (n : A) p0 : NoDup (map fst p) -> p = p0 ++ (d, n) :: q -> ~ In d (map fst q).
Proof. intros Hn ->. rewrite map_app in Hn. cbn [map fst] in Hn. apply NoDup_remove_2 in Hn. intros Hi. apply Hn. apply in_or_app. right. exact Hi. Qed.
Lemma merge_loop_disjoint a b it q : forall o, lwf a -> (forall d, In d (keys a) -> ~ In d (keys b)) -> (exists a0, a = a0 ++ q) -> (forall d, In d (keys q) -> ~ In d (keys o)) ->
  merge_loop (mk a) (mk b) (mk o) it (keys q) = Ok (mk (o ++ q), it).
Proof.
  induction q as [|[d n] q IH]; intros o Ha Hab [a0 Ea] Ho; [cbn; rewrite app_nil_r; reflexivity|].
  assert (Hd : In (d, n) a) by (rewrite Ea; apply in_elt). destruct (lwf_entry a d n Ha Hd) as [Hv Hn].
  assert (Hdq : ~ In d (keys q)) by (apply (suffix_new Z a q d n a0); [apply Ha|exact Ea]).
  change (keys ((d, n) :: q)) with (d :: keys q) in *. cbn [merge_loop]. rewrite dcontains_mk.
  destruct (mem d (keys b)) eqn:E; [exfalso; apply mem_In in E; apply (Hab d); [apply In_keys; eexists; exact Hd|exact E]|]. cbn [bind fst snd].
  rewrite (dat_has (mk a) d n); [|apply mk_wf; exact Ha|unfold has; rewrite pairs_mk; exact Hd]. cbn [bind]. rewrite add_inner_mk by assumption.
  destruct (mem d (keys o)) eqn:E'; [exfalso; apply mem_In in E'; exact (Ho d (or_introl eq_refl) E')|]. cbn [bind]. rewrite IH.
  - rewrite <- app_assoc. reflexivity.
  - exact Ha.
  - exact Hab.
  - exists (a0 ++ [(d, n)]). rewrite <- app_assoc. exact Ea.
  - intros x Hx Hi. rewrite keys_app in Hi. apply in_app_iff in Hi. destruct Hi as [Hi|[<-|[]]]; [exact (Ho x (or_intror Hx) Hi)|exact (Hdq Hx)].
Qed.
Lemma merge_rest_disjoint a b q : forall o, lwf b -> (forall d, In d (keys a) -> ~ In d (keys b)) -> (exists b0, b = b0 ++ q) -> (forall d, In d (keys q) -> ~ In d (keys o)) ->
  merge_rest (mk a) (mk b) (mk o) (keys q) = Ok (mk (o ++ q)).
Proof.
  induction q as [|[d n] q IH]; intros o Hb Hab [b0 Eb] Ho; [cbn; rewrite app_nil_r; reflexivity|].
  assert (Hd : In (d, n) b) by (rewrite Eb; apply in_elt). destruct (lwf_entry b d n Hb Hd) as [Hv Hn].
  assert (Hdq : ~ In d (keys q)) by (apply (suffix_new Z b q d n b0); [apply Hb|exact Eb]).
  change (keys ((d, n) :: q)) with (d :: keys q) in *. cbn [merge_rest]. rewrite dcontains_mk.
  destruct (mem d (keys a)) eqn:E; [exfalso; apply mem_In in E; apply (Hab d); [exact E|apply In_keys; eexists; exact Hd]|].
  rewrite (dat_has (mk b) d n); [|apply mk_wf; exact Hb|unfold has; rewrite pairs_mk; exact Hd]. cbn [bind]. rewrite add_inner_mk by assumption.
  destruct (mem d (keys o)) eqn:E'; [exfalso; apply mem_In in E'; exact (Ho d (or_introl eq_refl) E')|]. cbn [bind]. rewrite IH.
  - rewrite <- app_assoc. reflexivity.
  - exact Hb.
  - exact Hab.
  - exists (b0 ++ [(d, n)]). rewrite <- app_assoc. exact Eb.
  - intros x Hx Hi. rewrite keys_app in Hi. apply in_app_iff in Hi. destruct Hi as [Hi|[<-|[]]]; [exact (Ho x (or_intror Hx) Hi)|exact (Hdq Hx)].
Qed.
Lemma merge_disjoint a b : lwf a -> lwf b -> (forall d, In d (keys a) -> ~ In d (keys b)) -> dims_merge (mk a) (mk b) = Ok (mk (a ++ b)).
Proof.
  intros Ha Hb Hab. unfold dims_merge. change mempty with (mk []). change (labels (mk a)) with (keys a). change (labels (mk b)) with (keys b).
  rewrite (merge_loop_disjoint a b (keys b) a []); [|exact Ha|exact Hab|exists []; reflexivity|intros d _ []]. cbn [bind fst snd app].
  apply merge_rest_disjoint; [exact Hb|exact Hab|exists []; reflexivity|]. intros d Hd Hi. exact (Hab d Hi Hd).
Qed.
Lemma merase_filter p d n : lwf p -> In (d, n) p -> merase Z.eqb (mk p) d = Ok (mk (filter (fun e => negb (fst e =? d)) p)).
Proof.
  intros Hp Hd. destruct (in_split _ _ Hd) as (p1 & p2 & ->). destruct Hp as (Hn & _). rewrite keys_app in Hn. cbn [keys map fst] in Hn. pose proof (NoDup_remove_2 _ _ _ Hn) as N.
  rewrite merase_sp by (intros Hi; apply N; apply in_or_app; left; exact Hi). f_equal. f_equal. rewrite filter_app. cbn [filter fst]. rewrite Z.eqb_refl. cbn [negb].
  rewrite !filter_all; [reflexivity| |]; intros [k m] Hk; cbn [fst]; apply Bool.negb_true_iff, Z.eqb_neq; intros ->; apply N; apply in_or_app; [right|left]; apply In_keys; eexists; exact Hk.
Qed.
Lemma lwf_filter f p : lwf p -> lwf (filter f p).
Proof.
  intros (Hn & Hf & Hi). split; [|split].
  - clear Hf Hi. induction p as [|[k m] p IH]; [constructor|]. cbn [keys map fst] in Hn. inversion_clear Hn as [|? ? Hk Hp]. cbn [filter]. destruct (f (k, m)); [|apply IH; exact Hp].
    cbn [keys map fst]. constructor; [|apply IH; exact Hp]. intros Hx. apply Hk. apply In_keys in Hx. destruct Hx as [x Hx]. apply filter_In in Hx. apply In_keys. eexists. apply Hx.
  - rewrite Forall_forall in *. intros x Hx. unfold extents in *. apply in_map_iff in Hx. destruct Hx as (e & <- & He). apply filter_In in He. apply Hf. apply in_map. apply He.
  - intros Hx. apply Hi. apply In_keys in Hx. destruct Hx as [x Hx]. apply filter_In in Hx. apply In_keys. eexists. apply Hx.
Qed.
Lemma filter_filter {A} (f g : A -> bool) l : filter f (filter g l) = filter (fun x => g x && f x) l.
Proof. induction l as [|x l IH]; [reflexivity|]. cbn [filter]. destruct (g x); cbn [filter andb]; rewrite IH; reflexivity. Qed.
Lemma squeeze_dims_ok ds : forall p, lwf p -> NoDup ds -> (forall d, In d ds -> exists n, In (d, n) p) ->
  squeeze_dims (mk p) ds = Ok (mk (filter (fun e => negb (mem (fst e) ds)) p)).
Proof.
  induction ds as [|d ds IH]; intros p Hp Hnd Hd; cbn [squeeze_dims].
  - rewrite filter_all; [reflexivity|]. reflexivity.
  - inversion_clear Hnd as [|? ? Hx Hds]. destruct (Hd d (or_introl eq_refl)) as [n Hn]. rewrite (merase_filter p d n Hp Hn). cbn [bind]. rewrite IH.
    + rewrite filter_filter. do 2 f_equal. apply filter_ext. intros e. cbn [mem existsb]. fold (mem (fst e) ds). apply eq_sym, Bool.negb_orb.
    + apply lwf_filter. exact Hp.
    + exact Hds.
    + intros y Hy. destruct (Hd y (or_intror Hy)) as [m Hm]. exists m. apply filter_In. split; [exact Hm|]. cbn [fst]. apply Bool.negb_true_iff, Z.eqb_neq. intros ->. exact (Hx Hy).
Qed.
Lemma check_squeeze_ok p ds : lwf p -> (forall d, In d ds -> In (d, 1) p) -> check_squeeze (mk p) ds = Ok tt.
Proof.
  intros Hp. induction ds as [|d ds IH]; intros Hd; [reflexivity|]. cbn [check_squeeze].
  rewrite (dat_has (mk p) d 1); [|apply mk_wf; exact Hp|unfold has; rewrite pairs_mk; apply Hd; left; reflexivity]. cbn [bind]. apply IH. intros x Hx. apply Hd. right; exact Hx.
Qed.
Lemma out_dims_ok P B erase : lwf P -> lwf B -> NoDup erase -> (forall d, In d erase -> In (d, 1) B) ->
  out_dims (mk P) (mk B) erase = Ok (mk (filter (fun e => negb (mem (fst e) (keys B))) P ++ filter (fun e => negb (mem (fst e) erase)) B)).
Proof.
  intros HP HB Hnd Her. unfold out_dims. change mempty with (mk []). change (labels (mk P)) with (keys P).
  rewrite (outer_loop_ok P B P []); [|exact HP|exists []; reflexivity|intros d _ []]. cbn [bind app]. set (O := filter (fun e => negb (mem (fst e) (keys B))) P).
  assert (HO : lwf O) by (apply lwf_filter; exact HP).
  assert (Hdis : forall d, In d (keys O) -> ~ In d (keys B)). { intros d Hd. apply In_keys in Hd. destruct Hd as [n Hn]. apply filter_In in Hn. destruct Hn as [_ Hn]. cbn [fst] in Hn. apply Bool.negb_true_iff, mem_nIn in Hn. exact Hn. }
  rewrite merge_disjoint by assumption. cbn [bind].
  assert (HOB : lwf (O ++ B)). { apply lwf_join; try assumption. rewrite keys_app. apply NoDup_app_intro; [apply HO|apply HB|exact Hdis]. }
  rewrite check_squeeze_ok; [|exact HOB|intros d Hd; apply in_or_app; right; apply Her; exact Hd]. cbn [bind].
  rewrite squeeze_dims_ok; [|exact HOB|exact Hnd|intros d Hd; exists 1; apply in_or_app; right; apply Her; exact Hd]. rewrite filter_app. do 3 f_equal.
  apply filter_all. intros [d n] Hd. cbn [fst]. apply Bool.negb_true_iff, mem_nIn. intros Hi. apply (Hdis d); [apply In_keys; eexists; exact Hd|]. apply In_keys. exists 1. apply Her. exact Hi.
Qed.

(** The shape of the result for compatible arguments *)
Section Result.
Variables (P : list (Z * Z)) (coords : list (Z * item)) (edges groups : list item) (erase : list Z).
Hypothesis HP : lwf P.
Hypothesis He : Forall (arg_ok 1) edges.
Hypothesis Hg : Forall (arg_ok 0) groups.
Hypothesis Her : ~ In InvalidDim erase.
Hypothesis Hcomp : compatible P coords edges groups erase.
Let A := axes P edges groups erase.
Lemma axes_lwf : lwf (map extent_of A).
Proof.
  pose proof (axes_valid P edges groups erase HP He Hg Her) as V. fold A in V. rewrite Forall_forall in V. split; [|split].
  - unfold keys. rewrite map_map. apply Hcomp.
  - apply Forall_forall. intros x Hx. unfold extents in Hx. rewrite map_map in Hx. apply in_map_iff in Hx. destruct Hx as (a & <- & Ha). apply axis_valid_extent. apply V. exact Ha.
  - unfold keys. rewrite map_map. intros Hx. apply in_map_iff in Hx. destruct Hx as (a & Ea & Ha). destruct (axis_valid_extent a (V a Ha)) as [N _]. exact (N Ea).
Qed.
Lemma erase_axes d : In d erase -> In (d, 1) (map extent_of A).
Proof. intros Hd. apply in_map_iff. exists (Erased d). split; [reflexivity|]. unfold A, axes. apply in_or_app. left. apply in_map. exact Hd. Qed.
Lemma erase_nodup : NoDup erase.
Proof.
  destruct Hcomp as (_ & _ & N & _). unfold axes in N. rewrite map_app in N. apply NoDup_app_l in N. rewrite map_map in N. cbn [extent_of fst] in N. rewrite map_id in N. exact N.
Qed.
Lemma result_ok : out_dims (mk P) (mk (map extent_of A)) erase = Ok (mk (result_shape P A erase)) /\ lwf (result_shape P A erase).
Proof.
  assert (E : result_shape P A erase = filter (fun e => negb (mem (fst e) (keys (map extent_of A)))) P ++ filter (fun e => negb (mem (fst e) erase)) (map extent_of A)).
  { unfold result_shape. unfold keys. rewrite map_map. reflexivity. }
  split.
  - rewrite E. apply out_dims_ok; [exact HP|apply axes_lwf|apply erase_nodup|apply erase_axes].
  - rewrite E. apply lwf_join; [apply lwf_filter; exact HP|apply lwf_filter; apply axes_lwf|]. rewrite keys_app. apply NoDup_app_intro; [apply lwf_filter; exact HP|apply lwf_filter; apply axes_lwf|].
    intros d Hd Hd'. apply In_keys in Hd. destruct Hd as [n Hn]. apply filter_In in Hn. destruct Hn as [_ Hn]. cbn [fst] in Hn. apply Bool.negb_true_iff, mem_nIn in Hn. apply Hn.
    apply In_keys in Hd'. destruct Hd' as [m Hm]. apply filter_In in Hm. apply In_keys. eexists. apply Hm.
Qed.
(** Dimensions which the operation does not change *)
Lemma axes_in a : In a A -> (exists d, a = Erased d /\ In d erase) \/ (exists g, a = Grouped g /\ In g groups) \/ (exists e, a = Binned e /\ In e edges) \/
  exists d n, a = Kept d n /\ In (d, n) P /\ ~ changed edges groups erase d.
Proof.
  unfold A, axes. rewrite !in_app_iff. intros [Ha|[Ha|[Ha|Ha]]].
  - left. apply in_map_iff in Ha. destruct Ha as (d & <- & Hd). exists d. split; [reflexivity|exact Hd].
  - apply in_flat_map in Ha. destruct Ha as ([d n] & Hd & Ha). apply from_first_incl in Hd. unfold axis_of in Ha. cbn [fst snd] in Ha.
    pose proof (named_index groups d) as Ng. pose proof (named_index edges d) as Ne.
    destruct (named d groups) as [g|]; [destruct Ha as [<-|[]]; right; left; exists g; split; [reflexivity|apply Ng]|].
    destruct (named d edges) as [e|]; [destruct Ha as [<-|[]]; right; right; left; exists e; split; [reflexivity|apply Ne]|].
    destruct (mem d erase) eqn:M; [destruct Ha|]. destruct Ha as [<-|[]]. right; right; right. exists d, n. split; [reflexivity|]. split; [exact Hd|].
    apply mem_nIn in M, Ng, Ne. unfold changed. tauto.
  - right; left. apply in_map_iff in Ha. destruct Ha as (g & <- & Hx). apply filter_In in Hx. exists g. split; [reflexivity|apply Hx].
  - right; right; left. apply in_map_iff in Ha. destruct Ha as (g & <- & Hx). apply filter_In in Hx. exists g. split; [reflexivity|apply Hx].
Qed.
Lemma unchanged_dim d n : ~ changed edges groups erase d -> In (d, n) (result_shape P A erase) <-> In (d, n) P.
Proof.
  intros Hu. assert (HK : forall m, In (d, m) (map extent_of A) -> In (d, m) P).
  { intros m Hm. apply in_map_iff in Hm. destruct Hm as (a & Ea & Ha). apply axes_in in Ha. destruct Ha as [(x & -> & Hx)|[(g & -> & Hx)|[(e & -> & Hx)|(x & k & -> & Hx & _)]]]; cbn [extent_of] in Ea.
    - injection Ea as -> _. exfalso. apply Hu. left. exact Hx.
    - exfalso. apply Hu. right; right. apply in_map_iff. exists g. split; [unfold idim; rewrite Ea; reflexivity|exact Hx].
    - injection Ea as E _. exfalso. apply Hu. right; left. apply in_map_iff. exists e. split; [exact E|exact Hx].
    - injection Ea as -> ->. exact Hx. }
  unfold result_shape. rewrite in_app_iff, !filter_In. cbn [fst]. split; [intros [[Hi _]|[Hi _]]; auto|].
  intros Hi. destruct (mem d (map (fun a => fst (extent_of a)) A)) eqn:M; [right|left; split; [exact Hi|reflexivity]].
  apply mem_In, in_map_iff in M. destruct M as (a & Ea & Ha). assert (Hm : In (d, snd (extent_of a)) (map extent_of A)) by (apply in_map_iff; exists a; split; [rewrite <- Ea; apply surjective_pairing|exact Ha]).
  split; [|apply Bool.negb_true_iff, mem_nIn; intros Hx; apply Hu; left; exact Hx]. rewrite (In_unique P d n (snd (extent_of a))); [exact Hm|apply HP|exact Hi|apply HK; exact Hm].
Qed.
Lemma axis_in_result a : In a A -> ~ In (fst (extent_of a)) erase -> In (extent_of a) (result_shape P A erase).
Proof. intros Ha Hn. unfold result_shape. apply in_or_app. right. apply filter_In. split; [apply in_map; exact Ha|]. apply Bool.negb_true_iff, mem_nIn. exact Hn. Qed.
(** The axes that are not erased are not in [erase]. *)
Lemma axis_not_erased a : In a A -> (forall d, a <> Erased d) -> ~ In (fst (extent_of a)) erase.
Proof.
  intros Ha Hne Hi. destruct Hcomp as (_ & _ & N & _). fold A in N. assert (EA : exists r, A = map Erased erase ++ r) by (unfold A, axes; eexists; reflexivity). destruct EA as [r EA].
  rewrite EA, map_app in N. rewrite EA in Ha. apply in_app_iff in Ha. destruct Ha as [Ha|Ha]; [apply in_map_iff in Ha; destruct Ha as (d & <- & _); exact (Hne d eq_refl)|].
  assert (Ee : map (fun a => fst (extent_of a)) (map Erased erase) = erase) by (rewrite map_map; cbn [extent_of fst]; apply map_id). rewrite Ee in N.
  apply (in_map (fun a => fst (extent_of a))) in Ha. clear - N Hi Ha. revert N Hi. generalize erase. intros l. induction l as [|x l IH]; [intros _ []|]. cbn [app]. intros N [->|Hi]; inversion_clear N as [|? ? Hx Hl].
  - apply Hx. apply in_or_app. right. exact Ha.
  - exact (IH Hl Hi).
Qed.
End Result.

(** ** Masks *)
Lemma hide_step (l : list (Z * mask)) dim (i : darr (Z * Z)) : well_formed i -> (forall k m, In (k, m) l -> well_formed (k_arr m)) -> applicable l dim i ->
  exists j, (do m <- irreducible_mask l dim;
             match m with None => Ok i | Some u => do x <- dims_intersection (dd i) (k_dims u); do t <- mask_transpose u (labels x); where_ t (0, 0) i end) = Ok j /\
    well_formed j /\ dd j = dd i /\ forall ix, dv j ix = if masked l dim ix then (0, 0) else dv i ix.
Proof.
  intros Hv Hw Happ. pose proof (proj1 Hv) as Hwv.
  destruct (irreducible_ok (dd i) dim l Hwv Hw Happ) as [[-> Hnone]|(u & -> & U1 & U2 & U3 & U4 & U5)]; cbn [bind].
  - exists i. split; [reflexivity|]. split; [exact Hv|]. split; [reflexivity|]. intros ix. rewrite Hnone. reflexivity.
  - destruct (intersection_ok (dd i) (k_dims u) Hwv (proj1 U1)) as (x & -> & Hx & Hhx & Hlx).
    { intros Hc. apply (sub_noconf (k_dims u) (dd i) Hwv U3). apply conflict_sym. exact Hc. }
    cbn [bind]. unfold mask_transpose.
    assert (Hperm : Permutation (labels x) (labels (k_dims u))).
    { apply NoDup_Permutation; [apply Hx|apply (proj1 U1)|]. intros y. rewrite Hlx. unfold only. rewrite filter_In, memb_labels. split; [tauto|]. intros Hy. split; [|exact Hy].
      apply (has_incl (k_dims u) (dd i)); try assumption. apply U1. }
    assert (Hne : labels x <> []).
    { intros E. rewrite E in Hperm. apply Permutation_nil in Hperm. rewrite Hperm in U4. destruct U4. }
    destruct (proj1 (dims_transpose_ok (k_dims u) (labels x) (proj1 U1)) Hne Hperm) as (t & -> & Ht & Hlt & Hst). cbn [bind].
    set (c := mkmask (Accumulate_Model.mkd t (dv (k_arr u))) (k_bool u) (k_none u) (k_ro u)).
    assert (Hlab : forall y, In y (labels t) <-> In y (labels (k_dims u))).
    { intros y. rewrite Hlt. split; apply Permutation_in; [|apply Permutation_sym]; exact Hperm. }
    assert (Hc : well_formed (k_arr c)).
    { split; [exact Ht|]. intros jx jx' Hj. apply (proj2 U1). intros y Hy. apply Hj. cbn [c k_arr dd]. apply Hlab. exact Hy. }
    destruct (where_ok c (0, 0) i Hc U2 Hv) as (w & -> & Hww & _ & Hdw & Hvw).
    { intros k y Hk. apply U3. apply Hst. exact Hk. }
    exists w. split; [reflexivity|]. split; [exact Hww|]. split.
    + apply Hdw. change (k_dims c) with t. rewrite Hlt at 1. rewrite Hlx. unfold only. apply filter_ext. intros y. apply Bool.eq_true_iff_eq. rewrite !memb_labels. symmetry. apply Hlab.
    + intros ix. rewrite Hvw. cbn [c k_arr dv]. rewrite U5. reflexivity.
Qed.
Lemma hidden_masked l dims jx : hidden l dims jx = existsb (fun d => masked l d jx) dims.
Proof.
  apply Bool.eq_true_iff_eq. unfold hidden, masked. rewrite !existsb_exists. split.
  - intros (e & He & Hb). apply andb_prop in Hb. destruct Hb as [Hd Hv]. apply existsb_exists in Hd. destruct Hd as (d & Hd & Hm). exists d. split; [exact Hd|]. apply existsb_exists. exists e. split; [exact He|]. rewrite Hm, Hv. reflexivity.
  - intros (d & Hd & Hb). apply existsb_exists in Hb. destruct Hb as (e & He & Hb). apply andb_prop in Hb. destruct Hb as [Hm Hv]. exists e. split; [exact He|]. rewrite Hv, Bool.andb_true_r. apply existsb_exists. exists d. split; assumption.
Qed.
Theorem hide_masked_ok (l : list (Z * mask)) dims (i : darr (Z * Z)) : well_formed i -> (forall k m, In (k, m) l -> well_formed (k_arr m)) -> (forall d, In d dims -> applicable l d i) ->
  exists j, hide_masked i l dims = Ok j /\ well_formed j /\ dd j = dd i /\ forall ix, dv j ix = if hidden l dims ix then (0, 0) else dv i ix.
Proof.
  intros Hi Hw. unfold hide_masked. remember (dd i) as D eqn:ED0. assert (ED : dd i = D) by congruence. clear ED0. revert i ED Hi. induction dims as [|d dims IH]; intros i ED Hi Happ.
  - exists i. cbn [hide_loop]. split; [reflexivity|]. split; [exact Hi|]. split; [exact ED|]. intros ix. rewrite hidden_masked. reflexivity.
  - cbn [hide_loop]. destruct (hide_step l d i Hi Hw (Happ d (or_introl eq_refl))) as (j & Ej & Hj & Edj & Hvj).
    assert (E : (do m <- irreducible_mask l d; do x <- match m with None => Ok i | Some u => do x <- dims_intersection D (k_dims u); do t <- mask_transpose u (labels x); where_ t (0, 0) i end; hide_loop D l x dims) = hide_loop D l j dims).
    { rewrite ED in Ej. destruct (irreducible_mask l d) as [m| |]; cbn [bind] in *; try discriminate. rewrite Ej. reflexivity. }
    rewrite E. destruct (IH j) as (r & Er & Hr & Edr & Hvr); [congruence|exact Hj| |].
    + intros d' Hd'. unfold applicable in *. rewrite Edj. apply (Happ d' (or_intror Hd')).
    + exists r. split; [exact Er|]. split; [exact Hr|]. split; [exact Edr|]. intros ix. rewrite Hvr, Hvj, !hidden_masked. cbn [existsb]. destruct (existsb (fun d0 => masked l d0 ix) dims), (masked l d ix); reflexivity.
Qed.

(** ** Dictionaries *)
Lemma coord_at_In l k it : NoDup (map fst l) -> coord_at l k = Some it <-> In (k, it) l.
Proof.
  intros Hnd. split; [apply coord_at_some|]. intros Hi. destruct (coord_at l k) as [x|] eqn:E.
  - apply coord_at_some in E. f_equal. apply (in_map_inj_fst l k); assumption.
  - exfalso. apply (coord_at_none l k E). apply (in_map fst) in Hi. exact Hi.
Qed.
Lemma coord_at_None l k : coord_at l k = None <-> ~ In k (map fst l).
Proof. split; [apply coord_at_none|]. intros N. destruct (coord_at l k) as [x|] eqn:E; [|reflexivity]. exfalso. apply N. apply coord_at_some in E. apply (in_map fst) in E. exact E. Qed.
Lemma coord_at_cons k it l x : coord_at ((k, it) :: l) x = if k =? x then Some it else coord_at l x.
Proof. unfold coord_at. cbn [find fst]. destruct (k =? x); reflexivity. Qed.
Lemma coord_at_app a b x : coord_at (a ++ b) x = match coord_at a x with Some it => Some it | None => coord_at b x end.
Proof. induction a as [|[k it] a IH]; [reflexivity|]. cbn [app]. rewrite !coord_at_cons. destruct (k =? x); [reflexivity|exact IH]. Qed.
Lemma insert_at l k it : NoDup (map fst l) -> exists l', dinsert_or_assign Z.eqb (mkd l) k it = Ok (mkd l') /\ NoDup (map fst l') /\
  forall x, coord_at l' x = if k =? x then Some it else coord_at l x.
Proof.
  intros Hnd. destruct (in_dec Z.eq_dec k (map fst l)) as [Hi|Hi].
  - destruct (in_keys_split k l Hi) as (l1 & v & l2 & ->). rewrite insert_old by exact Hnd. eexists. split; [reflexivity|]. split; [rewrite !map_app in *; exact Hnd|].
    assert (N : ~ In k (map fst l1)) by (rewrite map_app in Hnd; cbn [map fst] in Hnd; apply NoDup_remove_2 in Hnd; intros Hx; apply Hnd; apply in_or_app; left; exact Hx).
    intros x. rewrite !coord_at_app, !coord_at_cons. destruct (Z.eqb_spec k x) as [<-|]; [|reflexivity]. apply coord_at_None in N. rewrite N. reflexivity.
  - rewrite insert_new by exact Hi. eexists. split; [reflexivity|]. split; [rewrite map_app; apply NoDup_snoc; assumption|].
    intros x. rewrite coord_at_app, coord_at_cons. destruct (Z.eqb_spec k x) as [<-|]; [apply coord_at_None in Hi; rewrite Hi; reflexivity|]. destruct (coord_at l x); reflexivity.
Qed.
Lemma insert_all_at xs : forall l, NoDup (map fst l) -> NoDup (map fst xs) -> exists l', insert_all (mkd l) xs = Ok (mkd l') /\ NoDup (map fst l') /\
  forall x, coord_at l' x = match coord_at xs x with Some it => Some it | None => coord_at l x end.
Proof.
  induction xs as [|[k it] xs IH]; intros l Hl Hx; [exists l; repeat split; auto|]. cbn [map fst] in Hx. inversion_clear Hx as [|? ? Hk Hxs]. cbn [insert_all].
  destruct (insert_at l k it Hl) as (l1 & -> & N1 & C1). cbn [bind]. destruct (IH l1 N1 Hxs) as (l' & E & N' & C'). exists l'. split; [exact E|]. split; [exact N'|].
  intros x. rewrite C', C1, coord_at_cons. destruct (Z.eqb_spec k x) as [<-|]; [|reflexivity]. apply coord_at_None in Hk. rewrite Hk. reflexivity.
Qed.
Lemma keep_items_at skip drop xs : forall l, NoDup (map fst l) -> NoDup (map fst xs) -> exists l', keep_items (mkd skip) drop (mkd l) xs = Ok (mkd l') /\ NoDup (map fst l') /\
  forall x, coord_at l' x = match coord_at xs x with Some it => if negb (drop (i_dims it)) && negb (mem x (map fst skip)) then Some it else coord_at l x | None => coord_at l x end.
Proof.
  induction xs as [|[k it] xs IH]; intros l Hl Hx; [exists l; repeat split; auto|]. cbn [map fst] in Hx. inversion_clear Hx as [|? ? Hk Hxs]. cbn [keep_items].
  assert (Em : mcontains Z.eqb (mkd skip) k = mem k (map fst skip)) by (apply Bool.eq_true_iff_eq; rewrite contains_In, mem_In; reflexivity). rewrite Em. apply coord_at_None in Hk.
  destruct (negb (drop (i_dims it)) && negb (mem k (map fst skip))) eqn:Ek.
  - destruct (insert_at l k it Hl) as (l1 & -> & N1 & C1). cbn [bind]. destruct (IH l1 N1 Hxs) as (l' & E & N' & C'). exists l'. split; [exact E|]. split; [exact N'|].
    intros x. rewrite C', C1, coord_at_cons. destruct (Z.eqb_spec k x) as [<-|]; [rewrite Hk, Ek; reflexivity|reflexivity].
  - cbn [bind]. destruct (IH l Hl Hxs) as (l' & E & N' & C'). exists l'. split; [exact E|]. split; [exact N'|].
    intros x. rewrite C', coord_at_cons. destruct (Z.eqb_spec k x) as [<-|]; [rewrite Hk, Ek; reflexivity|reflexivity].
Qed.
Lemma keep_coords_at drop xs : forall l, NoDup (map fst l) -> NoDup (map fst xs) -> exists l', keep_coords drop (mkd l) xs = Ok (mkd l') /\ NoDup (map fst l') /\
  forall x, coord_at l' x = match coord_at l x with Some it => Some it | None => match coord_at xs x with Some it => if drop (i_dims it) then None else Some it | None => None end end.
Proof.
  induction xs as [|[k it] xs IH]; intros l Hl Hx; [exists l; split; [reflexivity|]; split; [exact Hl|]; intros x; cbn; destruct (coord_at l x); reflexivity|].
  cbn [map fst] in Hx. inversion_clear Hx as [|? ? Hk Hxs]. cbn [keep_coords].
  assert (Em : mcontains Z.eqb (mkd l) k = mem k (map fst l)) by (apply Bool.eq_true_iff_eq; rewrite contains_In, mem_In; reflexivity). rewrite Em. apply coord_at_None in Hk.
  destruct (negb (drop (i_dims it)) && negb (mem k (map fst l))) eqn:Ek.
  - apply andb_prop in Ek. destruct Ek as [Ed El]. apply Bool.negb_true_iff in Ed, El. apply mem_nIn, coord_at_None in El.
    destruct (insert_at l k it Hl) as (l1 & -> & N1 & C1). cbn [bind]. destruct (IH l1 N1 Hxs) as (l' & E & N' & C'). exists l'. split; [exact E|]. split; [exact N'|].
    intros x. rewrite C', C1, coord_at_cons. destruct (Z.eqb_spec k x) as [<-|]; [rewrite El, Ed; reflexivity|reflexivity].
  - cbn [bind]. destruct (IH l Hl Hxs) as (l' & E & N' & C'). exists l'. split; [exact E|]. split; [exact N'|].
    intros x. rewrite C', coord_at_cons. destruct (Z.eqb_spec k x) as [<-|]; [|reflexivity]. destruct (coord_at l k) as [y|] eqn:Ey; [reflexivity|]. rewrite Hk.
    apply coord_at_None, mem_nIn in Ey. rewrite Ey in Ek. cbn [negb] in Ek. rewrite Bool.andb_true_r in Ek. apply Bool.negb_false_iff in Ek. rewrite Ek. reflexivity.
Qed.
Lemma coord_at_filter f l k : NoDup (map fst l) -> coord_at (filter f l) k = match coord_at l k with Some it => if f (k, it) then Some it else None | None => None end.
Proof.
  induction l as [|[x it] l IH]; intros Hnd; [reflexivity|]. cbn [map fst] in Hnd. inversion_clear Hnd as [|? ? Hk Hl]. cbn [filter]. rewrite coord_at_cons.
  destruct (f (x, it)) eqn:E; [rewrite coord_at_cons|]; destruct (Z.eqb_spec x k) as [->|]; try (apply IH; exact Hl).
  - rewrite E. reflexivity.
  - rewrite E, IH by exact Hl. apply coord_at_None in Hk. rewrite Hk. reflexivity.
Qed.
Lemma NoDup_fst_filter {A} (f : Z * A -> bool) l : NoDup (map fst l) -> NoDup (map fst (filter f l)).
Proof.
  induction l as [|[k m] p IH]; intros Hn; [constructor|]. cbn [map fst] in Hn. inversion_clear Hn as [|? ? Hk Hp]. cbn [filter]. destruct (f (k, m)); [|apply IH; exact Hp].
  cbn [map fst]. constructor; [|apply IH; exact Hp]. intros Hx. apply Hk. apply in_map_iff in Hx. destruct Hx as ([a b] & E & Hx). cbn [fst] in E. subst a. apply filter_In in Hx. apply in_map_iff. exists (k, b). split; [reflexivity|apply Hx].
Qed.
Lemma unbinned_at dim l : NoDup (map fst l) -> exists l', extract_unbinned dim (mkd l) = Ok (mkd l') /\ NoDup (map fst l') /\
  forall x, coord_at l' x = match coord_at l x with Some it => if dcontains (i_dims it) dim then None else Some it | None => None end.
Proof.
  intros Hl. unfold extract_unbinned. rewrite ditems_mkd. change mempty with (mkd (@nil (Z * item))).
  destruct (insert_all_at (filter (fun e => negb (dcontains (i_dims (snd e)) dim)) l) [] ltac:(constructor) (NoDup_fst_filter _ _ Hl)) as (l' & E & N & C).
  exists l'. split; [exact E|]. split; [exact N|]. intros x. rewrite C, coord_at_filter by exact Hl. cbn [snd]. destruct (coord_at l x) as [it|]; [|reflexivity]. destruct (dcontains (i_dims it) dim); reflexivity.
Qed.
Lemma drop_grouped_at gs : forall l, NoDup (map fst l) -> (forall g, In g gs -> item_ok g) -> exists l', drop_grouped (mkd l) gs = Ok (mkd l') /\ NoDup (map fst l') /\
  forall x, coord_at l' x = if mem x (map idim gs) then None else coord_at l x.
Proof.
  induction gs as [|g gs IH]; intros l Hl Hg; [exists l; split; [reflexivity|]; split; [exact Hl|reflexivity]|]. cbn [drop_grouped].
  rewrite inner_dim by (apply Hg; left; reflexivity).
  assert (Hs : exists l1, (if mcontains Z.eqb (mkd l) (idim g) then do r <- dextract Z.eqb (mkd l) (idim g); Ok (snd r) else Ok (mkd l)) = Ok (mkd l1) /\ NoDup (map fst l1) /\ forall x, coord_at l1 x = if idim g =? x then None else coord_at l x).
  { destruct (in_dec Z.eq_dec (idim g) (map fst l)) as [Hi|Hi].
    - assert (M : mcontains Z.eqb (mkd l) (idim g) = true) by (apply contains_In; exact Hi). rewrite M. destruct (in_keys_split _ l Hi) as (l1 & v & l2 & ->). rewrite extract_old by exact Hl. cbn [bind snd]. exists (l1 ++ l2). split; [reflexivity|].
      rewrite map_app in Hl. cbn [map fst] in Hl. pose proof (NoDup_remove_2 _ _ _ Hl) as N. split; [rewrite map_app; apply NoDup_remove_1 in Hl; exact Hl|].
      intros x. rewrite !coord_at_app, coord_at_cons. destruct (Z.eqb_spec (idim g) x) as [<-|]; [|reflexivity].
      assert (N1 : coord_at l1 (idim g) = None) by (apply coord_at_None; intros Hx; apply N; apply in_or_app; left; exact Hx). rewrite N1. apply coord_at_None. intros Hx. apply N. apply in_or_app. right. exact Hx.
    - assert (M : mcontains Z.eqb (mkd l) (idim g) = false) by (apply contains_nIn; exact Hi). rewrite M. exists l. split; [reflexivity|]. split; [exact Hl|]. intros x. destruct (Z.eqb_spec (idim g) x) as [<-|]; [|reflexivity]. apply coord_at_None. exact Hi. }
  destruct Hs as (l1 & -> & N1 & C1). cbn [bind]. destruct (IH l1 N1 (fun x Hx => Hg x (or_intror Hx))) as (l' & E & N' & C'). exists l'. split; [exact E|]. split; [exact N'|].
  intros x. rewrite C', C1. cbn [map mem existsb]. fold (mem x (map idim gs)). rewrite (Z.eqb_sym x (idim g)). destruct (idim g =? x), (mem x (map idim gs)); reflexivity.
Qed.

(** ** Which items are dropped *)
Lemma rebinned_iff dims bd it : item_ok it -> rebinned dims bd (i_dims it) = true <-> exists d, In d (keys (ishape it)) /\ (In d dims \/ d = bd).
Proof.
  intros Hi. destruct (item_mk it Hi) as [-> _]. unfold rebinned. change (labels (mk (ishape it))) with (keys (ishape it)). rewrite existsb_exists. setoid_rewrite dcontains_mk. split.
  - intros (x & Hx & Hb). apply orb_prop in Hb. destruct Hb as [Hb|Hb]; [exists x; split; [exact Hx|left; apply mem_In; exact Hb]|]. exists bd. split; [apply mem_In; exact Hb|right; reflexivity].
  - intros (d & Hd & Hb). exists d. split; [exact Hd|]. apply Bool.orb_true_iff. destruct Hb as [Hb| ->]; [left; apply mem_In; exact Hb|right; apply mem_In; exact Hd].
Qed.

(** ** The result *)
Lemma sd_make_list sz l : wf sz -> NoDup (map fst l) -> (forall k it, In (k, it) l -> item_ok it /\ fits (pairs sz) (ishape it)) ->
  sd_make sz (mkd l) false = Ok (mksd sz (mkd l) false) /\ sd_ok (mksd sz (mkd l) false).
Proof. intros Hsz Hnd Hf. split; [apply sd_make_ok; assumption|apply sd_ok_mk; assumption]. Qed.

Lemma b_edges_axes d l : b_edges (mkb d (flat_map action_of l)) = binned_of l.
Proof. unfold b_edges, binned_of. cbn [b_acts]. induction l as [|[x|x|x|x n] l IH]; [reflexivity| | | |]; cbn [flat_map action_of app]; try exact IH. f_equal. exact IH. Qed.
Lemma b_groups_axes d l : b_groups (mkb d (flat_map action_of l)) = grouped_of l.
Proof. unfold b_groups, grouped_of. cbn [b_acts]. induction l as [|[x|x|x|x n] l IH]; [reflexivity| | | |]; cbn [flat_map action_of app]; try exact IH. f_equal. exact IH. Qed.
Lemma used_In l it : In it (used l) <-> In (Binned it) l \/ In (Grouped it) l.
Proof.
  unfold used, binned_of, grouped_of. rewrite in_app_iff, !in_flat_map. split.
  - intros [(a & Ha & Hi)|(a & Ha & Hi)]; destruct a; cbn in Hi; try contradiction; destruct Hi as [<-|[]]; tauto.
  - intros [Hi|Hi]; [left|right]; (eexists; split; [exact Hi|left; reflexivity]).
Qed.
Lemma used_dims_incl l d : In d (map idim (used l)) -> In d (map dim_of_axis l).
Proof. intros Hd. apply in_map_iff in Hd. destruct Hd as (it & <- & Hi). apply used_In in Hi. destruct Hi as [Hi|Hi]; apply (in_map dim_of_axis) in Hi; exact Hi. Qed.
Lemma used_nodup l : NoDup (map dim_of_axis l) -> NoDup (map idim (used l)).
Proof.
  induction l as [|a l IH]; intros Hn; [constructor|]. cbn [map] in Hn. inversion_clear Hn as [|? ? Ha Hl]. specialize (IH Hl).
  destruct a as [d|it|it|d n]; try exact IH.
  - change (used (Grouped it :: l)) with (binned_of l ++ it :: grouped_of l). apply (Permutation_NoDup (l := map idim (it :: used l))); [apply Permutation_map; unfold used; apply Permutation_middle|].
    cbn [map]. constructor; [intros Hx; apply Ha; apply used_dims_incl; exact Hx|exact IH].
  - change (used (Binned it :: l)) with (it :: used l). cbn [map]. constructor; [intros Hx; apply Ha; apply used_dims_incl; exact Hx|exact IH].
Qed.
Lemma from_first_given edges groups d n p : In (d, n) p -> given edges groups d = true -> In (d, n) (from_first edges groups p).
Proof.
  induction p as [|e p IH]; [intros []|]. intros Hi Hg. cbn [from_first]. destruct (given edges groups (fst e)) eqn:E; [exact Hi|]. destruct Hi as [->|Hi]; [cbn [fst] in E; congruence|apply IH; assumption].
Qed.

Lemma changed_used P edges groups erase d :
  In d (erase ++ map idim (used (axes P edges groups erase))) <-> changed edges groups erase d.
Proof.
  unfold changed. rewrite in_app_iff. split.
  - intros [Hd|Hd]; [left; exact Hd|right]. apply in_map_iff in Hd. destruct Hd as (it & <- & Hi). apply used_In in Hi.
    destruct Hi as [Hi|Hi]; apply axes_in in Hi; destruct Hi as [(x & E & Hx)|[(g & E & Hx)|[(e & E & Hx)|(x & k & E & Hx & _)]]]; try discriminate; injection E as ->; [left|right]; apply in_map; exact Hx.
  - intros [Hd|Hd]; [left; exact Hd|right]. destruct (mem d (keys P)) eqn:M.
    + apply mem_In, In_keys in M. destruct M as [n Hn]. assert (Hgv : given edges groups d = true) by (unfold given; apply Bool.orb_true_iff; rewrite !mem_In; exact Hd).
      pose proof (from_first_given edges groups d n P Hn Hgv) as Hf.
      assert (Ha : exists it, idim it = d /\ (axis_of edges groups erase (d, n) = [Grouped it] \/ axis_of edges groups erase (d, n) = [Binned it])).
      { unfold axis_of. cbn [fst snd]. pose proof (named_index groups d) as Ng. pose proof (named_index edges d) as Ne.
        destruct (named d groups) as [g|]; [exists g; split; [apply Ng|left; reflexivity]|]. destruct (named d edges) as [e|]; [exists e; split; [apply Ne|right; reflexivity]|].
        exfalso. apply mem_nIn in Ng, Ne. tauto. }
      destruct Ha as (it & <- & Ha). apply in_map. apply used_In. unfold axes. rewrite !in_app_iff.
      destruct Ha as [Ha|Ha]; [right|left]; right; left; apply in_flat_map; exists (idim it, n); (split; [exact Hf|rewrite Ha; left; reflexivity]).
    + destruct Hd as [Hd|Hd]; apply in_map_iff in Hd; destruct Hd as (it & <- & Hi); apply in_map; apply used_In; unfold axes; rewrite !in_app_iff; [left|right].
      * right; right; right. apply in_map. apply filter_In. split; [exact Hi|]. unfold is_new. rewrite M. reflexivity.
      * right; right; left. apply in_map. apply filter_In. split; [exact Hi|]. unfold is_new. rewrite M. reflexivity.
Qed.

Section Fits.
Variables (P : list (Z * Z)) (coords : list (Z * item)) (edges groups : list item) (erase : list Z).
Hypothesis HP : lwf P.
Hypothesis He : Forall (arg_ok 1) edges.
Hypothesis Hg : Forall (arg_ok 0) groups.
Hypothesis Her : ~ In InvalidDim erase.
Hypothesis Hcomp : compatible P coords edges groups erase.
Let A := axes P edges groups erase.
Let O := result_shape P A erase.
Lemma fits_kept it bd : fits P (ishape it) -> ~ outdated edges groups erase bd it -> fits O (ishape it).
Proof.
  intros Hf Ho. assert (Hu : forall d, In d (keys (ishape it)) -> ~ changed edges groups erase d) by (intros d Hd Hc; apply Ho; exists d; split; [exact Hd|left; exact Hc]).
  assert (Hin : forall d n m, In (d, n) (ishape it) -> In (d, m) O <-> In (d, m) P).
  { intros d n m Hd. apply (unchanged_dim P edges groups erase HP). apply Hu. apply In_keys. eexists. exact Hd. }
  destruct Hf as [Hf|(e & n & Hn & Hf & Hx)].
  - left. intros k n Hk. apply (Hin k n n Hk). apply Hf. exact Hk.
  - right. exists e, n. split; [exact Hn|]. split.
    + intros k m Hk Hne. apply (Hin k m m Hk). apply Hf; assumption.
    + destruct Hx as [Hx|[Hx E]]; [left; apply (Hin e n _ Hn); exact Hx|right]. split; [|exact E]. intros Hi. apply Hx. apply In_keys in Hi. destruct Hi as [m Hm]. apply In_keys. exists m. apply (Hin e n m Hn). exact Hm.
Qed.
Lemma fits_used it : In it (used A) -> outer_ok P edges groups erase it -> item_ok it -> ishape it <> [] -> fits O (ishape it).
Proof.
  intros Hi Ho Hok Hne. destruct (item_mk it Hok) as [_ Hl].
  assert (Hin : forall d n, In (d, n) (ishape it) -> d <> idim it -> In (d, n) O). { intros d n Hd Hx. destruct (Ho d n Hd Hx) as [Hp Hc]. apply (unchanged_dim P edges groups erase HP); assumption. }
  apply used_In in Hi. destruct Hi as [Hi|Hi].
  - right. exists (idim it), (snd (inner it)). split; [apply inner_In; exact Hne|]. split; [exact Hin|]. left.
    apply (axis_in_result P edges groups erase (Binned it) Hi). apply (axis_not_erased P coords edges groups erase Hcomp (Binned it) Hi). discriminate.
  - left. intros d n Hd. destruct (Z.eq_dec d (idim it)) as [->|Hx]; [|apply Hin; assumption].
    assert (E : n = snd (inner it)) by (apply (In_unique (ishape it) (idim it)); [apply Hl|exact Hd|apply inner_In; exact Hne]). subst n. change (idim it, snd (inner it)) with (fst (inner it), snd (inner it)). rewrite <- surjective_pairing.
    apply (axis_in_result P edges groups erase (Grouped it) Hi). apply (axis_not_erased P coords edges groups erase Hcomp (Grouped it) Hi). discriminate.
Qed.
End Fits.

Lemma merge_from_ok sz acc l ro ro2 : wf sz -> NoDup (map fst (acc ++ l)) -> (forall k it, In (k, it) (acc ++ l) -> item_ok it /\ fits (pairs sz) (ishape it)) ->
  sd_merge_from (mksd sz (mkd acc) ro) (mksd sz (mkd l) ro2) = Ok (mksd sz (mkd (acc ++ l)) ro).
Proof.
  intros Hsz Hnd Hf. unfold sd_merge_from, sd_copy. cbn [sd_sizes sd_items sd_readonly]. rewrite ditems_mkd.
  assert (E : forall l acc, NoDup (map fst (acc ++ l)) -> (forall k it, In (k, it) (acc ++ l) -> item_ok it /\ fits (pairs sz) (ishape it)) -> merge_from_loop (mksd sz (mkd acc) false) l = Ok (mksd sz (mkd (acc ++ l)) false)).
  { clear - Hsz. induction l as [|[k it] l IH]; intros acc Hnd Hf; cbn [merge_from_loop]; [rewrite app_nil_r; reflexivity|].
    assert (Hk : ~ In k (map fst acc)). { rewrite map_app in Hnd. cbn [map fst] in Hnd. apply NoDup_remove_2 in Hnd. intros Hk. apply Hnd, in_or_app. auto. }
    unfold sd_contains. cbn [sd_items]. assert (M : mcontains Z.eqb (mkd acc) k = false) by (apply contains_nIn; exact Hk). rewrite M.
    pose proof (sd_set_all_ok sz [(k, it)] acc Hsz) as S. cbn [sd_set_all] in S. replace (acc ++ (k, it) :: l) with ((acc ++ [(k, it)]) ++ l) in * by (rewrite <- app_assoc; reflexivity).
    assert (S' : sd_set (mksd sz (mkd acc) false) k it = Ok (mksd sz (mkd (acc ++ [(k, it)])) false)).
    { destruct (sd_set (mksd sz (mkd acc) false) k it); cbn [bind] in S; apply S; try (rewrite map_app in Hnd; apply NoDup_app_l in Hnd; exact Hnd); intros x y Hx; apply (Hf x); apply in_or_app; left; exact Hx. }
    rewrite S'. cbn [bind]. apply IH; assumption. }
  rewrite E by assumption. reflexivity.
Qed.

Lemma coord_at_map_new l k : coord_at (new_coords l) k = option_map (fun e => with_aligned e true) (find (fun it => dims_inner (i_dims it) =? k) l).
Proof. induction l as [|x l IH]; [reflexivity|]. cbn [new_coords map]. rewrite coord_at_cons. cbn [find]. destruct (dims_inner (i_dims x) =? k); [reflexivity|exact IH]. Qed.

(** [add_metadata] for a shape [O] which all items fit that are kept *)
Lemma add_metadata_ok O data bd ul um ua cl ml al E G erase : lwf O -> i_dims data = mk O ->
  NoDup (map fst ul) -> NoDup (map fst um) -> NoDup (map fst ua) -> NoDup (map fst cl) -> NoDup (map fst ml) -> NoDup (map fst al) ->
  (forall k it, In (k, it) (ul ++ um ++ ua ++ cl ++ ml ++ al) -> item_ok it) -> NoDup (map idim (E ++ G)) -> (forall it, In it (E ++ G) -> item_ok it /\ fits O (ishape it)) ->
  let old it := exists d, In d (keys (ishape it)) /\ (In d (erase ++ map idim (E ++ G)) \/ d = bd) in
  (forall k it, In (k, it) (ul ++ um ++ ua) -> ~ of_events bd it -> fits O (ishape it)) ->
  (forall k it, In (k, it) (cl ++ ml ++ al) -> ~ old it -> fits O (ishape it)) ->
  exists c m a, add_metadata data (mkbuf bd (mkd ul) (mkd um) (mkd ua)) (mkd cl) (mkd ml) (mkd al) E G erase =
      Ok (mkda data (mksd (mk O) (mkd c) false) (mksd (mk O) (mkd m) false) (mksd (mk O) (mkd a) false) false) /\
    sd_ok (mksd (mk O) (mkd c) false) /\ sd_ok (mksd (mk O) (mkd m) false) /\ sd_ok (mksd (mk O) (mkd a) false) /\
    (forall k it, In (k, it) c <-> coord_entry (E ++ G) ul cl bd old k it) /\
    (forall k it, In (k, it) m <-> meta_entry (fun _ => False) um ml bd old k it) /\
    (forall k it, In (k, it) a <-> meta_entry (fun k => In k (map fst c)) ua al bd old k it).
Proof.
  intros HO Ed N1 N2 N3 N4 N5 N6 Hok Hnew Hnewok old Hev Hold.
  assert (HU : item_ok = item_ok) by reflexivity. clear HU.
  assert (Kul : forall k it, In (k, it) ul -> item_ok it) by (intros k it Hi; apply (Hok k); rewrite !in_app_iff; tauto).
  assert (Kum : forall k it, In (k, it) um -> item_ok it) by (intros k it Hi; apply (Hok k); rewrite !in_app_iff; tauto).
  assert (Kua : forall k it, In (k, it) ua -> item_ok it) by (intros k it Hi; apply (Hok k); rewrite !in_app_iff; tauto).
  assert (Kcl : forall k it, In (k, it) cl -> item_ok it) by (intros k it Hi; apply (Hok k); rewrite !in_app_iff; tauto).
  assert (Kml : forall k it, In (k, it) ml -> item_ok it) by (intros k it Hi; apply (Hok k); rewrite !in_app_iff; tauto).
  assert (Kal : forall k it, In (k, it) al -> item_ok it) by (intros k it Hi; apply (Hok k); rewrite !in_app_iff; tauto).
  assert (Eold : map (fun it => dims_inner (i_dims it)) (E ++ G) = map idim (E ++ G)) by (apply map_ext_in; intros it Hi; apply inner_dim; apply (Hnewok it Hi)).
  set (drop := rebinned (erase ++ map (fun it => dims_inner (i_dims it)) (E ++ G)) bd).
  assert (Hdrop : forall it, item_ok it -> drop (i_dims it) = true <-> old it) by (intros it Hi; unfold drop; rewrite Eold; apply rebinned_iff; exact Hi).
  assert (Hdropf : forall it, item_ok it -> drop (i_dims it) = false <-> ~ old it) by (intros it Hi; rewrite <- (Hdrop it Hi); destruct (drop (i_dims it)); intuition congruence).
  assert (Hof : forall it, item_ok it -> dcontains (i_dims it) bd = true <-> of_events bd it) by (intros it Hi; destruct (item_mk it Hi) as [-> _]; rewrite dcontains_mk; apply mem_In).
  assert (Hoff : forall it, item_ok it -> dcontains (i_dims it) bd = false <-> ~ of_events bd it) by (intros it Hi; rewrite <- (Hof it Hi); destruct (dcontains (i_dims it) bd); intuition congruence).
  unfold add_metadata. cbn [u_dim u_coords u_masks u_attrs]. rewrite !ditems_mkd.
  destruct (unbinned_at bd ul N1) as (c0 & -> & Nc0 & C0). cbn [bind].
  assert (Nn : NoDup (map fst (new_coords (E ++ G)))) by (unfold new_coords; rewrite map_map; cbn [fst]; rewrite Eold; exact Hnew).
  destruct (insert_all_at (new_coords (E ++ G)) c0 Nc0 Nn) as (c1 & -> & Nc1 & C1). cbn [bind]. fold drop.
  destruct (keep_coords_at drop cl c1 Nc1 N4) as (c & -> & Nc & C). cbn [bind].
  destruct (unbinned_at bd um N2) as (m0 & -> & Nm0 & M0). cbn [bind]. change mempty with (mkd (@nil (Z * item))).
  destruct (keep_items_at [] drop ml m0 Nm0 N5) as (m & -> & Nm & M). cbn [bind].
  destruct (unbinned_at bd ua N3) as (a0 & -> & Na0 & A0). cbn [bind].
  destruct (keep_items_at c drop al a0 Na0 N6) as (a & -> & Na & A). cbn [bind].
  assert (Hc : forall k it, In (k, it) c <-> coord_entry (E ++ G) ul cl bd old k it).
  { intros k it. rewrite <- (coord_at_In c k it Nc), C, C1, C0. unfold coord_entry.
    assert (Enew : (exists e, coord_at (new_coords (E ++ G)) k = Some (with_aligned e true) /\ In e (E ++ G) /\ k = idim e) \/ (coord_at (new_coords (E ++ G)) k = None /\ ~ In k (map idim (E ++ G)))).
    { destruct (coord_at (new_coords (E ++ G)) k) as [x|] eqn:Ex.
      - left. apply coord_at_some in Ex. unfold new_coords in Ex. apply in_map_iff in Ex. destruct Ex as (e & Ee & Hi). injection Ee as <- <-. exists e. split; [reflexivity|]. split; [exact Hi|]. apply inner_dim. apply (Hnewok e Hi).
      - right. split; [reflexivity|]. apply coord_at_None in Ex. unfold new_coords in Ex. rewrite map_map in Ex. cbn [fst] in Ex. rewrite Eold in Ex. exact Ex. }
    destruct Enew as [(e & Ee & Hi & Hk)|[Ee Hk]]; rewrite Ee.
    - assert (Hin : In k (map idim (E ++ G))) by (rewrite Hk; apply in_map; exact Hi). split.
      + intros [= <-]. left. exists e. auto.
      + intros [(e' & Hi' & Hk' & ->)|[(F & _)|(F & _)]]; [|contradiction|contradiction]. do 2 f_equal.
        clear - Hnew Hi Hi' Hk Hk'. revert Hnew Hi Hi'. generalize (E ++ G). intros l. induction l as [|x l IH]; [intros _ []|]. cbn [map]. intros Hn. inversion_clear Hn as [|? ? Hx Hl].
        intros [->|Hi] [->|Hi']; [reflexivity| | |apply IH; assumption]; exfalso; apply Hx; [rewrite <- Hk, Hk'|rewrite <- Hk', Hk]; apply in_map; assumption.
    - destruct (coord_at ul k) as [x|] eqn:Eu.
      + pose proof (coord_at_some _ _ _ Eu) as Hx. pose proof (Kul k x Hx) as Kx. destruct (dcontains (i_dims x) bd) eqn:Ex.
        * apply (Hof x Kx) in Ex. assert (Hall : forall y, In (k, y) ul -> of_events bd y) by (intros y Hy; rewrite (in_map_inj_fst ul k y x) by assumption; exact Ex).
          split.
          -- destruct (coord_at cl k) as [y|] eqn:Ey; [|discriminate]. pose proof (coord_at_some _ _ _ Ey) as Hy. destruct (drop (i_dims y)) eqn:Dy; [discriminate|]. intros [= <-]. right; right. apply (Hdropf y (Kcl k y Hy)) in Dy. auto.
          -- intros [(e' & Hi' & -> & _)|[(_ & Hi & F)|(_ & _ & Hi & Ho)]]; [exfalso; apply Hk; apply in_map; exact Hi'|exfalso; exact (F (Hall it Hi))|].
             apply (coord_at_In cl k it N4) in Hi. rewrite Hi. apply coord_at_some in Hi. apply (Hdropf it (Kcl k it Hi)) in Ho. rewrite Ho. reflexivity.
        * apply (Hoff x Kx) in Ex. split.
          -- intros [= <-]. right; left. auto.
          -- intros [(e' & Hi' & -> & _)|[(_ & Hi & F)|(_ & Hall & _)]]; [exfalso; apply Hk; apply in_map; exact Hi'| |exfalso; exact (Ex (Hall x Hx))]. f_equal. apply (in_map_inj_fst ul k); assumption.
      + apply coord_at_None in Eu. assert (Hall : forall y, In (k, y) ul -> of_events bd y) by (intros y Hy; exfalso; apply Eu; apply (in_map fst) in Hy; exact Hy).
        split.
        * destruct (coord_at cl k) as [y|] eqn:Ey; [|discriminate]. pose proof (coord_at_some _ _ _ Ey) as Hy. destruct (drop (i_dims y)) eqn:Dy; [discriminate|]. intros [= <-]. right; right. apply (Hdropf y (Kcl k y Hy)) in Dy. auto.
        * intros [(e' & Hi' & -> & _)|[(_ & Hi & F)|(_ & _ & Hi & Ho)]]; [exfalso; apply Hk; apply in_map; exact Hi'|exfalso; exact (F (Hall it Hi))|].
          apply (coord_at_In cl k it N4) in Hi. rewrite Hi. apply coord_at_some in Hi. apply (Hdropf it (Kcl k it Hi)) in Ho. rewrite Ho. reflexivity. }
  assert (Hmeta : forall (skip : list (Z * item)) ev xs r0 r, NoDup (map fst ev) -> NoDup (map fst xs) -> NoDup (map fst r) -> (forall k it, In (k, it) ev -> item_ok it) -> (forall k it, In (k, it) xs -> item_ok it) ->
    (forall x, coord_at r0 x = match coord_at ev x with Some it => if dcontains (i_dims it) bd then None else Some it | None => None end) ->
    (forall x, coord_at r x = match coord_at xs x with Some it => if negb (drop (i_dims it)) && negb (mem x (map fst skip)) then Some it else coord_at r0 x | None => coord_at r0 x end) ->
    forall k it, In (k, it) r <-> meta_entry (fun k => In k (map fst skip)) ev xs bd old k it).
  { clear - Hdropf Hdrop Hof Hoff. intros skip ev xs r0 r Nev Nxs Nr Kev Kxs R0 R k it. rewrite <- (coord_at_In r k it Nr), R. unfold meta_entry.
    assert (H0 : coord_at r0 k = Some it <-> In (k, it) ev /\ ~ of_events bd it).
    { rewrite R0. split.
      - destruct (coord_at ev k) as [x|] eqn:Ex; [|discriminate]. apply coord_at_some in Ex. destruct (dcontains (i_dims x) bd) eqn:Dx; [discriminate|]. intros [= <-]. split; [exact Ex|]. apply (Hoff x (Kev k x Ex)). exact Dx.
      - intros [Hi Ho]. pose proof Hi as Hi'. apply (coord_at_In ev k it Nev) in Hi'. rewrite Hi'. apply (Hoff it (Kev k it Hi)) in Ho. rewrite Ho. reflexivity. }
    destruct (coord_at xs k) as [x|] eqn:Ex.
    - pose proof (coord_at_some _ _ _ Ex) as Hx. pose proof (Kxs k x Hx) as Kx. assert (Hun : forall y, In (k, y) xs -> y = x) by (intros y Hy; apply (in_map_inj_fst xs k); assumption).
      destruct (negb (drop (i_dims x)) && negb (mem k (map fst skip))) eqn:Eb.
      + apply andb_prop in Eb. destruct Eb as [B1 B2]. apply Bool.negb_true_iff in B1, B2. apply (Hdropf x Kx) in B1. apply mem_nIn in B2. split.
        * intros [= <-]. left. auto.
        * intros [(Hi & _)|(F & _)]; [f_equal; symmetry; apply Hun; exact Hi|]. destruct (F x Hx); contradiction.
      + assert (Hb : old x \/ In k (map fst skip)). { apply Bool.andb_false_iff in Eb. destruct Eb as [Eb|Eb]; apply Bool.negb_false_iff in Eb; [left; apply (Hdrop x Kx); exact Eb|right; apply mem_In; exact Eb]. }
        rewrite H0. split.
        * intros Hi. right. split; [|exact Hi]. intros y Hy. rewrite (Hun y Hy). exact Hb.
        * intros [(Hi & Ho & Hs)|(_ & Hi)]; [|exact Hi]. rewrite (Hun it Hi) in Ho. exfalso. destruct Hb; contradiction.
    - apply coord_at_None in Ex. rewrite H0. split.
      + intros Hi. right. split; [|exact Hi]. intros y Hy. exfalso. apply Ex. apply (in_map fst) in Hy. exact Hy.
      + intros [(Hi & _)|(_ & Hi)]; [exfalso; apply Ex; apply (in_map fst) in Hi; exact Hi|exact Hi]. }
  pose proof (Hmeta [] um ml m0 m N2 N5 Nm Kum Kml M0 M) as Hm. pose proof (Hmeta c ua al a0 a N3 N6 Na Kua Kal A0 A) as Ha. clear Hmeta.
  assert (HOw : wf (mk O)) by (apply mk_wf; exact HO). rewrite Ed.
  destruct (sd_make_list (mk O) c HOw Nc) as [-> S1].
  { rewrite pairs_mk. intros k it Hi. apply Hc in Hi. destruct Hi as [(e & Hi & -> & ->)|[(_ & Hi & Hn)|(_ & _ & Hi & Hn)]].
    - apply (Hnewok e Hi).
    - split; [apply (Kul k it Hi)|apply (Hev k it); [rewrite !in_app_iff; tauto|exact Hn]].
    - split; [apply (Kcl k it Hi)|apply (Hold k it); [rewrite !in_app_iff; tauto|exact Hn]]. }
  cbn [bind]. destruct (sd_make_list (mk O) m HOw Nm) as [-> S2].
  { rewrite pairs_mk. intros k it Hi. apply Hm in Hi. destruct Hi as [(Hi & Hn & _)|(_ & Hi & Hn)].
    - split; [apply (Kml k it Hi)|apply (Hold k it); [rewrite !in_app_iff; tauto|exact Hn]].
    - split; [apply (Kum k it Hi)|apply (Hev k it); [rewrite !in_app_iff; tauto|exact Hn]]. }
  cbn [bind]. destruct (sd_make_list (mk O) a HOw Na) as [-> S3].
  { rewrite pairs_mk. intros k it Hi. apply Ha in Hi. destruct Hi as [(Hi & Hn & _)|(_ & Hi & Hn)].
    - split; [apply (Kal k it Hi)|apply (Hold k it); [rewrite !in_app_iff; tauto|exact Hn]].
    - split; [apply (Kua k it Hi)|apply (Hev k it); [rewrite !in_app_iff; tauto|exact Hn]]. }
  cbn [bind]. exists c, m, a. split; [reflexivity|]. repeat (split; [assumption|]). exact Ha.
Qed.

Lemma check_edges_ok sorted l : Forall (arg_ok 2) l -> (forall e, In e l -> sorted e = true) -> check_edges sorted l = Ok tt.
Proof.
  induction l as [|e l IH]; intros Hl Hs; [reflexivity|]. inversion_clear Hl as [|? ? He Hl']. destruct He as (Hi & Hne & Hn). cbn [check_edges].
  rewrite inner_dim, inner_at by assumption. cbn [bind]. destruct (Z.ltb_spec (snd (inner e)) 2); [lia|]. rewrite Hs by (left; reflexivity). cbn [negb]. apply IH; [exact Hl'|]. intros x Hx. apply Hs. right; exact Hx.
Qed.
Lemma dict_parts m : dict_ok m -> m = mkd (ditems m) /\ NoDup (map fst (ditems m)).
Proof.
  intros (Hn & Hl & _). split; [symmetry; apply mkd_ditems; exact Hl|].
  assert (E : map fst (ditems m) = m_keys m). { unfold ditems. clear Hn. revert Hl. generalize (m_values m). induction (m_keys m) as [|k ks IH]; intros vs Hl; [reflexivity|]. destruct vs as [|v vs]; [discriminate|]. cbn [combine map fst]. f_equal. apply IH. cbn in Hl. lia. }
  rewrite E. exact Hn.
Qed.
Lemma sd_eta d : sd_ok d -> d = mksd (sd_sizes d) (mkd (sd_list d)) (sd_readonly d).
Proof. intros Hd. apply sd_ok_alt in Hd. destruct Hd as (_ & E & _). destruct d as [s i r]. cbn [sd_sizes sd_items sd_readonly] in *. f_equal. exact E. Qed.

Theorem bin_meta_ok fresh nd sorted array u edges groups erase :
  let P := da_shape array in let cl := sd_list (da_coords array) in let ml := sd_list (da_masks array) in let al := sd_list (da_attrs array) in
  let A := axes P edges groups erase in let O := result_shape P A erase in let bd := u_dim u in let old := outdated edges groups erase bd in
  let evc := ditems (u_coords u) in let evm := ditems (u_masks u) in let eva := ditems (u_attrs u) in
  da_ok array -> dict_ok (u_coords u) -> dict_ok (u_masks u) -> dict_ok (u_attrs u) ->
  nd <= 1 -> (edges <> [] \/ groups <> []) -> Forall (arg_ok 2) edges -> (forall e, In e edges -> sorted e = true) -> Forall (arg_ok 0) groups -> ~ In InvalidDim erase ->
  NoDup (map fst (al ++ cl)) -> compatible P (al ++ cl) edges groups erase -> (forall it, In it (used A) -> outer_ok P edges groups erase it) ->
  (forall k it, In (k, it) (evc ++ evm ++ eva) -> ~ of_events bd it -> ~ In k (map idim groups) \/ In (k, it) (evm ++ eva) -> SizedDict_Spec.fits O (ishape it)) ->
  exists r, bin_meta fresh nd sorted array u edges groups erase = Ok r /\ da_ok r /\ da_shape r = O /\
    (forall k it, In (k, it) (sd_list (da_coords r)) <-> coord_entry (used A) evc cl bd old k it) /\
    (forall k it, In (k, it) (sd_list (da_masks r)) <-> meta_entry (fun _ => False) evm ml bd old k it) /\
    (forall k it, In (k, it) (sd_list (da_attrs r)) <-> meta_entry (fun k => In k (map fst (sd_list (da_coords r)))) eva al bd old k it).
Proof.
  intros P cl ml al A O bd old evc evm eva (Hv & Ec & Em & Ea & Oc & Om & Oa) Uc Um Ua Hnd Hne He Hs Hg Her Hdis Hcomp Hout Hev.
  destruct (dict_parts _ Uc) as [Euc Nuc]. destruct (dict_parts _ Um) as [Eum Num]. destruct (dict_parts _ Ua) as [Eua Nua]. fold evc in Euc, Nuc. fold evm in Eum, Num. fold eva in Eua, Nua.
  pose proof (sd_eta _ Oc) as Xc. pose proof (sd_eta _ Om) as Xm. pose proof (sd_eta _ Oa) as Xa. fold cl in Xc. fold ml in Xm. fold al in Xa.
  apply sd_ok_alt in Oc. destruct Oc as (Wc & _ & Nc & Fc). apply sd_ok_alt in Om. destruct Om as (_ & _ & Nm & Fm). apply sd_ok_alt in Oa. destruct Oa as (_ & _ & Na & Fa).
  fold cl in Nc, Fc. fold ml in Nm, Fm. fold al in Na, Fa. unfold sd_shape in Fc, Fm, Fa. rewrite Ec in Fc, Wc, Xc. rewrite Em in Fm, Xm. rewrite Ea in Fa, Xa.
  change (pairs (i_dims (da_data array))) with P in Fc, Fm, Fa. destruct (wf_mk_pairs _ Wc) as [EP HP]. change (pairs (i_dims (da_data array))) with P in EP, HP.
  assert (He1 : Forall (arg_ok 1) edges). { apply Forall_forall. intros e Hi. rewrite Forall_forall in He. destruct (He e Hi) as (? & ? & ?). repeat split; try assumption; try apply H; lia. }
  unfold bin_meta, validate_bin_args. destruct (Z.gtb_spec nd 1); [lia|].
  assert (EV : match edges, groups with [], [] => Throw InvalidArgument | _, _ => check_edges sorted edges end = Ok tt).
  { destruct edges as [|e es]; [destruct groups as [|g gs]; [destruct Hne; congruence|]; reflexivity|]. destruct groups; apply check_edges_ok; assumption. }
  rewrite EV. cbn [bind].
  assert (Hci : forall d it, In (d, it) (al ++ cl) -> item_ok it /\ SizedDict_Spec.fits P (ishape it)) by (intros d it Hi; apply in_app_iff in Hi; destruct Hi as [Hi|Hi]; [apply (Fa d)|apply (Fc d)]; exact Hi).
  assert (EM : sd_merge_from (da_attrs array) (da_coords array) = Ok (mksd (i_dims (da_data array)) (mkd (al ++ cl)) (sd_readonly (da_attrs array)))).
  { rewrite Xa at 1. rewrite Xc at 1. apply merge_from_ok; assumption. }
  rewrite EM. cbn [bind sd_items]. rewrite EP.
  destruct (axis_actions_ok P (al ++ cl) edges groups erase HP Hdis (fun d it Hi => proj1 (Hci d it Hi)) He1 Hg Her) as [Eax _]. rewrite (Eax Hcomp). cbn [bind]. fold A.
  rewrite b_edges_axes, b_groups_axes. cbn [b_dims]. destruct (result_ok P (al ++ cl) edges groups erase HP He1 Hg Her Hcomp) as [Eout HO]. fold A in Eout, HO. fold O in Eout, HO.
  assert (Kg : forall g, In g groups -> item_ok g) by (intros g Hi; rewrite Forall_forall in Hg; apply (Hg g Hi)).
  rewrite Euc. destruct (drop_grouped_at groups evc Nuc Kg) as (ul & -> & Nul & Cul). cbn [bind]. rewrite Eout. cbn [bind]. rewrite Eum, Eua. fold bd. rewrite Xc, Xm, Xa. cbn [sd_items].
  set (data := mkitem fresh (var_fresh (mk O)) true true).
  assert (Hul : forall k it, In (k, it) ul <-> In (k, it) evc /\ ~ In k (map idim groups)).
  { intros k it. rewrite <- (coord_at_In ul k it Nul), Cul. destruct (mem k (map idim groups)) eqn:M; [apply mem_In in M|apply mem_nIn in M; rewrite (coord_at_In evc k it Nuc)]; intuition discriminate. }
  assert (Husedin : forall it, In it (used A) -> In it edges \/ In it groups).
  { intros it Hi. apply used_In in Hi. destruct Hi as [Hi|Hi]; apply axes_in in Hi; destruct Hi as [(x & Q & Hx)|[(g & Q & Hx)|[(e & Q & Hx)|(x & k & Q & Hx & _)]]]; try discriminate; injection Q as ->; tauto. }
  assert (Hargs : forall it, In it (used A) -> item_ok it /\ ishape it <> []).
  { intros it Hi. apply Husedin in Hi. rewrite Forall_forall in He, Hg. destruct Hi as [Hi|Hi]; [destruct (He it Hi) as (? & ? & _)|destruct (Hg it Hi) as (? & ? & _)]; split; assumption. }
  assert (Hold : forall it, (exists d, In d (keys (ishape it)) /\ (In d (erase ++ map idim (used A)) \/ d = bd)) <-> old it).
  { intros it. unfold old, outdated. split; intros (d & Hd & Hx); exists d; (split; [exact Hd|]); destruct Hx as [Hx|Hx]; auto; left; apply (changed_used P edges groups erase d); exact Hx. }
  destruct (add_metadata_ok O data bd ul evm eva cl ml al (binned_of A) (grouped_of A) erase HO eq_refl Nul Num Nua Nc Nm Na) as (c & m & a & Er & S1 & S2 & S3 & Hc & Hm & Ha).
  - intros k it. rewrite !in_app_iff. intros [Hi|[Hi|[Hi|[Hi|[Hi|Hi]]]]].
    + apply Hul in Hi. destruct Uc as (_ & _ & U). apply (U k it). apply Hi.
    + destruct Um as (_ & _ & U). apply (U k it Hi).
    + destruct Ua as (_ & _ & U). apply (U k it Hi).
    + apply (Fc k it Hi).
    + apply (Fm k it Hi).
    + apply (Fa k it Hi).
  - apply (used_nodup A). destruct Hcomp as (_ & _ & N & _). exact N.
  - intros it Hi. destruct (Hargs it Hi) as [K1 K2]. split; [exact K1|]. apply (fits_used P (al ++ cl) edges groups erase HP Hcomp it Hi (Hout it Hi) K1 K2).
  - intros k it Hi Hn. apply (Hev k it); [|exact Hn|].
    + rewrite !in_app_iff in *. destruct Hi as [Hi|Hi]; [left; apply Hul in Hi; apply Hi|tauto].
    + rewrite !in_app_iff in *. destruct Hi as [Hi|Hi]; [left; apply Hul in Hi; apply Hi|tauto].
  - intros k it Hi Hn. apply (fits_kept P edges groups erase HP it bd).
    + rewrite !in_app_iff in Hi. destruct Hi as [Hi|[Hi|Hi]]; [apply (Fc k it Hi)|apply (Fm k it Hi)|apply (Fa k it Hi)].
    + intros Ho. apply Hn. apply Hold. exact Ho.
  - rewrite Er. eexists. split; [reflexivity|]. split.
    { unfold da_ok. cbn [da_data da_coords da_masks da_attrs sd_sizes]. split; [apply fresh_wfv; apply mk_wf; exact HO|]. repeat (split; [reflexivity|]). exact (conj S1 (conj S2 S3)). }
    split; [unfold da_shape, ishape, i_dims, data; cbn [da_data i_var]; change (v_dims (var_fresh (mk O))) with (mk O); apply pairs_mk|].
    cbn [da_coords da_masks da_attrs]. rewrite !sd_list_mk. split; [|split].
    + intros k it. rewrite Hc. change (binned_of A ++ grouped_of A) with (used A). unfold coord_entry.
      assert (Hgu : ~ In k (map idim (used A)) -> ~ In k (map idim groups)).
      { intros N Hi. assert (Hx : In k (erase ++ map idim (used A))) by (apply (changed_used P edges groups erase k); right; right; exact Hi). apply in_app_iff in Hx. destruct Hx as [Hx|Hx]; [|exact (N Hx)].
        apply in_map_iff in Hi. destruct Hi as (g & <- & Hi). assert (Hd : In (idim g) (map idim (used A))); [|exact (N Hd)].
        assert (Hch : given edges groups (idim g) = true) by (unfold given; apply Bool.orb_true_iff; right; apply mem_In; apply in_map; exact Hi). clear Hx.
        destruct (mem (idim g) (keys P)) eqn:M.
        - apply mem_In, In_keys in M. destruct M as [n Hn]. pose proof (from_first_given edges groups _ n P Hn Hch) as Hf. pose proof (named_index groups (idim g)) as Ng. destruct (named (idim g) groups) as [g'|] eqn:Egn; [|apply mem_nIn in Ng; exfalso; apply Ng; apply in_map; exact Hi].
          destruct Ng as (_ & <- & Hi' & _). apply in_map. apply used_In. right. unfold A, axes. rewrite !in_app_iff. right; left. apply in_flat_map. eexists. split; [exact Hf|]. unfold axis_of. cbn [fst]. rewrite Egn. left. reflexivity.
        - apply in_map. apply used_In. right. unfold A, axes. rewrite !in_app_iff. right; right; left. apply in_map. apply filter_In. split; [exact Hi|]. unfold is_new. rewrite M. reflexivity. }
      split.
      * intros [Hx|[(N & Hi & Hn)|(N & Hall & Hi & Hn)]]; [left; exact Hx|right; left; apply Hul in Hi; tauto|right; right]. split; [exact N|]. split; [intros x Hx; apply Hall; apply Hul; split; [exact Hx|apply Hgu; exact N]|]. split; [exact Hi|]. intros Ho. apply Hn. apply Hold. exact Ho.
      * intros [Hx|[(N & Hi & Hn)|(N & Hall & Hi & Hn)]]; [left; exact Hx|right; left; split; [exact N|]; split; [apply Hul; split; [exact Hi|apply Hgu; exact N]|exact Hn]|right; right]. split; [exact N|]. split; [intros x Hx; apply Hul in Hx; apply Hall; apply Hx|]. split; [exact Hi|]. intros Ho. apply Hn. apply Hold. exact Ho.
    + intros k it. rewrite Hm. unfold meta_entry. setoid_rewrite Hold. reflexivity.
    + intros k it. rewrite Ha. unfold meta_entry. setoid_rewrite Hold. reflexivity.
Qed.

(** ** The type of the indices *)
Lemma narrow_id bits z : 0 < bits -> - 2 ^ (bits - 1) <= z < 2 ^ (bits - 1) -> narrow bits z = z.
Proof.
  intros Hb Hz. unfold narrow. assert (E : 2 ^ bits = 2 * 2 ^ (bits - 1)) by (replace bits with (Z.succ (bits - 1)) at 1 by lia; apply Z.pow_succ_r; lia).
  rewrite Z.mod_small; lia.
Qed.
Lemma push_none bits l : fold_left (push_index bits) l (-1) = -1.
Proof. induction l as [|[n b] l IH]; [reflexivity|]. cbn [fold_left push_index]. exact IH. Qed.
Lemma push_missing bits l : existsb (fun a => snd a <? 0) l = true -> forall i, fold_left (push_index bits) l i = -1.
Proof.
  induction l as [|[n b] l IH]; [discriminate|]. cbn [existsb snd]. intros Hb i. cbn [fold_left]. apply orb_prop in Hb. destruct Hb as [Hb|Hb]; [|apply IH; exact Hb].
  cbn [push_index]. rewrite Hb. destruct (i =? -1); apply push_none.
Qed.
Lemma prodZ_pos l : Forall (fun n => 1 <= n) l -> 1 <= prodZ l.
Proof. induction 1 as [|n l Hn Hl IH]; cbn [prodZ fold_right]; [lia|]. fold (prodZ l). nia. Qed.
Lemma push_exact bits V l : 0 < bits -> V <= 2 ^ (bits - 1) -> forall i Q, 0 <= i < Q -> Q * prodZ (map fst l) <= V -> Forall (fun a => 0 <= snd a < fst a) l ->
  fold_left (push_index bits) l i = flat_index i l.
Proof.
  intros Hb HV. induction l as [|[n b] l IH]; intros i Q Hi HQ Hl; [reflexivity|]. inversion_clear Hl as [|? ? Hn Hl']. cbn [fst snd] in Hn. cbn [map fst prodZ fold_right] in HQ. fold (prodZ (map fst l)) in HQ.
  assert (Hp : 1 <= prodZ (map fst l)). { apply prodZ_pos. apply Forall_map. eapply Forall_impl; [|exact Hl']. intros [x y] Hx. cbn [fst snd] in *. lia. }
  rewrite Z.mul_assoc in HQ. assert (Hqn0 : 0 <= Q * n) by nia. assert (HQn : Q * n <= V) by (remember (Q * n) as x; nia). assert (Hin : 0 <= i * n /\ i * n + b < Q * n) by (split; [nia|]; assert ((i + 1) * n <= Q * n) by nia; lia).
  cbn [fold_left push_index flat_index]. destruct (Z.eqb_spec i (-1)); [lia|]. destruct (Z.ltb_spec b 0); [lia|].
  rewrite (narrow_id bits (i * n)) by lia. rewrite narrow_id by lia. apply (IH _ (Q * n)); [lia|exact HQ|exact Hl'].
Qed.
