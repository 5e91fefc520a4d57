(** Proofs about the concatenation of dictionaries of coords and masks. *)
From Verif Require Import Base Map_Model Dims_Model Dims_Spec Dims_Proofs Index_Model View_Model View_Spec View_Proofs SizedDict_Model SizedDict_Spec SizedDict_Proofs
  Transform_Model Transform_Spec Transform_Proofs Concat_Model Concat_Spec Concat_Proofs ConcatDa_Model ConcatDa_Spec ConcatDa_Proofs.

Lemma collect_Ok {X Y} (f : X -> res Y) l : forall r, collect f l = Ok r <-> Forall2 (fun x y => f x = Ok y) l r.
Proof.
  induction l as [|x l IH]; intros r; cbn [collect].
  - split; [intros [= <-]; constructor|intros Hf; inversion Hf; reflexivity].
  - split.
    + destruct (f x) as [y| |] eqn:E; cbn [bind]; try discriminate. destruct (collect f l) as [r'| |]; cbn [bind]; try discriminate. intros [= <-]. constructor; [exact E|]. apply IH. reflexivity.
    + intros Hf. inversion Hf as [|x' y l' r' Hxy Hf']; subst. rewrite Hxy. cbn [bind]. apply IH in Hf'. rewrite Hf'. reflexivity.
Qed.
Lemma F2_nth {X Y} (P : X -> Y -> Prop) l r : Forall2 P l r -> forall i x, nth_error l i = Some x -> exists y, nth_error r i = Some y /\ P x y.
Proof. intros Hf. induction Hf as [|x y l r Hxy Hf IH]; intros [|i] z Hi; cbn [nth_error] in *; try discriminate; [injection Hi as <-; exists y; split; [reflexivity|exact Hxy]|apply (IH i z Hi)]. Qed.
Lemma F2_In_r {X Y} (P : X -> Y -> Prop) l r : Forall2 P l r -> forall y, In y r -> exists x, In x l /\ P x y.
Proof. intros Hf. induction Hf as [|x y l r Hxy Hf IH]; intros z Hz; [destruct Hz|]. destruct Hz as [<-|Hz]; [exists x; split; [left; reflexivity|exact Hxy]|]. destruct (IH z Hz) as (a & Ha & Hp). exists a. split; [right; exact Ha|exact Hp]. Qed.
Lemma F2_imp {X Y} (P Q : X -> Y -> Prop) l r : (forall x y, In x l -> P x y -> Q x y) -> Forall2 P l r -> Forall2 Q l r.
Proof. intros Hi Hf. induction Hf as [|x y l r Hxy Hf IH]; constructor; [apply Hi; [left; reflexivity|exact Hxy]|apply IH; intros a b Ha; apply Hi; right; exact Ha]. Qed.
Lemma F2_map_sum {X Y} (f : X -> Z) (g : Y -> Z) l r : Forall2 (fun x y => f x = g y) l r -> forall i, sumZ (map f (firstn i l)) = sumZ (map g (firstn i r)).
Proof. intros Hf. induction Hf as [|x y l r Hxy Hf IH]; intros [|i]; [reflexivity..|]. cbn [firstn map]. unfold sumZ in *. cbn [fold_right]. rewrite Hxy, (IH i). reflexivity. Qed.
Lemma F2_len {X Y} (P : X -> Y -> Prop) l r : Forall2 P l r -> length l = length r.
Proof. intros Hf. induction Hf; cbn [length]; congruence. Qed.
Lemma F2_map_r {X Y Z'} (P : X -> Z' -> Prop) (g : Y -> Z') l r : Forall2 (fun x y => P x (g y)) l r <-> Forall2 P l (map g r).
Proof.
  split.
  - intros Hf. induction Hf; cbn [map]; constructor; assumption.
  - revert l. induction r as [|y r IH]; intros l Hf; cbn [map] in Hf; inversion Hf; subst; constructor; [assumption|apply IH; assumption].
Qed.

Lemma sd_at_holds m key it : sd_ok m -> sd_at m key = Ok it <-> holds m key it.
Proof.
  intros Hm. apply sd_ok_alt in Hm as (_ & E & Hnd & _). unfold sd_at, holds. rewrite E. split.
  - intros Ha. destruct (in_dec Z.eq_dec key (map fst (sd_list m))) as [Hk|Hk].
    + apply in_keys_split in Hk as (l1 & v & l2 & El). rewrite El in *. rewrite (at_In _ key v) in Ha; [injection Ha as <-; apply in_elt|exact Hnd|apply in_elt].
    + rewrite at_no in Ha by exact Hk. discriminate.
  - intros Hi. apply at_In; assumption.
Qed.
Lemma holds_unique m key a b : sd_ok m -> holds m key a -> holds m key b -> a = b.
Proof. intros Hm Ha Hb. apply (sd_at_holds m key a Hm) in Ha. apply (sd_at_holds m key b Hm) in Hb. congruence. Qed.
Lemma sizes_mk m : sd_ok m -> sd_sizes m = mk (sd_shape m) /\ lwf (sd_shape m).
Proof. intros (Hw & _). destruct (wf_mk_pairs _ Hw) as [E L]. split; assumption. Qed.

(** ** Broadcasts *)
Lemma broadcast_effect v t v' : wfv v -> wf t -> var_broadcast v t = Ok v' -> wfv v' /\ pairs (v_dims v') = pairs t /\ forall ix, valid_at (pairs t) ix -> vaddr v' ix = vaddr v ix.
Proof.
  intros Hv Ht E. destruct (wfv_SV _ Hv) as (sf & Hl & Hnn & Ev).
  pose proof (broadcast_step_ok (pairs (v_dims v)) t Hl Ht sf (v_offset v) (v_readonly v) (v_size v) Hnn) as Hb.
  rewrite <- Ev in Hb. cbn [view_dims view_step pull] in Hb. rewrite E in Hb. cbn [bind] in Hb.
  destruct (broadcast_dims (pairs (v_dims v)) (pairs t)) as [q|] eqn:Eb; [|destruct Hb; discriminate].
  unfold broadcast_dims in Eb. destruct (forallb _ _) in Eb; [|discriminate]. injection Eb as <-.
  destruct Hb as (Hlq & _ & _ & c & sf' & off' & ro' & sz' & Ex & Hn' & Hc). injection Ex as <- ->.
  destruct Hc as (_ & _ & Hc). split; [apply SV_wfv; assumption|]. split; [cbn [SV v_dims]; apply pairs_mk|].
  intros ix Hix. rewrite vaddr_SV, (Hc ix Hix). symmetry. rewrite Ev at 1. apply vaddr_SV.
Qed.

(** ** Dimension of a coord *)
Lemma dim_of_in is_mask m key it x : sd_ok m -> holds m key it -> dim_of_key is_mask m key = Ok x -> x <> InvalidDim -> In x (keys (ishape it)).
Proof.
  intros Hm Hh E Hx. pose proof (proj2 (sd_at_holds m key it Hm) Hh) as Ea. destruct (sizes_mk m Hm) as [Es Hl].
  assert (Hio : item_ok it /\ SizedDict_Spec.fits (sd_shape m) (ishape it)) by (apply Hm with key; exact Hh). destruct Hio as [Hio Hf].
  destruct (item_mk it Hio) as [Eq Hq].
  assert (E1 : ndim (i_dims it) = 1 -> dims_inner (i_dims it) = x -> In x (keys (ishape it))).
  { intros N1 N2. rewrite Eq in N1, N2. unfold ndim, labels, mk, zlen in N1. cbn [m_keys] in N1. unfold dims_inner, labels, mk in N2. cbn [m_keys] in N2.
    destruct (keys (ishape it)) as [|k [|k' ks]]; cbn in N1; try lia. cbn in N2. left. exact N2. }
  unfold dim_of_key, dim_of in E. rewrite Ea in E. cbn [bind] in E. destruct is_mask.
  - destruct (Z.eqb_spec (ndim (i_dims it)) 1) as [N|N]; injection E as E; [apply E1; assumption|congruence].
  - destruct (Z.eqb_spec (ndim (i_dims it)) 0) as [N|N]; [injection E as E; congruence|].
    destruct (Z.eqb_spec (ndim (i_dims it)) 1) as [N1|N1]; [injection E as E; apply E1; assumption|].
    destruct (first_edge_ok (sd_shape m) it (labels (i_dims it)) Hl Hio Hf) as (o & Eo & Ho). rewrite Es, Eo in E. cbn [bind] in E.
    destruct o as [l|].
    + injection E as <-. destruct Ho as (n & Hn & _). apply In_keys. eauto.
    + destruct (dcontains (i_dims it) key) eqn:Ec; injection E as E; [|congruence]. subst x. rewrite Eq, dcontains_mk in Ec. apply mem_In. exact Ec.
Qed.

Lemma adjacent_all l : adjacent_differ l = false -> forall b, hd_error l = Some b -> forall x, In x l -> x = b.
Proof.
  induction l as [|a l IH]; intros Ha b Hb x Hx; [destruct Hx|]. injection Hb as <-. destruct Hx as [<-|Hx]; [reflexivity|].
  destruct l as [|c l]; [destruct Hx|]. cbn [adjacent_differ] in Ha. apply orb_false_iff in Ha as [E Ha]. apply negb_false_iff, Bool.eqb_prop in E. subst c.
  apply (IH Ha a eq_refl x Hx).
Qed.

Section Common.
Context {A : Type}.
(** Items in memory. *)
Definition in_world (w : world (A := A)) (u : Z) (it : item) : Prop :=
  0 <= i_obj it /\ (Z.to_nat (i_obj it) < w_next w)%nat /\ w_unit w (Z.to_nat (i_obj it)) = u.
Definition items_in (w : world (A := A)) (maps : list sdict) (key : Z) (u : Z) : Prop :=
  forall m it, In m maps -> holds m key it -> in_world w u it /\ (length (ishape it) < NDIM_OP_MAX)%nat.
(** If the item of the first input depends on [dim], then so do those of all inputs of another length than 1. *)
Definition all_depend (dim : Dim) (maps : list sdict) (key : Z) : Prop :=
  forall a it, hd_error maps = Some a -> holds a key it -> In dim (keys (ishape it)) ->
  forall m it', In m maps -> holds m key it' -> In dim (keys (ishape it')) \/ len dim m = 1.

Lemma arr_item o : arr_of (item_of o) = o.
Proof. unfold arr_of, item_of. cbn [i_obj i_var]. rewrite Nat2Z.id. destruct o; reflexivity. Qed.
Lemma len_nonneg dim m : sd_ok m -> 0 <= len dim m.
Proof.
  intros Hm. destruct (sizes_mk m Hm) as [_ (Hn & Hf & _)]. unfold len. destruct (extent (sd_shape m) dim) as [n|] eqn:E; [|lia].
  apply (extent_In _ _ _ Hn) in E. rewrite Forall_forall in Hf. apply Hf. unfold extents. apply in_map_iff. exists (dim, n). split; [reflexivity|exact E].
Qed.
Lemma part_len dim m key it : sd_ok m -> holds m key it -> ~ edge_dim (sd_shape m) it dim -> In dim (keys (ishape it)) \/ len dim m = 1 -> part dim (arr_of it) = len dim m.
Proof.
  intros Hm Hh Hne Hd. destruct (sizes_mk m Hm) as [_ Hl]. assert (Hio : item_ok it /\ SizedDict_Spec.fits (sd_shape m) (ishape it)) by (apply Hm with key; exact Hh). destruct Hio as [Hio Hf].
  destruct (item_mk it Hio) as [_ Hq]. unfold part, len. change (ashape (arr_of it)) with (ishape it). destruct (extent (ishape it) dim) as [n|] eqn:E.
  - apply (extent_In _ _ _ (proj1 Hq)) in E.
    assert (Hp : In (dim, n) (sd_shape m)).
    { destruct Hf as [Hf|(e & k & He & Ho & Hc)]; [apply Hf, E|]. destruct (Z.eq_dec dim e) as [<-|Hde]; [|apply Ho; assumption]. exfalso. apply Hne. exists k. split; [exact He|exact Hc]. }
    apply (extent_In _ _ _ (proj1 Hl)) in Hp. rewrite Hp. reflexivity.
  - apply extent_None in E. destruct Hd as [Hd|Hd]; [contradiction|]. unfold len in Hd. symmetry. exact Hd.
Qed.
Lemma part_edge dim m it : sd_ok m -> item_ok it -> edge_dim (sd_shape m) it dim -> part dim (arr_of it) = len dim m + 1 /\ In dim (keys (ishape it)).
Proof.
  intros Hm Hio (n & Hn & Hc). destruct (sizes_mk m Hm) as [_ Hl]. destruct (item_mk it Hio) as [_ Hq].
  split; [|apply In_keys; eauto]. unfold part, len. change (ashape (arr_of it)) with (ishape it).
  rewrite (proj2 (extent_In _ _ _ (proj1 Hq)) Hn). destruct Hc as [Hc|[Hc ->]].
  - rewrite (proj2 (extent_In _ _ _ (proj1 Hl)) Hc). lia.
  - rewrite (proj2 (extent_None _ _) Hc). reflexivity.
Qed.
Lemma concat_rank dim l : l <> [] -> (forall a, In a l -> (length (ashape a) < NDIM_OP_MAX)%nat) -> (length (concat_shape dim l) <= NDIM_OP_MAX)%nat.
Proof.
  intros Hne Hl. unfold concat_shape. rewrite map_length. destruct (concat_base dim l) as [p|] eqn:E.
  - apply concat_base_In in E as (a & Ha & -> & _). specialize (Hl a Ha). lia.
  - destruct l as [|a l]; [contradiction|]. cbn [length]. specialize (Hl a (or_introl eq_refl)). lia.
Qed.
Lemma dim_in_concat dim l a : l <> [] -> dim <> InvalidDim -> (forall a, In a l -> wfv (a_var a)) -> ashape a = concat_shape dim l -> In dim (keys (ashape a)).
Proof.
  intros Hne Hd Hw E. destruct (base_ok dim l Hne ltac:(apply Forall_forall; exact Hw) Hd) as (p1 & p2 & _ & _ & Es & _). rewrite E, Es, keys_app. apply in_or_app. right. left. reflexivity.
Qed.
Lemma keeps_refl (w : world (A := A)) : keeps w w.
Proof. split; [lia|]. split; reflexivity. Qed.
Lemma keeps_trans (w w1 w2 : world (A := A)) : keeps w w1 -> keeps w1 w2 -> keeps w w2.
Proof.
  intros (N1 & H1' & U1) (N2 & H2' & U2). split; [lia|]. split; [intros c Hc; rewrite H2' by lia; apply H1'; exact Hc|intros b Hb; rewrite U2 by lia; apply U1; exact Hb].
Qed.
Lemma value_keeps (w w' : world (A := A)) a ix : keeps w w' -> (a_buf a < w_next w)%nat -> value_at (w_heap w') a ix = value_at (w_heap w) a ix.
Proof. intros (_ & Hh & _) Hb. apply Hh. exact Hb. Qed.
Lemma in_world_keeps w w' u it : keeps w w' -> in_world w u it -> in_world w' u it.
Proof. intros (N & _ & U) (E1 & E2 & E3). split; [exact E1|]. split; [lia|]. rewrite U by exact E2. exact E3. Qed.
Lemma items_in_keeps w w' maps key u : keeps w w' -> items_in w maps key u -> items_in w' maps key u.
Proof. intros K Hi m it Hm Hh. destruct (Hi m it Hm Hh) as [Hx Hr]. split; [exact (in_world_keeps _ _ _ _ K Hx)|exact Hr]. Qed.
End Common.

Section Entry.
Context {A : Type} (default : A) (eqb eqb_nan : A -> A -> bool) (blocks : sizes -> list (Z * Z)).
Hypothesis Hbl : forall d, wf d -> tiles 0 (volume d) (blocks d).


(** The length of an item that is not bin edges is that of its parent. *)

Definition result_ok (w : world (A := A)) (u : Z) (o : item) (w' : world (A := A)) : Prop := keeps w w' /\ item_ok o /\ in_world w' u o.

Lemma joinable_dec w dim l : (forall a, In a l -> wfv (a_var a) /\ In dim (keys (ashape a))) -> joinable eqb w dim l \/ ~ joinable eqb w dim l.
Proof.
  intros Hl. destruct l as [|a l].
  - left. split; [intros a []|]. split; intros [|i] x; discriminate.
  - rewrite joinable_linked. destruct (Z.le_gt_cases 1 (part dim a)) as [Ha|Ha]; [|right; intros [X _]; lia].
    destruct (Hl a (or_introl eq_refl)) as [Wa Ka].
    pose proof (join_parts_ok default eqb w dim l 1 a a (fun x Hx => Hl x (or_intror Hx)) Wa (rep_self default eqb dim a Wa Ka)) as Hj.
    destruct (join_parts eqb w dim a l) as [t|e|]; [left; split; [exact Ha|apply Hj]|right; intros [_ X]; destruct Hj; contradiction|contradiction].
Qed.


(** A result made by [cat] of one array per input. *)
Lemma cat_entry w w' dim maps its arrs key u o : dim <> InvalidDim -> maps <> [] -> (forall m, In m maps -> sd_ok m) ->
  Forall2 (fun m it => holds m key it) maps its -> (forall m it, In m maps -> holds m key it -> ~ edge_dim (sd_shape m) it dim) ->
  Forall2 (fun it a => a_buf a = Z.to_nat (i_obj it) /\ wfv (a_var a) /\ (forall ix, valid_at (ashape a) ix -> vaddr (a_var a) ix = vaddr (i_var it) ix) /\
     forall k n, k <> dim -> (In (k, n) (ashape a) <-> In (k, n) (ishape it))) its arrs ->
  Forall2 (fun m a => len dim m = part dim a) maps arrs ->
  (length (concat_shape dim arrs) <= NDIM_OP_MAX)%nat -> (forall it, In it its -> in_world w u it) ->
  cat default blocks w arrs dim (Ok o) w' -> entry_spec eqb eqb_nan (w_heap w) (w_heap w') dim maps key (item_of o) /\ result_ok w u (item_of o) w'.
Proof.
  intros Hd Hne Hm Hits Hnoe Harr Hpart Hrank Hw Hc.
  assert (Ha : forall a, In a arrs -> wfv (a_var a) /\ (a_buf a < w_next w)%nat /\ w_unit w (a_buf a) = u).
  { intros a Hx. destruct (F2_In_r _ _ _ Harr a Hx) as (it & Hit & E & Wa & _). destruct (Hw it Hit) as (_ & Hlt & Hu). rewrite E. auto. }
  assert (Hne' : arrs <> []) by (intros ->; inversion Hpart; congruence).
  assert (Hin : input_ok w dim arrs) by (split; [exact Hne'|]; split; [exact Hd|]; split; [intros a Hx; destruct (Ha a Hx) as (? & ? & _); auto|exact Hrank]).
  destruct (cat_success default blocks Hbl w dim arrs u o w' Hin ltac:(intros a Hx; apply Ha, Hx) Hc) as [Hf (K & Eb & Hlt & Eu & Wo & Es & Hv)].
  assert (Kd : In dim (keys (ashape o))) by (apply (dim_in_concat dim arrs o); [assumption..|intros a Hx; apply Ha, Hx|exact Es]).
  split.
  - split; [|split].
    + unfold entry_shape. split; [intros m it Hmm Hh He; exfalso; apply (Hnoe m it Hmm Hh He)|]. destruct (base_ok dim arrs Hne' ltac:(apply Forall_forall; intros a Hx; apply Ha, Hx) Hd) as (p1 & p2 & Hp & _ & Ecs & Hb1 & Hb2).
      change (ishape (item_of o)) with (ashape o). rewrite Es. split.
      * intros _ _ _ _ _ _. assert (Et : begin_of dim maps (length maps) = total dim arrs).
        { unfold begin_of. rewrite (F2_map_sum (len dim) (part dim) maps arrs Hpart). rewrite (F2_len _ _ _ Hpart), firstn_all. reflexivity. }
        rewrite Et, Ecs. apply in_elt.
      * assert (Hai : forall a, In a arrs -> exists m it, In m maps /\ holds m key it /\ forall k n, k <> dim -> (In (k, n) (ashape a) <-> In (k, n) (ishape it))).
        { intros a Hx. destruct (F2_In_r _ _ _ Harr a Hx) as (it & Hit & _ & _ & _ & Hk). destruct (F2_In_r _ _ _ Hits it Hit) as (m & Hmm & Hh). eauto 6. }
        intros k n Hkd. split.
        -- intros Hk. assert (Hk' : exists a, In a arrs /\ In (k, n) (ashape a)).
           { rewrite Ecs in Hk. assert (Hk2 : In (k, n) (p1 ++ p2)) by (apply in_app_or in Hk as [Hk|[[= E _]|Hk]]; [apply in_or_app; left; exact Hk|congruence|apply in_or_app; right; exact Hk]).
             destruct (concat_base dim arrs) as [p|] eqn:Ecb.
             - destruct (Hb2 p eq_refl) as [m0 Ep]. apply concat_base_In in Ecb as (a & Hx & E & _). exists a. split; [exact Hx|]. rewrite <- E, Ep. apply in_app_or in Hk2 as [X|X]; apply in_or_app; [left; exact X|right; right; exact X].
             - destruct (Hb1 eq_refl) as (-> & a & Hhd & ->). exists a. split; [destruct arrs; [discriminate|]; injection Hhd as ->; left; reflexivity|exact Hk2]. }
           destruct Hk' as (a & Hx & Hka). destruct (Hai a Hx) as (m & it & Hmm & Hh & Hiff). exists m, it. split; [exact Hmm|]. split; [exact Hh|]. apply Hiff; assumption.
        -- intros (m & it & Hmm & Hh & Hk). apply In_nth_error in Hmm as [i Hi]. destruct (F2_nth _ _ _ Hits i m Hi) as (it' & Hi' & Hh'). rewrite (holds_unique m key it' it (Hm m (nth_error_In _ _ Hi)) Hh' Hh) in Hi'.
           destruct (F2_nth _ _ _ Harr i it Hi') as (a & Hia & _ & _ & _ & Hiff). apply (Hf a (nth_error_In _ _ Hia) k n); [apply Hiff; assumption|exact Hkd].
    + intros i m it Hi Hh He. exfalso. apply (Hnoe m it (nth_error_In _ _ Hi) Hh He).
    + intros i m it Hi Hh _ ix Hix. split; [|intros X; exfalso; apply X; exact Kd]. intros _ Hr.
      destruct (F2_nth _ _ _ Hits i m Hi) as (it' & Hi' & Hh'). rewrite (holds_unique m key it' it (Hm m (nth_error_In _ _ Hi)) Hh' Hh) in Hi'.
      destruct (F2_nth _ _ _ Harr i it Hi') as (a & Hia & Ea & Wa & Hva & _). destruct (F2_nth _ _ _ Hpart i m Hi) as (a' & Hia' & Ep). rewrite Hia in Hia'. injection Hia' as <-.
      assert (Est : start_of dim arrs i = begin_of dim maps i) by (symmetry; apply (F2_map_sum (len dim) (part dim) maps arrs Hpart)).
      rewrite arr_item. change (i_dims (item_of o)) with (a_dims o) in Hix. rewrite (Hv i a ix Hia Hix) by (rewrite Est, <- Ep; exact Hr). rewrite Est. unfold value_at. cbn [arr_of a_buf a_var]. rewrite Ea. do 2 f_equal. apply Hva.
      (* the position is inside the item *)
      assert (Hla : lwf (ashape a)) by (apply (wf_mk_pairs _ (proj1 Wa))).
      intros k n Hk. destruct (Z.eq_dec k dim) as [->|Hkd].
      * rewrite put_same. unfold part in Ep. rewrite (proj2 (extent_In _ _ _ (proj1 Hla)) Hk) in Ep. lia.
      * rewrite put_other by exact Hkd. specialize (Hf a (nth_error_In _ _ Hia) k n Hk Hkd). rewrite <- Es in Hf. apply Hix. exact Hf.
  - split; [exact K|]. split; [split; [exact Wo|reflexivity]|]. unfold in_world, item_of. cbn [i_obj]. rewrite Nat2Z.id. split; [lia|]. split; [rewrite Eb; lia|exact Eu].
Qed.

Lemma entry_ok is_mask maps a dim key w u o w' : dim <> InvalidDim -> hd_error maps = Some a -> (forall m, In m maps -> sd_ok m) -> items_in w maps key u -> all_depend dim maps key ->
  concat_entry default eqb eqb_nan blocks is_mask a maps dim key w (Ok o) w' ->
  entry_spec eqb eqb_nan (w_heap w) (w_heap w') dim maps key o /\ result_ok w u o w'.
Proof.
  intros Hd Hhd Hm Hw Hdep. unfold concat_entry.
  assert (Hne : maps <> []) by (intros ->; discriminate).
  assert (Ha : In a maps) by (destruct maps as [|x l]; [discriminate|injection Hhd as ->; left; reflexivity]).
  destruct (collect (fun m => sd_at m key) maps) as [its| |] eqn:Eits; cbn [bind]; try (intros [X _]; discriminate).
  destruct (dim_of_key is_mask a key) as [d| |] eqn:Edim; cbn [bind]; try (intros [X _]; discriminate).
  destruct (edge_flags maps key dim) as [fs| |] eqn:Efs; cbn [bind]; try (intros [X _]; discriminate).
  apply (collect_Ok (fun m => sd_at m key)) in Eits. unfold edge_flags in Efs. apply collect_Ok in Efs.
  assert (Hits : Forall2 (fun m it => holds m key it) maps its) by (apply (F2_imp (fun x y => sd_at x key = Ok y)); [intros m it Hmm E; apply (sd_at_holds m key it (Hm m Hmm)); exact E|exact Eits]).
  assert (Hflags : Forall2 (fun m b => forall it, holds m key it -> (b = true <-> edge_dim (sd_shape m) it dim)) maps fs).
  { apply (F2_imp (fun x y => (do it <- sd_at x key; is_edges (sd_sizes x) (i_dims it) dim) = Ok y)); [|exact Efs]. intros m b Hmm E it Hh. rewrite (proj2 (sd_at_holds m key it (Hm m Hmm)) Hh) in E. cbn [bind] in E.
    destruct (sizes_mk m (Hm m Hmm)) as [Es Hl]. assert (Hio : item_ok it /\ SizedDict_Spec.fits (sd_shape m) (ishape it)) by (apply (Hm m Hmm) with key; exact Hh). destruct Hio as [Hio Hf].
    destruct (is_edges_ok (sd_shape m) it dim Hl Hio Hf) as (b' & Eb & Hb). rewrite Es, Eb in E. injection E as <-. exact Hb. }
  assert (Hio : forall m it, In m maps -> holds m key it -> item_ok it /\ SizedDict_Spec.fits (sd_shape m) (ishape it)) by (intros m it Hmm Hh; apply (Hm m Hmm) with key; exact Hh).
  assert (Hitin : forall it, In it its -> exists m, In m maps /\ holds m key it) by (intros it Hit; destruct (F2_In_r _ _ _ Hits it Hit) as (m & ? & ?); eauto).
  assert (Hwits : forall it, In it its -> in_world w u it) by (intros it Hit; destruct (Hitin it Hit) as (m & Hmm & Hh); apply (Hw m it Hmm Hh)).
  destruct its as [|front its'] eqn:Eit; [inversion Hits; congruence|]. rewrite <- Eit in *.
  assert (Hfront : holds a key front).
  { rewrite Eit in Hits. destruct maps as [|x l]; [discriminate|]. injection Hhd as ->. inversion Hits; assumption. }
  destruct (Z.eqb_spec d dim) as [->|Hdd].
  - (* the dimension of the coord is concatenated *)
    pose proof (dim_of_in is_mask a key front dim (Hm a Ha) Hfront Edim Hd) as Kf.
    destruct (adjacent_differ fs) eqn:Eadj; [intros [X _]; discriminate|].
    assert (Hsame : forall b, hd_error fs = Some b -> forall x, In x fs -> x = b) by (apply adjacent_all; exact Eadj).
    destruct (forallb (fun b => b) fs) eqn:Eall; cbn [negb].
    + (* bin edges *)
      intros (oo & Hj & Eo). unfold finish in Eo. destruct oo as [oo| |]; cbn [bind] in Eo; try discriminate. injection Eo as ->.
      assert (Hedge : forall m it, In m maps -> holds m key it -> edge_dim (sd_shape m) it dim).
      { intros m it Hmm Hh. apply In_nth_error in Hmm as [i Hi]. destruct (F2_nth _ _ _ Hflags i m Hi) as (b & Hb & Hiff). apply (Hiff it Hh). rewrite forallb_forall in Eall. apply Eall. apply (nth_error_In _ _ Hb). }
      set (L := map arr_of its).
      assert (HL : forall x, In x L -> exists m it, In m maps /\ holds m key it /\ x = arr_of it).
      { intros x Hx. apply in_map_iff in Hx as (it & <- & Hit). destruct (Hitin it Hit) as (m & Hmm & Hh). eauto. }
      assert (Hpe : forall m it, In m maps -> holds m key it -> part dim (arr_of it) = len dim m + 1 /\ In dim (keys (ishape it))).
      { intros m it Hmm Hh. apply part_edge; [apply Hm, Hmm|apply (Hio m it Hmm Hh)|apply (Hedge m it Hmm Hh)]. }
      assert (HLok : forall x, In x L -> wfv (a_var x) /\ In dim (keys (ashape x)) /\ (a_buf x < w_next w)%nat /\ (length (ashape x) <= NDIM_OP_MAX)%nat).
      { intros x Hx. destruct (HL x Hx) as (m & it & Hmm & Hh & ->). split; [apply (Hio m it Hmm Hh)|]. split; [apply (Hpe m it Hmm Hh)|]. destruct (Hw m it Hmm Hh) as [(_ & Hlt & _) Hr]. split; [exact Hlt|].
        change (ashape (arr_of it)) with (ishape it). lia. }
      assert (HLne : L <> []) by (unfold L; rewrite Eit; discriminate).
      destruct (join_ok default eqb blocks w dim Hbl L HLne Hd HLok) as [Hyes Hno].
      assert (Hjn : joinable eqb w dim L).
      { destruct (joinable_dec w dim L) as [X|X]; [intros x Hx; destruct (HLok x Hx) as (? & ? & _); auto|exact X|]. exfalso. destruct (Hno X) as [Hone|(e & _ & He)].
        - apply X. destruct L as [|x [|y L']] eqn:EL; cbn in Hone; try discriminate. split; [|split].
          + intros b [<-|[]]. destruct (HL x (or_introl eq_refl)) as (m & it & Hmm & Hh & ->). destruct (Hpe m it Hmm Hh) as [E _]. pose proof (len_nonneg dim m (Hm m Hmm)). lia.
          + intros [|i] b c; [discriminate|]. intros X1. destruct i; discriminate.
          + intros i b _ Hlt. cbn in Hlt. lia.
        - apply He in Hj as [Hj _]. discriminate. }
      destruct (Hyes Hjn) as [_ Hall]. destruct (Hall _ _ Hj) as (o' & [= <-] & K & Eb & Hlt & Wo & Hfr & Hjoined).
      assert (Hlen : Forall2 (fun m x => len dim m = part dim x - 1) maps L).
      { apply F2_map_r. apply (F2_imp (fun m it => holds m key it)); [|exact Hits]. intros m it Hmm Hh. cbn beta. destruct (Hpe m it Hmm Hh) as [-> _]. lia. }
      split; [split; [|split]|].
      * assert (Hrest : forall x, In x L -> rest dim x = rest dim (arr_of front)).
        { intros x Hx. unfold L in Hjn, Hx. rewrite Eit in Hjn, Hx. cbn [map] in Hjn, Hx. destruct Hx as [<-|Hx]; [reflexivity|]. apply joinable_linked in Hjn as [_ Hjn]. apply (linked_facts eqb w dim _ _ _ Hjn x Hx). }
        destruct (Hfr (arr_of front)) as [_ Es]; [unfold L; rewrite Eit; reflexivity|]. change (ashape (arr_of front)) with (ishape front) in Es. unfold entry_shape. change (ishape (item_of oo)) with (ashape oo).
        assert (Ebn : begin_of dim maps (length maps) = bins_before dim L (length L)).
        { unfold begin_of, bins_before. rewrite (F2_map_sum (len dim) (fun x => part dim x - 1) maps L Hlen), (F2_len _ _ _ Hlen). reflexivity. }
        split; [|split; [intros m it Hmm Hh Hx; exfalso; apply Hx, Hedge; assumption|]].
        -- intros _ _ _ _ _. rewrite Es, Ebn. apply In_keys in Kf as [nf Hnf]. apply in_map_iff. exists (dim, nf). cbn [fst]. rewrite Z.eqb_refl. split; [reflexivity|exact Hnf].
        -- intros k n Hkd. rewrite Es, in_map_iff. split.
           ++ intros ([k' n'] & E & Hk). cbn [fst] in E. destruct (Z.eqb_spec k' dim) as [->|Hkd']; [injection E as E _; congruence|]. injection E as -> ->. exists a, front. auto.
           ++ intros (m & it & Hmm & Hh & Hk). exists (k, n). cbn [fst]. destruct (Z.eqb_spec k dim) as [->|_]; [congruence|]. split; [reflexivity|].
              assert (HitL : In (arr_of it) L).
              { apply In_nth_error in Hmm as [i Hi]. destruct (F2_nth _ _ _ Hits i m Hi) as (it' & Hi' & Hh'). rewrite (holds_unique m key it it' (Hm m (nth_error_In _ _ Hi)) Hh Hh'). apply in_map, (nth_error_In _ _ Hi'). }
              pose proof (Hrest _ HitL) as Er. unfold rest in Er. change (ashape (arr_of it)) with (ishape it) in Er. change (ashape (arr_of front)) with (ishape front) in Er.
              assert (Hin : In (k, n) (filter (fun e => negb (fst e =? dim)) (ishape front))). { rewrite <- Er. apply filter_In. split; [exact Hk|]. cbn [fst]. destruct (Z.eqb_spec k dim); [congruence|reflexivity]. }
              apply filter_In in Hin. apply Hin.
      * intros i m it Hi Hh _ ix j Hix Ej Hr. destruct (F2_nth _ _ _ Hits i m Hi) as (it' & Hi' & Hh'). rewrite (holds_unique m key it' it (Hm m (nth_error_In _ _ Hi)) Hh' Hh) in Hi'.
        assert (HiL : nth_error L i = Some (arr_of it)) by (unfold L; rewrite nth_error_map, Hi'; reflexivity).
        assert (Ebb : bins_before dim L i = begin_of dim maps i) by (symmetry; apply (F2_map_sum (len dim) (fun x => part dim x - 1) maps L Hlen)).
        destruct (Hpe m it (nth_error_In _ _ Hi) Hh) as [Ep _]. rewrite arr_item. apply (Hjoined i (arr_of it) ix j HiL Hix); [rewrite Ebb; exact Ej|lia].
      * intros i m it Hi Hh Hx. exfalso. apply Hx, Hedge; [apply (nth_error_In _ _ Hi)|exact Hh].
      * split; [exact K|]. split; [split; [exact Wo|reflexivity]|]. unfold in_world, item_of. cbn [i_obj]. rewrite Nat2Z.id. split; [lia|]. split; [rewrite Eb; lia|].
        destruct (Hfr (arr_of front)) as [E _]; [unfold L; rewrite Eit; reflexivity|]. rewrite E. apply (Hwits front). rewrite Eit. left. reflexivity.
    + (* not bin edges *)
      intros (oo & Hj & Eo). unfold finish in Eo. destruct oo as [oo| |]; cbn [bind] in Eo; try discriminate. injection Eo as ->.
      assert (Hff : forall x, In x fs -> x = false).
      { destruct fs as [|b fs'] eqn:Ef; [discriminate|]. rewrite <- Ef in *. destruct b; [|intros x Hx; apply (Hsame false); [rewrite Ef; reflexivity|exact Hx]].
        exfalso. assert (X : forallb (fun b => b) fs = true). { apply forallb_forall. intros x Hx. apply (Hsame true); [rewrite Ef; reflexivity|exact Hx]. } congruence. }
      assert (Hnoe : forall m it, In m maps -> holds m key it -> ~ edge_dim (sd_shape m) it dim).
      { intros m it Hmm Hh He. apply In_nth_error in Hmm as [i Hi]. destruct (F2_nth _ _ _ Hflags i m Hi) as (b & Hb & Hiff). apply (Hiff it Hh) in He. rewrite (Hff b (nth_error_In _ _ Hb)) in He. discriminate. }
      apply (cat_entry w w' dim maps its (map arr_of its) key u oo); [assumption..| | | |exact Hwits|exact Hj].
      * clear - Hitin Hio. assert (Hx : forall it, In it its -> wfv (i_var it)) by (intros it Hit; destruct (Hitin it Hit) as (m & Hmm & Hh); apply (Hio m it Hmm Hh)).
        clear Hitin. induction its as [|it its IH]; cbn [map]; constructor; [split; [reflexivity|]; split; [apply Hx; left; reflexivity|]; split; reflexivity|apply IH; intros x Hi; apply Hx; right; exact Hi].
      * apply F2_map_r. apply (F2_imp (fun m it => holds m key it)); [|exact Hits]. intros m it Hmm Hh. cbn beta. symmetry. apply (part_len dim m key it (Hm m Hmm) Hh (Hnoe m it Hmm Hh)).
        apply (Hdep a front Hhd Hfront Kf m it Hmm Hh).
      * apply concat_rank; [rewrite Eit; discriminate|]. intros x Hx. apply in_map_iff in Hx as (it & <- & Hit). destruct (Hitin it Hit) as (m & Hmm & Hh). apply (Hw m it Hmm Hh).
  - destruct (existsb (fun it => dcontains (i_dims it) dim || negb (equals_nan eqb_nan w (arr_of it) (arr_of front))) its) eqn:Eex.
    + (* broadcast *)
      destruct (broadcast_along_dim maps key dim) as [l| |] eqn:Ebr; try (intros [X _]; discriminate).
      intros (oo & Hj & Eo). unfold finish in Eo. destruct oo as [oo| |]; cbn [bind] in Eo; try discriminate. injection Eo as ->.
      apply collect_Ok in Ebr.
      assert (Hbr : Forall2 (fun m x => forall it, holds m key it -> ~ edge_dim (sd_shape m) it dim /\ a_buf x = Z.to_nat (i_obj it) /\ wfv (a_var x) /\ (forall ix, valid_at (ashape x) ix -> vaddr (a_var x) ix = vaddr (i_var it) ix) /\
                 len dim m = part dim x /\ (length (ashape x) <= S (length (ishape it)))%nat /\ In dim (keys (ashape x)) /\ forall k n, k <> dim -> (In (k, n) (ashape x) <-> In (k, n) (ishape it))) maps l).
      { eapply F2_imp; [|exact Ebr]. cbn beta. intros m x Hmm E it Hh. rewrite (proj2 (sd_at_holds m key it (Hm m Hmm)) Hh) in E. cbn [bind] in E.
        destruct (sizes_mk m (Hm m Hmm)) as [Es Hl]. destruct (Hio m it Hmm Hh) as [Hit Hf]. destruct (item_mk it Hit) as [Eq Hq].
        assert (En : (if dcontains (sd_sizes m) dim then dat (sd_sizes m) dim else Ok 1) = Ok (len dim m)).
        { unfold len. rewrite Es, dcontains_mk. destruct (extent (sd_shape m) dim) as [n|] eqn:Ex.
          - pose proof (proj1 (extent_In _ _ _ (proj1 Hl)) Ex) as Hn. rewrite (proj2 (mem_In dim _)) by (apply In_keys; eauto). rewrite dat_mk by apply Hl. rewrite Ex. reflexivity.
          - apply extent_None in Ex. apply mem_nIn in Ex. rewrite Ex. reflexivity. }
        rewrite En in E. cbn [bind] in E. destruct (dims_merge (mkmap [dim] [len dim m]) (i_dims it)) as [t| |] eqn:Et; cbn [bind] in E; try discriminate.
        destruct (var_broadcast (i_var it) t) as [v| |] eqn:Ev; cbn [bind] in E; try discriminate. injection E as <-.
        assert (W1 : wf (mkmap [dim] [len dim m])). { apply (mk_wf [(dim, len dim m)]). apply (lwf_app_inv [] dim (len dim m) []); [split; [constructor|]; split; [constructor|intros []]|apply len_nonneg, Hm, Hmm|intros []|intros []|exact Hd]. }
        assert (W2 : wf (i_dims it)) by apply (proj1 Hit).
        pose proof (merge_Ok_noconf _ _ _ W1 W2 Et) as Hnc. destruct (merge_ok _ _ W1 W2 Hnc) as (t' & Et' & Wt & Hhas & _). rewrite Et in Et'. injection Et' as <-.
        destruct (broadcast_effect (i_var it) t v (proj1 Hit) Wt Ev) as (Wv & Ep & Hva).
        assert (Hdn : forall n, In (dim, n) (ishape it) -> n = len dim m).
        { intros n Hn. destruct (Z.eq_dec n (len dim m)) as [X|X]; [exact X|]. exfalso. apply Hnc. exists dim, (len dim m), n. split; [left; reflexivity|]. split; [exact Hn|congruence]. }
        split; [|split; [reflexivity|]; split; [exact Wv|]; split; [intros ix Hix; apply Hva; rewrite <- Ep; exact Hix|]].
        - intros He. destruct (part_edge dim m it (Hm m Hmm) Hit He) as [Epe Kd]. apply In_keys in Kd as [n Hn]. unfold part in Epe. change (ashape (arr_of it)) with (ishape it) in Epe.
          rewrite (proj2 (extent_In _ _ _ (proj1 Hq)) Hn) in Epe. rewrite (Hdn n Hn) in Epe. lia.
        - assert (Hdt : In (dim, len dim m) (pairs t)) by (apply Hhas; left; left; reflexivity). pose proof (proj2 (wf_mk_pairs _ Wt)) as Lt.
          unfold part, ashape, a_dims. cbn [a_var]. rewrite Ep. split; [rewrite (proj2 (extent_In _ _ _ (proj1 Lt)) Hdt); reflexivity|]. split; [|split; [apply In_keys; eauto|]].
          2:{ intros k n Hkd. split; [intros Hk; apply Hhas in Hk as [[[= E _]|[]]|Hk]; [congruence|exact Hk]|intros Hk; apply Hhas; right; exact Hk]. }
          change (S (length (ishape it))) with (length ((dim, len dim m) :: ishape it)). apply NoDup_incl_length.
          + pose proof (proj1 Lt) as Hnd. unfold keys in Hnd. apply NoDup_map_inv in Hnd. exact Hnd.
          + intros [k n] Hk. apply Hhas in Hk as [[Hk|[]]|Hk]; [left; exact Hk|right; exact Hk]. }
      assert (Hx : forall x, In x l -> In dim (keys (ashape x)) /\ (length (ashape x) <= NDIM_OP_MAX)%nat).
      { intros x Hx. destruct (F2_In_r _ _ _ Hbr x Hx) as (m & Hmm & Hb). apply In_nth_error in Hmm as [i Hi]. destruct (F2_nth _ _ _ Hits i m Hi) as (it & Hit & Hh).
        destruct (Hb it Hh) as (_ & _ & _ & _ & _ & Hln & Kd & _). split; [exact Kd|]. destruct (Hw m it (nth_error_In _ _ Hi) Hh) as [_ Hr]. lia. }
      apply (cat_entry w w' dim maps its l key u oo); [assumption..| | | | |exact Hwits|exact Hj].
      * intros m it Hmm Hh. apply In_nth_error in Hmm as [i Hi]. destruct (F2_nth _ _ _ Hbr i m Hi) as (x & _ & Hb). apply (Hb it Hh).
      * clear - Hbr Hits. revert l Hbr. induction Hits as [|m it maps its Hh Hits IH]; intros l Hbr; inversion Hbr as [|m' x maps' l' Hb Hbr']; subst; constructor; [destruct (Hb it Hh) as (_ & ? & ? & ? & _ & _ & _ & ?); auto|apply IH; exact Hbr'].
      * clear - Hbr Hits. revert l Hbr. induction Hits as [|m it maps its Hh Hits IH]; intros l Hbr; inversion Hbr as [|m' x maps' l' Hb Hbr']; subst; constructor; [destruct (Hb it Hh) as (_ & _ & _ & _ & ? & _); auto|apply IH; exact Hbr'].
      * assert (Hl : l <> []) by (intros ->; inversion Hbr; congruence). unfold concat_shape. rewrite map_length. destruct (concat_base dim l) as [p|] eqn:Ecb.
        -- apply concat_base_In in Ecb as (x & Hxl & -> & _). apply (Hx x Hxl).
        -- destruct l as [|x l']; [contradiction|]. exfalso. apply (concat_base_None dim _ Ecb x (or_introl eq_refl)). apply Hx. left. reflexivity.
    + (* kept *)
      assert (Hkeep : forall m it, In m maps -> holds m key it -> ~ In dim (keys (ishape it)) /\ ishape it = ishape front /\
                forall ix, valid_at (ishape front) ix -> value_at (w_heap w) (arr_of front) ix = value_at (w_heap w) (arr_of it) ix \/ eqb_nan (value_at (w_heap w) (arr_of it) ix) (value_at (w_heap w) (arr_of front) ix) = true).
      { intros m it Hmm Hh. assert (Hit : In it its). { apply In_nth_error in Hmm as [i Hi]. destruct (F2_nth _ _ _ Hits i m Hi) as (it' & Hi' & Hh'). rewrite (holds_unique m key it it' (Hm m (nth_error_In _ _ Hi)) Hh Hh'). apply (nth_error_In _ _ Hi'). }
        assert (Eb : dcontains (i_dims it) dim || negb (equals_nan eqb_nan w (arr_of it) (arr_of front)) = false).
        { destruct (dcontains (i_dims it) dim || negb (equals_nan eqb_nan w (arr_of it) (arr_of front))) eqn:Eb; [|reflexivity]. exfalso.
          assert (X : existsb (fun it => dcontains (i_dims it) dim || negb (equals_nan eqb_nan w (arr_of it) (arr_of front))) its = true) by (apply existsb_exists; eauto). congruence. }
        apply orb_false_iff in Eb as [E1 E2]. apply negb_false_iff in E2. destruct (Hio m it Hmm Hh) as [Hitk _]. destruct (Hio a front Ha Hfront) as [Hfk _].
        destruct (item_mk it Hitk) as [Eq _]. rewrite Eq, dcontains_mk in E1. split; [apply mem_nIn, E1|].
        unfold equals_nan in E2. apply orb_true_iff in E2 as [E2|E2].
        - unfold same_view in E2. rewrite !andb_true_iff in E2. destruct E2 as (((F1 & F2) & F3) & F4). cbn [arr_of a_buf a_var] in F2, F3, F4. unfold a_dims in F1. cbn [arr_of a_var] in F1. apply Nat.eqb_eq in F4. apply Z.eqb_eq in F3. apply leqb_eq in F2.
          unfold dims_eqb in F1. apply andb_true_iff in F1 as [F1 F1']. apply leqb_eq in F1, F1'.
          assert (Ed : i_dims it = i_dims front) by (unfold i_dims; destruct (v_dims (i_var it)) as [k1 v1], (v_dims (i_var front)) as [k2 v2]; unfold labels, shape in *; cbn [m_keys m_values] in *; congruence).
          split; [unfold ishape; rewrite Ed; reflexivity|]. intros ix _. left. unfold value_at, arr_of. cbn [a_buf a_var]. rewrite F4. unfold vaddr. unfold i_dims in Ed. rewrite Ed, F2, F3. reflexivity.
        - apply (compare_iff eqb_nan w (arr_of it) (arr_of front) (proj1 Hitk) (proj1 Hfk)) in E2 as (_ & Es & Hv). split; [exact Es|]. intros ix Hix. right. apply Hv. change (ashape (arr_of it)) with (ishape it). change (ashape (arr_of it)) with (ishape it) in Es. rewrite Es. exact Hix. }
      destruct (Hio a front Ha Hfront) as [Hfk _]. destruct (Hwits front) as (Wf1 & Wf2 & Wf3); [rewrite Eit; left; reflexivity|].
      destruct (Hkeep a front Ha Hfront) as [Nd _].
      assert (Hfin : forall o w', keeps w w' -> ishape o = ishape front -> (forall ix, valid_at (ishape front) ix -> value_at (w_heap w') (arr_of o) ix = value_at (w_heap w) (arr_of front) ix) ->
                entry_spec eqb eqb_nan (w_heap w) (w_heap w') dim maps key o).
      { intros o0 w0 K Es Hv. split; [|split].
        - split; [|split].
          + intros m it Hmm Hh He. exfalso. destruct (Hkeep m it Hmm Hh) as [X _]. apply X. destruct He as (n & Hn & _). apply In_keys. eauto.
          + intros m it Hmm Hh _ Hk. exfalso. apply Nd. rewrite <- Es. exact Hk.
          + intros k n _. rewrite Es. split; [intros Hk; exists a, front; auto|]. intros (m & it & Hmm & Hh & Hk). destruct (Hkeep m it Hmm Hh) as (_ & E & _). rewrite <- E. exact Hk.
        - intros i m it Hi Hh He. exfalso. destruct (Hkeep m it (nth_error_In _ _ Hi) Hh) as [X _]. apply X. destruct He as (n & Hn & _). apply In_keys. eauto.
        - intros i m it Hi Hh _ ix Hix. destruct (Hkeep m it (nth_error_In _ _ Hi) Hh) as (X & E1 & E2). rewrite Es. split; [intros Y; contradiction|]. intros _. split; [exact E1|].
          unfold inside in Hix. fold (ishape o0) in Hix. rewrite Es in Hix. rewrite (Hv ix Hix). apply (E2 ix Hix). }
      destruct is_mask.
      * intros [[= ->] ->]. assert (Kc : keeps w (snd (copy_new w (arr_of front)))).
        { unfold copy_new. split; [cbn [snd w_next]; lia|]. split.
          - intros c Hc. cbn [snd w_heap]. destruct (Nat.eqb_spec (fst c) (w_next w)); [lia|reflexivity].
          - intros b Hb. cbn [snd w_unit]. destruct (Nat.eqb_spec b (w_next w)); [lia|reflexivity]. }
        split; [apply Hfin; [exact Kc|reflexivity|]|].
        -- intros ix Hix. unfold copy_new, value_at, arr_of. cbn [snd w_heap fst a_buf a_var i_obj i_var]. rewrite Nat2Z.id, Nat.eqb_refl. unfold copied.
           destruct (item_mk front Hfk) as [Eq Hq].
           assert (Ev : vaddr (var_fresh (i_dims front)) ix = position (extents (ishape front)) (map ix (keys (ishape front)))).
           { rewrite Eq, (fresh_SV _ (proj1 Hq)), vaddr_SV, Z.add_0_l. apply asum_sfc; assumption. }
           rewrite Ev. do 2 f_equal. apply (vaddr_agree (i_var front) _ ix (proj1 Hfk)). fold (i_dims front). rewrite Eq at 2. apply (index_of_position (ishape front) ix Hq Hix).
        -- split; [exact Kc|]. split; [split; [cbn [i_var]; apply fresh_wfv, (proj1 Hfk)|reflexivity || apply (proj2 Hfk)]|]. unfold in_world. cbn [i_obj]. rewrite Nat2Z.id. unfold copy_new. cbn [snd w_next w_unit]. rewrite Nat.eqb_refl. cbn [arr_of a_buf]. split; [lia|]. split; [lia|exact Wf3].
      * intros [[= ->] ->]. assert (K : keeps w w) by (split; [lia|]; split; reflexivity). split; [apply Hfin; [exact K|reflexivity|reflexivity]|]. split; [exact K|]. split; [exact Hfk|]. split; [assumption|]. split; assumption.
Qed.

(** ** All keys *)
Lemma entry_spec_keeps w w1 w2 w' dim maps key u u' o : keeps w w1 -> keeps w2 w' -> items_in w maps key u -> in_world w2 u' o ->
  entry_spec eqb eqb_nan (w_heap w1) (w_heap w2) dim maps key o -> entry_spec eqb eqb_nan (w_heap w) (w_heap w') dim maps key o.
Proof.
  intros K1 K2 Hi (_ & Ho & _) (S0 & S1 & S2).
  assert (Ev : forall m it ix, In m maps -> holds m key it -> value_at (w_heap w1) (arr_of it) ix = value_at (w_heap w) (arr_of it) ix).
  { intros m it ix Hm Hh. apply value_keeps; [exact K1|]. apply (Hi m it Hm Hh). }
  assert (Eo : forall ix, value_at (w_heap w') (arr_of o) ix = value_at (w_heap w2) (arr_of o) ix) by (intros ix; apply value_keeps; [exact K2|exact Ho]).
  split; [exact S0|]. split.
  - intros i m it Hn Hh He ix j Hix Ej Hr. rewrite Eo, <- !(Ev m it _ (nth_error_In _ _ Hn) Hh). exact (S1 i m it Hn Hh He ix j Hix Ej Hr).
  - intros i m it Hn Hh He ix Hix. rewrite Eo, <- !(Ev m it _ (nth_error_In _ _ Hn) Hh). exact (S2 i m it Hn Hh He ix Hix).
Qed.

Lemma entries_ok is_mask maps a dim us ks : dim <> InvalidDim -> hd_error maps = Some a -> (forall m, In m maps -> sd_ok m) ->
  forall w l w', (forall key, In key ks -> items_in w maps key (us key) /\ all_depend dim maps key) ->
  concat_entries default eqb eqb_nan blocks is_mask a maps dim ks w (Ok l) w' ->
  keeps w w' /\ map fst l = ks /\
  forall key o, In (key, o) l -> entry_spec eqb eqb_nan (w_heap w) (w_heap w') dim maps key o /\ item_ok o /\ in_world w' (us key) o.
Proof.
  intros Hd Hhd Hm. induction ks as [|k ks IH]; intros w l w' Hk Hc; cbn [concat_entries] in Hc.
  - destruct Hc as [[= ->] ->]. split; [apply keeps_refl|]. split; [reflexivity|]. intros key o [].
  - destruct Hc as (x & w1 & He & Hr). destruct x as [it|e|]; [|destruct Hr; discriminate..]. destruct Hr as (y & Hr & Ey). destruct y as [l'| |]; cbn [bind] in Ey; try discriminate. injection Ey as ->.
    destruct (Hk k (or_introl eq_refl)) as [Hi Hdep]. destruct (entry_ok is_mask maps a dim k w (us k) it w1 Hd Hhd Hm Hi Hdep He) as [Hs (K1 & Hio & Hin)].
    assert (Hk' : forall key, In key ks -> items_in w1 maps key (us key) /\ all_depend dim maps key).
    { intros key Hkey. destruct (Hk key (or_intror Hkey)) as [X Y]. split; [exact (items_in_keeps _ _ _ _ _ K1 X)|exact Y]. }
    destruct (IH w1 l' w' Hk' Hr) as (K2 & Ef & Hall). split; [exact (keeps_trans _ _ _ K1 K2)|]. split; [cbn [map fst]; rewrite Ef; reflexivity|].
    intros key o [[= <- <-]|Ho].
    + split; [exact (entry_spec_keeps w w w1 w' dim maps k (us k) (us k) it (keeps_refl w) K2 Hi Hin Hs)|]. split; [exact Hio|exact (in_world_keeps _ _ _ _ K2 Hin)].
    + destruct (Hall key o Ho) as (Hso & Hoo & Hoi). split; [|split; assumption].
      assert (Hkey : In key ks) by (rewrite <- Ef; apply in_map_iff; exists (key, o); split; [reflexivity|exact Ho]).
      exact (entry_spec_keeps w w1 w' w' dim maps key (us key) (us key) o K1 (keeps_refl w') (proj1 (Hk key (or_intror Hkey))) Hoi Hso).
Qed.
End Entry.

(** ** Building the result *)
Lemma set_all_inv sz l : forall acc r, wf sz -> NoDup (map fst (acc ++ l)) -> (forall k it, In (k, it) (acc ++ l) -> item_ok it) ->
  (forall k it, In (k, it) acc -> SizedDict_Spec.fits (pairs sz) (ishape it)) ->
  sd_set_all (mksd sz (mkd acc) false) l = Ok r -> r = mksd sz (mkd (acc ++ l)) false /\ sd_ok r.
Proof.
  induction l as [|[k it] l IH]; intros acc r Hsz Hnd Hio Hf Hs; cbn [sd_set_all] in Hs.
  - injection Hs as <-. rewrite app_nil_r in *. split; [reflexivity|]. apply sd_ok_alt. cbn [sd_sizes sd_items]. split; [exact Hsz|]. unfold sd_list, sd_shape. cbn [sd_items sd_sizes]. rewrite ditems_mkd. split; [reflexivity|]. split; [exact Hnd|].
    intros k it Hi. split; [exact (Hio k it Hi)|exact (Hf k it Hi)].
  - assert (Hki : item_ok it) by (apply (Hio k it), in_or_app; right; left; reflexivity).
    assert (Hk : ~ In k (map fst acc)).
    { intros X. rewrite map_app in Hnd. cbn [map fst] in Hnd. apply NoDup_remove_2 in Hnd. apply Hnd, in_or_app. left. exact X. }
    unfold sd_set in Hs. unfold sd_contains in Hs. cbn [sd_items sd_sizes sd_readonly] in Hs.
    assert (Ec : mcontains Z.eqb (mkd acc) k = false) by (destruct (mcontains Z.eqb (mkd acc) k) eqn:E; [apply contains_In in E; contradiction|reflexivity]). rewrite Ec in Hs. cbn [bind] in Hs.
    rewrite (proj2 Hki) in Hs. pose proof (set_check (mksd sz (mkd acc) false) it Hsz (proj1 Hki)) as Hck. cbn [sd_sizes] in Hck. unfold sd_shape in Hck. cbn [sd_sizes] in Hck.
    destruct (relax sz (i_dims it) (labels (i_dims it))) as [dims| |]; cbn [bind] in Hs, Hck; try discriminate.
    destruct (includes sz dims) as [[|]| |]; cbn [bind] in Hs; try discriminate. rewrite insert_new in Hs by exact Hk. cbn [bind] in Hs.
    assert (Ea : acc ++ (k, it) :: l = (acc ++ [(k, it)]) ++ l) by (rewrite <- app_assoc; reflexivity). rewrite Ea in *.
    assert (Hfit : SizedDict_Spec.fits (pairs sz) (ishape it)).
    { destruct Hck as [[_ X]|[[X|X] _]]; [exact X|discriminate..]. }
    apply IH; [exact Hsz|exact Hnd|exact Hio| |exact Hs]. intros k0 it0 Hi. apply in_app_or in Hi as [Hi|[[= <- <-]|[]]]; [exact (Hf k0 it0 Hi)|exact Hfit].
Qed.
