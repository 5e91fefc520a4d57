(** Proofs about fold and flatten. *)
From Verif Require Import Base Map_Model Dims_Model Dims_Spec Dims_Proofs View_Model View_Spec View_Proofs SizedDict_Proofs Reshape_Model Reshape_Spec.

Lemma val_same {A} (x : varr A) ix ix' : wfv (va x) -> same_at (vshape x) ix ix' -> val x ix = val x ix'.
Proof.
  intros Hw Hs. destruct (wfv_SV _ Hw) as (sf & Hp & Hn & E). unfold val. rewrite E, !vaddr_SV. do 2 f_equal. apply asum_same. exact Hs.
Qed.

Lemma apply_ok {A} (x : varr A) o : wfv (va x) -> op_ok o ->
  match view_dims (vshape x) o with
  | Some p' => exists y, apply_op x o = Ok y /\ vshape y = p' /\ wfv (va y) /\
      forall ix, valid_at p' ix -> valid_at (vshape x) (pull (vshape x) o ix) /\ val y ix = val x (pull (vshape x) o ix)
  | None => exists e, apply_op x o = Throw e
  end.
Proof.
  intros Hw Ho. destruct x as [buf v]. destruct (wfv_SV v Hw) as (sf & Hp & Hn & Ev). unfold vshape, vdims, apply_op, val. cbn [va va_buf] in *.
  revert Hp Hn Ev. generalize (pairs (v_dims v)) as p, (v_offset v) as off, (v_readonly v) as ro, (v_size v) as sz. intros p off ro sz Hp Hn ->. cbn [va_buf] in *. clear Hw.
  pose proof (view_step_ok p o Hp Ho sf off ro sz Hn) as Hst. destruct (view_dims p o) as [p'|].
  2:{ destruct Hst as [e ->]. eexists; reflexivity. }
  destruct Hst as (Hw1 & Hv1 & _ & c & sf1 & off1 & ro1 & sz1 & -> & Hn1 & Hc). cbn [bind fst snd]. eexists. split; [reflexivity|]. cbn [va va_buf].
  split; [apply pairs_mk|]. split; [apply SV_wfv; assumption|]. intros ix Hix. split; [apply Hv1, Hix|]. destruct c.
  - destruct Hc as (-> & -> & _ & Hc). rewrite vaddr_SV, Hc by assumption. unfold copied. f_equal. rewrite !vaddr_SV. f_equal. apply asum_same, index_of_position; auto.
  - destruct Hc as (-> & -> & Hc). rewrite !vaddr_SV, Hc by assumption. reflexivity.
Qed.
Lemma apply_const {A} (x : varr A) : exists y, apply_op x VwConst = Ok y /\ va y = var_as_const (va x) /\ va_buf y = va_buf x.
Proof. eexists. split; [reflexivity|]. split; reflexivity. Qed.

Lemma split_block a b c : NoDup (keys (a ++ b ++ c)) -> b <> [] -> split_at_block (a ++ b ++ c) (keys b) = Some (a, b, c).
Proof.
  intros Hnd Hb. assert (Hl : length (keys b) = length b) by apply map_length. induction a as [|e a IH].
  - cbn [app]. destruct (b ++ c) as [|x r] eqn:E; [destruct b; [congruence|discriminate]|]. cbn [split_at_block]. rewrite <- E, Hl, firstn_app, Nat.sub_diag, firstn_all, firstn_O, app_nil_r.
    rewrite (proj2 (leqb_eq _ _) eq_refl), skipn_app, skipn_all, Nat.sub_diag, skipn_O. reflexivity.
  - cbn [app split_at_block]. rewrite IH by (inversion Hnd; assumption). destruct (list_eqb _ _) eqn:E; [|reflexivity]. exfalso. apply leqb_eq in E. destruct b as [|x b]; [congruence|].
    cbn [keys map length firstn] in E. rewrite map_length in E. injection E as E _. cbn [app keys map] in Hnd. apply NoDup_cons_iff in Hnd as [Hx _]. apply Hx. rewrite E. rewrite map_app. apply in_or_app. right. left. reflexivity.
Qed.

(** ** Fold and flatten of one variable *)
Lemma fold_shape p1 n p2 d t : lwf (p1 ++ (d, n) :: p2) -> fold_dims (p1 ++ (d, n) :: p2) d t =
  if no_dup (keys (p1 ++ t ++ p2)) && (vol (extents (p1 ++ (d, n) :: p2)) =? vol (extents (p1 ++ t ++ p2))) then Some (p1 ++ t ++ p2) else None.
Proof.
  intros Hp. destruct (lwf_app _ _ _ _ Hp) as (_ & _ & Hk1 & Hk2 & _). unfold fold_dims.
  replace (mem d (keys (p1 ++ (d, n) :: p2))) with true by (symmetry; apply mem_In; rewrite keys_app; apply in_or_app; right; left; reflexivity). cbn [andb].
  assert (Hid : forall q, ~ In d (keys q) -> flat_map (fun e : Z * Z => if fst e =? d then t else [e]) q = q).
  { induction q as [|[k m] q IH]; intros Hq; [reflexivity|]. cbn [flat_map fst keys map] in *. replace (k =? d) with false by (symmetry; apply Z.eqb_neq; intros ->; apply Hq; left; reflexivity).
    cbn [app]. f_equal. apply IH. intros Hx. apply Hq. right. exact Hx. }
  rewrite flat_map_app. cbn [flat_map fst]. rewrite Z.eqb_refl, !Hid by assumption. reflexivity.
Qed.
Lemma puts_notin ls : forall ix xs k, ~ In k ls -> puts ix ls xs k = ix k.
Proof.
  induction ls as [|l ls IH]; intros ix xs k Hk; [reflexivity|]. destruct xs as [|x xs]; [reflexivity|]. cbn [puts]. rewrite put_other by (intros ->; apply Hk; left; reflexivity).
  apply IH. intros Hx. apply Hk. right. exact Hx.
Qed.
Lemma ext_map p : NoDup (keys p) -> map (ext p) (keys p) = extents p.
Proof.
  intros Hn. unfold keys, extents. rewrite map_map. apply map_ext_in. intros [k n] Hk. unfold ext. cbn [fst snd]. rewrite (proj2 (extent_In p k n Hn) Hk). reflexivity.
Qed.
Lemma ext_mid a b c : NoDup (keys (a ++ b ++ c)) -> map (ext (a ++ b ++ c)) (keys b) = extents b.
Proof.
  intros Hn. unfold keys at 1, extents. rewrite map_map. apply map_ext_in. intros [k n] Hk. unfold ext. cbn [fst snd]. rewrite (proj2 (extent_In _ k n Hn)); [reflexivity|].
  apply in_or_app. right. apply in_or_app. left. exact Hk.
Qed.
Lemma lwf_parts a b c : lwf (a ++ b ++ c) -> lwf b /\ NoDup (keys b) /\ (forall k, In k (keys b) -> ~ In k (keys a) /\ ~ In k (keys c)).
Proof.
  intros (Hn & Hf & Hi). assert (Hb : NoDup (keys b) /\ forall k, In k (keys b) -> ~ In k (keys a) /\ ~ In k (keys c)).
  { rewrite !keys_app in Hn. clear Hf Hi. induction a as [|e a IH]; cbn [app keys map] in *.
    - split.
      + clear -Hn. induction (keys b) as [|x l IH]; [constructor|]. cbn in Hn. inversion Hn as [|? ? Hx Hl]. subst. constructor; [intros Hy; apply Hx, in_or_app; left; exact Hy|apply IH, Hl].
      + intros k Hk. split; [intros []|]. clear -Hn Hk. induction (keys b) as [|x l IH]; [destruct Hk|]. cbn in Hn. inversion Hn as [|? ? Hx Hl]. subst. destruct Hk as [<-|Hk]; [intros Hy; apply Hx, in_or_app; right; exact Hy|apply IH; assumption].
    - inversion Hn as [|? ? Hx Hl]. subst. destruct (IH Hl) as [I1 I2]. split; [exact I1|]. intros k Hk. destruct (I2 k Hk) as [J1 J2]. split; [|exact J2].
      intros [E|E]; [|contradiction]. apply Hx. rewrite E. apply in_or_app. right. apply in_or_app. left. exact Hk. }
  destruct Hb as [B1 B2]. split; [|auto]. split; [exact B1|]. split.
  - rewrite !extents_app in Hf. apply Forall_app in Hf as [_ Hf]. apply Forall_app in Hf. apply Hf.
  - intros Hx. apply Hi. rewrite !keys_app. apply in_or_app. right. apply in_or_app. left. exact Hx.
Qed.
Lemma valid_mid a b c ix : valid_at (a ++ b ++ c) ix <-> valid_at a ix /\ valid_at b ix /\ valid_at c ix.
Proof. rewrite !valid_at_app. tauto. Qed.

(** Fold: accepted, and the element at [ix] is the one at the row-major position of the new indices. *)
Lemma fold_ok {A} (x : varr A) p1 d n p2 t : wfv (va x) -> wf t -> vshape x = p1 ++ (d, n) :: p2 -> NoDup (keys (p1 ++ pairs t ++ p2)) -> vol (extents (pairs t)) = n ->
  exists y, apply_op x (VwFold d t) = Ok y /\ vshape y = p1 ++ pairs t ++ p2 /\ wfv (va y) /\
    forall ix, valid_at (p1 ++ pairs t ++ p2) ix -> val y ix = val x (put ix d (position (extents (pairs t)) (map ix (keys (pairs t))))).
Proof.
  intros Hw Ht Ep Hnd Hv. pose proof (apply_ok x (VwFold d t) Hw Ht) as Ha. cbn [view_dims pull] in Ha. rewrite Ep in Ha.
  assert (Hp : lwf (p1 ++ (d, n) :: p2)) by (rewrite <- Ep; apply (wf_mk_pairs _ (proj1 Hw))).
  rewrite fold_shape in Ha by exact Hp. rewrite (proj2 (no_dup_NoDup _) Hnd) in Ha. replace (_ =? _) with true in Ha.
  - cbn [andb] in Ha. destruct Ha as (y & E & Es & Hy & Hval). exists y. split; [exact E|]. split; [exact Es|]. split; [exact Hy|]. intros ix Hix. apply Hval, Hix.
  - symmetry. apply Z.eqb_eq. rewrite !extents_app, !vol_app. cbn [extents map snd vol]. fold (extents p2). rewrite Hv. reflexivity.
Qed.

(** Flatten of a block of dimensions. *)
Lemma flatten_ok {A} (x : varr A) a b c to : wfv (va x) -> to <> InvalidDim -> vshape x = a ++ b ++ c -> b <> [] -> ~ In to (keys a ++ keys c) ->
  exists y, apply_op x (VwFlatten (keys b) to) = Ok y /\ vshape y = a ++ (to, vol (extents b)) :: c /\ wfv (va y) /\
    forall ix, valid_at (a ++ (to, vol (extents b)) :: c) ix -> val y ix = val x (puts ix (keys b) (index_at (extents b) (ix to))).
Proof.
  intros Hw Hto Ep Hb Hn. pose proof (apply_ok x (VwFlatten (keys b) to) Hw Hto) as Ha. cbn [view_dims pull] in Ha. rewrite Ep in Ha.
  assert (Hp : lwf (a ++ b ++ c)) by (rewrite <- Ep; apply (wf_mk_pairs _ (proj1 Hw))). rewrite (ext_mid a b c (proj1 Hp)) in Ha.
  assert (Ef : flatten_pairs (a ++ b ++ c) (keys b) to = Some (a ++ (to, vol (extents b)) :: c)).
  { unfold flatten_pairs. rewrite (split_block a b c (proj1 Hp) Hb). rewrite (proj2 (mem_nIn _ _) Hn). destruct b as [|[k m] b]; [congruence|]. reflexivity. }
  rewrite Ef in Ha. destruct Ha as (y & E & Es & Hy & Hval). exists y. split; [exact E|]. split; [exact Es|]. split; [exact Hy|]. intros ix Hix. apply Hval, Hix.
Qed.

Lemma index_valid b k : lwf b -> 0 <= k < vol (extents b) -> valid_idx (extents b) (index_at (extents b) k) /\ position (extents b) (index_at (extents b) k) = k.
Proof. intros Hb Hk. apply position_index_at; [apply Hb|exact Hk]. Qed.
Lemma map_puts b ix xs : NoDup (keys b) -> length xs = length b -> map (puts ix (keys b) xs) (keys b) = xs.
Proof. intros Hn Hl. apply puts_map; [exact Hn|]. unfold keys. rewrite map_length. exact Hl. Qed.
Lemma puts_valid b ix xs : lwf b -> valid_idx (extents b) xs -> valid_at b (puts ix (keys b) xs).
Proof.
  intros Hb Hv. apply valid_at_idx. rewrite map_puts; [exact Hv|apply Hb|]. clear -Hv. unfold extents in Hv. remember (map snd b) as sh eqn:E. revert b E. induction Hv as [|n i sh is_ Hi Hv IH]; intros b E.
  - destruct b; [reflexivity|discriminate].
  - destruct b as [|e b]; [discriminate|]. cbn in E. injection E as _ E. cbn. f_equal. apply IH, E.
Qed.

(** Folding and flattening back. *)
Lemma fold_flatten {A} (x y : varr A) p1 d n p2 t : wfv (va x) -> wf t -> vshape x = p1 ++ (d, n) :: p2 -> pairs t <> [] -> vol (extents (pairs t)) = n ->
  apply_op x (VwFold d t) = Ok y -> exists z, apply_op y (VwFlatten (keys (pairs t)) d) = Ok z /\ wfv (va z) /\ same_elements z x.
Proof.
  intros Hw Ht Ep Hne Hv Ey. assert (Hp : lwf (p1 ++ (d, n) :: p2)) by (rewrite <- Ep; apply (wf_mk_pairs _ (proj1 Hw))).
  destruct (lwf_app _ _ _ _ Hp) as (_ & Hn0 & Hk1 & Hk2 & Hd).
  assert (Hnd : NoDup (keys (p1 ++ pairs t ++ p2))).
  { pose proof (apply_ok x (VwFold d t) Hw Ht) as Ha. cbn [view_dims] in Ha. rewrite Ep, fold_shape in Ha by exact Hp. destruct (no_dup (keys (p1 ++ pairs t ++ p2))) eqn:E; [apply no_dup_NoDup, E|].
    cbn [andb] in Ha. destruct Ha as [e Ha]. congruence. }
  destruct (fold_ok x p1 d n p2 t Hw Ht Ep Hnd Hv) as (y' & E & Es & Hy & Hval). rewrite Ey in E. injection E as <-.
  assert (Hb : ~ In d (keys p1 ++ keys p2)) by (intros Hx; apply in_app_or in Hx as [Hx|Hx]; contradiction).
  destruct (flatten_ok y p1 (pairs t) p2 d Hy Hd Es Hne Hb) as (z & Ez & Esz & Hz & Hval2). exists z. split; [exact Ez|]. split; [exact Hz|].
  split; [rewrite Esz, Ep, Hv; reflexivity|]. rewrite Esz, Hv. intros ix Hix. rewrite Hval2 by (rewrite Hv; exact Hix).
  assert (Hpr : lwf (p1 ++ pairs t ++ p2)) by (rewrite <- Es; apply (wf_mk_pairs _ (proj1 Hy))). destruct (lwf_parts _ _ _ Hpr) as (Hlt & Hnt & Hdis).
  assert (Hr : 0 <= ix d < n) by (apply Hix, in_or_app; right; left; reflexivity).
  destruct (index_valid (pairs t) (ix d) Hlt ltac:(lia)) as [V1 V2].
  rewrite Hval.
  - rewrite map_puts, V2 by (try assumption; rewrite index_at_length; unfold extents; apply map_length). apply val_same; [exact Hw|]. rewrite Ep. intros k Hk. unfold put. destruct (Z.eqb_spec k d) as [->|Hkd]; [reflexivity|].
    apply puts_notin. intros Hx. destruct (Hdis k Hx) as [D1 D2]. rewrite keys_app in Hk. apply in_app_or in Hk as [Hk|[Hk|Hk]]; [contradiction| |contradiction]. cbn [fst] in Hk. congruence.
  - apply valid_mid. apply valid_at_app in Hix as [I1 I2]. apply valid_at_cons in I2 as [_ I2]. split; [|split].
    + intros k m Hk. rewrite puts_notin; [apply (I1 k m Hk)|]. intros Hx. apply (proj1 (Hdis k Hx)). apply In_keys. eauto.
    + apply puts_valid; assumption.
    + intros k m Hk. rewrite puts_notin; [apply (I2 k m Hk)|]. intros Hx. apply (proj2 (Hdis k Hx)). apply In_keys. eauto.
Qed.

(** Flattening and folding back. *)
Lemma flatten_fold {A} (x y : varr A) a t c to : wfv (va x) -> wf t -> to <> InvalidDim -> vshape x = a ++ pairs t ++ c -> pairs t <> [] -> ~ In to (keys a ++ keys c) ->
  apply_op x (VwFlatten (keys (pairs t)) to) = Ok y -> exists z, apply_op y (VwFold to t) = Ok z /\ wfv (va z) /\ same_elements z x.
Proof.
  intros Hw Ht Hto Ep Hne Hk Ey. destruct (flatten_ok x a (pairs t) c to Hw Hto Ep Hne Hk) as (y' & E & Es & Hy & Hval). rewrite Ey in E. injection E as <-.
  assert (Hp : lwf (a ++ pairs t ++ c)) by (rewrite <- Ep; apply (wf_mk_pairs _ (proj1 Hw))). destruct (lwf_parts _ _ _ Hp) as (Hlt & Hnt & Hdis).
  destruct (fold_ok y a to (vol (extents (pairs t))) c t Hy Ht Es (proj1 Hp) eq_refl) as (z & Ez & Esz & Hz & Hval2). exists z. split; [exact Ez|]. split; [exact Hz|].
  split; [rewrite Esz; symmetry; exact Ep|]. rewrite Esz. intros ix Hix. rewrite Hval2 by exact Hix. apply valid_mid in Hix as (I1 & I2 & I3).
  pose proof (proj1 (valid_at_idx _ _) I2) as Vi. pose proof (position_bound _ _ Vi) as Vb.
  rewrite Hval.
  - apply val_same; [exact Hw|]. rewrite Ep. rewrite put_same, index_at_position by exact Vi. intros k Hkk. destruct (in_dec Z.eq_dec k (keys (pairs t))) as [Hin|Hni].
    + apply (map_eq_in _ _ (keys (pairs t))); [|exact Hin]. rewrite map_puts; [reflexivity|assumption|]. rewrite map_length. unfold keys. apply map_length.
    + rewrite puts_notin by exact Hni. apply put_other. intros ->. apply Hk. rewrite !keys_app in Hkk. apply in_app_or in Hkk as [Hkk|Hkk]; [apply in_or_app; left; exact Hkk|].
      apply in_app_or in Hkk as [Hkk|Hkk]; [contradiction|apply in_or_app; right; exact Hkk].
  - assert (Ha : ~ In to (keys a)) by (intros Hx; apply Hk, in_or_app; auto). assert (Hc : ~ In to (keys c)) by (intros Hx; apply Hk, in_or_app; auto).
    apply valid_at_app. split; [|apply valid_at_cons; split; [rewrite put_same; exact Vb|]]; intros k m Hkm; rewrite put_other; try (apply (I1 k m Hkm)); try (apply (I3 k m Hkm)); intros ->; [apply Ha|apply Hc]; apply In_keys; eauto.
Qed.

(** ** Bin edges: fold *)
Lemma fold_strides_mk p1 d n p2 q sf off ro sz : lwf (p1 ++ (d, n) :: p2) -> lwf q -> NoDup (keys (p1 ++ q ++ p2)) -> vol (extents q) = n ->
  var_fold (SV (p1 ++ (d, n) :: p2) sf off ro sz) d (mk q) = Ok (SV (p1 ++ q ++ p2) (fun k => if mem k (keys q) then sf d * sfc q k else sf k) off ro sz) /\
  lwf (p1 ++ q ++ p2).
Proof.
  intros Hp Hq Hnd Hv. destruct (lwf_app _ _ _ _ Hp) as (Hp12 & Hn0 & Hk1 & Hk2 & Hki).
  assert (Hwr : lwf (p1 ++ q ++ p2)).
  { destruct (lwf_app2 _ _ Hp12) as [Hw1 Hw2]. destruct Hw1 as (_ & F1 & I1), Hw2 as (_ & F2 & I2), Hq as (_ & F3 & I3). split; [exact Hnd|]. split.
    - rewrite !extents_app. repeat (apply Forall_app; split); assumption.
    - rewrite !keys_app. intros Hx. apply in_app_or in Hx as [Hx|Hx]; [contradiction|]. apply in_app_or in Hx as [Hx|Hx]; contradiction. }
  split; [|exact Hwr]. destruct (lwf_parts _ _ _ Hwr) as (_ & Hnq & Hdis).
  unfold var_fold, dims_fold. cbn [v_dims v_strides v_offset v_readonly v_size SV]. rewrite dcontains_mk.
  replace (mem d (keys (p1 ++ (d, n) :: p2))) with true by (symmetry; apply mem_In; rewrite keys_app; apply in_or_app; right; left; reflexivity).
  change (labels (mk (p1 ++ (d, n) :: p2))) with (keys (p1 ++ (d, n) :: p2)).
  pose proof (fold_loop_mk (p1 ++ (d, n) :: p2) d q Hp Hq (p1 ++ (d, n) :: p2) [] (incl_refl _)) as Hfl. cbn [app] in Hfl. cbn zeta in Hfl.
  change (@mempty Z Z) with (mk []). rewrite Hfl; [|split; [constructor|split; [constructor|intros []]]]. clear Hfl.
  rewrite flat_map_split by assumption. rewrite (proj2 (no_dup_NoDup _) Hnd). cbn [bind]. rewrite !volume_vol.
  change (shape (mk (p1 ++ (d, n) :: p2))) with (extents (p1 ++ (d, n) :: p2)). change (shape (mk (p1 ++ q ++ p2))) with (extents (p1 ++ q ++ p2)).
  replace (_ =? _) with true by (symmetry; apply Z.eqb_eq; rewrite !extents_app, !vol_app; cbn [extents map snd vol]; fold (extents p2); rewrite Hv; reflexivity). cbn [bind].
  rewrite keys_app. cbn [keys map fst]. fold (keys p1) (keys p2). rewrite map_app. rewrite fold_strides_app; [|rewrite map_length; reflexivity|assumption]. cbn [map fold_strides].
  rewrite fold_strides_none; [|rewrite map_length; reflexivity|assumption]. cbn [bind]. rewrite Z.eqb_refl. unfold SV. do 2 f_equal. rewrite !keys_app, !map_app. f_equal; [|f_equal].
  - apply map_ext_in. intros k Hk. destruct (mem k (keys q)) eqn:E; [|reflexivity]. apply mem_In in E. destruct (Hdis k E). contradiction.
  - unfold strides_of. change (shape (mk q)) with (extents q). rewrite <- sfc_map by apply Hq. rewrite map_map. apply map_ext_in. intros k Hk. apply mem_In in Hk. rewrite Hk. reflexivity.
  - apply map_ext_in. intros k Hk. destruct (mem k (keys q)) eqn:E; [|reflexivity]. apply mem_In in E. destruct (Hdis k E). contradiction.
Qed.

Lemma sfc_position q ix : NoDup (keys q) -> asum q (sfc q) ix = position (extents q) (map ix (keys q)).
Proof.
  intros Hn. unfold asum. rewrite <- dot_lsum, sfc_map by exact Hn. clear Hn. induction q as [|[k n] q IH]; [reflexivity|].
  cbn [keys extents map fst snd]. fold (keys q) (extents q). rewrite row_major_strides. cbn [dot position]. rewrite IH. lia.
Qed.
Lemma slice_begin p1 d n p2 sf off ro sz : lwf (p1 ++ (d, n + 1) :: p2) -> 0 <= n ->
  exists s, slice_range d 0 (n + 1 - 1) 1 = Ok s /\ slice_ok s /\ var_slice (SV (p1 ++ (d, n + 1) :: p2) sf off ro sz) s = Ok (SV (p1 ++ (d, n) :: p2) sf off ro sz).
Proof.
  intros Hp Hn. destruct (lwf_app _ _ _ _ Hp) as (_ & _ & Hk1 & Hk2 & _). replace (n + 1 - 1) with n by lia. exists (mkslice d 0 n 1).
  split; [unfold slice_range; cbn; replace (0 >? n) with false by lia; rewrite andb_false_r; reflexivity|]. assert (Hs : slice_ok (mkslice d 0 n 1)) by (right; cbn; lia). split; [exact Hs|].
  pose proof (var_slice_ok _ sf off ro sz _ Hp Hs) as Hv. unfold slice_dims in Hv.
  assert (Ed : slice_eqb (mkslice d 0 n 1) slice_default = false) by (unfold slice_eqb; cbn; replace (n =? -1) with false by lia; rewrite ?andb_false_r; reflexivity).
  rewrite Ed in Hv. cbn [s_dim s_begin s_end s_stride] in Hv.
  replace (extent (p1 ++ (d, n + 1) :: p2) d) with (Some (n + 1)) in Hv by (symmetry; apply extent_In; [apply Hp|apply in_or_app; right; left; reflexivity]).
  replace (n =? -1) with false in Hv by lia. replace (n <=? n + 1) with true in Hv by lia. rewrite map_split in Hv by assumption. cbn [fst] in Hv.
  unfold ceil_div in Hv. rewrite Z.div_1_r in Hv. replace (n - 0 + 1 - 1) with n in Hv by lia. rewrite Hv. f_equal. unfold SV, sl_sf, sl_off. rewrite Ed. cbn [s_dim s_begin s_end s_stride].
  replace (n =? -1) with false by lia. cbn [orb]. rewrite Z.mul_0_l, Z.add_0_r. f_equal. apply map_ext. intros k. unfold put. destruct (Z.eqb_spec k d) as [Ek|]; [rewrite Ek, Z.mul_1_r|]; reflexivity.
Qed.

Lemma position_last q m e ix : ~ In e (keys q) -> position (extents (q ++ [(e, m)])) (map ix (keys (q ++ [(e, m)]))) = m * position (extents q) (map ix (keys q)) + ix e.
Proof.
  intros _. induction q as [|[k n] q IH]; [cbn; lia|]. cbn [app keys extents map fst snd position]. fold (keys (q ++ [(e, m)])) (extents (q ++ [(e, m)])) (keys q) (extents q). rewrite IH.
  rewrite extents_app, vol_app. cbn [extents map snd vol]. lia.
Qed.

Lemma fold_edge_ok {A} (x : varr A) p1 d n p2 t q e m : wfv (va x) -> wf t -> vshape x = p1 ++ (d, n + 1) :: p2 -> pairs t = q ++ [(e, m)] ->
  NoDup (keys (p1 ++ pairs t ++ p2)) -> vol (extents (pairs t)) = n ->
  exists y, fold_bin_edge x d t = Ok y /\ vshape y = p1 ++ (q ++ [(e, m + 1)]) ++ p2 /\ wfv (va y) /\ v_readonly (va y) = true /\
    forall ix, let k := position (extents (pairs t)) (map ix (keys (pairs t))) in
      (valid_at (vshape y) ix -> 0 <= k <= n) /\ vaddr (va y) ix = vaddr (va x) (put ix d k) /\ val y ix = val x (put ix d k).
Proof.
  intros Hw Ht Ep Et Hnd Hv. destruct x as [buf v]. destruct (wfv_SV v Hw) as (sf & Hp & Hn & Ev). unfold vshape, vdims in *. cbn [va va_buf] in *. rewrite Ep in *.
  rewrite Ev in *. clear Ev. set (off := v_offset v) in *. set (ro := v_readonly v) in *. set (sz := v_size v) in *. clearbody off ro sz. clear v.
  destruct (wf_mk_pairs _ Ht) as [Emt Hlt]. assert (Hn0 : 0 <= n) by (rewrite <- Hv; apply vol_nonneg, Hlt).
  destruct (lwf_app _ _ _ _ Hp) as (Hp12 & _ & Hk1 & Hk2 & Hki).
  assert (Hp' : lwf (p1 ++ (d, n) :: p2)) by (apply lwf_app_inv; assumption).
  destruct (slice_begin p1 d n p2 sf off ro sz Hp Hn0) as (s & Es & Hs & Esl).
  destruct (fold_strides_mk p1 d n p2 (pairs t) sf off ro sz Hp' Hlt Hnd Hv) as [Ef Hwr].
  destruct (lwf_parts _ _ _ Hwr) as (_ & Hnt & Hdis).
  set (sf' := fun k => if mem k (keys (pairs t)) then sf d * sfc (pairs t) k else sf k) in *.
  assert (Hie : dims_inner t = e) by (rewrite Emt; unfold dims_inner; change (labels (mk (pairs t))) with (keys (pairs t)); rewrite Et, keys_app; apply last_last).
  assert (He : ~ In e (keys q) /\ 0 <= m /\ e <> InvalidDim).
  { rewrite Et in Hlt. destruct (lwf_app _ _ _ _ Hlt) as (_ & L1 & L2 & _ & L3). auto. }
  destruct He as (Heq & Hm & Hei).
  assert (Hsplit : forall m', p1 ++ (q ++ [(e, m')]) ++ p2 = (p1 ++ q) ++ (e, m') :: p2) by (intros m'; rewrite <- !app_assoc; reflexivity).
  assert (Hwr2 : lwf ((p1 ++ q) ++ (e, m) :: p2)) by (rewrite <- Hsplit, <- Et; exact Hwr).
  destruct (lwf_app _ _ _ _ Hwr2) as (Hr12 & _ & Hr1 & Hr2 & _).
  assert (Hwy : lwf ((p1 ++ q) ++ (e, m + 1) :: p2)) by (apply lwf_app_inv; try assumption; lia).
  exists (mkva buf (SV ((p1 ++ q) ++ (e, m + 1) :: p2) sf' off true sz)). cbn [va va_buf v_readonly SV v_dims]. rewrite pairs_mk, Hsplit.
  assert (Hkeys : forall a, keys ((p1 ++ q) ++ (e, a) :: p2) = keys ((p1 ++ q) ++ (e, m) :: p2)) by (intros a; rewrite !keys_app; reflexivity).
  assert (Hnn : nonneg_at ((p1 ++ q) ++ (e, m + 1) :: p2) sf').
  { intros k Hk. rewrite Hkeys, <- Hsplit, <- Et in Hk. unfold sf'. apply nonneg_app in Hn as [Hn1 Hn2]. apply nonneg_cons in Hn2 as [Hnk Hn2]. destruct (mem k (keys (pairs t))) eqn:E.
    - apply mem_In in E. apply Z.mul_nonneg_nonneg; [assumption|]. apply sfc_nonneg; assumption.
    - apply mem_nIn in E. rewrite !keys_app, !in_app_iff in Hk. destruct Hk as [Hk|[Hk|Hk]]; [apply Hn1|contradiction|apply Hn2]; assumption. }
  split; [|split; [reflexivity|split; [apply SV_wfv; assumption|split; [reflexivity|]]]].
  - unfold fold_bin_edge, vdims. cbn [va v_dims SV]. rewrite dat_sp by exact Hk1. cbn [bind]. rewrite Es. cbn [bind]. unfold apply_op at 1. cbn [va va_buf view_step]. rewrite Esl. cbn [bind fst snd].
    unfold apply_op at 1. cbn [va va_buf view_step]. rewrite Emt at 1. rewrite Ef. cbn [bind fst snd]. unfold apply_op at 1. cbn [va va_buf view_step bind fst snd].
    rewrite Hie. rewrite Emt at 1. rewrite Et at 1. rewrite dat_sp by exact Heq. cbn [bind va_buf va v_dims var_as_const SV v_strides v_offset v_readonly v_size].
    rewrite Et, Hsplit, resize_sp by (try assumption; lia). cbn [bind]. unfold SV. rewrite (Hkeys (m + 1)). reflexivity.
  - intros ix. set (k := position (extents (pairs t)) (map ix (keys (pairs t)))). cbn [va va_buf]. assert (Ev : vaddr (SV ((p1 ++ q) ++ (e, m + 1) :: p2) sf' off true sz) ix = vaddr (SV (p1 ++ (d, n + 1) :: p2) sf off ro sz) (put ix d k)).
    { rewrite !vaddr_SV. f_equal. replace (asum ((p1 ++ q) ++ (e, m + 1) :: p2) sf' ix) with (asum (p1 ++ pairs t ++ p2) sf' ix) by (unfold asum; rewrite Et, Hsplit, <- (Hkeys (m + 1)); reflexivity).
      rewrite !asum_app, asum_cons, !asum_put, put_same by assumption. rewrite (asum_sf p1 sf' sf), (asum_sf p2 sf' sf).
      - unfold k. rewrite <- (sfc_position (pairs t) ix Hnt).
        assert (Hb : asum (pairs t) sf' ix = sf d * asum (pairs t) (sfc (pairs t)) ix).
        { unfold asum. rewrite <- lsum_scale. apply lsum_ext. intros j Hj. unfold sf'. apply mem_In in Hj. rewrite Hj. lia. }
        rewrite Hb. lia.
      - intros j Hj. unfold sf'. destruct (mem j (keys (pairs t))) eqn:E; [|reflexivity]. apply mem_In in E. destruct (Hdis j E). contradiction.
      - intros j Hj. unfold sf'. destruct (mem j (keys (pairs t))) eqn:E; [|reflexivity]. apply mem_In in E. destruct (Hdis j E). contradiction. }
    split; [|split; [exact Ev|unfold val; cbn [va va_buf]; rewrite Ev; reflexivity]].
    intros Hix. rewrite <- Hsplit in Hix. apply valid_mid in Hix as (_ & Hix & _). apply valid_at_app in Hix as [I1 I2]. apply valid_at_cons in I2 as [I2 _].
    unfold k. rewrite Et, position_last by exact Heq. pose proof (position_bound _ _ (proj1 (valid_at_idx _ _) I1)) as Hb. rewrite <- Hv, Et, extents_app, vol_app. cbn [extents map snd vol]. nia.
Qed.

(** ** Bin edges: flatten *)
Lemma not_default k b e : 0 <= b -> slice_eqb (mkslice k b e 1) slice_default = false.
Proof. intros Hb. unfold slice_eqb. cbn. replace (b =? -1) with false by lia. rewrite ?andb_false_r; reflexivity. Qed.
Lemma take_range {A} (x : varr A) p1 k n p2 b e : wfv (va x) -> vshape x = p1 ++ (k, n) :: p2 -> 0 <= b -> b <= e -> e <= n ->
  exists y, (do s <- slice_range k b e 1; apply_op x (VwSlice s)) = Ok y /\ vshape y = p1 ++ (k, e - b) :: p2 /\ wfv (va y) /\
    forall ix, valid_at (vshape y) ix -> val y ix = val x (put ix k (b + ix k)).
Proof.
  intros Hw Ep Hb Hbe He. assert (Hp : lwf (p1 ++ (k, n) :: p2)) by (rewrite <- Ep; apply (wf_mk_pairs _ (proj1 Hw))). destruct (lwf_app _ _ _ _ Hp) as (_ & _ & Hk1 & Hk2 & _).
  assert (Es : slice_range k b e 1 = Ok (mkslice k b e 1)).
  { unfold slice_range. replace (b <? 0) with false by lia. replace (b >? e) with false by lia. cbn. rewrite ?andb_false_r; reflexivity. }
  rewrite Es. cbn [bind]. pose proof (apply_ok x (VwSlice (mkslice k b e 1)) Hw ltac:(right; cbn; lia)) as Ha. cbn [view_dims pull] in Ha. rewrite Ep in Ha. unfold slice_dims in Ha.
  rewrite (not_default k b e Hb) in Ha. cbn [s_dim s_begin s_end s_stride] in Ha.
  replace (extent (p1 ++ (k, n) :: p2) k) with (Some n) in Ha by (symmetry; apply extent_In; [apply Hp|apply in_or_app; right; left; reflexivity]).
  replace (e =? -1) with false in Ha by lia. replace (e <=? n) with true in Ha by lia. rewrite map_split in Ha by assumption. cbn [fst] in Ha.
  unfold ceil_div in Ha. rewrite Z.div_1_r in Ha. replace (e - b + 1 - 1) with (e - b) in Ha by lia. destruct Ha as (y & E & Esy & Hy & Hv). exists y. rewrite Esy. split; [exact E|]. split; [reflexivity|]. split; [exact Hy|].
  intros ix Hix. destruct (Hv ix Hix) as [_ ->]. rewrite Z.mul_1_l. reflexivity.
Qed.
Lemma take_point {A} (x : varr A) p1 k n p2 b : wfv (va x) -> vshape x = p1 ++ (k, n) :: p2 -> 0 <= b -> b < n ->
  exists y, (do s <- slice_point k b; apply_op x (VwSlice s)) = Ok y /\ vshape y = p1 ++ p2 /\ wfv (va y) /\
    forall ix, valid_at (vshape y) ix -> val y ix = val x (put ix k b).
Proof.
  intros Hw Ep Hb Hbn. assert (Hp : lwf (p1 ++ (k, n) :: p2)) by (rewrite <- Ep; apply (wf_mk_pairs _ (proj1 Hw))). destruct (lwf_app _ _ _ _ Hp) as (_ & _ & Hk1 & Hk2 & _).
  assert (Es : slice_point k b = Ok (mkslice k b (-1) 1)) by (unfold slice_point; replace (b <? 0) with false by lia; reflexivity).
  rewrite Es. cbn [bind]. pose proof (apply_ok x (VwSlice (mkslice k b (-1) 1)) Hw ltac:(right; cbn; lia)) as Ha. cbn [view_dims pull] in Ha. rewrite Ep in Ha. unfold slice_dims in Ha.
  rewrite (not_default k b (-1) Hb) in Ha. cbn [s_dim s_begin s_end s_stride] in Ha.
  replace (extent (p1 ++ (k, n) :: p2) k) with (Some n) in Ha by (symmetry; apply extent_In; [apply Hp|apply in_or_app; right; left; reflexivity]).
  replace (b <? n) with true in Ha by lia. rewrite filter_split in Ha by assumption. destruct Ha as (y & E & Esy & Hy & Hv). exists y. rewrite Esy. split; [exact E|]. split; [reflexivity|]. split; [exact Hy|].
  intros ix Hix. destruct (Hv ix Hix) as [_ ->]. reflexivity.
Qed.
Lemma cell_valid q k : lwf q -> 0 <= k < vol (extents q) -> valid_at q (cell q k).
Proof. intros Hq Hk. unfold cell. apply puts_valid; [exact Hq|]. apply index_valid; assumption. Qed.
Lemma puts_in ls : forall ix ix' xs k, length xs = length ls -> In k ls -> puts ix ls xs k = puts ix' ls xs k.
Proof.
  induction ls as [|l ls IH]; intros ix ix' xs k Hl Hk; [destruct Hk|]. destruct xs as [|x xs]; [discriminate|]. cbn [puts]. unfold put. destruct (Z.eqb_spec k l) as [|Hkl]; [reflexivity|].
  destruct Hk as [Hk|Hk]; [congruence|]. apply IH; [cbn in Hl; lia|exact Hk].
Qed.
Lemma flatten_all {A} (x : varr A) to : wfv (va x) -> to <> InvalidDim ->
  exists y, apply_op x (VwFlatten (keys (vshape x)) to) = Ok y /\ vshape y = [(to, vol (extents (vshape x)))] /\ wfv (va y) /\
    forall ix, 0 <= ix to < vol (extents (vshape x)) -> val y ix = val x (cell (vshape x) (ix to)).
Proof.
  intros Hw Hto. remember (vshape x) as q eqn:Eq. destruct q as [|[k n] q].
  - pose proof (apply_ok x (VwFlatten [] to) Hw Hto) as Ha. rewrite <- Eq in Ha. cbn [view_dims flatten_pairs keys map mem existsb orb] in Ha. replace (to =? InvalidDim) with false in Ha by lia.
    destruct Ha as (y & E & Es & Hy & Hv). exists y. split; [exact E|]. split; [exact Es|]. split; [exact Hy|]. intros ix Hix. cbn [extents map vol] in Hix.
    destruct (Hv ix) as [_ ->]; [intros j m [[= <- <-]|[]]; lia|]. apply val_same; [exact Hw|]. rewrite <- Eq. intros j [].
  - assert (Ep : vshape x = [] ++ ((k, n) :: q) ++ []) by (rewrite app_nil_r; symmetry; exact Eq).
    destruct (flatten_ok x [] ((k, n) :: q) [] to Hw Hto Ep ltac:(discriminate) ltac:(intros [])) as (y & E & Es & Hy & Hv). exists y. split; [exact E|]. split; [exact Es|]. split; [exact Hy|].
    intros ix Hix. rewrite Hv by (intros j m [[= <- <-]|[]]; exact Hix). apply val_same; [exact Hw|]. rewrite <- Eq. intros j Hj. unfold cell.
    apply puts_in; [|exact Hj]. rewrite index_at_length. unfold keys, extents. rewrite !map_length. reflexivity.
Qed.
Lemma all_equal_iff {A} (eqb : A -> A -> bool) f g n : all_equal eqb (map f (zseq 0 n)) (map g (zseq 0 n)) = true <-> forall k, 0 <= k < Z.of_nat n -> eqb (f k) (g k) = true.
Proof.
  unfold zseq. rewrite !map_map. assert (Hgen : forall s, all_equal eqb (map (fun k => f (0 + Z.of_nat k)) (seq s n)) (map (fun k => g (0 + Z.of_nat k)) (seq s n)) = true <->
    forall k, Z.of_nat s <= k < Z.of_nat s + Z.of_nat n -> eqb (f k) (g k) = true).
  { induction n as [|n IH]; intros s; cbn [seq map all_equal]; [split; [lia|reflexivity]|]. rewrite andb_true_iff, IH. replace (0 + Z.of_nat s) with (Z.of_nat s) by lia. split.
    - intros [E1 E2] k Hk. destruct (Z.eq_dec k (Z.of_nat s)) as [->|]; [exact E1|]. apply E2. lia.
    - intros Ha. split; [apply Ha; lia|]. intros k Hk. apply Ha. lia. }
  apply (Hgen O).
Qed.
Lemma index_of_1 to N k : 0 <= k < N -> index_of (mk [(to, N)]) k to = k.
Proof. intros Hk. unfold index_of. cbn [labels shape mk m_keys m_values keys extents map fst snd index_at vol puts]. rewrite put_same. apply Z.div_1_r. Qed.
Lemma same_variable_1 {A} eqb (x y : varr A) to N : wfv (va x) -> wfv (va y) -> vshape x = [(to, N)] -> vshape y = [(to, N)] ->
  same_variable eqb x y = true <-> forall k, 0 <= k < N -> eqb (val x (fun _ => k)) (val y (fun _ => k)) = true.
Proof.
  intros Hx Hy Ex Ey. unfold same_variable. destruct (wf_mk_pairs _ (proj1 Hx)) as [Dx Lx]. destruct (wf_mk_pairs _ (proj1 Hy)) as [Dy Ly].
  fold (vdims x) in Dx. fold (vshape x) in Dx. rewrite Ex in Dx. fold (vdims y) in Dy. fold (vshape y) in Dy. rewrite Ey in Dy.
  assert (HN : 0 <= N). { unfold vshape, vdims in Ex. rewrite Ex in Lx. destruct Lx as (_ & Lx & _). inversion Lx. assumption. }
  rewrite Dx, Dy. replace (dims_eqb _ _) with true by (symmetry; unfold dims_eqb; rewrite !(proj2 (leqb_eq _ _)); reflexivity). cbn [andb].
  unfold row_major_elements. rewrite Dx, Dy. rewrite volume_vol. change (vol (shape (mk [(to, N)]))) with (N * 1). rewrite Z.mul_1_r. rewrite all_equal_iff, Z2Nat.id by exact HN.
  assert (Hc : forall (z : varr A) k, wfv (va z) -> vdims z = mk [(to, N)] -> vshape z = [(to, N)] -> 0 <= k < N -> copied (va_buf z) (va z) k = val z (fun _ => k)).
  { intros z k Hz Dz Ez Hk. unfold copied. fold (vdims z). rewrite Dz. fold (val z (index_of (mk [(to, N)]) k)). apply val_same; [exact Hz|]. rewrite Ez. intros j [<-|[]]. apply index_of_1, Hk. }
  split; intros Ha k Hk; specialize (Ha k Hk); rewrite ?Hc in * by assumption; exact Ha.
Qed.

Lemma write_all_spec {A} (dest : var) (src : varr A) c ks : forall buf a, (forall k, In k ks -> vaddr dest (index_of (v_dims dest) k) = c + k) -> NoDup ks ->
  (In (a - c) ks -> write_all buf dest src ks a = val src (index_of (v_dims dest) (a - c))) /\ (~ In (a - c) ks -> write_all buf dest src ks a = buf a).
Proof.
  induction ks as [|k ks IH]; intros buf a Ha Hn; cbn [write_all]; [split; [intros []|reflexivity]|]. inversion Hn as [|? ? Hk Hn']. subst.
  specialize (IH (fun a => if a =? vaddr dest (index_of (v_dims dest) k) then va_buf src (vaddr (va src) (index_of (v_dims dest) k)) else buf a) a (fun j Hj => Ha j (or_intror Hj)) Hn') as [I1 I2].
  rewrite (Ha k (or_introl eq_refl)) in *. split.
  - intros [E|Hin]; [|apply I1, Hin]. rewrite I2 by (rewrite <- E; exact Hk). replace (a =? c + k) with true by lia. rewrite E. reflexivity.
  - intros Hni. rewrite I2 by (intros Hx; apply Hni; right; exact Hx). replace (a =? c + k) with false; [reflexivity|]. symmetry. apply Z.eqb_neq. intros ->. apply Hni. left. lia.
Qed.
Lemma zseq_In a n k : In k (zseq a n) <-> a <= k < a + Z.of_nat n.
Proof.
  unfold zseq. rewrite in_map_iff. split.
  - intros (j & <- & Hj). apply in_seq in Hj. lia.
  - intros Hk. exists (Z.to_nat (k - a)). split; [lia|]. apply in_seq. lia.
Qed.
Lemma zseq_NoDup a n : NoDup (zseq a n).
Proof. unfold zseq. apply FinFun.Injective_map_NoDup; [intros i j E; lia|apply seq_NoDup]. Qed.

Lemma index_at_snoc sh n : forall k, Forall (fun m => 0 <= m) sh -> 0 < n -> 0 <= k < vol sh * n -> index_at (sh ++ [n]) k = index_at sh (k / n) ++ [k mod n].
Proof.
  induction sh as [|m sh IH]; intros k Hf Hn Hk; cbn [app index_at vol] in *; [rewrite Z.div_1_r, Z.mod_small by lia; reflexivity|].
  apply Forall_cons_iff in Hf as [Hm Hf]. pose proof (vol_nonneg sh Hf) as HV. assert (HV' : 0 < vol sh) by nia. rewrite vol_app. cbn [vol]. rewrite Z.mul_1_r.
  rewrite Z.div_div by lia. rewrite (Z.mul_comm (vol sh) n). cbn [app]. f_equal. rewrite IH.
  - f_equal.
    + f_equal. rewrite Z.rem_mul_r by lia. rewrite (Z.mul_comm n), Z.div_add by lia. rewrite Z.div_small by (apply Z.mod_pos_bound; lia). lia.
    + f_equal. rewrite Z.rem_mul_r by lia. rewrite (Z.mul_comm n), Z.mod_add by lia. apply Z.mod_mod. lia.
  - exact Hf.
  - lia.
  - pose proof (Z.mod_pos_bound k (n * vol sh)). lia.
Qed.
Lemma puts_app ls1 : forall ls2 xs1 xs2 ix, length xs1 = length ls1 -> puts ix (ls1 ++ ls2) (xs1 ++ xs2) = puts (puts ix ls2 xs2) ls1 xs1.
Proof.
  induction ls1 as [|l ls1 IH]; intros ls2 xs1 xs2 ix Hl; destruct xs1 as [|x xs1]; try discriminate; [reflexivity|]. cbn [app puts]. rewrite IH by (cbn in Hl; lia). reflexivity.
Qed.
Lemma cell_snoc q e n k : lwf (q ++ [(e, n)]) -> 0 < n -> 0 <= k < vol (extents q) * n ->
  same_at (q ++ [(e, n)]) (cell (q ++ [(e, n)]) k) (put (cell q (k / n)) e (k mod n)).
Proof.
  intros Hl Hn Hk. destruct (lwf_app _ _ _ _ Hl) as (Hq & _ & He & _). rewrite app_nil_r in Hq. unfold cell. rewrite keys_app, extents_app. cbn [keys extents map fst snd].
  rewrite index_at_snoc by (try apply Hq; assumption). rewrite puts_app by (rewrite index_at_length; unfold keys, extents; rewrite !map_length; reflexivity). cbn [puts].
  intros j Hj. rewrite keys_app in Hj. apply in_app_or in Hj as [Hj|[<-|[]]].
  - rewrite put_other by (intros ->; contradiction). apply puts_in; [|exact Hj]. rewrite index_at_length. unfold keys, extents. rewrite !map_length. reflexivity.
  - cbn [fst]. rewrite put_same, puts_notin by exact He. apply put_same.
Qed.
Lemma includes_self d d' : wf d -> wf d' -> pairs d' = pairs d -> includes d d' = Ok true.
Proof.
  intros Hd Hd' E. destruct (includes_ok d d' (wf_wfm _ Hd) (wf_wfm _ Hd')) as (r & -> & Hr). f_equal. apply Hr. intros k n Hk. unfold has in *. rewrite <- E. exact Hk.
Qed.

Section FlattenEdge.
Context {A : Type} (eqb : A -> A -> bool) (junk : Z -> A) (x : varr A) (q : list (Z * Z)) (e n to : Z).
Hypotheses (Hw : wfv (va x)) (Ep : vshape x = q ++ [(e, n + 1)]) (Hn : 0 <= n) (Hto : to <> InvalidDim) (HR : 0 < vol (extents q)).
Let R := vol (extents q).
Definition joins := forall r, 0 <= r < R - 1 -> eqb (val x (put (cell q (r + 1)) e 0)) (val x (put (cell q r) e n)) = true.

Lemma flatten_edge_ok :
  (~ joins -> flatten_bin_edge eqb junk x (keys q ++ [e]) to e = Ok None) /\
  (joins -> exists y, flatten_bin_edge eqb junk x (keys q ++ [e]) to e = Ok (Some y) /\ vshape y = [(to, R * n + 1)] /\ wfv (va y) /\ v_readonly (va y) = false /\
     val y (fun _ => R * n) = val x (put (cell q (R - 1)) e n) /\
     forall k, 0 <= k < R * n -> val y (fun _ => k) = val x (put (cell q (k / n)) e (k mod n))).
Proof.
  fold R in HR. assert (Hp : lwf (q ++ [(e, n + 1)])) by (rewrite <- Ep; apply (wf_mk_pairs _ (proj1 Hw))). destruct (lwf_app _ _ _ _ Hp) as (Hq & _ & He & _ & Hei). rewrite app_nil_r in Hq.
  destruct (wf_mk_pairs _ (proj1 Hw)) as [Dx _]. fold (vdims x) in Dx. fold (vshape x) in Dx. rewrite Ep in Dx.
  destruct (take_point x q e (n + 1) [] 0 Hw Ep ltac:(lia) ltac:(lia)) as (front & Efr & Sfr & Wfr & Vfr). rewrite app_nil_r in Sfr.
  destruct (take_point x q e (n + 1) [] n Hw Ep ltac:(lia) ltac:(lia)) as (back & Ebk & Sbk & Wbk & Vbk). rewrite app_nil_r in Sbk.
  destruct (flatten_all front to Wfr Hto) as (ff & Eff & Sff & Wff & Vff). rewrite Sfr in Eff, Sff, Vff.
  destruct (flatten_all back to Wbk Hto) as (bf & Ebf & Sbf & Wbf & Vbf). rewrite Sbk in Ebf, Sbf, Vbf. fold R in Sff, Vff, Sbf, Vbf.
  destruct (take_range ff [] to R [] 1 R Wff Sff ltac:(lia) ltac:(lia) ltac:(lia)) as (f & Ef & Sf & Wf & Vf). cbn [app] in Sf.
  destruct (take_range bf [] to R [] 0 (R - 1) Wbf Sbf ltac:(lia) ltac:(lia) ltac:(lia)) as (b & Eb & Sb & Wb & Vb). cbn [app] in Sb. replace (R - 1 - 0) with (R - 1) in Sb by lia.
  assert (Kx : forall (z : varr A) p, wfv (va z) -> vshape z = p -> labels (vdims z) = keys p /\ volume (vdims z) = vol (extents p)).
  { intros z p Hz Ez. destruct (wf_mk_pairs _ (proj1 Hz)) as [D _]. fold (vdims z) in D. fold (vshape z) in D. rewrite Ez in D. rewrite D. split; [reflexivity|apply volume_vol]. }
  destruct (Kx front q Wfr Sfr) as [Lfr Ofr]. destruct (Kx back q Wbk Sbk) as [Lbk Obk]. fold R in Ofr, Obk.
  assert (Hval0 : forall r, 0 <= r < R -> valid_at q (cell q r)) by (intros r Hr; apply cell_valid; assumption).
  assert (VF : forall k, 0 <= k < R - 1 -> val f (fun _ => k) = val x (put (cell q (k + 1)) e 0)).
  { intros k Hk. rewrite Vf by (rewrite Sf; intros j m [[= <- <-]|[]]; exact Hk). rewrite Vff by (rewrite put_same; lia). rewrite put_same. replace (1 + k) with (k + 1) by lia.
    apply Vfr. rewrite Sfr. apply Hval0. lia. }
  assert (VB : forall k, 0 <= k < R - 1 -> val b (fun _ => k) = val x (put (cell q k) e n)).
  { intros k Hk. rewrite Vb by (rewrite Sb; intros j m [[= <- <-]|[]]; exact Hk). rewrite Vbf by (rewrite put_same; lia). rewrite put_same. replace (0 + k) with k by lia.
    apply Vbk. rewrite Sbk. apply Hval0. lia. }
  pose proof (same_variable_1 eqb f b to (R - 1) Wf Wb Sf Sb) as Hsame.
  assert (Hj : same_variable eqb f b = true <-> joins).
  { rewrite Hsame. unfold joins. split; intros Ha k Hk; specialize (Ha k Hk); rewrite ?VF, ?VB in * by assumption; exact Ha. }
  assert (Ehead : forall K : varr A -> res (option (varr A)),
    (do n0 <- dat (vdims x) e; do s0 <- slice_point e 0; do front <- apply_op x (VwSlice s0); do s1 <- slice_point e (n0 - 1); do back <- apply_op x (VwSlice s1);
     do front_flat <- apply_op front (VwFlatten (labels (vdims front)) to); do back_flat <- apply_op back (VwFlatten (labels (vdims back)) to);
     do s2 <- slice_range to 1 (volume (vdims front)) 1; do f <- apply_op front_flat (VwSlice s2);
     do s3 <- slice_range to 0 (volume (vdims back) - 1) 1; do b <- apply_op back_flat (VwSlice s3);
     if negb (same_variable eqb f b) then Ok None else K back_flat) = if negb (same_variable eqb f b) then Ok None else K bf).
  { intros K. rewrite Dx at 1. rewrite dat_sp by exact He. cbn [bind]. destruct (slice_point e 0) as [s0| |]; try discriminate. cbn [bind] in *. rewrite Efr. cbn [bind]. replace (n + 1 - 1) with n by lia.
    destruct (slice_point e n) as [s1| |]; try discriminate. cbn [bind] in *. rewrite Ebk. cbn [bind]. rewrite Lfr, Lbk, Eff, Ofr, Obk. cbn [bind]. rewrite Ebf. cbn [bind].
    destruct (slice_range to 1 R 1) as [s2| |]; try discriminate. cbn [bind] in *. rewrite Ef. cbn [bind]. destruct (slice_range to 0 (R - 1) 1) as [s3| |]; try discriminate. cbn [bind] in *. rewrite Eb. reflexivity. }
  (* the result *)
  destruct (take_range x q e (n + 1) [] 0 n Hw Ep ltac:(lia) ltac:(lia) ltac:(lia)) as (x1 & E1 & S1 & W1 & V1). replace (n - 0) with n in S1 by lia.
  destruct (flatten_all x1 to W1 Hto) as (bulk & Ebu & Sbu & Wbu & Vbu). rewrite S1 in Ebu, Sbu, Vbu. rewrite keys_app in Ebu. cbn [keys map fst] in Ebu. fold (keys q) in Ebu.
  rewrite extents_app, vol_app in Sbu, Vbu. cbn [extents map snd vol] in Sbu, Vbu. fold (extents q) in Sbu, Vbu. fold R in Sbu, Vbu. rewrite Z.mul_1_r in Sbu, Vbu.
  assert (HRn : 0 <= R * n) by nia.
  destruct (wf_mk_pairs _ (proj1 Wbu)) as [Dbu _]. fold (vdims bulk) in Dbu. fold (vshape bulk) in Dbu. rewrite Sbu in Dbu.
  set (od := mk [(to, R * n + 1)]). assert (Wod : lwf [(to, R * n + 1)]) by (split; [repeat constructor; intros []|split; [repeat constructor; cbn; lia|intros [Hx|[]]; cbn in Hx; congruence]]).
  set (o := mkva (fun a => a) (var_fresh od)). assert (Wo : wfv (va o)).
  { cbn [va o]. unfold od. rewrite fresh_SV by apply Wod. apply SV_wfv; [exact Wod|]. apply sfc_nonneg. exact Wod. }
  assert (So : vshape o = [] ++ (to, R * n + 1) :: []) by (unfold vshape, vdims, o; cbn [va v_dims var_fresh]; unfold od; apply pairs_mk).
  assert (Vo : forall ix, vaddr (var_fresh od) ix = ix to).
  { intros ix. unfold vaddr, var_fresh, strides_of. cbn -[Z.mul Z.add]. lia. }
  destruct (take_range o [] to (R * n + 1) [] 0 (R * n) Wo So ltac:(lia) ltac:(lia) ltac:(lia)) as (d1 & Ed1 & Sd1 & Wd1 & Vd1). cbn [app] in Sd1. replace (R * n - 0) with (R * n) in Sd1 by lia.
  destruct (take_point o [] to (R * n + 1) [] (R * n) Wo So ltac:(lia) ltac:(lia)) as (d2 & Ed2 & Sd2 & Wd2 & Vd2). cbn [app] in Sd2.
  destruct (take_point bf [] to R [] (R - 1) Wbf Sbf ltac:(lia) ltac:(lia)) as (la & Ela & Sla & Wla & Vla). cbn [app] in Sla.
  assert (Bid : forall s (y : varr Z), apply_op o (VwSlice s) = Ok y -> var_slice (var_fresh od) s = Ok (va y) /\ va_buf y = fun a => a).
  { intros s y. unfold apply_op. cbn [view_step va va_buf o]. destruct (var_slice (var_fresh od) s) as [v'| |]; try discriminate. cbn [bind fst snd]. intros E. injection E as <-. auto. }
  destruct (wf_mk_pairs _ (proj1 Wd1)) as [Dd1 _]. fold (vdims d1) in Dd1. fold (vshape d1) in Dd1. rewrite Sd1 in Dd1.
  destruct (wf_mk_pairs _ (proj1 Wd2)) as [Dd2 _]. fold (vdims d2) in Dd2. fold (vshape d2) in Dd2. rewrite Sd2 in Dd2.
  assert (Inc1 : includes (v_dims (va d1)) (vdims bulk) = Ok true) by (apply includes_self; [apply Wd1|apply Wbu|fold (vdims d1); fold (vshape d1); fold (vshape bulk); congruence]).
  assert (Inc2 : includes (v_dims (va d2)) (vdims la) = Ok true) by (apply includes_self; [apply Wd2|apply Wla|fold (vdims d2); fold (vshape d2); fold (vshape la); congruence]).
  set (buf1 := write_all junk (va d1) bulk (zseq 0 (Z.to_nat (volume (v_dims (va d1)))))).
  set (buf2 := write_all buf1 (va d2) la (zseq 0 (Z.to_nat (volume (v_dims (va d2)))))).
  assert (Etail : (do s4 <- slice_range e 0 n 1; do x1 <- apply_op x (VwSlice s4); do bulk <- apply_op x1 (VwFlatten (keys q ++ [e]) to); do m <- dat (vdims bulk) to;
      do out_dims <- sizes_resize (vdims bulk) to (m + 1); do s5 <- slice_range to 0 (m + 1 - 1) 1; do dest <- var_slice (var_fresh out_dims) s5; do buf1 <- copy_to junk dest bulk;
      do s6 <- slice_point to (volume (vdims back) - 1); do last <- apply_op bf (VwSlice s6); do s7 <- slice_point to (m + 1 - 1); do dest2 <- var_slice (var_fresh out_dims) s7;
      do buf2 <- copy_to buf1 dest2 last; Ok (Some (mkva buf2 (var_fresh out_dims)))) = Ok (Some (mkva buf2 (var_fresh od)))).
  { destruct (slice_range e 0 n 1) as [s4| |]; try discriminate. cbn [bind] in *. rewrite E1. cbn [bind]. rewrite Ebu. cbn [bind]. rewrite Dbu at 1.
    change [(to, R * n)] with ([] ++ (to, R * n) :: []). rewrite dat_sp by (intros []). cbn [bind]. rewrite Dbu at 1. change [(to, R * n)] with ([] ++ (to, R * n) :: []).
    rewrite resize_sp by (try lia; intros []). cbn [bind app]. fold od. replace (R * n + 1 - 1) with (R * n) by lia.
    destruct (slice_range to 0 (R * n) 1) as [s5| |]; try discriminate. cbn [bind] in *. destruct (Bid s5 d1 Ed1) as [-> _]. cbn [bind]. unfold copy_to at 1. rewrite Inc1. cbn [bind].
    rewrite Obk. destruct (slice_point to (R - 1)) as [s6| |]; try discriminate. cbn [bind] in *. rewrite Ela. cbn [bind].
    destruct (slice_point to (R * n)) as [s7| |]; try discriminate. cbn [bind] in *. destruct (Bid s7 d2 Ed2) as [-> _]. cbn [bind]. unfold copy_to. rewrite Inc2. cbn [bind]. reflexivity. }
  assert (Eall : flatten_bin_edge eqb junk x (keys q ++ [e]) to e = if negb (same_variable eqb f b) then Ok None else Ok (Some (mkva buf2 (var_fresh od)))).
  { rewrite <- Etail. rewrite <- (Ehead (fun bf => do s4 <- slice_range e 0 n 1; do x1 <- apply_op x (VwSlice s4); do bulk <- apply_op x1 (VwFlatten (keys q ++ [e]) to); do m <- dat (vdims bulk) to;
      do out_dims <- sizes_resize (vdims bulk) to (m + 1); do s5 <- slice_range to 0 (m + 1 - 1) 1; do dest <- var_slice (var_fresh out_dims) s5; do buf1 <- copy_to junk dest bulk;
      do s6 <- slice_point to (volume (vdims back) - 1); do last <- apply_op bf (VwSlice s6); do s7 <- slice_point to (m + 1 - 1); do dest2 <- var_slice (var_fresh out_dims) s7;
      do buf2 <- copy_to buf1 dest2 last; Ok (Some (mkva buf2 (var_fresh out_dims))))).
    unfold flatten_bin_edge. rewrite Dx. rewrite dat_sp by exact He. cbn [bind]. destruct (slice_point e 0) as [s0| |]; try discriminate. cbn [bind] in *. rewrite Efr. cbn [bind]. replace (n + 1 - 1) with n by lia.
    destruct (slice_point e n) as [s1| |]; try discriminate. cbn [bind] in *. rewrite Ebk. cbn [bind]. reflexivity. }
  rewrite Eall. split.
  - intros Hnj. destruct (same_variable eqb f b) eqn:Es; [exfalso; apply Hnj, Hj; reflexivity|reflexivity].
  - intros Hjo. apply Hj in Hjo. rewrite Hjo. cbn [negb]. exists (mkva buf2 (var_fresh od)). split; [reflexivity|].
    assert (Hb2 : forall a, (a = R * n -> buf2 a = val la (fun _ => 0)) /\ (a <> R * n -> buf2 a = buf1 a)).
    { intros a. unfold buf2. fold (vdims d2). rewrite Dd2. change (Z.to_nat (volume (mk []))) with 1%nat. change (zseq 0 1) with [0].
      assert (Ha2 : vaddr (va d2) (index_of (v_dims (va d2)) 0) = R * n).
      { fold (vdims d2). rewrite Dd2. assert (Hx := Vd2 (index_of (mk []) 0) ltac:(rewrite Sd2; intros j m [])). unfold val in Hx. cbn [va_buf va o] in Hx. rewrite Vo, put_same in Hx.
        assert (Hid : va_buf d2 = fun a => a) by (destruct (slice_point to (R * n)) as [s7| |]; try discriminate; cbn [bind] in Ed2; apply (Bid s7 d2 Ed2)). rewrite Hid in Hx. exact Hx. }
      destruct (write_all_spec (va d2) la (R * n) [0] buf1 a) as [Q1 Q2]; [intros k [<-|[]]; lia|repeat constructor; intros []|]. split.
      - intros ->. rewrite Q1 by (left; lia). apply val_same; [exact Wla|]. rewrite Sla. intros j [].
      - intros Hne. apply Q2. intros [Hx|[]]. lia. }
    assert (Hb1 : forall a, 0 <= a < R * n -> buf1 a = val bulk (fun _ => a)).
    { intros a Ha. unfold buf1. fold (vdims d1). rewrite Dd1, volume_vol. change (vol (shape (mk [(to, R * n)]))) with (R * n * 1). rewrite Z.mul_1_r.
      destruct (write_all_spec (va d1) bulk 0 (zseq 0 (Z.to_nat (R * n))) junk a) as [Q1 _].
      - intros k Hk. apply zseq_In in Hk. rewrite Z2Nat.id in Hk by lia. fold (vdims d1). rewrite Dd1.
        assert (Hx := Vd1 (index_of (mk [(to, R * n)]) k)). rewrite Sd1 in Hx. unfold val in Hx. cbn [va_buf va o] in Hx. rewrite Vo, put_same, index_of_1 in Hx by lia.
        assert (Hid : va_buf d1 = fun a => a) by (destruct (slice_range to 0 (R * n) 1) as [s7| |]; try discriminate; cbn [bind] in Ed1; apply (Bid s7 d1 Ed1)). rewrite Hid in Hx.
        apply Hx. intros j m [[= <- <-]|[]]. rewrite index_of_1; lia.
      - apply zseq_NoDup.
      - rewrite Z.sub_0_r in Q1. rewrite Q1 by (apply zseq_In; lia). apply val_same; [exact Wbu|]. rewrite Sbu. intros j [<-|[]]. fold (vdims d1). rewrite Dd1. apply index_of_1. exact Ha. }
    split; [unfold vshape, vdims; cbn [va v_dims var_fresh]; unfold od; apply pairs_mk|]. split; [exact Wo|]. split; [reflexivity|].
    assert (Hv2 : forall k, val (mkva buf2 (var_fresh od)) (fun _ => k) = buf2 k) by (intros k; unfold val; cbn [va va_buf]; rewrite Vo; reflexivity). split.
    + rewrite Hv2. rewrite (proj1 (Hb2 (R * n)) eq_refl). rewrite Vla by (rewrite Sla; intros j m []). rewrite Vbf by (rewrite put_same; lia). rewrite put_same. apply Vbk. rewrite Sbk. apply Hval0. lia.
    + intros k Hk. rewrite Hv2, (proj2 (Hb2 k)) by lia. rewrite Hb1 by exact Hk. rewrite Vbu by exact Hk.
      assert (Hn' : 0 < n) by nia. assert (Hpn : lwf (q ++ [(e, n)])) by (rewrite <- S1; apply (wf_mk_pairs _ (proj1 W1))).
      rewrite V1.
      * apply val_same; [exact Hw|]. rewrite Ep. intros j Hjk. assert (Hjk' : In j (keys (q ++ [(e, n)]))) by (rewrite keys_app in *; exact Hjk). cbn beta. unfold put at 1. destruct (Z.eqb_spec j e) as [->|Hje].
        -- rewrite put_same. cbn. rewrite (cell_snoc q e n k Hpn Hn' Hk e Hjk'). rewrite put_same. reflexivity.
        -- rewrite (cell_snoc q e n k Hpn Hn' Hk j Hjk'). reflexivity.
      * rewrite S1. apply cell_valid; [exact Hpn|]. rewrite extents_app, vol_app. cbn [extents map snd vol]. fold (extents q). fold R. lia.
Qed.
End FlattenEdge.
