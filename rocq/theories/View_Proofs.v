From Coq Require Import Permutation.
From Verif Require Import Base Map_Model Map_Spec Map_Proofs Dims_Model Dims_Spec Dims_Proofs View_Model View_Spec.

(** ** Views as (shape, stride per label) *)
Definition mk (p : list (Z * Z)) : sizes := mkmap (keys p) (extents p).
Definition SV (p : list (Z * Z)) (sf : Z -> Z) (off : Z) (ro : bool) (n : Z) : var :=
  mkvar (mk p) (map sf (keys p)) off ro n.

Lemma pairs_mk p : pairs (mk p) = p.
Proof. unfold pairs, mk, keys, extents; simpl. induction p as [|[a b] p IH]; simpl; congruence. Qed.
Lemma mk_pairs d : length (m_values d) = length (m_keys d) -> mk (pairs d) = d.
Proof.
  destruct d as [ks vs]. unfold mk, pairs, keys, extents; simpl. revert vs.
  induction ks as [|k ks IH]; intros [|v vs] Hl; simpl in *; try discriminate; [reflexivity|].
  injection Hl as Hl. specialize (IH vs Hl). injection IH as -> ->. reflexivity.
Qed.
Lemma wf_lwf d : wf d <-> lwf (pairs d) /\ length (m_values d) = length (m_keys d).
Proof.
  unfold wf, lwf. split.
  - intros (Hnd & Hl & Hf & Hi). pose proof (mk_pairs d Hl) as E. rewrite <- E in Hnd, Hf, Hi.
    unfold mk in *. simpl in *. auto.
  - intros ((Hnd & Hf & Hi) & Hl). pose proof (mk_pairs d Hl) as E. rewrite <- E. unfold mk; simpl.
    repeat split; auto. unfold keys, extents. rewrite !map_length. reflexivity.
Qed.
Lemma mk_wf p : lwf p -> wf (mk p).
Proof.
  intros Hp. apply wf_lwf. rewrite pairs_mk. split; [assumption|]. unfold mk, keys, extents; simpl.
  rewrite !map_length. reflexivity.
Qed.

Lemma mem_In k ls : mem k ls = true <-> In k ls.
Proof.
  unfold mem. rewrite existsb_exists. split.
  - intros (x & Hx & Heq). apply Z.eqb_eq in Heq. subst. assumption.
  - intros Hk. exists k. split; [assumption|apply Z.eqb_refl].
Qed.
Lemma mem_nIn k ls : mem k ls = false <-> ~ In k ls.
Proof. rewrite <- mem_In. destruct (mem k ls); intuition congruence. Qed.
Lemma no_dup_NoDup l : no_dup l = true <-> NoDup l.
Proof.
  induction l as [|x l IH]; simpl.
  - split; [constructor|reflexivity].
  - rewrite andb_true_iff, negb_true_iff, mem_nIn, IH. split.
    + intros [Ha Hb]. constructor; assumption.
    + intros Hn. inversion Hn; auto.
Qed.

Lemma In_keys k p : In k (keys p) <-> exists n, In (k, n) p.
Proof.
  unfold keys. rewrite in_map_iff. split.
  - intros ([a b] & <- & Hin). exists b. assumption.
  - intros [n Hn]. exists (k, n). auto.
Qed.

Lemma extent_None p k : extent p k = None <-> ~ In k (keys p).
Proof.
  induction p as [|[a b] p IH]; simpl; [tauto|].
  destruct (Z.eqb_spec a k); [subst; split; [discriminate|tauto]|]. rewrite IH. tauto.
Qed.
Lemma extent_split p k n : extent p k = Some n ->
  exists p1 p2, p = p1 ++ (k, n) :: p2 /\ ~ In k (keys p1).
Proof.
  induction p as [|[a b] p IH]; simpl; [discriminate|].
  destruct (Z.eqb_spec a k).
  - intros [= ->]. subst. exists [], p. auto.
  - intros E. destruct (IH E) as (p1 & p2 & -> & Hn). exists ((a, b) :: p1), p2. simpl. intuition.
Qed.
Lemma extent_app_notin p1 p2 k : ~ In k (keys p1) -> extent (p1 ++ p2) k = extent p2 k.
Proof.
  induction p1 as [|[a b] p1 IH]; simpl; [reflexivity|]. intros Hn.
  destruct (Z.eqb_spec a k); [tauto|apply IH; tauto].
Qed.
Lemma keys_app p1 p2 : keys (p1 ++ p2) = keys p1 ++ keys p2.
Proof. apply map_app. Qed.
Lemma extents_app p1 p2 : extents (p1 ++ p2) = extents p1 ++ extents p2.
Proof. apply map_app. Qed.
Lemma extent_In p k n : NoDup (keys p) -> (extent p k = Some n <-> In (k, n) p).
Proof.
  intros Hnd. split.
  - intros E. destruct (extent_split _ _ _ E) as (p1 & p2 & -> & _). apply in_elt.
  - intros Hin. apply in_split in Hin as (p1 & p2 & ->).
    rewrite keys_app in Hnd. simpl in Hnd. apply NoDup_remove_2 in Hnd.
    rewrite extent_app_notin; [simpl; rewrite Z.eqb_refl; reflexivity|]. intros Hk. apply Hnd, in_or_app. auto.
Qed.
Lemma ext_In p k n : NoDup (keys p) -> In (k, n) p -> ext p k = n.
Proof. intros Hnd Hin. unfold ext. apply extent_In in Hin; [|assumption]. rewrite Hin. reflexivity. Qed.
Lemma NoDup_split_not p1 k n p2 : NoDup (keys (p1 ++ (k, n) :: p2)) -> ~ In k (keys p1) /\ ~ In k (keys p2).
Proof.
  intros Hnd. rewrite keys_app in Hnd. simpl in Hnd. apply NoDup_remove_2 in Hnd.
  rewrite in_app_iff in Hnd. tauto.
Qed.

(** positions *)
Lemma find_index_split (ls1 ls2 : list Z) k : ~ In k ls1 -> find_index Z.eqb k (ls1 ++ k :: ls2) = Some (length ls1).
Proof.
  induction ls1 as [|a ls1 IH]; simpl; intros Hn.
  - rewrite Z.eqb_refl. reflexivity.
  - destruct (Z.eqb_spec a k); [tauto|]. rewrite IH by tauto. reflexivity.
Qed.
Lemma find_index_no (ls : list Z) k : ~ In k ls -> find_index Z.eqb k ls = None.
Proof.
  induction ls as [|a ls IH]; simpl; intros Hn; [reflexivity|].
  destruct (Z.eqb_spec a k); [tauto|]. rewrite IH by tauto. reflexivity.
Qed.
Lemma vget_split {A} (l1 l2 : list A) x : vget (l1 ++ x :: l2) (zlen l1) = Ok x.
Proof.
  unfold vget, zlen. replace (Z.of_nat (length l1) <? 0) with false by lia.
  rewrite Nat2Z.id, nth_error_app2, Nat.sub_diag by lia. reflexivity.
Qed.
Lemma upd_split {A} (l1 l2 : list A) x y : upd (l1 ++ x :: l2) (length l1) y = l1 ++ y :: l2.
Proof. induction l1; simpl; congruence. Qed.
Lemma remove_nth_split {A} (l1 l2 : list A) x : remove_nth (l1 ++ x :: l2) (length l1) = l1 ++ l2.
Proof. induction l1; simpl; congruence. Qed.
Lemma vset_split {A} (l1 l2 : list A) x y : vset (l1 ++ x :: l2) (zlen l1) y = Ok (l1 ++ y :: l2).
Proof.
  unfold vset, zlen. rewrite app_length; cbn [length].
  replace ((Z.of_nat (length l1) <? 0) || (Z.of_nat (length l1 + S (length l2)) <=? Z.of_nat (length l1))) with false by lia.
  rewrite Nat2Z.id, upd_split. reflexivity.
Qed.
Lemma verase_split {A} (l1 l2 : list A) x : verase (l1 ++ x :: l2) (zlen l1) = Ok (l1 ++ l2).
Proof.
  unfold verase, zlen. rewrite app_length; cbn [length].
  replace ((Z.of_nat (length l1) <? 0) || (Z.of_nat (length l1 + S (length l2)) <=? Z.of_nat (length l1))) with false by lia.
  rewrite Nat2Z.id, remove_nth_split. reflexivity.
Qed.

Lemma zlen_map {A B} (f : A -> B) l : zlen (map f l) = zlen l.
Proof. unfold zlen. rewrite map_length. reflexivity. Qed.

Section AtSplit.
Context (p1 : list (Z * Z)) (k n : Z) (p2 : list (Z * Z)) (Hk : ~ In k (keys p1)).
Lemma dcontains_sp : dcontains (mk (p1 ++ (k, n) :: p2)) k = true.
Proof. unfold dcontains, mcontains, mk; simpl. rewrite keys_app; simpl. rewrite find_index_split by assumption. reflexivity. Qed.
Lemma dindex_sp : dindex (mk (p1 ++ (k, n) :: p2)) k = Ok (zlen p1).
Proof.
  unfold dindex, mindex, mk; simpl. rewrite keys_app; simpl. rewrite find_index_split by assumption.
  unfold zlen, keys. rewrite map_length. reflexivity.
Qed.
Lemma dat_sp : dat (mk (p1 ++ (k, n) :: p2)) k = Ok n.
Proof.
  unfold dat, mat. fold (dindex (mk (p1 ++ (k, n) :: p2)) k). rewrite dindex_sp. cbn [bind].
  unfold mk; cbn [m_values]. rewrite extents_app. cbn [extents map snd].
  rewrite <- (zlen_map snd p1). apply vget_split.
Qed.
Lemma merase_sp : merase Z.eqb (mk (p1 ++ (k, n) :: p2)) k = Ok (mk (p1 ++ p2)).
Proof.
  unfold merase. fold (dindex (mk (p1 ++ (k, n) :: p2)) k). rewrite dindex_sp. cbn [bind].
  unfold mk; cbn [m_values m_keys]. rewrite keys_app, extents_app. cbn [keys extents map fst snd].
  rewrite <- (zlen_map fst p1) at 1. fold (keys p1). rewrite verase_split. cbn [bind].
  rewrite <- (zlen_map snd p1). fold (extents p1). rewrite verase_split. cbn [bind].
  rewrite keys_app, extents_app. reflexivity.
Qed.
Lemma resize_sp m : 0 <= m -> sizes_resize (mk (p1 ++ (k, n) :: p2)) k m = Ok (mk (p1 ++ (k, m) :: p2)).
Proof.
  intros Hm. unfold sizes_resize, valid_extent. replace (m <? 0) with false by lia. cbn [bind].
  unfold massign. fold (dindex (mk (p1 ++ (k, n) :: p2)) k). rewrite dindex_sp. cbn [bind].
  unfold mk; cbn [m_values m_keys]. rewrite !keys_app, !extents_app. cbn [keys extents map fst snd].
  rewrite <- (zlen_map snd p1). fold (extents p1). rewrite vset_split. reflexivity.
Qed.
Lemma stride_sp (sf : Z -> Z) : vget (map sf (keys (p1 ++ (k, n) :: p2))) (zlen p1) = Ok (sf k).
Proof.
  rewrite keys_app, map_app; cbn [keys map fst].
  replace (zlen p1) with (zlen (map sf (keys p1))); [apply vget_split|]. unfold keys. rewrite !zlen_map. reflexivity.
Qed.
Lemma verase_sp (sf : Z -> Z) : verase (map sf (keys (p1 ++ (k, n) :: p2))) (zlen p1) = Ok (map sf (keys (p1 ++ p2))).
Proof.
  rewrite !keys_app, !map_app; cbn [keys map fst].
  replace (zlen p1) with (zlen (map sf (keys p1))); [apply verase_split|]. unfold keys. rewrite !zlen_map. reflexivity.
Qed.
Lemma vset_sp (sf : Z -> Z) x m : ~ In k (keys p2) ->
  vset (map sf (keys (p1 ++ (k, n) :: p2))) (zlen p1) x = Ok (map (put sf k x) (keys (p1 ++ (k, m) :: p2))).
Proof.
  intros Hk2. rewrite !keys_app, !map_app; cbn [keys map fst]. fold (keys p1) (keys p2).
  replace (zlen p1) with (zlen (map sf (keys p1))) by (unfold keys; rewrite !zlen_map; reflexivity).
  rewrite vset_split. do 2 f_equal; [|f_equal].
  - apply map_ext_in. intros a Ha. unfold put. destruct (Z.eqb_spec a k); [subst; contradiction|reflexivity].
  - unfold put. rewrite Z.eqb_refl. reflexivity.
  - apply map_ext_in. intros a Ha. unfold put. destruct (Z.eqb_spec a k); [subst; contradiction|reflexivity].
Qed.
End AtSplit.

Lemma dcontains_mk p k : dcontains (mk p) k = mem k (keys p).
Proof. rewrite dcontains_memb. reflexivity. Qed.
Lemma dat_mk p k : NoDup (keys p) -> dat (mk p) k = match extent p k with Some n => Ok n | None => Throw DimensionError end.
Proof.
  intros Hnd. destruct (extent p k) as [n|] eqn:E.
  - destruct (extent_split _ _ _ E) as (p1 & p2 & -> & Hn). apply dat_sp. assumption.
  - apply extent_None in E. unfold dat, mat, mindex, mk; simpl. rewrite find_index_no by assumption. reflexivity.
Qed.

(** ** Slices *)
Lemma filter_split p1 k n p2 : ~ In k (keys p1) -> ~ In k (keys p2) ->
  filter (fun e : Z * Z => negb (fst e =? k)) (p1 ++ (k, n) :: p2) = p1 ++ p2.
Proof.
  intros Ha Hb. rewrite filter_app. simpl. rewrite Z.eqb_refl. simpl.
  assert (Hf : forall q, ~ In k (keys q) -> filter (fun e : Z * Z => negb (fst e =? k)) q = q).
  { induction q as [|[a b] q IH]; simpl; intros Hq; [reflexivity|].
    destruct (Z.eqb_spec a k); [tauto|]. simpl. rewrite IH by tauto. reflexivity. }
  rewrite !Hf by assumption. reflexivity.
Qed.
Lemma map_split (g : Z * Z -> Z * Z) p1 k n p2 : ~ In k (keys p1) -> ~ In k (keys p2) ->
  map (fun e => if fst e =? k then g e else e) (p1 ++ (k, n) :: p2) = p1 ++ g (k, n) :: p2.
Proof.
  intros Ha Hb. rewrite map_app. simpl. rewrite Z.eqb_refl.
  assert (Hf : forall q, ~ In k (keys q) -> map (fun e : Z * Z => if fst e =? k then g e else e) q = q).
  { induction q as [|[a b] q IH]; simpl; intros Hq; [reflexivity|].
    destruct (Z.eqb_spec a k); [tauto|]. rewrite IH by tauto. reflexivity. }
  rewrite !Hf by assumption. reflexivity.
Qed.

Lemma slice_eqb_spec a b : slice_eqb a b = true <-> a = b.
Proof.
  unfold slice_eqb. destruct a, b; simpl. rewrite !andb_true_iff, !Z.eqb_eq. split; [intuition congruence|intros [= -> -> -> ->]; auto].
Qed.

Lemma ceil_div_nonneg a b : 0 <= a -> 0 < b -> 0 <= ceil_div a b.
Proof. intros Ha Hb. unfold ceil_div. apply Z.div_pos; lia. Qed.

(** What a slice does to a view. *)
Definition sl_sf (s : slice) (sf : Z -> Z) : Z -> Z :=
  if slice_eqb s slice_default || (s_end s =? -1) then sf else put sf (s_dim s) (sf (s_dim s) * s_stride s).
Definition sl_off (s : slice) (sf : Z -> Z) (off : Z) : Z :=
  if slice_eqb s slice_default then off else off + s_begin s * sf (s_dim s).

Lemma var_slice_ok p sf off ro sz s : lwf p -> slice_ok s ->
  match slice_dims p s with
  | Some p' => var_slice (SV p sf off ro sz) s = Ok (SV p' (sl_sf s sf) (sl_off s sf off) ro sz)
  | None => var_slice (SV p sf off ro sz) s = Throw SliceError
  end.
Proof.
  intros (Hnd & Hf & Hi) Hs. unfold slice_dims, var_slice, valid_slice, sl_sf, sl_off, SV.
  cbn [v_dims v_strides v_offset v_readonly v_size].
  destruct (slice_eqb s slice_default) eqn:Ed; [reflexivity|].
  destruct Hs as [->|(Hb & Hst & He)]; [discriminate|].
  rewrite dcontains_mk. destruct (extent p (s_dim s)) as [n|] eqn:E.
  2:{ apply extent_None in E. apply mem_nIn in E. rewrite E. reflexivity. }
  rewrite dat_mk, E by assumption.
  destruct (extent_split _ _ _ E) as (p1 & p2 & -> & Hk1).
  destruct (NoDup_split_not _ _ _ _ Hnd) as [_ Hk2].
  replace (mem (s_dim s) (keys (p1 ++ (s_dim s, n) :: p2))) with true
    by (symmetry; apply mem_In; rewrite keys_app; apply in_elt).
  cbn [negb bind]. destruct (Z.eqb_spec (s_end s) (-1)) as [Ee|Ee].
  - rewrite Ee. cbn [Z.ltb]. destruct (Z.ltb_spec (s_begin s) n).
    + replace (s_begin s + 1 >? n) with false by lia. replace (-1 <? 0) with true by lia.
      replace (s_begin s + 1 >? n) with false by lia. cbn [bind].
      rewrite dindex_sp by assumption. cbn [bind]. rewrite stride_sp by assumption. cbn [bind].
      rewrite verase_sp by assumption. cbn [bind]. rewrite merase_sp by assumption. cbn [bind].
      rewrite filter_split by assumption. reflexivity.
    + replace (-1 <? 0) with true by lia. replace (s_begin s + 1 >? n) with true by lia. reflexivity.
  - replace (s_end s <? 0) with false by lia. destruct (Z.leb_spec (s_end s) n).
    + replace (s_end s >? n) with false by lia. cbn [bind].
      rewrite dindex_sp by assumption. cbn [bind]. rewrite stride_sp by assumption. cbn [bind].
      unfold sizes_slice, valid_slice. rewrite Ed. rewrite dcontains_sp, dat_sp by assumption. cbn [negb bind].
      replace (s_end s <? 0) with false by lia. replace (s_end s >? n) with false by lia. cbn [bind].
      unfold is_range. replace (s_end s =? -1) with false by lia. cbn [negb].
      replace (s_stride s =? 0) with false by lia. rewrite ceil_quot by lia.
      rewrite resize_sp by (try assumption; apply ceil_div_nonneg; lia). cbn [bind].
      rewrite map_split by assumption. cbn [fst].
      rewrite (vset_sp p1 (s_dim s) n p2 ltac:(assumption) sf _ (ceil_div (s_end s - s_begin s) (s_stride s))) by assumption.
      cbn [bind]. reflexivity.
    + replace (s_end s >? n) with true by lia. reflexivity.
Qed.

(** ** Addresses as sums over labels *)
Definition lsum (g : Z -> Z) (ls : list Z) : Z := sumZ (map g ls).
Lemma lsum_cons g a l : lsum g (a :: l) = g a + lsum g l.
Proof. reflexivity. Qed.
Lemma lsum_app g a b : lsum g (a ++ b) = lsum g a + lsum g b.
Proof. induction a as [|x a IH]; [reflexivity|]. cbn [app]. rewrite !lsum_cons, IH. lia. Qed.
Lemma lsum_ext g h ls : (forall k, In k ls -> g k = h k) -> lsum g ls = lsum h ls.
Proof. intros He. unfold lsum. f_equal. apply map_ext_in. assumption. Qed.
Lemma lsum_perm g a b : Permutation a b -> lsum g a = lsum g b.
Proof. induction 1; rewrite ?lsum_cons in *; lia. Qed.
Lemma lsum_scale c g ls : lsum (fun k => c * g k) ls = c * lsum g ls.
Proof. induction ls as [|a l IH]; [unfold lsum; simpl; lia|]. rewrite !lsum_cons, IH. lia. Qed.
Lemma lsum_zero g ls : (forall k, In k ls -> g k = 0) -> lsum g ls = 0.
Proof. intros Hz. rewrite (lsum_ext g (fun _ => 0)) by assumption. induction ls; [reflexivity|]. rewrite lsum_cons, IHls; auto. intros; apply Hz; right; auto. Qed.
Lemma dot_lsum sf (ix : Z -> Z) ls : dot (map sf ls) (map ix ls) = lsum (fun k => sf k * ix k) ls.
Proof. induction ls as [|a l IH]; [reflexivity|]. cbn [map dot]. rewrite lsum_cons, IH. reflexivity. Qed.
Lemma lsum_filter g f ls : lsum g (filter f ls) = lsum (fun k => if f k then g k else 0) ls.
Proof.
  induction ls as [|a l IH]; [reflexivity|]. simpl. rewrite lsum_cons. destruct (f a); [rewrite lsum_cons|]; lia.
Qed.

Definition asum (p : list (Z * Z)) (sf ix : Z -> Z) : Z := lsum (fun k => sf k * ix k) (keys p).
Lemma vaddr_SV p sf off ro sz ix : vaddr (SV p sf off ro sz) ix = off + asum p sf ix.
Proof. unfold vaddr, SV, asum; simpl. rewrite dot_lsum. reflexivity. Qed.
Lemma asum_same p sf ix ix' : same_at p ix ix' -> asum p sf ix = asum p sf ix'.
Proof. intros Hs. apply lsum_ext. intros k Hk. rewrite (Hs k Hk). reflexivity. Qed.
Lemma asum_sf p sf sf' ix : (forall k, In k (keys p) -> sf k = sf' k) -> asum p sf ix = asum p sf' ix.
Proof. intros Hs. apply lsum_ext. intros k Hk. rewrite (Hs k Hk). reflexivity. Qed.
Lemma asum_app a b sf ix : asum (a ++ b) sf ix = asum a sf ix + asum b sf ix.
Proof. unfold asum. rewrite keys_app. apply lsum_app. Qed.
Lemma asum_cons k n b sf ix : asum ((k, n) :: b) sf ix = sf k * ix k + asum b sf ix.
Proof. reflexivity. Qed.
Lemma put_same f k x : put f k x k = x.
Proof. unfold put. rewrite Z.eqb_refl. reflexivity. Qed.
Lemma put_other f k x j : j <> k -> put f k x j = f j.
Proof. intros Hj. unfold put. destruct (Z.eqb_spec j k); [contradiction|reflexivity]. Qed.
Lemma asum_put p sf ix k x : ~ In k (keys p) -> asum p sf (put ix k x) = asum p sf ix.
Proof. intros Hk. apply asum_same. intros j Hj. apply put_other. intros ->. contradiction. Qed.
Lemma asum_put_sf p sf ix k x : ~ In k (keys p) -> asum p (put sf k x) ix = asum p sf ix.
Proof. intros Hk. apply asum_sf. intros j Hj. apply put_other. intros ->. contradiction. Qed.

Lemma valid_at_app a b ix : valid_at (a ++ b) ix <-> valid_at a ix /\ valid_at b ix.
Proof.
  unfold valid_at. split.
  - intros Hv. split; intros k n Hin; apply Hv, in_or_app; auto.
  - intros [Ha Hb] k n Hin. apply in_app_or in Hin as [Hin|Hin]; auto.
Qed.
Lemma valid_at_cons k n b ix : valid_at ((k, n) :: b) ix <-> 0 <= ix k < n /\ valid_at b ix.
Proof.
  unfold valid_at. split.
  - intros Hv. split; [apply Hv; left; reflexivity|]. intros j m Hin. apply Hv. right. assumption.
  - intros [Ha Hb] j m [E|Hin]; [injection E as <- <-; assumption|auto].
Qed.
Lemma valid_at_put p ix k x : ~ In k (keys p) -> (valid_at p (put ix k x) <-> valid_at p ix).
Proof.
  intros Hk. unfold valid_at. split; intros Hv j n Hin; specialize (Hv j n Hin);
  (rewrite put_other in * ; [assumption|intros ->; apply Hk, In_keys; eauto]).
Qed.
Lemma valid_at_same p ix ix' : same_at p ix ix' -> valid_at p ix -> valid_at p ix'.
Proof. intros Hs Hv k n Hin. rewrite <- Hs by (apply In_keys; eauto). apply Hv. assumption. Qed.
Lemma same_at_refl p ix : same_at p ix ix.
Proof. intros k _; reflexivity. Qed.
Lemma same_at_app a b ix ix' : same_at (a ++ b) ix ix' <-> same_at a ix ix' /\ same_at b ix ix'.
Proof.
  unfold same_at. rewrite keys_app. split.
  - intros Hs. split; intros k Hk; apply Hs, in_or_app; auto.
  - intros [Ha Hb] k Hk. apply in_app_or in Hk as [Hk|Hk]; auto.
Qed.
Lemma same_at_cons k n b ix ix' : same_at ((k, n) :: b) ix ix' <-> ix k = ix' k /\ same_at b ix ix'.
Proof.
  unfold same_at. simpl. split; [intros Hs; split; [apply Hs; auto|intros; apply Hs; auto]|].
  intros [Ha Hb] j [->|Hj]; auto.
Qed.

(** ** The contract of one step *)
Definition makes_readonly (p : list (Z * Z)) (o : view_op) : bool :=
  match o with
  | VwBroadcast t => negb (vol (extents (pairs t)) =? vol (extents p))
  | VwConst => true
  | _ => false
  end.
Definition nonneg_at (p : list (Z * Z)) (sf : Z -> Z) : Prop := forall k, In k (keys p) -> 0 <= sf k.

Definition step_ok (p : list (Z * Z)) (o : view_op) : Prop :=
  forall sf off ro sz, nonneg_at p sf ->
  match view_dims p o with
  | Some p' =>
    lwf p' /\
    (forall ix, valid_at p' ix -> valid_at p (pull p o ix)) /\
    (forall ix ix', makes_readonly p o = false -> valid_at p' ix -> valid_at p' ix' ->
       same_at p (pull p o ix) (pull p o ix') -> same_at p' ix ix') /\
    exists c sf' off' ro' sz',
      view_step (SV p sf off ro sz) o = Ok (c, SV p' sf' off' ro' sz') /\ nonneg_at p' sf' /\
      (if c : bool
       then sz' = vol (extents p) /\ ro' = false /\ makes_readonly p o = false /\
            forall ix, valid_at p' ix -> off' + asum p' sf' ix = position (extents p) (map (pull p o ix) (keys p))
       else sz' = sz /\ ro' = (ro || makes_readonly p o) /\
            forall ix, valid_at p' ix -> off' + asum p' sf' ix = off + asum p sf (pull p o ix))
  | None => exists e, view_step (SV p sf off ro sz) o = Throw e
  end.

Lemma lwf_app a k n b : lwf (a ++ (k, n) :: b) -> lwf (a ++ b) /\ 0 <= n /\ ~ In k (keys a) /\ ~ In k (keys b) /\ k <> InvalidDim.
Proof.
  intros (Hnd & Hf & Hi). destruct (NoDup_split_not _ _ _ _ Hnd) as [Ha Hb].
  rewrite extents_app in Hf. apply Forall_app in Hf as [Hf1 Hf2]. inversion Hf2; subst.
  rewrite keys_app in Hnd, Hi. simpl in Hnd, Hi. rewrite in_app_iff in Hi. simpl in Hi.
  split; [|intuition].
  split; [|split].
  - rewrite keys_app. eapply NoDup_remove_1; eassumption.
  - rewrite extents_app. apply Forall_app. auto.
  - rewrite keys_app, in_app_iff. tauto.
Qed.
Lemma lwf_app_inv a k n b : lwf (a ++ b) -> 0 <= n -> ~ In k (keys a) -> ~ In k (keys b) -> k <> InvalidDim ->
  lwf (a ++ (k, n) :: b).
Proof.
  intros (Hnd & Hf & Hi) Hn Ha Hb Hk. rewrite keys_app in Hnd, Hi. rewrite extents_app in Hf.
  apply Forall_app in Hf as [Hf1 Hf2]. split; [|split].
  - rewrite keys_app. simpl. apply NoDup_Add with (a := k) (l := keys a ++ keys b); [apply Add_app|].
    rewrite in_app_iff. tauto.
  - rewrite extents_app. apply Forall_app. split; [assumption|]. constructor; assumption.
  - rewrite keys_app. simpl. rewrite in_app_iff in *. simpl. intuition.
Qed.

Lemma nonneg_app a b sf : nonneg_at (a ++ b) sf <-> nonneg_at a sf /\ nonneg_at b sf.
Proof.
  unfold nonneg_at. rewrite keys_app. split.
  - intros Hs. split; intros k Hk; apply Hs, in_or_app; auto.
  - intros [Ha Hb] k Hk. apply in_app_or in Hk as [Hk|Hk]; auto.
Qed.
Lemma nonneg_cons k n b sf : nonneg_at ((k, n) :: b) sf <-> 0 <= sf k /\ nonneg_at b sf.
Proof.
  unfold nonneg_at. simpl. split; [intros Hs; split; [apply Hs; auto|intros; apply Hs; auto]|].
  intros [Ha Hb] j [->|Hj]; auto.
Qed.
Lemma nonneg_put p sf k x : nonneg_at p sf -> 0 <= x -> nonneg_at p (put sf k x).
Proof. intros Hs Hx j Hj. unfold put. destruct (j =? k); [assumption|apply Hs, Hj]. Qed.

Lemma slice_step_ok p s : lwf p -> slice_ok s -> step_ok p (VwSlice s).
Proof.
  intros Hp Hs sf off ro sz Hnn. pose proof (var_slice_ok p sf off ro sz s Hp Hs) as Hv.
  cbn [view_dims view_step pull makes_readonly].
  destruct (slice_dims p s) as [p'|] eqn:Ep; [|rewrite Hv; eexists; reflexivity].
  rewrite Hv. cbn [bind]. clear Hv. unfold slice_dims, sl_sf, sl_off in *.
  destruct (slice_eqb s slice_default) eqn:Ed.
  - injection Ep as <-. split; [assumption|]. split; [auto|]. split; [auto|].
    exists false, sf, off, ro, sz. split; [reflexivity|]. split; [assumption|]. rewrite orb_false_r. auto.
  - destruct Hs as [->|(Hb & Hst & He)]; [discriminate|]. cbn [orb].
    destruct (extent p (s_dim s)) as [n|] eqn:E; [|discriminate].
    destruct (extent_split _ _ _ E) as (p1 & p2 & -> & Hk1).
    destruct (lwf_app _ _ _ _ Hp) as (Hp12 & Hn & _ & Hk2 & Hki).
    rewrite filter_split in Ep by assumption. rewrite map_split in Ep by assumption. cbn [fst] in Ep.
    destruct (Z.eqb_spec (s_end s) (-1)) as [Ee|Ee].
    + destruct (Z.ltb_spec (s_begin s) n) as [Hbn|]; [|discriminate]. injection Ep as <-.
      apply nonneg_app in Hnn as [Hn1 Hn2]. apply nonneg_cons in Hn2 as [Hnk Hn2].
      split; [assumption|]. split; [|split].
      * intros ix Hix. apply valid_at_app in Hix as [Hi1 Hi2].
        rewrite valid_at_app, valid_at_cons, !valid_at_put, put_same by assumption. intuition.
      * intros ix ix' _ _ _ Hsame. rewrite same_at_app, same_at_cons in Hsame. destruct Hsame as (Hs1 & _ & Hs2).
        apply same_at_app. split; intros j Hj; [specialize (Hs1 j Hj)|specialize (Hs2 j Hj)];
        rewrite !put_other in * by (intros ->; contradiction); assumption.
      * exists false, sf, (off + s_begin s * sf (s_dim s)), ro, sz. split; [reflexivity|].
        split; [apply nonneg_app; auto|]. rewrite orb_false_r. split; [reflexivity|]. split; [reflexivity|].
        intros ix Hix. rewrite !asum_app, asum_cons, !asum_put, put_same by assumption. lia.
    + destruct (Z.leb_spec (s_end s) n) as [Hen|]; [|discriminate]. injection Ep as <-.
      apply nonneg_app in Hnn as [Hn1 Hn2]. apply nonneg_cons in Hn2 as [Hnk Hn2].
      split; [apply lwf_app_inv; auto; apply ceil_div_nonneg; lia|]. split; [|split].
      * intros ix Hix. apply valid_at_app in Hix as [Hi1 Hi2]. apply valid_at_cons in Hi2 as [Hik Hi2].
        rewrite valid_at_app, valid_at_cons, !valid_at_put, put_same by assumption.
        destruct Hik as [Hik0 Hik]. apply ceil_div_count in Hik; [|lia|lia|lia].
        assert (0 <= s_stride s * ix (s_dim s)) by (apply Z.mul_nonneg_nonneg; lia).
        split; [assumption|]. split; [lia|assumption].
      * intros ix ix' _ _ _ Hsame. rewrite same_at_app, same_at_cons in *. destruct Hsame as (Hs1 & Hsk & Hs2).
        rewrite !put_same in Hsk. split; [|split].
        -- intros j Hj. specialize (Hs1 j Hj). rewrite !put_other in * by (intros ->; contradiction). assumption.
        -- nia.
        -- intros j Hj. specialize (Hs2 j Hj). rewrite !put_other in * by (intros ->; contradiction). assumption.
      * exists false, (put sf (s_dim s) (sf (s_dim s) * s_stride s)), (off + s_begin s * sf (s_dim s)), ro, sz.
        split; [reflexivity|].
        split; [apply nonneg_app; split; [apply nonneg_put; auto; nia|]; apply nonneg_cons; split;
                [rewrite put_same; nia|apply nonneg_put; auto; nia]|].
        rewrite orb_false_r. split; [reflexivity|]. split; [reflexivity|].
        intros ix Hix. rewrite !asum_app, !asum_cons, !asum_put, !asum_put_sf, !put_same by assumption. lia.
Qed.

Lemma const_step_ok p : lwf p -> step_ok p VwConst.
Proof.
  intros Hp sf off ro sz Hnn. cbn [view_dims view_step pull makes_readonly].
  split; [assumption|]. split; [auto|]. split; [discriminate|].
  exists false, sf, off, true, sz. split; [reflexivity|]. split; [assumption|]. rewrite orb_true_r. auto.
Qed.

(** ** Broadcast *)
Lemma has_mk p k n : has (mk p) k n <-> In (k, n) p.
Proof. unfold has. rewrite pairs_mk. reflexivity. Qed.

Lemma broadcast_strides_ok p sf ls : NoDup (keys p) ->
  broadcast_strides (mk p) (map sf (keys p)) ls = Ok (map (fun l => if mem l (keys p) then sf l else 0) ls).
Proof.
  intros Hnd. induction ls as [|l ls IH]; cbn [broadcast_strides map]; [reflexivity|].
  rewrite IH, dcontains_mk. destruct (mem l (keys p)) eqn:E; [|reflexivity].
  apply mem_In, In_keys in E as [n Hn]. apply extent_In in Hn; [|assumption].
  destruct (extent_split _ _ _ Hn) as (p1 & p2 & -> & Hk).
  rewrite dindex_sp by assumption. cbn [bind]. rewrite stride_sp. reflexivity.
Qed.

Lemma broadcast_dims_iff p q : NoDup (keys p) -> NoDup (keys q) ->
  broadcast_dims p q = (if forallb (fun e => match extent q (fst e) with Some n => n =? snd e | None => false end) p then Some q else None) /\
  (forallb (fun e => match extent q (fst e) with Some n => n =? snd e | None => false end) p = true <-> incl p q).
Proof.
  intros Hp Hq. split; [reflexivity|]. rewrite forallb_forall. unfold incl. split.
  - intros Hall [k n] Hin. specialize (Hall _ Hin). cbn [fst snd] in Hall.
    destruct (extent q k) as [m|] eqn:E; [|discriminate]. apply Z.eqb_eq in Hall. subst.
    apply extent_In; assumption.
  - intros Hinc [k n] Hin. cbn [fst snd]. apply Hinc, extent_In in Hin; [|assumption]. rewrite Hin. apply Z.eqb_refl.
Qed.

Lemma vol_perm a b : Permutation a b -> vol a = vol b.
Proof. induction 1; cbn [vol] in *; nia. Qed.
Lemma vol_one l : Forall (fun n => 0 < n) l -> vol l = 1 -> Forall (fun n => n = 1) l.
Proof.
  induction 1 as [|n l Hn Hf IH]; intros Hv; [constructor|]. cbn [vol] in Hv.
  pose proof (vol_pos _ Hf). assert (n = 1) by nia. subst. constructor; [reflexivity|]. apply IH. lia.
Qed.
Lemma incl_NoDup_perm (p q : list (Z * Z)) : NoDup (keys p) -> NoDup (keys q) -> incl p q ->
  Permutation q (p ++ filter (fun e => negb (mem (fst e) (keys p))) q).
Proof.
  intros Hp Hq Hinc. apply NoDup_Permutation.
  - unfold keys in Hq. apply NoDup_map_inv in Hq. assumption.
  - apply NoDup_map_inv with (f := fst). fold (keys (p ++ filter (fun e => negb (mem (fst e) (keys p))) q)).
    rewrite keys_app. assert (Hd : forall k, In k (keys (filter (fun e => negb (mem (fst e) (keys p))) q)) -> ~ In k (keys p)).
    { intros k Hk. apply In_keys in Hk as [n Hn]. apply filter_In in Hn as [_ Hn]. apply negb_true_iff, mem_nIn in Hn. assumption. }
    assert (Hn2 : NoDup (keys (filter (fun e => negb (mem (fst e) (keys p))) q))).
    { clear Hinc Hd Hp. unfold keys in *. induction q as [|e q IH]; [constructor|]. simpl. simpl in Hq. inversion Hq as [|? ? Hni Hnd]; subst.
      destruct (negb (mem (fst e) (map fst p))); [|auto]. simpl. constructor; [|auto].
      intros Hin. apply Hni. apply in_map_iff in Hin as (x & Hx & Hin). apply filter_In in Hin as [Hin _].
      apply in_map_iff. eauto. }
    revert Hd Hn2. generalize (keys (filter (fun e => negb (mem (fst e) (keys p))) q)) as r. intros r Hd Hn2. clear Hinc.
    induction (keys p) as [|a l IH]; [assumption|]. simpl. inversion Hp; subst. constructor.
    + rewrite in_app_iff. intros [Hin|Hin]; [contradiction|]. apply (Hd a Hin). left. reflexivity.
    + apply IH; auto. intros k Hk Hkl. apply (Hd k Hk). right. assumption.
  - intros [k n]. rewrite in_app_iff, filter_In, negb_true_iff, mem_nIn. cbn [fst]. split.
    + intros Hin. destruct (in_dec Z.eq_dec k (keys p)) as [Hk|Hk]; [left|right; auto].
      apply In_keys in Hk as [m Hm]. pose proof (Hinc _ Hm) as Hm'. apply extent_In in Hin, Hm'; try assumption.
      assert (m = n) by congruence. subst. assumption.
    + intros [Hin|[Hin _]]; auto.
Qed.

Lemma broadcast_step_ok p t : lwf p -> wf t -> step_ok p (VwBroadcast t).
Proof.
  intros Hp Ht sf off ro sz Hnn. cbn [view_dims view_step pull makes_readonly].
  apply wf_lwf in Ht as [Hq Hlen]. pose proof (mk_pairs t Hlen) as Et.
  remember (pairs t) as q eqn:Eq. clear Eq. subst t. clear Hlen.
  destruct (broadcast_dims_iff p q (proj1 Hp) (proj1 Hq)) as [-> Hiff].
  unfold var_broadcast. cbn [v_dims v_strides SV].
  destruct (includes_ok (mk q) (mk p) (wf_wfm _ (mk_wf _ Hq)) (wf_wfm _ (mk_wf _ Hp))) as (r & -> & Hr). cbn [bind].
  assert (Hri : r = true <-> incl p q).
  { rewrite Hr. split.
    - intros Hh [k n] Hin. apply has_mk, Hh, has_mk. assumption.
    - intros Hinc k n Hh. apply has_mk, Hinc, has_mk. assumption. }
  destruct (forallb _ p).
  2:{ destruct r; [exfalso|eexists; reflexivity]. destruct Hiff, Hri. intuition. }
  assert (Hinc : incl p q) by (apply Hiff; reflexivity). replace r with true by (symmetry; apply Hri; assumption).
  cbn [negb]. rewrite !volume_vol.
  change (labels (mk q)) with (keys q). change (shape (mk q)) with (extents q). change (shape (mk p)) with (extents p).
  pose proof (incl_NoDup_perm p q (proj1 Hp) (proj1 Hq) Hinc) as Hperm.
  split; [assumption|]. split; [|split].
  - intros ix Hix k n Hin. apply Hix, Hinc, Hin.
  - intros ix ix' Hro Hix Hix' Hsame k Hk. apply negb_false_iff, Z.eqb_eq in Hro.
    destruct (in_dec Z.eq_dec k (keys p)) as [Hkp|Hkp]; [apply Hsame; assumption|].
    set (rest := filter (fun e => negb (mem (fst e) (keys p))) q) in *.
    assert (Hv : vol (extents q) = vol (extents p) * vol (extents rest)).
    { rewrite <- vol_app, <- extents_app. apply vol_perm. unfold extents. apply Permutation_map. assumption. }
    assert (Hpos : Forall (fun n => 0 < n) (extents q)).
    { apply Forall_forall. intros n Hn. unfold extents in Hn. apply in_map_iff in Hn as ([k' n'] & <- & Hin).
      specialize (Hix _ _ Hin). cbn [snd]. lia. }
    assert (Hposr : Forall (fun n => 0 < n) (extents rest)).
    { rewrite Forall_forall in *. intros n Hn. apply Hpos. unfold extents in *. apply in_map_iff in Hn as (e & He & Hin).
      apply in_map_iff. exists e. split; [assumption|]. apply filter_In in Hin. tauto. }
    assert (Hone : Forall (fun n => n = 1) (extents rest)).
    { apply vol_one; [assumption|]. pose proof (vol_pos _ Hpos). pose proof (vol_pos _ Hposr). nia. }
    apply In_keys in Hk as [n Hn].
    assert (n = 1).
    { rewrite Forall_forall in Hone. apply Hone. unfold extents. apply in_map_iff. exists (k, n). split; [reflexivity|].
      apply filter_In. split; [assumption|]. apply negb_true_iff, mem_nIn. assumption. }
    specialize (Hix _ _ Hn). specialize (Hix' _ _ Hn). lia.
  - rewrite broadcast_strides_ok by apply Hp. cbn [bind].
    exists false, (fun l => if mem l (keys p) then sf l else 0).
    exists off, (ro || negb (vol (extents q) =? vol (extents p))), sz. split; [|split; [|split; [|split]]].
    + destruct (vol (extents q) =? vol (extents p)); cbn [negb]; rewrite ?orb_false_r, ?orb_true_r; reflexivity.
    + intros k Hk. destruct (mem k (keys p)) eqn:E; [apply Hnn, mem_In; assumption|lia].
    + reflexivity.
    + reflexivity.
    + intros ix Hix. f_equal. unfold asum.
      rewrite (lsum_perm _ (keys q) (keys (p ++ filter (fun e => negb (mem (fst e) (keys p))) q)))
        by (unfold keys at 1 2; apply Permutation_map; assumption).
      rewrite keys_app, lsum_app.
      rewrite (lsum_zero _ (keys (filter _ q))).
      * rewrite Z.add_0_r. apply lsum_ext. intros k Hk. apply mem_In in Hk. rewrite Hk. reflexivity.
      * intros k Hk. apply In_keys in Hk as [n Hn]. apply filter_In in Hn as [_ Hn]. cbn [fst] in Hn.
        apply negb_true_iff in Hn. rewrite Hn. reflexivity.
Qed.

(** ** Transpose *)
Lemma strides_into_ok sf rest : forall dn, NoDup (keys (dn ++ rest)) -> nonneg_at rest sf ->
  strides_into (mk (dn ++ rest)) (keys rest) (map sf (keys rest)) = Ok (mk (dn ++ map (fun e => (fst e, sf (fst e))) rest)).
Proof.
  induction rest as [|[k n] rest IH]; intros dn Hnd Hnn; [reflexivity|]. cbn [keys map fst strides_into].
  fold (keys rest). apply nonneg_cons in Hnn as [Hk Hnn]. destruct (NoDup_split_not _ _ _ _ Hnd) as [Hd _].
  rewrite resize_sp by assumption. cbn [bind].
  replace (dn ++ (k, sf k) :: rest) with ((dn ++ [(k, sf k)]) ++ rest) by (rewrite <- app_assoc; reflexivity).
  rewrite IH; [|rewrite !keys_app in *; simpl; rewrite <- app_assoc; assumption|assumption].
  rewrite <- app_assoc. reflexivity.
Qed.

Lemma pairs_determined t p : wf t -> lwf p -> incl (labels t) (keys p) -> same_extents t (mk p) ->
  t = mk (map (fun k => (k, ext p k)) (labels t)).
Proof.
  intros Ht Hp Hinc Hsame. pose proof (mk_pairs t (proj1 (proj2 Ht))) as E. rewrite <- E at 1. f_equal.
  apply wf_lwf in Ht as [Hlt Hlen]. replace (labels t) with (keys (pairs t)) by (unfold labels; rewrite <- E at 2; reflexivity).
  assert (Hall : forall k n, In (k, n) (pairs t) -> ext p k = n).
  { intros k n Hin. apply ext_In; [apply Hp|]. apply has_mk, Hsame. assumption. }
  revert Hall. generalize (pairs t) as q. induction q as [|[k n] q IH]; intros Hall; [reflexivity|].
  cbn [keys map fst]. rewrite (Hall k n) by (left; reflexivity). f_equal. apply IH. intros; apply Hall; right; assumption.
Qed.

Definition real_order (p : list (Z * Z)) (order : list Z) : list Z :=
  match order with [] => rev (keys p) | _ => order end.

Lemma rev_as_ext p : NoDup (keys p) -> rev p = map (fun k => (k, ext p k)) (rev (keys p)).
Proof.
  intros Hnd. rewrite map_rev. f_equal. unfold keys. rewrite map_map. symmetry.
  transitivity (map (fun e => e) p); [|apply map_id]. apply map_ext_in. intros [k n] Hin. cbn [fst].
  rewrite (ext_In p k n); auto.
Qed.

Lemma transpose_dims_ok p order : lwf p ->
  match transpose_dims p order with
  | Some p' => p' = map (fun k => (k, ext p k)) (real_order p order) /\ Permutation (real_order p order) (keys p)
  | None => order <> [] /\ ~ Permutation order (keys p)
  end.
Proof.
  intros Hp. unfold transpose_dims, real_order. destruct order as [|x l].
  - split; [apply rev_as_ext, Hp|]. apply Permutation_sym, Permutation_rev.
  - set (o := x :: l) in *. assert (Ho : o <> []) by discriminate. clearbody o.
    destruct ((zlen o =? zlen p) && no_dup o && forallb (fun k => mem k (keys p)) o) eqn:E.
    + split; [reflexivity|]. rewrite !andb_true_iff, no_dup_NoDup, forallb_forall in E. destruct E as [[El En] Ei].
      apply NoDup_Permutation_bis; [assumption| |].
      * unfold keys. rewrite map_length. unfold zlen in El. lia.
      * intros k Hk. apply mem_In, Ei, Hk.
    + split; [assumption|]. intros HP. assert (Ht : (zlen o =? zlen p) && no_dup o && forallb (fun k => mem k (keys p)) o = true); [|congruence].
      rewrite !andb_true_iff, no_dup_NoDup, forallb_forall. split; [split|].
      * apply Permutation_length in HP. unfold keys in HP. rewrite map_length in HP. unfold zlen. lia.
      * apply (Permutation_NoDup (Permutation_sym HP)), Hp.
      * intros k Hk. apply mem_In. apply (Permutation_in _ HP), Hk.
Qed.

Lemma dims_transpose_mk p order : lwf p ->
  match transpose_dims p order with
  | Some p' => dims_transpose (mk p) order = Ok (mk p')
  | None => dims_transpose (mk p) order = Throw DimensionError
  end.
Proof.
  intros Hp. pose proof (transpose_dims_ok p order Hp) as Ht.
  destruct (dims_transpose_ok (mk p) order (mk_wf _ Hp)) as (H1 & H2 & t0 & H3 & Hw3 & Hl3 & Hs3).
  destruct (transpose_dims p order) as [p'|].
  - destruct Ht as [-> HP]. unfold real_order in *. destruct order as [|x l].
    + rewrite H3. f_equal. change (labels (mk p)) with (keys p) in Hl3. rewrite <- Hl3. apply pairs_determined; auto.
      rewrite Hl3. intros k Hk. rewrite <- in_rev in Hk. assumption.
    + destruct (H1 ltac:(discriminate) HP) as (t & -> & Hw & Hl & Hs). f_equal. rewrite <- Hl. apply pairs_determined; auto.
      rewrite Hl. intros k Hk. apply (Permutation_in _ HP), Hk.
  - destruct Ht as [Hne Hnp]. apply H2; assumption.
Qed.

Lemma keys_ext p ls : keys (map (fun k => (k, ext p k)) ls) = ls.
Proof. unfold keys. rewrite map_map. cbn [fst]. apply map_id. Qed.
Lemma In_map_ext p ls k n : In (k, n) (map (fun k => (k, ext p k)) ls) <-> In k ls /\ n = ext p k.
Proof.
  rewrite in_map_iff. split.
  - intros (x & [= <- <-] & Hx). auto.
  - intros [Hk ->]. exists k. auto.
Qed.

Lemma transpose_step_ok p order : lwf p -> step_ok p (VwTranspose order).
Proof.
  intros Hp sf off ro sz Hnn. cbn [view_dims view_step pull makes_readonly].
  pose proof (dims_transpose_mk p order Hp) as Hd. pose proof (transpose_dims_ok p order Hp) as Ho.
  set (ps := map (fun e : Z * Z => (fst e, sf (fst e))) p).
  assert (Hks : keys ps = keys p) by (unfold ps, keys; rewrite map_map; reflexivity).
  assert (Hps : lwf ps).
  { unfold lwf. rewrite Hks. split; [apply Hp|]. split; [|apply Hp]. apply Forall_forall. intros n Hn.
    unfold extents, ps in Hn. rewrite map_map in Hn. cbn [snd] in Hn. apply in_map_iff in Hn as (e & <- & He).
    apply Hnn. unfold keys. apply in_map. assumption. }
  assert (Hext : forall k, In k (keys p) -> ext ps k = sf k).
  { intros k Hk. apply ext_In; [apply Hps|]. unfold ps. apply in_map_iff. apply in_map_iff in Hk as (e & <- & He).
    exists e. auto. }
  pose proof (dims_transpose_mk ps order Hps) as Hds. pose proof (transpose_dims_ok ps order Hps) as Hos.
  unfold var_transpose, strides_transpose. cbn [v_dims v_strides SV].
  change (m_keys (mk p)) with (keys p).
  pose proof (strides_into_ok sf p [] (proj1 Hp) Hnn) as Hsi. cbn [app] in Hsi. rewrite Hsi. cbn [bind]. fold ps.
  destruct (transpose_dims p order) as [p'|].
  - destruct Ho as [-> HP].
    destruct (transpose_dims ps order) as [ps'|].
    2:{ exfalso. destruct Hos as [Hne Hnp]. rewrite Hks in Hnp. apply Hnp. unfold real_order in HP.
        destruct order; [congruence|assumption]. }
    destruct Hos as [-> _]. rewrite Hds. cbn [bind]. rewrite Hd. cbn [bind].
    assert (Hro : real_order ps order = real_order p order) by (unfold real_order; rewrite Hks; reflexivity).
    rewrite Hro. set (ls := real_order p order) in *.
    assert (HinP : forall k, In k ls <-> In k (keys p)).
    { intros k. split; [apply (Permutation_in _ HP)|apply (Permutation_in _ (Permutation_sym HP))]. }
    split; [|split; [|split]].
    + split; [|split].
      * rewrite keys_ext. apply (Permutation_NoDup (Permutation_sym HP)), Hp.
      * apply Forall_forall. intros n Hn. unfold extents in Hn. rewrite map_map in Hn. cbn [snd] in Hn.
        apply in_map_iff in Hn as (k & <- & Hk). apply HinP, In_keys in Hk as [n Hn].
        rewrite (ext_In p k n) by (try assumption; apply Hp). destruct Hp as (_ & Hf & _).
        rewrite Forall_forall in Hf. apply Hf. unfold extents. apply in_map_iff. exists (k, n). auto.
      * rewrite keys_ext, HinP. apply Hp.
    + intros ix Hix k n Hin. apply Hix. apply In_map_ext. split; [apply HinP, In_keys; eauto|].
      symmetry. apply ext_In; [apply Hp|assumption].
    + intros ix ix' _ _ _ Hsame k Hk. rewrite keys_ext in Hk. apply Hsame, HinP, Hk.
    + exists false, sf, off, ro, sz. split; [|split; [|split; [|split]]].
      * unfold SV. rewrite keys_ext. do 3 f_equal. unfold shape, mk; cbn [m_values]. unfold extents. rewrite map_map.
        cbn [snd]. apply map_ext_in. intros k Hk. apply Hext, HinP, Hk.
      * intros k Hk. rewrite keys_ext in Hk. apply Hnn, HinP, Hk.
      * reflexivity.
      * rewrite orb_false_r. reflexivity.
      * intros ix _. f_equal. unfold asum. rewrite keys_ext. apply lsum_perm. assumption.
  - destruct Ho as [Hne Hnp]. destruct (transpose_dims ps order) as [ps'|].
    + exfalso. destruct Hos as [_ HP]. rewrite Hks in HP. unfold real_order in HP. destruct order; [congruence|contradiction].
    + rewrite Hds. eexists; reflexivity.
Qed.

(** ** Rename *)
Lemma rename_step p f t : lwf p -> In f (keys p) -> (f = t \/ ~ In t (keys p)) -> t <> InvalidDim ->
  let p' := map (fun e : Z * Z => (if fst e =? f then t else fst e, snd e)) p in
  lwf p' /\ keys p' = map (fun x => if x =? f then t else x) (keys p) /\ extents p' = extents p /\
  mreplace_key Z.eqb (mk p) f t = Ok (mk p') /\
  (forall ix, valid_at p' ix -> valid_at p (put ix f (ix t))) /\
  (forall ix ix', same_at p (put ix f (ix t)) (put ix' f (ix' t)) -> same_at p' ix ix') /\
  (forall sf, map (put sf t (sf f)) (keys p') = map sf (keys p) /\
     forall ix, asum p' (put sf t (sf f)) ix = asum p sf (put ix f (ix t))).
Proof.
  intros Hp Hf Ht Hti p'.
  assert (Hk : keys p' = map (fun x => if x =? f then t else x) (keys p)) by (unfold p', keys; rewrite !map_map; reflexivity).
  assert (He : extents p' = extents p) by (unfold p', extents; rewrite !map_map; reflexivity).
  assert (Hcase : forall x, In x (keys p) -> x <> f -> x <> t) by (intros x Hx Hxf ->; destruct Ht; congruence).
  assert (Hin : forall k n, In (k, n) p' <-> exists j, In (j, n) p /\ k = if j =? f then t else j).
  { intros k n. unfold p'. rewrite in_map_iff. split.
    - intros ([j m] & [= <- <-] & Hjm). eauto.
    - intros (j & Hjn & ->). exists (j, n). auto. }
  split; [|split; [assumption|split; [assumption|split; [|split; [|split]]]]].
  - split; [|split].
    + rewrite Hk. apply map_subst_NoDup; [apply Hp|assumption].
    + rewrite He. apply Hp.
    + rewrite Hk. intros Hin0. apply in_map_iff in Hin0 as (x & Hx & Hxin). destruct (x =? f); [congruence|].
      subst. destruct Hp as (_ & _ & Hp). contradiction.
  - rewrite mreplace_key_same; [|apply Hp|assumption].
    replace (negb (f =? t) && memb (mk p) t) with false.
    + unfold mk. rewrite Hk, He. reflexivity.
    + destruct (Z.eqb_spec f t); [reflexivity|]. simpl. symmetry. apply not_true_is_false. rewrite memb_In.
      change (m_keys (mk p)) with (keys p). tauto.
  - intros ix Hix k n Hkn. unfold put. destruct (Z.eqb_spec k f) as [->|Hne].
    + apply Hix, Hin. exists f. rewrite Z.eqb_refl. auto.
    + apply Hix, Hin. exists k. destruct (Z.eqb_spec k f); [contradiction|auto].
  - intros ix ix' Hs k Hkin. rewrite Hk in Hkin. apply in_map_iff in Hkin as (x & Hx & Hxin).
    specialize (Hs x Hxin). unfold put in Hs. destruct (Z.eqb_spec x f); subst; assumption.
  - intros sf. split.
    + rewrite Hk, map_map. apply map_ext_in. intros x Hx. destruct (Z.eqb_spec x f); subst; [apply put_same|].
      apply put_other. auto.
    + intros ix. unfold asum. rewrite Hk. unfold lsum. rewrite map_map. f_equal. apply map_ext_in. intros x Hx.
      destruct (Z.eqb_spec x f) as [->|Hne]; [rewrite !put_same; reflexivity|]. rewrite !put_other by auto. reflexivity.
Qed.

Lemma rename_step_ok names : forall p flag, lwf p -> ~ In InvalidDim (map snd names) ->
  step_ok p (VwRename names flag).
Proof.
  induction names as [|[f t] names IH]; intros p flag Hp Hn sf off ro sz Hnn;
  cbn [view_dims view_step pull makes_readonly rename_pairs pull_rename var_rename].
  - split; [assumption|]. split; [auto|]. split; [auto|].
    exists false, sf, off, ro, sz. split; [reflexivity|]. split; [assumption|]. rewrite orb_false_r. auto.
  - cbn [map snd] in Hn. assert (Ht0 : t <> InvalidDim) by (intros ->; apply Hn; left; reflexivity).
    assert (Hn' : ~ In InvalidDim (map snd names)) by (intros Hx; apply Hn; right; assumption).
    unfold var_rename. cbn [v_dims v_strides SV rename_dims]. rewrite dcontains_mk.
    destruct (mem f (keys p)) eqn:Ef.
    + apply mem_In in Ef. destruct (negb (f =? t) && mem t (keys p)) eqn:Et.
      * rewrite mreplace_key_same; [|apply Hp|assumption].
        replace (memb (mk p) t) with (mem t (keys p)) by reflexivity. rewrite Et. eexists; reflexivity.
      * assert (Hor : f = t \/ ~ In t (keys p)).
        { apply andb_false_iff in Et as [Et|Et]; [left; apply negb_false_iff, Z.eqb_eq in Et; assumption|right; apply mem_nIn; assumption]. }
        pose proof (rename_step p f t Hp Ef Hor Ht0) as Hst. cbn zeta in Hst.
        set (p1 := map (fun e : Z * Z => (if fst e =? f then t else fst e, snd e)) p) in *.
        destruct Hst as (Hw1 & Hk1 & He1 & Hr1 & Hv1 & Hs1 & Hm1). destruct (Hm1 sf) as [Hmap Hsum].
        rewrite Hr1. cbn [bind].
        specialize (IH p1 flag Hw1 Hn' (put sf t (sf f)) off ro sz).
        cbn [view_dims view_step pull makes_readonly] in IH. unfold var_rename in IH. cbn [v_dims v_strides SV v_offset v_readonly v_size] in IH.
        rewrite Hmap in IH. cbn [v_offset v_readonly v_size].
        assert (Hnn1 : nonneg_at p1 (put sf t (sf f))).
        { intros k Hk. rewrite Hk1 in Hk. apply in_map_iff in Hk as (x & Hx & Hxin). unfold put.
          destruct (Z.eqb_spec k t); [apply Hnn; assumption|]. destruct (Z.eqb_spec x f); [congruence|]. subst. apply Hnn; assumption. }
        specialize (IH Hnn1). destruct (rename_pairs p1 names flag) as [p'|].
        -- destruct IH as (Hw' & Hv' & Hi' & c & sf' & off' & ro' & sz' & HE & Hnn' & Hc).
           split; [assumption|]. split; [|split].
           ++ intros ix Hix. apply Hv1, Hv', Hix.
           ++ intros ix ix' _ Hix Hix' Hsame. apply Hi'; auto.
           ++ exists c, sf', off', ro', sz'. split; [exact HE|]. split; [assumption|]. destruct c.
              ** exfalso. clear -HE. destruct (rename_dims (mk p1) names flag); discriminate.
              ** destruct Hc as (-> & -> & Hc). split; [reflexivity|]. split; [reflexivity|]. intros ix Hix.
                 rewrite Hc by assumption. f_equal. apply Hsum.
        -- exact IH.
    + destruct flag; [eexists; reflexivity|].
      specialize (IH p false Hp Hn' sf off ro sz Hnn).
      cbn [view_dims view_step pull makes_readonly] in IH. unfold var_rename in IH. cbn [v_dims v_strides SV] in IH.
      apply mem_nIn in Ef. destruct (rename_pairs p names false) as [p'|]; [|exact IH].
      destruct IH as (Hw' & Hv' & Hi' & c & sf' & off' & ro' & sz' & HE & Hnn' & Hc).
      split; [assumption|]. split; [|split].
      * intros ix Hix. apply valid_at_put; [assumption|]. apply Hv', Hix.
      * intros ix ix' _ Hix Hix' Hsame. apply Hi'; auto. intros k Hk. specialize (Hsame k Hk).
        rewrite !put_other in Hsame by (intros ->; contradiction). assumption.
      * exists c, sf', off', ro', sz'. split; [exact HE|]. split; [assumption|]. destruct c.
        -- exfalso. clear -HE. destruct (rename_dims (mk p) names false); discriminate.
        -- destruct Hc as (-> & -> & Hc). split; [reflexivity|]. split; [reflexivity|]. intros ix Hix.
           rewrite Hc by assumption. f_equal. symmetry. apply asum_put. assumption.
Qed.

(** ** Index vectors *)
Lemma valid_at_idx p ix : valid_at p ix <-> valid_idx (extents p) (map ix (keys p)).
Proof.
  induction p as [|[k n] p IH]; cbn [keys extents map fst snd].
  - split; [constructor|intros _ ? ? []].
  - rewrite valid_at_cons, IH. split; [intros [Ha Hb]; constructor; assumption|]. inversion 1; subst; auto.
Qed.
Lemma puts_notin ls : forall ix xs k, ~ In k ls -> puts ix ls xs k = ix k.
Proof.
  induction ls as [|l ls IH]; intros ix [|x xs] k Hk; try reflexivity. cbn [puts]. simpl in Hk.
  rewrite put_other by intuition. apply IH. tauto.
Qed.
Lemma puts_map ls : forall ix xs, NoDup ls -> length xs = length ls -> map (puts ix ls xs) ls = xs.
Proof.
  induction ls as [|l ls IH]; intros ix [|x xs] Hnd Hl; try discriminate; [reflexivity|].
  inversion Hnd; subst. cbn [puts map]. rewrite put_same. f_equal.
  rewrite <- (IH ix xs) at 2; [|assumption|simpl in Hl; lia]. apply map_ext_in. intros k Hk. apply put_other.
  intros ->. contradiction.
Qed.
Lemma index_at_length sh : forall k, length (index_at sh k) = length sh.
Proof. induction sh as [|n sh IH]; intros k; [reflexivity|]. simpl. rewrite IH. reflexivity. Qed.
Lemma map_eq_in (f g : Z -> Z) ls k : map f ls = map g ls -> In k ls -> f k = g k.
Proof.
  induction ls as [|l ls IH]; [contradiction|]. cbn [map]. intros [= E1 E2] [->|Hk]; auto.
Qed.
Lemma extents_keys_len p : length (extents p) = length (keys p).
Proof. unfold extents, keys. rewrite !map_length. reflexivity. Qed.
Lemma lwf_nonneg p : lwf p -> Forall (fun n => 0 <= n) (extents p).
Proof. intros Hp. apply Hp. Qed.
Lemma lwf_perm p q : Permutation p q -> lwf p -> lwf q.
Proof.
  intros HP (Hnd & Hf & Hi). split; [|split].
  - eapply Permutation_NoDup; [|exact Hnd]. unfold keys. apply Permutation_map. assumption.
  - eapply Permutation_Forall; [|exact Hf]. unfold extents. apply Permutation_map. assumption.
  - intros Hk. apply Hi. eapply Permutation_in; [|exact Hk]. unfold keys. apply Permutation_map, Permutation_sym. assumption.
Qed.
Lemma lwf_app2 p q : lwf (p ++ q) -> lwf p /\ lwf q.
Proof.
  intros (Hnd & Hf & Hi). rewrite keys_app in *. rewrite extents_app in *. apply Forall_app in Hf as [Hf1 Hf2].
  rewrite in_app_iff in Hi.
  assert (Hx : forall a b : list Z, NoDup (a ++ b) -> NoDup a /\ NoDup b).
  { induction a as [|x a IH]; intros b Hab; [split; [constructor|assumption]|]. inversion Hab; subst.
    destruct (IH b) as [Ha Hb]; [assumption|]. split; [|assumption]. constructor; [|assumption].
    intros Hx. apply H1, in_or_app. auto. }
  destruct (Hx _ _ Hnd). unfold lwf. tauto.
Qed.

(** Strides of a contiguous buffer. *)
Definition sfc (p : list (Z * Z)) : Z -> Z := puts (fun _ => 0) (keys p) (fst (row_major (extents p))).
Lemma sfc_map p : NoDup (keys p) -> map (sfc p) (keys p) = fst (row_major (extents p)).
Proof. intros Hnd. apply puts_map; [assumption|]. rewrite row_major_length. apply extents_keys_len. Qed.
Lemma sfc_cons k n p : NoDup (keys ((k, n) :: p)) -> sfc ((k, n) :: p) k = vol (extents p) /\
  forall j, In j (keys p) -> sfc ((k, n) :: p) j = sfc p j.
Proof.
  intros Hnd. cbn [keys map fst] in Hnd. inversion Hnd as [|? ? Hni Hnd']; subst.
  unfold sfc. change (keys ((k, n) :: p)) with (k :: keys p). change (extents ((k, n) :: p)) with (n :: extents p).
  rewrite row_major_strides. cbn [puts]. split; [apply put_same|].
  intros j Hj. apply put_other. intros ->. contradiction.
Qed.
Lemma sfc_split a : forall k n b, NoDup (keys (a ++ (k, n) :: b)) -> sfc (a ++ (k, n) :: b) k = vol (extents b).
Proof.
  induction a as [|[j m] a IH]; intros k n b Hnd; cbn [app] in *.
  - apply sfc_cons. assumption.
  - destruct (sfc_cons _ _ _ Hnd) as [_ Hs]. rewrite Hs.
    + apply IH. cbn [keys map] in Hnd. inversion Hnd; assumption.
    + rewrite keys_app. apply in_elt.
Qed.
Lemma asum_sfc p ix : lwf p -> valid_at p ix -> asum p (sfc p) ix = position (extents p) (map ix (keys p)).
Proof.
  intros Hp Hv. unfold asum. rewrite <- dot_lsum, sfc_map by apply Hp. apply dot_row_major, valid_at_idx, Hv.
Qed.
Lemma sfc_nonneg p : lwf p -> nonneg_at p (sfc p).
Proof.
  intros Hp k Hk. apply In_keys in Hk as [n Hn]. apply in_split in Hn as (a & b & ->).
  rewrite sfc_split by apply Hp. apply vol_nonneg. destruct (lwf_app2 _ _ Hp) as [_ Hb].
  destruct Hb as (_ & Hb & _). inversion Hb; assumption.
Qed.
Lemma fresh_SV p : NoDup (keys p) -> var_fresh (mk p) = SV p (sfc p) 0 false (vol (extents p)).
Proof.
  intros Hnd. unfold var_fresh, SV. rewrite volume_vol, sfc_map by assumption. reflexivity.
Qed.

(** ** Fold *)
Lemma add_inner_mk p k n : k <> InvalidDim -> 0 <= n ->
  add_inner (mk p) k n = if mem k (keys p) then Throw DimensionError else Ok (mk (p ++ [(k, n)])).
Proof.
  intros Hk Hn. unfold add_inner, valid_dim, valid_extent. destruct (Z.eqb_spec k InvalidDim); [contradiction|].
  cbn [bind]. replace (n <? 0) with false by lia. cbn [bind]. unfold minsert_right, mexpect_unique.
  fold (dcontains (mk p) k). rewrite dcontains_mk. destruct (mem k (keys p)); [reflexivity|]. cbn [bind].
  unfold mk. rewrite keys_app, extents_app. reflexivity.
Qed.
Lemma lookup_all_mk t : NoDup (keys t) -> lookup_all (mk t) (keys t) = Ok (extents t).
Proof.
  intros Hnd.
  assert (Hg : forall ls, incl ls (keys t) -> lookup_all (mk t) ls = Ok (map (ext t) ls)).
  { induction ls as [|l ls IH]; intros Hinc; [reflexivity|]. cbn [lookup_all map].
    rewrite dat_mk by assumption. unfold ext at 1. destruct (extent t l) eqn:E.
    - cbn [bind]. rewrite IH by (intros x Hx; apply Hinc; right; assumption). reflexivity.
    - apply extent_None in E. exfalso. apply E, Hinc. left. reflexivity. }
  rewrite Hg by apply incl_refl. f_equal. unfold keys, extents. rewrite map_map. apply map_ext_in.
  intros [k n] Hin. cbn [fst snd]. apply ext_In; assumption.
Qed.
Lemma add_inner_all_mk acc t : lwf acc -> lwf t ->
  add_inner_all (mk acc) (keys t) (extents t) = if no_dup (keys (acc ++ t)) then Ok (mk (acc ++ t)) else Throw DimensionError.
Proof.
  intros Ha Ht. destruct (add_inner_all_ok (keys t) (extents t) (mk acc)) as [H1 H2].
  - symmetry. apply extents_keys_len.
  - apply mk_wf; assumption.
  - change (m_keys (mk acc)) with (keys acc) in *. change (m_values (mk acc)) with (extents acc) in *.
    rewrite keys_app. destruct (no_dup (keys acc ++ keys t)) eqn:E.
    + apply no_dup_NoDup in E. destruct Ht as (_ & Hf & Hi). destruct H1 as ([ks vs] & -> & _ & Hk & Hv); [auto|].
      simpl in Hk, Hv. subst. unfold mk. rewrite keys_app, extents_app. reflexivity.
    + apply H2. intros (Hn & _). apply no_dup_NoDup in Hn. congruence.
Qed.
Lemma lwf_join a b : lwf a -> lwf b -> NoDup (keys (a ++ b)) -> lwf (a ++ b).
Proof.
  intros (_ & Hf & Hi) (_ & Hf' & Hi') Hnd. split; [assumption|]. rewrite extents_app, keys_app, in_app_iff.
  split; [apply Forall_app; auto|tauto].
Qed.
Lemma NoDup_app_l (a b : list Z) : NoDup (a ++ b) -> NoDup a.
Proof.
  induction a as [|x a IH]; intros Hab; [constructor|]. inversion Hab; subst. constructor; [|auto].
  intros Hx. apply H1, in_or_app. auto.
Qed.

Lemma fold_loop_mk p d t : lwf p -> lwf t -> forall rest acc, incl rest p -> lwf acc ->
  fold_loop (mk p) (mk t) (mk acc) d (keys rest) =
  let r := flat_map (fun e => if fst e =? d then t else [e]) rest in
  if no_dup (keys (acc ++ r)) then Ok (mk (acc ++ r)) else Throw DimensionError.
Proof.
  intros Hp Ht. induction rest as [|[k n] rest IH]; intros acc Hinc Hacc; cbn zeta.
  - cbn [keys map fold_loop flat_map]. rewrite app_nil_r.
    replace (no_dup (keys acc)) with true by (symmetry; apply no_dup_NoDup, Hacc). reflexivity.
  - cbn [keys map fst fold_loop flat_map]. fold (keys rest).
    assert (Hkn : In (k, n) p) by (apply Hinc; left; reflexivity).
    assert (Hinc' : incl rest p) by (intros x Hx; apply Hinc; right; assumption).
    assert (Hn : 0 <= n). { destruct Hp as (_ & Hf & _). rewrite Forall_forall in Hf. apply Hf. unfold extents. apply in_map_iff. exists (k, n). auto. }
    assert (Hk : k <> InvalidDim). { intros ->. destruct Hp as (_ & _ & Hi). apply Hi, In_keys. eauto. }
    set (chunk := if k =? d then t else [(k, n)]).
    assert (Hchunk : lwf chunk).
    { unfold chunk. destruct (k =? d); [assumption|]. split; [|split].
      - repeat constructor; intros [].
      - repeat constructor; assumption.
      - intros [E|[]]. cbn [fst] in E. congruence. }
    assert (Hstep : (if k =? d then do ns <- lookup_all (mk t) (labels (mk t)); add_inner_all (mk acc) (labels (mk t)) ns
                     else do m <- dat (mk p) k; add_inner (mk acc) k m) =
                    if no_dup (keys (acc ++ chunk)) then Ok (mk (acc ++ chunk)) else Throw DimensionError).
    { unfold chunk. destruct (k =? d).
      - change (labels (mk t)) with (keys t). rewrite lookup_all_mk by apply Ht. cbn [bind]. apply add_inner_all_mk; assumption.
      - rewrite dat_mk by apply Hp. assert (extent p k = Some n) as -> by (apply extent_In; [apply Hp|assumption]).
        cbn [bind]. rewrite add_inner_mk by assumption. rewrite keys_app. cbn [keys map fst]. fold (keys acc).
        destruct (mem k (keys acc)) eqn:E.
        + destruct (no_dup (keys acc ++ [k])) eqn:E2; [|reflexivity]. exfalso. apply no_dup_NoDup in E2.
          apply mem_In in E. apply NoDup_remove_2 in E2. rewrite app_nil_r in E2. contradiction.
        + replace (no_dup (keys acc ++ [k])) with true; [reflexivity|]. symmetry. apply no_dup_NoDup.
          apply mem_nIn in E. apply NoDup_Add with (a := k) (l := keys acc).
          * rewrite <- (app_nil_r (keys acc)) at 1. apply Add_app.
          * split; [apply Hacc|assumption]. }
    rewrite Hstep. clear Hstep. rewrite app_assoc.
    destruct (no_dup (keys (acc ++ chunk))) eqn:E.
    + cbn [bind]. rewrite IH; [reflexivity|assumption|]. apply lwf_join; auto. apply no_dup_NoDup. assumption.
    + cbn [bind]. rewrite keys_app. destruct (no_dup (keys (acc ++ chunk) ++ _)) eqn:E2; [|reflexivity].
      exfalso. apply no_dup_NoDup, NoDup_app_l, no_dup_NoDup in E2. congruence.
Qed.

Lemma flat_map_split (t : list (Z * Z)) p1 d n p2 : ~ In d (keys p1) -> ~ In d (keys p2) ->
  flat_map (fun e : Z * Z => if fst e =? d then t else [e]) (p1 ++ (d, n) :: p2) = p1 ++ t ++ p2.
Proof.
  intros Ha Hb. rewrite flat_map_app. cbn [flat_map fst]. rewrite Z.eqb_refl.
  assert (Hf : forall q, ~ In d (keys q) -> flat_map (fun e : Z * Z => if fst e =? d then t else [e]) q = q).
  { induction q as [|[a b] q IH]; cbn [flat_map keys map fst]; intros Hq; [reflexivity|]. simpl in Hq.
    destruct (Z.eqb_spec a d); [tauto|]. cbn [app]. rewrite IH by tauto. reflexivity. }
  rewrite !Hf by assumption. reflexivity.
Qed.

Lemma fold_strides_app d sub ls1 : forall st1 ls2 st2, length ls1 = length st1 -> ~ In d ls1 ->
  fold_strides d sub (ls1 ++ ls2) (st1 ++ st2) = do r <- fold_strides d sub ls2 st2; Ok (st1 ++ r).
Proof.
  induction ls1 as [|l ls1 IH]; intros [|s st1] ls2 st2 Hl Hd; try discriminate; cbn [app fold_strides].
  - destruct (fold_strides d sub ls2 st2); reflexivity.
  - simpl in Hd. rewrite IH by (simpl in Hl; try lia; tauto). destruct (Z.eqb_spec l d); [tauto|].
    destruct (fold_strides d sub ls2 st2); reflexivity.
Qed.
Lemma fold_strides_none d sub ls st : length ls = length st -> ~ In d ls -> fold_strides d sub ls st = Ok st.
Proof.
  intros Hl Hd. pose proof (fold_strides_app d sub ls st [] [] Hl Hd) as E. rewrite !app_nil_r in E.
  cbn [fold_strides bind] in E. rewrite app_nil_r in E. exact E.
Qed.

Lemma fold_step_ok p d t : lwf p -> wf t -> step_ok p (VwFold d t).
Proof.
  intros Hp Ht sf off ro sz Hnn. cbn [view_dims view_step pull makes_readonly].
  apply wf_lwf in Ht as [Hq Hlen]. pose proof (mk_pairs t Hlen) as Et.
  remember (pairs t) as q eqn:Eq. clear Eq. subst t. clear Hlen.
  unfold var_fold, dims_fold. cbn [v_dims v_strides SV]. rewrite dcontains_mk. unfold fold_dims.
  destruct (mem d (keys p)) eqn:Ed; [|eexists; reflexivity]. cbn [andb].
  change (labels (mk p)) with (keys p).
  pose proof (fold_loop_mk p d q Hp Hq p [] (incl_refl _)) as Hfl. cbn [app] in Hfl. cbn zeta in Hfl.
  change (@mempty Z Z) with (mk []). rewrite Hfl; [|split; [constructor|split; [constructor|intros []]]]. clear Hfl.
  set (r := flat_map (fun e => if fst e =? d then q else [e]) p).
  assert (Hr : r = flat_map (fun e : Z * Z => if fst e =? d then q else [e]) p) by reflexivity. clearbody r.
  destruct (no_dup (keys r)) eqn:End; [|eexists; reflexivity]. cbn [andb bind]. rewrite !volume_vol.
  change (shape (mk p)) with (extents p). change (shape (mk r)) with (extents r).
  destruct (Z.eqb_spec (vol (extents p)) (vol (extents r))) as [Hvol|]; [|eexists; reflexivity]. cbn [bind].
  apply mem_In, In_keys in Ed as [n Hn]. apply in_split in Hn as (p1 & p2 & ->).
  destruct (lwf_app _ _ _ _ Hp) as (Hp12 & Hn0 & Hk1 & Hk2 & Hki).
  rewrite flat_map_split in Hr by assumption. subst r. apply no_dup_NoDup in End.
  apply nonneg_app in Hnn as [Hn1 Hn2]. apply nonneg_cons in Hn2 as [Hnk Hn2].
  destruct (lwf_app2 _ _ Hp12) as [Hw1 Hw2].
  assert (Hwr : lwf (p1 ++ q ++ p2)).
  { apply lwf_perm with (q ++ p1 ++ p2).
    - rewrite !app_assoc. apply Permutation_app_tail, Permutation_app_comm.
    - apply lwf_join; auto. eapply Permutation_NoDup; [|exact End]. rewrite !keys_app, !app_assoc.
      apply Permutation_app_tail, Permutation_app_comm. }
  assert (Hdisj : forall k, In k (keys q) -> ~ In k (keys p1) /\ ~ In k (keys p2)).
  { intros k Hk. apply In_keys in Hk as [m Hm]. apply in_split in Hm as (q1 & q2 & ->).
    rewrite <- app_assoc in Hwr. cbn [app] in Hwr. rewrite app_assoc in Hwr. apply lwf_app in Hwr as (_ & _ & Ha & Hb & _).
    rewrite keys_app, in_app_iff in Ha, Hb. tauto. }
  split; [assumption|]. split; [|split].
  - intros ix Hix. rewrite valid_at_app, valid_at_app in Hix. destruct Hix as (Hi1 & Hi2 & Hi3).
    rewrite valid_at_app, valid_at_cons, !valid_at_put, put_same by assumption.
    split; [assumption|]. split; [|assumption].
    apply valid_at_idx in Hi1, Hi2, Hi3. pose proof (position_bound _ _ Hi2) as Hb.
    rewrite !extents_app, !vol_app in Hvol. cbn [extents map snd vol] in Hvol. fold (extents p2) in Hvol.
    pose proof (valid_vol_pos _ _ Hi1). pose proof (valid_vol_pos _ _ Hi3).
    assert (n = vol (extents q)); [|subst n; assumption]. 
    apply Z.mul_reg_l with (vol (extents p1)); [lia|]. apply Z.mul_reg_r with (vol (extents p2)); [lia|]. nia.
  - intros ix ix' _ Hix Hix' Hsame. rewrite valid_at_app, valid_at_app in Hix, Hix'.
    destruct Hix as (_ & Hi2 & _). destruct Hix' as (_ & Hi2' & _).
    rewrite same_at_app, same_at_cons in Hsame. destruct Hsame as (Hs1 & Hsd & Hs2). rewrite !put_same in Hsd.
    rewrite !same_at_app. split; [|split].
    + intros k Hk. specialize (Hs1 k Hk). rewrite !put_other in Hs1 by (intros ->; contradiction). assumption.
    + apply valid_at_idx in Hi2, Hi2'. intros k Hk. apply (map_eq_in ix ix' (keys q)); [|assumption].
      rewrite <- (index_at_position _ _ Hi2), <- (index_at_position _ _ Hi2'), Hsd. reflexivity.
    + intros k Hk. specialize (Hs2 k Hk). rewrite !put_other in Hs2 by (intros ->; contradiction). assumption.
  - rewrite keys_app. cbn [keys map fst]. fold (keys p1) (keys p2).
    rewrite map_app. rewrite fold_strides_app; [|rewrite map_length; reflexivity|assumption]. cbn [map fold_strides].
    rewrite fold_strides_none; [|rewrite map_length; reflexivity|assumption]. cbn [bind]. rewrite Z.eqb_refl.
    exists false, (fun k => if mem k (keys q) then sf d * sfc q k else sf k), off, ro, sz.
    split; [|split; [|split; [|split]]].
    + unfold SV. do 3 f_equal. rewrite !keys_app, !map_app. f_equal; [|f_equal].
      * apply map_ext_in. intros k Hk. destruct (mem k (keys q)) eqn:E; [|reflexivity].
        apply mem_In in E. destruct (Hdisj k E). contradiction.
      * unfold strides_of. change (shape (mk q)) with (extents q). rewrite <- sfc_map by apply Hq. rewrite map_map.
        apply map_ext_in. intros k Hk. apply mem_In in Hk. rewrite Hk. reflexivity.
      * apply map_ext_in. intros k Hk. destruct (mem k (keys q)) eqn:E; [|reflexivity].
        apply mem_In in E. destruct (Hdisj k E). contradiction.
    + intros k Hk. destruct (mem k (keys q)) eqn:E.
      * apply mem_In in E. apply Z.mul_nonneg_nonneg; [assumption|]. apply sfc_nonneg; assumption.
      * apply mem_nIn in E. rewrite !keys_app, !in_app_iff in Hk. destruct Hk as [Hk|[Hk|Hk]]; [apply Hn1|contradiction|apply Hn2]; assumption.
    + reflexivity.
    + rewrite orb_false_r. reflexivity.
    + intros ix Hix. rewrite valid_at_app, valid_at_app in Hix. destruct Hix as (_ & Hi2 & _).
      rewrite !asum_app, asum_cons, !asum_put, put_same by assumption.
      rewrite (asum_sf p1 _ sf), (asum_sf p2 _ sf).
      * rewrite <- asum_sfc by assumption.
        assert (Hb : asum q (fun k => if mem k (keys q) then sf d * sfc q k else sf k) ix = sf d * asum q (sfc q) ix).
        { unfold asum. rewrite <- lsum_scale. apply lsum_ext. intros k Hk. apply mem_In in Hk. rewrite Hk. lia. }
        rewrite Hb. lia.
      * intros k Hk. destruct (mem k (keys q)) eqn:E; [|reflexivity]. apply mem_In in E. destruct (Hdisj k E). contradiction.
      * intros k Hk. destruct (mem k (keys q)) eqn:E; [|reflexivity]. apply mem_In in E. destruct (Hdisj k E). contradiction.
Qed.

(** ** Squeeze *)
Lemma check_squeeze_ok p ds : NoDup (keys p) ->
  (forallb (fun d => match extent p d with Some n => n =? 1 | None => false end) ds = true -> check_squeeze (mk p) ds = Ok tt) /\
  (forallb (fun d => match extent p d with Some n => n =? 1 | None => false end) ds = false -> check_squeeze (mk p) ds = Throw DimensionError).
Proof.
  intros Hnd. induction ds as [|d ds [IH1 IH2]]; cbn [forallb check_squeeze]; [split; [reflexivity|discriminate]|].
  rewrite dat_mk by assumption. destruct (extent p d) as [n|]; [|split; [discriminate|reflexivity]]. cbn [bind].
  destruct (n =? 1); cbn [andb]; [auto|split; [discriminate|reflexivity]].
Qed.
Lemma length_1_dims_ok p : NoDup (keys p) -> forall q, incl q p ->
  length_1_dims (mk p) (keys q) = Ok (keys (filter (fun e => snd e =? 1) q)).
Proof.
  intros Hnd. induction q as [|[k n] q IH]; intros Hinc; [reflexivity|].
  cbn [keys map fst length_1_dims filter snd]. fold (keys q). rewrite dat_mk by assumption.
  assert (extent p k = Some n) as -> by (apply extent_In; [assumption|apply Hinc; left; reflexivity]). cbn [bind].
  rewrite IH by (intros x Hx; apply Hinc; right; assumption). cbn [bind]. destruct (n =? 1); reflexivity.
Qed.
Lemma filter_ext_keys (p : list (Z * Z)) f k n : extent (filter (fun e => f (fst e)) p) k = Some n <-> f k = true /\ extent p k = Some n.
Proof.
  induction p as [|[a b] p IH]; cbn [filter extent fst]; [intuition discriminate|].
  destruct (f a) eqn:E; cbn [extent]; destruct (Z.eqb_spec a k); subst; try tauto.
  - split; [|intros [Hf _]; congruence]. intros Hx. apply IH in Hx as [Hx _]. congruence.
Qed.
Lemma filter_filter {A} (f g : A -> bool) l : filter f (filter g l) = filter (fun x => g x && f x) l.
Proof. induction l as [|a l IH]; simpl; [reflexivity|]. destruct (g a) eqn:E; simpl; rewrite IH; destruct (f a); reflexivity. Qed.
Lemma NoDup_filter_keys (f : Z * Z -> bool) p : NoDup (keys p) -> NoDup (keys (filter f p)).
Proof.
  unfold keys. induction p as [|e p IH]; intros Hnd; [constructor|]. simpl in *. inversion Hnd; subst.
  destruct (f e); [|auto]. simpl. constructor; [|auto]. intros Hin. apply H1. apply in_map_iff in Hin as (x & Hx & Hin).
  apply filter_In in Hin as [Hin _]. apply in_map_iff. eauto.
Qed.
Lemma lwf_filter (f : Z * Z -> bool) p : lwf p -> lwf (filter f p).
Proof.
  intros (Hnd & Hf & Hi). split; [apply NoDup_filter_keys; assumption|]. split.
  - rewrite Forall_forall in *. intros n Hn. unfold extents in *. apply in_map_iff in Hn as (e & <- & He).
    apply filter_In in He as [He _]. apply Hf. apply in_map. assumption.
  - intros Hk. apply Hi. apply In_keys in Hk as [n Hn]. apply filter_In in Hn as [Hn _]. apply In_keys. eauto.
Qed.

Lemma squeeze_loop_ok ds : forall p sf off ro sz, lwf p ->
  (forall d, In d ds -> extent p d = Some 1 \/ (extent p d = None)) ->
  if forallb (fun d => match extent p d with Some n => n =? 1 | None => false end) ds && no_dup ds
  then squeeze_loop (SV p sf off ro sz) ds = Ok (SV (filter (fun e => negb (mem (fst e) ds)) p) sf off ro sz)
  else squeeze_loop (SV p sf off ro sz) ds = Throw SliceError.
Proof.
  induction ds as [|d ds IH]; intros p sf off ro sz Hp Hd.
  - cbn [forallb no_dup andb squeeze_loop]. do 2 f_equal. induction p as [|e p IHp]; [reflexivity|]. simpl. f_equal.
    apply IHp; [|intros ? []]. change (e :: p) with ([e] ++ p) in Hp. apply lwf_app2 in Hp. tauto.
  - cbn [forallb no_dup squeeze_loop]. unfold slice_point. cbn [Z.ltb Z.compare bind].
    set (s := mkslice d 0 (-1) 1).
    assert (Hso : slice_ok s) by (right; cbn; lia).
    pose proof (var_slice_ok p sf off ro sz s Hp Hso) as Hv. unfold slice_dims in Hv.
    assert (Hnd : slice_eqb s slice_default = false) by (apply not_default_begin; lia).
    unfold sl_sf, sl_off in Hv. rewrite Hnd in Hv. cbn [s s_dim s_end s_begin s_stride Z.eqb Pos.eqb orb] in Hv.
    change (0 <? 0) with false. cbv iota. cbn [bind]. fold s.
    destruct (Hd d (or_introl eq_refl)) as [Ed|Ed]; rewrite Ed in *; [|cbn [andb]; rewrite Hv; reflexivity].
    cbn [Z.ltb Z.compare] in Hv. rewrite Hv. clear Hv. cbn [bind].
    replace (off + 0 * sf d) with off by lia. change (1 =? 1) with true. cbn [andb].
    set (p1 := filter (fun e : Z * Z => negb (fst e =? d)) p).
    assert (Hp1 : lwf p1) by (apply lwf_filter; assumption).
    assert (Hext : forall k, extent p1 k = if k =? d then None else extent p k).
    { intros k. unfold p1. pose proof (fun n => filter_ext_keys p (fun x => negb (x =? d)) k n) as Hx. cbv beta in Hx.
      destruct (Z.eqb_spec k d) as [Ek|Hne].
      - rewrite Ek in *. destruct (extent (filter _ p) d) as [n|]; [|reflexivity]. destruct (proj1 (Hx n) eq_refl) as [Hf _].
        discriminate.
      - destruct (extent p k) as [n|] eqn:E.
        + apply Hx. split; [|reflexivity]. destruct (Z.eqb_spec k d); [contradiction|reflexivity].
        + destruct (extent (filter _ p) k) as [n|]; [|reflexivity]. destruct (proj1 (Hx n) eq_refl) as [_ Hf]. discriminate. }
    specialize (IH p1 sf off ro sz Hp1).
    assert (Hpre : forall x, In x ds -> extent p1 x = Some 1 \/ extent p1 x = None).
    { intros x Hx. rewrite Hext. destruct (x =? d); [auto|]. apply Hd. right. assumption. }
    specialize (IH Hpre).
    assert (Hcond : forallb (fun d => match extent p1 d with Some n => n =? 1 | None => false end) ds =
                    negb (mem d ds) && forallb (fun d => match extent p d with Some n => n =? 1 | None => false end) ds).
    { clear -Hext. induction ds as [|x ds IH]; [reflexivity|]. cbn [forallb]. unfold mem. cbn [existsb]. fold (mem d ds).
      rewrite IH, Hext, (Z.eqb_sym d x). destruct (x =? d); [reflexivity|]. cbn [orb].
      destruct (extent p x) as [n|]; [|rewrite andb_false_r; reflexivity].
      destruct (n =? 1), (negb (mem d ds)); reflexivity. }
    rewrite Hcond in IH.
    destruct (negb (mem d ds)), (forallb _ ds), (no_dup ds); cbn [andb] in *; rewrite IH; try reflexivity.
    do 2 f_equal. unfold p1. rewrite filter_filter. apply filter_ext. intros e. unfold mem at 2. cbn [existsb].
    fold (mem (fst e) ds). rewrite negb_orb. reflexivity.
Qed.

Lemma asum_filter p sf ix (f : Z -> bool) :
  asum (filter (fun e => f (fst e)) p) sf ix = asum p sf (fun k => if f k then ix k else 0).
Proof.
  induction p as [|[k n] p IH]; [reflexivity|]. cbn [filter fst]. rewrite asum_cons. destruct (f k); [rewrite asum_cons|]; lia.
Qed.

Lemma squeeze_step_ok p sel : lwf p -> step_ok p (VwSqueeze sel).
Proof.
  intros Hp sf off ro sz Hnn. cbn [view_dims view_step pull makes_readonly]. unfold squeeze_dims, var_squeeze. cbn [v_dims SV].
  set (ds := squeezed p sel).
  assert (Hdfs : dims_for_squeezing (mk p) sel =
                 if forallb (fun d => match extent p d with Some n => n =? 1 | None => false end) ds then Ok ds else Throw DimensionError).
  { destruct sel as [l|]; cbn [dims_for_squeezing squeezed] in *.
    - destruct (check_squeeze_ok p l (proj1 Hp)) as [H1 H2]. subst ds.
      destruct (forallb _ l); [rewrite H1|rewrite H2]; reflexivity.
    - change (m_keys (mk p)) with (keys p). rewrite length_1_dims_ok by (try apply Hp; apply incl_refl). fold ds.
      replace (forallb (fun d => match extent p d with Some n => n =? 1 | None => false end) ds) with true; [reflexivity|].
      symmetry. apply forallb_forall. intros d Hd. apply In_keys in Hd as [n Hn]. apply filter_In in Hn as [Hn Hn1].
      apply extent_In in Hn; [|apply Hp]. rewrite Hn. assumption. }
  rewrite Hdfs. clear Hdfs.
  destruct (forallb _ ds) eqn:Ef; cbn [andb bind]; [|eexists; reflexivity].
  pose proof (squeeze_loop_ok ds p sf off ro sz Hp) as Hl. rewrite Ef in Hl. cbn [andb] in Hl.
  assert (H1 : forall d, In d ds -> extent p d = Some 1).
  { intros d Hd. rewrite forallb_forall in Ef. specialize (Ef d Hd). destruct (extent p d) as [n|]; [|discriminate].
    apply Z.eqb_eq in Ef. congruence. }
  specialize (Hl (fun d Hd => or_introl (H1 d Hd))). fold (SV p sf off ro sz).
  destruct (no_dup ds) eqn:En; rewrite Hl; [|eexists; reflexivity]. cbn [bind].
  assert (Hin : forall k n, In (k, n) (filter (fun e : Z * Z => negb (mem (fst e) ds)) p) <-> In (k, n) p /\ ~ In k ds).
  { intros k n. rewrite filter_In, negb_true_iff, mem_nIn. reflexivity. }
  split; [apply lwf_filter; assumption|]. split; [|split].
  - intros ix Hix k n Hkn. destruct (mem k ds) eqn:E.
    + apply mem_In, H1 in E. apply extent_In in Hkn; [|apply Hp]. assert (n = 1) by congruence. lia.
    + apply Hix, Hin. apply mem_nIn in E. auto.
  - intros ix ix' _ _ _ Hsame k Hk. apply In_keys in Hk as [n Hn]. apply Hin in Hn as [Hn Hk].
    specialize (Hsame k (proj2 (In_keys k p) (ex_intro _ n Hn))). apply mem_nIn in Hk. cbv beta in Hsame. rewrite Hk in Hsame. assumption.
  - exists false, sf, off, ro, sz. split; [reflexivity|]. split; [|split; [reflexivity|split]].
    + intros k Hk. apply In_keys in Hk as [n Hn]. apply Hin in Hn as [Hn _]. apply Hnn, In_keys. eauto.
    + rewrite orb_false_r. reflexivity.
    + intros ix _. f_equal. rewrite (asum_filter p sf ix (fun k => negb (mem k ds))). apply asum_same.
      intros k _. destruct (mem k ds); reflexivity.
Qed.

(** ** Flatten *)
Lemma is_prefix_firstn sub : forall l, is_prefix sub l = list_eqb (firstn (length sub) l) sub.
Proof.
  induction sub as [|x sub IH]; intros [|y l]; cbn [is_prefix length firstn list_eqb]; try reflexivity.
  rewrite IH, Z.eqb_sym. reflexivity.
Qed.
Lemma keys_firstn m p : keys (firstn m p) = firstn m (keys p).
Proof. unfold keys. symmetry. apply firstn_map. Qed.

Lemma leqb_eq a : forall b, list_eqb a b = true <-> a = b.
Proof.
  induction a as [|x a IH]; intros [|y b]; cbn [list_eqb]; try (split; discriminate || reflexivity).
  rewrite andb_true_iff, Z.eqb_eq, IH. split; [intros [-> ->]; reflexivity|intros [= -> ->]; auto].
Qed.
Lemma split_at_block_ok from : forall p,
  match split_at_block p from with
  | Some (a, b, c) => p = a ++ b ++ c /\ keys b = from /\ search (keys p) from = Some (length a)
  | None => search (keys p) from = None
  end.
Proof.
  induction p as [|e p IH].
  - cbn [split_at_block]. rewrite firstn_nil, skipn_nil. cbn [keys map search]. rewrite is_prefix_firstn, firstn_nil.
    destruct (list_eqb [] from) eqn:E; [|reflexivity]. apply leqb_eq in E. subst. auto.
  - cbn [split_at_block]. change (keys (e :: p)) with (fst e :: keys p). cbn [search].
    rewrite is_prefix_firstn. change (fst e :: keys p) with (keys (e :: p)). rewrite <- keys_firstn.
    destruct (list_eqb (keys (firstn (length from) (e :: p))) from) eqn:E.
    + cbn [app length]. apply leqb_eq in E. rewrite firstn_skipn. auto.
    + destruct (split_at_block p from) as [[[a b] c]|].
      * destruct IH as (-> & Hb & Hs). rewrite Hs. auto.
      * rewrite IH. reflexivity.
Qed.

(** Adjacent strides of a block fit together. *)
Fixpoint contig (sf : Z -> Z) (b : list (Z * Z)) : bool :=
  match b with
  | (k, _) :: (((k', n') :: _) as b') => (sf k =? n' * sf k') && contig sf b'
  | _ => true
  end.

Lemma vget_ext_split p1 k n p2 : vget (extents (p1 ++ (k, n) :: p2)) (zlen p1) = Ok n.
Proof. rewrite extents_app. cbn [extents map snd]. rewrite <- (zlen_map snd p1). apply vget_split. Qed.
Lemma zlen_snoc {A} (l : list A) x : zlen (l ++ [x]) = zlen l + 1.
Proof. unfold zlen. rewrite app_length. cbn [length]. lia. Qed.

Lemma flatten_loop_ok to sf a c : forall b size, b <> [] -> lwf (a ++ b ++ c) -> 0 <= size ->
  let back := last (keys b) InvalidDim in
  flatten_loop (zlen a) to size (mk (a ++ b ++ c)) (map sf (keys (a ++ b ++ c))) (keys b) back =
  if contig sf b
  then if mem to (keys a ++ keys c) then Throw DimensionError
       else Ok (Some (mk (a ++ (to, size * vol (extents b)) :: c),
                      map sf (keys a) ++ sf back :: map sf (keys c)))
  else Ok None.
Proof.
  induction b as [|[k n] b IH]; intros size Hb Hw Hs; [congruence|]. cbn zeta. cbn [app] in *.
  change (keys ((k, n) :: b)) with (k :: keys b). cbn [flatten_loop].
  change (m_values (mk (a ++ (k, n) :: b ++ c))) with (extents (a ++ (k, n) :: b ++ c)).
  rewrite vget_ext_split. cbn [bind].
  destruct (lwf_app _ _ _ _ Hw) as (Hw' & Hn & Hka & Hkbc & Hki).
  destruct b as [|[k' n'] b].
  - cbn [app] in *. change (last (k :: keys []) InvalidDim) with k. rewrite Z.eqb_refl. cbn [contig].
    rewrite resize_sp by (try assumption; nia). cbn [bind].
    rewrite mreplace_key_same; [|change (NoDup (keys (a ++ (k, size * n) :: c))); destruct Hw as (Hw & _); rewrite keys_app in *; exact Hw|cbn [m_keys mk]; rewrite keys_app; apply in_elt].
    set (q := a ++ (k, size * n) :: c). change (m_keys (mk q)) with (keys q). change (m_values (mk q)) with (extents q).
    assert (Hmem : negb (k =? to) && memb (mk q) to = mem to (keys a ++ keys c)).
    { change (memb (mk q) to) with (mem to (keys q)). unfold q. rewrite keys_app. cbn [keys map fst]. fold (keys a) (keys c).
      unfold mem. rewrite !existsb_app. cbn [existsb]. rewrite (Z.eqb_sym to k). destruct (Z.eqb_spec k to) as [->|]; [|reflexivity].
      cbn [negb andb]. symmetry. rewrite <- existsb_app. apply mem_nIn. rewrite in_app_iff. tauto. }
    rewrite Hmem. destruct (mem to (keys a ++ keys c)); [reflexivity|]. cbn [bind keys map flatten_loop].
    do 3 f_equal.
    + unfold mk, q. rewrite !keys_app, !extents_app. cbn [keys extents map fst snd vol]. rewrite map_app. cbn [map].
      rewrite Z.eqb_refl. f_equal; [f_equal; [|f_equal]|f_equal; f_equal; lia].
      * transitivity (map (fun x => x) (keys a)); [|apply map_id]. apply map_ext_in. intros x Hx.
        destruct (Z.eqb_spec x k); [subst; contradiction|reflexivity].
      * transitivity (map (fun x => x) (keys c)); [|apply map_id]. apply map_ext_in. intros x Hx.
        destruct (Z.eqb_spec x k); [subst; contradiction|reflexivity].
    + rewrite keys_app, map_app. reflexivity.
  - assert (Hlast : last (k :: keys ((k', n') :: b)) InvalidDim = last (keys ((k', n') :: b)) InvalidDim) by reflexivity.
    rewrite Hlast. set (back := last (keys ((k', n') :: b)) InvalidDim) in *.
    assert (Hbin : In back (keys ((k', n') :: b))).
    { unfold back. destruct (@exists_last _ (keys ((k', n') :: b)) ltac:(discriminate)) as (l & x & E). rewrite E, last_last.
      apply in_elt. }
    destruct (Z.eqb_spec k back) as [E|_].
    { exfalso. apply Hkbc. rewrite keys_app, in_app_iff. left. rewrite E. assumption. }
    assert (Hvg : vget (map sf (keys (a ++ (k, n) :: ((k', n') :: b) ++ c))) (zlen a) = Ok (sf k)) by apply stride_sp.
    rewrite Hvg. cbn [bind].
    assert (Hsh : a ++ (k, n) :: ((k', n') :: b) ++ c = (a ++ [(k, n)]) ++ (k', n') :: (b ++ c))
      by (rewrite <- app_assoc; reflexivity).
    rewrite <- (zlen_snoc a (k, n)). rewrite Hsh at 1. rewrite vget_ext_split. cbn [bind].
    rewrite Hsh at 1. rewrite stride_sp. cbn [bind contig].
    destruct (Z.eqb_spec (sf k) (n' * sf k')) as [Ec|Ec]; cbn [negb andb]; [|reflexivity].
    rewrite merase_sp by assumption. cbn [bind].
    assert (Hve : verase (map sf (keys (a ++ (k, n) :: ((k', n') :: b) ++ c))) (zlen a) = Ok (map sf (keys (a ++ ((k', n') :: b) ++ c))))
      by apply verase_sp.
    rewrite Hve. cbn [bind]. specialize (IH (size * n) ltac:(discriminate) Hw'). cbn zeta in IH. fold back in IH.
    rewrite IH by nia. cbn [contig].
    destruct (match b with [] => true | _ => _ end) eqn:?; [|reflexivity].
    destruct (mem to (keys a ++ keys c)); [reflexivity|].
    replace (size * n * vol (extents ((k', n') :: b))) with (size * vol (extents ((k, n) :: (k', n') :: b)))
      by (cbn [extents map snd vol]; ring). reflexivity.
Qed.

Lemma contig_dot sf b : forall is_, b <> [] -> contig sf b = true -> length is_ = length b ->
  dot (map sf (keys b)) is_ = sf (last (keys b) InvalidDim) * position (extents b) is_ /\
  (forall k n b', b = (k, n) :: b' -> sf k = sf (last (keys b) InvalidDim) * vol (extents b')).
Proof.
  induction b as [|[k n] b IH]; intros is_ Hb Hc Hl; [congruence|]. destruct is_ as [|i is_]; [discriminate|].
  destruct b as [|[k' n'] b].
  - destruct is_; [|discriminate]. cbn. split; [lia|]. intros ? ? ? [= <- <- <-]. cbn. lia.
  - cbn [contig] in Hc. apply andb_true_iff in Hc as [Hc1 Hc]. apply Z.eqb_eq in Hc1.
    destruct (IH is_ ltac:(discriminate) Hc ltac:(cbn [length] in *; lia)) as [IH1 IH2].
    specialize (IH2 _ _ _ eq_refl).
    change (last (keys ((k, n) :: (k', n') :: b)) InvalidDim) with (last (keys ((k', n') :: b)) InvalidDim).
    set (lst := last (keys ((k', n') :: b)) InvalidDim) in *.
    assert (Hk : sf k = sf lst * vol (extents ((k', n') :: b))).
    { rewrite Hc1, IH2. change (vol (extents ((k', n') :: b))) with (n' * vol (extents b)). ring. }
    split.
    + change (keys ((k, n) :: (k', n') :: b)) with (k :: keys ((k', n') :: b)). cbn [map dot].
      change (extents ((k, n) :: (k', n') :: b)) with (n :: extents ((k', n') :: b)). cbn [position].
      rewrite IH1, Hk. ring.
    + intros ? ? ? [= <- <- <-]. exact Hk.
Qed.

Lemma contig_sfc c : forall b a, NoDup (keys (a ++ b ++ c)) -> contig (sfc (a ++ b ++ c)) b = true.
Proof.
  induction b as [|[k n] b IH]; intros a Hnd; [reflexivity|]. destruct b as [|[k' n'] b]; [reflexivity|].
  cbn [contig app]. apply andb_true_iff. split.
  - apply Z.eqb_eq. cbn [app] in Hnd. rewrite sfc_split by assumption.
    replace (a ++ (k, n) :: (k', n') :: b ++ c) with ((a ++ [(k, n)]) ++ (k', n') :: b ++ c) in * by (rewrite <- app_assoc; reflexivity).
    rewrite sfc_split by assumption. reflexivity.
  - specialize (IH (a ++ [(k, n)])). rewrite <- app_assoc in IH. apply IH. assumption.
Qed.

Lemma flatten_step_ok p from to : lwf p -> to <> InvalidDim -> step_ok p (VwFlatten from to).
Proof.
  intros Hp Hto sf off ro sz Hnn. cbn [view_dims view_step pull makes_readonly]. unfold flatten_pairs, var_flatten, flatten_view.
  destruct from as [|f from].
  - cbn [v_dims SV]. rewrite add_inner_mk by (try assumption; lia).
    replace (to =? InvalidDim) with false by lia. rewrite orb_false_r.
    destruct (mem to (keys p)) eqn:E; [eexists; reflexivity|]. cbn [bind]. apply mem_nIn in E. cbn [map puts].
    assert (Hpu : forall ix xs, puts ix [] xs = ix) by reflexivity. 
    split; [|split; [|split]].
    + apply lwf_app_inv; rewrite ?app_nil_r; auto; lia.
    + intros ix Hix. apply valid_at_app in Hix. tauto.
    + intros ix ix' _ Hix Hix' Hsame. apply same_at_app. split; [exact Hsame|]. apply valid_at_app in Hix as [_ Hix], Hix' as [_ Hix'].
      apply valid_at_cons in Hix as [Hix _], Hix' as [Hix' _]. apply same_at_cons. split; [lia|intros k []].
    + exists false, (put sf to 1), off, ro, sz. split; [|split; [|split; [reflexivity|split]]].
      * cbn [v_strides v_offset v_readonly v_size]. unfold SV. do 3 f_equal. rewrite keys_app, map_app. cbn [keys map fst]. fold (keys p).
        rewrite put_same. f_equal. apply map_ext_in. intros k Hk. symmetry. apply put_other. intros ->. contradiction.
      * apply nonneg_app. split; [apply nonneg_put; [assumption|lia]|]. apply nonneg_cons. rewrite put_same. split; [lia|intros k []].
      * rewrite orb_false_r. reflexivity.
      * intros ix Hix. apply valid_at_app in Hix as [_ Hix]. apply valid_at_cons in Hix as [Hix _].
        rewrite asum_app, asum_cons, asum_put_sf, put_same by assumption. unfold asum at 2. cbn [keys map]. unfold lsum. cbn [map sumZ fold_right].
        lia.
  - set (fr := f :: from) in *. assert (Hfr : fr <> []) by discriminate. clearbody fr.
    pose proof (split_at_block_ok fr p) as Hsb. change (labels (v_dims (SV p sf off ro sz))) with (keys p).
    change (labels (v_dims (var_copy (SV p sf off ro sz)))) with (keys p).
    destruct (split_at_block p fr) as [[[a b] c]|].
    2:{ rewrite Hsb. eexists; reflexivity. }
    destruct Hsb as (Hpe & Hb & Hs). rewrite Hs. subst p. subst fr.
    assert (Hbne : b <> []) by (intros ->; apply Hfr; reflexivity).
    cbn [v_dims v_strides SV]. change (Z.of_nat (length a)) with (zlen a).
    rewrite (flatten_loop_ok to sf a c b 1) by (try assumption; lia). rewrite Z.mul_1_l.
    set (back := last (keys b) InvalidDim) in *.
    (* the copy *)
    assert (Hcopy : var_copy (SV (a ++ b ++ c) sf off ro sz) = SV (a ++ b ++ c) (sfc (a ++ b ++ c)) 0 false (vol (extents (a ++ b ++ c)))).
    { unfold var_copy. cbn [v_dims SV]. apply fresh_SV, Hp. }
    fold (SV (a ++ b ++ c) sf off ro sz). rewrite Hcopy. clear Hcopy. cbn [v_dims v_strides SV].
    pose proof (flatten_loop_ok to (sfc (a ++ b ++ c)) a c b 1 Hbne Hp ltac:(lia)) as Hc2. cbn zeta in Hc2. fold back in Hc2.
    rewrite Hc2, Z.mul_1_l. clear Hc2.
    rewrite contig_sfc by apply Hp.
    set (p := a ++ b ++ c) in *.
    assert (Hdisj : forall k, In k (keys b) -> ~ In k (keys a) /\ ~ In k (keys c)).
    { intros k Hk. apply In_keys in Hk as [m Hm]. apply in_split in Hm as (q1 & q2 & E).
      assert (Hp' : lwf ((a ++ q1) ++ (k, m) :: q2 ++ c)) by (rewrite <- app_assoc; unfold p in Hp; rewrite E, <- app_assoc in Hp; exact Hp).
      apply lwf_app in Hp' as (_ & _ & Ha & Hb & _). rewrite keys_app, in_app_iff in Ha, Hb. tauto. }
    destruct (mem to (keys a ++ keys c)) eqn:Em.
    { destruct (contig sf b); cbn [bind option_map]; eexists; reflexivity. }
    apply mem_nIn in Em. rewrite in_app_iff in Em.
    assert (Hwabc : lwf a /\ lwf b /\ lwf c).
    { destruct (lwf_app2 _ _ Hp) as [Ha Hbc]. destruct (lwf_app2 _ _ Hbc). auto. }
    destruct Hwabc as (Hwa & Hwb & Hwc).
    assert (Hac : lwf (a ++ c)).
    { destruct (lwf_perm (a ++ b ++ c) (b ++ a ++ c)) as (Hn & Hf & Hi); [rewrite !app_assoc; apply Permutation_app_tail, Permutation_app_comm|exact Hp|].
      apply (lwf_app2 b (a ++ c)). split; [assumption|]. split; assumption. }
    assert (Hext : map (ext p) (keys b) = extents b).
    { unfold keys, extents. rewrite map_map. apply map_ext_in. intros [k m] Hin. cbn [fst snd]. apply ext_In; [apply Hp|].
      unfold p. rewrite !in_app_iff. auto. }
    rewrite Hext.
    set (pl := fun ix : Z -> Z => puts ix (keys b) (index_at (extents b) (ix to))).
    assert (Hpl_b : forall ix, map (pl ix) (keys b) = index_at (extents b) (ix to)).
    { intros ix. apply puts_map; [apply Hwb|]. rewrite index_at_length. apply extents_keys_len. }
    assert (Hpl_a : forall ix, same_at a (pl ix) ix).
    { intros ix k Hk. unfold pl. apply puts_notin. intros Hk'. destruct (Hdisj k Hk'). contradiction. }
    assert (Hpl_c : forall ix, same_at c (pl ix) ix).
    { intros ix k Hk. unfold pl. apply puts_notin. intros Hk'. destruct (Hdisj k Hk'). contradiction. }
    set (p' := a ++ (to, vol (extents b)) :: c) in *.
    assert (Hvalid : forall ix, valid_at p' ix -> valid_at p (pl ix)).
    { intros ix Hix. unfold p' in Hix. apply valid_at_app in Hix as [Hia Hix]. apply valid_at_cons in Hix as [Hit Hic].
      unfold p. rewrite !valid_at_app. split; [|split].
      - apply (valid_at_same a ix); [intros k Hk; symmetry; apply Hpl_a; assumption|assumption].
      - apply valid_at_idx. rewrite Hpl_b. apply position_index_at; [apply Hwb|assumption].
      - apply (valid_at_same c ix); [intros k Hk; symmetry; apply Hpl_c; assumption|assumption]. }
    split; [|split; [|split]].
    + unfold p'. apply lwf_app_inv; [assumption|apply vol_nonneg, Hwb|tauto|tauto|assumption].
    + exact Hvalid.
    + intros ix ix' _ Hix Hix' Hsame. unfold p', p in *. rewrite same_at_app, same_at_app in Hsame.
      apply valid_at_app in Hix as [_ Hix], Hix' as [_ Hix']. apply valid_at_cons in Hix as [Hix _], Hix' as [Hix' _].
      destruct Hsame as (Hsa & Hsb & Hsc). apply same_at_app. split; [|apply same_at_cons; split].
      * intros k Hk. rewrite <- (Hpl_a ix k Hk), <- (Hpl_a ix' k Hk). apply Hsa. assumption.
      * assert (E : map (pl ix) (keys b) = map (pl ix') (keys b)) by (apply map_ext_in; intros k Hk; apply Hsb; assumption).
        rewrite !Hpl_b in E. destruct (position_index_at (extents b) (ix to) (proj1 (proj2 Hwb)) Hix) as [_ <-].
        destruct (position_index_at (extents b) (ix' to) (proj1 (proj2 Hwb)) Hix') as [_ <-]. rewrite E. reflexivity.
      * intros k Hk. rewrite <- (Hpl_c ix k Hk), <- (Hpl_c ix' k Hk). apply Hsc. assumption.
    + assert (Hback : In back (keys b)).
      { unfold back. destruct (@exists_last _ (keys b)) as (l & x & E); [destruct b; [congruence|discriminate]|].
        rewrite E, last_last. apply in_elt. }
      assert (Hform : forall s, map s (keys a) ++ s back :: map s (keys c) = map (put s to (s back)) (keys p')).
      { intros s. unfold p'. rewrite keys_app, map_app. cbn [keys map fst]. fold (keys a) (keys c). rewrite put_same.
        f_equal; [|f_equal].
        - apply map_ext_in. intros k Hk. symmetry. apply put_other. intros ->. tauto.
        - apply map_ext_in. intros k Hk. symmetry. apply put_other. intros ->. tauto. }
      assert (Haddr : forall s ix, contig s b = true -> valid_at p' ix -> asum p' (put s to (s back)) ix = asum p s (pl ix)).
      { intros s ix Hc Hix. unfold p', p in *. rewrite !asum_app, asum_cons, !asum_put_sf, put_same by tauto.
        rewrite (asum_same a s (pl ix) ix), (asum_same c s (pl ix) ix) by auto.
        enough (asum b s (pl ix) = s back * ix to) by lia. unfold asum. rewrite <- dot_lsum, Hpl_b.
        apply valid_at_app in Hix as [_ Hix]. apply valid_at_cons in Hix as [Hix _].
        destruct (contig_dot s b (index_at (extents b) (ix to)) Hbne Hc) as [Hd _].
        { rewrite index_at_length. unfold extents. rewrite map_length. reflexivity. }
        rewrite Hd. fold back. destruct (position_index_at (extents b) (ix to) (proj1 (proj2 Hwb)) Hix) as [_ ->]. reflexivity. }
      assert (Hnn' : forall s, nonneg_at p s -> nonneg_at p' (put s to (s back))).
      { intros s Hs0. unfold p', p in *. rewrite !nonneg_app in Hs0. destruct Hs0 as (Hsa & Hsb & Hsc).
        assert (0 <= s back) by (apply Hsb; assumption).
        apply nonneg_app. split; [apply nonneg_put; assumption|]. apply nonneg_cons. rewrite put_same.
        split; [assumption|apply nonneg_put; assumption]. }
      destruct (contig sf b) eqn:Ec; cbn [bind option_map fst snd].
      * exists false, (put sf to (sf back)), off, ro, sz. split; [|split; [apply Hnn'; assumption|split; [reflexivity|split]]].
        -- cbn [v_offset v_readonly v_size SV]. rewrite Hform. reflexivity.
        -- rewrite orb_false_r. reflexivity.
        -- intros ix Hix. f_equal. apply Haddr; assumption.
      * exists true, (put (sfc p) to (sfc p back)), 0, false, (vol (extents p)).
        split; [|split; [apply Hnn', sfc_nonneg; assumption|split; [reflexivity|split; [reflexivity|split; [reflexivity|]]]]].
        -- cbn [v_offset v_readonly v_size SV]. rewrite Hform. reflexivity.
        -- intros ix Hix. rewrite Haddr; [|apply contig_sfc, Hp|assumption]. rewrite asum_sfc; auto.
Qed.

Theorem view_step_ok p o : lwf p -> op_ok o -> step_ok p o.
Proof.
  intros Hp Ho. destruct o; cbn [op_ok] in Ho.
  - apply slice_step_ok; assumption.
  - apply broadcast_step_ok; assumption.
  - apply fold_step_ok; assumption.
  - apply transpose_step_ok; assumption.
  - apply rename_step_ok; assumption.
  - apply squeeze_step_ok; assumption.
  - apply flatten_step_ok; assumption.
  - apply const_step_ok; assumption.
Qed.

(** ** From model views to (shape, strides) and back *)
Lemma wfv_SV v : wfv v -> exists sf, lwf (pairs (v_dims v)) /\ nonneg_at (pairs (v_dims v)) sf /\
  v = SV (pairs (v_dims v)) sf (v_offset v) (v_readonly v) (v_size v).
Proof.
  intros (Hw & Hl & Hs). destruct v as [d st off ro sz]. cbn [v_dims v_strides v_offset v_readonly v_size] in *.
  pose proof (proj1 (wf_lwf _) Hw) as [Hlw Hlen]. pose proof (mk_pairs d Hlen) as E.
  assert (Hk : keys (pairs d) = labels d) by (unfold labels; rewrite <- E at 2; reflexivity).
  exists (puts (fun _ => 0) (labels d) st). split; [assumption|].
  assert (Hm : map (puts (fun _ => 0) (labels d) st) (labels d) = st) by (apply puts_map; [apply Hw|assumption]).
  split.
  - intros k Hk'. rewrite Hk in Hk'. rewrite Forall_forall in Hs. apply Hs. rewrite <- Hm at 2. apply in_map. assumption.
  - unfold SV. rewrite E, Hk, Hm. reflexivity.
Qed.
Lemma SV_wfv p sf off ro sz : lwf p -> nonneg_at p sf -> wfv (SV p sf off ro sz).
Proof.
  intros Hp Hn. unfold wfv, SV; cbn [v_dims v_strides]. split; [apply mk_wf; assumption|].
  split; [unfold labels, mk; cbn [m_keys]; rewrite map_length; reflexivity|].
  apply Forall_forall. intros s Hs. apply in_map_iff in Hs as (k & <- & Hk). apply Hn. assumption.
Qed.

Lemma index_of_position p ix : lwf p -> valid_at p ix ->
  same_at p (index_of (mk p) (position (extents p) (map ix (keys p)))) ix.
Proof.
  intros Hp Hv k Hk. unfold index_of. change (labels (mk p)) with (keys p). change (shape (mk p)) with (extents p).
  rewrite index_at_position by (apply valid_at_idx; assumption).
  apply (map_eq_in _ ix (keys p)); [|assumption]. apply puts_map; [apply Hp|apply map_length].
Qed.

Definition in_bounds (p : list (Z * Z)) (v : var) : Prop := forall ix, valid_at p ix -> 0 <= vaddr v ix < v_size v.
Definition one_to_one (p : list (Z * Z)) (v : var) : Prop :=
  forall ix ix', valid_at p ix -> valid_at p ix' -> vaddr v ix = vaddr v ix' -> same_at p ix ix'.

Lemma chain_ok {A} os : forall p (buf : Z -> A) sf off ro sz, lwf p -> nonneg_at p sf -> Forall op_ok os ->
  in_bounds p (SV p sf off ro sz) -> (ro = false -> one_to_one p (SV p sf off ro sz)) ->
  match chain_dims p os with
  | Some p' => exists buf' v', view_chain buf (SV p sf off ro sz) os = Ok (buf', v') /\
      pairs (v_dims v') = p' /\ wfv v' /\ in_bounds p' v' /\ (v_readonly v' = false -> one_to_one p' v') /\
      forall ix, valid_at p' ix -> valid_at p (pull_chain p os ix) /\
        buf' (vaddr v' ix) = buf (vaddr (SV p sf off ro sz) (pull_chain p os ix))
  | None => exists e, view_chain buf (SV p sf off ro sz) os = Throw e
  end.
Proof.
  induction os as [|o os IH]; intros p buf sf off ro sz Hp Hnn Hos Hbd Hinj; cbn [chain_dims view_chain pull_chain].
  - exists buf, (SV p sf off ro sz). split; [reflexivity|]. split; [apply pairs_mk|]. split; [apply SV_wfv; assumption|].
    split; [assumption|]. split; [assumption|]. auto.
  - inversion Hos as [|? ? Ho Hos']; subst. pose proof (view_step_ok p o Hp Ho sf off ro sz Hnn) as Hst.
    destruct (view_dims p o) as [p1|].
    2:{ destruct Hst as [e ->]. eexists; reflexivity. }
    destruct Hst as (Hw1 & Hv1 & Hi1 & c & sf1 & off1 & ro1 & sz1 & -> & Hn1 & Hc). cbn [bind fst snd].
    assert (Hstate : in_bounds p1 (SV p1 sf1 off1 ro1 sz1) /\ (ro1 = false -> one_to_one p1 (SV p1 sf1 off1 ro1 sz1)) /\
              forall ix, valid_at p1 ix ->
                (if c then copied buf (SV p sf off ro sz) else buf) (vaddr (SV p1 sf1 off1 ro1 sz1) ix) =
                buf (vaddr (SV p sf off ro sz) (pull p o ix))).
    { destruct c.
      - destruct Hc as (-> & -> & Hm & Hc). split; [|split].
        + intros ix Hix. rewrite vaddr_SV, Hc by assumption. cbn [v_size SV].
          apply position_bound, valid_at_idx, Hv1, Hix.
        + intros _ ix ix' Hix Hix' E. rewrite !vaddr_SV, !Hc in E by assumption. apply Hi1; auto.
          pose proof (Hv1 _ Hix) as Hpi. pose proof (Hv1 _ Hix') as Hpi'.
          intros k Hk. apply (map_eq_in _ _ (keys p)); [|assumption]. apply valid_at_idx in Hpi, Hpi'.
          rewrite <- (index_at_position _ _ Hpi), <- (index_at_position _ _ Hpi'), E. reflexivity.
        + intros ix Hix. rewrite vaddr_SV, Hc by assumption. unfold copied. f_equal.
          rewrite !vaddr_SV. f_equal. apply asum_same. apply index_of_position; auto.
      - destruct Hc as (-> & -> & Hc). split; [|split].
        + intros ix Hix. rewrite vaddr_SV, Hc by assumption. rewrite <- (vaddr_SV p sf off ro sz).
          apply Hbd, Hv1, Hix.
        + intros Hro ix ix' Hix Hix' E. apply orb_false_iff in Hro as [-> Hmr]. rewrite !vaddr_SV, !Hc in E by assumption.
          apply Hi1; auto. apply Hinj; auto. rewrite !vaddr_SV. assumption.
        + intros ix Hix. rewrite !vaddr_SV, Hc by assumption. reflexivity. }
    destruct Hstate as (Hbd1 & Hinj1 & Hel).
    specialize (IH p1 (if c then copied buf (SV p sf off ro sz) else buf) sf1 off1 ro1 sz1 Hw1 Hn1 Hos' Hbd1 Hinj1).
    destruct (chain_dims p1 os) as [p'|]; [|exact IH].
    destruct IH as (buf' & v' & HE & Hd & Hwv & Hbd' & Hinj' & Hel'). exists buf', v'.
    split; [exact HE|]. split; [assumption|]. split; [assumption|]. split; [assumption|]. split; [assumption|].
    intros ix Hix. destruct (Hel' ix Hix) as [Hv' ->]. split; [apply Hv1; assumption|]. apply Hel. assumption.
Qed.

Lemma fresh_state p : lwf p -> in_bounds p (SV p (sfc p) 0 false (vol (extents p))) /\ one_to_one p (SV p (sfc p) 0 false (vol (extents p))).
Proof.
  intros Hp. split.
  - intros ix Hix. rewrite vaddr_SV, asum_sfc by assumption. cbn [v_size SV]. apply position_bound, valid_at_idx, Hix.
  - intros ix ix' Hix Hix' E. rewrite !vaddr_SV, !asum_sfc in E by assumption. intros k Hk.
    apply (map_eq_in _ _ (keys p)); [|assumption]. apply valid_at_idx in Hix, Hix'.
    rewrite <- (index_at_position _ _ Hix), <- (index_at_position _ _ Hix'). f_equal. lia.
Qed.

Theorem chain_fresh {A} (buf : Z -> A) d os : wf d -> Forall op_ok os ->
  match chain_dims (pairs d) os with
  | Some p' => exists buf' v', view_chain buf (var_fresh d) os = Ok (buf', v') /\
      pairs (v_dims v') = p' /\ in_bounds p' v' /\ (v_readonly v' = false -> one_to_one p' v') /\
      forall ix, valid_at p' ix -> valid_at (pairs d) (pull_chain (pairs d) os ix) /\
        buf' (vaddr v' ix) = buf (position (shape d) (map (pull_chain (pairs d) os ix) (labels d)))
  | None => exists e, view_chain buf (var_fresh d) os = Throw e
  end.
Proof.
  intros Hd Hos. pose proof (proj1 (wf_lwf _) Hd) as [Hp Hlen]. pose proof (mk_pairs d Hlen) as E.
  assert (Hf : var_fresh d = SV (pairs d) (sfc (pairs d)) 0 false (vol (extents (pairs d)))).
  { rewrite <- E at 1. apply fresh_SV, Hp. }
  rewrite Hf. destruct (fresh_state _ Hp) as [Hb Hi].
  pose proof (chain_ok os (pairs d) buf (sfc (pairs d)) 0 false (vol (extents (pairs d))) Hp (sfc_nonneg _ Hp) Hos Hb (fun _ => Hi)) as Hc.
  destruct (chain_dims (pairs d) os) as [p'|]; [|exact Hc].
  destruct Hc as (buf' & v' & HE & Hpd & _ & Hbd & Hinj & Hel). exists buf', v'. repeat (split; [assumption|]).
  intros ix Hix. destruct (Hel ix Hix) as [Hv ->]. split; [assumption|]. rewrite vaddr_SV, asum_sfc by assumption.
  assert (Hsh : extents (pairs d) = shape d) by (rewrite <- E at 2; reflexivity).
  assert (Hlb : keys (pairs d) = labels d) by (rewrite <- E at 2; reflexivity).
  rewrite Hsh, Hlb. reflexivity.
Qed.

Lemma view_of_keeps v v' : wfv v -> view_of v v' -> wfv v' /\ v_size v' = v_size v /\ (v_readonly v = true -> v_readonly v' = true).
Proof.
  intros Hv Hvo. induction Hvo as [v|v o v1 v2 Ho Hs Hvo IH]; [auto|].
  destruct (wfv_SV v Hv) as (sf & Hp & Hn & Ev). rewrite Ev in Hs.
  pose proof (view_step_ok _ o Hp Ho sf (v_offset v) (v_readonly v) (v_size v) Hn) as Hst.
  destruct (view_dims (pairs (v_dims v)) o) as [p1|].
  2:{ destruct Hst as [e He]. congruence. }
  destruct Hst as (Hw1 & _ & _ & c & sf1 & off1 & ro1 & sz1 & HE & Hn1 & Hc). rewrite HE in Hs. injection Hs as -> <-.
  destruct Hc as (-> & -> & _). cbn [v_size v_readonly SV] in IH. destruct IH as (IH1 & IH2 & IH3); [apply SV_wfv; assumption|].
  split; [assumption|]. split; [assumption|]. intros Hr. apply IH3. rewrite Hr. reflexivity.
Qed.

Lemma write_readonly {A} (buf : Z -> A) v ix x : v_readonly v = true -> write buf v ix x = Throw ReadonlyError.
Proof. intros Hr. unfold write, expect_writable. rewrite Hr. reflexivity. Qed.

(** Writing through any writable view of a fresh variable changes the addressed element and no other. *)
Lemma write_local {A} (buf : Z -> A) d os buf' v' x : wf d -> Forall op_ok os ->
  view_chain buf (var_fresh d) os = Ok (buf', v') -> v_readonly v' = false ->
  forall ix, valid_at (pairs (v_dims v')) ix -> exists buf2, write buf' v' ix x = Ok buf2 /\
    buf2 (vaddr v' ix) = x /\
    forall ix', valid_at (pairs (v_dims v')) ix' -> ~ same_at (pairs (v_dims v')) ix ix' ->
      buf2 (vaddr v' ix') = buf' (vaddr v' ix').
Proof.
  intros Hd Hos HE Hr ix Hix. pose proof (chain_fresh buf d os Hd Hos) as Hc.
  destruct (chain_dims (pairs d) os) as [p'|]; [|destruct Hc; congruence].
  destruct Hc as (b2 & v2 & HE2 & Hp & _ & Hinj & _). rewrite HE in HE2. injection HE2 as <- <-. rewrite Hp in *.
  unfold write, expect_writable. rewrite Hr. cbn [bind]. eexists. split; [reflexivity|]. cbv beta.
  split; [rewrite Z.eqb_refl; reflexivity|]. intros ix' Hix' Hns.
  destruct (Z.eqb_spec (vaddr v' ix') (vaddr v' ix)) as [E|_]; [|reflexivity].
  exfalso. apply Hns. apply (Hinj Hr); auto.
Qed.

(** ** Slices of slices *)
Lemma slice_accept v s : wfv v -> slice_ok s ->
  match slice_dims (pairs (v_dims v)) s with
  | Some p' => exists v', var_slice v s = Ok v' /\ pairs (v_dims v') = p' /\ wfv v' /\
      v_readonly v' = v_readonly v /\ v_size v' = v_size v /\
      forall ix, valid_at p' ix -> valid_at (pairs (v_dims v)) (pull (pairs (v_dims v)) (VwSlice s) ix) /\
        vaddr v' ix = vaddr v (pull (pairs (v_dims v)) (VwSlice s) ix)
  | None => var_slice v s = Throw SliceError
  end.
Proof.
  intros Hv Hs. destruct (wfv_SV v Hv) as (sf & Hp & Hn & Ev). clear Hv. revert Hp Hn Ev.
  generalize (pairs (v_dims v)) as p, (v_offset v) as off, (v_readonly v) as ro, (v_size v) as sz. intros p off ro sz Hp Hn ->.
  pose proof (var_slice_ok p sf off ro sz s Hp Hs) as Hsl.
  pose proof (slice_step_ok p s Hp Hs sf off ro sz Hn) as Hst. cbn [view_dims view_step] in Hst.
  destruct (slice_dims p s) as [p'|]; [|assumption].
  destruct Hst as (Hw & Hval & _ & c & sf' & off' & ro' & sz' & HE & Hn' & Hc).
  rewrite Hsl in *. cbn [bind] in HE. injection HE as <- E1 E2 E3 E4. subst ro' sz' off'.
  destruct Hc as (_ & _ & Hc). eexists. split; [reflexivity|]. split; [apply pairs_mk|].
  assert (Hmap : forall k, In k (keys p') -> sl_sf s sf k = sf' k) by (intros k Hk; apply (map_eq_in _ _ _ _ E1 Hk)).
  split; [apply SV_wfv; [assumption|intros k Hk; rewrite Hmap by assumption; apply Hn'; assumption]|].
  split; [reflexivity|]. split; [reflexivity|]. intros ix Hix. split; [apply Hval; assumption|].
  rewrite !vaddr_SV. rewrite <- Hc by assumption. f_equal. apply asum_sf. assumption.
Qed.

Lemma SV_ext p sf sf' off ro sz : (forall k, In k (keys p) -> sf k = sf' k) -> SV p sf off ro sz = SV p sf' off ro sz.
Proof. intros He. unfold SV. f_equal. apply map_ext_in. assumption. Qed.

Lemma var_slice_inv v s v' : wfv v -> slice_ok s -> var_slice v s = Ok v' ->
  exists p sf p', lwf p /\ v = SV p sf (v_offset v) (v_readonly v) (v_size v) /\ slice_dims p s = Some p' /\ lwf p' /\
    v' = SV p' (sl_sf s sf) (sl_off s sf (v_offset v)) (v_readonly v) (v_size v).
Proof.
  intros Hv Hs HE. destruct (wfv_SV v Hv) as (sf & Hp & Hn & Ev). exists (pairs (v_dims v)), sf.
  pose proof (var_slice_ok _ sf (v_offset v) (v_readonly v) (v_size v) s Hp Hs) as Hsl.
  pose proof (slice_step_ok _ s Hp Hs sf (v_offset v) (v_readonly v) (v_size v) Hn) as Hst. cbn [view_dims view_step] in Hst.
  rewrite Ev in HE. destruct (slice_dims (pairs (v_dims v)) s) as [p'|]; [|congruence].
  rewrite Hsl in HE. injection HE as <-. exists p'. destruct Hst as (Hw & _). auto.
Qed.

Lemma slice_range_ok d b e st s : slice_range d b e st = Ok s -> s = mkslice d b e st /\ slice_ok s /\ slice_eqb s slice_default = false.
Proof.
  unfold slice_range. destruct (Z.ltb_spec b 0); [discriminate|].
  destruct (negb (e =? -1) && (b >? e)) eqn:E; [discriminate|].
  destruct (Z.eqb_spec st 0); [discriminate|]. destruct (Z.ltb_spec st 0); [discriminate|]. intros [= <-].
  split; [reflexivity|]. split; [right; cbn; destruct (Z.eqb_spec e (-1)); [lia|]; cbn in E; lia|].
  apply not_default_begin. lia.
Qed.

Lemma ceil_div_compose m s1 s2 : 0 < s1 -> 0 < s2 -> ceil_div ((m - 1) * s1 + 1) (s1 * s2) = ceil_div m s2.
Proof.
  intros Ha Hb. unfold ceil_div. replace ((m - 1) * s1 + 1 + s1 * s2 - 1) with (s1 * (m + s2 - 1)) by ring.
  rewrite Z.div_mul_cancel_l by lia. reflexivity.
Qed.

Lemma slice_compose v d b1 e1 st1 s1 v1 b2 e2 st2 s2 v2 : wfv v ->
  slice_range d b1 e1 st1 = Ok s1 -> e1 <> -1 -> var_slice v s1 = Ok v1 ->
  slice_range d b2 e2 st2 = Ok s2 -> (e2 = -1 \/ b2 < e2) -> var_slice v1 s2 = Ok v2 ->
  var_slice v (compose_slice s1 s2) = Ok v2.
Proof.
  intros Hv Hs1 He1 HE1 Hs2 He2 HE2.
  destruct (slice_range_ok _ _ _ _ _ Hs1) as (-> & Ho1 & Hd1). destruct (slice_range_ok _ _ _ _ _ Hs2) as (-> & Ho2 & Hd2).
  destruct (var_slice_inv v _ v1 Hv Ho1 HE1) as (p & sf & p1 & Hp & Ev & Hp1 & Hw1 & Ev1).
  pose proof (var_slice_ok p1 (sl_sf (mkslice d b1 e1 st1) sf) (sl_off (mkslice d b1 e1 st1) sf (v_offset v)) (v_readonly v) (v_size v) _ Hw1 Ho2) as H2.
  rewrite <- Ev1, HE2 in H2. clear HE1 HE2 Ev1.
  destruct Ho1 as [Ex|(Hb1 & Hst1 & Hbe1)]; [rewrite Ex in Hd1; discriminate|].
  destruct Ho2 as [Ex|(Hb2 & Hst2 & Hbe2)]; [rewrite Ex in Hd2; discriminate|].
  cbn [s_begin s_end s_stride] in *.
  unfold compose_slice. cbn [s_dim s_begin s_end s_stride].
  set (E := if e2 =? -1 then -1 else b1 + (e2 - 1) * st1 + 1). set (s := mkslice d (b1 + b2 * st1) E (st1 * st2)).
  assert (Hs : slice_ok s). { right. cbn. unfold E. destruct (Z.eqb_spec e2 (-1)); nia. }
  assert (Hsd : slice_eqb s slice_default = false) by (apply not_default_begin; nia).
  pose proof (var_slice_ok p sf (v_offset v) (v_readonly v) (v_size v) s Hp Hs) as H3. rewrite <- Ev in H3.
  unfold slice_dims in *. rewrite Hsd in H3. rewrite Hd1 in Hp1. rewrite Hd2 in H2.
  cbn [s s_dim s_begin s_end s_stride] in H3, Hp1, H2.
  destruct (extent p d) as [n|] eqn:Ee; [|discriminate]. destruct (extent_split _ _ _ Ee) as (q1 & q2 & -> & Hk1).
  destruct (lwf_app _ _ _ _ Hp) as (_ & Hn & _ & Hk2 & _).
  rewrite map_split in Hp1, H3 by assumption. rewrite filter_split in H3 by assumption. cbn [fst] in Hp1, H3.
  destruct (Z.eqb_spec e1 (-1)); [contradiction|]. destruct (Z.leb_spec e1 n); [|discriminate]. injection Hp1 as <-.
  rewrite extent_app_notin in H2 by assumption. cbn [extent] in H2. rewrite Z.eqb_refl in H2.
  rewrite map_split, filter_split in H2 by assumption. cbn [fst] in H2.
  assert (Hoff : sl_off s sf (v_offset v) = sl_off (mkslice d b2 e2 st2) (sl_sf (mkslice d b1 e1 st1) sf) (sl_off (mkslice d b1 e1 st1) sf (v_offset v))).
  { unfold sl_off, sl_sf. rewrite Hd1, Hd2, Hsd. cbn [s s_dim s_begin s_end s_stride orb].
    destruct (Z.eqb_spec e1 (-1)); [contradiction|]. rewrite put_same. ring. }
  rewrite Hoff in H3. clear Hoff. unfold E in H3.
  destruct (Z.eqb_spec e2 (-1)) as [E2|E2].
  - replace (-1 =? -1) with true in H3 by lia. destruct (Z.ltb_spec b2 (ceil_div (e1 - b1) st1)) as [Hlt|]; [|discriminate].
    apply ceil_div_count in Hlt; [|lia|lia|lia]. destruct (Z.ltb_spec (b1 + b2 * st1) n); [|lia]. rewrite H3. rewrite H2.
    f_equal. apply SV_ext. intros k Hk. unfold sl_sf. rewrite Hd1, Hd2, Hsd. cbn [s s_dim s_begin s_end s_stride orb].
    unfold E. destruct (Z.eqb_spec e1 (-1)); [contradiction|]. subst e2. cbn [Z.eqb Pos.eqb].
    symmetry. apply put_other. intros ->. rewrite keys_app, in_app_iff in Hk. tauto.
  - destruct He2 as [?|He2]; [contradiction|].
    destruct (Z.eqb_spec (b1 + (e2 - 1) * st1 + 1) (-1)); [nia|].
    destruct (Z.leb_spec e2 (ceil_div (e1 - b1) st1)) as [Hle|]; [|discriminate].
    assert (Hlt : e2 - 1 < ceil_div (e1 - b1) st1) by lia. apply ceil_div_count in Hlt; [|lia|lia|lia].
    destruct (Z.leb_spec (b1 + (e2 - 1) * st1 + 1) n); [|lia]. rewrite H3. rewrite H2.
    replace (b1 + (e2 - 1) * st1 + 1 - (b1 + b2 * st1)) with ((e2 - b2 - 1) * st1 + 1) by ring.
    rewrite ceil_div_compose by lia. f_equal. apply SV_ext. intros k Hk. unfold sl_sf. rewrite Hd1, Hd2, Hsd.
    cbn [s s_dim s_begin s_end s_stride orb]. unfold E. destruct (Z.eqb_spec e1 (-1)); [contradiction|].
    destruct (Z.eqb_spec e2 (-1)); [contradiction|]. destruct (Z.eqb_spec (b1 + (e2 - 1) * st1 + 1) (-1)); [nia|].
    rewrite put_same. unfold put. destruct (k =? d); ring.
Qed.

Lemma extent_filter_other p d k : k <> d -> extent (filter (fun e : Z * Z => negb (fst e =? d)) p) k = extent p k.
Proof.
  intros Hk. induction p as [|[a b] p IH]; [reflexivity|]. cbn [filter fst extent].
  destruct (Z.eqb_spec a d) as [->|]; cbn [negb extent].
  - destruct (Z.eqb_spec d k); [congruence|assumption].
  - rewrite IH. reflexivity.
Qed.
Lemma extent_map_other p d k c : k <> d -> extent (map (fun e : Z * Z => if fst e =? d then (fst e, c) else e) p) k = extent p k.
Proof.
  intros Hk. induction p as [|[a b] p IH]; [reflexivity|]. cbn [map fst extent].
  destruct (Z.eqb_spec a d) as [->|]; cbn [extent].
  - destruct (Z.eqb_spec d k); [congruence|assumption].
  - rewrite IH. reflexivity.
Qed.
Lemma filter_map_other (p : list (Z * Z)) d k c : k <> d ->
  filter (fun e : Z * Z => negb (fst e =? k)) (map (fun e : Z * Z => if fst e =? d then (fst e, c) else e) p) =
  map (fun e : Z * Z => if fst e =? d then (fst e, c) else e) (filter (fun e : Z * Z => negb (fst e =? k)) p).
Proof.
  intros Hk. induction p as [|[a b] p IH]; [reflexivity|]. cbn [map filter fst].
  destruct (Z.eqb_spec a d) as [->|]; cbn [fst].
  - destruct (Z.eqb_spec d k); [congruence|]. cbn [negb map fst]. rewrite Z.eqb_refl, IH. reflexivity.
  - destruct (Z.eqb_spec a k) as [->|]; cbn [negb]; [assumption|]. cbn [map fst].
    destruct (Z.eqb_spec a d); [contradiction|]. rewrite IH. reflexivity.
Qed.

Lemma slice_dims_comm p s1 s2 p1 p2 : s_dim s1 <> s_dim s2 -> slice_dims p s1 = Some p1 -> slice_dims p1 s2 = Some p2 ->
  exists q, slice_dims p s2 = Some q /\ slice_dims q s1 = Some p2.
Proof.
  intros Hd H1 H2. unfold slice_dims in *.
  destruct (slice_eqb s1 slice_default); [injection H1 as <-; eauto|].
  destruct (slice_eqb s2 slice_default); [injection H2 as <-; exists p; auto|].
  destruct (extent p (s_dim s1)) as [n1|] eqn:E1; [|discriminate].
  destruct (s_end s1 =? -1) eqn:Ee1; [destruct (s_begin s1 <? n1) eqn:B1|destruct (s_end s1 <=? n1) eqn:B1]; try discriminate;
  injection H1 as <-;
  rewrite ?extent_filter_other, ?extent_map_other in H2 by congruence;
  (destruct (extent p (s_dim s2)) as [n2|] eqn:E2; [|discriminate]);
  (destruct (s_end s2 =? -1) eqn:Ee2; [destruct (s_begin s2 <? n2) eqn:B2|destruct (s_end s2 <=? n2) eqn:B2]); try discriminate;
  injection H2 as <-; eexists; (split; [reflexivity|]);
  rewrite ?extent_filter_other, ?extent_map_other by congruence; rewrite E1, B1; f_equal.
  - rewrite !filter_filter. apply filter_ext. intros e. apply andb_comm.
  - apply filter_map_other. assumption.
  - rewrite filter_map_other by congruence. reflexivity.
  - rewrite !map_map. apply map_ext. intros [a b]. cbn [fst].
    destruct (a =? s_dim s1) eqn:X1, (a =? s_dim s2) eqn:X2; cbn [fst]; rewrite ?X1, ?X2; try reflexivity. lia.
Qed.

Lemma slice_commute v s1 s2 v1 v2 : wfv v -> slice_ok s1 -> slice_ok s2 -> s_dim s1 <> s_dim s2 ->
  var_slice v s1 = Ok v1 -> var_slice v1 s2 = Ok v2 ->
  exists w, var_slice v s2 = Ok w /\ var_slice w s1 = Ok v2.
Proof.
  intros Hv Ho1 Ho2 Hd HE1 HE2.
  destruct (var_slice_inv v _ v1 Hv Ho1 HE1) as (p & sf & p1 & Hp & Ev & Hp1 & Hw1 & Ev1).
  pose proof (var_slice_ok p1 (sl_sf s1 sf) (sl_off s1 sf (v_offset v)) (v_readonly v) (v_size v) _ Hw1 Ho2) as H2.
  rewrite <- Ev1, HE2 in H2. destruct (slice_dims p1 s2) as [p2|] eqn:Ep2; [|discriminate].
  destruct (slice_dims_comm p s1 s2 p1 p2 Hd Hp1 Ep2) as (q & Hq & Hq2).
  pose proof (var_slice_ok p sf (v_offset v) (v_readonly v) (v_size v) _ Hp Ho2) as H3. rewrite Hq, <- Ev in H3.
  rewrite H3. eexists. split; [reflexivity|].
  assert (Hwq : lwf q).
  { pose proof (slice_step_ok p s2 Hp Ho2 (fun _ => 0) 0 false 0 (fun k _ => Z.le_refl 0)) as Hx. cbn [view_dims] in Hx. rewrite Hq in Hx. apply Hx. }
  pose proof (var_slice_ok q (sl_sf s2 sf) (sl_off s2 sf (v_offset v)) (v_readonly v) (v_size v) _ Hwq Ho1) as H4.
  rewrite Hq2 in H4. rewrite H4. rewrite H2. f_equal.
  assert (Hoff : sl_off s1 (sl_sf s2 sf) (sl_off s2 sf (v_offset v)) = sl_off s2 (sl_sf s1 sf) (sl_off s1 sf (v_offset v))).
  { unfold sl_off, sl_sf. destruct (slice_eqb s1 slice_default), (slice_eqb s2 slice_default); cbn [orb]; try reflexivity.
    destruct (s_end s2 =? -1), (s_end s1 =? -1); rewrite ?put_other by congruence; ring. }
  rewrite Hoff. apply SV_ext. intros k _. unfold sl_sf.
  destruct (slice_eqb s1 slice_default || (s_end s1 =? -1)), (slice_eqb s2 slice_default || (s_end s2 =? -1)); try reflexivity.
  unfold put.
  destruct (k =? s_dim s1) eqn:X1, (k =? s_dim s2) eqn:X2, (s_dim s1 =? s_dim s2) eqn:X3, (s_dim s2 =? s_dim s1) eqn:X4; try reflexivity; lia.
Qed.
