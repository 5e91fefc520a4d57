From Coq Require Import Sorting.Permutation Sorted.
From Verif Require Import Base Arr Map_Model Map_Spec Map_Proofs Dims_Model Dims_Spec Dims_Proofs View_Model View_Spec View_Proofs Index_Proofs
  Transform_Model Transform_Spec Transform_Proofs SizedDict_Proofs Equality_Proofs Accumulate_Spec Reduce_Proofs Accumulate_Model Accumulate_Proofs
  Mask_Model Mask_Spec Mask_Proofs Mapper_Model Mapper_Proofs Lookup_Model GroupBy_Model GroupBy_Spec.
From Verif Require Lookup_Proofs.
Notation mapM := Mapper_Model.mapM.

(** ** Positions *)
Lemma positions_app g g' : positions (g ++ g') = positions g ++ positions g'.
Proof. unfold positions. apply flat_map_app. Qed.
Lemma zseq_split a n m : zseq a (n + m) = zseq a n ++ zseq (a + Z.of_nat n) m.
Proof.
  revert a. induction n as [|n IH]; intros a; [cbn [plus app zseq]; replace (a + Z.of_nat 0) with a by lia; reflexivity|].
  cbn [plus]. rewrite !zseq_S. cbn [app]. f_equal. rewrite IH. do 2 f_equal. lia.
Qed.
Lemma filter_const {A} (p : A -> bool) (b : bool) l : (forall x, In x l -> p x = b) -> filter p l = if b then l else [].
Proof.
  induction l as [|x l IH]; intros Hp; [destruct b; reflexivity|]. cbn [filter]. rewrite (Hp x (or_introl eq_refl)), IH by (intros; apply Hp; right; assumption). destruct b; reflexivity.
Qed.

Lemma forall2_impl {A B} (P Q : A -> B -> Prop) l l' : (forall a b, P a b -> Q a b) -> Forall2 P l l' -> Forall2 Q l l'.
Proof. intros Hi. induction 1; constructor; auto. Qed.
Section Values.
Context {K : Type} (eq : K -> K -> bool) (hash : K -> Z) (less : K -> K -> bool).
Hypothesis Hko : key_order eq less.
Hypothesis Hhash : forall a b, eq a b = true -> hash a = hash b.

Lemma eq_refl' a : eq a a = true.
Proof. apply (ko_eq _ _ Hko). rewrite (ko_irr _ _ Hko). auto. Qed.
Lemma eq_sym' a b : eq a b = true -> eq b a = true.
Proof. intros E. apply (ko_eq _ _ Hko). apply (ko_eq _ _ Hko) in E. tauto. Qed.
Lemma eq_left a b c : eq a b = true -> eq a c = eq b c.
Proof.
  intros E. destruct (eq a c) eqn:Ea, (eq b c) eqn:Eb; try reflexivity.
  - rewrite <- Eb. symmetry. apply (ko_eq_trans _ _ Hko b a c); [apply eq_sym'; exact E|exact Ea].
  - rewrite <- Ea. apply (ko_eq_trans _ _ Hko a b c); assumption.
Qed.
Lemma same_eq a b : same eq hash a b = eq a b.
Proof. unfold same. destruct (eq a b) eqn:E; [rewrite (Hhash a b E), Z.eqb_refl; reflexivity|apply andb_false_r]. Qed.

Lemma run_spec v l : (run eq v l <= length l)%nat /\ forall i x, (i < run eq v l)%nat -> nth_error l i = Some x -> eq x v = true.
Proof.
  induction l as [|y l [I1 I2]]; cbn [run length]; [split; [lia|intros; lia]|]. destruct (eq y v) eqn:E; [|split; [lia|intros; lia]]. split; [lia|].
  intros [|i] x Hi Hx; [injection Hx as <-; exact E|]. apply (I2 i x); [lia|exact Hx].
Qed.

(** The state after the first elements [pre] of the key. *)
Definition entries_for (pre : list K) (entries : list (K * group)) : Prop :=
  ForallOrdPairs (fun a b => eq (fst a) (fst b) = false) entries /\
  (forall k g, In (k, g) entries -> positions g = where_key (fun x => eq x k) pre /\ In k pre /\ Forall (fun s => 0 <= fst s /\ fst s <= snd s <= zlen pre) g) /\
  (forall x, In x pre -> exists k g, In (k, g) entries /\ eq x k = true).

Lemma where_key_app (p : K -> bool) pre l : where_key p (pre ++ l) = where_key p pre ++ filter (key_at p (pre ++ l)) (zseq (zlen pre) (length l)).
Proof.
  unfold where_key. rewrite app_length, zseq_split, filter_app. f_equal.
  apply filter_ext_in. intros i Hi. apply In_zseq in Hi. unfold key_at. rewrite nth_error_app1 by lia. reflexivity.
Qed.
Lemma where_key_run (p : K -> bool) (b : bool) pre l : (forall x, In x l -> p x = b) -> where_key p (pre ++ l) = where_key p pre ++ if b then zseq (zlen pre) (length l) else [].
Proof.
  intros Hl. rewrite where_key_app. f_equal. apply filter_const. intros i Hi. apply In_zseq in Hi. unfold key_at, zlen in *. rewrite nth_error_app2 by lia. destruct (nth_error l _) as [x|] eqn:E; [apply Hl; apply (nth_error_In _ _ E)|].
  apply nth_error_None in E. lia.
Qed.

Lemma add_slice_In k s entries k' g' : In (k', g') (add_slice eq hash k s entries) ->
  (In (k', g') entries /\ (ForallOrdPairs (fun a b => eq (fst a) (fst b) = false) entries -> eq k k' = false)) \/
  (exists g, In (k', g) entries /\ eq k k' = true /\ g' = g ++ [s]) \/
  (k' = k /\ g' = [s] /\ forall k'' g'', In (k'', g'') entries -> eq k k'' = false).
Proof.
  induction entries as [|[k1 g1] entries IH]; cbn [add_slice].
  - intros [E|[]]. injection E as <- <-. right. right. split; [reflexivity|]. split; [reflexivity|]. intros ? ? [].
  - rewrite same_eq. destruct (eq k k1) eqn:E.
    + intros [E'|Hi]; [injection E' as <- <-; right; left; exists g1; split; [left; reflexivity|auto]|]. left. split; [right; exact Hi|]. intros Hf. inversion Hf as [|? ? Hf1 _ E1]. rewrite Forall_forall in Hf1. rewrite (eq_left k k1 k' E). apply (Hf1 _ Hi).
    + intros [E'|Hi].
      * injection E' as <- <-. left. split; [left; reflexivity|]. intros _. exact E.
      * destruct (IH Hi) as [[Hx Hf]|[(g & Hx & E2 & ->)|(-> & -> & Hx)]].
        -- left. split; [right; exact Hx|]. intros Hff. inversion Hff; auto.
        -- right. left. exists g. split; [right; exact Hx|auto].
        -- right. right. split; [reflexivity|]. split; [reflexivity|]. intros k'' g'' [E3|Hy]; [injection E3 as <- <-; exact E|apply (Hx _ _ Hy)].
Qed.
Lemma add_slice_keeps k s entries k' g' : In (k', g') entries -> exists g, In (k', g) (add_slice eq hash k s entries).
Proof.
  induction entries as [|[k1 g1] entries IH]; [intros []|]. cbn [add_slice]. intros [E|Hi].
  - injection E as <- <-. destruct (same eq hash k k1); eexists; left; reflexivity.
  - destruct (same eq hash k k1); [exists g'; right; exact Hi|]. destruct (IH Hi) as [g Hg]. exists g. right. exact Hg.
Qed.
Lemma add_slice_new k s entries : exists k' g', In (k', g') (add_slice eq hash k s entries) /\ eq k k' = true.
Proof.
  induction entries as [|[k1 g1] entries (k' & g' & Hi & E)]; cbn [add_slice]; [exists k, [s]; split; [left; reflexivity|apply eq_refl']|].
  rewrite same_eq. destruct (eq k k1) eqn:E1; [exists k1, (g1 ++ [s]); split; [left; reflexivity|exact E1]|]. exists k', g'. split; [right; exact Hi|exact E].
Qed.
Lemma add_slice_keys k s entries : map fst (add_slice eq hash k s entries) = map fst entries \/ map fst (add_slice eq hash k s entries) = map fst entries ++ [k] /\ forall k' g', In (k', g') entries -> eq k k' = false.
Proof.
  induction entries as [|[k1 g1] entries IH]; cbn [add_slice]; [right; split; [reflexivity|intros ? ? []]|]. rewrite same_eq. destruct (eq k k1) eqn:E; [left; reflexivity|].
  cbn [map fst]. destruct IH as [->|[-> Hx]]; [left; reflexivity|right]. split; [reflexivity|]. intros k' g' [E'|Hi]; [injection E' as <- <-; exact E|apply (Hx _ _ Hi)].
Qed.
Lemma pairs_fst (R : K -> K -> Prop) (l : list (K * group)) : ForallOrdPairs (fun a b => R (fst a) (fst b)) l <-> ForallOrdPairs R (map fst l).
Proof.
  split.
  - induction 1 as [|x l Hx Hl IH]; constructor; [|exact IH]. apply Forall_map. exact Hx.
  - induction l as [|x l IH]; intros Hl; [constructor|]. inversion Hl as [|? ? Hx Hl' E]. constructor; [exact (proj1 (Forall_map _ _ _) Hx)|apply IH; exact Hl'].
Qed.
Lemma pairs_snoc (R : K -> K -> Prop) l x : ForallOrdPairs R l -> Forall (fun y => R y x) l -> ForallOrdPairs R (l ++ [x]).
Proof.
  induction 1 as [|y l Hy Hl IH]; intros Hx; [repeat constructor|]. inversion Hx as [|? ? Hx1 Hx2 E]. cbn [app]. constructor; [apply Forall_app; split; [exact Hy|repeat constructor; exact Hx1]|apply IH; exact Hx2].
Qed.
Lemma add_slice_ok pre v l entries : entries_for pre entries -> l <> [] -> (forall x, In x l -> eq x v = true) -> In v l ->
  entries_for (pre ++ l) (add_slice eq hash v (zlen pre, zlen pre + Z.of_nat (length l)) entries).
Proof.
  intros (E1 & E2 & E3) Hne Hl Hv. set (s := (zlen pre, zlen pre + Z.of_nat (length l))).
  assert (Ps : positions [s] = zseq (zlen pre) (length l)) by (unfold positions, s; cbn [flat_map fst snd]; rewrite app_nil_r; f_equal; lia).
  assert (Ss : 0 <= fst s /\ fst s <= snd s <= zlen (pre ++ l)) by (unfold s, zlen; rewrite app_length; cbn [fst snd]; lia).
  assert (Mon : forall g, Forall (fun s => 0 <= fst s /\ fst s <= snd s <= zlen pre) g -> Forall (fun s => 0 <= fst s /\ fst s <= snd s <= zlen (pre ++ l)) g) by (intros g; apply Forall_impl; intros a Ha; unfold zlen in *; rewrite app_length; lia).
  split; [|split].
  - apply (pairs_fst (fun a b => eq a b = false)). destruct (add_slice_keys v s entries) as [->|[-> Hx]]; [apply (pairs_fst (fun a b => eq a b = false)); exact E1|]. apply pairs_snoc; [apply (pairs_fst (fun a b => eq a b = false)); exact E1|].
    apply Forall_forall. intros k Hk. apply in_map_iff in Hk as ([k' g'] & <- & Hi). cbn [fst]. destruct (eq k' v) eqn:E; [|reflexivity]. rewrite <- (Hx k' g' Hi). symmetry. apply eq_sym'. exact E.
  - intros k g Hg. apply add_slice_In in Hg as [[Hg Hf]|[(g0 & Hg & E & ->)|(-> & -> & Hx)]].
    + specialize (Hf E1). destruct (E2 _ _ Hg) as (P1 & P2 & P3). split; [|split; [apply in_or_app; auto|apply Mon; exact P3]].
      rewrite (where_key_run _ false); [rewrite app_nil_r; exact P1|]. intros x Hx. rewrite (eq_left x v k (Hl x Hx)). exact Hf.
    + destruct (E2 _ _ Hg) as (P1 & P2 & P3). split; [|split; [apply in_or_app; auto|apply Forall_app; split; [apply Mon; exact P3|constructor; [exact Ss|constructor]]]].
      rewrite positions_app, Ps, P1. rewrite (where_key_run _ true); [reflexivity|]. intros x Hx. rewrite (eq_left x v k (Hl x Hx)). exact E.
    + split; [|split; [apply in_or_app; auto|constructor; [exact Ss|constructor]]]. rewrite (where_key_run _ true); [|exact Hl]. rewrite Ps.
      assert (Hnil : where_key (fun x => eq x v) pre = []); [|rewrite Hnil; reflexivity]. unfold where_key. rewrite (filter_const _ false); [reflexivity|]. intros i Hi. unfold key_at. destruct (nth_error pre (Z.to_nat i)) as [x|] eqn:Ei; [|reflexivity].
      apply nth_error_In in Ei. destruct (E3 x Ei) as (k & g & Hk & Exk). destruct (eq x v) eqn:Exv; [|reflexivity]. rewrite <- (Hx k g Hk). symmetry. rewrite <- (eq_left x v k Exv). exact Exk.
  - intros x Hx. apply in_app_or in Hx as [Hx|Hx].
    + destruct (E3 x Hx) as (k & g & Hk & E). destruct (add_slice_keeps v s entries k g Hk) as [g' Hg']. exists k, g'. auto.
    + destruct (add_slice_new v s entries) as (k & g & Hk & E). exists k, g. split; [exact Hk|]. rewrite (eq_left x v k (Hl x Hx)). exact E.
Qed.
Lemma group_loop_ok fuel : forall pre l entries, (length l <= fuel)%nat -> entries_for pre entries ->
  exists out, group_loop eq hash fuel (zlen pre) l entries = Ok out /\ entries_for (pre ++ l) out.
Proof.
  induction fuel as [|fuel IH]; intros pre l entries Hf He; (destruct l as [|v l0]; [exists entries; split; [destruct pre; reflexivity|rewrite app_nil_r; exact He]|]); [cbn [length] in Hf; lia|].
  cbn [group_loop]. set (l := v :: l0) in *. destruct (run_spec v l) as [R1 R2]. assert (R0 : (0 < run eq v l)%nat) by (unfold l; cbn [run]; rewrite eq_refl'; lia).
  set (m := run eq v l) in *. assert (Lf : length (firstn m l) = m) by (apply firstn_length_le; exact R1).
  assert (Hin : forall x, In x (firstn m l) -> eq x v = true).
  { intros x Hx. apply In_nth_error in Hx as [i Hi]. assert (Him : (i < m)%nat) by (rewrite <- Lf; apply nth_error_Some; congruence). apply (R2 i x Him). rewrite <- (firstn_skipn m l). rewrite nth_error_app1 by lia. exact Hi. }
  destruct (IH (pre ++ firstn m l) (skipn m l) (add_slice eq hash v (zlen pre, zlen pre + Z.of_nat m) entries)) as (out & Eo & Ho).
  - rewrite skipn_length. lia.
  - rewrite <- Lf at 2. apply add_slice_ok; [exact He| |exact Hin|].
    + intros E. rewrite E in Lf. change (length (@nil K)) with O in Lf. lia.
    + destruct m as [|m']; [lia|]. left. reflexivity.
  - exists out. rewrite <- app_assoc, firstn_skipn in Ho. split; [|exact Ho]. rewrite <- Eo. f_equal. unfold zlen. rewrite app_length, Lf. lia.
Qed.
Lemma make_entries_ok key : exists entries, make_entries eq hash key = Ok entries /\ entries_for key entries.
Proof.
  destruct (group_loop_ok (length key) [] key [] (le_n _)) as (out & E & Ho); [|exists out; auto]. split; [constructor|]. split; [intros ? ? []|intros ? []].
Qed.
Lemma group_at_ok entries k g : ForallOrdPairs (fun a b => eq (fst a) (fst b) = false) entries -> In (k, g) entries -> group_at eq hash entries k = Ok g.
Proof.
  induction 1 as [|[k1 g1] entries Hx Hl IH]; [intros []|]. cbn [group_at]. rewrite same_eq. intros [E|Hi]; [injection E as <- <-; rewrite eq_refl'; reflexivity|].
  rewrite Forall_forall in Hx. specialize (Hx _ Hi). cbn [fst] in Hx. destruct (eq k k1) eqn:E; [apply eq_sym' in E; congruence|]. apply IH. exact Hi.
Qed.
Lemma groups_at entries ks : ForallOrdPairs (fun a b => eq (fst a) (fst b) = false) entries -> (forall k, In k ks -> In k (map fst entries)) ->
  exists groups, mapM (group_at eq hash entries) ks = Ok groups /\ Forall2 (fun k g => In (k, g) entries) ks groups.
Proof.
  intros He. induction ks as [|k ks IH]; intros Hk; [exists []; split; [reflexivity|constructor]|]. destruct IH as (gs & Eg & Hg); [intros; apply Hk; right; assumption|].
  destruct (proj1 (in_map_iff fst entries k) (Hk k (or_introl eq_refl))) as ([k' g] & E & Hi). cbn [fst] in E. subst k'. exists (g :: gs). cbn [Mapper_Model.mapM]. rewrite (group_at_ok entries k g He Hi). cbn [bind]. rewrite Eg. cbn [bind]. split; [reflexivity|]. constructor; assumption.
Qed.
Lemma may_group_ok key ks groups : may_group eq hash less key ks groups ->
  (forall i j a b, (i < j)%nat -> nth_error ks i = Some a -> nth_error ks j = Some b -> less a b = true) /\
  (forall k, In k ks -> In k key) /\ (forall x, In x key -> exists k, In k ks /\ eq x k = true) /\
  Forall2 (fun k g => positions g = where_key (fun x => eq x k) key /\ Forall (fun s => 0 <= fst s /\ fst s <= snd s <= zlen key) g) ks groups.
Proof.
  intros (entries & Ee & Hp & Hs & Hg). destruct (make_entries_ok key) as (entries' & Ee' & E1 & E2 & E3). assert (entries' = entries) as -> by congruence.
  assert (Hks : forall k, In k ks -> In k (map fst entries)) by (intros k Hk; apply (Permutation_in _ Hp); exact Hk).
  assert (Hne : forall l : list K, ForallOrdPairs (fun a b => eq a b = false) l -> forall l', Permutation l l' -> ForallOrdPairs (fun a b => eq a b = false) l').
  { intros l Hl l' Hpp. induction Hpp as [|x l l' Hpp IH|x y l|l l' l'' P1 IH1 P2 IH2].
    - exact Hl.
    - inversion Hl as [|? ? Hx Hl' E]. constructor; [|apply IH; exact Hl']. apply Forall_forall. intros z Hz. rewrite Forall_forall in Hx. apply Hx. apply (Permutation_in _ (Permutation_sym Hpp) Hz).
    - inversion Hl as [|? ? Hx Hl' E]. inversion Hl' as [|? ? Hy Hl'' E']. inversion Hx as [|? ? Hyx Hx' E'']. constructor; [constructor; [destruct (eq x y) eqn:Exy; [apply eq_sym' in Exy; congruence|reflexivity]|exact Hy]|]. constructor; assumption.
    - apply IH2, IH1, Hl. }
  pose proof (proj1 (pairs_fst (fun a b => eq a b = false) _) E1) as E1'. specialize (Hne _ E1' _ (Permutation_sym Hp)). split; [|split; [|split]].
  - intros i j a b Hij Ha Hb. destruct (less a b) eqn:E; [reflexivity|]. specialize (Hs i j a b Hij Ha Hb). assert (Eab : eq a b = true) by (apply (ko_eq _ _ Hko); auto). exfalso.
    clear - Hne Hij Ha Hb Eab. revert i j Hij Ha Hb. induction Hne as [|x l Hx Hl IH]; intros i j Hij Ha Hb; [destruct i; discriminate|]. destruct j as [|j]; [lia|]. cbn [nth_error] in Hb. destruct i as [|i]; [|apply (IH i j); [lia|exact Ha|exact Hb]].
    injection Ha as ->. rewrite Forall_forall in Hx. specialize (Hx b (nth_error_In _ _ Hb)). congruence.
  - intros k Hk. apply Hks in Hk. apply in_map_iff in Hk as ([k' g] & <- & Hi). apply (E2 k' g Hi).
  - intros x Hx. destruct (E3 x Hx) as (k & g & Hi & E). exists k. split; [|exact E]. apply (Permutation_in _ (Permutation_sym Hp)). change k with (fst (k, g)). apply in_map. exact Hi.
  - destruct (groups_at entries ks E1 Hks) as (gs & Eg & Hf). assert (gs = groups) as -> by congruence. revert Hf. apply forall2_impl. intros k g Hi. destruct (E2 k g Hi) as (P1 & _ & P3). auto.
Qed.
End Values.

Section Bins.
Context {K : Type} (good : K -> bool) (less le : K -> K -> bool) (edges : list K).
Hypothesis Ho : edge_order good less le.
Hypothesis Hg : Forall (fun e => good e = true) edges.
Lemma good_at i e : nth_error edges i = Some e -> good e = true.
Proof. intros E. rewrite Forall_forall in Hg. apply Hg. apply (nth_error_In _ _ E). Qed.
Lemma le_refl' a : good a = true -> le a a = true.
Proof. intros Ga. rewrite (eo_le _ _ _ Ho) by assumption. destruct (less a a) eqn:E; [|reflexivity]. pose proof (eo_total _ _ _ Ho a a Ga Ga E) as E'. rewrite (eo_le _ _ _ Ho) in E' by assumption. rewrite E in E'. discriminate. Qed.
Lemma is_sorted_ok : is_sorted less edges = true -> forall i j a b, (i <= j)%nat -> nth_error edges i = Some a -> nth_error edges j = Some b -> le a b = true.
Proof.
  clear - Hg Ho. induction edges as [|x l IH]; intros Hs i j a b Hij Ha Hb; [destruct i; discriminate|]. inversion Hg as [|? ? Gx Gl E]. assert (Gy : forall k y, nth_error l k = Some y -> good y = true) by (intros k y Ey; rewrite Forall_forall in Gl; apply Gl; apply (nth_error_In _ _ Ey)).
  assert (Hl : is_sorted less l = true) by (cbn [is_sorted] in Hs; destruct l; [reflexivity|apply andb_prop in Hs; apply Hs]).
  destruct j as [|j]; [assert (i = 0%nat) as -> by lia; injection Ha as <-; injection Hb as <-; apply le_refl'; exact Gx|]. cbn [nth_error] in Hb. destruct i as [|i]; [|apply (IH Gl Hl i j a b); [lia|exact Ha|exact Hb]].
  injection Ha as <-. destruct l as [|y l]; [destruct j; discriminate|]. cbn [is_sorted] in Hs. apply andb_prop in Hs as [Hxy _]. assert (Gy0 : good y = true) by (apply (Gy 0%nat); reflexivity).
  apply (eo_trans _ _ _ Ho x y b); auto; [apply (Gy j b Hb)|rewrite (eo_le _ _ _ Ho) by assumption; exact Hxy|apply (IH Gl Hl 0%nat j y b); [lia|reflexivity|exact Hb]].
Qed.
Hypothesis Hs : forall i j a b, (i <= j)%nat -> nth_error edges i = Some a -> nth_error edges j = Some b -> le a b = true.

Lemma vget_nth {A} (l : list A) i x : vget l i = Ok x <-> 0 <= i /\ nth_error l (Z.to_nat i) = Some x.
Proof.
  unfold vget. destruct (Z.ltb_spec i 0); [split; [discriminate|lia]|]. destruct (nth_error l (Z.to_nat i)); split; try discriminate; try (intros [_ E]; discriminate).
  - intros E. injection E as ->. auto.
  - intros [_ E]. injection E as ->. reflexivity.
Qed.
Lemma less_mono v e e' : good v = true -> good e = true -> good e' = true -> less v e = true -> le e e' = true -> less v e' = true.
Proof.
  intros Gv Ge Ge' E1 E2. destruct (less v e') eqn:E3; [reflexivity|]. assert (E4 : le e' v = true) by (rewrite (eo_le _ _ _ Ho) by assumption; rewrite E3; reflexivity).
  pose proof (eo_trans _ _ _ Ho e e' v Ge Ge' Gv E2 E4) as E5. rewrite (eo_le _ _ _ Ho) in E5 by assumption. rewrite E1 in E5. discriminate.
Qed.
(** Bins do not overlap. *)
Lemma in_bin_unique g g' x : in_bin less le edges g x = true -> in_bin less le edges g' x = true -> g = g'.
Proof.
  assert (Hw : forall g g', (g < g')%nat -> in_bin less le edges g x = true -> in_bin less le edges g' x = true -> False).
  { clear g g'. intros g g' Hgg. unfold in_bin. destruct (nth_error edges g) as [l|]; [|discriminate]. destruct (nth_error edges (S g)) as [r|] eqn:Er; [|discriminate]. destruct (nth_error edges g') as [l'|] eqn:El; [|discriminate]. destruct (nth_error edges (S g')); [|discriminate].
    intros E1 E2. apply andb_prop in E1 as [_ E1]. apply andb_prop in E2 as [E2 _]. assert (Gx : good x = true) by (destruct (good x) eqn:Gx; [reflexivity|]; destruct (eo_bad _ _ _ Ho x r Gx); congruence).
    pose proof (less_mono x r l' Gx (good_at _ _ Er) (good_at _ _ El) E1 (Hs (S g) g' r l' ltac:(lia) Er El)) as E3. rewrite (eo_le _ _ _ Ho) in E2 by (assumption || apply (good_at _ _ El)). rewrite E3 in E2. discriminate. }
  intros E1 E2. destruct (Nat.lt_trichotomy g g') as [Hx|[Hx|Hx]]; [destruct (Hw g g' Hx E1 E2)|exact Hx|destruct (Hw g' g Hx E2 E1)].
Qed.
Lemma upper_ok v : exists it, upper_bound (fun e => less v e) edges = Ok it /\ 0 <= it <= zlen edges /\ (forall g : nat, in_bin less le edges g v = true <-> Z.of_nat g = it - 1 /\ it < zlen edges).
Proof.
  destruct (good v) eqn:Gv.
  - destruct (Lookup_Proofs.upper_bound_ok (fun e => less v e) edges) as (it & E & Hi & Hb & Ha).
    { intros i j Hij (e & Ee & Le) Hj. pose proof (proj1 (vget_nth _ _ _) Ee) as [H0 Hn]. destruct (Lookup_Proofs.vget_in edges j ltac:(lia)) as [e' Ee']. exists e'. split; [exact Ee'|]. pose proof (proj1 (vget_nth _ _ _) Ee') as [_ Hn'].
      apply (less_mono v e e' Gv); [apply (good_at _ _ Hn)|apply (good_at _ _ Hn')|exact Le|apply (Hs (Z.to_nat i) (Z.to_nat j)); [lia|exact Hn|exact Hn']]. }
    exists it. split; [exact E|]. change (Z.of_nat (length edges)) with (zlen edges) in *. split; [exact Hi|].
    assert (Fwd : forall g, Z.of_nat g = it - 1 -> it < zlen edges -> in_bin less le edges g v = true).
    { intros g E1 E2. destruct (Hb (it - 1) ltac:(lia)) as (l & El & Ll). destruct (Ha it ltac:(lia)) as (r & Er & Lr). apply (proj1 (vget_nth _ _ _)) in El as [_ El]. apply (proj1 (vget_nth _ _ _)) in Er as [_ Er]. unfold in_bin.
      replace g with (Z.to_nat (it - 1)) by lia. rewrite El. replace (S (Z.to_nat (it - 1))) with (Z.to_nat it) by lia. rewrite Er, Lr, andb_true_r. rewrite (eo_le _ _ _ Ho) by (assumption || apply (good_at _ _ El)). rewrite Ll. reflexivity. }
    intros g. split; [|intros [E1 E2]; apply Fwd; assumption]. intros Hx. pose proof Hx as Hx'. unfold in_bin in Hx. destruct (nth_error edges g) as [l|] eqn:El; [|discriminate]. destruct (nth_error edges (S g)) as [r|] eqn:Er; [|discriminate]. apply andb_prop in Hx as [Hl Hr].
    assert (Lg : (S g < length edges)%nat) by (apply nth_error_Some; congruence). assert (Zg : Z.of_nat (S g) < zlen edges) by (unfold zlen; lia).
    assert (Hit : it < zlen edges). { destruct (Z.lt_ge_cases (Z.of_nat (S g)) it) as [Hc|Hc]; [|lia]. destruct (Hb (Z.of_nat (S g)) ltac:(lia)) as (e & Ee & Le). apply (proj1 (vget_nth _ _ _)) in Ee as [_ Ee]. rewrite Nat2Z.id in Ee. congruence. }
    assert (H0 : 0 < it). { destruct (Z.lt_ge_cases 0 it) as [Hc|Hc]; [exact Hc|]. destruct (Ha (Z.of_nat g) ltac:(lia)) as (e & Ee & Le). apply (proj1 (vget_nth _ _ _)) in Ee as [_ Ee]. rewrite Nat2Z.id in Ee. assert (e = l) as -> by congruence. rewrite (eo_le _ _ _ Ho) in Hl by (assumption || apply (good_at _ _ El)). rewrite Le in Hl. discriminate. }
    split; [|exact Hit]. assert (g = Z.to_nat (it - 1)); [|lia]. apply (in_bin_unique g _ v Hx'). apply Fwd; lia.
  - destruct (Lookup_Proofs.upper_bound_ok (fun e => less v e) edges) as (it & E & Hi & Hb & Ha).
    { intros i j Hij (e & Ee & Le) Hj. destruct (eo_bad _ _ _ Ho v e Gv). congruence. }
    exists it. split; [exact E|]. change (Z.of_nat (length edges)) with (zlen edges) in *. split; [exact Hi|]. intros g. split.
    + unfold in_bin. destruct (nth_error edges g) as [l|]; [|discriminate]. destruct (nth_error edges (S g)) as [r|]; [|discriminate]. destruct (eo_bad _ _ _ Ho v r Gv) as [-> _]. rewrite andb_false_r. discriminate.
    + intros [_ Hit]. exfalso. destruct (Ha it ltac:(lia)) as (e & _ & Le). destruct (eo_bad _ _ _ Ho v e Gv). congruence.
Qed.
Lemma extend_ok el er l : forall i, exists m, (m <= length l)%nat /\ extend less le el er i l = i + Z.of_nat m /\ forall x, In x (firstn m l) -> le el x && less x er = true.
Proof.
  induction l as [|x l IH]; intros i; cbn [extend]; [exists 0%nat; cbn; split; [lia|split; [lia|intros ? []]]|]. destruct (le el x && less x er) eqn:E; [|exists 0%nat; cbn [firstn length]; split; [lia|split; [lia|intros ? []]]].
  destruct (IH (i + 1)) as (m & Hm & -> & Hx). exists (S m). cbn [firstn length]. split; [lia|]. split; [lia|]. intros y [<-|Hy]; [exact E|apply Hx; exact Hy].
Qed.
Definition groups_for (pre : list K) (groups : list group) : Prop :=
  zlen groups = zlen edges - 1 /\ forall g grp, nth_error groups g = Some grp ->
    positions grp = where_key (in_bin less le edges g) pre /\ Forall (fun s => 0 <= fst s /\ fst s <= snd s <= zlen pre) grp.
Lemma bin_loop_ok fuel : forall pre l groups, (length l <= fuel)%nat -> groups_for pre groups ->
  exists out, bin_loop less le edges fuel (zlen pre) l groups = Ok out /\ groups_for (pre ++ l) out.
Proof.
  assert (Mon : forall pre (l : list K) (g : group), Forall (fun s => 0 <= fst s /\ fst s <= snd s <= zlen pre) g -> Forall (fun s => 0 <= fst s /\ fst s <= snd s <= zlen (pre ++ l)) g) by (intros pre l g; apply Forall_impl; intros a Ha; unfold zlen in *; rewrite app_length; lia).
  induction fuel as [|fuel IH]; intros pre l groups Hf (G1 & G2); (destruct l as [|v l]; [exists groups; split; [destruct pre; reflexivity|rewrite app_nil_r; split; assumption]|]); [cbn [length] in Hf; lia|].
  cbn [bin_loop]. destruct (upper_ok v) as (it & -> & Hi & Hb). cbn [bind]. destruct ((it =? zlen edges) || (it =? 0)) eqn:Eo.
  - destruct (IH (pre ++ [v]) l groups) as (out & Eout & Hout).
    + cbn [length] in Hf. lia.
    + split; [exact G1|]. intros g grp Hgrp. destruct (G2 g grp Hgrp) as [P1 P2]. split; [|apply Mon; exact P2]. rewrite (where_key_run _ false), app_nil_r; [exact P1|]. intros x [<-|[]]. destruct (in_bin less le edges g v) eqn:E; [|reflexivity]. apply Hb in E. lia.
    + exists out. rewrite <- app_assoc in Hout. split; [|exact Hout]. rewrite <- Eout. f_equal. unfold zlen. rewrite app_length. cbn [length]. lia.
  - assert (Hit : 0 < it < zlen edges) by lia. set (g := Z.to_nat (it - 1)). assert (Eg : in_bin less le edges g v = true) by (apply Hb; lia).
    destruct (nth_error edges g) as [el|] eqn:El; [|unfold in_bin in Eg; rewrite El in Eg; discriminate]. destruct (nth_error edges (S g)) as [er|] eqn:Er; [|unfold in_bin in Eg; rewrite El, Er in Eg; discriminate].
    rewrite (proj2 (vget_nth edges (it - 1) el)) by (split; [lia|exact El]). cbn [bind]. rewrite (proj2 (vget_nth edges it er)) by (split; [lia|replace (Z.to_nat it) with (S g) by lia; exact Er]). cbn [bind].
    assert (Hbin : forall x, in_bin less le edges g x = le el x && less x er) by (intros x; unfold in_bin; rewrite El, Er; reflexivity).
    destruct (extend_ok el er l (zlen pre + 1)) as (m & Hm & Ee & Hx). rewrite Ee. rewrite (vget_znth ([] : group) groups) by lia. cbn [bind]. rewrite vset_zupd by lia. cbn [bind]. replace (zlen pre + 1 + Z.of_nat m - zlen pre - 1) with (Z.of_nat m) by lia. rewrite Nat2Z.id.
    set (o := znth ([] : group) groups (it - 1)). set (ns := zupd groups (it - 1) (o ++ [(zlen pre, zlen pre + 1 + Z.of_nat m)])). assert (Zn : zlen ns = zlen groups) by apply zlen_zupd.
    set (part := v :: firstn m l). assert (Lp : length part = S m) by (unfold part; cbn [length]; rewrite firstn_length_le by exact Hm; reflexivity).
    assert (Hpart : forall x, In x part -> in_bin less le edges g x = true) by (intros x [<-|Hy]; [exact Eg|rewrite Hbin; apply Hx; exact Hy]).
    destruct (IH (pre ++ part) (skipn m l) ns) as (out & Eout & Hout).
    + rewrite skipn_length. cbn [length] in Hf. lia.
    + split; [rewrite Zn; exact G1|]. intros g' grp Hgrp. assert (Lg : Z.of_nat g' < zlen groups) by (rewrite <- Zn; unfold zlen; assert (g' < length ns)%nat by (apply nth_error_Some; congruence); lia).
      assert (Evg : forall (gs : list group) x, nth_error gs g' = Some x -> znth ([] : group) gs (Z.of_nat g') = x) by (intros gs x E; unfold znth; replace (Z.of_nat g' <? 0) with false by lia; rewrite Nat2Z.id; apply (nth_error_nth _ _ _ E)).
      apply Evg in Hgrp. unfold ns in Hgrp. rewrite znth_zupd in Hgrp by lia. destruct (nth_error groups g') as [old|] eqn:Eold; [|apply nth_error_None in Eold; unfold zlen in Lg; lia]. destruct (G2 g' old Eold) as [P1 P2]. rewrite (Evg groups old Eold) in Hgrp.
      destruct (Z.eqb_spec (Z.of_nat g') (it - 1)) as [E1|E1].
      * unfold o in Hgrp. rewrite <- E1, (Evg groups old Eold) in Hgrp. subst grp. assert (g' = g) as -> by lia. rewrite positions_app, P1. split.
        -- rewrite (where_key_run _ true) by exact Hpart. f_equal. rewrite Lp. unfold positions. cbn [flat_map fst snd]. rewrite app_nil_r. f_equal. lia.
        -- apply Forall_app. split; [apply Mon; exact P2|]. constructor; [|constructor]. cbn [fst snd]. unfold zlen. rewrite app_length, Lp. lia.
      * subst grp. split; [|apply Mon; exact P2]. rewrite (where_key_run _ false), app_nil_r; [exact P1|]. intros x Hxp. destruct (in_bin less le edges g' x) eqn:E2; [|reflexivity]. exfalso. apply E1. rewrite (in_bin_unique g' g x E2 (Hpart x Hxp)). lia.
    + exists out. replace (pre ++ v :: l) with ((pre ++ part) ++ skipn m l) by (rewrite <- app_assoc; unfold part; cbn [app]; rewrite firstn_skipn; reflexivity). split; [|exact Hout]. rewrite <- Eout. f_equal. unfold zlen. rewrite app_length, Lp. lia.
Qed.
End Bins.
Lemma make_bin_groups_ok {K} (good : K -> bool) (less le : K -> K -> bool) edges key : edge_order good less le -> Forall (fun e => good e = true) edges -> edges <> [] -> is_sorted less edges = true ->
  exists groups, make_bin_groups less le true key edges = Ok groups /\ groups_for less le edges key groups.
Proof.
  intros Ho Hg Hne Hs. unfold make_bin_groups. rewrite Hs. cbn [negb]. assert (Hz : 0 < zlen edges) by (destruct edges; [contradiction|unfold zlen; cbn [length]; lia]). replace (zlen edges =? 0) with false by lia.
  destruct (bin_loop_ok good less le edges Ho Hg (is_sorted_ok good less le edges Ho Hg Hs) (length key) [] key (repeat [] (Z.to_nat (zlen edges - 1)))) as (out & E & Hout); [lia| |exists out; auto].
  split; [unfold zlen at 1; rewrite repeat_length; lia|]. intros g grp Hgrp. apply nth_error_In in Hgrp. apply repeat_spec in Hgrp. subst grp. split; [reflexivity|constructor].
Qed.
