(** Proofs about iterators of dicts. *)
From Verif Require Import Base DictIter_Model DictIter_Spec.

Lemma nth_ext_error {A} (l l' : list A) : (forall n, nth_error l n = nth_error l' n) -> l = l'.
Proof.
  revert l'; induction l as [|a l IH]; intros [|b l'] E; auto; try (specialize (E O); discriminate).
  f_equal; [specialize (E O); cbn in E; congruence|]. apply IH. intros n. apply (E (S n)).
Qed.

Section Proofs.
Context {K V : Type} (eqb : K -> K -> bool).
Variables (alloc grow : Z -> Z).

(** The two vectors of a dict have the same size and capacity and were allocated together. *)
Definition dinv (d : dict K V) : Prop :=
  length (v_elems (d_keys d)) = length (v_elems (d_values d)) /\
  v_cap (d_keys d) = v_cap (d_values d) /\
  0 <= vsize (d_keys d) <= v_cap (d_keys d) /\
  ((v_base (d_keys d) = 0 /\ v_base (d_values d) = 0) \/
   exists m, 0 <= m /\ v_base (d_keys d) = alloc m /\ v_base (d_values d) = alloc (m + 1)).

Definition winv (w : world K V) : Prop := 0 <= w_next w /\ Forall dinv (w_dicts w).

Lemma zlen_nonneg {A} (l : list A) : 0 <= zlen l.
Proof. unfold zlen; lia. Qed.

Lemma zlen_app1 {A} (l : list A) x : zlen (l ++ [x]) = zlen l + 1.
Proof. unfold zlen; rewrite app_length; cbn [length]; lia. Qed.

Lemma upd_len {A} (l : list A) p x : length (upd l p x) = length l.
Proof. revert p; induction l as [|a l IH]; intros [|p]; cbn [upd length]; auto. Qed.

Lemma vset_len {A} (l l' : list A) p x : vset l p x = Ok l' -> length l' = length l.
Proof.
  unfold vset. destruct ((p <? 0) || (Z.of_nat (length l) <=? p)); try discriminate.
  intros Q; injection Q as <-; apply upd_len.
Qed.

Lemma remove_len {A} (l : list A) p : (p < length l)%nat -> S (length (remove_nth l p)) = length l.
Proof.
  revert p; induction l as [|a l IH]; intros [|p] L; cbn [remove_nth length] in *; try lia.
  rewrite IH; lia.
Qed.

Lemma verase_len {A} (l l' : list A) p : verase l p = Ok l' -> S (length l') = length l.
Proof.
  unfold verase. destruct ((p <? 0) || (Z.of_nat (length l) <=? p)) eqn:E; try discriminate.
  intros Q; injection Q as <-. apply orb_false_elim in E as [E0 E1].
  apply remove_len. lia.
Qed.

Lemma dnull_inv : dinv dnull.
Proof. unfold dinv, vsize, zlen; cbn. repeat split; try lia. Qed.

Lemma start_inv n : winv (start n).
Proof.
  split; [cbn; lia|]. apply Forall_forall. intros d I. apply repeat_spec in I; subst; apply dnull_inv.
Qed.

Lemma Forall_upd {A} (P : A -> Prop) l p x : Forall P l -> P x -> Forall P (upd l p x).
Proof.
  intros F Px. revert p; induction F as [|a l Pa F IH]; intros [|p]; cbn [upd]; auto.
Qed.

Lemma getd_inv w i d : winv w -> getd w i = Ok d -> dinv d.
Proof.
  unfold getd. intros [_ F] Q. destruct (nth_error (w_dicts w) i) eqn:E; [|discriminate].
  injection Q as <-. apply nth_error_In in E. rewrite Forall_forall in F; auto.
Qed.

Lemma setd_inv w i d n : winv w -> dinv d -> 0 <= n -> winv (setd w i d n).
Proof. intros [_ F] D N. split; [exact N|]. cbn. apply Forall_upd; auto. Qed.

Hypothesis Hg : grows grow.

Lemma dset_inv n d k v r : 0 <= n -> dinv d -> dset eqb alloc grow n d k v = Ok r ->
  dinv (fst r) /\ 0 <= snd r.
Proof.
  intros N (Ln & Cp & Sz & B). unfold dset.
  destruct (find_index eqb k (v_elems (d_keys d))) as [p|].
  - destruct (vset _ _ v) as [l| |] eqn:E; cbn [bind]; try discriminate.
    intros Q; injection Q as <-. cbn. split; [|lia]. apply vset_len in E.
    repeat split; cbn; try congruence; try lia; auto.
  - unfold push_back, vsize, zlen in *. rewrite <- Ln, <- Cp.
    destruct (Z.of_nat (length (v_elems (d_keys d))) =? v_cap (d_keys d)) eqn:E;
      intros Q; injection Q as <-; cbn [fst snd]; (split; [|lia]);
      unfold dinv, vsize, zlen; cbn; rewrite !app_length, <- Ln; cbn [length].
    + specialize (Hg (v_cap (d_keys d)) ltac:(lia)). repeat split; try lia.
      right. exists n. auto.
    + repeat split; try lia; auto.
Qed.

Lemma derase_inv d k d' : dinv d -> derase eqb d k = Ok d' -> dinv d'.
Proof.
  intros (Ln & Cp & Sz & B). unfold derase.
  destruct (find_index eqb k (v_elems (d_keys d))) as [p|]; [|discriminate].
  destruct (verase (v_elems (d_keys d)) (Z.of_nat p)) as [ks| |] eqn:E1; cbn [bind]; try discriminate.
  destruct (vget _ _); cbn [bind]; try discriminate.
  destruct (verase (v_elems (d_values d)) (Z.of_nat p)) as [vs| |] eqn:E2; cbn [bind]; try discriminate.
  intros Q; injection Q as <-. apply verase_len in E1, E2.
  unfold dinv, vsize, zlen in *; cbn. repeat split; try lia; auto.
Qed.

Lemma dclear_inv d : dinv d -> dinv (dclear d).
Proof.
  intros (Ln & Cp & Sz & B). unfold dinv, vsize, zlen in *; cbn. repeat split; try lia; auto.
Qed.

Lemma dreserve_inv n d c : 0 <= n -> dinv d ->
  dinv (fst (dreserve alloc n d c)) /\ 0 <= snd (dreserve alloc n d c).
Proof.
  intros N (Ln & Cp & Sz & B). unfold dreserve, reserve. rewrite <- Cp.
  destruct (v_cap (d_keys d) <? c) eqn:E; cbn; (split; [|lia]).
  - unfold dinv, vsize in *; cbn. repeat split; try lia. right. exists n; auto.
  - unfold dinv, vsize in *. cbn. repeat split; try lia; try congruence; auto.
Qed.

Lemma dcopy_inv n d s : 0 <= n -> dinv d -> dinv s ->
  dinv (fst (dcopy alloc n d s)) /\ 0 <= snd (dcopy alloc n d s).
Proof.
  intros N (Ln & Cp & Sz & B) (Lns & _). unfold dcopy, copy_assign, zlen. rewrite <- Cp, <- Lns.
  destruct (v_cap (d_keys d) <? _) eqn:E; cbn; (split; [|lia]);
    unfold dinv, vsize, zlen in *; cbn; repeat split; try lia; auto.
  right. exists n; auto.
Qed.

Lemma step_inv w o w' : winv w -> step eqb alloc grow w o = Ok w' -> winv w'.
Proof.
  intros W. pose proof (proj1 W) as N. destruct o as [i k v|i k|i|i c|i j|i j]; cbn [step];
    destruct (getd w i) as [d| |] eqn:E; cbn [bind]; try discriminate;
    pose proof (getd_inv _ _ _ W E) as D.
  - destruct (dset _ _ _ _ d k v) as [r| |] eqn:Q; cbn [bind]; try discriminate.
    intros X; injection X as <-. destruct (dset_inv _ _ _ _ _ N D Q). apply setd_inv; auto.
  - destruct (derase eqb d k) as [r| |] eqn:Q; cbn [bind]; try discriminate.
    intros X; injection X as <-. apply setd_inv; auto. eapply derase_inv; eauto.
  - intros X; injection X as <-. apply setd_inv; auto. apply dclear_inv; auto.
  - pose proof (dreserve_inv _ _ c N D) as [D' N'].
    destruct (dreserve alloc (w_next w) d c) as [r n]. intros X; injection X as <-. apply setd_inv; auto.
  - destruct (getd w j) as [s| |] eqn:Es; cbn [bind]; try discriminate.
    pose proof (dcopy_inv _ _ _ N D (getd_inv _ _ _ W Es)) as [D' N'].
    destruct (dcopy alloc (w_next w) d s) as [r n]. intros X; injection X as <-. apply setd_inv; auto.
  - destruct (getd w j) as [s| |] eqn:Es; cbn [bind]; try discriminate.
    intros X; injection X as <-.
    apply setd_inv; auto using dnull_inv. apply setd_inv; auto. eapply getd_inv; eauto.
Qed.

Lemma steps_inv os : forall w w', winv w -> steps eqb alloc grow w os = Ok w' -> winv w'.
Proof.
  induction os as [|o os IH]; intros w w' W; cbn [steps].
  - intros Q; injection Q as <-; auto.
  - destruct (step eqb alloc grow w o) as [w1| |] eqn:E; cbn [bind]; try discriminate.
    apply IH. eapply step_inv; eauto.
Qed.

(** No dict appears or disappears, and no operation is undefined. *)
Lemma setd_len (w : world K V) i d n : length (w_dicts (setd w i d n)) = length (w_dicts w).
Proof. apply upd_len. Qed.

Lemma step_len (w : world K V) o w' : step eqb alloc grow w o = Ok w' -> length (w_dicts w') = length (w_dicts w).
Proof.
  destruct o as [i k v|i k|i|i c|i j|i j]; cbn [step];
    destruct (getd w i) as [d| |]; cbn [bind]; try discriminate.
  - destruct (dset _ _ _ _ d k v) as [r| |]; cbn [bind]; try discriminate.
    intros X; injection X as <-; apply setd_len.
  - destruct (derase eqb d k) as [r| |]; cbn [bind]; try discriminate.
    intros X; injection X as <-; apply setd_len.
  - intros X; injection X as <-; apply setd_len.
  - destruct (dreserve alloc (w_next w) d c) as [r n]. intros X; injection X as <-; apply setd_len.
  - destruct (getd w j) as [s| |]; cbn [bind]; try discriminate.
    destruct (dcopy alloc (w_next w) d s) as [r n]. intros X; injection X as <-; apply setd_len.
  - destruct (getd w j) as [s| |]; cbn [bind]; try discriminate.
    intros X; injection X as <-; rewrite !setd_len; reflexivity.
Qed.

Lemma steps_len os : forall (w w' : world K V), steps eqb alloc grow w os = Ok w' ->
  length (w_dicts w') = length (w_dicts w).
Proof.
  induction os as [|o os IH]; intros w w'; cbn [steps].
  - intros Q; injection Q as <-; auto.
  - destruct (step eqb alloc grow w o) as [w1| |] eqn:E; cbn [bind]; try discriminate.
    intros Q. rewrite (IH _ _ Q). eapply step_len; eauto.
Qed.

Lemma getd_some (w : world K V) i d : getd w i = Ok d <-> nth_error (w_dicts w) i = Some d.
Proof.
  unfold getd. destruct (nth_error (w_dicts w) i); split; intros Q; try discriminate;
    injection Q as <-; reflexivity.
Qed.

Lemma getd_keep (w w' : world K V) i d : length (w_dicts w') = length (w_dicts w) -> getd w i = Ok d ->
  exists d', getd w' i = Ok d'.
Proof.
  intros L Q. apply getd_some in Q.
  assert (i < length (w_dicts w))%nat by (apply nth_error_Some; congruence).
  destruct (nth_error (w_dicts w') i) as [d'|] eqn:E; [exists d'; apply getd_some; auto|].
  apply nth_error_None in E; lia.
Qed.

Lemma getd_keys (w : world K V) i d : getd w i = Ok d -> keys_of w i = v_elems (d_keys d).
Proof. intros Q; apply getd_some in Q. unfold keys_of. rewrite Q; auto. Qed.
Lemma getd_values (w : world K V) i d : getd w i = Ok d -> values_of w i = v_elems (d_values d).
Proof. intros Q; apply getd_some in Q. unfold values_of. rewrite Q; auto. Qed.

Lemma find_index_lt (k : K) l p : find_index eqb k l = Some p -> (p < length l)%nat.
Proof.
  revert p; induction l as [|a l IH]; intros p; cbn [find_index length]; [discriminate|].
  destruct (eqb a k); [intros Q; injection Q as <-; lia|].
  destruct (find_index eqb k l) as [q|]; cbn; [|discriminate].
  intros Q; injection Q as <-. specialize (IH _ eq_refl). lia.
Qed.

Lemma step_no_ub w o : winv w -> step eqb alloc grow w o <> Ub.
Proof.
  intros W. destruct o as [i k v|i k|i|i c|i j|i j]; cbn [step];
    destruct (getd w i) as [d| |] eqn:E; cbn [bind]; try discriminate;
    try (unfold getd in E; destruct (nth_error _ _); discriminate);
    pose proof (getd_inv _ _ _ W E) as (Ln & _).
  - unfold dset. destruct (find_index eqb k (v_elems (d_keys d))) as [p|] eqn:F.
    + apply find_index_lt in F. unfold vset.
      replace ((Z.of_nat p <? 0) || (Z.of_nat (length (v_elems (d_values d))) <=? Z.of_nat p)) with false
        by lia.
      cbn [bind]. discriminate.
    + destruct (push_back _ _ _ _ k). destruct (push_back _ _ _ _ v). cbn [bind]; discriminate.
  - unfold derase. destruct (find_index eqb k (v_elems (d_keys d))) as [p|] eqn:F; [|discriminate].
    apply find_index_lt in F. unfold verase, vget.
    replace ((Z.of_nat p <? 0) || (Z.of_nat (length (v_elems (d_keys d))) <=? Z.of_nat p)) with false by lia.
    replace ((Z.of_nat p <? 0) || (Z.of_nat (length (v_elems (d_values d))) <=? Z.of_nat p)) with false
      by lia.
    cbn [bind]. replace (Z.of_nat p <? 0) with false by lia.
    rewrite Nat2Z.id. destruct (nth_error (v_elems (d_values d)) p) eqn:X; cbn [bind]; [discriminate|].
    apply nth_error_None in X; lia.
  - destruct (dreserve alloc (w_next w) d c); discriminate.
  - unfold getd. destruct (nth_error _ j); cbn [bind]; [|discriminate].
    destruct (dcopy alloc (w_next w) d _); discriminate.
  - unfold getd. destruct (nth_error _ j); cbn [bind]; discriminate.
Qed.

Lemma steps_no_ub os : forall w, winv w -> steps eqb alloc grow w os <> Ub.
Proof.
  induction os as [|o os IH]; intros w W; cbn [steps]; [discriminate|].
  destruct (step eqb alloc grow w o) as [w1| |] eqn:E; cbn [bind]; try discriminate.
  - apply IH. eapply step_inv; eauto.
  - exfalso; eapply step_no_ub; eauto.
Qed.

Lemma unchanged_ok {A} (v : vec A) b s x : unchanged v b s = Ok x -> v_base v = b /\ vsize v = s.
Proof.
  unfold unchanged. destruct (v_base v =? b) eqn:E1, (vsize v =? s) eqn:E2; cbn; try discriminate. lia.
Qed.

Lemma unchanged_eq {A} (v : vec A) b s : v_base v = b -> vsize v = s -> unchanged v b s = Ok tt.
Proof. intros <- <-. unfold unchanged. rewrite !Z.eqb_refl. reflexivity. Qed.

Lemma load_at {A} (v : vec A) p : 0 <= p < vsize v ->
  exists x, load v (v_base v + p) = Ok x /\ nth_error (v_elems v) (Z.to_nat p) = Some x.
Proof.
  intros P. unfold load, vget.
  replace ((v_base v <=? v_base v + p) && (v_base v + p <? v_base v + vsize v)) with true by lia.
  replace (v_base v + p - v_base v) with p by lia. replace (p <? 0) with false by lia.
  unfold vsize, zlen in P.
  destruct (nth_error (v_elems v) (Z.to_nat p)) as [x|] eqn:E; [exists x; auto|].
  apply nth_error_None in E; lia.
Qed.

(** Reading through an iterator for keys or values that passes the check is reading its position. *)
Lemma deref_key_ok (w : world K V) i d (d0 : dict K V) p : getd w i = Ok d -> 0 <= p < vsize (d_keys d0) ->
  deref_key w (key_at i d0 p) = Throw RuntimeError \/
  exists k, deref_key w (key_at i d0 p) = Ok k /\ nth_error (keys_of w i) (Z.to_nat p) = Some k.
Proof.
  intros Q P. unfold deref_key, key_at. cbn. rewrite Q. cbn [bind].
  destruct (unchanged (d_keys d) _ _) as [u|e|] eqn:U.
  - right. apply unchanged_ok in U as [<- S]. cbn [bind]. rewrite (getd_keys _ _ _ Q).
    destruct (load_at (d_keys d) p) as (x & L & X); [lia|]. eauto.
  - left. revert U. unfold unchanged. destruct (_ || _); [|discriminate].
    intros X; injection X as <-. reflexivity.
  - revert U. unfold unchanged. destruct (_ || _); discriminate.
Qed.

Lemma deref_value_ok (w : world K V) i d (d0 : dict K V) p : getd w i = Ok d -> 0 <= p < vsize (d_values d0) ->
  deref_value w (value_at i d0 p) = Throw RuntimeError \/
  exists v, deref_value w (value_at i d0 p) = Ok v /\ nth_error (values_of w i) (Z.to_nat p) = Some v.
Proof.
  intros Q P. unfold deref_value, value_at. cbn. rewrite Q. cbn [bind].
  destruct (unchanged (d_values d) _ _) as [u|e|] eqn:U.
  - right. apply unchanged_ok in U as [<- S]. cbn [bind]. rewrite (getd_values _ _ _ Q).
    destruct (load_at (d_values d) p) as (x & L & X); [lia|]. eauto.
  - left. revert U. unfold unchanged. destruct (_ || _); [|discriminate].
    intros X; injection X as <-. reflexivity.
  - revert U. unfold unchanged. destruct (_ || _); discriminate.
Qed.

Lemma unchanged_or {A} (v : vec A) b s :
  (unchanged v b s = Ok tt /\ v_base v = b /\ vsize v = s) \/ unchanged v b s = Throw RuntimeError.
Proof.
  unfold unchanged. destruct (v_base v =? b) eqn:E1, (vsize v =? s) eqn:E2; cbn; auto. left; repeat split; lia.
Qed.

Hypothesis Ha : no_reuse alloc.

Lemma same_values d d0 : dinv d -> dinv d0 -> v_base (d_keys d) = v_base (d_keys d0) ->
  v_base (d_values d) = v_base (d_values d0).
Proof.
  destruct Ha as [N0 NI].
  intros (_ & _ & _ & B) (_ & _ & _ & B0) Q.
  destruct B as [[Bk Bv]|(m & M & Bk & Bv)], B0 as [[Bk0 Bv0]|(m0 & M0 & Bk0 & Bv0)].
  - congruence.
  - exfalso. apply (N0 m0); congruence.
  - exfalso. apply (N0 m); congruence.
  - assert (m = m0) by (apply NI; congruence). congruence.
Qed.

Lemma vsize_eq d : dinv d -> vsize (d_values d) = vsize (d_keys d).
Proof. intros (L & _). unfold vsize, zlen. lia. Qed.

(** The same for an iterator over items. *)
Lemma deref_ok (w : world K V) i d (d0 : dict K V) p : getd w i = Ok d -> dinv d -> dinv d0 -> 0 <= p < vsize (d_keys d0) ->
  deref w (iter_at i d0 p) = Throw RuntimeError \/
  exists kv, deref w (iter_at i d0 p) = Ok kv /\ item_at w i (Z.to_nat p) kv.
Proof.
  intros Q D D0 P. unfold deref, iter_at. cbn. rewrite Q. cbn [bind].
  destruct (unchanged_or (d_keys d) (v_base (d_keys d0)) (vsize (d_keys d0))) as [(U & B & S)|U];
    rewrite U; cbn [bind]; [|auto].
  right. rewrite <- B, <- (same_values _ _ D D0 B).
  destruct (load_at (d_keys d) p) as (k & Lk & Xk); [lia|]. rewrite Lk. cbn [bind].
  destruct (load_at (d_values d) p) as (v & Lv & Xv); [rewrite vsize_eq; auto; lia|]. rewrite Lv.
  cbn [bind]. exists (k, v). split; [auto|].
  split; [rewrite (getd_keys _ _ _ Q)|rewrite (getd_values _ _ _ Q)]; auto.
Qed.

(** The loop. *)
Variable body : list (K * V) -> world K V -> list (op K V).

Lemma each_ok i d0 e : dinv d0 -> it_key e = v_base (d_keys d0) + vsize (d_keys d0) ->
  forall fuel w p seen, winv w -> (i < length (w_dicts w))%nat ->
    0 <= p <= vsize (d_keys d0) -> zlen seen = p -> vsize (d_keys d0) - p < Z.of_nat fuel ->
    exists r, each eqb alloc grow fuel body (iter_at i d0 p) e seen w = Some r /\
      match r with
      | Ok (l, w') => zlen l = vsize (d_keys d0) /\ winv w' /\ zlen (keys_of w' i) = vsize (d_keys d0)
      | Throw _ => True
      | Ub => False
      end.
Proof.
  intros D0 E. induction fuel as [|f IH]; intros w p seen W I P L F; [lia|].
  destruct (nth_error (w_dicts w) i) as [d|] eqn:Q; [|apply nth_error_None in Q; lia].
  apply getd_some in Q. pose proof (getd_inv _ _ _ W Q) as D.
  cbn [each]. unfold ieq. cbn [iter_at it_dict it_base it_size it_key]. rewrite Q. cbn [bind].
  destruct (unchanged_or (d_keys d) (v_base (d_keys d0)) (vsize (d_keys d0))) as [(U & B & S)|U];
    rewrite U; cbn [bind]; [|eexists; split; [reflexivity|cbn; auto]].
  rewrite E. destruct (v_base (d_keys d0) + p =? _) eqn:T.
  - eexists; split; [reflexivity|]. cbn. split; [|split; [auto|]].
    + unfold zlen in *. rewrite rev_length. lia.
    + rewrite (getd_keys _ _ _ Q). exact S.
  - destruct (deref_ok w i d d0 p Q D D0 ltac:(lia)) as [X|(kv & X & _)]; rewrite X; cbn [bind].
    + eexists; split; [reflexivity|cbn; auto].
    + destruct (steps eqb alloc grow w (body (kv :: seen) w)) as [w'|x|] eqn:Y; cbn [bind].
      * pose proof (steps_inv _ _ _ W Y) as W'. pose proof (steps_len _ _ _ Y) as L'.
        destruct (getd_keep w w' i d L' Q) as [d' Q'].
        unfold incr. cbn [iter_at it_dict it_base it_size it_key it_val]. rewrite Q'. cbn [bind].
        destruct (unchanged_or (d_keys d') (v_base (d_keys d0)) (vsize (d_keys d0))) as [(U' & _)|U'];
          rewrite U'; cbn [bind]; [|eexists; split; [reflexivity|cbn; auto]].
        replace (mkiter i (v_base (d_keys d0) + p + 1) (v_base (d_values d0) + p + 1)
                   (v_base (d_keys d0)) (vsize (d_keys d0))) with (iter_at i d0 (p + 1))
          by (unfold iter_at; f_equal; lia).
        apply IH; auto; try lia. unfold zlen in *. cbn [length]. lia.
      * eexists; split; [reflexivity|cbn; auto].
      * exfalso. eapply steps_no_ub; eauto.
Qed.

(** If the body keeps [Q], and [Q] keeps the size and storage of the keys, the loop only ends early if
    the body throws; [R] is what [Q] says about the item at a position. *)
Lemma each_visits i d0 e (Q : world K V -> Prop) (R : nat -> K * V -> Prop) :
  dinv d0 -> it_key e = v_base (d_keys d0) + vsize (d_keys d0) ->
  (forall w, Q w -> exists d, getd w i = Ok d /\ v_base (d_keys d) = v_base (d_keys d0) /\
                              vsize (d_keys d) = vsize (d_keys d0)) ->
  (forall w n x, Q w -> item_at w i n x -> R n x) ->
  (forall x seen w w', Q w -> item_at w i (length seen) x ->
     steps eqb alloc grow w (body (x :: seen) w) = Ok w' -> Q w') ->
  forall fuel w p seen, winv w -> Q w ->
    0 <= p <= vsize (d_keys d0) -> zlen seen = p -> vsize (d_keys d0) - p < Z.of_nat fuel ->
    (forall n x, nth_error (rev seen) n = Some x -> R n x) ->
    exists r, each eqb alloc grow fuel body (iter_at i d0 p) e seen w = Some r /\
      match r with
      | Ok (l, w') => zlen l = vsize (d_keys d0) /\ Q w' /\ (forall n x, nth_error l n = Some x -> R n x)
      | Throw x => exists seen' w', steps eqb alloc grow w' (body seen' w') = Throw x
      | Ub => False
      end.
Proof.
  intros D0 E HQ HR HB. induction fuel as [|f IH]; intros w p seen W Qw P L F S; [lia|].
  destruct (HQ w Qw) as (d & G & B & Sz). pose proof (getd_inv _ _ _ W G) as D.
  cbn [each]. unfold ieq. cbn [iter_at it_dict it_base it_size it_key]. rewrite G. cbn [bind].
  rewrite (unchanged_eq _ _ _ B Sz). cbn [bind].
  rewrite E. destruct (v_base (d_keys d0) + p =? _) eqn:T.
  - eexists; split; [reflexivity|]. cbn. split; [|split; auto].
    unfold zlen in *. rewrite rev_length. lia.
  - destruct (deref_ok w i d d0 p G D D0 ltac:(lia)) as [X|(kv & X & IT)].
    { exfalso. revert X. unfold deref. cbn [iter_at it_dict it_base it_size it_key it_val].
      rewrite G. cbn [bind]. rewrite (unchanged_eq _ _ _ B Sz). cbn [bind]. unfold load, vget.
      repeat match goal with |- context [if ?c then _ else _] => destruct c; cbn [bind]; try discriminate
             | |- context [match nth_error ?l ?n with _ => _ end] =>
               destruct (nth_error l n); cbn [bind]; try discriminate end. }
    rewrite X. cbn [bind].
    assert (IT' : item_at w i (length seen) kv)
      by (replace (length seen) with (Z.to_nat p) by (unfold zlen in L; lia); auto).
    destruct (steps eqb alloc grow w (body (kv :: seen) w)) as [w'|x|] eqn:Y; cbn [bind].
    + pose proof (steps_inv _ _ _ W Y) as W'. pose proof (HB _ _ _ _ Qw IT' Y) as Q'.
      destruct (HQ w' Q') as (d' & G' & B' & Sz').
      unfold incr. cbn [iter_at it_dict it_base it_size it_key it_val]. rewrite G'. cbn [bind].
      rewrite (unchanged_eq _ _ _ B' Sz'). cbn [bind].
      replace (mkiter i (v_base (d_keys d0) + p + 1) (v_base (d_values d0) + p + 1)
                 (v_base (d_keys d0)) (vsize (d_keys d0))) with (iter_at i d0 (p + 1))
        by (unfold iter_at; f_equal; lia).
      apply IH; auto; try lia.
      * unfold zlen in *. cbn [length]. lia.
      * intros n x. cbn [rev]. destruct (Nat.lt_ge_cases n (length (rev seen))) as [Ln|Ln].
        -- rewrite nth_error_app1 by auto. apply S.
        -- rewrite nth_error_app2 by auto.
           destruct (n - length (rev seen))%nat as [|m] eqn:Nm; cbn.
           ++ intros Z0; injection Z0 as <-. apply (HR w); auto.
              replace n with (length seen) by (rewrite rev_length in *; lia). auto.
           ++ destruct m; discriminate.
    + eexists; split; [reflexivity|cbn; eauto].
    + exfalso. eapply steps_no_ub; eauto.
Qed.
End Proofs.
