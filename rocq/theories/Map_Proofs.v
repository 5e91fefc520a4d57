From Coq Require Import Permutation.
From Verif Require Import Base Map_Model Map_Spec.

Section Lists.
Context {A : Type}.
Lemma upd_length (l : list A) n x : length (upd l n x) = length l.
Proof. revert n; induction l as [|a l IH]; intros [|n]; simpl; congruence. Qed.

Lemma nth_error_upd (l : list A) n x i :
  nth_error (upd l n x) i =
  if Nat.eqb i n then match nth_error l n with Some _ => Some x | None => None end
  else nth_error l i.
Proof.
  revert n i; induction l as [|a l IH]; intros n i; simpl.
  - destruct (Nat.eqb i n); [destruct n|]; destruct i; reflexivity.
  - destruct n as [|n], i as [|i]; simpl; try reflexivity. apply IH.
Qed.

Lemma nth_error_remove_nth (l : list A) n i :
  nth_error (remove_nth l n) i = if Nat.ltb i n then nth_error l i else nth_error l (S i).
Proof.
  revert n i; induction l as [|a l IH]; intros n i; simpl.
  - destruct (Nat.ltb i n); destruct i; reflexivity.
  - destruct n as [|n]; simpl; [reflexivity|].
    destruct i as [|i]; simpl; [reflexivity|].
    rewrite IH. change (Nat.ltb (S i) (S n)) with (Nat.ltb i n). reflexivity.
Qed.

Lemma remove_nth_length (l : list A) n : (n < length l)%nat -> length (remove_nth l n) = (length l - 1)%nat.
Proof.
  revert n; induction l as [|a l IH]; intros n H; simpl in *; [lia|].
  destruct n; simpl; [lia|]. rewrite IH by lia. lia.
Qed.

Lemma vget_nat (l : list A) n : vget l (Z.of_nat n) = match nth_error l n with Some a => Ok a | None => Ub end.
Proof. unfold vget. destruct (Z.ltb_spec (Z.of_nat n) 0); [lia|]. rewrite Nat2Z.id. reflexivity. Qed.

Lemma vset_nat (l : list A) n x : (n < length l)%nat -> vset l (Z.of_nat n) x = Ok (upd l n x).
Proof.
  intros H. unfold vset.
  replace ((Z.of_nat n <? 0) || (Z.of_nat (length l) <=? Z.of_nat n)) with false by lia.
  rewrite Nat2Z.id. reflexivity.
Qed.

Lemma verase_nat (l : list A) n : (n < length l)%nat -> verase l (Z.of_nat n) = Ok (remove_nth l n).
Proof.
  intros H. unfold verase.
  replace ((Z.of_nat n <? 0) || (Z.of_nat (length l) <=? Z.of_nat n)) with false by lia.
  rewrite Nat2Z.id. reflexivity.
Qed.

Lemma nth_error_combine {B} (l : list A) (l' : list B) i :
  nth_error (combine l l') i =
  match nth_error l i, nth_error l' i with Some a, Some b => Some (a, b) | _, _ => None end.
Proof.
  revert l' i; induction l as [|a l IH]; intros l' i; simpl.
  - destruct i; reflexivity.
  - destruct l' as [|b l']; simpl.
    + destruct i; simpl; [reflexivity|]. destruct (nth_error l i); reflexivity.
    + destruct i; simpl; [reflexivity|]. apply IH.
Qed.

Lemma nth_error_ext (l l' : list A) : (forall i, nth_error l i = nth_error l' i) -> l = l'.
Proof.
  revert l'; induction l as [|a l IH]; intros [|b l'] H.
  - reflexivity.
  - specialize (H O); discriminate.
  - specialize (H O); discriminate.
  - f_equal; [specialize (H O); simpl in H; congruence|]. apply IH. intros i. exact (H (S i)).
Qed.
End Lists.

Section Proofs.
Context {K V : Type} (eqb : K -> K -> bool) (eqb_spec : forall x y, reflect (x = y) (eqb x y)).

Lemma eqb_refl k : eqb k k = true.
Proof. destruct (eqb_spec k k); congruence. Qed.

Lemma find_index_Some k l n :
  find_index eqb k l = Some n -> nth_error l n = Some k.
Proof.
  revert n; induction l as [|a l IH]; simpl; intros n; [discriminate|].
  destruct (eqb_spec a k) as [->|Hne].
  - intros [= <-]; reflexivity.
  - destruct (find_index eqb k l); simpl; [|discriminate]. intros [= <-]. apply IH; reflexivity.
Qed.

Lemma find_index_None k l : find_index eqb k l = None <-> ~ In k l.
Proof.
  induction l as [|a l IH]; simpl; [tauto|].
  destruct (eqb_spec a k) as [->|Hne]; [split; [discriminate|tauto]|].
  destruct (find_index eqb k l); simpl; [split; [discriminate|]|].
  - intros H. exfalso. apply H. right. destruct IH as [_ IH]. 
    destruct (in_dec (fun x y => match eqb_spec x y with ReflectT _ e => left e | ReflectF _ n => right n end) k l); [assumption|].
    specialize (IH n0). discriminate.
  - split; [intros _ [?|?]; [congruence|tauto]|reflexivity].
Qed.

Lemma find_index_nodup k l n :
  NoDup l -> nth_error l n = Some k -> find_index eqb k l = Some n.
Proof.
  revert n; induction l as [|a l IH]; simpl; intros n Hnd Hn; [destruct n; discriminate|].
  inversion Hnd as [|? ? Hnin Hnd']; subst.
  destruct n as [|n]; simpl in Hn.
  - injection Hn as ->. rewrite eqb_refl. reflexivity.
  - destruct (eqb_spec a k) as [->|Hne].
    + exfalso. apply Hnin. eapply nth_error_In; eauto.
    + rewrite (IH n Hnd' Hn). reflexivity.
Qed.

(** Key-value pairing at every position. *)
Definition Inv (m : vmap K V) (s : omap K V) : Prop :=
  m_keys m = o_order s /\ NoDup (o_order s) /\ length (m_values m) = length (m_keys m) /\
  (forall i k, nth_error (o_order s) i = Some k -> o_content s k = nth_error (m_values m) i) /\
  (forall k, ~ In k (o_order s) -> o_content s k = None).

Lemma nth_some_of_lt {A} (l : list A) i : (i < length l)%nat -> exists x, nth_error l i = Some x.
Proof. intros H. destruct (nth_error l i) eqn:E; eauto. apply nth_error_None in E. lia. Qed.

Lemma Inv_content m s : Inv m s -> forall k, In k (o_order s) <-> o_content s k <> None.
Proof.
  intros (Hk & Hnd & Hl & Hc & Hn) k. split.
  - intros Hin. apply In_nth_error in Hin as [i Hi]. rewrite (Hc _ _ Hi).
    assert (i < length (m_values m))%nat.
    { rewrite Hl, Hk. apply nth_error_Some. congruence. }
    apply nth_error_Some. assumption.
  - intros H. destruct (find_index eqb k (o_order s)) eqn:E.
    + apply find_index_Some in E. eapply nth_error_In; eauto.
    + apply find_index_None in E. specialize (Hn _ E). congruence.
Qed.

Lemma Inv_find m s k : Inv m s ->
  match o_content s k with
  | Some v => exists n, find_index eqb k (m_keys m) = Some n /\ nth_error (m_values m) n = Some v
                        /\ (n < length (m_keys m))%nat /\ nth_error (m_keys m) n = Some k
  | None => find_index eqb k (m_keys m) = None
  end.
Proof.
  intros HI. pose proof (Inv_content _ _ HI k) as Hin.
  destruct HI as (Hk & Hnd & Hl & Hc & Hn). rewrite Hk.
  destruct (find_index eqb k (o_order s)) eqn:E.
  - apply find_index_Some in E as E'. rewrite (Hc _ _ E').
    assert (n < length (o_order s))%nat by (apply nth_error_Some; congruence).
    destruct (nth_some_of_lt (m_values m) n) as [v Hv]; [rewrite Hl, Hk; assumption|].
    rewrite Hv. exists n. auto.
  - apply find_index_None in E as E'. rewrite (Hn _ E'). reflexivity.
Qed.

Lemma Inv_shows e m s : Inv m s -> shows eqb e m s.
Proof.
  intros HI. pose proof (Inv_content _ _ HI) as Hin. pose proof (fun k => Inv_find _ _ k HI) as Hf.
  destruct HI as (Hk & Hnd & Hl & Hc & Hn).
  unfold shows. repeat split; auto.
  - apply Hin.
  - apply Hin.
  - intros k. unfold mcontains, ohas. specialize (Hf k).
    destruct (o_content s k); [destruct Hf as (n & -> & _)|rewrite Hf]; reflexivity.
  - intros k. unfold mat, mindex. specialize (Hf k).
    destruct (o_content s k) as [v|].
    + destruct Hf as (n & -> & Hv & _). simpl. rewrite vget_nat, Hv. reflexivity.
    + rewrite Hf. reflexivity.
  - intros H. unfold mindex in H. destruct (find_index eqb k (m_keys m)) eqn:E; [|discriminate].
    injection H as H. apply Nat2Z.inj in H. subst. rewrite <- Hk. apply find_index_Some; assumption.
  - intros H. unfold mindex. rewrite Hk, (find_index_nodup k _ i Hnd H). reflexivity.
  - unfold mindex. specialize (Hf k). destruct (o_content s k).
    + destruct Hf as (n & -> & _). discriminate.
    + reflexivity.
  - intros H. specialize (Hf k). rewrite H in Hf. unfold mindex. rewrite Hf. reflexivity.
  - intros i. unfold ditems. rewrite nth_error_combine, Hk.
    destruct (nth_error (o_order s) i) eqn:E; [|reflexivity].
    rewrite (Hc _ _ E). destruct (nth_error (m_values m) i); reflexivity.
  - rewrite Hl, Hk. reflexivity.
Qed.

Lemma Inv_empty : Inv mempty oempty.
Proof.
  repeat split; simpl; auto using NoDup_nil. intros [|i] k; discriminate.
Qed.

Lemma in_filter_neq k l x : In x (filter (fun y => negb (eqb y k)) l) <-> In x l /\ x <> k.
Proof.
  rewrite filter_In. destruct (eqb_spec x k); simpl; intuition congruence.
Qed.

Lemma filter_neq_notin k l : ~ In k l -> filter (fun x => negb (eqb x k)) l = l.
Proof.
  induction l as [|a l IH]; simpl; intros H; [reflexivity|].
  destruct (eqb_spec a k) as [->|]; simpl; [tauto|]. rewrite IH by tauto. reflexivity.
Qed.

Lemma filter_remove_nth k l n :
  NoDup l -> nth_error l n = Some k -> filter (fun x => negb (eqb x k)) l = remove_nth l n.
Proof.
  revert n; induction l as [|a l IH]; intros n Hnd Hn; [destruct n; discriminate|].
  inversion Hnd; subst. destruct n; simpl in *.
  - injection Hn as ->. rewrite eqb_refl. simpl. apply filter_neq_notin; assumption.
  - destruct (eqb_spec a k) as [->|]; simpl.
    + exfalso. apply nth_error_In in Hn. tauto.
    + rewrite (IH n); auto.
Qed.

Lemma map_replace_notin k k' l : ~ In k l -> map (fun x => if eqb x k then k' else x) l = l.
Proof.
  induction l as [|a l IH]; simpl; intros H; [reflexivity|].
  destruct (eqb_spec a k) as [->|]; simpl; [tauto|]. rewrite IH by tauto. reflexivity.
Qed.

Lemma map_replace_upd k k' l n :
  NoDup l -> nth_error l n = Some k -> map (fun x => if eqb x k then k' else x) l = upd l n k'.
Proof.
  revert n; induction l as [|a l IH]; intros n Hnd Hn; [destruct n; discriminate|].
  inversion Hnd; subst. destruct n; simpl in *.
  - injection Hn as ->. rewrite eqb_refl. f_equal. apply map_replace_notin; assumption.
  - destruct (eqb_spec a k) as [->|]; simpl.
    + exfalso. apply nth_error_In in Hn. tauto.
    + rewrite (IH n); auto.
Qed.

Lemma NoDup_filter' (f : K -> bool) l : NoDup l -> NoDup (filter f l).
Proof. apply NoDup_filter. Qed.

Lemma nodup_nth (l : list K) i j k : NoDup l -> nth_error l i = Some k -> nth_error l j = Some k -> i = j.
Proof.
  intros Hnd Hi Hj. apply (proj1 (NoDup_nth_error l) Hnd); [apply nth_error_Some; congruence|congruence].
Qed.

Lemma ohas_content (s : omap K V) k : ohas s k = true <-> o_content s k <> None.
Proof. unfold ohas. destruct (o_content s k); split; congruence. Qed.

Lemma mexpect_Inv m s k : Inv m s ->
  mexpect_unique eqb m k = if ohas s k then Throw DimensionError else Ok tt.
Proof.
  intros HI. pose proof (Inv_shows DimensionError _ _ HI) as (_ & _ & _ & Hc & _).
  unfold mexpect_unique. rewrite Hc. reflexivity.
Qed.

Lemma Inv_put m s k v n : Inv m s -> find_index eqb k (m_keys m) = Some n ->
  Inv (mkmap (m_keys m) (upd (m_values m) n v)) (mkomap (o_order s) (oput eqb s k v)).
Proof.
  intros (Hk & Hnd & Hl & Hc & Hn) Hf. apply find_index_Some in Hf. rewrite Hk in Hf.
  repeat split; simpl; auto.
  - rewrite upd_length. assumption.
  - intros i k0 Hi. unfold oput. rewrite nth_error_upd.
    destruct (eqb_spec k0 k) as [->|Hne].
    + rewrite (nodup_nth _ _ _ _ Hnd Hi Hf), Nat.eqb_refl.
      assert (n < length (m_values m))%nat as Hlt by (rewrite Hl, Hk; apply nth_error_Some; congruence).
      destruct (nth_some_of_lt _ _ Hlt) as [x ->]. reflexivity.
    + destruct (Nat.eqb_spec i n) as [->|]; [congruence|]. apply Hc; assumption.
  - intros k0 Hk0. unfold oput. destruct (eqb_spec k0 k) as [->|]; [|auto].
    exfalso. apply Hk0. eapply nth_error_In; eauto.
Qed.

Lemma Inv_del m s k n : Inv m s -> find_index eqb k (m_keys m) = Some n ->
  Inv (mkmap (remove_nth (m_keys m) n) (remove_nth (m_values m) n)) (odel eqb s k).
Proof.
  intros (Hk & Hnd & Hl & Hc & Hn) Hf. apply find_index_Some in Hf. rewrite Hk in Hf.
  assert (n < length (o_order s))%nat as Hlt by (apply nth_error_Some; congruence).
  unfold odel. repeat split; simpl.
  - rewrite (filter_remove_nth _ _ _ Hnd Hf), Hk. reflexivity.
  - apply NoDup_filter; assumption.
  - rewrite !remove_nth_length; rewrite ?Hl, ?Hk; auto.
  - intros i k0. rewrite (filter_remove_nth _ _ _ Hnd Hf), !nth_error_remove_nth.
    destruct (Nat.ltb_spec i n) as [Hi|Hi]; intros Hi'.
    + destruct (eqb_spec k0 k) as [->|]; [|apply Hc; assumption].
      pose proof (nodup_nth _ _ _ _ Hnd Hi' Hf). lia.
    + destruct (eqb_spec k0 k) as [->|]; [|apply Hc; assumption].
      pose proof (nodup_nth _ _ _ _ Hnd Hi' Hf). lia.
  - intros k0. rewrite in_filter_neq. destruct (eqb_spec k0 k); [reflexivity|].
    intros H. apply Hn. tauto.
Qed.

Lemma Inv_insert_right m s k v : Inv m s -> o_content s k = None ->
  Inv (mkmap (m_keys m ++ [k]) (m_values m ++ [v])) (mkomap (o_order s ++ [k]) (oput eqb s k v)).
Proof.
  intros HI H0. pose proof (Inv_content _ _ HI k) as Hin. destruct HI as (Hk & Hnd & Hl & Hc & Hn).
  assert (~ In k (o_order s)) as Hnin by (rewrite Hin; congruence).
  repeat split; simpl.
  - rewrite Hk. reflexivity.
  - 
    assert (NoDup (k :: o_order s)) as H by (constructor; assumption).
    apply (Permutation_NoDup (l := k :: o_order s)); [apply Permutation_cons_append|assumption].
  - rewrite !app_length, Hl. reflexivity.
  - intros i k0 Hi. unfold oput.
    destruct (Nat.lt_ge_cases i (length (o_order s))) as [Hlt|Hge].
    + rewrite nth_error_app1 in Hi by assumption. rewrite nth_error_app1 by (rewrite Hl, Hk; assumption).
      destruct (eqb_spec k0 k) as [->|]; [apply nth_error_In in Hi; tauto|]. apply Hc; assumption.
    + rewrite nth_error_app2 in Hi by assumption. rewrite nth_error_app2 by (rewrite Hl, Hk; assumption).
      rewrite Hl, Hk. destruct (i - length (o_order s))%nat as [|j]; simpl in *.
      * injection Hi as <-. rewrite eqb_refl. reflexivity.
      * destruct j; discriminate.
  - intros k0 H. rewrite in_app_iff in H. simpl in H. unfold oput.
    destruct (eqb_spec k0 k) as [->|]; [exfalso; auto|]. apply Hn. tauto.
Qed.

Lemma Inv_insert_left m s k v : Inv m s -> o_content s k = None ->
  Inv (mkmap (k :: m_keys m) (v :: m_values m)) (mkomap (k :: o_order s) (oput eqb s k v)).
Proof.
  intros HI H0. pose proof (Inv_content _ _ HI k) as Hin. destruct HI as (Hk & Hnd & Hl & Hc & Hn).
  assert (~ In k (o_order s)) as Hnin by (rewrite Hin; congruence).
  repeat split; simpl.
  - rewrite Hk. reflexivity.
  - constructor; assumption.
  - rewrite Hl. reflexivity.
  - intros [|i] k0 Hi; unfold oput; simpl in *.
    + injection Hi as <-. rewrite eqb_refl. reflexivity.
    + destruct (eqb_spec k0 k) as [->|]; [apply nth_error_In in Hi; tauto|]. apply Hc; assumption.
  - intros k0 H. unfold oput. destruct (eqb_spec k0 k) as [->|]; [exfalso; auto|]. apply Hn. tauto.
Qed.

Lemma Inv_replace m s k k' n : Inv m s -> find_index eqb k (m_keys m) = Some n ->
  (k = k' \/ o_content s k' = None) ->
  Inv (mkmap (upd (m_keys m) n k') (m_values m))
      (mkomap (map (fun x => if eqb x k then k' else x) (o_order s))
              (fun x => if eqb x k' then o_content s k else if eqb x k then None else o_content s x)).
Proof.
  intros HI Hf Hd. pose proof (Inv_content _ _ HI k') as Hin. destruct HI as (Hk & Hnd & Hl & Hc & Hn).
  apply find_index_Some in Hf. rewrite Hk in *.
  pose proof (map_replace_upd k k' _ _ Hnd Hf) as Hm.
  assert (Hd' : k = k' \/ ~ In k' (o_order s)) by (destruct Hd; [auto|right; rewrite Hin; congruence]).
  assert (n < length (o_order s))%nat as Hlt by (apply nth_error_Some; congruence).
  repeat split; simpl.
  - congruence.
  - rewrite Hm. apply NoDup_nth_error. intros i j Hi Hij. rewrite upd_length in Hi.
    rewrite !nth_error_upd in Hij. rewrite Hf in Hij.
    destruct (Nat.eqb_spec i n), (Nat.eqb_spec j n); subst; auto.
    + symmetry in Hij. destruct Hd' as [->|Hd']; [|apply nth_error_In in Hij; tauto].
      symmetry. apply (nodup_nth _ _ _ _ Hnd Hij Hf).
    + destruct Hd' as [->|Hd']; [|apply nth_error_In in Hij; tauto].
      apply (nodup_nth _ _ _ _ Hnd Hij Hf).
    + apply (proj1 (NoDup_nth_error _) Hnd); assumption.
  - rewrite upd_length. assumption.
  - intros i k0. rewrite Hm, nth_error_upd. rewrite Hf.
    destruct (Nat.eqb_spec i n) as [->|Hne]; intros Hi.
    + injection Hi as <-. rewrite eqb_refl. apply Hc; assumption.
    + destruct (eqb_spec k0 k') as [->|].
      * destruct Hd' as [->|Hd']; [|apply nth_error_In in Hi; tauto].
        exfalso. apply Hne. apply (nodup_nth _ _ _ _ Hnd Hi Hf).
      * destruct (eqb_spec k0 k) as [->|]; [exfalso; apply Hne, (nodup_nth _ _ _ _ Hnd Hi Hf)|].
        apply Hc; assumption.
  - intros k0 H. rewrite Hm in H.
    destruct (eqb_spec k0 k') as [->|].
    + exfalso. apply H. apply nth_error_In with n. rewrite nth_error_upd, Nat.eqb_refl, Hf. reflexivity.
    + destruct (eqb_spec k0 k); [reflexivity|]. apply Hn. intros Hin0. apply H.
      apply In_nth_error in Hin0 as [i Hi]. apply nth_error_In with i. rewrite nth_error_upd.
      destruct (Nat.eqb_spec i n) as [->|]; [congruence|assumption].
Qed.

Lemma sm_step_refines m s o : Inv m s ->
  match sm_spec eqb s o with
  | inl s' => exists m', sm_step eqb m o = Ok m' /\ Inv m' s'
  | inr e => sm_step eqb m o = Throw e
  end.
Proof.
  intros HI. pose proof (fun k => Inv_find _ _ k HI) as Hf. pose proof HI as (Hk & Hnd & Hl & Hc & Hn).
  destruct o as [k v|k v|k v|k| |k k']; simpl.
  - unfold massign, mindex. specialize (Hf k). unfold ohas. destruct (o_content s k) as [w|] eqn:E.
    + destruct Hf as (n & Hfi & Hv & Hlt & _). rewrite Hfi. simpl.
      rewrite vset_nat by (rewrite Hl; assumption). simpl. eexists; split; [reflexivity|].
      apply Inv_put; assumption.
    + rewrite Hf. reflexivity.
  - unfold minsert_left. rewrite (mexpect_Inv _ _ _ HI). unfold ohas.
    destruct (o_content s k) eqn:E; simpl; [reflexivity|]. eexists; split; [reflexivity|].
    apply Inv_insert_left; assumption.
  - unfold minsert_right. rewrite (mexpect_Inv _ _ _ HI). unfold ohas.
    destruct (o_content s k) eqn:E; simpl; [reflexivity|]. eexists; split; [reflexivity|].
    apply Inv_insert_right; assumption.
  - unfold merase, mindex. specialize (Hf k). unfold ohas. destruct (o_content s k) as [w|] eqn:E.
    + destruct Hf as (n & Hfi & Hv & Hlt & _). rewrite Hfi. simpl.
      rewrite verase_nat by assumption. simpl. rewrite verase_nat by (rewrite Hl; assumption). simpl.
      eexists; split; [reflexivity|]. apply Inv_del; assumption.
    + rewrite Hf. reflexivity.
  - eexists; split; [reflexivity|]. apply Inv_empty.
  - unfold mreplace_key. rewrite (mexpect_Inv _ _ _ HI).
    destruct (eqb_spec k k') as [<-|Hne]; simpl.
    + unfold mindex. specialize (Hf k). unfold ohas. destruct (o_content s k) as [w|] eqn:E.
      * destruct Hf as (n & Hfi & Hv & Hlt & _). rewrite Hfi. simpl. rewrite vset_nat by assumption. simpl.
        eexists; split; [reflexivity|].
        pose proof (Inv_replace m s k k n HI Hfi (or_introl eq_refl)) as HR. rewrite E in HR. exact HR.
      * rewrite Hf. reflexivity.
    + destruct (ohas s k') eqn:E'; simpl; [reflexivity|].
      assert (o_content s k' = None) as E'' by (unfold ohas in E'; destruct (o_content s k'); congruence).
      unfold mindex. specialize (Hf k). unfold ohas. destruct (o_content s k) as [w|] eqn:E.
      * destruct Hf as (n & Hfi & Hv & Hlt & _). rewrite Hfi. simpl. rewrite vset_nat by assumption. simpl.
        eexists; split; [reflexivity|].
        pose proof (Inv_replace m s k k' n HI Hfi (or_intror E'')) as HR. rewrite E in HR. exact HR.
      * rewrite Hf. reflexivity.
Qed.

Lemma dextract_Inv m s k : Inv m s ->
  match o_content s k with
  | Some v => exists m', dextract eqb m k = Ok (v, m') /\ Inv m' (odel eqb s k)
  | None => dextract eqb m k = Throw NotFoundError
  end.
Proof.
  intros HI. pose proof (Inv_find _ _ k HI) as Hf. pose proof HI as (Hk & Hnd & Hl & Hc & Hn).
  unfold dextract, mindex. destruct (o_content s k) as [w|] eqn:E.
  - destruct Hf as (n & Hfi & Hv & Hlt & _). rewrite Hfi. simpl.
    rewrite verase_nat by assumption. simpl. rewrite vget_nat, Hv. simpl.
    rewrite verase_nat by (rewrite Hl; assumption). simpl.
    eexists; split; [reflexivity|]. apply Inv_del; assumption.
  - rewrite Hf. reflexivity.
Qed.

Lemma d_step_refines m s o : Inv m s ->
  match d_spec eqb s o with
  | inl s' => exists m', d_step eqb m o = Ok m' /\ Inv m' s'
  | inr e => d_step eqb m o = Throw e
  end.
Proof.
  intros HI. pose proof (fun k => Inv_find _ _ k HI) as Hf. pose proof HI as (Hk & Hnd & Hl & Hc & Hn).
  destruct o as [k v|k|]; simpl.
  - unfold dinsert_or_assign. specialize (Hf k). unfold ohas. destruct (o_content s k) as [w|] eqn:E.
    + destruct Hf as (n & Hfi & Hv & Hlt & _). rewrite Hfi.
      rewrite vset_nat by (rewrite Hl; assumption). simpl. eexists; split; [reflexivity|].
      apply Inv_put; assumption.
    + rewrite Hf. eexists; split; [reflexivity|]. apply Inv_insert_right; assumption.
  - unfold derase. pose proof (dextract_Inv _ _ k HI) as He. unfold ohas.
    destruct (o_content s k) as [w|].
    + destruct He as (m' & -> & HI'). simpl. eauto.
    + rewrite He. reflexivity.
  - eexists; split; [reflexivity|]. apply Inv_empty.
Qed.

Lemma run_refines {O} (step : vmap K V -> O -> res (vmap K V)) (spec : omap K V -> O -> omap K V + exn)
  (Hstep : forall m s o, Inv m s ->
     match spec s o with
     | inl s' => exists m', step m o = Ok m' /\ Inv m' s'
     | inr e => step m o = Throw e end) :
  forall os m s, Inv m s ->
  exists m', run step m os = Ok (m', snd (orun spec s os)) /\ Inv m' (fst (orun spec s os)).
Proof.
  induction os as [|o os IH]; intros m s HI; simpl; [eauto|].
  specialize (Hstep m s o HI). destruct (spec s o) as [s'|e].
  - destruct Hstep as (m' & -> & HI'). destruct (IH _ _ HI') as (m'' & -> & HI'').
    destruct (orun spec s' os). simpl in *. eauto.
  - rewrite Hstep. destruct (IH _ _ HI) as (m'' & -> & HI'').
    destruct (orun spec s os). simpl in *. eauto.
Qed.

Lemma sm_refines (os : list (sm_op K V)) :
  exists m, run (sm_step eqb) mempty os = Ok (m, snd (orun (sm_spec eqb) oempty os)) /\
            shows eqb DimensionError m (fst (orun (sm_spec eqb) oempty os)).
Proof.
  destruct (run_refines _ _ sm_step_refines os _ _ Inv_empty) as (m & H & HI).
  exists m. split; [exact H|]. apply Inv_shows; assumption.
Qed.

Lemma d_refines (os : list (d_op K V)) :
  exists m, run (d_step eqb) mempty os = Ok (m, snd (orun (d_spec eqb) oempty os)) /\
            shows eqb NotFoundError m (fst (orun (d_spec eqb) oempty os)) /\
            (forall k, match o_content (fst (orun (d_spec eqb) oempty os)) k with
                       | Some v => exists m', dextract eqb m k = Ok (v, m') /\
                           shows eqb NotFoundError m' (odel eqb (fst (orun (d_spec eqb) oempty os)) k) /\
                           dfind eqb m k = Ok (Some (k, v))
                       | None => dextract eqb m k = Throw NotFoundError /\ dfind eqb m k = Ok None
                       end).
Proof.
  destruct (run_refines _ _ d_step_refines os _ _ Inv_empty) as (m & H & HI).
  exists m. split; [exact H|]. split; [apply Inv_shows; assumption|].
  intros k. pose proof (dextract_Inv _ _ k HI) as He. pose proof (Inv_find _ _ k HI) as Hf.
  unfold dfind. destruct (o_content _ k).
  - destruct He as (m' & He & HI'). destruct Hf as (n & -> & Hv & _ & Hk).
    exists m'. split; [assumption|]. split; [apply Inv_shows; assumption|].
    rewrite !vget_nat, Hv, Hk. reflexivity.
  - rewrite Hf. auto.
Qed.

(** Construction from a list of pairs succeeds exactly for distinct keys and keeps the order. *)
Lemma dmake_aux (l : list (K * V)) : forall m s, Inv m s ->
  (NoDup (map fst l) /\ (forall k, In k (map fst l) -> o_content s k = None) ->
    exists m', dmake eqb m l = Ok m' /\ ditems m' = ditems m ++ l) /\
  (~ (NoDup (map fst l) /\ (forall k, In k (map fst l) -> o_content s k = None)) ->
    dmake eqb m l = Throw InvalidArgument).
Proof.
  induction l as [|[k v] l IH]; intros m s HI; simpl.
  - split; [intros _; eexists; split; [reflexivity|]; rewrite app_nil_r; reflexivity|].
    intros H. exfalso. apply H. split; [constructor|tauto].
  - pose proof (Inv_shows NotFoundError _ _ HI) as (_ & _ & _ & Hc & _). rewrite Hc.
    pose proof (Inv_find _ _ k HI) as Hf. unfold ohas, dinsert_or_assign.
    destruct (o_content s k) as [w|] eqn:E.
    + split; [intros [_ H]; specialize (H k (or_introl eq_refl)); congruence|reflexivity].
    + rewrite Hf. simpl. pose proof (Inv_insert_right m s k v HI E) as HI'.
      destruct (IH _ _ HI') as [IH1 IH2].
      assert (Hiff : (NoDup (map fst l) /\
        (forall x, In x (map fst l) -> oput eqb s k v x = None)) <->
        (NoDup (k :: map fst l) /\ (forall x, k = x \/ In x (map fst l) -> o_content s x = None))).
      { unfold oput. split.
        - intros [H1 H2]. split.
          + constructor; [|assumption]. intros Hin. specialize (H2 _ Hin). rewrite eqb_refl in H2. discriminate.
          + intros x [<-|Hx]; [assumption|]. specialize (H2 _ Hx). destruct (eqb_spec x k); [congruence|assumption].
        - intros [H1 H2]. inversion H1; subst. split; [assumption|].
          intros x Hx. destruct (eqb_spec x k) as [->|]; [tauto|]. auto. }
      simpl in IH1, IH2. split.
      * intros H. apply Hiff in H. destruct (IH1 H) as (m' & -> & Hi). eexists; split; [reflexivity|].
        rewrite Hi. unfold ditems. simpl. destruct HI as (? & ? & Hl & _).
        assert (Hcomb : forall ks vs, length vs = length ks ->
          combine (ks ++ [k]) (vs ++ [v]) = combine ks vs ++ [(k, v)]).
        { induction ks as [|a ks IHk]; intros [|b vs] Hlen; simpl in *; try discriminate; [reflexivity|].
          rewrite IHk by lia. reflexivity. }
        rewrite Hcomb by assumption. rewrite <- app_assoc. reflexivity.
      * intros H. apply IH2. rewrite Hiff. exact H.
Qed.

Lemma dmake_iff (l : list (K * V)) :
  (NoDup (map fst l) -> exists m, dmake eqb mempty l = Ok m /\ ditems m = l) /\
  (~ NoDup (map fst l) -> dmake eqb mempty l = Throw InvalidArgument).
Proof.
  destruct (dmake_aux l _ _ Inv_empty) as [H1 H2]. split.
  - intros H. destruct H1 as (m & Hm & Hi); [split; [assumption|reflexivity]|]. eauto.
  - intros H. apply H2. tauto.
Qed.
End Proofs.
