From Coq Require Import String Permutation.
From Verif Require Import Base Label_Model.

Definition labels_of (p : list (nat * string)) : list string := map snd p.

(** No two threads are between the two regions of the constructor with the same label. *)
Definition race_free (es : list ev) : Prop :=
  forall n, NoDup (map snd (pending (reg_run reg_init (firstn n es)))).

Record RInv (s : reg) : Prop := {
  ri_ids : forall k i, In (k, i) (custom s) -> 1000 <= i < 1000 + zlen (custom s);
  ri_max : zlen (custom s) <= 64536;
  ri_nodup_keys : NoDup (map fst (custom s));
  ri_nodup_ids : NoDup (map snd (custom s));
  ri_custom : forall k i, In (k, i) (custom s) -> find_label k builtin_ids = None;
  ri_handed : forall l i, In (l, i) (handed s) ->
     find_label l builtin_ids = Some i \/ In (l, i) (custom s);
  ri_pending : forall t l, In (t, l) (pending s) -> find_label l (custom s) = None /\ find_label l builtin_ids = None;
  ri_threads : NoDup (map fst (pending s))
}.

Lemma find_label_In l m i : find_label l m = Some i -> In (l, i) m.
Proof.
  induction m as [|[k j] m IH]; simpl; [discriminate|].
  destruct (String.eqb_spec k l) as [->|]; [intros [= ->]; auto|auto].
Qed.

Lemma find_label_None l m : find_label l m = None <-> ~ In l (map fst m).
Proof.
  induction m as [|[k j] m IH]; simpl; [tauto|].
  destruct (String.eqb_spec k l) as [->|]; [split; [discriminate|tauto]|]. rewrite IH. tauto.
Qed.

Lemma find_label_nodup l m i : NoDup (map fst m) -> In (l, i) m -> find_label l m = Some i.
Proof.
  induction m as [|[k j] m IH]; simpl; [tauto|]. intros Hnd. inversion Hnd; subst.
  intros [[= -> ->]|Hin]; [rewrite String.eqb_refl; reflexivity|].
  destruct (String.eqb_spec k l) as [->|]; [exfalso; apply H1; apply in_map_iff; exists (l, i); auto|auto].
Qed.

Lemma put_label_new l i m : find_label l m = None -> put_label l i m = m ++ [(l, i)].
Proof.
  induction m as [|[k j] m IH]; simpl; [reflexivity|].
  destruct (String.eqb_spec k l); [discriminate|]. intros H. rewrite IH by assumption. reflexivity.
Qed.

Lemma pending_of_In t p l : pending_of t p = Some l -> In (t, l) p.
Proof.
  induction p as [|[u k] p IH]; simpl; [discriminate|].
  destruct (Nat.eqb_spec u t) as [->|]; [intros [= ->]; auto|auto].
Qed.
Lemma pending_of_None t p : pending_of t p = None <-> ~ In t (map fst p).
Proof.
  induction p as [|[u k] p IH]; simpl; [tauto|].
  destruct (Nat.eqb_spec u t) as [->|]; [split; [discriminate|tauto]|]. rewrite IH. tauto.
Qed.

Lemma RInv_init : RInv reg_init.
Proof. constructor; simpl; try tauto; try constructor. unfold zlen; simpl; lia. Qed.

Lemma NoDup_snoc {A} (l : list A) x : NoDup l -> ~ In x l -> NoDup (l ++ [x]).
Proof.
  intros H Hx. apply (Permutation.Permutation_NoDup (l := x :: l)); [apply Permutation.Permutation_cons_append|].
  constructor; assumption.
Qed.

Lemma NoDup_map_filter {A B} (g : A -> B) f l : NoDup (map g l) -> NoDup (map g (filter f l)).
Proof.
  induction l as [|x l IH]; simpl; intros H; [constructor|]. inversion H; subst.
  destruct (f x); simpl; [constructor; [|auto]|auto].
  intros Hin. apply in_map_iff in Hin as (y & Hy & Hyl). apply filter_In in Hyl as [Hyl _].
  apply H2. apply in_map_iff. eauto.
Qed.

Lemma nodup_snd_other (p : list (nat * string)) t u l :
  NoDup (map snd p) -> In (t, l) p -> In (u, l) p -> t = u.
Proof.
  induction p as [|[v k] p IH]; simpl; [tauto|]. intros Hnd. inversion Hnd; subst.
  intros [[= -> ->]|Ht] [E|Hu].
  - injection E as ->. reflexivity.
  - exfalso. apply H1. apply in_map_iff. exists (u, l). auto.
  - injection E as -> ->. exfalso. apply H1. apply in_map_iff. exists (t, l). auto.
  - auto.
Qed.

Lemma RInv_lookup s t l : RInv s -> RInv (lookup_step s t l).
Proof.
  intros [A B C D E F G H]. unfold lookup_step.
  destruct (pending_of t (pending s)) eqn:Et; [constructor; assumption|].
  destruct (find_label l builtin_ids) as [i|] eqn:Eb.
  { constructor; cbn [custom pending handed]; auto. intros l' i' [[= <- <-]|Hin]; auto. }
  destruct (find_label l (custom s)) as [i|] eqn:Ec.
  { apply find_label_In in Ec. constructor; cbn [custom pending handed]; auto. intros l' i' [[= <- <-]|Hin]; auto. }
  constructor; cbn [custom pending handed]; auto.
  - intros u k [[= <- <-]|Hin]; [auto|eauto].
  - constructor; [apply pending_of_None; assumption|assumption].
Qed.

Lemma RInv_register s t : RInv s -> NoDup (map snd (pending s)) -> RInv (register_step s t).
Proof.
  intros [A B C D E F G H] Hnr. unfold register_step.
  destruct (pending_of t (pending s)) as [l|] eqn:Et; [|constructor; assumption].
  apply pending_of_In in Et. destruct (G _ _ Et) as [Gc Gb].
  assert (Hp : forall u k, In (u, k) (filter (fun x => negb (fst x =? t)%nat) (pending s)) -> In (u, k) (pending s) /\ u <> t).
  { intros u k Hin. apply filter_In in Hin as [Hin Hne]. split; [assumption|]. simpl in Hne.
    destruct (Nat.eqb_spec u t); [discriminate|assumption]. }
  destruct (Z.gtb_spec (zlen (custom s) + 1000) 65535) as [Hmax|Hmax].
  - constructor; cbn [custom pending handed]; auto.
    + intros u k Hin. apply Hp in Hin as [Hin _]. eauto.
    + apply NoDup_map_filter. assumption.
  - rewrite put_label_new by assumption.
    assert (Hlen : zlen (custom s ++ [(l, zlen (custom s) + 1000)]) = zlen (custom s) + 1).
    { unfold zlen. rewrite app_length. simpl. lia. }
    constructor; cbn [custom pending handed].
    + intros k i. rewrite Hlen, in_app_iff. cbn [In]. intros [Hin|[[= <- <-]|[]]].
      * specialize (A _ _ Hin). lia.
      * unfold zlen. lia.
    + rewrite Hlen. lia.
    + rewrite map_app. simpl. apply NoDup_snoc; [assumption|]. apply find_label_None. assumption.
    + rewrite map_app. simpl. apply NoDup_snoc; [assumption|].
      intros Hin. apply in_map_iff in Hin as ([k i] & Hi & Hin). simpl in Hi. subst. specialize (A _ _ Hin). lia.
    + intros k i. rewrite in_app_iff. cbn [In]. intros [Hin|[[= <- <-]|[]]]; eauto.
    + intros k i [[= <- <-]|Hin]; [right; rewrite in_app_iff; simpl; auto|].
      destruct (F _ _ Hin); [auto|right; rewrite in_app_iff; auto].
    + intros u k Hin. apply Hp in Hin as [Hin Hne]. destruct (G _ _ Hin) as [G1 G2]. split; [|assumption].
      apply find_label_None. rewrite map_app, in_app_iff. simpl. apply find_label_None in G1.
      intros [?|[<-|[]]]; [contradiction|]. apply Hne. apply (nodup_snd_other _ _ _ _ Hnr Hin Et).
    + apply NoDup_map_filter. assumption.
Qed.

Lemma firstn_snoc {A} (es : list A) e n : (n <= length es)%nat -> firstn n (es ++ [e]) = firstn n es.
Proof. intros H. rewrite firstn_app. replace (n - length es)%nat with 0%nat by lia. simpl. apply app_nil_r. Qed.

Lemma RInv_run es : race_free es -> RInv (reg_run reg_init es).
Proof.
  induction es as [|e es IH] using rev_ind; intros Hr; [apply RInv_init|].
  unfold reg_run. rewrite fold_left_app. simpl. fold (reg_run reg_init es).
  assert (race_free es) as Hr'.
  { intros n. destruct (le_lt_dec n (length es)) as [Hn|Hn].
    - rewrite <- (firstn_snoc es e n Hn). apply Hr.
    - rewrite firstn_all2 by lia. specialize (Hr (length es)). rewrite firstn_snoc, firstn_all in Hr by lia. assumption. }
  specialize (IH Hr').
  assert (NoDup (map snd (pending (reg_run reg_init es)))) as Hnd.
  { specialize (Hr (length es)). rewrite firstn_snoc, firstn_all in Hr by lia. assumption. }
  destruct e as [t l|t]; [apply RInv_lookup|apply RInv_register]; assumption.
Qed.

Lemma builtin_inj l l' i : find_label l builtin_ids = Some i -> find_label l' builtin_ids = Some i -> l = l'.
Proof.
  intros H H'. apply find_label_In in H, H'. simpl in H, H'.
  repeat (destruct H as [H|H]; [injection H as <- <-|]); try contradiction;
  repeat (destruct H' as [H'|H']; [try (injection H' as <-; reflexivity); try (injection H'; intros; lia)|]); try contradiction.
Qed.

Lemma builtin_small l i : find_label l builtin_ids = Some i -> 0 <= i < 1000.
Proof.
  intros H. apply find_label_In in H. simpl in H.
  repeat (destruct H as [H|H]; [injection H as <- <-; lia|]). contradiction.
Qed.

Lemma find_id_In i m k : find_id i m = Some k -> In (k, i) m.
Proof.
  induction m as [|[l j] m IH]; simpl; [discriminate|].
  destruct (Z.eqb_spec j i) as [->|]; [intros [= ->]; auto|auto].
Qed.
Lemma find_id_None i m : find_id i m = None -> forall k, ~ In (k, i) m.
Proof.
  induction m as [|[l j] m IH]; simpl; [tauto|].
  destruct (Z.eqb_spec j i); [discriminate|]. intros H k [[= -> ->]|Hin]; [congruence|eapply IH; eauto].
Qed.
Lemma nodup_snd_eq (m : list (string * Z)) k k' i : NoDup (map snd m) -> In (k, i) m -> In (k', i) m -> k = k'.
Proof.
  induction m as [|[l j] m IH]; simpl; [tauto|]. intros Hnd. inversion Hnd; subst.
  intros [[= -> ->]|H] [E|H'].
  - injection E as ->. reflexivity.
  - exfalso. apply H1, in_map_iff. exists (k', i). auto.
  - injection E as -> ->. exfalso. apply H1, in_map_iff. exists (k, i). auto.
  - auto.
Qed.

Lemma find_id_builtin l i : find_label l builtin_ids = Some i -> find_id i builtin_ids = Some l.
Proof.
  intros H. apply find_label_In in H. simpl in H.
  repeat (destruct H as [H|H]; [injection H as <- <-; reflexivity|]). contradiction.
Qed.

Lemma find_id_builtin_none i : ~ (0 <= i < 1000) -> find_id i builtin_ids = None.
Proof.
  intros H. destruct (find_id i builtin_ids) as [k|] eqn:E; [|reflexivity].
  apply find_id_In in E. simpl in E.
  repeat (destruct E as [E|E]; [injection E as <- <-; exfalso; apply H; lia|]). contradiction.
Qed.

Lemma labels_ok es : race_free es ->
  let s := reg_run reg_init es in
  (forall l i l' i', In (l, i) (handed s) -> In (l', i') (handed s) -> (i = i' <-> l = l')) /\
  (forall l i, In (l, i) (handed s) -> dim_name s i = l /\ 0 <= i <= 65535).
Proof.
  intros Hr s. pose proof (RInv_run es Hr) as [A B C D E F G H]. fold s in A, B, C, D, E, F, G, H. split.
  - intros l i l' i' Hi Hi'. apply F in Hi, Hi'.
    destruct Hi as [Hi|Hi], Hi' as [Hi'|Hi'].
    + split; [intros <-; eapply builtin_inj; eassumption|intros <-; congruence].
    + pose proof (builtin_small _ _ Hi). pose proof (A _ _ Hi'). split; [lia|].
      intros <-. specialize (E _ _ Hi'). congruence.
    + pose proof (builtin_small _ _ Hi'). pose proof (A _ _ Hi). split; [lia|].
      intros <-. specialize (E _ _ Hi). congruence.
    + split; intros <-.
      * eapply nodup_snd_eq; [exact D|exact Hi|exact Hi'].
      * apply (find_label_nodup _ _ _ C) in Hi, Hi'. congruence.
  - intros l i Hi. apply F in Hi as [Hi|Hi]; unfold dim_name.
    + pose proof (builtin_small _ _ Hi). destruct (Z.ltb_spec i 1000); [|lia].
      rewrite (find_id_builtin _ _ Hi). split; [reflexivity|lia].
    + pose proof (A _ _ Hi). destruct (Z.ltb_spec i 1000); [lia|].
      destruct (find_id i (custom s)) as [k|] eqn:Ek.
      * apply find_id_In in Ek. split; [eapply nodup_snd_eq; [exact D|exact Ek|exact Hi]|lia].
      * exfalso. eapply find_id_None; eauto.
Qed.

(** Sequential use never races. *)
Definition sequential (ls : list string) : list ev := flat_map construct ls.

Lemma construct_pending s l : pending s = [] -> pending (reg_run s (construct l)) = [] /\
  (length (pending (reg_run s [Lookup 0 l])) <= 1)%nat.
Proof.
  intros Hp. unfold reg_run, construct. cbn [fold_left reg_step]. unfold lookup_step. rewrite Hp. cbn [pending_of].
  assert (Hno : forall c h, pending (register_step (mkreg c [] h) 0) = []) by reflexivity.
  destruct (find_label l builtin_ids); [cbn; auto|].
  destruct (find_label l (custom s)); [cbn; auto|]. split; [|simpl; auto].
  unfold register_step. cbn [pending pending_of fst filter Nat.eqb negb custom handed].
  destruct (_ >? 65535); reflexivity.
Qed.

Lemma sequential_race_free_from ls : forall s, pending s = [] -> forall n,
  (length (pending (reg_run s (firstn n (sequential ls)))) <= 1)%nat.
Proof.
  induction ls as [|l ls IH]; intros s Hp n; simpl.
  - rewrite firstn_nil. simpl. rewrite Hp. simpl. lia.
  - destruct (construct_pending s l Hp) as [H1 H2].
    destruct n as [|[|n]].
    + simpl. rewrite Hp. simpl. lia.
    + exact H2.
    + cbn [firstn]. change (reg_run s (Lookup 0 l :: Register 0 :: firstn n (sequential ls)))
        with (reg_run (reg_run s (construct l)) (firstn n (sequential ls))).
      apply IH. assumption.
Qed.

Lemma sequential_race_free ls : race_free (sequential ls).
Proof.
  intros n. pose proof (sequential_race_free_from ls reg_init eq_refl n) as H.
  destruct (pending (reg_run reg_init (firstn n (sequential ls)))) as [|x [|y p]]; simpl in *.
  - constructor.
  - repeat constructor. auto.
  - lia.
Qed.

(** Sequentially, constructing hands the label out at once unless the id space is exhausted. *)
Lemma construct_hands_out s l : pending s = [] -> zlen (custom s) < 64536 ->
  exists i, handed (reg_run s (construct l)) = (l, i) :: handed s.
Proof.
  intros Hp Hmax. unfold reg_run, construct. cbn [fold_left reg_step]. unfold lookup_step. rewrite Hp. cbn [pending_of].
  destruct (find_label l builtin_ids) as [i|]; [exists i; reflexivity|].
  destruct (find_label l (custom s)) as [i|]; [exists i; reflexivity|].
  unfold register_step. cbn [pending pending_of fst filter Nat.eqb negb custom handed].
  destruct (Z.gtb_spec (zlen (custom s) + 1000) 65535); [lia|]. eexists. reflexivity.
Qed.

Lemma labels_race_refuted :
  exists es l1 l2 l3 i j,
    let s := reg_run reg_init es in
    In (l1, i) (handed s) /\ In (l1, j) (handed s) /\ i <> j /\           (* one string, two identities *)
    In (l2, j) (handed s) /\ l1 <> l2 /\                                   (* two strings, one identity *)
    dim_name s i = l3 /\ l3 <> l1.                                         (* wrong name *)
Proof.
  exists [Lookup 1 "alpha"%string; Lookup 2 "alpha"%string; Register 1; Register 2; Lookup 1 "beta"%string; Register 1],
    "alpha"%string, "beta"%string, "unreachable"%string, 1000, 1001.
  vm_compute. repeat split; auto; discriminate.
Qed.
