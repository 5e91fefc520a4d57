(** Proofs about the combination of coords and attributes. *)
From Verif Require Import Base Map_Model Dims_Model Dims_Spec Dims_Proofs View_Model View_Spec View_Proofs SizedDict_Model SizedDict_Spec SizedDict_Proofs
  Equality_Model Equality_Spec Equality_Proofs Union_Model Union_Spec.

Definition holds (lo : list (Z * item)) (P : Z -> item -> Prop) : Prop :=
  NoDup (map fst lo) /\ forall k it, In (k, it) lo <-> P k it.

Lemma holds_snoc lo P Q k x : holds lo P -> (forall it, ~ P k it) ->
  (forall k' it, Q k' it <-> P k' it \/ (k' = k /\ it = x)) ->
  dinsert_or_assign Z.eqb (mkd lo) k x = Ok (mkd (lo ++ [(k, x)])) /\ holds (lo ++ [(k, x)]) Q.
Proof.
  intros [Hn HP] Hk HQ.
  assert (Hk' : ~ In k (map fst lo)) by (intros Hi; apply in_keys_ex in Hi as [it Hi]; apply HP in Hi; exact (Hk it Hi)).
  split; [apply insert_new; exact Hk'|]. split.
  - rewrite map_app. cbn [map fst]. apply NoDup_snoc; assumption.
  - intros k' it. rewrite HQ, in_app_iff, HP. cbn [In]. intuition congruence.
Qed.
Lemma holds_ext lo P Q : holds lo P -> (forall k it, Q k it <-> P k it) -> holds lo Q.
Proof. intros [Hn HP] HQ. split; [exact Hn|]. intros k it. rewrite HQ. apply HP. Qed.

Lemma dict_cases d : dict_comparable d -> sd_items d = mkd (sd_list d) /\ NoDup (map fst (sd_list d)).
Proof. intros (Hn & Hl & _). destruct (dict_mkd d Hl) as [E Ek]. split; [exact E|]. rewrite <- Ek. exact Hn. Qed.

Lemma compare_true st nan a b : comparable a -> comparable b ->
  (var_same nan st a b -> compare st nan a b = Ok true) /\ (~ var_same nan st a b -> compare st nan a b = Ok false).
Proof.
  intros Ha Hb. destruct (compare_ok st nan a b Ha Hb) as (r & -> & Hr). split; intros Hs.
  - apply Hr in Hs. congruence.
  - destruct r; [exfalso; apply Hs, Hr; reflexivity|reflexivity].
Qed.
Lemma var_same_dec st nan a b : comparable a -> comparable b -> var_same nan st a b \/ ~ var_same nan st a b.
Proof.
  intros Ha Hb. destruct (compare_ok st nan a b Ha Hb) as ([|] & _ & Hr); [left; apply Hr; reflexivity|right].
  intros Hs. apply Hr in Hs. discriminate.
Qed.

(** Lookup in a dictionary: absent, or the only item with that key. *)
Lemma lookup d k : dict_comparable d ->
  (sd_contains d k = false /\ (forall i, ~ In (k, i) (sd_list d))) \/
  exists i, sd_contains d k = true /\ sd_at d k = Ok i /\ In (k, i) (sd_list d) /\ comparable i /\
    forall i', In (k, i') (sd_list d) -> i' = i.
Proof.
  intros Hd. destruct (dict_cases d Hd) as [E Hn]. destruct Hd as (_ & _ & Hc).
  destruct (in_dec Z.eq_dec k (map fst (sd_list d))) as [Hk|Hk].
  - right. pose proof Hk as Hk0. apply in_keys_ex in Hk as [i Hi]. exists i. unfold sd_contains, sd_at. rewrite E.
    split; [apply contains_In; exact Hk0|]. split; [apply at_In; assumption|]. split; [exact Hi|]. split; [exact (Hc k i Hi)|].
    intros i' Hi'. exact (list_unique _ _ _ _ Hn Hi' Hi).
  - left. unfold sd_contains. rewrite E. split; [apply contains_nIn; exact Hk|].
    intros i Hi. apply Hk, in_keys_ex. eauto.
Qed.

Lemma union_first_ok la : forall lo pa, NoDup (map fst (pa ++ la)) -> holds lo (fun k it => In (k, it) pa /\ i_aligned it = true) ->
  exists lo', union_first (mkd lo) la = Ok (mkd lo') /\ holds lo' (fun k it => In (k, it) (pa ++ la) /\ i_aligned it = true).
Proof.
  induction la as [|[k x] la IH]; intros lo pa Hn Hh; cbn [union_first].
  { exists lo. rewrite app_nil_r. auto. }
  specialize (fun lo' => IH lo' (pa ++ [(k, x)])). rewrite <- app_assoc in IH. cbn [app] in IH.
  assert (Hk : forall it, ~ In (k, it) pa).
  { intros it Hi. rewrite map_app in Hn. cbn [map fst] in Hn. apply NoDup_remove_2 in Hn. apply Hn, in_or_app. left.
    apply (in_map fst) in Hi. exact Hi. }
  destruct (i_aligned x) eqn:Ea.
  - destruct (holds_snoc lo _ (fun k' it => In (k', it) (pa ++ [(k, x)]) /\ i_aligned it = true) k x Hh) as [-> Hh'].
    + intros it [Hi _]. exact (Hk it Hi).
    + intros k' it. rewrite in_app_iff. cbn [In]. intuition congruence.
    + cbn [bind]. apply IH; assumption.
  - cbn [bind]. apply IH; [assumption|]. refine (holds_ext _ _ _ Hh _). intros k' it. rewrite in_app_iff. cbn [In]. intuition congruence.
Qed.

Lemma union_second_ok st a lb : dict_comparable a -> forall lo pb,
  NoDup (map fst (pb ++ lb)) -> (forall k j, In (k, j) lb -> comparable j) -> holds lo (united st (sd_list a) pb) ->
  ((exists k i j, In (k, i) (sd_list a) /\ In (k, j) lb /\ i_aligned i = true /\ i_aligned j = true /\ ~ var_same true st i j) ->
     union_second st a (mkd lo) lb = Throw CoordMismatchError) /\
  (~ (exists k i j, In (k, i) (sd_list a) /\ In (k, j) lb /\ i_aligned i = true /\ i_aligned j = true /\ ~ var_same true st i j) ->
     exists lo', union_second st a (mkd lo) lb = Ok (mkd lo') /\ holds lo' (united st (sd_list a) (pb ++ lb))).
Proof.
  intros Ha. induction lb as [|[k x] lb IH]; intros lo pb Hn Hc Hh; cbn [union_second].
  { split; [intros (k & i & j & _ & [] & _)|]. intros _. exists lo. rewrite app_nil_r. auto. }
  specialize (fun lo' => IH lo' (pb ++ [(k, x)])). rewrite <- app_assoc in IH. cbn [app] in IH.
  assert (Hkb : forall it, ~ In (k, it) pb).
  { intros it Hi. rewrite map_app in Hn. cbn [map fst] in Hn. apply NoDup_remove_2 in Hn. apply Hn, in_or_app. left.
    apply (in_map fst) in Hi. exact Hi. }
  assert (Hkl : forall it, ~ In (k, it) lb).
  { intros it Hi. rewrite map_app in Hn. cbn [map fst] in Hn. apply NoDup_remove_2 in Hn. apply Hn, in_or_app. right.
    apply (in_map fst) in Hi. exact Hi. }
  assert (Hx : comparable x) by (apply (Hc k); left; reflexivity).
  assert (Hc' : forall k j, In (k, j) lb -> comparable j) by (intros k' j Hj; apply (Hc k'); right; exact Hj).
  set (bad l := exists k i j, In (k, i) (sd_list a) /\ In (k, j) l /\ i_aligned i = true /\ i_aligned j = true /\ ~ var_same true st i j).
  change (exists k i j, In (k, i) (sd_list a) /\ In (k, j) lb /\ i_aligned i = true /\ i_aligned j = true /\ ~ var_same true st i j)
    with (bad lb) in IH.
  change (exists k0 i j, In (k0, i) (sd_list a) /\ In (k0, j) ((k, x) :: lb) /\ i_aligned i = true /\ i_aligned j = true /\ ~ var_same true st i j)
    with (bad ((k, x) :: lb)).
  (* Once this item is handled without an error, the rest decides. *)
  assert (Hrest : ~ (exists i, In (k, i) (sd_list a) /\ i_aligned i = true /\ i_aligned x = true /\ ~ var_same true st i x) ->
            bad ((k, x) :: lb) <-> bad lb).
  { intros Hne. unfold bad. split; intros (k' & i & j & Hi & Hj & Ai & Aj & Hs).
    - destruct Hj as [E|Hj]; [injection E as <- <-; exfalso; apply Hne; eauto|]. eauto 10.
    - exists k', i, j. split; [exact Hi|]. split; [right; exact Hj|]. auto. }
  destruct (lookup a k Ha) as [[-> Hno]|(va & -> & -> & Hva & Cva & Hu)]; cbn [bind].
  - rewrite Hrest by (intros (i & Hi & _); exact (Hno i Hi)). destruct (i_aligned x) eqn:Ex.
    + destruct (holds_snoc lo _ (united st (sd_list a) (pb ++ [(k, x)])) k x Hh) as [-> Hh'].
      * intros it [[Hi _]|[[Hi _]|[Hi _]]]; [exact (Hno it Hi)|exact (Hkb it Hi)|exact (Hkb it Hi)].
      * intros k' it. unfold united. rewrite in_app_iff. cbn [In]. split.
        -- intros [?|[([Hi|[E|[]]] & ?)|([Hi|[E|[]]] & ?)]]; auto 6; injection E as <- <-; auto.
        -- intros [[?|[(? & ?)|(? & ?)]]|[-> ->]]; auto 8. right; left. split; [auto|]. split; [exact Ex|].
           intros i Hi. exfalso. exact (Hno i Hi).
      * cbn [bind]. apply IH; assumption.
    + cbn [bind]. apply IH; [assumption|assumption|]. refine (holds_ext _ _ _ Hh _). intros k' it. unfold united.
      rewrite in_app_iff. cbn [In]. split.
      * intros [?|[([Hi|[E|[]]] & Ea & ?)|([Hi|[E|[]]] & ? & i & Hi' & ?)]]; auto 8.
        -- injection E as <- <-. congruence.
        -- right. right. eauto 8.
        -- injection E as <- <-. exfalso. exact (Hno i Hi').
      * intros [?|[(? & ?)|(? & ?)]]; auto 8.
  - destruct (i_aligned va) eqn:Eva, (i_aligned x) eqn:Ex; cbn [andb negb].
    + unfold matching_coord. destruct (var_same_dec st true va x Cva Hx) as [Hs|Hs].
      * rewrite (proj1 (compare_true st true va x Cva Hx) Hs). cbn [bind].
        rewrite Hrest by (intros (i & Hi & _ & _ & Hns); rewrite (Hu i Hi) in Hns; contradiction).
        apply IH; [assumption|assumption|]. refine (holds_ext _ _ _ Hh _). intros k' it. unfold united.
        rewrite in_app_iff. cbn [In]. split.
        -- intros [?|[([Hi|[E|[]]] & Ea & Hf)|([Hi|[E|[]]] & ? & i & Hi' & ?)]]; auto 8.
           ++ injection E as <- <-. specialize (Hf va Hva). congruence.
           ++ right. right. eauto 8.
           ++ injection E as <- <-. congruence.
        -- intros [?|[(? & ?)|(? & ?)]]; auto 8.
      * rewrite (proj2 (compare_true st true va x Cva Hx) Hs). cbn [bind]. split; [reflexivity|].
        intros Hb. exfalso. apply Hb. exists k, va, x. split; [exact Hva|]. split; [left; reflexivity|]. auto.
    + rewrite Hrest by (intros (i & Hi & _ & Hf & _); discriminate). cbn [bind].
      apply IH; [assumption|assumption|]. refine (holds_ext _ _ _ Hh _). intros k' it. unfold united.
      rewrite in_app_iff. cbn [In]. split.
      * intros [?|[([Hi|[E|[]]] & Ea & Hf)|([Hi|[E|[]]] & ? & i & Hi' & Ai & ?)]]; auto 8.
        -- injection E as <- <-. congruence.
        -- right. right. eauto 8.
        -- injection E as <- <-. rewrite (Hu i Hi') in Ai. congruence.
      * intros [?|[(? & ?)|(? & ?)]]; auto 8.
    + rewrite Hrest by (intros (i & Hi & Hf & _); rewrite (Hu i Hi) in Hf; congruence).
      destruct (holds_snoc lo _ (united st (sd_list a) (pb ++ [(k, x)])) k x Hh) as [-> Hh'].
      * intros it [[Hi Ai]|[[Hi _]|[Hi _]]]; [|exact (Hkb it Hi)|exact (Hkb it Hi)]. rewrite (Hu it Hi) in Ai. congruence.
      * intros k' it. unfold united. rewrite in_app_iff. cbn [In]. split.
        -- intros [?|[([Hi|[E|[]]] & ?)|([Hi|[E|[]]] & ?)]]; auto 6; injection E as <- <-; auto.
        -- intros [[?|[(? & ?)|(? & ?)]]|[-> ->]]; auto 8. right; left. split; [auto|]. split; [exact Ex|].
           intros i Hi. rewrite (Hu i Hi). exact Eva.
      * cbn [bind]. apply IH; assumption.
    + rewrite Hrest by (intros (i & Hi & Hf & _); rewrite (Hu i Hi) in Hf; congruence).
      destruct (var_same_dec st true va x Cva Hx) as [Hs|Hs].
      * rewrite (proj1 (compare_true st true va x Cva Hx) Hs). cbn [bind].
        destruct (holds_snoc lo _ (united st (sd_list a) (pb ++ [(k, x)])) k x Hh) as [-> Hh'].
        -- intros it [[Hi Ai]|[[Hi _]|[Hi _]]]; [|exact (Hkb it Hi)|exact (Hkb it Hi)]. rewrite (Hu it Hi) in Ai. congruence.
        -- intros k' it. unfold united. rewrite in_app_iff. cbn [In]. split.
           ++ intros [?|[([Hi|[E|[]]] & ?)|([Hi|[E|[]]] & ?)]]; auto 6; injection E as <- <-; auto.
           ++ intros [[?|[(? & ?)|(? & ?)]]|[-> ->]]; auto 8. right; right. split; [auto|]. split; [exact Ex|].
              exists va. auto.
        -- cbn [bind]. apply IH; assumption.
      * rewrite (proj2 (compare_true st true va x Cva Hx) Hs). cbn [bind].
        apply IH; [assumption|assumption|]. refine (holds_ext _ _ _ Hh _). intros k' it. unfold united.
        rewrite in_app_iff. cbn [In]. split.
        -- intros [?|[([Hi|[E|[]]] & Ea & Hf)|([Hi|[E|[]]] & ? & i & Hi' & Ai & Hs')]]; auto 8.
           ++ injection E as <- <-. congruence.
           ++ right. right. eauto 8.
           ++ injection E as <- <-. rewrite (Hu i Hi') in Hs'. contradiction.
        -- intros [?|[(? & ?)|(? & ?)]]; auto 8.
Qed.

Lemma union_ok st a b : dict_comparable a -> dict_comparable b ->
  (mismatch st a b -> union_ st a b = Throw CoordMismatchError) /\
  (~ mismatch st a b -> exists l, union_ st a b = Ok (mkd l) /\ holds l (united st (sd_list a) (sd_list b))).
Proof.
  intros Ha Hb. destruct (dict_cases a Ha) as [Ea Na]. destruct (dict_cases b Hb) as [Eb Nb]. unfold union_.
  change (ditems (sd_items a)) with (sd_list a). change (ditems (sd_items b)) with (sd_list b).
  destruct (union_first_ok (sd_list a) [] [] Na) as (lo & E1 & H1).
  { split; [constructor|]. intros k it. cbn [In]. tauto. }
  change (@mempty Z item) with (@mkd item []). rewrite E1. cbn [bind].
  destruct (union_second_ok st a (sd_list b) Ha lo [] Nb (proj2 (proj2 Hb))) as [H2 H3].
  { refine (holds_ext _ _ _ H1 _). intros k it. unfold united. cbn [app In]. intuition. }
  split; [exact H2|exact H3].
Qed.

Lemma intersect_ok st b la : dict_comparable b -> forall lo pa,
  NoDup (map fst (pa ++ la)) -> (forall k j, In (k, j) la -> comparable j) -> holds lo (common st pa (sd_list b)) ->
  exists lo', intersect_loop st b (mkd lo) la = Ok (mkd lo') /\ holds lo' (common st (pa ++ la) (sd_list b)).
Proof.
  intros Hb. induction la as [|[k x] la IH]; intros lo pa Hn Hc Hh; cbn [intersect_loop].
  { exists lo. rewrite app_nil_r. auto. }
  specialize (fun lo' => IH lo' (pa ++ [(k, x)])). rewrite <- app_assoc in IH. cbn [app] in IH.
  assert (Hkb : forall it, ~ In (k, it) pa).
  { intros it Hi. rewrite map_app in Hn. cbn [map fst] in Hn. apply NoDup_remove_2 in Hn. apply Hn, in_or_app. left.
    apply (in_map fst) in Hi. exact Hi. }
  assert (Hx : comparable x) by (apply (Hc k); left; reflexivity).
  assert (Hc' : forall k j, In (k, j) la -> comparable j) by (intros k' j Hj; apply (Hc k'); right; exact Hj).
  assert (Hskip : (forall j, In (k, j) (sd_list b) -> ~ var_same true st j x) -> holds lo (common st (pa ++ [(k, x)]) (sd_list b))).
  { intros Hno. refine (holds_ext _ _ _ Hh _). intros k' it. unfold common. rewrite in_app_iff. cbn [In]. split.
    - intros [[Hi|[E|[]]] (j & Hj & Hs)]; [eauto|]. injection E as <- <-. exfalso. exact (Hno j Hj Hs).
    - intros [Hi (j & Hj & Hs)]. eauto. }
  destruct (lookup b k Hb) as [[-> Hno]|(vb & -> & -> & Hvb & Cvb & Hu)]; cbn [bind].
  - apply IH; [assumption|assumption|]. apply Hskip. intros j Hj. exfalso. exact (Hno j Hj).
  - destruct (var_same_dec st true vb x Cvb Hx) as [Hs|Hs].
    + rewrite (proj1 (compare_true st true vb x Cvb Hx) Hs). cbn [bind].
      destruct (holds_snoc lo _ (common st (pa ++ [(k, x)]) (sd_list b)) k x Hh) as [-> Hh'].
      * intros it [Hi _]. exact (Hkb it Hi).
      * intros k' it. unfold common. rewrite in_app_iff. cbn [In]. split.
        -- intros [[Hi|[E|[]]] He]; [auto|]. injection E as <- <-. auto.
        -- intros [[Hi He]|[-> ->]]; [auto|]. split; [auto|eauto].
      * cbn [bind]. apply IH; assumption.
    + rewrite (proj2 (compare_true st true vb x Cvb Hx) Hs). cbn [bind]. apply IH; [assumption|assumption|].
      apply Hskip. intros j Hj. rewrite (Hu j Hj). exact Hs.
Qed.
Lemma intersection_ok st a b : dict_comparable a -> dict_comparable b ->
  exists l, intersection st a b = Ok (mkd l) /\ holds l (common st (sd_list a) (sd_list b)).
Proof.
  intros Ha Hb. destruct (dict_cases a Ha) as [Ea Na]. unfold intersection. change (@mempty Z item) with (@mkd item []).
  apply (intersect_ok st b (sd_list a) Hb [] [] Na (proj2 (proj2 Ha))). split; [constructor|]. intros k it. unfold common. cbn [In]. tauto.
Qed.

Lemma superset_ok st a lb : dict_comparable a -> (forall k j, In (k, j) lb -> comparable j) ->
  let ok := forall k j, In (k, j) lb -> i_aligned j = true -> exists i, In (k, i) (sd_list a) /\ (i_aligned i = true -> var_same false st i j) in
  (ok -> superset_loop st a lb = Ok tt) /\ (~ ok -> superset_loop st a lb = Throw CoordMismatchError).
Proof.
  intros Ha. induction lb as [|[k x] lb IH]; intros Hc ok; cbn [superset_loop].
  { split; [reflexivity|]. intros Hn. exfalso. apply Hn. intros k j []. }
  destruct IH as [IH1 IH2]; [intros k' j Hj; apply (Hc k'); right; exact Hj|].
  assert (Hx : comparable x) by (apply (Hc k); left; reflexivity).
  set (ok' := forall k j, In (k, j) lb -> i_aligned j = true -> exists i, In (k, i) (sd_list a) /\ (i_aligned i = true -> var_same false st i j)) in *.
  set (here := i_aligned x = true -> exists i, In (k, i) (sd_list a) /\ (i_aligned i = true -> var_same false st i x)).
  assert (Hok : ok <-> here /\ ok').
  { unfold ok, here, ok'. split.
    - intros Hf. split; [apply Hf; left; reflexivity|]. intros k' j Hj. apply Hf. right. exact Hj.
    - intros [H1 H2] k' j [E|Hj]; [injection E as <- <-; exact H1|apply H2; exact Hj]. }
  assert (Hyes : here -> (ok -> superset_loop st a lb = Ok tt) /\ (~ ok -> superset_loop st a lb = Throw CoordMismatchError)).
  { intros Hh. rewrite Hok. split; intros Ho; [apply IH1|apply IH2]; tauto. }
  destruct (lookup a k Ha) as [[-> Hno]|(va & -> & -> & Hva & Cva & Hu)]; cbn [negb bind].
  - destruct (i_aligned x) eqn:Ex.
    + split; [|reflexivity]. rewrite Hok. intros [Hh _]. destruct (Hh eq_refl) as (i & Hi & _). exfalso. exact (Hno i Hi).
    + apply Hyes. intros Hf. congruence.
  - destruct (i_aligned va) eqn:Eva, (i_aligned x) eqn:Ex; cbn [andb].
    + destruct (var_same_dec st false va x Cva Hx) as [Hs|Hs].
      * rewrite (proj1 (compare_true st false va x Cva Hx) Hs). cbn [bind]. apply Hyes. intros _. exists va. auto.
      * rewrite (proj2 (compare_true st false va x Cva Hx) Hs). cbn [bind]. split; [|reflexivity]. rewrite Hok. intros [Hh _].
        destruct (Hh eq_refl) as (i & Hi & Hs'). rewrite (Hu i Hi) in Hs'. exfalso. apply Hs, Hs', Eva.
    + apply Hyes. intros Hf. congruence.
    + apply Hyes. intros _. exists va. split; [exact Hva|]. congruence.
    + apply Hyes. intros Hf. congruence.
Qed.

(** ** The result does not depend on the order of the operands *)
Lemma mismatch_sym st a b : mismatch st a b -> mismatch st b a.
Proof.
  intros (k & i & j & Hi & Hj & Ai & Aj & Hs). exists k, j, i. repeat (split; [assumption|]). intros Hs'. apply Hs, var_same_sym, Hs'.
Qed.

Lemma united_swap st a b k it : dict_comparable a -> dict_comparable b -> ~ mismatch st a b -> united st (sd_list a) (sd_list b) k it ->
  exists it', united st (sd_list b) (sd_list a) k it' /\ var_same true st it it' /\ i_aligned it = i_aligned it'.
Proof.
  intros Ha Hb Hm. pose proof (proj2 (proj2 Ha)) as Ca. pose proof (proj2 (proj2 Hb)) as Cb.
  intros [[Hi Ai]|[(Hi & Ai & Hf)|(Hi & Ai & i & Hi' & Ai' & Hs)]].
  - destruct (lookup b k Hb) as [[_ Hno]|(vb & _ & _ & Hvb & Cvb & Hu)].
    + exists it. split; [|split; [apply var_same_refl_nan|reflexivity]]. right. left. split; [exact Hi|]. split; [exact Ai|].
      intros i Hi'. exfalso. exact (Hno i Hi').
    + destruct (i_aligned vb) eqn:Evb.
      * exists vb. split; [left; auto|]. split; [|congruence].
        destruct (var_same_dec st true it vb (Ca k it Hi) Cvb) as [Hs|Hs]; [exact Hs|]. exfalso. apply Hm. exists k, it, vb. auto.
      * exists it. split; [|split; [apply var_same_refl_nan|reflexivity]]. right. left. split; [exact Hi|]. split; [exact Ai|].
        intros i Hi'. rewrite (Hu i Hi'). exact Evb.
  - exists it. split; [left; auto|]. split; [apply var_same_refl_nan|reflexivity].
  - exists i. split; [|split; [apply var_same_sym; exact Hs|congruence]]. right. right. split; [exact Hi'|]. split; [exact Ai'|].
    exists it. split; [exact Hi|]. split; [exact Ai|]. apply var_same_sym. exact Hs.
Qed.

Lemma common_swap st a b k it : common st a b k it -> exists it', common st b a k it' /\ var_same true st it it'.
Proof.
  intros [Hi (j & Hj & Hs)]. exists j. split; [|apply var_same_sym; exact Hs]. split; [exact Hj|]. exists it. split; [exact Hi|].
  apply var_same_sym. exact Hs.
Qed.

(** ** Constructing the dictionaries of the result *)
Lemma sd_make_fails sz l ro : wf sz -> NoDup (map fst l) -> (forall k it, In (k, it) l -> item_ok it) ->
  ~ (forall k it, In (k, it) l -> fits (pairs sz) (ishape it)) -> sd_make sz (mkd l) ro = Throw DimensionError.
Proof.
  intros Hsz Hn Hi Hnf. unfold sd_make. rewrite ditems_mkd.
  assert (Hall : forall l acc, NoDup (map fst (acc ++ l)) -> (forall k it, In (k, it) (acc ++ l) -> item_ok it) ->
            (forall k it, In (k, it) acc -> fits (pairs sz) (ishape it)) ->
            ~ (forall k it, In (k, it) l -> fits (pairs sz) (ishape it)) ->
            sd_set_all (mksd sz (mkd acc) false) l = Throw DimensionError).
  2:{ change (@mempty Z item) with (@mkd item []). rewrite (Hall l []); [reflexivity|assumption|exact Hi|intros k it []|exact Hnf]. }
  clear l Hn Hi Hnf. induction l as [|[k it] l IH]; intros acc Hn Hi Hacc Hnf; cbn [sd_set_all].
  { exfalso. apply Hnf. intros k it []. }
  assert (Hok : sd_ok (mksd sz (mkd acc) false)).
  { apply sd_ok_mk; [assumption| |].
    - rewrite map_app in Hn. apply NoDup_app_l in Hn. exact Hn.
    - intros k' it' Hi'. split; [apply (Hi k'); apply in_or_app; auto|exact (Hacc k' it' Hi')]. }
  assert (Hk : ~ In k (map fst acc)).
  { rewrite map_app in Hn. cbn [map fst] in Hn. apply NoDup_remove_2 in Hn. intros Hk. apply Hn, in_or_app. auto. }
  destruct (sd_set_ok (mksd sz (mkd acc) false) k it Hok (Hi k it (in_elt _ _ _))) as (_ & _ & Hfail & Hset).
  assert (Hns : ~ exists old, In (k, old) (sd_list (mksd sz (mkd acc) false)) /\ is_same old it = true).
  { rewrite sd_list_mk. intros (old & Ho & _). apply Hk. apply (in_map fst) in Ho. exact Ho. }
  assert (Hdec : fits (pairs sz) (ishape it) \/ ~ fits (pairs sz) (ishape it)).
  { pose proof (set_check (mksd sz (mkd acc) false) it Hsz (proj1 (Hi k it (in_elt _ _ _)))) as [[_ Hf]|[_ Hf]]; [left|right]; exact Hf. }
  destruct Hdec as [Hf|Hf].
  - destruct (Hset Hns eq_refl Hf) as (l' & -> & _ & Hl' & _). rewrite sd_list_mk in Hl'. rewrite (Hl' Hk). cbn [bind].
    apply (IH (acc ++ [(k, it)])).
    + rewrite <- app_assoc. exact Hn.
    + rewrite <- app_assoc. exact Hi.
    + intros k' it' Hi'. apply in_app_iff in Hi' as [Hi'|[E|[]]]; [exact (Hacc k' it' Hi')|]. injection E as <- <-. exact Hf.
    + intros Hc. apply Hnf. intros k' it' [E|Hi']; [injection E as <- <-; exact Hf|exact (Hc k' it' Hi')].
  - rewrite (Hfail Hns eq_refl Hf). reflexivity.
Qed.

Lemma fits_same_shape p p' q : (forall k n, In (k, n) p <-> In (k, n) p') -> fits p q -> fits p' q.
Proof.
  intros He. assert (Hk : forall e, In e (keys p) <-> In e (keys p')).
  { intros e. rewrite !In_keys. split; intros [n Hn]; exists n; apply He; exact Hn. }
  intros [Hf|(e & n & Hi & Ho & Hc)].
  - left. intros k n Hi. apply He, Hf, Hi.
  - right. exists e, n. split; [exact Hi|]. split; [intros k m Hm Hne; apply He, Ho; assumption|].
    rewrite <- He, <- Hk. exact Hc.
Qed.
Lemma var_same_shape nan st a b : var_same nan st a b -> ishape a = ishape b.
Proof. intros [[_ (_ & E & _)]|(_ & _ & E & _)]; exact E. Qed.

Lemma mismatch_dec st a b : dict_comparable a -> dict_comparable b -> mismatch st a b \/ ~ mismatch st a b.
Proof.
  intros Ha (_ & _ & Hcb). unfold mismatch. revert Hcb. generalize (sd_list b).
  induction l as [|[k x] l IH]; intros Hc; [right; intros (k & i & j & _ & [] & _)|].
  destruct IH as [(k' & i & j & Hi & Hj & Hr)|Hn]; [intros k' j Hj; apply (Hc k'); right; exact Hj| |].
  - left. exists k', i, j. split; [exact Hi|]. split; [right; exact Hj|exact Hr].
  - assert (Hx : comparable x) by (apply (Hc k); left; reflexivity).
    assert (Hh : (exists i, In (k, i) (sd_list a) /\ i_aligned i = true /\ i_aligned x = true /\ ~ var_same true st i x) \/
                 ~ (exists i, In (k, i) (sd_list a) /\ i_aligned i = true /\ i_aligned x = true /\ ~ var_same true st i x)).
    { destruct (lookup a k Ha) as [[_ Hno]|(va & _ & _ & Hva & Cva & Hu)].
      - right. intros (i & Hi & _). exact (Hno i Hi).
      - destruct (i_aligned va) eqn:Eva; [|right; intros (i & Hi & Ai & _); rewrite (Hu i Hi) in Ai; congruence].
        destruct (i_aligned x) eqn:Ex; [|right; intros (i & Hi & _ & Ai & _); discriminate].
        destruct (var_same_dec st true va x Cva Hx) as [Hs|Hs]; [|left; eauto].
        right. intros (i & Hi & _ & _ & Hns). rewrite (Hu i Hi) in Hns. contradiction. }
    destruct Hh as [(i & Hi & Hr)|Hh].
    + left. exists k, i, x. split; [exact Hi|]. split; [left; reflexivity|exact Hr].
    + right. intros (k' & i & j & Hi & [E|Hj] & Hr); [injection E as <- <-; apply Hh; eauto|apply Hn; eauto 8].
Qed.

Lemma binary_meta_ok st a b : da_ok a -> da_ok b -> da_comparable a -> da_comparable b ->
  (acceptable st a b -> exists dims c t, binary_meta st a b = Ok (dims, c, t) /\ sd_ok c /\ sd_ok t /\
     sd_sizes c = dims /\ sd_sizes t = dims /\ merged a b (pairs dims) /\
     (forall k it, In (k, it) (sd_list c) <-> united st (sd_list (da_coords a)) (sd_list (da_coords b)) k it) /\
     (forall k it, In (k, it) (sd_list t) <-> common st (sd_list (da_attrs a)) (sd_list (da_attrs b)) k it)) /\
  (~ acceptable st a b -> binary_meta st a b = Throw CoordMismatchError \/ binary_meta st a b = Throw DimensionError).
Proof.
  intros (Va & _ & _ & _ & Oa & _ & Ta) (Vb & _ & _ & _ & Ob & _ & Tb) (Da & Ca & _ & Aa) (Db & Cb & _ & Ab). unfold binary_meta.
  destruct (union_ok st _ _ Ca Cb) as [U1 U2]. destruct (intersection_ok st _ _ Aa Ab) as (lt & Et & Nt & Ht).
  destruct (mismatch_dec st _ _ Ca Cb) as [Hm|Hm].
  { rewrite (U1 Hm). split; [intros [Hn _]; contradiction|]. intros _. left. reflexivity. }
  destruct (U2 Hm) as (lc & -> & Nc & Hc). cbn [bind]. rewrite Et. cbn [bind].
  assert (Wa : wf (i_dims (da_data a))) by apply Va. assert (Wb : wf (i_dims (da_data b))) by apply Vb.
  destruct (conflict_dec _ _ Wa Wb) as [Hcf|Hcf].
  { rewrite (merge_conflict _ _ Wa Wb Hcf). cbn [bind]. split; [intros (_ & Hn & _); contradiction|]. intros _. right. reflexivity. }
  destruct (merge_ok _ _ Wa Wb Hcf) as (m & -> & Wm & Hh & _). cbn [bind].
  assert (Hmm : merged a b (pairs m)) by exact Hh.
  assert (Hacc : acceptable st a b <-> (forall k it, In (k, it) lc -> fits (pairs m) (ishape it)) /\ (forall k it, In (k, it) lt -> fits (pairs m) (ishape it))).
  { unfold acceptable. split.
    - intros (_ & _ & Hf). split; intros k it Hi; apply (Hf _ k it Hmm); [left; apply Hc; exact Hi|right; apply Ht; exact Hi].
    - intros [Hf1 Hf2]. split; [exact Hm|]. split; [exact Hcf|]. intros p k it Hp Hu.
      apply (fits_same_shape (pairs m)); [intros k' n'; rewrite (Hp k' n'); apply Hmm|].
      destruct Hu as [Hu|Hu]; [apply (Hf1 k), Hc, Hu|apply (Hf2 k), Ht, Hu]. }
  assert (Ic : forall k it, In (k, it) lc -> item_ok it).
  { intros k it Hi. apply Hc in Hi as [[Hi _]|[[Hi _]|[Hi _]]]; [apply Oa in Hi|apply Ob in Hi|apply Ob in Hi]; apply Hi. }
  assert (It : forall k it, In (k, it) lt -> item_ok it).
  { intros k it Hi. apply Ht in Hi as [Hi _]. apply Ta in Hi. apply Hi. }
  assert (Hdec : forall l : list (Z * item), (forall k it, In (k, it) l -> item_ok it) ->
            (forall k it, In (k, it) l -> fits (pairs m) (ishape it)) \/ ~ (forall k it, In (k, it) l -> fits (pairs m) (ishape it))).
  { induction l as [|[k it] l IH]; intros Hi; [left; intros k it []|].
    destruct IH as [IH|IH]; [intros k' it' Hi'; apply (Hi k'); right; exact Hi'| |].
    - pose proof (set_check (mksd m mempty false) it Wm (proj1 (Hi k it (or_introl eq_refl)))) as [[_ Hf]|[_ Hf]].
      + left. intros k' it' [E|Hi']; [injection E as <- <-; exact Hf|exact (IH k' it' Hi')].
      + right. intros Hall. apply Hf. apply (Hall k). left. reflexivity.
    - right. intros Hall. apply IH. intros k' it' Hi'. apply (Hall k'). right. exact Hi'. }
  destruct (Hdec lc Ic) as [Hfc|Hfc].
  - rewrite sd_make_ok; [|assumption|assumption|intros k it Hi; split; [exact (Ic k it Hi)|exact (Hfc k it Hi)]]. cbn [bind].
    destruct (Hdec lt It) as [Hft|Hft].
    + rewrite sd_make_ok; [|assumption|assumption|intros k it Hi; split; [exact (It k it Hi)|exact (Hft k it Hi)]]. cbn [bind].
      split; [|intros Hn; exfalso; apply Hn, Hacc; auto]. intros _. eexists _, _, _. split; [reflexivity|].
      split; [apply sd_ok_mk; [assumption|assumption|intros k it Hi; split; [exact (Ic k it Hi)|exact (Hfc k it Hi)]]|].
      split; [apply sd_ok_mk; [assumption|assumption|intros k it Hi; split; [exact (It k it Hi)|exact (Hft k it Hi)]]|].
      split; [reflexivity|]. split; [reflexivity|]. split; [exact Hmm|].
      rewrite !sd_list_mk. split; [exact Hc|exact Ht].
    + rewrite sd_make_fails by assumption. cbn [bind]. split; [|right; reflexivity]. intros Ha. exfalso. apply Hacc in Ha. tauto.
  - rewrite sd_make_fails by assumption. cbn [bind]. split; [|right; reflexivity]. intros Ha. exfalso. apply Hacc in Ha. tauto.
Qed.

Lemma acceptable_sym st a b : da_comparable a -> da_comparable b -> acceptable st a b -> acceptable st b a.
Proof.
  intros (_ & Ca & _) (_ & Cb & _) (Hm & Hc & Hf). split; [intros Hm'; apply Hm, mismatch_sym, Hm'|].
  split; [intros Hc'; apply Hc, conflict_sym, Hc'|]. intros p k it Hp Hu.
  assert (Hp' : merged a b p) by (intros k' n; rewrite (Hp k' n); tauto).
  destruct Hu as [Hu|Hu].
  - destruct (united_swap st _ _ k it Cb Ca) as (it' & Hu' & Hs & _); [intros Hm'; apply Hm, mismatch_sym, Hm'|exact Hu|].
    rewrite (var_same_shape _ _ _ _ Hs). apply (Hf p k it' Hp'). left. exact Hu'.
  - apply common_swap in Hu as (it' & Hu' & Hs). rewrite (var_same_shape _ _ _ _ Hs). apply (Hf p k it' Hp'). right. exact Hu'.
Qed.
