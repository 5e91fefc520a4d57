(** C35: sorting. *)
From Coq Require Import Sorting.Permutation.
From Coq Require Import Reals Lra.
From Flocq Require Import Core IEEE754.BinarySingleNaN.
From Verif Require Import Float Lookup_Proofs NanReduce_Proofs.
From Verif Require Import Base Arr Map_Model Dims_Model Dims_Spec Dims_Proofs View_Model View_Spec View_Proofs SizedDict_Proofs Mapper_Model Mapper_Proofs TargetBins_Model Bins_Model Bins_Props BinConcat_Props Extract_Model Extract_Spec Extract_Proofs.
From Verif Require Import Reshape_Props.

(** The positions [ps] list every row once. *)
Definition each_once (n : Z) (ps : list Z) : Prop := NoDup ps /\ forall i, In i ps <-> 0 <= i < n.
(** No element of [l] comes before a smaller (for descending order: greater) one. *)
Definition ordered {K} (less : K -> K -> bool) (ascending : bool) (l : list K) : Prop :=
  forall i j a b, (i < j)%nat -> nth_error l i = Some a -> nth_error l j = Some b -> less (if ascending then b else a) (if ascending then a else b) = false.

Lemma zseq_In n a i : In i (zseq a n) <-> a <= i < a + Z.of_nat n.
Proof. apply In_zseq. Qed.
Lemma zseq_NoDup n : forall a, NoDup (zseq a n).
Proof. induction n as [|n IH]; intros a; [constructor|]. rewrite zseq_S. constructor; [rewrite zseq_In; lia|apply IH]. Qed.
Lemma zseq_len n a : length (zseq a n) = n.
Proof. unfold zseq. rewrite map_length. apply seq_length. Qed.
Lemma combine_snd {K} (l : list K) : forall m : list Z, length l = length m -> map snd (combine l m) = m.
Proof. induction l as [|x l IH]; intros [|y m] E; try discriminate; [reflexivity|]. cbn. rewrite IH by (injection E; auto). reflexivity. Qed.
Lemma combine_In {K} (l : list K) : forall a k i, In (k, i) (combine l (zseq a (length l))) -> a <= i /\ nth_error l (Z.to_nat (i - a)) = Some k.
Proof.
  induction l as [|x l IH]; intros a k i; [intros []|]. cbn [length]. rewrite zseq_S. cbn [combine]. intros [E|Hi].
  - injection E as -> ->. split; [lia|]. rewrite Z.sub_diag. reflexivity.
  - destruct (IH _ _ _ Hi) as [Ha Hn]. split; [lia|]. replace (Z.to_nat (i - a)) with (S (Z.to_nat (i - (a + 1)))) by lia. exact Hn.
Qed.
Lemma may_sort_ok {K} (less : K -> K -> bool) asc key out : may_sort less asc key out ->
  each_once (zlen key) (map snd out) /\ picks key (map snd out) (map fst out) /\ ordered less asc (map fst out).
Proof.
  intros [Hp Hs]. split; [|split].
  - pose proof (Permutation_map snd Hp) as Hq. rewrite combine_snd in Hq by (rewrite zseq_len; reflexivity). split.
    + apply (Permutation_NoDup (Permutation_sym Hq)). apply zseq_NoDup.
    + intros i. split; intros Hi.
      * apply (Permutation_in _ Hq) in Hi. apply (proj1 (zseq_In _ _ _)) in Hi. unfold zlen. lia.
      * apply (Permutation_in _ (Permutation_sym Hq)). apply zseq_In. unfold zlen in Hi. lia.
  - assert (Hin : forall k i, In (k, i) out -> 0 <= i /\ nth_error key (Z.to_nat i) = Some k) by (intros k i Hi; apply (Permutation_in _ Hp) in Hi; apply combine_In in Hi; rewrite Z.sub_0_r in Hi; exact Hi).
    clear Hp Hs. induction out as [|[k i] out IH]; [constructor|]. constructor; [apply (Hin k i); left; reflexivity|]. apply IH. intros k' i' Hi. apply Hin. right. exact Hi.
  - intros i j a b Hij Ha Hb. rewrite nth_error_map in Ha, Hb. destruct (nth_error out i) as [a'|] eqn:Ea; [|discriminate]. destruct (nth_error out j) as [b'|] eqn:Eb; [|discriminate]. injection Ha as <-. injection Hb as <-. specialize (Hs i j a' b' Hij Ea Eb). destruct asc; exact Hs.
Qed.
Lemma sort_ranges_singles {K} (out : list (K * Z)) : sort_ranges out = map (fun p => (p, p + 1)) (map snd out).
Proof. unfold sort_ranges. rewrite map_map. reflexivity. Qed.
Lemma each_once_Forall n ps : each_once n ps -> Forall (fun p => 0 <= p < n) ps.
Proof. intros [_ He]. apply Forall_forall. intros p Hp. apply He. exact Hp. Qed.

(** Data arrays and variables: whatever the sorting algorithm does with equal keys, data, coords and masks are rearranged by
    one permutation of the rows, which puts the key in order. *)
Theorem C35_sort A K (eqb : A -> A -> bool) junk (less : K -> K -> bool) asc p along d n key out :
  lwf p -> In (d, n) p -> zlen key = n -> zlen (b_data (along d)) = n -> object_ok eqb (along d) -> may_sort less asc key out ->
  exists r ps key', sort_array eqb junk (mk p) along (mk [(d, n)]) out = Ok r /\ each_once n ps /\
    selected_object (fun rows rows' => picks rows ps rows') (along d) r /\ picks key ps key' /\ ordered less asc key'.
Proof.
  intros Hp Hd Hk Hn Ho Hm. destruct (may_sort_ok less asc key out Hm) as (He & Hpk & Hor). rewrite Hk in He.
  assert (Edat : dat (mk p) d = Ok n).
  { apply in_split in Hd as (p1 & p2 & ->). apply dat_sp. destruct (lwf_app _ _ _ _ Hp) as (_ & _ & Hk1 & _). exact Hk1. }
  assert (Eo : exists r, sort_array eqb junk (mk p) along (mk [(d, n)]) out = Ok r /\ selected_object (fun rows rows' => picks rows (map snd out) rows') (along d) r).
  { unfold sort_array. change (ndim (mk [(d, n)]) =? 1) with true. cbn [negb]. change (dims_inner (mk [(d, n)])) with d. rewrite Edat. cbn [bind]. change (mk [(d, n)]) with (mk ([] ++ (d, n) :: [])). rewrite dat_sp by intros []. cbn [bind]. rewrite Z.eqb_refl. cbn [negb]. rewrite sort_ranges_singles.
    pose proof (each_once_Forall _ _ He) as Hf. destruct (extract_ranges_ok eqb junk (along d) (map (fun p => (p, p + 1)) (map snd out)) Ho) as (r & Er & Hs); [apply singles_inside; rewrite Hn; exact Hf|]. exists r. split; [exact Er|].
    revert Hs. apply selected_object_impl. intros l l' Hl ->. apply rows_of_picks. rewrite Hl, Hn. exact Hf. }
  destruct Eo as (r & Er & Hs). exists r, (map snd out), (map fst out). auto.
Qed.
Print Assumptions C35_sort.
(** Datasets, for a key with the length of the dataset. *)
Theorem C35_dataset A K (eqb : A -> A -> bool) junk (less : K -> K -> bool) asc n items key out :
  zlen key = n -> NoDup (map fst items) -> (forall k c, In (k, c) items -> column_ok eqb n c) -> may_sort less asc key out ->
  exists r ps key', sort_ds eqb junk n items out = Ok r /\ each_once n ps /\
    (forall k, In k (map fst r) -> In k (map fst items)) /\ (forall k c, In (k, c) items -> selected_item (fun rows rows' => picks rows ps rows') n c (item k r)) /\
    picks key ps key' /\ ordered less asc key'.
Proof.
  intros Hk Hn Ho Hm. destruct (may_sort_ok less asc key out Hm) as (He & Hpk & Hor). rewrite Hk in He. pose proof (each_once_Forall _ _ He) as Hf.
  unfold sort_ds. rewrite sort_ranges_singles. destruct (extract_ranges_ds_ok eqb junk n items (map (fun p => (p, p + 1)) (map snd out)) Hn Ho) as (r & Er & Kr & Hs); [apply singles_inside; exact Hf|].
  exists r, (map snd out), (map fst out). split; [exact Er|]. split; [exact He|]. split; [exact Kr|]. split; [|auto]. intros k c Hc. specialize (Hs k c Hc). destruct c as [l|v]; cbn [selected_item] in *; [|exact Hs]. destruct (Z.eqb_spec (zlen l) n) as [El|_]; [|exact Hs]. destruct Hs as (l' & E & ->). exists (rows_of l (map (fun p => (p, p + 1)) (map snd out))). split; [exact E|]. apply rows_of_picks. rewrite El. exact Hf.
Qed.
Print Assumptions C35_dataset.

(** Keys of another length, with several or without dimensions, are refused. *)
Theorem C35_length A K (eqb : A -> A -> bool) junk p along d n m (out : list (K * Z)) kd :
  lwf p -> In (d, n) p -> (ndim kd <> 1 -> sort_array eqb junk (mk p) along kd out = Throw DimensionError) /\ (n <> m -> sort_array eqb junk (mk p) along (mk [(d, m)]) out = Throw DimensionError).
Proof.
  intros Hp Hd. unfold sort_array. split; intros Hx; [replace (ndim kd =? 1) with false by lia; reflexivity|].
  change (ndim (mk [(d, m)]) =? 1) with true. cbn [negb]. change (dims_inner (mk [(d, m)])) with d. apply in_split in Hd as (p1 & p2 & ->). destruct (lwf_app _ _ _ _ Hp) as (_ & _ & Hk1 & _). rewrite dat_sp by exact Hk1. cbn [bind].
  change (mk [(d, m)]) with (mk ([] ++ (d, m) :: [])). rewrite dat_sp by intros []. cbn [bind]. replace (n =? m) with false by lia. reflexivity.
Qed.
Print Assumptions C35_length.

(** ** The order *)
(** What the sorting algorithms of the standard library and of TBB need of the comparison. *)
Record strict_weak {K} (less : K -> K -> bool) : Prop := {
  sw_irr : forall a, less a a = false;
  sw_trans : forall a b c, less a b = true -> less b c = true -> less a c = true;
  sw_incomparable : forall a b c, less a b = false -> less b a = false -> less b c = false -> less c b = false -> less a c = false /\ less c a = false }.
Lemma fltb_nan (a b : f64) : is_nan a = true -> fltb a b = false.
Proof. destruct a; try discriminate. intros _. destruct b; reflexivity. Qed.
Lemma fleb_nan (a b : f64) : is_nan a = true -> fleb a b = false.
Proof. destruct a; try discriminate. intros _. destruct b; reflexivity. Qed.
(** The comparison of doubles that puts NaN last is one. *)
Theorem C35_order_float : strict_weak (nan_sensitive_less fltb (@is_nan 53 1024)).
Proof.
  split; unfold nan_sensitive_less.
  - intros a. destruct (is_nan a) eqn:Ea; [reflexivity|]. rewrite fltb_key by assumption. destruct (Rlt_bool_spec (key a) (key a)); [exfalso; lra|reflexivity].
  - intros a b c. destruct (is_nan a) eqn:Ea, (is_nan b) eqn:Eb, (is_nan c) eqn:Ec; cbn [negb]; try discriminate; try reflexivity; try (intros E _; rewrite (fltb_nan a b Ea) in E; discriminate E); try (intros _ E; rewrite (fltb_nan b c Eb) in E; discriminate E).
    rewrite !fltb_key by assumption. intros E1 E2. destruct (Rlt_bool_spec (key a) (key b)), (Rlt_bool_spec (key b) (key c)), (Rlt_bool_spec (key a) (key c)); try discriminate; try reflexivity. lra.
  - intros a b c. destruct (is_nan a) eqn:Ea, (is_nan b) eqn:Eb, (is_nan c) eqn:Ec; cbn [negb]; try discriminate; try (intros; split; reflexivity).
    rewrite !fltb_key by assumption. destruct (Rlt_bool_spec (key a) (key b)), (Rlt_bool_spec (key b) (key a)), (Rlt_bool_spec (key b) (key c)), (Rlt_bool_spec (key c) (key b)), (Rlt_bool_spec (key a) (key c)), (Rlt_bool_spec (key c) (key a)); intros; try discriminate; try (split; reflexivity); lra.
Qed.
Print Assumptions C35_order_float.
Theorem C35_order_integer : strict_weak Z.ltb.
Proof. split; intros; lia. Qed.
Print Assumptions C35_order_integer.

(** What the order means for doubles: ascending numbers, then NaN; NaN, then descending numbers. *)
Theorem C35_nan (l : list f64) asc : ordered (nan_sensitive_less fltb (@is_nan 53 1024)) asc l <->
  forall i j a b, (i < j)%nat -> nth_error l i = Some a -> nth_error l j = Some b ->
    if asc then is_nan b = true \/ fleb a b = true else is_nan a = true \/ fleb b a = true.
Proof.
  assert (Hc : forall a b : f64, nan_sensitive_less fltb (@is_nan 53 1024) b a = false <-> is_nan b = true \/ fleb a b = true).
  { intros a b. unfold nan_sensitive_less. destruct (is_nan a) eqn:Ea, (is_nan b) eqn:Eb; cbn [negb].
    - intuition.
    - split; [discriminate|]. rewrite (fleb_nan a b Ea). intros [E|E]; discriminate.
    - split; [auto|]. intros _. apply fltb_nan. exact Eb.
    - split; [intros E; right; apply (nlt_le b a); assumption|]. intros [E|E]; [discriminate|]. rewrite fltb_key by assumption. rewrite fleb_key in E by assumption. destruct (Rle_bool_spec (key a) (key b)), (Rlt_bool_spec (key b) (key a)); try discriminate; try reflexivity. exfalso. lra. }
  unfold ordered. split; intros Hx i j a b Hij Ha Hb; specialize (Hx i j a b Hij Ha Hb); destruct asc; try (apply Hc; exact Hx).
Qed.
Print Assumptions C35_nan.

(** ** Existence and uniqueness *)
Section Exists.
Context {K : Type} (less : K -> K -> bool) (Hsw : strict_weak less).
Fixpoint insert (x : K * Z) (l : list (K * Z)) : list (K * Z) :=
  match l with [] => [x] | y :: l' => if less (fst y) (fst x) then y :: insert x l' else x :: l end.
Lemma insert_perm x l : Permutation (insert x l) (x :: l).
Proof. induction l as [|y l IH]; [reflexivity|]. cbn [insert]. destruct (less _ _); [|reflexivity]. rewrite IH. apply perm_swap. Qed.
(** [le]: not greater *)
Lemma le_trans a b c : less b a = false -> less c b = false -> less c a = false.
Proof.
  intros E1 E2. destruct (less c a) eqn:E3; [|reflexivity]. destruct (less a b) eqn:E4; [rewrite (sw_trans _ Hsw c a b E3 E4) in E2; discriminate|]. destruct (less b c) eqn:E5; [rewrite (sw_trans _ Hsw b c a E5 E3) in E1; discriminate|].
  destruct (sw_incomparable _ Hsw a b c E4 E1 E5 E2) as [_ E6]. congruence.
Qed.
Definition sorted (l : list (K * Z)) : Prop := ForallOrdPairs (fun a b => less (fst b) (fst a) = false) l.
Lemma insert_sorted x l : sorted l -> sorted (insert x l).
Proof.
  induction 1 as [|y l Hy Hl IH]; cbn [insert]; [repeat constructor|]. destruct (less (fst y) (fst x)) eqn:E.
  - constructor; [|exact IH]. apply Forall_forall. intros z Hz. apply (Permutation_in _ (insert_perm x l)) in Hz as [<-|Hz]; [|rewrite Forall_forall in Hy; apply Hy; exact Hz].
    destruct (less (fst x) (fst y)) eqn:E'; [|reflexivity]. pose proof (sw_trans _ Hsw _ _ _ E E') as E''. rewrite (sw_irr _ Hsw) in E''. discriminate.
  - constructor; [|constructor; assumption]. constructor; [exact E|]. revert Hy. apply Forall_impl. intros z Hz. apply (le_trans _ _ _ E Hz).
Qed.
Lemma sorted_sorted_by l : sorted l -> sorted_by less true l.
Proof.
  induction 1 as [|y l Hy Hl IH]; intros i j a b Hij Ha Hb; [destruct i; discriminate|]. destruct j as [|j]; [lia|]. cbn [nth_error] in Hb. destruct i as [|i]; [|apply (IH i j a b); [lia|exact Ha|exact Hb]]. injection Ha as <-. rewrite Forall_forall in Hy. apply Hy. apply (nth_error_In _ _ Hb).
Qed.
Lemma exists_sorted l : exists out, Permutation out l /\ sorted out.
Proof.
  induction l as [|x l (out & Hp & Hs)]; [exists []; split; constructor|]. exists (insert x out). split; [rewrite insert_perm; rewrite Hp; reflexivity|apply insert_sorted; exact Hs].
Qed.
End Exists.
(** The results considered by the theorems above are never empty: some arrangement is in order. *)
Theorem C35_exists K (less : K -> K -> bool) asc key : strict_weak less -> exists out, may_sort less asc key out.
Proof.
  intros Hsw. destruct (exists_sorted less Hsw (combine key (zseq 0 (length key)))) as (out & Hp & Hs). apply sorted_sorted_by in Hs. destruct asc; [exists out; split; assumption|].
  exists (rev out). split; [rewrite <- Permutation_rev; exact Hp|]. intros i j a b Hij Ha Hb.
  assert (Li : (j < length out)%nat) by (rewrite <- rev_length; apply nth_error_Some; congruence).
  assert (Hr : forall k x, (k < length out)%nat -> nth_error (rev out) k = Some x -> nth_error out (length out - S k) = Some x).
  { intros k x Hk E. rewrite (nth_error_nth' out x) by lia. rewrite <- rev_nth by exact Hk. rewrite (nth_error_nth _ _ x E). reflexivity. }
  apply (Hs (length out - S j)%nat (length out - S i)%nat b a); [lia|apply Hr; [lia|exact Hb]|apply Hr; [lia|exact Ha]].
Qed.
Print Assumptions C35_exists.

(** If no two keys are equivalent there is only one possible result. *)
Lemma sorted_unique {K} (less : K -> K -> bool) asc : strict_weak less -> forall l l' : list (K * Z), NoDup l ->
  (forall x y, In x l -> In y l -> x <> y -> less (fst x) (fst y) = true \/ less (fst y) (fst x) = true) -> Permutation l l' -> sorted_by less asc l -> sorted_by less asc l' -> l = l'.
Proof.
  intros Hsw. induction l as [|x l IH]; intros l' Hn Hd Hp Hs Hs'; [symmetry; apply Permutation_nil; exact Hp|].
  destruct l' as [|y l']; [apply Permutation_sym in Hp; apply Permutation_nil in Hp; discriminate|].
  assert (Exy : x = y).
  { destruct (Permutation_in x Hp (or_introl eq_refl)) as [E|Hx]; [auto|]. destruct (Permutation_in y (Permutation_sym Hp) (or_introl eq_refl)) as [E|Hy]; [auto|].
    apply In_nth_error in Hx as [i Ei]. apply In_nth_error in Hy as [j Ej].
    pose proof (Hs 0%nat (S j) x y ltac:(lia) eq_refl Ej) as B1. pose proof (Hs' 0%nat (S i) y x ltac:(lia) eq_refl Ei) as B2.
    assert (Hne : ~ x <> y). { intros Hne. destruct (Hd x y (or_introl eq_refl) (or_intror (nth_error_In _ _ Ej)) Hne) as [E|E]; destruct asc; congruence. }
    inversion Hn as [|? ? Hnx _ E1]. exfalso. apply Hne. intros ->. apply Hnx. apply (nth_error_In _ _ Ej). }
  subst y. f_equal. inversion Hn as [|? ? _ Hn' E1]. apply IH; auto.
  - intros a b Ha Hb. apply Hd; right; assumption.
  - apply (Permutation_cons_inv Hp).
  - intros i j a b Hij Ha Hb. apply (Hs (S i) (S j) a b); [lia|exact Ha|exact Hb].
  - intros i j a b Hij Ha Hb. apply (Hs' (S i) (S j) a b); [lia|exact Ha|exact Hb].
Qed.
Theorem C35_unique K (less : K -> K -> bool) asc key out out' : strict_weak less ->
  (forall i j a b, i <> j -> nth_error key i = Some a -> nth_error key j = Some b -> less a b = true \/ less b a = true) ->
  may_sort less asc key out -> may_sort less asc key out' -> out = out'.
Proof.
  intros Hsw Hd [Hp Hs] [Hp' Hs']. apply (sorted_unique less asc Hsw); auto.
  - apply (Permutation_NoDup (Permutation_sym Hp)). apply (NoDup_map_inv snd). rewrite combine_snd by (rewrite zseq_len; reflexivity). apply zseq_NoDup.
  - intros [a i] [b j] Ha Hb Hne. apply (Permutation_in _ Hp) in Ha. apply (Permutation_in _ Hp) in Hb. apply combine_In in Ha as [Hi Ha]. apply combine_In in Hb as [Hj Hb]. rewrite Z.sub_0_r in Ha, Hb. cbn [fst].
    apply (Hd (Z.to_nat i) (Z.to_nat j)); auto. intros E. apply Hne. rewrite E in Ha. assert (i = j) by lia. congruence.
  - rewrite Hp, Hp'. reflexivity.
Qed.
Print Assumptions C35_unique.

(** ** Concrete cases *)
Definition sobj : buffer Z := mkbuf [10; 11; 12; 13] [(1, Events [3; 1; 3; 2]); (2, Events [0; 10; 20; 30; 40]); (3, Fixed 7)].
Lemma sobj_ok : object_ok Z.eqb sobj.
Proof. split; [repeat (constructor; [cbn; intuition lia|]); constructor|]. intros k c [E|[E|[E|[]]]]; injection E as <- <-; cbn; auto. Qed.
(** Two admissible results for the two equal keys. *)
Definition res1 : list (Z * Z) := [(1, 1); (2, 3); (3, 0); (3, 2)].
Definition res2 : list (Z * Z) := [(1, 1); (2, 3); (3, 2); (3, 0)].
Ltac sorted_tac := let i := fresh in let j := fresh in intros i j a b Hij Ha Hb; do 6 (destruct i as [|i]; [do 6 (destruct j as [|j]; [try lia; try discriminate Ha; try discriminate Hb; try (injection Ha as <-; injection Hb as <-; reflexivity)|]); discriminate Hb|]); discriminate Ha.
Lemma res1_ok : may_sort Z.ltb true [3; 1; 3; 2] res1.
Proof.
  split; [|sorted_tac]. cbn. unfold res1. apply Permutation_sym. etransitivity; [apply perm_swap|]. apply perm_skip. etransitivity; [apply perm_skip; apply perm_swap|]. apply perm_swap.
Qed.
Lemma res2_ok : may_sort Z.ltb true [3; 1; 3; 2] res2.
Proof.
  split; [|sorted_tac]. cbn. unfold res2. apply Permutation_sym. etransitivity; [apply perm_swap|]. apply perm_skip. etransitivity; [apply perm_skip; apply perm_swap|]. etransitivity; [apply perm_swap|]. apply perm_skip. apply perm_swap.
Qed.
Example C35_sort_case : sort_array Z.eqb 0 (mk [(5, 4)]) (fun _ => sobj) (mk [(5, 4)]) res1 = Ok (mkbuf [11; 13; 10; 12] [(1, Events [1; 2; 3; 3]); (3, Fixed 7)]) /\
  sort_array Z.eqb 0 (mk [(5, 4)]) (fun _ => sobj) (mk [(5, 4)]) res2 = Ok (mkbuf [11; 13; 12; 10] [(1, Events [1; 2; 3; 3]); (3, Fixed 7)]).
Proof. split; reflexivity. Qed.
Example C35_sort_hyp_case : exists r ps key', sort_array Z.eqb 0 (mk [(4, 2); (5, 4)]) (fun _ => sobj) (mk [(5, 4)]) res2 = Ok r /\ each_once 4 ps /\ picks (b_data sobj) ps (b_data r) /\ ordered Z.ltb true key'.
Proof.
  destruct (C35_sort Z Z Z.eqb 0 Z.ltb true [(4, 2); (5, 4)] (fun _ => sobj) 5 4 [3; 1; 3; 2] res2) as (r & ps & key' & Er & He & [Hs _] & _ & Ho).
  - lwf_tac.
  - right. left. reflexivity.
  - reflexivity.
  - reflexivity.
  - exact sobj_ok.
  - exact res2_ok.
  - exists r, ps, key'. auto.
Qed.
Example C35_dataset_case : sort_ds Z.eqb 0 4 (b_items sobj) res1 = Ok [(1, Events [1; 2; 3; 3]); (3, Fixed 7)].
Proof. reflexivity. Qed.
Example C35_dataset_hyp_case : exists r ps key', sort_ds Z.eqb 0 4 (b_items sobj) res1 = Ok r /\ each_once 4 ps /\ ordered Z.ltb true key'.
Proof.
  destruct sobj_ok as [Hn Ho]. destruct (C35_dataset Z Z Z.eqb 0 Z.ltb true 4 (b_items sobj) [3; 1; 3; 2] res1 eq_refl Hn Ho res1_ok) as (r & ps & key' & Er & He & _ & _ & _ & Hk). exists r, ps, key'. auto.
Qed.
Example C35_length_case : sort_array Z.eqb 0 (mk [(5, 4)]) (fun _ => sobj) (mk [(5, 5)]) res1 = Throw DimensionError.
Proof. reflexivity. Qed.
Example C35_exists_case : exists out, may_sort (nan_sensitive_less fltb (@is_nan 53 1024)) false [f_of_Z 1; B754_nan; f_of_Z 3] out.
Proof. apply C35_exists. exact C35_order_float. Qed.
Example C35_nan_case : ordered (nan_sensitive_less fltb (@is_nan 53 1024)) true [f_of_Z 1; f_of_Z 3; B754_nan] /\
  ~ ordered (nan_sensitive_less fltb (@is_nan 53 1024)) true [B754_nan; f_of_Z 1].
Proof.
  split; [sorted_tac|]. intros Hx. specialize (Hx 0%nat 1%nat _ _ ltac:(lia) eq_refl eq_refl). vm_compute in Hx. discriminate.
Qed.
Example C35_unique_case : forall out, may_sort Z.ltb true [3; 1; 2] out -> out = [(1, 1); (2, 2); (3, 0)].
Proof.
  intros out Ho. apply (C35_unique Z Z.ltb true [3; 1; 2]); [exact C35_order_integer| |exact Ho|].
  - intros i j a b Hij Ha Hb. do 4 (destruct i as [|i]; [do 4 (destruct j as [|j]; [try lia; try discriminate Hb; cbn in Ha, Hb; try discriminate Ha; injection Ha as <-; injection Hb as <-; cbn; auto|]); try discriminate Hb|]); try discriminate Ha; destruct j; discriminate.
  - split; [|sorted_tac]. cbn. apply Permutation_sym. etransitivity; [apply perm_swap|]. apply perm_skip. apply perm_swap.
Qed.

(** ** Not as stated *)
(** Datasets: the length of the key is not checked. With a longer key (e.g. a coord with bin edges) rows outside of the items
    are read; with a shorter key (a bin-edge key of a dataset slice, or any variable given as key) rows are lost silently. *)
Theorem C35_dataset_refuted :
  (exists key out, zlen key = 5 /\ may_sort Z.ltb true key out /\ sort_ds Z.eqb 0 4 (b_items sobj) out = Ub) /\
  (exists key out r, zlen key = 2 /\ may_sort Z.ltb true key out /\ sort_ds Z.eqb 0 4 (b_items sobj) out = Ok r /\ item 1 r = Some (Events [1; 3])).
Proof.
  split.
  - exists [0; 10; 20; 30; 40], [(0, 0); (10, 1); (20, 2); (30, 3); (40, 4)]. split; [reflexivity|]. split; [|reflexivity]. split; [reflexivity|]. sorted_tac.
  - exists [7; 6], [(6, 1); (7, 0)]. eexists. split; [reflexivity|]. split; [|split; reflexivity]. split; [apply perm_swap|]. sorted_tac.
Qed.
Print Assumptions C35_dataset_refuted.
(** A coord without the dimension that contains NaN makes sorting fail. *)
Theorem C35_fixed_nan_refuted : ~ forall A (eqb : A -> A -> bool) junk p along d n (key : list Z) out,
  lwf p -> In (d, n) p -> zlen key = n -> zlen (b_data (along d)) = n -> NoDup (map fst (b_items (along d))) -> (forall k l, In (k, Events l) (b_items (along d)) -> zlen l = n) ->
  (forall x y, eqb x y = true -> x = y) -> may_sort Z.ltb true key out -> exists r, sort_array eqb junk (mk p) along (mk [(d, n)]) out = Ok r.
Proof.
  intros Hx. set (eqb := fun a b : option Z => match a, b with Some a, Some b => a =? b | _, _ => false end). set (o := mkbuf [Some 1; Some 2] [(1, Fixed None)] : buffer (option Z)).
  destruct (Hx (option Z) eqb None [(5, 2)] (fun _ => o) 5 2 [1; 2] [(1, 0); (2, 1)]) as [out E].
  - lwf_tac.
  - left. reflexivity.
  - reflexivity.
  - reflexivity.
  - repeat constructor. intros [].
  - intros k l [E|[]]. discriminate.
  - intros [a|] [b|]; cbn; try discriminate. intros E. apply Z.eqb_eq in E. congruence.
  - split; [reflexivity|]. sorted_tac.
  - vm_compute in E. discriminate.
Qed.
Print Assumptions C35_fixed_nan_refuted.
