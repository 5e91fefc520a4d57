(** Lemmas on selections. *)
From Coq Require Import Sorting.Permutation.
From Verif Require Import Base Arr Map_Model Dims_Model Mapper_Model Mapper_Proofs Cumsum_Model TargetBins_Model Bins_Model Bins_Props BinConcat_Props Extract_Model Extract_Spec.

Lemma vget_mid {A} (pre : list A) x rest : vget (pre ++ x :: rest) (zlen pre) = Ok x.
Proof. unfold vget, zlen. replace (Z.of_nat (length pre) <? 0) with false by lia. rewrite Nat2Z.id, nth_error_app2 by lia. rewrite Nat.sub_diag. reflexivity. Qed.
Lemma vset_mid {A} (pre : list A) y x rest : vset (pre ++ y :: rest) (zlen pre) x = Ok (pre ++ x :: rest).
Proof.
  rewrite vset_zupd by (rewrite zlen_app, zlen_cons; pose proof (zlen_nonneg pre); pose proof (zlen_nonneg rest); lia). f_equal. unfold zupd, zlen. rewrite Nat2Z.id.
  induction pre as [|p pre IH]; [reflexivity|]. cbn [app length upd]. rewrite IH. reflexivity.
Qed.
Lemma skipn_nth {A} (l : list A) n x : nth_error l n = Some x -> skipn n l = x :: skipn (S n) l.
Proof. revert l. induction n as [|n IH]; intros [|a l] E; try discriminate; [injection E as <-; reflexivity|]. cbn [skipn]. apply IH. exact E. Qed.

Lemma skipn_skipn {A} (l : list A) n m : skipn n (skipn m l) = skipn (m + n) l.
Proof. revert l. induction m as [|m IH]; intros l; [reflexivity|]. destruct l as [|a l]; [destruct n; reflexivity|]. cbn [skipn plus]. apply IH. Qed.

(** ** copying *)
Lemma copy_range_list {A} (src : list A) n : forall pre rest sb, 0 <= sb -> sb + Z.of_nat n <= zlen src -> (n <= length rest)%nat ->
  copy_range src (pre ++ rest) sb (zlen pre) n = Ok (pre ++ firstn n (skipn (Z.to_nat sb) src) ++ skipn n rest).
Proof.
  induction n as [|n IH]; intros pre rest sb Hb Hs Hr; [reflexivity|]. destruct rest as [|r rest]; [cbn in Hr; lia|]. cbn [copy_range].
  destruct (nth_error src (Z.to_nat sb)) as [x|] eqn:E; [|apply nth_error_None in E; unfold zlen in Hs; lia].
  assert (Eg : vget src sb = Ok x) by (unfold vget; replace (sb <? 0) with false by lia; rewrite E; reflexivity). rewrite Eg. cbn [bind]. rewrite vset_mid. cbn [bind].
  change (pre ++ x :: rest) with (pre ++ [x] ++ rest). rewrite app_assoc. replace (zlen pre + 1) with (zlen (pre ++ [x])) by (rewrite zlen_app; reflexivity).
  rewrite (IH (pre ++ [x]) rest (sb + 1)) by (cbn in Hr; lia). rewrite (skipn_nth _ _ _ E). cbn [firstn skipn]. replace (Z.to_nat (sb + 1)) with (S (Z.to_nat sb)) by lia. rewrite <- !app_assoc. reflexivity.
Qed.
Fixpoint consec (b : Z) (l : list (Z * Z)) : list (Z * Z) := match l with [] => [] | x :: l' => (b, b + bin_size x) :: consec (b + bin_size x) l' end.
Definition total (l : list (Z * Z)) : Z := sumZ (map bin_size l).
Definition rows_of {A} (rows : list A) (l : list (Z * Z)) : list A := concat (map (slice_range rows) l).
Lemma slice_range_length {A} (rows : list A) x : inside (zlen rows) x -> length (slice_range rows x) = Z.to_nat (bin_size x).
Proof. intros (H1 & H2 & H3). unfold slice_range, bin_size. rewrite firstn_length, skipn_length. unfold zlen in H3. lia. Qed.
Lemma total_nonneg n l : Forall (inside n) l -> 0 <= total l.
Proof. unfold total. induction 1 as [|x l (H1 & H2 & H3) _ IH]; [reflexivity|]. cbn [map]. rewrite sumZ_cons. unfold bin_size at 1. lia. Qed.
Lemma rows_of_length {A} (rows : list A) l : Forall (inside (zlen rows)) l -> zlen (rows_of rows l) = total l.
Proof.
  unfold rows_of, total. induction 1 as [|x l Hx Hl IH]; [reflexivity|]. cbn [map concat]. rewrite sumZ_cons, <- IH. unfold zlen at 1. rewrite app_length, slice_range_length by exact Hx. destruct Hx as (H1 & H2 & H3). unfold bin_size, zlen in *. lia.
Qed.
Lemma copy_slices_list {A} (src : list A) l : Forall (inside (zlen src)) l -> forall pre rest, total l <= zlen rest ->
  copy_slices src (pre ++ rest) l (consec (zlen pre) l) = Ok (pre ++ rows_of src l ++ skipn (Z.to_nat (total l)) rest).
Proof.
  induction 1 as [|[sb se] l Hx Hl IH]; intros pre rest Ht; [reflexivity|]. cbn [consec copy_slices]. unfold bin_size at 1. cbn [fst snd]. replace (se - sb =? zlen pre + (se - sb) - zlen pre) with true by lia.
  unfold total in Ht. cbn [map] in Ht. rewrite sumZ_cons in Ht. fold (total l) in Ht. pose proof (total_nonneg _ _ Hl) as Ht0. destruct Hx as (H1 & H2 & H3). unfold bin_size in Ht. cbn [fst snd] in *.
  rewrite copy_range_list; [|lia|lia|unfold zlen in Ht; lia]. cbn [bind]. rewrite app_assoc. set (pre' := pre ++ firstn (Z.to_nat (se - sb)) (skipn (Z.to_nat sb) src)).
  assert (Lp : zlen pre + bin_size (sb, se) = zlen pre').
  { unfold pre'. rewrite zlen_app. f_equal. unfold bin_size. cbn [fst snd]. unfold zlen in *. rewrite firstn_length, skipn_length. lia. }
  rewrite Lp, IH by (unfold zlen in *; rewrite skipn_length; lia). unfold pre', rows_of. cbn [map concat]. unfold slice_range at 2. cbn [fst snd]. rewrite <- !app_assoc, skipn_skipn. do 5 f_equal.
  unfold total. cbn [map]. rewrite sumZ_cons. fold (total l). unfold bin_size. cbn [fst snd]. lia.
Qed.
Lemma copy_slices_fresh {A} (junk : A) (src : list A) l : Forall (inside (zlen src)) l ->
  copy_slices src (repeat junk (Z.to_nat (total l))) l (consec 0 l) = Ok (rows_of src l).
Proof.
  intros Hl. pose proof (total_nonneg _ _ Hl). pose proof (copy_slices_list src l Hl [] (repeat junk (Z.to_nat (total l)))) as E. cbn [app] in E. change (zlen []) with 0 in E. rewrite E by (unfold zlen; rewrite repeat_length; lia). rewrite skipn_all2 by (rewrite repeat_length; lia). rewrite app_nil_r. reflexivity.
Qed.

(** ** the layout of the copy *)
Fixpoint psums (s : Z) (l : list Z) : list Z := match l with [] => [] | x :: l' => (s + x) :: psums (s + x) l' end.
Lemma scan_psums l : forall pre s, scan (scan_op Z.add Z.sub (fun x : Z => x) true) (map (fun k => (0, k)) (zseq (zlen pre) (length l))) [s] (pre ++ l) = Ok ([s + sumZ l], pre ++ psums s l).
Proof.
  induction l as [|x l IH]; intros pre s.
  - cbn. rewrite Z.add_0_r. reflexivity.
  - cbn [length]. rewrite zseq_S. cbn [map scan]. rewrite vget_mid. change (vget [s] 0) with (Ok s). cbn [bind]. cbn [scan_op inclusive_scan fst snd]. change (vset [s] 0 (s + x)) with (Ok [s + x]). cbn [bind]. rewrite vset_mid. cbn [bind].
    change (pre ++ (s + x) :: l) with (pre ++ [s + x] ++ l). rewrite app_assoc. replace (zlen pre + 1) with (zlen (pre ++ [s + x])) by (rewrite zlen_app; reflexivity). rewrite IH. cbn [psums]. rewrite sumZ_cons, <- app_assoc, Z.add_assoc. reflexivity.
Qed.
Lemma psums_consec l : forall s, combine (map (fun x : Z * Z => fst x - snd x) (combine (psums s (map bin_size l)) (map bin_size l))) (psums s (map bin_size l)) = consec s l.
Proof. induction l as [|x l IH]; intros s; [reflexivity|]. cbn [map psums combine consec fst snd]. rewrite IH. f_equal. f_equal. lia. Qed.
Lemma psums_last l : forall s, l <> [] -> last (psums s l) 0 = s + sumZ l.
Proof.
  induction l as [|x l IH]; intros s Hn; [contradiction|]. destruct l as [|y l]; [cbn; lia|]. change (psums s (x :: y :: l)) with ((s + x) :: psums (s + x) (y :: l)). change (last ((s + x) :: psums (s + x) (y :: l)) 0) with (last (psums (s + x) (y :: l)) 0). rewrite IH by discriminate. rewrite (sumZ_cons x). lia.
Qed.
Lemma new_indices_ok l : new_indices l = Ok (consec 0 l, total l).
Proof.
  unfold new_indices, cumsum. pose proof (scan_psums (map bin_size l) [] 0) as E. cbn [app] in E. change (zlen []) with 0 in E. rewrite E. cbn [bind snd]. rewrite psums_consec. f_equal. f_equal.
  destruct l as [|x l]; [reflexivity|]. cbn [map psums]. change ((0 + bin_size x) :: psums (0 + bin_size x) (map bin_size l)) with (psums 0 (map bin_size (x :: l))). rewrite psums_last by discriminate. reflexivity.
Qed.

(** ** items *)
Section Objects.
Context {A : Type} (eqb : A -> A -> bool) (junk : A).
Lemma strip_In n k c (items : list (Z * column A)) : In (k, c) (strip_edges n items) <-> In (k, c) items /\ column_is_edges n c = false.
Proof. unfold strip_edges. rewrite filter_In. cbn [snd]. rewrite negb_true_iff. reflexivity. Qed.
Lemma strip_NoDup n (items : list (Z * column A)) : NoDup (map fst items) -> NoDup (map fst (strip_edges n items)).
Proof.
  induction items as [|[k c] items IH]; intros Hn; [constructor|]. cbn [map fst] in Hn. apply NoDup_cons_iff in Hn as [H1 H2]. cbn [strip_edges filter snd]. destruct (negb (column_is_edges n c)); [|apply IH; exact H2]. cbn [map fst]. constructor; [|apply IH; exact H2].
  intros Hx. apply H1. apply in_map_iff in Hx as ([k' c'] & E & Hx). cbn [fst] in E. subst k'. apply strip_In in Hx as [Hx _]. apply (in_map fst) in Hx. exact Hx.
Qed.
Lemma item_unique k (c : column A) (l : list (Z * column A)) : NoDup (map fst l) -> In (k, c) l -> item k l = Some c.
Proof.
  induction l as [|[k' x] l IH]; intros Hn Hi; [destruct Hi|]. cbn [map fst] in Hn. apply NoDup_cons_iff in Hn as [H1 H2]. cbn [item]. destruct Hi as [E|Hi]; [injection E as -> ->; rewrite Z.eqb_refl; reflexivity|].
  destruct (Z.eqb_spec k' k) as [->|]; [|apply IH; assumption]. exfalso. apply H1. apply (in_map fst) in Hi. exact Hi.
Qed.
(** Every item of the copy is the selection of the item. *)
Lemma items_ok n items indices : NoDup (map fst items) -> (forall k c, In (k, c) items -> column_ok eqb n c) -> Forall (inside n) indices ->
  exists out, copy_items eqb (strip_edges n items) (map (fun x => (fst x, resize_column junk (total indices) (snd x))) (strip_edges n items)) indices (consec 0 indices) = Ok out /\
    map fst out = map fst (strip_edges n items) /\
    forall k c, In (k, c) items -> selected_item (fun l l' => l' = rows_of l indices) n c (item k out).
Proof.
  intros Hn Hok Hi. pose proof (strip_NoDup n items Hn) as Hn'. set (src := strip_edges n items) in *. set (dst := map (fun x => (fst x, resize_column junk (total indices) (snd x))) src).
  assert (Kd : map fst dst = map fst src) by (unfold dst; rewrite map_map; reflexivity).
  destruct (copy_items_ok eqb indices (consec 0 indices) (fun c _ r => r = match c with Events l => Events (rows_of l indices) | Fixed x => Fixed x end) src dst Hn') as (out & Eo & Ko & Vo & _).
  - intros k Hk. rewrite Kd. exact Hk.
  - intros k c c' E1 E2. unfold dst in E2. rewrite item_map, E1 in E2. injection E2 as <-. apply item_In in E1. apply strip_In in E1 as [E1 Hne]. specialize (Hok k c E1). destruct c as [l|x]; cbn [resize_column copy_or_match column_ok column_is_edges] in *.
    + assert (zlen l = n) as El by (destruct Hok; [assumption|lia]). rewrite copy_slices_fresh by (rewrite El; exact Hi). cbn [bind]. eexists. split; reflexivity.
    + rewrite Hok. eexists. split; reflexivity.
  - exists out. split; [exact Eo|]. split; [congruence|]. intros k c Hc. pose proof (Hok k c Hc) as Hk. destruct (column_is_edges n c) eqn:Ed.
    + assert (Hnk : ~ In k (map fst out)).
      { rewrite Ko, Kd. intros Hx. apply in_map_iff in Hx as ([k' c'] & E & Hx). cbn [fst] in E. subst k'. apply strip_In in Hx as [Hx Hd]. pose proof (item_unique k c items Hn Hc) as U1. rewrite (item_unique k c' items Hn Hx) in U1. congruence. }
      destruct c as [l|x]; cbn [column_is_edges selected_item] in *; [|discriminate]. replace (zlen l =? n) with false by lia. apply item_None. exact Hnk.
    + assert (Hs : item k src = Some c) by (apply item_unique; [exact Hn'|]; apply strip_In; auto). assert (Hd : item k dst = Some (resize_column junk (total indices) c)) by (unfold dst; rewrite item_map, Hs; reflexivity).
      destruct (Vo k c _ Hs Hd) as (r & Er & Hr). rewrite Er, Hr. destruct c as [l|x]; cbn [column_is_edges column_ok selected_item] in *; [|reflexivity]. replace (zlen l =? n) with true by lia. eexists. split; reflexivity.
Qed.
Lemma keys_sub n (items out : list (Z * column A)) : map fst out = map fst (strip_edges n items) -> forall k, In k (map fst out) -> In k (map fst items).
Proof. intros -> k Hk. apply in_map_iff in Hk as ([k' c] & E & Hk). cbn [fst] in E. subst k'. apply strip_In in Hk as [Hk _]. apply (in_map fst) in Hk. exact Hk. Qed.

Lemma extract_ranges_ok (b : buffer A) indices : object_ok eqb b -> Forall (inside (zlen (b_data b))) indices ->
  exists out, extract_ranges eqb junk indices b = Ok out /\ selected_object (fun l l' => l' = rows_of l indices) b out.
Proof.
  intros [Hn Hok] Hi. unfold extract_ranges, copy_ranges. rewrite new_indices_ok. cbn [bind fst snd]. unfold copy_buffer, resize_default_init. cbn [b_data b_items]. rewrite copy_slices_fresh by exact Hi. cbn [bind].
  rewrite matching_keys_ok by (intros k; rewrite map_map; reflexivity). destruct (items_ok (zlen (b_data b)) (b_items b) indices Hn Hok Hi) as (out & Eo & Ko & Vo). rewrite Eo. cbn [bind snd]. eexists. split; [reflexivity|].
  split; [reflexivity|]. cbn [b_items b_data]. split; [apply (keys_sub _ _ _ Ko)|exact Vo].
Qed.
Lemma extract_ranges_ds_ok n (items : list (Z * column A)) indices : NoDup (map fst items) -> (forall k c, In (k, c) items -> column_ok eqb n c) -> Forall (inside n) indices ->
  exists out, extract_ranges_ds eqb junk indices n items = Ok out /\ (forall k, In k (map fst out) -> In k (map fst items)) /\
    forall k c, In (k, c) items -> selected_item (fun l l' => l' = rows_of l indices) n c (item k out).
Proof.
  intros Hn Hok Hi. unfold extract_ranges_ds. rewrite new_indices_ok. cbn [bind fst snd]. rewrite matching_keys_ok by (intros k; rewrite map_map; reflexivity). destruct (items_ok n items indices Hn Hok Hi) as (out & Eo & Ko & Vo). exists out. split; [exact Eo|]. split; [apply (keys_sub _ _ _ Ko)|exact Vo].
Qed.
End Objects.
Lemma selected_object_impl {A} (P Q : list A -> list A -> Prop) (b out : buffer A) : (forall l l', zlen l = zlen (b_data b) -> P l l' -> Q l l') -> selected_object P b out -> selected_object Q b out.
Proof.
  intros HPQ (H1 & H2 & H3). split; [apply HPQ; [reflexivity|exact H1]|]. split; [exact H2|]. intros k c Hc. specialize (H3 k c Hc). destruct c as [l|x]; cbn [selected_item] in *; [|exact H3]. destruct (Z.eqb_spec (zlen l) (zlen (b_data b))) as [El|]; [|exact H3].
  destruct H3 as (l' & E & H3). exists l'. split; [exact E|]. apply HPQ; assumption.
Qed.

(** ** conditions *)
Lemma selected_app {A} (c1 c2 : list bool) : forall r1 r2 : list A, length c1 = length r1 -> selected (c1 ++ c2) (r1 ++ r2) = selected c1 r1 ++ selected c2 r2.
Proof. induction c1 as [|b c1 IH]; intros [|x r1] r2 E; try discriminate; [reflexivity|]. cbn [app selected]. cbn [length] in E. rewrite IH by lia. destruct b; reflexivity. Qed.
Lemma firstn_S {A} (l : list A) n x : nth_error l n = Some x -> firstn (S n) l = firstn n l ++ [x].
Proof. revert l. induction n as [|n IH]; intros [|a l] E; try discriminate; [injection E as <-; reflexivity|]. cbn [firstn app]. f_equal. apply IH. exact E. Qed.
Definition upto {A} (i : nat) (c : list bool) (r : list A) : list A := selected (firstn i c) (firstn i r).
Lemma upto_S {A} i c (r : list A) v x : nth_error c i = Some v -> nth_error r i = Some x -> upto (S i) c r = upto i c r ++ (if v then [x] else []).
Proof.
  intros E1 E2. unfold upto. rewrite (firstn_S c i v E1), (firstn_S r i x E2). rewrite selected_app; [destruct v; reflexivity|]. assert (i < length c)%nat by (apply nth_error_Some; congruence). assert (i < length r)%nat by (apply nth_error_Some; congruence). rewrite !firstn_length. lia.
Qed.
Lemma rows_of_app {A} (r : list A) l m : rows_of r (l ++ m) = rows_of r l ++ rows_of r m.
Proof. unfold rows_of. rewrite map_app, concat_app. reflexivity. Qed.
Lemma rows_of_one {A} (r : list A) x : rows_of r [x] = slice_range r x.
Proof. unfold rows_of. cbn. apply app_nil_r. Qed.
Lemma slice_range_S {A} (r : list A) b i x : 0 <= b <= i -> nth_error r (Z.to_nat i) = Some x -> slice_range r (b, i + 1) = slice_range r (b, i) ++ [x].
Proof.
  intros Hb E. unfold slice_range. cbn [fst snd]. replace (Z.to_nat (i + 1 - b)) with (S (Z.to_nat (i - b))) by lia. apply firstn_S. rewrite <- E. replace (Z.to_nat i) with (Z.to_nat b + Z.to_nat (i - b))%nat by lia.
  generalize (Z.to_nat b) (Z.to_nat (i - b)). clear. intros m k. revert r. induction m as [|m IH]; intros r; [reflexivity|]. destruct r as [|a r]; [destruct k; reflexivity|]. cbn [skipn plus nth_error]. apply IH.
Qed.
(** The rows of the ranges, if the last range is open (up to the end) it counts up to [i]. *)
Definition inv {A} (c : list bool) (r : list A) (i : Z) (ind : list (Z * Z)) : Prop :=
  exists closed, Forall (inside (zlen c)) closed /\
    if (0 <? i) && (match nth_error c (Z.to_nat (i - 1)) with Some v => v | None => false end)
    then exists b, 0 <= b < i /\ ind = closed ++ [(b, zlen c)] /\ rows_of r (closed ++ [(b, i)]) = upto (Z.to_nat i) c r
    else ind = closed /\ rows_of r closed = upto (Z.to_nat i) c r.
Lemma edge_loop_ok {A} (c : list bool) (r : list A) : length c = length r -> forall k i ind, 0 <= i -> i + Z.of_nat k = zlen c -> inv c r i ind ->
  exists out, edge_loop c k i ind = Ok out /\ inv c r (zlen c) out.
Proof.
  intros Hlen. induction k as [|k IH]; intros i ind Hi Hk Hinv.
  - exists ind. split; [reflexivity|]. replace (zlen c) with i by lia. replace i with (zlen c) in Hinv |- * by lia. exact Hinv.
  - assert (Hin : (Z.to_nat i < length c)%nat) by (unfold zlen in Hk; lia). destruct (nth_error c (Z.to_nat i)) as [v|] eqn:Ev; [|apply nth_error_None in Ev; lia]. destruct (nth_error r (Z.to_nat i)) as [x|] eqn:Ex; [|apply nth_error_None in Ex; lia].
    cbn [edge_loop]. assert (Eg : vget c i = Ok v) by (unfold vget; replace (i <? 0) with false by lia; rewrite Ev; reflexivity). rewrite Eg. cbn [bind].
    assert (Eu : upto (Z.to_nat (i + 1)) c r = upto (Z.to_nat i) c r ++ (if v then [x] else [])) by (replace (Z.to_nat (i + 1)) with (S (Z.to_nat i)) by lia; apply upto_S; assumption).
    assert (Hstep : forall ind', inv c r (i + 1) ind' -> exists out, edge_loop c k (i + 1) ind' = Ok out /\ inv c r (zlen c) out) by (intros ind' Hx; apply IH; [lia|lia|exact Hx]).
    destruct Hinv as (closed & Hc & Hinv). destruct (Z.ltb_spec 0 i) as [Hpos|Hz]; cbn [andb] in Hinv.
    + destruct (nth_error c (Z.to_nat (i - 1))) as [p|] eqn:Ep; [|apply nth_error_None in Ep; lia]. assert (Egp : vget c (i - 1) = Ok p) by (unfold vget; replace (i - 1 <? 0) with false by lia; rewrite Ep; reflexivity). rewrite Egp. cbn [bind].
      destruct p.
      * destruct Hinv as (b & Hb & -> & Er). rewrite rows_of_app, rows_of_one in Er. destruct v; cbn [Bool.eqb bind].
        -- apply Hstep. exists closed. split; [exact Hc|]. replace (0 <? i + 1) with true by lia. replace (i + 1 - 1) with i by lia. rewrite Ev. cbn [andb]. exists b. split; [lia|]. split; [reflexivity|]. rewrite rows_of_app, rows_of_one, (slice_range_S r b i x) by (lia || assumption). rewrite app_assoc, Er. symmetry. exact Eu.
        -- replace (i =? 0) with false by lia. cbn [negb]. unfold set_back_end. rewrite rev_app_distr. cbn [rev app bind]. rewrite rev_involutive. apply Hstep. exists (closed ++ [(b, i)]). split; [apply Forall_app; split; [exact Hc|]; constructor; [|constructor]; unfold inside; cbn [fst snd]; lia|].
           replace (0 <? i + 1) with true by lia. replace (i + 1 - 1) with i by lia. rewrite Ev. cbn [andb]. split; [reflexivity|]. rewrite rows_of_app, rows_of_one, Er, Eu, app_nil_r. reflexivity.
      * destruct Hinv as (-> & Er). destruct v; cbn [Bool.eqb bind].
        -- apply Hstep. exists closed. split; [exact Hc|]. replace (0 <? i + 1) with true by lia. replace (i + 1 - 1) with i by lia. rewrite Ev. cbn [andb]. exists i. split; [lia|]. split; [reflexivity|]. rewrite rows_of_app, rows_of_one, (slice_range_S r i i x) by (lia || assumption). rewrite Er, Eu. f_equal. unfold slice_range. cbn [fst snd]. rewrite Z.sub_diag. reflexivity.
        -- apply Hstep. exists closed. split; [exact Hc|]. replace (0 <? i + 1) with true by lia. replace (i + 1 - 1) with i by lia. rewrite Ev. cbn [andb]. split; [reflexivity|]. rewrite Er, Eu, app_nil_r. reflexivity.
    + assert (i = 0) as -> by lia. destruct Hinv as (-> & Er). cbn [bind]. destruct v.
      * cbn [bind]. apply Hstep. exists closed. split; [exact Hc|]. change (0 <? 0 + 1) with true. change (0 + 1 - 1) with 0. rewrite Ev. cbn [andb]. exists 0. split; [lia|]. split; [reflexivity|]. rewrite rows_of_app, rows_of_one, (slice_range_S r 0 0 x) by (lia || assumption). rewrite Er, Eu. reflexivity.
      * cbn [Z.eqb negb bind]. apply Hstep. exists closed. split; [exact Hc|]. change (0 <? 0 + 1) with true. change (0 + 1 - 1) with 0. rewrite Ev. cbn [andb]. split; [reflexivity|]. rewrite Er, Eu, app_nil_r. reflexivity.
Qed.
Lemma ranges_ok (c : list bool) : exists out, ranges_of c = Ok out /\ Forall (inside (zlen c)) out /\ forall A (r : list A), length r = length c -> rows_of r out = selected c r.
Proof.
  assert (Hall : forall A (r : list A), length r = length c -> exists out, ranges_of c = Ok out /\ Forall (inside (zlen c)) out /\ rows_of r out = selected c r).
  { intros A r Hr. destruct (edge_loop_ok c r (eq_sym Hr) (length c) 0 []) as (out & Eo & closed & Hc & Hinv); [lia|unfold zlen; lia| |].
    - exists []. split; [constructor|]. split; reflexivity.
    - exists out. split; [exact Eo|]. assert (Eu : upto (Z.to_nat (zlen c)) c r = selected c r) by (unfold upto, zlen; rewrite Nat2Z.id; rewrite firstn_all; rewrite <- Hr, firstn_all; reflexivity). rewrite Eu in Hinv.
      destruct ((0 <? zlen c) && _); [|destruct Hinv as (-> & Hinv); split; [exact Hc|exact Hinv]]. destruct Hinv as (b & Hb & -> & Er). split; [|exact Er]. apply Forall_app. split; [exact Hc|]. constructor; [|constructor]. unfold inside. cbn [fst snd]. lia. }
  destruct (Hall bool c eq_refl) as (out & Eo & Hi & _). exists out. split; [exact Eo|]. split; [exact Hi|]. intros A r Hr. destruct (Hall A r Hr) as (out' & Eo' & _ & Hr'). congruence.
Qed.

(** ** positions *)
Lemma slice_one {A} (r : list A) p x : 0 <= p -> nth_error r (Z.to_nat p) = Some x -> slice_range r (p, p + 1) = [x].
Proof. intros Hp E. unfold slice_range. cbn [fst snd]. replace (p + 1 - p) with 1 by lia. rewrite (skipn_nth _ _ _ E). reflexivity. Qed.
Lemma rows_of_picks {A} (r : list A) ps : Forall (fun p => 0 <= p < zlen r) ps -> picks r ps (rows_of r (map (fun p => (p, p + 1)) ps)).
Proof.
  induction 1 as [|p ps Hp _ IH]; [constructor|]. destruct (nth_error r (Z.to_nat p)) as [x|] eqn:E; [|apply nth_error_None in E; unfold zlen in Hp; lia].
  unfold rows_of in *. cbn [map concat]. rewrite (slice_one r p x) by (lia || assumption). constructor; [split; [lia|exact E]|exact IH].
Qed.
Lemma singles_inside n ps : Forall (fun p => 0 <= p < n) ps -> Forall (inside n) (map (fun p => (p, p + 1)) ps).
Proof. intros Hp. apply Forall_map. revert Hp. apply Forall_impl. intros p Hp. unfold inside. cbn [fst snd]. lia. Qed.
Lemma fold_min_spec l : forall x, (forall y, In y (x :: l) -> fold_left Z.min l x <= y) /\ In (fold_left Z.min l x) (x :: l).
Proof.
  induction l as [|a l IH]; intros x; [split; [intros y [<-|[]]; cbn; lia|left; reflexivity]|]. cbn [fold_left]. destruct (IH (Z.min x a)) as [I1 I2]. split.
  - intros y [<-|[<-|Hy]]; [specialize (I1 _ (or_introl eq_refl)); lia|specialize (I1 _ (or_introl eq_refl)); lia|apply I1; right; exact Hy].
  - destruct I2 as [<-|I2]; [destruct (Z.min_dec x a) as [->| ->]; [left|right; left]; reflexivity|right; right; exact I2].
Qed.
Lemma fold_max_spec l : forall x, (forall y, In y (x :: l) -> y <= fold_left Z.max l x) /\ In (fold_left Z.max l x) (x :: l).
Proof.
  induction l as [|a l IH]; intros x; [split; [intros y [<-|[]]; cbn; lia|left; reflexivity]|]. cbn [fold_left]. destruct (IH (Z.max x a)) as [I1 I2]. split.
  - intros y [<-|[<-|Hy]]; [specialize (I1 _ (or_introl eq_refl)); lia|specialize (I1 _ (or_introl eq_refl)); lia|apply I1; right; exact Hy].
  - destruct I2 as [<-|I2]; [destruct (Z.max_dec x a) as [->| ->]; [left|right; left]; reflexivity|right; right; exact I2].
Qed.
Lemma check_range_ok l n : Forall (in_range n) l -> check_range l n = Ok tt.
Proof.
  destruct l as [|x l]; [reflexivity|]. intros Hf. rewrite Forall_forall in Hf. cbn [check_range]. pose proof (Hf _ (proj2 (fold_min_spec l x))) as H1. pose proof (Hf _ (proj2 (fold_max_spec l x))) as H2. unfold in_range in *. replace (_ || _) with false by lia. reflexivity.
Qed.
Lemma check_range_bad l n : ~ Forall (in_range n) l -> check_range l n = Throw OutOfRange.
Proof.
  destruct l as [|x l]; [intros Hf; destruct Hf; constructor|]. intros Hf. cbn [check_range]. destruct ((fold_left Z.min l x <? - n) || (n <=? fold_left Z.max l x)) eqn:E; [reflexivity|]. exfalso. apply Hf. apply Forall_forall. intros y Hy. pose proof (proj1 (fold_min_spec l x) y Hy). pose proof (proj1 (fold_max_spec l x) y Hy). unfold in_range. lia.
Qed.
Lemma make_slices_ok l n : Forall (in_range n) l -> mapM (fun p => make_slice p n) l = Ok (map (fun p => (p, p + 1)) (map (place n) l)).
Proof.
  intros Hf. rewrite map_map. apply mapM_ok. intros p Hp. rewrite Forall_forall in Hf. specialize (Hf p Hp). unfold in_range in Hf. unfold make_slice, place. destruct (Z.ltb_spec p 0); match goal with |- (if ?b then _ else _) = _ => replace b with false by lia end; reflexivity.
Qed.

(** ** binned data *)
Lemma slice_consec {A} (r : list A) l : Forall (inside (zlen r)) l -> forall pre, map (slice_range (pre ++ rows_of r l)) (consec (zlen pre) l) = map (slice_range r) l.
Proof.
  induction 1 as [|x l Hx Hl IH]; intros pre; [reflexivity|]. cbn [consec map]. unfold rows_of. cbn [map concat]. fold (rows_of r l). f_equal.
  - assert (Ln : length (slice_range r x) = Z.to_nat (bin_size x)) by (apply slice_range_length; exact Hx). unfold slice_range at 1. cbn [fst snd]. replace (zlen pre + bin_size x - zlen pre) with (bin_size x) by lia. replace (Z.to_nat (zlen pre)) with (length pre) by (unfold zlen; lia). rewrite skipn_app, skipn_all, Nat.sub_diag. cbn [app skipn].
    rewrite firstn_app, Ln, Nat.sub_diag. cbn [firstn]. rewrite app_nil_r. apply firstn_all2. lia.
  - rewrite app_assoc. replace (zlen pre + bin_size x) with (zlen (pre ++ slice_range r x)); [apply IH|]. rewrite zlen_app. f_equal. unfold zlen. rewrite slice_range_length by exact Hx. destruct Hx as (H1 & H2 & H3). unfold bin_size. lia.
Qed.
Lemma inside_In {A} (P : A -> Prop) (r : list A) l : Forall P r -> Forall P (rows_of r l).
Proof. intros Hr. unfold rows_of. apply Forall_concat. apply Forall_map. apply Forall_forall. intros x _. unfold slice_range. apply Forall_forall. intros y Hy. rewrite Forall_forall in Hr. apply Hr. rewrite <- (firstn_skipn (Z.to_nat (fst x)) r). apply in_or_app. right. set (s := skipn _ _) in *. rewrite <- (firstn_skipn (Z.to_nat (snd x - fst x)) s). apply in_or_app. left. exact Hy. Qed.
