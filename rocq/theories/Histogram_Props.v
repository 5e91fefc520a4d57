(** Histogramming (C24). *)
From Coq Require Import Sorted.
From Verif Require Import Base Float Arr Numeric_Model Numeric_Props Lookup_Model Lookup_Proofs Linspace_Proofs Lookup_Props BinKernel_Model BinKernel_Proofs Mapper_Model Mapper_Proofs Mapper_Props TargetBins_Model TargetBins_Proofs TargetBins_Props Histogram_Model.

Section Proofs.
Context {W : Type}.
Variable zero : W.
Variable add : W -> W -> W.
Notation hist_loop := (hist_loop add).
Notation hist := (hist zero add).
Definition total (l : list W) : W := fold_left add l zero.

Lemma hist_loop_ok {C} (bin : C -> res Z) (k : C -> Z) : forall events data, (forall x w, In (x, w) events -> bin x = Ok (k x) /\ k x < zlen data) ->
  exists out, hist_loop bin data events = Ok out /\ zlen out = zlen data /\ forall i, 0 <= i < zlen data -> znth zero out i = fold_left add (map snd (filter (fun e => k (fst e) =? i) events)) (znth zero data i).
Proof.
  induction events as [|[x w] events IH]; intros data Hk; cbn [Histogram_Model.hist_loop].
  - exists data. split; [reflexivity|]. split; [reflexivity|]. intros i _. reflexivity.
  - destruct (Hk x w (or_introl eq_refl)) as [-> Hx]. cbn [bind]. destruct (Z.leb_spec 0 (k x)) as [Hp|Hp].
    + rewrite (vget_znth zero) by lia. cbn [bind]. unfold vset. replace ((k x <? 0) || (Z.of_nat (length data) <=? k x)) with false by (unfold zlen in Hx; lia). cbn [bind].
      change (upd data (Z.to_nat (k x)) (add (znth zero data (k x)) w)) with (zupd data (k x) (add (znth zero data (k x)) w)).
      destruct (IH (zupd data (k x) (add (znth zero data (k x)) w))) as (out & Eo & Lo & No). { intros y v Hy. rewrite zlen_zupd. apply (Hk y v). right. exact Hy. }
      exists out. split; [exact Eo|]. rewrite zlen_zupd in *. split; [exact Lo|]. intros i Hi. rewrite No by exact Hi. rewrite znth_zupd by lia. cbn [filter fst]. rewrite (Z.eqb_sym (k x) i). destruct (Z.eqb_spec i (k x)) as [->|]; reflexivity.
    + destruct (IH data) as (out & Eo & Lo & No). { intros y v Hy. apply (Hk y v). right. exact Hy. }
      exists out. split; [exact Eo|]. split; [exact Lo|]. intros i Hi. rewrite No by exact Hi. cbn [filter fst]. destruct (Z.eqb_spec (k x) i); [lia|reflexivity].
Qed.
Lemma hist_ok {C} linspace sorted (lin srt : C -> res Z) (k : C -> Z) nbin events : 0 <= nbin -> (linspace = false -> sorted = true) ->
  (forall x w, In (x, w) events -> (if linspace then lin x else srt x) = Ok (k x) /\ k x < nbin) ->
  exists out, hist linspace sorted lin srt nbin events = Ok out /\ zlen out = nbin /\ forall i, 0 <= i < nbin -> znth zero out i = total (map snd (filter (fun e => k (fst e) =? i) events)).
Proof.
  intros Hn Hs Hk. unfold Histogram_Model.hist. destruct (Z.ltb_spec nbin 0); [lia|]. assert (Hl : zlen (repeat zero (Z.to_nat nbin)) = nbin) by (rewrite zlen_repeat; lia).
  assert (Hg : forall bin, (forall x w, In (x, w) events -> bin x = Ok (k x) /\ k x < nbin) -> exists out, hist_loop bin (repeat zero (Z.to_nat nbin)) events = Ok out /\ zlen out = nbin /\ forall i, 0 <= i < nbin -> znth zero out i = total (map snd (filter (fun e => k (fst e) =? i) events))).
  { intros bin Hb. destruct (hist_loop_ok bin k events (repeat zero (Z.to_nat nbin))) as (out & Eo & Lo & No); [rewrite Hl; exact Hb|]. rewrite Hl in *. exists out. split; [exact Eo|]. split; [exact Lo|]. intros i Hi. rewrite No by exact Hi. rewrite znth_repeat_d. reflexivity. }
  destruct linspace; [apply Hg; exact Hk|]. rewrite (Hs eq_refl). apply Hg. exact Hk.
Qed.
End Proofs.

Definition in_bin (edges : list Z) (i x : Z) : bool := (znth 0 edges i <=? x) && (x <? znth 0 edges (i + 1)).
Lemma sorted_sortedb l : StronglySorted Z.le l -> sortedb l = true.
Proof. induction 1 as [|a l Hs IH Ha]; [reflexivity|]. destruct l as [|b l]; [reflexivity|]. rewrite sortedb_cons, IH. apply Forall_cons_iff in Ha. lia. Qed.
Lemma lookup_int_ok bits edges x : StronglySorted Z.le edges -> bin_fits bits edges ->
  exists r, (if islinspace_int edges then get_bin_int bits edges x else bin_sorted (fun e => x <? e) edges) = Ok r /\ is_bin (int_inside x) edges r.
Proof.
  intros Hs Hf. destruct (islinspace_int edges) eqn:El; [|apply C19_sorted_int; exact Hs]. destruct (islinspace_int_sorted _ El Hs) as (a & d & n & Ee & _).
  assert (Hl : 2 <= zlen edges) by (rewrite Ee; unfold zlen; rewrite length_progression; lia).
  destruct (lookup_bin_ok bits edges 0 (zlen edges) x (strong_ascending _ Hs) Hf ltac:(lia) Hl ltac:(lia)) as (r & Er & Hr). rewrite sub_edges_all in *. unfold lookup_bin in Er. rewrite El in Er. exists r. split; assumption.
Qed.
(** Integer coordinates: the value of bin [i] is the sum, in the order of the events, of the weights of the events inside. *)
Theorem C24_histogram {W} (zero : W) add edges events : StronglySorted Z.le edges -> bin_fits 64 edges -> 1 <= zlen edges ->
  exists out, hist_int zero add edges events = Ok out /\ zlen out = zlen edges - 1 /\
    forall i, 0 <= i < zlen edges - 1 -> znth zero out i = fold_left add (map snd (filter (fun e => in_bin edges i (fst e)) events)) zero.
Proof.
  intros Hs Hf Hn. set (k := fun x => match (if islinspace_int edges then get_bin_int 64 edges x else bin_sorted (fun e => x <? e) edges) with Ok r => r | _ => -1 end).
  assert (Hk : forall x, (if islinspace_int edges then get_bin_int 64 edges x else bin_sorted (fun e => x <? e) edges) = Ok (k x) /\ is_bin (int_inside x) edges (k x)).
  { intros x. destruct (lookup_int_ok 64 edges x Hs Hf) as (r & Er & Hr). unfold k. rewrite Er. split; [reflexivity|exact Hr]. }
  destruct (hist_ok zero add (islinspace_int edges) (sortedb edges) (get_bin_int 64 edges) (fun x => bin_sorted (fun e => x <? e) edges) k (zlen edges - 1) events) as (out & Eo & Lo & No).
  - lia.
  - intros _. apply sorted_sortedb. exact Hs.
  - intros x w _. destruct (Hk x) as [E B]. split; [exact E|]. destruct (is_bin_bound _ _ _ B); lia.
  - exists out. split; [exact Eo|]. split; [exact Lo|]. intros i Hi. rewrite No by exact Hi. unfold total. do 2 f_equal. apply filter_ext_in. intros [x w] _. cbn [fst]. destruct (Hk x) as [_ B]. pose proof (is_bin_znth x edges (k x) i B ltac:(lia) ltac:(lia)) as Hiff. unfold in_bin. destruct (Z.eqb_spec (k x) i) as [Ei|Ei]; [apply Hiff in Ei; lia|]. destruct (Z.leb_spec (znth 0 edges i) x); destruct (Z.ltb_spec x (znth 0 edges (i + 1))); cbn [andb]; try reflexivity. exfalso. apply Ei, Hiff. lia.
Qed.
Print Assumptions C24_histogram.
Example C24_histogram_case : let edges := [0; 2; 3; 7] in StronglySorted Z.le edges /\ bin_fits 64 edges /\ hist_int 0 Z.add edges [(1, 10); (7, 5); (3, 1); (0, 2); (-1, 3); (6, 4)] = Ok [12; 0; 5].
Proof. split; [ssorted|]. split; [intros Hc; discriminate|reflexivity]. Qed.

(** The same for doubles. *)
Definition in_bin_f64 (edges : list f64) (i : Z) (x : f64) : bool := fleb (znth (f_of_Z 0) edges i) x && fltb x (znth (f_of_Z 0) edges (i + 1)).
Lemma sortedb_f64_cons a b l : sortedb_f64 (a :: b :: l) = negb (fltb b a) && sortedb_f64 (b :: l). Proof. reflexivity. Qed.
Lemma fleb_not_fltb (a b : f64) : fleb a b = true -> fltb b a = false.
Proof. unfold fleb, fltb, Flocq.IEEE754.BinarySingleNaN.Bleb, Flocq.IEEE754.BinarySingleNaN.Bltb, SpecFloat.SFleb, SpecFloat.SFltb. fold (Flocq.IEEE754.BinarySingleNaN.Bcompare a b). fold (Flocq.IEEE754.BinarySingleNaN.Bcompare b a). rewrite (Flocq.IEEE754.BinarySingleNaN.Bcompare_swap _ _ b a). destruct (Flocq.IEEE754.BinarySingleNaN.Bcompare b a) as [[]|]; cbn; congruence. Qed.
Theorem C24_histogram_f64 {W} (zero : W) add (edges : list f64) events n : StronglySorted (fun a b => fleb a b = true) edges -> length edges = S (Z.to_nat n) -> 0 <= n ->
  (islinspace_f64 edges = true -> n <= 2 ^ 40 /\ bounded edges /\ wide_enough edges n) ->
  exists out, hist_f64 zero add edges events = Ok out /\ zlen out = n /\
    forall i, 0 <= i < n -> znth zero out i = fold_left add (map snd (filter (fun e => in_bin_f64 edges i (fst e)) events)) zero.
Proof.
  intros Hs Hlen Hn0 Hf. assert (Hn : zlen edges - 1 = n) by (unfold zlen; lia).
  set (k := fun x => match (if islinspace_f64 edges then get_bin_f64 64 edges x else bin_sorted (fun e => fltb x e) edges) with Ok r => r | _ => -1 end).
  assert (Hk : forall x, (if islinspace_f64 edges then get_bin_f64 64 edges x else bin_sorted (fun e => fltb x e) edges) = Ok (k x) /\ is_bin (f64_inside x) edges (k x)).
  { intros x. unfold k. destruct (islinspace_f64 edges) eqn:El.
    - destruct (Hf eq_refl) as (F1 & F2 & F3). assert (1 <= n) as Hn1. { destruct (Z.eq_dec n 0) as [->|]; [|lia]. destruct edges as [|a [|b l]]; try discriminate. }
      destruct (C19_linspace_f64_partial 64 edges x n Hlen ltac:(lia) ltac:(lia) F2 F3 El) as (r & Er & Hr). rewrite Er. split; [reflexivity|exact Hr].
    - destruct (C19_sorted_f64 edges x Hs) as (r & Er & Hr). rewrite Er. split; [reflexivity|exact Hr]. }
  destruct (hist_ok zero add (islinspace_f64 edges) (sortedb_f64 edges) (get_bin_f64 64 edges) (fun x => bin_sorted (fun e => fltb x e) edges) k (zlen edges - 1) events) as (out & Eo & Lo & No).
  - lia.
  - intros _. clear - Hs. induction Hs as [|a l Hs IH Ha]; [reflexivity|]. destruct l as [|b l]; [reflexivity|]. rewrite sortedb_f64_cons, IH. apply Forall_cons_iff in Ha. rewrite (fleb_not_fltb _ _ (proj1 Ha)). reflexivity.
  - intros x w _. destruct (Hk x) as [E B]. split; [exact E|]. destruct (is_bin_bound _ _ _ B); lia.
  - exists out. split; [exact Eo|]. rewrite Hn in *. split; [exact Lo|]. intros i Hi. rewrite No by exact Hi. unfold total. do 2 f_equal. apply filter_ext_in. intros [x w] _. cbn [fst]. destruct (Hk x) as [_ [_ B]]. specialize (B i ltac:(lia)). rewrite !(vget_znth (f_of_Z 0)) in B by lia. unfold in_bin_f64. apply eq_true_iff_eq. rewrite Z.eqb_eq, andb_true_iff, B. split.
    + intros (a & b & Ea & Eb & Hin). injection Ea as <-. injection Eb as <-. exact Hin.
    + intros Hin. eexists _, _. split; [reflexivity|]. split; [reflexivity|]. exact Hin.
Qed.
Print Assumptions C24_histogram_f64.

(** ** sums over bins, and splitting of the input *)
Section Monoid.
Context {W : Type}.
Variable zero : W.
Variable add : W -> W -> W.
Hypothesis add_zero : forall x, add x zero = x.
Hypothesis add_comm : forall x y, add x y = add y x.
Hypothesis add_assoc : forall x y z, add x (add y z) = add (add x y) z.
Notation total := (total zero add).
Lemma total_acc l : forall a, fold_left add l a = add a (total l).
Proof.
  unfold total, Histogram_Props.total. induction l as [|x l IH]; intros a; cbn [fold_left]; [rewrite add_zero; reflexivity|]. rewrite (IH (add a x)), (IH (add zero x)), add_assoc. f_equal. rewrite (add_comm zero x), add_zero. reflexivity.
Qed.
Lemma total_cons x l : total (x :: l) = add x (total l).
Proof. unfold total at 1, Histogram_Props.total. cbn [fold_left]. rewrite total_acc, (add_comm zero x), add_zero. reflexivity. Qed.
Lemma total_app l m : total (l ++ m) = add (total l) (total m).
Proof. unfold total at 1, Histogram_Props.total. rewrite fold_left_app. apply total_acc. Qed.
Lemma total_bins {E} (k : E -> Z) (w : E -> W) n l : total (map (fun i => total (map w (filter (fun e => k e =? i) l))) (zseq 0 n)) = total (map w (filter (fun e => (0 <=? k e) && (k e <? Z.of_nat n)) l)).
Proof.
  induction l as [|e l IH]; cbn [filter].
  - cbn [map]. generalize (zseq 0 n). intros z. induction z as [|i z IHz]; [reflexivity|]. cbn [map]. rewrite total_cons, IHz. apply add_zero.
  - assert (Hz : forall z, NoDup z -> total (map (fun i => total (map w (if k e =? i then e :: filter (fun e => k e =? i) l else filter (fun e => k e =? i) l))) z) =
      if existsb (Z.eqb (k e)) z then add (w e) (total (map (fun i => total (map w (filter (fun e => k e =? i) l))) z)) else total (map (fun i => total (map w (filter (fun e => k e =? i) l))) z)).
    { clear IH. intros z. induction z as [|i z IHz]; intros Hnd; [reflexivity|]. inversion Hnd as [|? ? Hni Hnd']; subst. cbn [map existsb]. rewrite !total_cons, (IHz Hnd'). destruct (Z.eqb_spec (k e) i) as [->|Hne]; cbn [orb].
      - assert (Ex : existsb (Z.eqb i) z = false). { destruct (existsb (Z.eqb i) z) eqn:Ex; [|reflexivity]. apply existsb_exists in Ex. destruct Ex as (y & Hy & Ey). apply Z.eqb_eq in Ey. subst. contradiction. }
        rewrite Ex. cbn [map]. rewrite total_cons, add_assoc. reflexivity.
      - destruct (existsb (Z.eqb (k e)) z); [|reflexivity]. rewrite !add_assoc. f_equal. apply add_comm. }
    rewrite (Hz _ (Transform_Proofs.zseq_NoDup 0 n)), IH. assert (Ex : existsb (Z.eqb (k e)) (zseq 0 n) = (0 <=? k e) && (k e <? Z.of_nat n)).
    { apply eq_true_iff_eq. rewrite existsb_exists, andb_true_iff. split.
      - intros (y & Hy & Ey). apply In_zseq in Hy. lia.
      - intros Hb. exists (k e). split; [apply In_zseq; lia|apply Z.eqb_refl]. }
    rewrite Ex. destruct ((0 <=? k e) && (k e <? Z.of_nat n)); [|reflexivity]. cbn [map]. rewrite total_cons. reflexivity.
Qed.
Lemma map_filter_in_bin edges i (l m : list (Z * W)) : total (map snd (filter (fun e => in_bin edges i (fst e)) (l ++ m))) = add (total (map snd (filter (fun e => in_bin edges i (fst e)) l))) (total (map snd (filter (fun e => in_bin edges i (fst e)) m))).
Proof. rewrite filter_app, map_app. apply total_app. Qed.

(** The sum of all bins is the sum over the events inside the outer edges. *)
Theorem C24_total edges events : StronglySorted Z.le edges -> bin_fits 64 edges -> 1 <= zlen edges ->
  exists out, hist_int zero add edges events = Ok out /\
    fold_left add out zero = fold_left add (map snd (filter (fun e => (znth 0 edges 0 <=? fst e) && (fst e <? znth 0 edges (zlen edges - 1))) events)) zero.
Proof.
  intros Hs Hf Hn. destruct (C24_histogram zero add edges events Hs Hf Hn) as (out & Eo & Lo & No). exists out. split; [exact Eo|].
  set (k := fun x => match bin_sorted (fun e => x <? e) edges with Ok r => r | _ => -1 end).
  assert (Hk : forall x, is_bin (int_inside x) edges (k x)) by (intros x; destruct (C19_sorted_int edges x Hs) as (r & Er & Hr); unfold k; rewrite Er; exact Hr).
  assert (Hin : forall i x, 0 <= i < zlen edges - 1 -> in_bin edges i x = (k x =? i)).
  { intros i x Hi. pose proof (is_bin_znth x edges (k x) i (Hk x) ltac:(lia) ltac:(lia)) as Hiff. unfold in_bin. apply eq_true_iff_eq. rewrite Z.eqb_eq, Hiff, andb_true_iff. lia. }
  assert (Ho : out = map (fun i => total (map snd (filter (fun e => k (fst e) =? i) events))) (zseq 0 (Z.to_nat (zlen edges - 1)))).
  { apply (znth_ext zero); [rewrite zlen_map, zlen_zseq; lia|]. intros i Hi. rewrite No by lia. rewrite (znth_map _ 0) by (rewrite zlen_zseq; lia). rewrite znth_zseq by lia. rewrite Z.add_0_l. unfold total, Histogram_Props.total. do 2 f_equal. apply filter_ext. intros e. apply Hin. lia. }
  change (total out = total (map snd (filter (fun e => (znth 0 edges 0 <=? fst e) && (fst e <? znth 0 edges (zlen edges - 1))) events))).
  rewrite Ho. rewrite (total_bins (fun e => k (fst e)) snd). do 2 f_equal. apply filter_ext. intros [x w]. cbn [fst].
  pose proof (strong_ascending _ Hs) as Has. pose proof (is_bin_bound _ _ _ (Hk x)) as B. apply eq_true_iff_eq. rewrite !andb_true_iff, !Z.leb_le, !Z.ltb_lt. clearbody k. split.
  - intros Hx. pose proof (proj1 (is_bin_znth x edges (k x) (k x) (Hk x) ltac:(lia) ltac:(lia)) eq_refl) as Hi. pose proof (Has 0 (k x) ltac:(lia) ltac:(lia)). pose proof (Has (k x + 1) (zlen edges - 1) ltac:(lia) ltac:(lia)). lia.
  - intros Hx. assert (Hc : k x <> -1).
    { intros Hc. assert (Hnone : forall i, 0 <= i -> i + 1 < zlen edges -> ~ znth 0 edges i <= x < znth 0 edges (i + 1)). { intros i Hi0 Hi1 Hi. pose proof (proj2 (is_bin_znth x edges (k x) i (Hk x) Hi0 Hi1) Hi). lia. }
      assert (Hall : forall m, Z.of_nat m < zlen edges -> znth 0 edges (Z.of_nat m) <= x). { intros m. induction m as [|m IHm]; intros Hm; [change (Z.of_nat 0) with 0; lia|]. specialize (IHm ltac:(lia)). specialize (Hnone (Z.of_nat m) ltac:(lia) ltac:(lia)). replace (Z.of_nat m + 1) with (Z.of_nat (S m)) in Hnone by lia. lia. }
      specialize (Hall (Z.to_nat (zlen edges - 1)) ltac:(lia)). rewrite Z2Nat.id in Hall by lia. lia. }
    lia.
Qed.

Lemma zlen_add_rows a : forall b, zlen a = zlen b -> zlen (add_rows add a b) = zlen a.
Proof. induction a as [|x a IH]; intros [|y b] Hl; rewrite ?zlen_cons in Hl; cbn [add_rows]; try reflexivity; [pose proof (zlen_nonneg a); change (zlen (@nil W)) with 0 in Hl; lia|]. rewrite !zlen_cons, IH by lia. reflexivity. Qed.
Lemma znth_add_rows a : forall b i, zlen a = zlen b -> 0 <= i < zlen a -> znth zero (add_rows add a b) i = add (znth zero a i) (znth zero b i).
Proof.
  induction a as [|x a IH]; intros [|y b] i Hl Hi; rewrite ?zlen_cons in *; cbn [add_rows]; change (zlen (@nil W)) with 0 in *; try (pose proof (zlen_nonneg b)); try (pose proof (zlen_nonneg a)); [lia|lia|lia|].
  destruct (Z.eq_dec i 0) as [->|]; [reflexivity|]. rewrite !znth_S by lia. apply IH; lia.
Qed.
(** Histogramming the input bins one by one and adding the histograms, concatenating them first, or splitting a large table
    for threading: the result is the histogram of all events. *)
Theorem C24_split edges (bins : list (list (Z * W))) large : StronglySorted Z.le edges -> bin_fits 64 edges -> 1 <= zlen edges ->
  hist_bins zero add (hist_int zero add edges) (zlen edges - 1) large bins = hist_int zero add edges (concat bins).
Proof.
  intros Hs Hf Hn. unfold hist_bins. destruct large; [reflexivity|]. destruct (C24_histogram zero add edges (concat bins) Hs Hf Hn) as (out & -> & Lo & No).
  assert (Hr : exists rows, map_res (hist_int zero add edges) bins = Ok rows /\ forall acc, zlen acc = zlen edges - 1 ->
    zlen (fold_left (add_rows add) rows acc) = zlen edges - 1 /\ forall i, 0 <= i < zlen edges - 1 -> znth zero (fold_left (add_rows add) rows acc) i = add (znth zero acc i) (total (map snd (filter (fun e => in_bin edges i (fst e)) (concat bins))))).
  { clear out Lo No. induction bins as [|b bins (rows & Er & IH)].
    - exists []. split; [reflexivity|]. intros acc Ha. split; [exact Ha|]. intros i Hi. cbn. rewrite add_zero. reflexivity.
    - destruct (C24_histogram zero add edges b Hs Hf Hn) as (o & Eo & Lo & No). exists (o :: rows). cbn [map_res]. rewrite Eo, Er. split; [reflexivity|]. intros acc Ha. cbn [fold_left concat].
      destruct (IH (add_rows add acc o)) as [L N]; [rewrite zlen_add_rows by lia; exact Ha|]. split; [exact L|]. intros i Hi. rewrite N by exact Hi. rewrite znth_add_rows by lia. rewrite No by exact Hi. rewrite map_filter_in_bin. rewrite add_assoc. reflexivity. }
  destruct Hr as (rows & -> & Hr). cbn [bind]. f_equal. destruct (Hr (repeat zero (Z.to_nat (zlen edges - 1)))) as [L N]; [rewrite zlen_repeat; lia|].
  apply (znth_ext zero); [lia|]. intros i Hi. rewrite N, No, znth_repeat_d by lia. rewrite add_comm, add_zero. reflexivity.
Qed.
Theorem C24_threads edges one_dim (table : list (Z * W)) : StronglySorted Z.le edges -> bin_fits 64 edges -> 1 <= zlen edges ->
  hist_table zero add (hist_int zero add edges) (zlen edges - 1) one_dim table = hist_int zero add edges table.
Proof.
  intros Hs Hf Hn. unfold hist_table. destruct (one_dim && (100000 <? zlen table)); [|reflexivity]. rewrite (C24_split edges _ false Hs Hf Hn). f_equal. exact (proj1 (C45_pretend_bins table)).
Qed.
(** Masked events do not contribute. *)
Theorem C24_masked edges (events : list (Z * W * bool)) : StronglySorted Z.le edges -> bin_fits 64 edges -> 1 <= zlen edges ->
  hist_int zero add edges (masked_data zero events) = hist_int zero add edges (map fst (filter (fun e => negb (snd e)) events)).
Proof.
  intros Hs Hf Hn. destruct (C24_histogram zero add edges (masked_data zero events) Hs Hf Hn) as (o1 & -> & L1 & N1). destruct (C24_histogram zero add edges (map fst (filter (fun e => negb (snd e)) events)) Hs Hf Hn) as (o2 & -> & L2 & N2). f_equal.
  apply (znth_ext zero); [lia|]. intros i Hi. rewrite N1, N2 by lia. 
  assert (Hg : forall acc, fold_left add (map snd (filter (fun e => in_bin edges i (fst e)) (masked_data zero events))) acc = fold_left add (map snd (filter (fun e => in_bin edges i (fst e)) (map fst (filter (fun e => negb (snd e)) events)))) acc); [|apply Hg].
  clear - add_zero. induction events as [|[[x w] m] events IH]; intros acc; [reflexivity|]. cbn [masked_data map filter fst snd negb]. destruct m; cbn [negb map filter fst].
  - destruct (in_bin edges i x); cbn [map fold_left snd]; [rewrite add_zero|]; apply IH.
  - destruct (in_bin edges i x); cbn [map fold_left snd]; apply IH.
Qed.
End Monoid.
Print Assumptions C24_total.
Print Assumptions C24_split.
Print Assumptions C24_threads.
Print Assumptions C24_masked.
(** weights with variances *)
Example C24_split_case : let add := fun a b : Z * Z => (fst a + fst b, snd a + snd b) in
  hist_bins (0, 0) add (hist_int (0, 0) add [0; 2; 4; 6]) 3 false [[(1, (1, 1)); (5, (2, 4))]; []; [(1, (3, 9)); (6, (4, 16))]] = Ok [(4, 10); (0, 0); (2, 4)].
Proof. reflexivity. Qed.

(** For doubles as weights the sum depends on the splitting. *)
Theorem C24_split_float_refuted : exists (edges : list Z) (bins : list (list (Z * f64))), StronglySorted Z.le edges /\ bin_fits 64 edges /\
  match hist_bins (f_of_Z 0) fadd (hist_int (f_of_Z 0) fadd edges) (zlen edges - 1) false bins, hist_int (f_of_Z 0) fadd edges (concat bins) with
  | Ok [a], Ok [b] => fltb b a | _, _ => false end = true.
Proof.
  exists [0; 1], [[(0, f_of_Z (2 ^ 53))]; [(0, f_of_Z 1); (0, f_of_Z 1)]]. split; [ssorted|]. split; [intros _; split; [discriminate|split; reflexivity]|]. vm_compute. reflexivity.
Qed.
Print Assumptions C24_split_float_refuted.
(** Unsorted edges with steps of equal size are not rejected: the event 0 of [0, 1) is counted, and so are two bins for the
    same range. *)
Theorem C24_unsorted_refuted : exists edges, sortedb edges = false /\ hist_int 0 Z.add edges [(0, 1)] = Ok [1; 0; 0] /\ in_bin edges 2 0 = true.
Proof. exists [0; 1; 0; 1]. repeat split. Qed.
Print Assumptions C24_unsorted_refuted.
