(** C58: operations along one dimension treat every line of multi-dimensional data separately, for any memory layout. *)
From Coq Require Import Permutation Sorted Reals Lra.
From Verif Require Import Base Arr Map_Model Dims_Model Dims_Spec Dims_Proofs View_Model View_Spec View_Proofs SizedDict_Proofs Accumulate_Model.
From Verif Require Import Lookup_Model Numeric_Model Histogram_Model Rebin_Model SizedDict_Model.
From Verif Require Float Linspace_Proofs Lookup_Props TargetBins_Proofs Histogram_Props Rebin_Proofs Rebin_Props.
From Flocq Require Import Core.
From Verif Require Import Reshape_Model Reshape_Spec Reshape_Proofs Subspan_Model Subspan_Spec Subspan_Proofs.
Open Scope Z_scope.

(** ** Spans *)
(** Spans along a dimension are the lines of elements along it; anything but stride 1 is rejected. *)
Theorem C58_spans {A} (x : varr A) k n q : wfv (va x) -> along x k n q ->
  exists st, var_stride (va x) k = Ok st /\
  (st = 1 -> exists r, span_rows x k = Ok r /\ pairs (dd r) = q /\ forall ix, valid_at q ix -> dv r ix = line x k n ix) /\
  (st <> 1 -> span_rows x k = Throw DimensionError).
Proof.
  intros Hw (p1 & p2 & Es & ->). destruct (span_rows_ok x p1 k n p2 Hw Es) as (st & E & Hr). exists st. split; [exact E|]. destruct (Z.eqb_spec st 1) as [->|Hne].
  - destruct Hr as (r & Er & Ed & Vr). split; [intros _; exists r; rewrite Ed, pairs_mk; auto|congruence].
  - split; [contradiction|intros _; exact Hr].
Qed.
Print Assumptions C58_spans.

(** [as_contiguous] gives stride 1 and keeps every element. *)
Theorem C58_as_contiguous {A} (x : varr A) k n q : wfv (va x) -> along x k n q ->
  exists y, as_contiguous x k = Ok y /\ wfv (va y) /\ along y k n q /\ var_stride (va y) k = Ok 1 /\ forall ix, valid_at (vshape x) ix -> val y ix = val x ix.
Proof. intros Hw Ha. destruct (as_contiguous_ok x k n q Hw Ha) as (y & E & Wy & Ay & Sy & _ & Vy). exists y. auto. Qed.
Print Assumptions C58_as_contiguous.

(** [transform_subspan] applies the operation to every combination of lines, in any order of processing. *)
Theorem C58_transform {A B C W} dim size (op : list A -> list B -> list C -> res (list W)) (x : varr A) (y : varr B) (z : varr C) nx ny nz qx qy qz (F : lindex -> list W) junk order :
  dim <> InvalidDim -> 0 <= size -> wfv (va x) -> wfv (va y) -> wfv (va z) -> along x dim nx qx -> along y dim ny qy -> along z dim nz qz ->
  var_stride (va x) dim = Ok 1 -> var_stride (va y) dim = Ok 1 -> var_stride (va z) dim = Ok 1 -> agree qx qy -> agree qx qz -> agree qy qz ->
  (forall V, Permutation (order V) (zseq 0 (Z.to_nat V))) ->
  (forall ix, valid_at qx ix -> valid_at qy ix -> valid_at qz ix -> op (line x dim nx ix) (line y dim ny ix) (line z dim nz ix) = Ok (F ix) /\ zlen (F ix) = size) ->
  exists m r, (forall e, In e m <-> In e qx \/ In e qy \/ In e qz) /\ (within qy qx -> within qz qx -> m = qx) /\
    transform_subspan dim size op (AVar x) (AVar y) (AVar z) junk order = Ok r /\ wfv (va r) /\ vshape r = m ++ [(dim, size)] /\ v_readonly (va r) = false /\
    forall ix d, valid_at (vshape r) ix -> val r ix = znth d (F ix) (ix dim).
Proof.
  intros Hd Hs Wx Wy Wz Ax Ay Az Sx Sy Sz Hxy Hxz Hyz Hord Hop.
  destruct (transform_subspan_ok dim size op (AVar x) (AVar y) (AVar z) qx qy qz (line x dim nx) (line y dim ny) (line z dim nz) F junk order) as (m & r & _ & Hm & O1 & _ & E & Wr & Er & Ro & Vr); try assumption; try (apply argument_var; assumption).
  exists m, r. rewrite Er. auto 10.
Qed.
Print Assumptions C58_transform.

(** ** Histogram *)
Lemma combine_map {I A B} (f : I -> A) (g : I -> B) l : combine (map f l) (map g l) = map (fun i => (f i, g i)) l.
Proof. induction l as [|i l IH]; [reflexivity|]. cbn. rewrite IH. reflexivity. Qed.
Lemma filter_map {A B} (f : A -> B) p l : filter p (map f l) = map f (filter (fun a => p (f a)) l).
Proof. induction l as [|a l IH]; [reflexivity|]. cbn. destruct (p (f a)); cbn; rewrite IH; reflexivity. Qed.
Lemma sorted_line {A} (le : A -> A -> Prop) (f : Z -> A) n : (forall i j, 0 <= i <= j -> j < n -> le (f i) (f j)) -> StronglySorted le (map f (zseq 0 (Z.to_nat n))).
Proof.
  intros Hf. unfold zseq. rewrite map_map. assert (Hg : forall len s, (s + len <= Z.to_nat n)%nat -> StronglySorted le (map (fun k => f (0 + Z.of_nat k)) (seq s len))).
  - induction len as [|len IH]; intros s Hs; [constructor|]. cbn [seq map]. constructor; [apply IH; lia|]. apply Forall_forall. intros v Hv. apply in_map_iff in Hv as (j & <- & Hj). apply in_seq in Hj. apply Hf; lia.
  - apply Hg. lia.
Qed.

(** Each bin gets the weights of the events of its line whose coord lies in the bin; lines of data, coord and edges belong
    together if their indices agree in the common dimensions. *)
Theorem C58_histogram {W} (zero : W) add (data : varr W) (coord edges : varr Z) dim k qe e n qd qc junk order :
  wfv (va data) -> wfv (va coord) -> wfv (va edges) ->
  vshape edges = qe ++ [(dim, k)] -> along data e n qd -> along coord e n qc -> within (vshape coord) (vshape data) -> event_dim dim (vshape coord) e ->
  ~ In dim (keys qd) -> agree qd qe -> 1 <= k -> (forall V, Permutation (order V) (zseq 0 (Z.to_nat V))) ->
  (forall ix i j, valid_at qe ix -> 0 <= i <= j -> j < k -> val edges (put ix dim i) <= val edges (put ix dim j)) ->
  (forall ix, valid_at qe ix -> TargetBins_Proofs.bin_fits 64 (line edges dim k ix)) ->
  exists m r, (forall x, In x m <-> In x qd \/ In x qe) /\ (qc = [] -> within qe qd -> m = qd) /\ (within qd qc -> within qe qc -> m = qc) /\
    histogram (hist_int zero add) data coord edges junk order = Ok r /\ wfv (va r) /\ vshape r = m ++ [(dim, k - 1)] /\ v_readonly (va r) = false /\
    forall ix, valid_at (vshape r) ix ->
      val r ix = fold_left add (map (fun i => val data (put ix e i))
        (filter (fun i => (val edges ix <=? val coord (put ix e i)) && (val coord (put ix e i) <? val edges (next ix dim))) (zseq 0 (Z.to_nat n)))) zero.
Proof.
  intros Hd Hc He Es Ad Ac Hin Hev Hdim Hag Hk Hord Hsort Hfit. assert (Ae : along edges dim k qe) by (exists qe, []; rewrite app_nil_r; auto).
  set (F := fun ix => match hist_int zero add (line edges dim k ix) (combine (line coord e n ix) (line data e n ix)) with Ok o => o | _ => [] end).
  assert (HF : forall ix, valid_at qe ix -> hist_int zero add (line edges dim k ix) (combine (line coord e n ix) (line data e n ix)) = Ok (F ix) /\ zlen (F ix) = k - 1 /\
    forall i, 0 <= i < k - 1 -> znth zero (F ix) i = fold_left add (map (fun j => val data (put ix e j)) (filter (fun j => Histogram_Props.in_bin (line edges dim k ix) i (val coord (put ix e j))) (zseq 0 (Z.to_nat n)))) zero).
  { intros ix Hix. destruct (Histogram_Props.C24_histogram zero add (line edges dim k ix) (combine (line coord e n ix) (line data e n ix))) as (o & Eo & Lo & No).
    - apply (sorted_line Z.le). intros i j Hij Hj. apply Hsort; assumption.
    - apply Hfit, Hix.
    - rewrite zlen_line by lia. exact Hk.
    - rewrite zlen_line in Lo, No by lia. unfold F. rewrite Eo. split; [reflexivity|]. split; [exact Lo|]. intros i Hi. rewrite No by exact Hi. f_equal. unfold line at 2 3. rewrite combine_map, filter_map, map_map. reflexivity. }
  destruct (histogram_ok (hist_int zero add) data coord edges dim k qe e n qd qc F junk order) as (m & r & Hm & O1 & O2 & E & Wr & Er & Ro & Vr); try assumption.
  { intros ix _ Hix. destruct (HF ix Hix) as (E1 & E2 & _). auto. }
  exists m, r. split; [exact Hm|]. split; [exact O1|]. split; [exact O2|]. split; [exact E|]. split; [exact Wr|]. split; [exact Er|]. split; [exact Ro|].
  intros ix Hix. rewrite (Vr ix zero Hix). rewrite Er in Hix. apply valid_at_app in Hix as [Hm1 Hm2]. apply valid_at_cons in Hm2 as [Hi _].
  assert (Hqe : valid_at qe ix) by (intros a b Hab; apply Hm1, Hm; right; exact Hab). destruct (HF ix Hqe) as (_ & _ & N). rewrite N by exact Hi. f_equal. f_equal. apply filter_ext. intros j. unfold Histogram_Props.in_bin.
  rewrite !znth_line by lia. unfold next. assert (Hp : val edges (put ix dim (ix dim)) = val edges ix); [|rewrite Hp; reflexivity].
  apply val_same; [exact He|]. intros l _. unfold put. destruct (Z.eqb_spec l dim); [subst; reflexivity|reflexivity].
Qed.
Print Assumptions C58_histogram.

(** The same for double coords and edges. *)
Theorem C58_histogram_f64 {W} (zero : W) add (data : varr W) (coord edges : varr Float.f64) dim k qe e n qd qc junk order :
  wfv (va data) -> wfv (va coord) -> wfv (va edges) ->
  vshape edges = qe ++ [(dim, k)] -> along data e n qd -> along coord e n qc -> within (vshape coord) (vshape data) -> event_dim dim (vshape coord) e ->
  ~ In dim (keys qd) -> agree qd qe -> 1 <= k -> (forall V, Permutation (order V) (zseq 0 (Z.to_nat V))) ->
  (forall ix i j, valid_at qe ix -> 0 <= i <= j -> j < k -> Float.fleb (val edges (put ix dim i)) (val edges (put ix dim j)) = true) ->
  (forall ix, valid_at qe ix -> islinspace_f64 (line edges dim k ix) = true -> k - 1 <= 2 ^ 40 /\ Linspace_Proofs.bounded (line edges dim k ix) /\ Lookup_Props.wide_enough (line edges dim k ix) (k - 1)) ->
  exists m r, (forall x, In x m <-> In x qd \/ In x qe) /\ (qc = [] -> within qe qd -> m = qd) /\ (within qd qc -> within qe qc -> m = qc) /\
    histogram (hist_f64 zero add) data coord edges junk order = Ok r /\ wfv (va r) /\ vshape r = m ++ [(dim, k - 1)] /\ v_readonly (va r) = false /\
    forall ix, valid_at (vshape r) ix ->
      val r ix = fold_left add (map (fun i => val data (put ix e i))
        (filter (fun i => Float.fleb (val edges ix) (val coord (put ix e i)) && Float.fltb (val coord (put ix e i)) (val edges (next ix dim))) (zseq 0 (Z.to_nat n)))) zero.
Proof.
  intros Hd Hc He Es Ad Ac Hin Hev Hdim Hag Hk Hord Hsort Hfit. assert (Ae : along edges dim k qe) by (exists qe, []; rewrite app_nil_r; auto).
  set (F := fun ix => match hist_f64 zero add (line edges dim k ix) (combine (line coord e n ix) (line data e n ix)) with Ok o => o | _ => [] end).
  assert (HF : forall ix, valid_at qe ix -> hist_f64 zero add (line edges dim k ix) (combine (line coord e n ix) (line data e n ix)) = Ok (F ix) /\ zlen (F ix) = k - 1 /\
    forall i, 0 <= i < k - 1 -> znth zero (F ix) i = fold_left add (map (fun j => val data (put ix e j)) (filter (fun j => Histogram_Props.in_bin_f64 (line edges dim k ix) i (val coord (put ix e j))) (zseq 0 (Z.to_nat n)))) zero).
  { intros ix Hix. pose proof (zlen_line edges dim k ix ltac:(lia)) as Hl. destruct (Histogram_Props.C24_histogram_f64 zero add (line edges dim k ix) (combine (line coord e n ix) (line data e n ix)) (k - 1)) as (o & Eo & Lo & No).
    - apply (sorted_line (fun a b => Float.fleb a b = true)). intros i j Hij Hj. apply Hsort; assumption.
    - unfold zlen in Hl. lia.
    - lia.
    - apply Hfit, Hix.
    - unfold F. rewrite Eo. split; [reflexivity|]. split; [exact Lo|]. intros i Hi. rewrite No by exact Hi. f_equal. unfold line at 2 3. rewrite combine_map, filter_map, map_map. reflexivity. }
  destruct (histogram_ok (hist_f64 zero add) data coord edges dim k qe e n qd qc F junk order) as (m & r & Hm & O1 & O2 & E & Wr & Er & Ro & Vr); try assumption.
  { intros ix _ Hix. destruct (HF ix Hix) as (E1 & E2 & _). auto. }
  exists m, r. split; [exact Hm|]. split; [exact O1|]. split; [exact O2|]. split; [exact E|]. split; [exact Wr|]. split; [exact Er|]. split; [exact Ro|].
  intros ix Hix. rewrite (Vr ix zero Hix). rewrite Er in Hix. apply valid_at_app in Hix as [Hm1 Hm2]. apply valid_at_cons in Hm2 as [Hi _].
  assert (Hqe : valid_at qe ix) by (intros a b Hab; apply Hm1, Hm; right; exact Hab). destruct (HF ix Hqe) as (_ & _ & N). rewrite N by exact Hi. f_equal. f_equal. apply filter_ext. intros j. unfold Histogram_Props.in_bin_f64.
  rewrite !znth_line by lia. unfold next. assert (Hp : val edges (put ix dim (ix dim)) = val edges ix); [|rewrite Hp; reflexivity].
  apply val_same; [exact He|]. intros l _. unfold put. destruct (Z.eqb_spec l dim); [subst; reflexivity|reflexivity].
Qed.
Print Assumptions C58_histogram_f64.

(** ** Rebin *)
Notation overlap := Rebin_Proofs.overlap.
(** The part of the old bin [i] that lies in the new bin at [ix], on the line of [ix]. *)
Definition part (old new : varr R) (dim : Dim) (ix : lindex) (i : Z) : R :=
  (overlap (val new ix) (val new (next ix dim)) (val old (put ix dim i)) (val old (put ix dim (i + 1))) / (val old (put ix dim (i + 1)) - val old (put ix dim i)))%R.
Definition part_desc (old new : varr R) (dim : Dim) (ix : lindex) (i : Z) : R :=
  (overlap (val new (next ix dim)) (val new ix) (val old (put ix dim (i + 1))) (val old (put ix dim i)) / (val old (put ix dim i) - val old (put ix dim (i + 1))))%R.

Section RebinTheorem.
Context {W : Type}.
Variables (zero : W) (add : W -> W -> W) (scale scale' : W -> R -> W).
Hypothesis Hz : Rebin_Props.is_zero zero add.
Hypothesis Hcm : Rebin_Props.commutes add.
Hypothesis Has : Rebin_Props.associates add.
Hypothesis Hs : Rebin_Props.scales zero scale.
Hypothesis Hs' : Rebin_Props.scales zero scale'.

Lemma kernel_asc inner xnew old xold : Rebin_Proofs.increasing xold -> Rebin_Proofs.nondecreasing xnew -> zlen xold = zlen old + 1 -> 1 <= zlen xnew -> old <> [] ->
  (if inner : bool then rebin_inner Rlt_bool Rminus Rdiv Rabs zero add scale xnew old xold else rebin_non_inner Rlt_bool Rminus Rdiv Rabs zero add scale' xnew old xold) =
  Ok (map (Rebin_Props.spread zero add (if inner then scale else scale') (Rebin_Proofs.share xnew xold) old) (zseq 0 (Z.to_nat (zlen xnew - 1)))).
Proof.
  intros Ho Hn Hl H1 Hne. rewrite <- (Rebin_Props.C25_rebin zero add scale scale' inner xnew old xold) by (assumption || (intros _; assumption)). unfold Rebin_Props.rebin_R, rebin. rewrite Hl, Z.eqb_refl. cbn [negb]. destruct (Z.ltb_spec (zlen xnew) 1); [lia|].
  rewrite (Rebin_Props.nondecreasing_sorted _ (Rebin_Proofs.increasing_nondecreasing _ Ho)), (Rebin_Props.nondecreasing_sorted _ Hn). reflexivity.
Qed.
Lemma decreasing_not_sorted xold : Rebin_Props.decreasing xold -> 2 <= zlen xold -> sorted_by Rlt_bool xold = false.
Proof.
  intros Hd Hl. destruct xold as [|a [|b l]]; [rewrite zlen_nil in Hl; lia|rewrite zlen_cons, zlen_nil in Hl; lia|]. cbn [sorted_by]. specialize (Hd 0 1 ltac:(lia) ltac:(lia)). change (znth 0%R (a :: b :: l) 0) with a in Hd. change (znth 0%R (a :: b :: l) 1) with b in Hd.
  rewrite Rlt_bool_true by lra. reflexivity.
Qed.
Lemma nonincreasing_sorted x : Rebin_Props.nonincreasing x -> sorted_by (fun a b => Rlt_bool b a) x = true.
Proof.
  intros Hx. change (sorted_by Rebin_Props.Rgt_bool x = true). rewrite Rebin_Props.sorted_by_opp. apply Rebin_Props.nondecreasing_sorted. intros i j Hij Hj. rewrite zlen_map in Hj. rewrite !Rebin_Props.znth_opp. specialize (Hx i j Hij Hj). lra.
Qed.
Lemma decreasing_nonincreasing x : Rebin_Props.decreasing x -> Rebin_Props.nonincreasing x.
Proof. intros Hx i j Hij Hj. destruct (Z.eq_dec i j) as [->|]; [lra|]. specialize (Hx i j ltac:(lia) Hj). lra. Qed.
Lemma kernel_desc inner xnew old xold : Rebin_Props.decreasing xold -> Rebin_Props.nonincreasing xnew -> zlen xold = zlen old + 1 -> 1 <= zlen xnew -> old <> [] ->
  (if inner : bool then rebin_inner (fun a b => Rlt_bool b a) Rminus Rdiv Rabs zero add scale xnew old xold else rebin_non_inner (fun a b => Rlt_bool b a) Rminus Rdiv Rabs zero add scale' xnew old xold) =
  Ok (map (Rebin_Props.spread zero add (if inner then scale else scale') (Rebin_Props.share_desc xnew xold) old) (zseq 0 (Z.to_nat (zlen xnew - 1)))).
Proof.
  intros Ho Hn Hl H1 Hne. rewrite <- (Rebin_Props.C25_descending zero add scale scale' inner xnew old xold) by assumption. unfold Rebin_Props.rebin_R, rebin. rewrite Hl, Z.eqb_refl. cbn [negb]. destruct (Z.ltb_spec (zlen xnew) 1); [lia|].
  rewrite (decreasing_not_sorted _ Ho) by (destruct old; [congruence|rewrite Hl, zlen_cons; pose proof (zlen_nonneg old); lia]). cbn [andb]. rewrite (nonincreasing_sorted _ (decreasing_nonincreasing _ Ho)), (nonincreasing_sorted _ Hn). reflexivity.
Qed.

Section Data.
Variables (x : varr W) (old new : varr R) (dim : Dim) (n k st : Z) (p1 p2 qo qn : lshape) (junk : Z -> W) (order : Z -> list Z).
Hypothesis Wx : wfv (va x).
Hypothesis Wo : wfv (va old).
Hypothesis Wn : wfv (va new).
Hypothesis Ex : vshape x = p1 ++ (dim, n) :: p2.
Hypothesis Ao : along old dim (n + 1) qo.
Hypothesis An : along new dim k qn.
Hypothesis Io : within qo (p1 ++ p2).
Hypothesis In_ : within qn (p1 ++ p2).
Hypothesis Hn : 1 <= n.
Hypothesis Hk : 1 <= k.
Hypothesis Hst : var_stride (va x) dim = Ok st.
Hypothesis Hord : forall V, Permutation (order V) (zseq 0 (Z.to_nat V)).

(** Whether lines or slices are processed. *)
Definition by_lines : bool := (st =? 1) || match qo, qn with [], [] => false | _, _ => true end.

Lemma rebin_any asc (sh : list R -> list R -> Z -> Z -> R) : ordering Rlt_bool asc old new dim (n + 1) k qo qn ->
  (forall inner ix, valid_at qo ix -> valid_at qn ix -> (if inner : bool
     then rebin_inner (if asc then Rlt_bool else fun a b => Rlt_bool b a) Rminus Rdiv Rabs zero add scale (line new dim k ix) (line x dim n ix) (line old dim (n + 1) ix)
     else rebin_non_inner (if asc then Rlt_bool else fun a b => Rlt_bool b a) Rminus Rdiv Rabs zero add scale' (line new dim k ix) (line x dim n ix) (line old dim (n + 1) ix)) =
     Ok (map (Rebin_Props.spread zero add (if inner then scale else scale') (sh (line new dim k ix) (line old dim (n + 1) ix)) (line x dim n ix)) (zseq 0 (Z.to_nat (k - 1))))) ->
  exists y, rebin_nd Rlt_bool Rminus Rdiv Rabs zero add scale scale' dim x old new junk order = Ok y /\ wfv (va y) /\ vshape y = p1 ++ (dim, k - 1) :: p2 /\
    forall ix, valid_at (vshape y) ix -> val y ix = Rebin_Props.spread zero add (if by_lines then scale else scale') (sh (line new dim k ix) (line old dim (n + 1) ix)) (line x dim n ix) (ix dim).
Proof.
  intros Hor Hker. destruct by_lines eqn:Eb.
  - destruct (rebin_nd_inner Rlt_bool Rminus Rdiv Rabs zero add scale scale' x old new dim n k p1 p2 qo qn asc junk order
      (fun ix => map (Rebin_Props.spread zero add scale (sh (line new dim k ix) (line old dim (n + 1) ix)) (line x dim n ix)) (zseq 0 (Z.to_nat (k - 1)))) st) as (y & E & Wy & Sy & Vy); try assumption.
    + unfold by_lines in Eb. apply orb_true_iff in Eb as [Eb|Eb]; [left; lia|]. right. destruct qo; [|left; discriminate]. destruct qn; [discriminate|right; discriminate].
    + intros ix Hix. split; [|rewrite zlen_map, zlen_zseq; lia]. apply (Hker true); [exact (within_valid _ _ _ Io Hix)|exact (within_valid _ _ _ In_ Hix)].
    + exists y. split; [exact E|]. split; [exact Wy|]. split; [exact Sy|]. intros ix Hix. rewrite Sy in Hix. rewrite (Vy ix zero Hix). assert (Hi : 0 <= ix dim < k - 1) by (apply Hix, in_or_app; right; left; reflexivity).
      rewrite (znth_map _ 0) by (rewrite zlen_zseq; lia). rewrite znth_zseq by lia. reflexivity.
  - unfold by_lines in Eb. apply orb_false_iff in Eb as [Es Eq]. assert (qo = [] /\ qn = []) as [Eo En] by (destruct qo; [destruct qn; [auto|discriminate]|discriminate]). rewrite Eo, En in *. clear Eq.
    assert (So : vshape old = [(dim, n + 1)]). { destruct Ao as (a & b & E & E0). symmetry in E0. apply app_eq_nil in E0 as [-> ->]. exact E. }
    assert (Sn : vshape new = [(dim, k)]). { destruct An as (a & b & E & E0). symmetry in E0. apply app_eq_nil in E0 as [-> ->]. exact E. }
    destruct (rebin_nd_outer Rlt_bool Rminus Rdiv Rabs zero add scale scale' x old new dim n k p1 p2 asc junk order
      (fun ix => map (Rebin_Props.spread zero add scale' (sh (line new dim k ix) (line old dim (n + 1) ix)) (line x dim n ix)) (zseq 0 (Z.to_nat (k - 1)))) st) as (y & E & Wy & Sy & Vy); try assumption; try lia.
    + intros ix. split; [|rewrite zlen_map, zlen_zseq; lia]. apply (Hker false); intros a b [].
    + exists y. split; [exact E|]. split; [exact Wy|]. split; [exact Sy|]. intros ix Hix. rewrite Sy in Hix. rewrite (Vy ix zero Hix). assert (Hi : 0 <= ix dim < k - 1) by (apply Hix, in_or_app; right; left; reflexivity).
      rewrite (znth_map _ 0) by (rewrite zlen_zseq; lia). rewrite znth_zseq by lia. reflexivity.
Qed.

Lemma spread_eq s (sh : Z -> Z -> R) (f : lindex -> Z -> R) ix : (forall i, 0 <= i < n -> sh i (ix dim) = f ix i) ->
  Rebin_Props.spread zero add s sh (line x dim n ix) (ix dim) = fold_left add (map (fun i => s (val x (put ix dim i)) (f ix i)) (zseq 0 (Z.to_nat n))) zero.
Proof.
  intros Hsh. unfold Rebin_Props.spread. rewrite zlen_line by lia. f_equal. apply map_ext_in. intros i Hi. apply zseq_In in Hi. rewrite znth_line, Hsh by lia. reflexivity.
Qed.
Lemma line_ne ix : line x dim n ix <> [].
Proof. intros E. pose proof (zlen_line x dim n ix ltac:(lia)) as Hl. rewrite E, zlen_nil in Hl. lia. Qed.
Lemma here (y : varr R) ix : wfv (va y) -> val y (put ix dim (ix dim)) = val y ix.
Proof. intros Hw. apply val_same; [exact Hw|]. intros l _. unfold put. destruct (Z.eqb_spec l dim); [subst; reflexivity|reflexivity]. Qed.

(** Every new bin gets the parts of the old bins of its line, whichever of the three ways is taken. *)
Theorem C58_rebin : (forall ix i j, valid_at qo ix -> 0 <= i < j -> j < n + 1 -> (val old (put ix dim i) < val old (put ix dim j))%R) ->
  (forall ix i j, valid_at qn ix -> 0 <= i <= j -> j < k -> (val new (put ix dim i) <= val new (put ix dim j))%R) ->
  exists y, rebin_nd Rlt_bool Rminus Rdiv Rabs zero add scale scale' dim x old new junk order = Ok y /\ wfv (va y) /\ vshape y = p1 ++ (dim, k - 1) :: p2 /\
    forall ix, valid_at (vshape y) ix ->
      val y ix = fold_left add (map (fun i => (if by_lines then scale else scale') (val x (put ix dim i)) (part old new dim ix i)) (zseq 0 (Z.to_nat n))) zero.
Proof.
  intros Ho Hnew.
  assert (Io' : forall ix, valid_at qo ix -> Rebin_Proofs.increasing (line old dim (n + 1) ix)). { intros ix Hix i j Hij Hj. rewrite zlen_line in Hj by lia. rewrite !znth_line by lia. apply Ho; assumption. }
  assert (In' : forall ix, valid_at qn ix -> Rebin_Proofs.nondecreasing (line new dim k ix)). { intros ix Hix i j Hij Hj. rewrite zlen_line in Hj by lia. rewrite !znth_line by lia. apply Hnew; assumption. }
  destruct (rebin_any true Rebin_Proofs.share) as (y & E & Wy & Sy & Vy).
  - split; intros ix Hix; apply Rebin_Props.nondecreasing_sorted; [apply Rebin_Proofs.increasing_nondecreasing, Io', Hix|apply In', Hix].
  - intros inner ix Hxo Hxn. rewrite kernel_asc; [rewrite zlen_line by lia; reflexivity|apply Io', Hxo|apply In', Hxn|rewrite !zlen_line by lia; reflexivity|rewrite zlen_line by lia; exact Hk|apply line_ne].
  - exists y. split; [exact E|]. split; [exact Wy|]. split; [exact Sy|]. intros ix Hix. rewrite (Vy ix Hix). apply spread_eq. intros i Hi. rewrite Sy in Hix. assert (Hd : 0 <= ix dim < k - 1) by (apply Hix, in_or_app; right; left; reflexivity).
    unfold Rebin_Proofs.share, part, next. rewrite !znth_line by lia. rewrite (here new ix Wn). reflexivity.
Qed.
(** The same for descending edges. *)
Theorem C58_rebin_descending : (exists ix, valid_at (p1 ++ p2) ix) -> (forall ix i j, valid_at qo ix -> 0 <= i < j -> j < n + 1 -> (val old (put ix dim j) < val old (put ix dim i))%R) ->
  (forall ix i j, valid_at qn ix -> 0 <= i <= j -> j < k -> (val new (put ix dim j) <= val new (put ix dim i))%R) ->
  exists y, rebin_nd Rlt_bool Rminus Rdiv Rabs zero add scale scale' dim x old new junk order = Ok y /\ wfv (va y) /\ vshape y = p1 ++ (dim, k - 1) :: p2 /\
    forall ix, valid_at (vshape y) ix ->
      val y ix = fold_left add (map (fun i => (if by_lines then scale else scale') (val x (put ix dim i)) (part_desc old new dim ix i)) (zseq 0 (Z.to_nat n))) zero.
Proof.
  intros (ix0 & Hix0) Ho Hnew.
  assert (Io' : forall ix, valid_at qo ix -> Rebin_Props.decreasing (line old dim (n + 1) ix)). { intros ix Hix i j Hij Hj. rewrite zlen_line in Hj by lia. rewrite !znth_line by lia. apply Ho; assumption. }
  assert (In' : forall ix, valid_at qn ix -> Rebin_Props.nonincreasing (line new dim k ix)). { intros ix Hix i j Hij Hj. rewrite zlen_line in Hj by lia. rewrite !znth_line by lia. apply Hnew; assumption. }
  destruct (rebin_any false Rebin_Props.share_desc) as (y & E & Wy & Sy & Vy).
  - split; [|split; intros ix Hix; apply nonincreasing_sorted; [apply decreasing_nonincreasing, Io', Hix|apply In', Hix]].
    intros [Hso _]. specialize (Hso ix0 (within_valid _ _ _ Io Hix0)). rewrite decreasing_not_sorted in Hso; [discriminate|apply Io', (within_valid _ _ _ Io Hix0)|rewrite zlen_line by lia; lia].
  - intros inner ix Hxo Hxn. rewrite kernel_desc; [rewrite zlen_line by lia; reflexivity|apply Io', Hxo|apply In', Hxn|rewrite !zlen_line by lia; reflexivity|rewrite zlen_line by lia; exact Hk|apply line_ne].
  - exists y. split; [exact E|]. split; [exact Wy|]. split; [exact Sy|]. intros ix Hix. rewrite (Vy ix Hix). apply spread_eq. intros i Hi. rewrite Sy in Hix. assert (Hd : 0 <= ix dim < k - 1) by (apply Hix, in_or_app; right; left; reflexivity).
    unfold Rebin_Props.share_desc, part_desc, next. rewrite !znth_line by lia. rewrite (here new ix Wn). reflexivity.
Qed.
End Data.
End RebinTheorem.
Print Assumptions C58_rebin.
Print Assumptions C58_rebin_descending.

(** ** cases *)
Definition arr {A} (d : A) (l : lshape) (xs : list A) : varr A := mkva (fun a => nth (Z.to_nat a) xs d) (var_fresh (mk l)).
(** Two dimensions with the elements stored column by column. *)
Definition columns {A} (d : A) (l : lshape) (n : Z) (xs : list A) : varr A := mkva (fun a => nth (Z.to_nat a) xs d) (mkvar (mk l) [1; n] 0 false (zlen xs)).
Lemma arr_ok {A} (d : A) l xs : lwf l -> wfv (va (arr d l xs)) /\ vshape (arr d l xs) = l.
Proof.
  intros Hl. unfold vshape, vdims, arr. cbn [va]. split; [|apply pairs_mk]. rewrite fresh_SV by apply Hl. apply SV_wfv; [exact Hl|]. apply sfc_nonneg. exact Hl.
Qed.
Lemma columns_ok {A} (d : A) l n xs : lwf l -> length l = 2%nat -> 0 <= n -> wfv (va (columns d l n xs)) /\ vshape (columns d l n xs) = l.
Proof.
  intros Hl H2 Hn. unfold vshape, vdims, columns. cbn [va]. split; [|apply pairs_mk]. split; [apply wf_mk, Hl|]. cbn [v_strides v_dims]. split; [|repeat constructor; lia]. destruct l as [|? [|? [|? ?]]]; try discriminate. reflexivity.
Qed.
Ltac lwf_tac := split; [repeat (constructor; [cbn; intuition lia|]); constructor|split; [repeat constructor; cbn; lia|cbn; intuition discriminate]].
Definition values_of {A} (r : res (varr A)) : option (lshape * list A) := match r with Ok y => Some (vshape y, row_major_elements y) | _ => None end.
Definition forwards (V : Z) : list Z := zseq 0 (Z.to_nat V).
Definition backwards (V : Z) : list Z := rev (zseq 0 (Z.to_nat V)).
Lemma backwards_ok V : Permutation (backwards V) (zseq 0 (Z.to_nat V)).
Proof. apply Permutation_sym, Permutation_rev. Qed.

(** Two rows (dimension 2) of three events (dimension 3), stored column by column; coords and edges for every row. *)
Definition table : varr Z := columns (-99) [(2, 2); (3, 3)] 2 [1; 100; 10; 200; 20; 300].
Definition coords : varr Z := arr (-99) [(2, 2); (3, 3)] [5; 15; 16; 25; 35; 5].
Definition bins2 : varr Z := arr (-99) [(2, 2); (3, 3)] [0; 10; 20; 20; 30; 40].
Lemma table_ok : wfv (va table) /\ vshape table = [(2, 2); (3, 3)].
Proof. apply columns_ok; [lwf_tac|reflexivity|lia]. Qed.
Lemma coords_ok : wfv (va coords) /\ vshape coords = [(2, 2); (3, 3)].
Proof. apply arr_ok. lwf_tac. Qed.
Lemma bins2_ok : wfv (va bins2) /\ vshape bins2 = [(2, 2); (3, 3)].
Proof. apply arr_ok. lwf_tac. Qed.
Example C58_spans_case : var_stride (va table) 3 = Ok 2 /\ span_rows table 3 = Throw DimensionError /\ var_stride (va coords) 3 = Ok 1 /\ line coords 3 3 (fun _ => 1) = [25; 35; 5] /\ along coords 3 3 [(2, 2)].
Proof. split; [reflexivity|]. split; [reflexivity|]. split; [reflexivity|]. split; [reflexivity|]. exists [(2, 2)], []. split; [apply coords_ok|reflexivity]. Qed.
Example C58_as_contiguous_case : values_of (as_contiguous table 3) = Some ([(2, 2); (3, 3)], [1; 10; 20; 100; 200; 300]) /\ values_of (as_contiguous coords 2) = Some ([(3, 3); (2, 2)], [5; 25; 15; 35; 16; 5]).
Proof. vm_compute. auto. Qed.
(** Sums along the rows: one row for each element of [bins2], summed with broadcast arguments. *)
Example C58_transform_case : values_of (transform_subspan 3 2 (fun a b c => Ok [sumZ a + sumZ b; sumZ c]) (AVar coords) (AVar bins2) (AVar (arr (-99) [(4, 2); (3, 1)] [7; 8])) (fun _ => -7) backwards) =
  Some ([(2, 2); (4, 2); (3, 2)], [66; 7; 66; 8; 155; 7; 155; 8]).
Proof. vm_compute. reflexivity. Qed.
Example C58_histogram_case : values_of (histogram (hist_int 0 Z.add) table coords bins2 (fun _ => -7) backwards) = Some ([(2, 2); (3, 2)], [1; 30; 100; 200]).
Proof. vm_compute. reflexivity. Qed.
(** Double coords and edges; the steps of the first row differ, those of the second do not. *)
Definition reals (l : list Z) : list Float.f64 := map Float.f_of_Z l.
Example C58_histogram_f64_case :
  values_of (histogram (hist_f64 0 Z.add) table (arr (Float.f_of_Z 0) [(2, 2); (3, 3)] (reals [5; 15; 16; 25; 35; 5])) (arr (Float.f_of_Z 0) [(2, 2); (3, 3)] (reals [0; 10; 16; 20; 30; 40])) (fun _ => -7) backwards) = Some ([(2, 2); (3, 2)], [1; 10; 100; 200]).
Proof. vm_compute. reflexivity. Qed.
Example C58_histogram_hyp_case : exists r, histogram (hist_int 0 Z.add) table coords bins2 (fun _ => -7) backwards = Ok r /\ vshape r = [(2, 2); (3, 2)].
Proof.
  assert (Hix : forall ix i, valid_at [(2, 2)] ix -> 0 <= i < 3 -> val bins2 (put ix 3 i) = 20 * ix 2 + 10 * i).
  { intros ix i Hix Hi. specialize (Hix 2 2 ltac:(left; reflexivity)). unfold val, vaddr, bins2, arr. cbn. unfold put. cbn. assert (ix 2 = 0 \/ ix 2 = 1) as [-> | ->] by lia; assert (i = 0 \/ i = 1 \/ i = 2) as [-> | [-> | ->]] by lia; reflexivity. }
  destruct (C58_histogram 0 Z.add table coords bins2 3 3 [(2, 2)] 3 3 [(2, 2)] [(2, 2)] (fun _ => -7) backwards) as (m & r & _ & _ & O2 & E & _ & Er & _); try apply table_ok; try apply coords_ok; try apply bins2_ok.
  - exists [(2, 2)], []. split; [apply table_ok|reflexivity].
  - exists [(2, 2)], []. split; [apply coords_ok|reflexivity].
  - intros z Hz. rewrite (proj2 table_ok). rewrite (proj2 coords_ok) in Hz. exact Hz.
  - right. rewrite (proj2 coords_ok). split; [reflexivity|reflexivity].
  - cbn. lia.
  - intros a b c [Hb|[]] [Hc|[]]. congruence.
  - lia.
  - exact backwards_ok.
  - intros ix i j Hx Hij Hj. rewrite !Hix by (assumption || lia). lia.
  - intros ix Hx. unfold line. change (zseq 0 (Z.to_nat 3)) with [0; 1; 2]. cbn [map]. rewrite !Hix by (assumption || lia). specialize (Hx 2 2 ltac:(left; reflexivity)). assert (ix 2 = 0 \/ ix 2 = 1) as [-> | ->] by lia; vm_compute; repeat split; discriminate.
  - exists r. split; [exact E|]. rewrite Er, O2; [reflexivity| |]; intros z Hz; exact Hz.
Qed.

(** Coord named after the dimension of the edges that has one element more than the data along another dimension: not taken as bin
    edges, the weight behind the last one is read. *)
Theorem C58_weights_refuted : exists (data coord edges : varr Z), wfv (va data) /\ wfv (va coord) /\ wfv (va edges) /\ vshape data = [(2, 2)] /\ vshape coord = [(2, 3)] /\ vshape edges = [(3, 3)] /\
  forall junk order, order 1 = [0] -> histogram (hist_int 0 Z.add) data coord edges junk order = Ub.
Proof.
  exists (arr 0 [(2, 2)] [1; 2]), (arr 0 [(2, 3)] [5; 15; 5]), (arr 0 [(3, 3)] [0; 10; 20]). split; [apply arr_ok; lwf_tac|]. split; [apply arr_ok; lwf_tac|]. split; [apply arr_ok; lwf_tac|]. split; [reflexivity|]. split; [reflexivity|]. split; [reflexivity|].
  intros junk order Ho. unfold histogram, transform_subspan. cbn -[hist_int]. rewrite Ho. reflexivity.
Qed.
Print Assumptions C58_weights_refuted.
(** A 1-D coord along one of two dimensions of the data, the other being that of the edges: rejected. *)
Theorem C58_both_dims_refuted : exists (data coord edges : varr Z), wfv (va data) /\ wfv (va coord) /\ wfv (va edges) /\ vshape data = [(2, 2); (3, 2)] /\ vshape coord = [(2, 2)] /\ vshape edges = [(3, 3)] /\
  exists e, forall junk order, histogram (hist_int 0 Z.add) data coord edges junk order = Throw e.
Proof.
  exists (arr 0 [(2, 2); (3, 2)] [1; 2; 3; 4]), (arr 0 [(2, 2)] [5; 15]), (arr 0 [(3, 3)] [0; 10; 20]). split; [apply arr_ok; lwf_tac|]. split; [apply arr_ok; lwf_tac|]. split; [apply arr_ok; lwf_tac|]. split; [reflexivity|]. split; [reflexivity|]. split; [reflexivity|].
  eexists. intros junk order. vm_compute. reflexivity.
Qed.
Print Assumptions C58_both_dims_refuted.
(** Spans of one element would not need stride 1. *)
Theorem C58_stride_refuted : exists x : varr Z, wfv (va x) /\ along x 3 1 [(2, 2)] /\ span_rows x 3 = Throw DimensionError.
Proof.
  exists (columns 0 [(2, 2); (3, 1)] 2 [1; 2]). split; [apply columns_ok; [lwf_tac|reflexivity|lia]|]. split; [exists [(2, 2)], []; split; reflexivity|reflexivity].
Qed.
Print Assumptions C58_stride_refuted.

(** Two rows of one bin with value and variance; halved by the new edges. *)
Section Layout.
Let x1 : varr (R * R) := arr (0, 0)%R [(2, 2); (3, 1)] [(2, 4)%R; (2, 4)%R].
Let x2 : varr (R * R) := columns (0, 0)%R [(2, 2); (3, 1)] 2 [(2, 4)%R; (2, 4)%R].
Let old1 : varr R := arr 0%R [(3, 2)] [0; 2]%R.
Let new1 : varr R := arr 0%R [(3, 2)] [0; 1]%R.
Lemma old1_val ix i : 0 <= i < 2 -> val old1 (put ix 3 i) = (2 * IZR i)%R.
Proof. intros Hi. unfold val, vaddr, old1, arr. cbn. unfold put. cbn. assert (i = 0 \/ i = 1) as [-> | ->] by lia; [replace (2 * 0)%R with 0%R by lra|replace (2 * 1)%R with 2%R by lra]; reflexivity. Qed.
Lemma new1_val ix i : 0 <= i < 2 -> val new1 (put ix 3 i) = IZR i.
Proof. intros Hi. unfold val, vaddr, new1, arr. cbn. unfold put. cbn. assert (i = 0 \/ i = 1) as [-> | ->] by lia; reflexivity. Qed.
Lemma rebin_layout (x : varr (R * R)) st junk order : wfv (va x) -> vshape x = [(2, 2); (3, 1)] -> var_stride (va x) 3 = Ok st -> (forall V, Permutation (order V) (zseq 0 (Z.to_nat V))) ->
  exists y, rebin_nd Rlt_bool Rminus Rdiv Rabs (0, 0)%R Rebin_Props.add2 Rebin_Props.scale_both Rebin_Props.scale_square 3 x old1 new1 junk order = Ok y /\ vshape y = [(2, 2); (3, 1)] /\
    val y (fun _ => 0) = Rebin_Props.add2 (0, 0)%R ((if st =? 1 then Rebin_Props.scale_both else Rebin_Props.scale_square) (val x (fun _ => 0)) (/ 2)%R).
Proof.
  intros Wx Ex Hst Hord. destruct Rebin_Props.C25_case as (A1 & A2 & A3 & A4 & A5 & _ & _).
  destruct (C58_rebin (0, 0)%R Rebin_Props.add2 Rebin_Props.scale_both Rebin_Props.scale_square A1 A2 A3 A4 A5 x old1 new1 3 1 2 st [(2, 2)] [] [] [] junk order) as (y & E & _ & Sy & Vy); try assumption; try lia; try (apply arr_ok; lwf_tac).
  - exists [], []. split; reflexivity.
  - exists [], []. split; reflexivity.
  - intros z [].
  - intros z [].
  - intros ix i j _ Hij Hj. rewrite !old1_val by lia. assert (i = 0 /\ j = 1) as [-> ->] by lia. lra.
  - intros ix i j _ Hij Hj. rewrite !new1_val by lia. apply IZR_le. lia.
  - exists y. split; [exact E|]. split; [exact Sy|]. rewrite Vy by (rewrite Sy; intros k n Hk; cbn in Hk; destruct Hk as [Hk|[Hk|[]]]; injection Hk as <- <-; lia).
    change (zseq 0 (Z.to_nat 1)) with [0]. cbn [map fold_left]. unfold by_lines. rewrite orb_false_r.
    assert (Hp : part old1 new1 3 (fun _ => 0) 0 = (/ 2)%R).
    { unfold part, next. change (0 + 1)%Z with 1. rewrite !old1_val, new1_val by lia. assert (Hh : val new1 (fun _ => 0) = IZR 0) by (rewrite <- (here 3 new1 (fun _ => 0)) by (apply arr_ok; lwf_tac); apply new1_val; lia). rewrite Hh. unfold Rebin_Proofs.overlap, Rmin, Rmax. repeat destruct (Rle_dec _ _); lra. }
    rewrite Hp. do 2 f_equal. apply val_same; [exact Wx|]. intros l _. unfold put. destruct (l =? 3); reflexivity.
Qed.
(** Arrays with the same elements: the variances depend on the layout of the memory. *)
Theorem C58_layout_refuted : exists (x x' : varr (R * R)) (old new : varr R), wfv (va x) /\ wfv (va x') /\ vshape x = vshape x' /\ (forall ix, valid_at (vshape x) ix -> val x ix = val x' ix) /\
  exists y y', rebin_nd Rlt_bool Rminus Rdiv Rabs (0, 0)%R Rebin_Props.add2 Rebin_Props.scale_both Rebin_Props.scale_square 3 x old new (fun _ => (0, 0)%R) forwards = Ok y /\
    rebin_nd Rlt_bool Rminus Rdiv Rabs (0, 0)%R Rebin_Props.add2 Rebin_Props.scale_both Rebin_Props.scale_square 3 x' old new (fun _ => (0, 0)%R) forwards = Ok y' /\
    vshape y = vshape y' /\ val y (fun _ => 0) = (1, 2)%R /\ val y' (fun _ => 0) = (1, 1)%R.
Proof.
  assert (W1 : wfv (va x1) /\ vshape x1 = [(2, 2); (3, 1)]) by (apply arr_ok; lwf_tac). assert (W2 : wfv (va x2) /\ vshape x2 = [(2, 2); (3, 1)]) by (apply columns_ok; [lwf_tac|reflexivity|lia]).
  exists x1, x2, old1, new1. split; [apply W1|]. split; [apply W2|]. split; [rewrite (proj2 W1), (proj2 W2); reflexivity|]. split.
  - intros ix Hix. rewrite (proj2 W1) in Hix. pose proof (Hix 2 2 ltac:(left; reflexivity)). pose proof (Hix 3 1 ltac:(right; left; reflexivity)). unfold val, vaddr, x1, x2, arr, columns. cbn. assert (ix 3 = 0) as -> by lia. assert (ix 2 = 0 \/ ix 2 = 1) as [-> | ->] by lia; reflexivity.
  - destruct (rebin_layout x1 1 (fun _ => (0, 0)%R) forwards) as (y & E & Sy & Vy); try apply W1; [reflexivity|intros V; apply Permutation_refl|].
    destruct (rebin_layout x2 2 (fun _ => (0, 0)%R) forwards) as (y' & E' & Sy' & Vy'); try apply W2; [reflexivity|intros V; apply Permutation_refl|].
    exists y, y'. split; [exact E|]. split; [exact E'|]. split; [rewrite Sy, Sy'; reflexivity|]. rewrite Vy, Vy'. unfold val, vaddr, x1, x2, arr, columns, Rebin_Props.add2, Rebin_Props.scale_both, Rebin_Props.scale_square. cbn. split; f_equal; lra.
Qed.
End Layout.
Print Assumptions C58_layout_refuted.

(** Integers stand for the numbers here. *)
Definition rebin_Z := rebin_nd Z.ltb Z.sub Z.div Z.abs 0 Z.add Z.mul Z.mul.
(** Edges of every row, data by rows and by columns, ascending and descending. *)
Example C58_rebin_case :
  let old := arr 0 [(2, 2); (3, 4)] [0; 1; 2; 3; 1; 2; 3; 4] in let new := arr 0 [(3, 3)] [0; 2; 4] in
  values_of (rebin_Z 3 table old new (fun _ => -7) backwards) = Some ([(2, 2); (3, 2)], [11; 20; 100; 500]) /\
  values_of (rebin_Z 3 (arr 0 [(2, 2); (3, 3)] [1; 10; 20; 100; 200; 300]) old new (fun _ => -7) backwards) = Some ([(2, 2); (3, 2)], [11; 20; 100; 500]) /\
  values_of (rebin_Z 3 table (arr 0 [(3, 4)] [0; 1; 2; 3]) new (fun _ => -7) backwards) = Some ([(2, 2); (3, 2)], [11; 20; 300; 300]) /\
  values_of (rebin_Z 3 table (arr 0 [(3, 4)] [3; 2; 1; 0]) (arr 0 [(3, 3)] [4; 2; 0]) (fun _ => -7) backwards) = Some ([(2, 2); (3, 2)], [1; 30; 100; 500]).
Proof. vm_compute. auto. Qed.
(** New edges that depend on a dimension which the data do not have are rejected, although every line could be computed. *)
Theorem C58_new_dim_refuted : exists (x old new : varr Z), wfv (va x) /\ wfv (va old) /\ wfv (va new) /\ vshape x = [(3, 2)] /\ vshape old = [(3, 3)] /\ vshape new = [(2, 2); (3, 3)] /\
  exists e, rebin_Z 3 x old new (fun _ => 0) forwards = Throw e.
Proof.
  exists (arr 0 [(3, 2)] [1; 2]), (arr 0 [(3, 3)] [0; 1; 2]), (arr 0 [(2, 2); (3, 3)] [0; 1; 2; 0; 1; 2]). split; [apply arr_ok; lwf_tac|]. split; [apply arr_ok; lwf_tac|]. split; [apply arr_ok; lwf_tac|]. split; [reflexivity|]. split; [reflexivity|]. split; [reflexivity|].
  eexists. vm_compute. reflexivity.
Qed.
Print Assumptions C58_new_dim_refuted.
