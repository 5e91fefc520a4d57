(** Proofs about the concatenation of data arrays. *)
From Verif Require Import Base Map_Model Dims_Model Dims_Spec Dims_Proofs Index_Model View_Model View_Spec View_Proofs SizedDict_Model SizedDict_Spec SizedDict_Proofs
  Transform_Model Transform_Spec Transform_Proofs Concat_Model Concat_Spec Concat_Proofs ConcatDa_Model ConcatDa_Spec.

(** ** Addresses depend on the index at the dimensions only *)
Lemma vaddr_agree v ix ix' : wfv v -> same_at (pairs (v_dims v)) ix ix' -> vaddr v ix = vaddr v ix'.
Proof.
  intros Hv Hs. unfold vaddr. do 2 f_equal. apply map_ext_in. intros k Hk. apply Hs. destruct Hv as (Hd & _).
  destruct (wf_mk_pairs _ Hd) as [E _]. rewrite E in Hk. unfold labels, mk in Hk. cbn [m_keys] in Hk. exact Hk.
Qed.
Lemma value_agree {A} (h : heap A) a ix ix' : wfv (a_var a) -> same_at (ashape a) ix ix' -> value_at h a ix = value_at h a ix'.
Proof. intros Hv Hs. unfold value_at. do 2 f_equal. apply vaddr_agree; assumption. Qed.
Lemma put_twice ix k x y j : put (put ix k x) k y j = put ix k y j.
Proof. unfold put. destruct (j =? k); reflexivity. Qed.

(** ** The dimension of an array *)
Lemma split_dim dim a : wfv (a_var a) -> In dim (keys (ashape a)) -> exists p1 p2, ashape a = p1 ++ (dim, part dim a) :: p2 /\ lwf (p1 ++ (dim, part dim a) :: p2) /\
  ~ In dim (keys p1) /\ ~ In dim (keys p2) /\ rest dim a = p1 ++ p2.
Proof.
  intros Hw Hk. destruct (wf_mk_pairs _ (proj1 Hw)) as [_ Hl]. change (lwf (ashape a)) in Hl. unfold part, rest. destruct (extent (ashape a) dim) as [n|] eqn:E.
  - destruct (extent_split _ _ _ E) as (p1 & p2 & Ep & H1). rewrite Ep in Hl. destruct (lwf_app _ _ _ _ Hl) as (_ & _ & _ & H2 & _).
    exists p1, p2. split; [exact Ep|]. split; [exact Hl|]. split; [exact H1|]. split; [exact H2|]. rewrite Ep, filter_app. cbn [filter fst]. rewrite Z.eqb_refl. cbn [negb].
    assert (Hf : forall p, ~ In dim (keys p) -> filter (fun e : Z * Z => negb (fst e =? dim)) p = p).
    { induction p as [|[k m] p IH]; intros Hn; [reflexivity|]. cbn [filter fst]. cbn [keys map fst In] in Hn. destruct (Z.eqb_spec k dim) as [->|Hne]; [exfalso; apply Hn; left; reflexivity|].
      cbn [negb]. f_equal. apply IH. intros Hx. apply Hn. right. exact Hx. }
    rewrite !Hf by assumption. reflexivity.
  - exfalso. apply extent_None in E. contradiction.
Qed.
Lemma dat_part dim a : wfv (a_var a) -> In dim (keys (ashape a)) -> dat (a_dims a) dim = Ok (part dim a).
Proof.
  intros Hw Hk. destruct (wf_mk_pairs _ (proj1 Hw)) as [Em Hl]. fold (a_dims a) in Em, Hl. fold (ashape a) in Em, Hl. rewrite Em, dat_mk by apply Hl.
  unfold part. destruct (extent (ashape a) dim) eqn:E; [reflexivity|]. apply extent_None in E. contradiction.
Qed.

(** Point slices *)
Lemma point_slice dim a k : wfv (a_var a) -> In dim (keys (ashape a)) ->
  (0 <= k < part dim a -> exists v, (do s <- slice_point dim k; var_slice (a_var a) s) = Ok v /\ wfv v /\ pairs (v_dims v) = rest dim a /\
     forall ix, valid_at (rest dim a) ix -> vaddr v ix = vaddr (a_var a) (put ix dim k)) /\
  (~ 0 <= k < part dim a -> (do s <- slice_point dim k; var_slice (a_var a) s) = Throw SliceError).
Proof.
  intros Hw Hk. destruct (split_dim dim a Hw Hk) as (p1 & p2 & Ep & Hl & H1 & H2 & Er). destruct (lwf_app _ _ _ _ Hl) as (_ & Hn & _ & _ & Hinv).
  unfold slice_point. destruct (Z.ltb_spec k 0) as [Hk0|Hk0]; [split; [intros Hx; exfalso; lia|reflexivity]|]. cbn [bind]. set (s := mkslice dim k (-1) 1).
  assert (Hs : slice_ok s) by (right; cbn; lia). assert (Ed : slice_eqb s slice_default = false).
  { unfold slice_eqb. cbn. replace (k =? -1) with false by lia. rewrite andb_false_r. reflexivity. }
  pose proof (slice_accept (a_var a) s Hw Hs) as Ha. change (pairs (v_dims (a_var a))) with (ashape a) in Ha. unfold slice_dims in Ha. rewrite Ed in Ha. cbn [s_dim s_end s_begin s] in Ha.
  assert (Ex : extent (ashape a) dim = Some (part dim a)).
  { apply extent_In; [rewrite Ep; apply Hl|]. rewrite Ep at 1. apply in_or_app. right. left. reflexivity. }
  rewrite Ex in Ha. cbn [Z.eqb] in Ha. destruct (Z.ltb_spec k (part dim a)) as [Hlt|Hge].
  - split; [|intros Hx; exfalso; lia]. intros _. destruct Ha as (v & E & Epv & Wv & _ & _ & Hadr). exists v. split; [exact E|]. split; [exact Wv|]. split; [exact Epv|].
    intros ix Hix. destruct (Hadr ix) as [_ Hx]; [exact Hix|]. unfold pull in Hx. rewrite Ed in Hx. cbn [s_dim s_end s_begin s Z.eqb] in Hx. exact Hx.
  - split; [intros Hx; exfalso; lia|]. intros _. exact Ha.
Qed.

(** The slice without the first element *)
Definition tail_of (dim : Dim) (a b : arr) : Prop :=
  a_buf b = a_buf a /\ wfv (a_var b) /\ ashape b = map (fun e => if fst e =? dim then (dim, part dim a - 1) else e) (ashape a) /\
  forall ix, valid_at (ashape b) ix -> vaddr (a_var b) ix = vaddr (a_var a) (put ix dim (1 + ix dim)).
Lemma tail_slice dim a : wfv (a_var a) -> In dim (keys (ashape a)) -> 1 <= part dim a ->
  exists v, (do m <- dat (a_dims a) dim; do s <- slice_range dim 1 m 1; var_slice (a_var a) s) = Ok v /\ tail_of dim a (mkarr (a_buf a) v).
Proof.
  intros Hw Hk Hp. rewrite (dat_part dim a Hw Hk). cbn [bind]. destruct (split_dim dim a Hw Hk) as (p1 & p2 & Ep & Hl & H1 & H2 & Er). destruct (lwf_app _ _ _ _ Hl) as (_ & Hn & _ & _ & Hinv).
  unfold slice_range. replace (1 <? 0) with false by lia. replace (1 >? part dim a) with false by lia. rewrite andb_false_r. cbn [Z.eqb Z.ltb Z.compare bind].
  set (s := mkslice dim 1 (part dim a) 1). assert (Hs : slice_ok s) by (right; cbn; lia).
  assert (Ed : slice_eqb s slice_default = false) by (unfold slice_eqb; cbn; replace (part dim a =? -1) with false by lia; rewrite andb_false_r; reflexivity).
  pose proof (slice_accept (a_var a) s Hw Hs) as Ha. change (pairs (v_dims (a_var a))) with (ashape a) in Ha. unfold slice_dims in Ha. rewrite Ed in Ha. cbn [s_dim s_end s_begin s_stride s] in Ha.
  assert (Ex : extent (ashape a) dim = Some (part dim a)).
  { apply extent_In; [rewrite Ep; apply Hl|]. rewrite Ep at 1. apply in_or_app. right. left. reflexivity. }
  rewrite Ex in Ha. replace (part dim a =? -1) with false in Ha by lia. replace (part dim a <=? part dim a) with true in Ha by lia.
  destruct Ha as (v & E & Epv & Wv & _ & _ & Hadr). exists v. split; [exact E|]. split; [reflexivity|]. cbn [a_buf a_var]. split; [exact Wv|].
  assert (Esh : ashape (mkarr (a_buf a) v) = map (fun e => if fst e =? dim then (dim, part dim a - 1) else e) (ashape a)).
  { unfold ashape at 1, a_dims. cbn [a_var]. rewrite Epv. apply map_ext. intros [k m]. cbn [fst]. destruct (Z.eqb_spec k dim) as [->|]; [|reflexivity].
    f_equal. unfold ceil_div. rewrite Z.div_1_r. lia. }
  split; [exact Esh|]. intros ix Hix. unfold ashape, a_dims in Hix. cbn [a_var] in Hix. rewrite Epv in Hix. destruct (Hadr ix Hix) as [_ Hx]. rewrite Hx. unfold pull. rewrite Ed. cbn [s_dim s_end s_begin s_stride s].
  replace (part dim a =? -1) with false by lia. rewrite Z.mul_1_l. reflexivity.
Qed.

Lemma tail_facts dim a b : wfv (a_var a) -> In dim (keys (ashape a)) -> tail_of dim a b -> In dim (keys (ashape b)) /\ part dim b = part dim a - 1 /\ rest dim b = rest dim a /\
  forall k m, k <> dim -> (In (k, m) (ashape b) <-> In (k, m) (ashape a)).
Proof.
  intros Hw Hk (_ & Wb & Es & _). destruct (split_dim dim a Hw Hk) as (p1 & p2 & Ep & Hl & H1 & H2 & Er). rewrite Ep, map_split in Es by assumption.
  assert (Hkb : In dim (keys (ashape b))) by (rewrite Es, keys_app; apply in_or_app; right; left; reflexivity).
  split; [exact Hkb|]. destruct (split_dim dim b Wb Hkb) as (q1 & q2 & Eq & Hlq & G1 & G2 & Erq).
  assert (Hu : part dim b = part dim a - 1 /\ q1 = p1 /\ q2 = p2).
  { rewrite Eq in Es. revert Es G1 H1. clear. revert p1. induction q1 as [|[k m] q1 IH]; intros [|[k' m'] p1] E G1 H1; cbn in E.
    - injection E as E1 E2. auto.
    - injection E as <- E2 E3. exfalso. apply H1. left. reflexivity.
    - injection E as -> E2 E3. exfalso. apply G1. left. reflexivity.
    - injection E as <- <- E. destruct (IH p1 E) as (? & -> & ->); [intros X; apply G1; right; exact X|intros X; apply H1; right; exact X|]. auto. }
  destruct Hu as (Hu & -> & ->). split; [exact Hu|]. split; [congruence|]. intros k m Hne. rewrite Es, Ep, !in_app_iff. cbn [In]. split; intros [X|[[= E _]|X]]; auto; congruence.
Qed.

(** ** Comparison *)
Lemma zseq_In k n : In k (zseq 0 n) <-> 0 <= k < Z.of_nat n.
Proof. unfold zseq. rewrite in_map_iff. split; [intros (i & <- & Hi); apply in_seq in Hi; lia|]. intros Hk. exists (Z.to_nat k). split; [lia|apply in_seq; lia]. Qed.
Lemma all_equal_iff {A} (f : A -> A -> bool) g h n : all_equal f (map g (zseq 0 n)) (map h (zseq 0 n)) = true <-> forall k, 0 <= k < Z.of_nat n -> f (g k) (h k) = true.
Proof.
  assert (Hg : forall l, all_equal f (map g l) (map h l) = true <-> forall k, In k l -> f (g k) (h k) = true).
  { induction l as [|x l IH]; cbn [map all_equal]; [split; [intros _ k []|reflexivity]|]. rewrite andb_true_iff, IH. split.
    - intros [H1 H2] k [<-|Hk]; [exact H1|apply H2, Hk].
    - intros Hx. split; [apply Hx; left; reflexivity|intros k Hk; apply Hx; right; exact Hk]. }
  rewrite Hg. split; intros Hx k Hk; apply Hx; [apply zseq_In; lia|apply zseq_In in Hk; lia].
Qed.
Lemma compare_iff {A} (f : A -> A -> bool) w a b : wfv (a_var a) -> wfv (a_var b) -> compare f w a b = true <->
  w_unit w (a_buf a) = w_unit w (a_buf b) /\ ashape a = ashape b /\ forall ix, valid_at (ashape a) ix -> f (value_at (w_heap w) a ix) (value_at (w_heap w) b ix) = true.
Proof.
  intros Ha Hb. unfold compare. rewrite !andb_true_iff, Z.eqb_eq.
  assert (Ed : dims_eqb (a_dims a) (a_dims b) = true <-> ashape a = ashape b).
  { destruct (wf_mk_pairs _ (proj1 Ha)) as [Ea _]. destruct (wf_mk_pairs _ (proj1 Hb)) as [Eb _]. unfold a_dims. rewrite Ea, Eb. unfold ashape, a_dims. unfold dims_eqb, mk. cbn [m_keys m_values labels shape].
    rewrite andb_true_iff, !leqb_eq. split.
    - intros [E2 E1]. revert E1 E2. generalize (pairs (v_dims (a_var a))) as p, (pairs (v_dims (a_var b))) as q. unfold keys, extents.
      induction p as [|[k n] p IH]; intros [|[k' n'] q] E1 E2; cbn in E1, E2; try discriminate; [reflexivity|]. injection E1 as <- E1. injection E2 as <- E2. f_equal. apply IH; assumption.
    - intros ->. split; reflexivity. }
  rewrite Ed. split.
  - intros [[Hu Es] He]. split; [exact Hu|]. split; [exact Es|]. intros ix Hix.
    assert (Edd : a_dims b = a_dims a).
    { destruct (wf_mk_pairs _ (proj1 Ha)) as [Ea _]. destruct (wf_mk_pairs _ (proj1 Hb)) as [Eb _]. unfold a_dims. rewrite Ea, Eb. f_equal. symmetry. exact Es. }
    unfold elements in He. rewrite Edd in He. rewrite (all_equal_iff f _ _ (Z.to_nat (volume (a_dims a)))) in He.
    destruct (index_of_inside (a_dims a) ix (proj1 Ha) Hix) as (k & Hk & Hs). specialize (He k ltac:(lia)).
    rewrite (value_agree (w_heap w) a _ ix Ha Hs), (value_agree (w_heap w) b _ ix Hb) in He; [exact He|]. rewrite <- Es. exact Hs.
  - intros (Hu & Es & He). split; [split; assumption|].
    assert (Edd : a_dims b = a_dims a).
    { destruct (wf_mk_pairs _ (proj1 Ha)) as [Ea _]. destruct (wf_mk_pairs _ (proj1 Hb)) as [Eb _]. unfold a_dims. rewrite Ea, Eb. f_equal. symmetry. exact Es. }
    unfold elements. rewrite Edd. apply all_equal_iff. intros k Hk. apply He. apply inside_index_of; [apply Ha|lia].
Qed.

(** ** Concatenation of variables *)
Section Cat.
Context {A : Type} (default : A) (blocks : sizes -> list (Z * Z)).
Hypothesis Hbl : forall d, wf d -> tiles 0 (volume d) (blocks d).

Definition input_ok (w : world (A := A)) (dim : Dim) (l : list arr) : Prop :=
  l <> [] /\ dim <> InvalidDim /\ (forall a, In a l -> wfv (a_var a) /\ (a_buf a < w_next w)%nat) /\ (length (concat_shape dim l) <= NDIM_OP_MAX)%nat.
(** Existing buffers and their units are unchanged. *)
Definition keeps (w w' : world (A := A)) : Prop :=
  (w_next w <= w_next w')%nat /\ (forall c, (fst c < w_next w)%nat -> w_heap w' c = w_heap w c) /\ forall b, (b < w_next w)%nat -> w_unit w' b = w_unit w b.
Definition cat_effect (w : world (A := A)) (dim : Dim) (l : list arr) (u : Z) (o : arr) (w' : world (A := A)) : Prop :=
  keeps w w' /\ a_buf o = w_next w /\ (w_next w < w_next w')%nat /\ w_unit w' (a_buf o) = u /\ wfv (a_var o) /\ ashape o = concat_shape dim l /\
  forall i a ix, nth_error l i = Some a -> inside (a_dims o) ix -> start_of dim l i <= ix dim < start_of dim l i + part dim a ->
    value_at (w_heap w') o ix = value_at (w_heap w) a (put ix dim (ix dim - start_of dim l i)).

Lemma fresh_wfv d : wf d -> wfv (var_fresh d).
Proof. intros Hd. destruct (wf_mk_pairs _ Hd) as [E Hl]. rewrite E. rewrite (fresh_SV _ (proj1 Hl)). apply SV_wfv; [exact Hl|apply sfc_nonneg, Hl]. Qed.

Lemma cat_ok w dim l u : input_ok w dim l -> (forall a, In a l -> w_unit w (a_buf a) = u) -> (forall a, In a l -> fits_in dim l a) ->
  (exists r w', cat default blocks w l dim r w') /\ forall r w', cat default blocks w l dim r w' -> exists o, r = Ok o /\ cat_effect w dim l u o w'.
Proof.
  intros (Hne & Hd & Hl & Hr) Hu Hf.
  assert (Hw : Forall (fun a => wfv (a_var a)) l) by (apply Forall_forall; intros a Ha; apply Hl, Ha).
  assert (Hb : forall a, In a l -> a_buf a <> w_next w /\ a_buf a <> S (w_next w)) by (intros a Ha; destruct (Hl a Ha); lia).
  destruct (concat_ok default (w_unit w) dim (w_next w) (S (w_next w)) blocks l Hbl ltac:(lia) Hne Hd Hw Hb Hr u (w_heap w) Hf Hu) as [[R HR] Hall].
  assert (Hcat : forall r w', cat default blocks w l dim r w' -> exists o, r = Ok o /\ cat_effect w dim l u o w').
  { intros r w' (R' & HR' & Hm). destruct (Hall R' HR') as (o & h' & -> & Eo & Wo & Es & Hv & Hfr). destruct Hm as [-> ->]. exists o. split; [reflexivity|].
    assert (Ebuf : a_buf o = w_next w) by (rewrite Eo; reflexivity).
    split; [split; [cbn [w_next]; lia|]; split|].
    - intros c Hc. cbn [w_heap]. apply Hfr; lia.
    - intros b Hb'. cbn [w_unit]. destruct (Nat.eqb_spec b (w_next w)); [lia|reflexivity].
    - cbn [w_next w_heap w_unit]. split; [exact Ebuf|]. split; [lia|]. rewrite Ebuf, Nat.eqb_refl. split; [reflexivity|]. split; [rewrite Eo; apply fresh_wfv, Wo|]. split; [exact Es|]. exact Hv. }
  split; [|exact Hcat]. destruct (Hall R HR) as (o & h' & -> & _). eexists _, _. exists (Ok (o, h', u)). split; [exact HR|]. split; reflexivity.
Qed.

Lemma cat_success w dim l u o w' : input_ok w dim l -> (forall a, In a l -> w_unit w (a_buf a) = u) -> cat default blocks w l dim (Ok o) w' ->
  (forall a, In a l -> fits_in dim l a) /\ cat_effect w dim l u o w'.
Proof.
  intros Hin Hu Hc. assert (Hf : forall a, In a l -> fits_in dim l a).
  { pose proof Hin as (Hne & Hd & Hl & Hr).
    assert (Hw : Forall (fun a => wfv (a_var a)) l) by (apply Forall_forall; intros a Ha; apply Hl, Ha).
    assert (Hb : forall a, In a l -> a_buf a <> w_next w /\ a_buf a <> S (w_next w)) by (intros a Ha; destruct (Hl a Ha); lia).
    destruct (base_ok dim l Hne Hw Hd) as (p1 & p2 & Hp & _ & Es & _).
    intros a Ha. apply (fits_inner dim l p1 p2 a Es). destruct (inner_dec dim p1 p2 a) as [X|X]; [exact X|]. exfalso.
    destruct (concat_dim_error default (w_unit w) dim (w_next w) (S (w_next w)) blocks l Hbl ltac:(lia) Hne Hd Hw Hb Hr u (w_heap w)) as [_ Hall].
    - exists a. split; [exact Ha|]. intros X'. apply X, (fits_inner dim l p1 p2 a Es), X'.
    - exact Hu.
    - destruct Hc as (R & HR & Hm). rewrite (Hall R HR) in Hm. destruct Hm. discriminate. }
  split; [exact Hf|]. destruct (proj2 (cat_ok w dim l u Hin Hu Hf) _ _ Hc) as (o' & [= <-] & He). exact He.
Qed.
End Cat.

(** ** Joining bin edges *)
Section Join.
Context {A : Type} (default : A) (eqb : A -> A -> bool) (blocks : sizes -> list (Z * Z)) (w : world (A := A)) (dim : Dim).
Hypothesis Hbl : forall d, wf d -> tiles 0 (volume d) (blocks d).

Fixpoint linked (k : Z) (prev : arr) (l : list arr) : Prop :=
  match l with
  | [] => True
  | a :: l' => k <= part dim prev /\ 1 <= part dim a /\ meets eqb w dim prev a /\ linked 2 a l'
  end.
Definition rep (k : Z) (prev back : arr) : Prop :=
  wfv (a_var back) /\ a_buf back = a_buf prev /\ In dim (keys (ashape back)) /\ rest dim back = rest dim prev /\ part dim back = part dim prev - (k - 1) /\
  (1 <= part dim back -> forall ix, valid_at (rest dim prev) ix -> vaddr (a_var back) (put ix dim (part dim back - 1)) = vaddr (a_var prev) (put ix dim (part dim prev - 1))).
Lemma rep_self a : wfv (a_var a) -> In dim (keys (ashape a)) -> rep 1 a a.
Proof. intros Hw Hk. split; [exact Hw|]. split; [reflexivity|]. split; [exact Hk|]. split; [reflexivity|]. split; [lia|reflexivity]. Qed.
Lemma rest_valid a ix k : wfv (a_var a) -> In dim (keys (ashape a)) -> valid_at (rest dim a) ix -> 0 <= k < part dim a -> valid_at (ashape a) (put ix dim k).
Proof.
  intros Hw Hk Hv Hr. destruct (split_dim dim a Hw Hk) as (p1 & p2 & Ep & Hl & N1 & N2 & Er). rewrite Er in Hv. apply valid_at_app in Hv as [V1 V2]. rewrite Ep.
  apply valid_at_app. split; [apply valid_at_put; assumption|]. apply valid_at_cons. rewrite put_same. split; [exact Hr|apply valid_at_put; assumption].
Qed.
Lemma rest_of_valid a ix : wfv (a_var a) -> In dim (keys (ashape a)) -> valid_at (ashape a) ix -> valid_at (rest dim a) ix /\ 0 <= ix dim < part dim a.
Proof.
  intros Hw Hk Hv. destruct (split_dim dim a Hw Hk) as (p1 & p2 & Ep & Hl & N1 & N2 & Er). rewrite Ep in Hv. apply valid_at_app in Hv as [V1 V2]. apply valid_at_cons in V2 as [V2 V3]. rewrite Er.
  split; [apply valid_at_app; split; assumption|exact V2].
Qed.
Lemma rep_tail a b : wfv (a_var a) -> In dim (keys (ashape a)) -> tail_of dim a b -> rep 2 a b.
Proof.
  intros Hw Hk Ht. destruct (tail_facts dim a b Hw Hk Ht) as (Kb & Pb & Rb & _). destruct Ht as (Bb & Wb & Sb & Ab).
  split; [exact Wb|]. split; [exact Bb|]. split; [exact Kb|]. split; [exact Rb|]. split; [lia|]. intros Hp ix Hix.
  rewrite Ab by (apply rest_valid; [exact Wb|exact Kb|rewrite Rb; exact Hix|lia]). apply vaddr_agree; [exact Hw|]. intros j _. rewrite put_same, put_twice. unfold put. destruct (j =? dim); [lia|reflexivity].
Qed.

Lemma join_parts_ok l : forall k prev back, (forall a, In a l -> wfv (a_var a) /\ In dim (keys (ashape a))) -> wfv (a_var prev) -> rep k prev back ->
  match join_parts eqb w dim back l with
  | Ok t => linked k prev l /\ Forall2 (tail_of dim) l t
  | Throw e => ~ linked k prev l /\ (e = RuntimeError \/ e = SliceError)
  | Ub => False
  end.
Proof.
  induction l as [|a l IH]; intros k prev back Hl Wp Hrep; [cbn; split; [exact I|constructor]|].
  destruct Hrep as (Wb & Bb & Kb & Rb & Pb & Ab). destruct (Hl a (or_introl eq_refl)) as [Wa Ka]. cbn [join_parts linked]. rewrite (dat_part dim back Wb Kb). cbn [bind].
  destruct (point_slice dim back (part dim back - 1) Wb Kb) as [P1 P2].
  assert (Hnn : 0 <= part dim back) by (apply part_nonneg, Wb).
  assert (Hna : 0 <= part dim a) by (apply part_nonneg, Wa).
  destruct (Z.le_gt_cases 1 (part dim back)) as [Hb1|Hb1].
  2:{ specialize (P2 ltac:(lia)). destruct (slice_point dim (part dim back - 1)) as [s|e|]; cbn [bind] in *; [rewrite P2; cbn [bind]|injection P2 as ->|discriminate]; (split; [intros (X & _); lia|right; reflexivity]). }
  destruct (P1 ltac:(lia)) as (vb & Eb & Wvb & Svb & Avb). clear P1 P2.
  destruct (slice_point dim (part dim back - 1)) as [s|e|]; cbn [bind] in *; [|discriminate..]. rewrite Eb. cbn [bind].
  destruct (point_slice dim a 0 Wa Ka) as [P1 P2].
  destruct (Z.le_gt_cases 1 (part dim a)) as [Ha1|Ha1].
  2:{ specialize (P2 ltac:(lia)). destruct (slice_point dim 0) as [s0|e|]; cbn [bind] in *; [rewrite P2; cbn [bind]|injection P2 as ->|discriminate]; (split; [intros (_ & X & _); lia|right; reflexivity]). }
  destruct (P1 ltac:(lia)) as (va & Ea & Wva & Sva & Ava). clear P1 P2.
  destruct (slice_point dim 0) as [s0|e|]; cbn [bind] in *; [|discriminate..]. rewrite Ea. cbn [bind].
  assert (Hcmp : compare eqb w (mkarr (a_buf back) vb) (mkarr (a_buf a) va) = true <-> meets eqb w dim prev a).
  { rewrite compare_iff by assumption. unfold meets, ashape, a_dims, value_at. cbn [a_buf a_var]. rewrite Svb, Sva, Rb, Bb. split.
    - intros (E1 & E2 & E3). split; [exact E1|]. split; [exact E2|]. intros ix Hix. specialize (E3 ix Hix). rewrite Avb in E3 by (rewrite Rb; exact Hix). rewrite Ava in E3 by (rewrite <- E2; exact Hix).
      rewrite Ab in E3 by assumption. exact E3.
    - intros (E1 & E2 & E3). split; [exact E1|]. split; [exact E2|]. intros ix Hix. specialize (E3 ix Hix). rewrite Avb by (rewrite Rb; exact Hix). rewrite Ava by (rewrite <- E2; exact Hix).
      rewrite Ab by assumption. exact E3. }
  destruct (compare eqb w (mkarr (a_buf back) vb) (mkarr (a_buf a) va)) eqn:Ec; cbn [negb].
  2:{ split; [|left; reflexivity]. intros (_ & _ & X & _). apply Hcmp in X. discriminate. }
  destruct (tail_slice dim a Wa Ka Ha1) as (v & Ev & Hv).
  destruct (dat (a_dims a) dim) as [m|e|]; cbn [bind] in *; [|discriminate..]. destruct (slice_range dim 1 m 1) as [s1|e|]; cbn [bind] in *; [|discriminate..]. rewrite Ev. cbn [bind].
  specialize (IH 2 a (mkarr (a_buf a) v) (fun x Hx => Hl x (or_intror Hx)) Wa (rep_tail a _ Wa Ka Hv)).
  destruct (join_parts eqb w dim (mkarr (a_buf a) v) l) as [t|e|]; cbn [bind]; [|destruct IH as [X Y]; split; [|exact Y]; intros (_ & _ & _ & Z); contradiction|contradiction].
  destruct IH as [L F]. split; [|constructor; assumption]. split; [lia|]. split; [exact Ha1|]. split; [apply Hcmp; reflexivity|exact L].
Qed.

Lemma joinable_linked a l : joinable eqb w dim (a :: l) <-> 1 <= part dim a /\ linked 1 a l.
Proof.
  assert (Hg : forall l a k, (forall x, In x l -> 1 <= part dim x) -> (forall i x y, nth_error (a :: l) i = Some x -> nth_error (a :: l) (S i) = Some y -> meets eqb w dim x y) ->
    (forall i x, nth_error (a :: l) (S i) = Some x -> (S (S i) < length (a :: l))%nat -> 2 <= part dim x) -> k <= part dim a -> linked k a l).
  { clear a l. induction l as [|b l IH]; intros a k Hp Hm Hn Hk; cbn [linked]; [exact I|]. split; [exact Hk|]. split; [apply Hp; left; reflexivity|]. split; [apply (Hm O); reflexivity|].
    destruct l as [|c l]; [exact I|]. apply IH.
    - intros x Hx. apply Hp. right. exact Hx.
    - intros i x y Hi Hj. apply (Hm (S i) x y Hi Hj).
    - intros i x Hi Hlen. apply (Hn (S i) x Hi). cbn [length] in *. lia.
    - apply (Hn O b eq_refl). cbn [length]. lia. }
  assert (Hb : forall l a k, linked k a l -> (forall x, In x l -> 1 <= part dim x) /\ (forall i x y, nth_error (a :: l) i = Some x -> nth_error (a :: l) (S i) = Some y -> meets eqb w dim x y) /\
    (forall i x, nth_error (a :: l) (S i) = Some x -> (S (S i) < length (a :: l))%nat -> 2 <= part dim x)).
  { clear a l Hg. induction l as [|b l IH]; intros a k Hl; cbn [linked] in Hl.
    - split; [intros x []|]. split; [intros [|i] x y Hi Hj; [discriminate|destruct i; discriminate]|intros i x Hi; destruct i; discriminate].
    - destruct Hl as (Hk & Hp & Hm & Hl). destruct (IH b 2 Hl) as (I1 & I2 & I3). split; [intros x [<-|Hx]; [exact Hp|apply I1, Hx]|]. split.
      + intros [|i] x y Hi Hj; [injection Hi as <-; injection Hj as <-; exact Hm|apply (I2 i x y Hi Hj)].
      + intros [|i] x Hi Hlen.
        * injection Hi as <-. destruct l as [|c l]; [cbn [length] in Hlen; lia|]. destruct Hl as (Hx & _). exact Hx.
        * apply (I3 i x Hi). cbn [length] in *. lia. }
  split.
  - intros (H1 & H2 & H3). split; [apply H1; left; reflexivity|]. apply Hg; [intros x Hx; apply H1; right; exact Hx|exact H2|exact H3|apply H1; left; reflexivity].
  - intros [Ha Hl]. destruct (Hb l a 1 Hl) as (I1 & I2 & I3). split; [intros x [<-|Hx]; [exact Ha|apply I1, Hx]|]. split; assumption.
Qed.

Lemma linked_facts l : forall k prev, linked k prev l -> forall a, In a l -> rest dim a = rest dim prev /\ w_unit w (a_buf a) = w_unit w (a_buf prev).
Proof.
  induction l as [|b l IH]; intros k prev Hl a Ha; [destruct Ha|]. cbn [linked] in Hl. destruct Hl as (_ & _ & (M1 & M2 & _) & Hl).
  destruct Ha as [<-|Ha]; [split; congruence|]. destruct (IH 2 b Hl a Ha) as [R1 R2]. split; congruence.
Qed.

Lemma tails_sum l : forall t, (forall a, In a l -> wfv (a_var a) /\ In dim (keys (ashape a))) -> Forall2 (tail_of dim) l t -> forall i, sumZ (map (part dim) (firstn i t)) = bins_before dim l i.
Proof.
  intros t Hl Hf. induction Hf as [|a b l t Hab Hf IH]; intros [|i]; [reflexivity..|]. unfold bins_before. cbn [firstn map]. unfold sumZ in *. cbn [fold_right]. unfold bins_before, sumZ in IH. rewrite <- IH.
  - destruct (Hl a (or_introl eq_refl)) as [Wa Ka]. destruct (tail_facts dim a b Wa Ka Hab) as (_ & -> & _). reflexivity.
  - intros x Hx. apply Hl. right. exact Hx.
Qed.
Lemma tails_nth l : forall t, Forall2 (tail_of dim) l t -> forall i a, nth_error l i = Some a -> exists b, nth_error t i = Some b /\ tail_of dim a b.
Proof. intros t Hf. induction Hf as [|a b l t Hab Hf IH]; intros [|i] x Hi; try discriminate; [injection Hi as <-; exists b; split; [reflexivity|exact Hab]|apply (IH i x Hi)]. Qed.

Definition join_effect (l : list arr) (o : arr) (w' : world (A := A)) : Prop :=
  keeps w w' /\ a_buf o = w_next w /\ (w_next w < w_next w')%nat /\ wfv (a_var o) /\
  (forall front, hd_error l = Some front -> w_unit w' (a_buf o) = w_unit w (a_buf front) /\
     ashape o = map (fun e => if fst e =? dim then (dim, bins_before dim l (length l) + 1) else e) (ashape front)) /\
  joined eqb (w_heap w) (w_heap w') dim l o.

Lemma join_ok l : l <> [] -> dim <> InvalidDim -> (forall a, In a l -> wfv (a_var a) /\ In dim (keys (ashape a)) /\ (a_buf a < w_next w)%nat /\ (length (ashape a) <= NDIM_OP_MAX)%nat) ->
  (joinable eqb w dim l -> (exists r w', join_edges default eqb blocks w l dim r w') /\ forall r w', join_edges default eqb blocks w l dim r w' -> exists o, r = Ok o /\ join_effect l o w') /\
  (~ joinable eqb w dim l -> length l = 1%nat \/
     (exists e, (e = RuntimeError \/ e = SliceError) /\ forall r w', join_edges default eqb blocks w l dim r w' <-> r = Throw e /\ w' = w)).
Proof.
  intros Hne Hdim Hl. destruct l as [|a l]; [contradiction|]. clear Hne.
  destruct (Hl a (or_introl eq_refl)) as (Wa & Ka & Ba & La).
  assert (Hl' : forall x, In x l -> wfv (a_var x) /\ In dim (keys (ashape x))) by (intros x Hx; destruct (Hl x (or_intror Hx)) as (? & ? & _); auto).
  pose proof (join_parts_ok l 1 a a Hl' Wa (rep_self a Wa Ka)) as Hj. unfold join_edges. rewrite joinable_linked.
  destruct (join_parts eqb w dim a l) as [t|e|]; cbn [bind]; [|split; [intros [_ X]; destruct Hj; contradiction|]; intros _; right; exists e; split; [apply Hj|intros r w'; reflexivity]|contradiction].
  destruct Hj as [HL HF]. split.
  2:{ intros Hn. left. destruct l as [|b l]; [reflexivity|]. exfalso. apply Hn. split; [|exact HL]. cbn [linked] in HL. apply HL. }
  intros [Hp _]. set (L := a :: t).
  assert (Ht : forall b, In b t -> exists x, In x l /\ tail_of dim x b).
  { clear - HF. induction HF as [|x b l t Hxb HF IH]; intros y Hy; [destruct Hy|]. destruct Hy as [<-|Hy]; [exists x; split; [left; reflexivity|exact Hxb]|].
    destruct (IH y Hy) as (z & Hz & Hzy). exists z. split; [right; exact Hz|exact Hzy]. }
  destruct (split_dim dim a Wa Ka) as (p1 & p2 & Ep & Hlp & N1 & N2 & Er).
  assert (Ecs : concat_shape dim L = p1 ++ (dim, total dim L) :: p2).
  { unfold concat_shape, L. cbn [concat_base]. rewrite (proj2 (mem_In dim _) Ka). rewrite Ep. rewrite map_split by assumption. reflexivity. }
  assert (Hin : input_ok w dim L).
  { split; [discriminate|]. split; [exact Hdim|]. split.
    - intros x [<-|Hx]; [split; assumption|]. destruct (Ht x Hx) as (y & Hy & Hyx). destruct Hyx as (E1 & E2 & _). split; [exact E2|]. rewrite E1. apply (Hl y). right. exact Hy.
    - rewrite Ecs. rewrite Ep in La. rewrite app_length in *. cbn [length] in *. exact La. }
  assert (Hfit : forall x, In x L -> fits_in dim L x).
  { assert (Hrest : forall x, wfv (a_var x) -> In dim (keys (ashape x)) -> rest dim x = rest dim a -> fits_in dim L x).
    { intros x Wx Kx Rx k n Hk Hnk. rewrite Ecs. destruct (split_dim dim x Wx Kx) as (q1 & q2 & Eq & _ & _ & _ & Erq). rewrite Eq in Hk. rewrite Erq, Er in Rx.
      assert (Hk' : In (k, n) (p1 ++ p2)). { rewrite <- Rx. apply in_app_or in Hk as [Hk|[[= E _]|Hk]]; [apply in_or_app; left; exact Hk|congruence|apply in_or_app; right; exact Hk]. }
      apply in_app_or in Hk' as [Hk'|Hk']; apply in_or_app; [left; exact Hk'|right; right; exact Hk']. }
    intros x [<-|Hx]; [apply Hrest; [assumption..|reflexivity]|]. destruct (Ht x Hx) as (y & Hy & Hyx). destruct (Hl' y Hy) as [Wy Ky].
    destruct (tail_facts dim y x Wy Ky Hyx) as (Kx & _ & Rx & _). destruct Hyx as (_ & Wx & _). apply Hrest; [assumption..|]. rewrite Rx. apply (linked_facts l 1 a HL y Hy). }
  assert (Hu : forall x, In x L -> w_unit w (a_buf x) = w_unit w (a_buf a)).
  { intros x [<-|Hx]; [reflexivity|]. destruct (Ht x Hx) as (y & Hy & Hyx). destruct Hyx as (-> & _). apply (linked_facts l 1 a HL y Hy). }
  destruct (cat_ok default blocks Hbl w dim L (w_unit w (a_buf a)) Hin Hu Hfit) as [Hex Hall]. split; [exact Hex|].
  intros r w' Hr. destruct (Hall r w' Hr) as (o & -> & He). exists o. split; [reflexivity|]. destruct He as (K & E1 & E2 & E3 & E4 & E5 & E6).
  split; [exact K|]. split; [exact E1|]. split; [exact E2|]. split; [exact E4|].
  assert (Est : forall i, start_of dim L (S i) = 1 + bins_before dim (a :: l) (S i)).
  { intros i. unfold start_of, L. cbn [firstn map]. unfold bins_before. cbn [firstn map]. unfold sumZ at 1 2. cbn [fold_right]. fold (sumZ (map (part dim) (firstn i t))). fold (sumZ (map (fun a0 => part dim a0 - 1) (firstn i l))).
    rewrite (tails_sum l t Hl' HF i). unfold bins_before. lia. }
  split.
  - intros front [= <-]. split; [exact E3|]. rewrite E5, Ecs, Ep, map_split by assumption. do 3 f_equal.
    unfold total. replace (map (part dim) L) with (map (part dim) (firstn (S (length t)) L)) by (rewrite firstn_all2; [reflexivity|unfold L; cbn [length]; lia]).
    change (sumZ (map (part dim) (firstn (S (length t)) L))) with (start_of dim L (S (length t))). rewrite Est. cbn [length].
    replace (length t) with (length l); [lia|]. clear - HF. induction HF; cbn [length]; lia.
  - assert (Hold : forall i x ix j, nth_error (a :: l) i = Some x -> inside (a_dims o) ix -> ix dim = bins_before dim (a :: l) i + j -> 0 <= j < part dim x -> 0 < j \/ i = O ->
      value_at (w_heap w') o ix = value_at (w_heap w) x (put ix dim j)).
    { intros [|i] x ix j Hi Hix Eix Hj Hc.
      - injection Hi as <-. unfold bins_before in Eix. cbn in Eix. rewrite (E6 O a ix eq_refl Hix); [|cbn; lia]. unfold start_of. cbn [firstn map sumZ fold_right]. do 2 f_equal. lia.
      - destruct Hc as [Hc|Hc]; [|discriminate]. destruct (tails_nth l t HF i x Hi) as (b & Hb & Hxb).
        assert (Hx : In x l) by (apply nth_error_In with i; exact Hi). destruct (Hl' x Hx) as [Wx Kx]. destruct (tail_facts dim x b Wx Kx Hxb) as (Kb & Pb & Rb & _).
        assert (Hrg : start_of dim L (S i) <= ix dim < start_of dim L (S i) + part dim b) by (rewrite Est, Eix, Pb; lia).
        rewrite (E6 (S i) b ix Hb Hix Hrg). destruct Hxb as (Q1 & Q2 & Q3 & Q4). unfold value_at. rewrite Q1. do 2 f_equal. rewrite Est, Eix.
        replace (bins_before dim (a :: l) (S i) + j - (1 + bins_before dim (a :: l) (S i))) with (j - 1) by lia. rewrite Q4.
        + apply vaddr_agree; [exact Wx|]. intros q _. rewrite put_same, put_twice. unfold put. destruct (q =? dim); [lia|reflexivity].
        + apply rest_valid; [exact Q2|exact Kb| |lia]. rewrite Rb. destruct (linked_facts l 1 a HL x Hx) as [-> _].
          unfold inside in Hix. change (pairs (a_dims o)) with (ashape o) in Hix. rewrite E5, Ecs in Hix. rewrite Er. apply valid_at_app in Hix as [V1 V2]. apply valid_at_cons in V2 as [_ V2]. apply valid_at_app. split; assumption. }
    intros i x ix j Hi Hix Eix Hj. split; [apply (Hold i x ix j Hi Hix Eix Hj)|]. intros -> Hi0.
    destruct i as [|i]; [contradiction|]. clear Hi0.
    assert (Hprev : exists y, nth_error (a :: l) i = Some y).
    { destruct (nth_error (a :: l) i) as [y|] eqn:E; [eauto|]. apply nth_error_None in E. assert (nth_error (a :: l) (S i) <> None) by congruence. apply nth_error_Some in H. lia. }
    destruct Hprev as (y & Hy). destruct (proj2 (joinable_linked a l) (conj Hp HL)) as (J1 & J2 & J3).
    assert (Ebb : bins_before dim (a :: l) (S i) = bins_before dim (a :: l) i + (part dim y - 1)).
    { clear - Hy. revert i Hy. generalize (a :: l) as L0. induction L0 as [|z L0 IH]; intros [|i] Hy; try discriminate.
      - injection Hy as ->. unfold bins_before. cbn. lia.
      - unfold bins_before in *. cbn [firstn map]. unfold sumZ in *. cbn [fold_right]. specialize (IH i Hy). cbn [firstn map fold_right] in IH. rewrite IH. lia. }
    assert (Hpy : 1 <= part dim y) by (apply J1, nth_error_In with i; exact Hy).
    assert (Hc : 0 < part dim y - 1 \/ i = O).
    { destruct i as [|i']; [right; reflexivity|left]. assert (2 <= part dim y); [|lia]. apply (J3 i' y Hy). assert (X : nth_error (a :: l) (S (S i')) <> None) by congruence. apply nth_error_Some in X. exact X. }
    rewrite (Hold i y ix (part dim y - 1) Hy Hix) by (rewrite ?Eix, ?Ebb; lia || assumption).
    destruct (J2 i y x Hy Hi) as (_ & Rr & Hm). apply Hm.
    assert (Ry : rest dim y = rest dim a). { destruct i as [|i']; [injection Hy as <-; reflexivity|]. apply (linked_facts l 1 a HL y). apply nth_error_In with i'. exact Hy. }
    rewrite Ry, Er. unfold inside in Hix. change (pairs (a_dims o)) with (ashape o) in Hix. rewrite E5, Ecs in Hix. apply valid_at_app in Hix as [V1 V2]. apply valid_at_cons in V2 as [_ V2]. apply valid_at_app. split; assumption.
Qed.
End Join.
