From Coq Require Import Sorted Permutation.
From Verif Require Import Mapper_Model Mapper_Proofs Arr.
From Verif Require Import Base Map_Model Map_Spec Map_Proofs Dims_Model Dims_Spec Dims_Proofs View_Model View_Spec View_Proofs Index_Proofs
  Transform_Model Transform_Spec Transform_Proofs SizedDict_Model SizedDict_Spec SizedDict_Proofs Equality_Proofs Accumulate_Spec
  Reduce_Proofs Label_Proofs Accumulate_Model Accumulate_Proofs Mask_Model Mask_Spec Mask_Proofs GroupBy_Model GroupBy_Spec.

(** ** Accumulating with the dimensions in any order *)
Definition rest_of (d m : sizes) (dim : Dim) : Prop := forall k x, has d k x <-> has m k x /\ k <> dim.
Lemma agreeing_along_any {A} (a : darr A) d dim n ix : well_formed a -> wf d -> has (dd a) dim n -> rest_of d (dd a) dim -> inside d ix ->
  map (dv a) (agreeing (dd a) d ix) = map (dv a) (along ix dim n).
Proof.
  intros Ha Hd Hn Hr Hix. destruct (merase_dim (dd a) dim n (proj1 Ha) Hn) as (d0 & _ & Hd0 & Ep).
  assert (Hs : forall k x, has d0 k x <-> has d k x).
  { intros k x. unfold has at 1. rewrite Ep, without_dim_has. symmetry. apply Hr. }
  rewrite <- (agreeing_along a d0 dim n ix); try assumption; [|intros k x Hk; apply Hix, Hs; exact Hk].
  f_equal. unfold agreeing. apply filter_ext. intros jx. apply Bool.eq_true_iff_eq. rewrite !forallb_forall.
  split; intros Hall l Hl; apply Hall; apply pairs_labels in Hl as [x Hx]; try assumption; apply pairs_labels; try assumption; exists x; apply Hs; exact Hx.
Qed.

Lemma reduced_ext {A} (a : darr A) m : well_formed a -> wf m -> (forall k x, has m k x <-> has (dd a) k x) -> well_formed (mkd m (dv a)).
Proof.
  intros [Ha Hp] Hm Hs. split; [exact Hm|]. intros jx jx' Hj. cbn [dd dv] in *. apply Hp. intros l Hl. apply Hj.
  apply pairs_labels in Hl as [x Hx]; [|assumption]. apply pairs_labels; [assumption|]. exists x. apply Hs. exact Hx.
Qed.

Lemma serial_accumulates_any {A} (f : A -> A -> A) : accumulates_any [] f (reduce_data f).
Proof.
  intros out other dim n Ho Hb Hn Hd _. pose proof (proj1 Ho) as Hwo. pose proof (proj1 Hb) as Hwb.
  assert (Hi : forall k x, has (dd out) k x -> has (dd other) k x) by (intros k x Hk; apply Hd in Hk; apply Hk).
  destruct (reduce_ok f out other Ho Hb Hi) as (r & Er & Hdr & Hokr & _). exists r. split; [exact Er|]. split; [exact Hdr|]. split; [exact Hokr|].
  unfold reduce_data in Er. destruct (merge_ok (dd out) (dd other) Hwo Hwb (sub_noconf _ _ Hwb Hi)) as (m & Em & Hm & Hh & _). rewrite Em in Er.
  assert (Hh' : forall k x, has m k x <-> has (dd other) k x) by (intros k x; rewrite Hh; split; [intros [Hx|Hx]; auto|auto]).
  cbn [bind] in Er. injection Er as <-. cbn [dv]. intros ix Hix.
  pose proof (agreeing_along_any (mkd m (dv other)) (dd out) dim n ix (reduced_ext other m Hb Hm Hh') Hwo) as E. cbn [dd dv] in E.
  rewrite <- E, fold_left_map; [reflexivity| | |exact Hix].
  - apply Hh'. exact Hn.
  - intros k x. rewrite Hh'. apply Hd.
Qed.

Lemma parallel_accumulates_any {A} (f : A -> A -> A) eqb small internal order blocks :
  (forall x y, f x y = f y x) -> (forall x y z, f x (f y z) = f (f x y) z) -> (forall x y : A, eqb x y = true -> x = y) -> 1 < small ->
  internal <> InvalidDim ->
  (forall n, Permutation (order n) (zseq 0 (Z.to_nat n))) ->
  (forall n, 0 <= n -> exists bs, tiles 0 n bs /\ Permutation (blocks n) bs) ->
  accumulates_any [internal] f (fun out other => do_accumulate small f eqb internal out other order blocks).
Proof.
  intros Hc Ha He Hs Hne Hor Hbl out other dim n Ho Hb Hn Hd Hint. pose proof (proj1 Ho) as Hwo. pose proof (proj1 Hb) as Hwb.
  assert (Hi : forall k x, has (dd out) k x -> has (dd other) k x) by (intros k x Hk; apply Hd in Hk; apply Hk).
  destruct (accumulate_ok f Hc Ha eqb He small internal out other order blocks Ho Hb Hs Hi) as (r & Er & Hdr & Hokr & Hv); try assumption.
  { intros Hx. apply (Hint internal); [left; reflexivity|]. exact (has_incl (dd out) (dd other) Hwo Hwb Hi internal Hx). }
  exists r. split; [exact Er|]. split; [exact Hdr|]. split; [exact Hokr|]. intros ix Hix. rewrite Hv by exact Hix. unfold reduced.
  rewrite (agreeing_along_any other (dd out) dim n ix Hb Hwo Hn Hd Hix). reflexivity.
Qed.

Lemma any_accumulates {A} reserved (f : A -> A -> A) acc : accumulates_any reserved f acc -> accumulates reserved f acc.
Proof.
  intros Hacc out other dim n Ho Hb Hn Hp Hres. apply (Hacc out other dim n); try assumption.
  intros k x. unfold has at 1. rewrite Hp. apply without_dim_has.
Qed.

(** ** One group *)
Lemma zseq_shift b n : map (fun j => j + b) (zseq 0 n) = zseq b n.
Proof. unfold zseq. rewrite map_map. apply map_ext. intros. lia. Qed.

Section Reduce.
Context {A : Type}.
Variables (reserved : list Z) (f : A -> A -> A) (acc : darr A -> darr A -> res (darr A)) (Hacc : accumulates_any reserved f acc).
Variables (fill : A) (data : darr A) (dim n : Z) (l : list (Z * mask)) (u : option mask).
Hypotheses (Hdata : well_formed data) (Hn : has (dd data) dim n) (Hres : forall x, In x reserved -> ~ In x (labels (dd data))).
Hypothesis Hu : match u with Some m => union_spec (dd data) dim (masked l dim) m | None => forall jx, masked l dim jx = false end.
Definition filled (jx : Z -> Z) : A := if masked l dim jx then fill else dv data jx.

Lemma slice_along {B} (a s : darr B) b e ix : well_formed a -> (forall jx, dv s jx = dv a (bump dim b jx)) ->
  map (dv s) (along ix dim (e - b)) = map (fun i => dv a (put ix dim i)) (zseq b (Z.to_nat (e - b))).
Proof.
  intros Ha Hs. unfold along. rewrite map_map, <- (zseq_shift b), map_map. apply map_ext. intros j. rewrite Hs. apply (proj2 Ha). intros k _.
  unfold bump, put. destruct (Z.eqb_spec k dim); lia.
Qed.

Lemma reduce_group_ok g : (forall b e, In (b, e) g -> 0 <= b <= e /\ e <= n) -> forall out, well_formed out -> rest_of (dd out) (dd data) dim ->
  exists r, reduce_group acc fill dim data u g out = Ok r /\ dd r = dd out /\ well_formed r /\
    forall ix, inside (dd out) ix -> dv r ix = fold_left f (map (fun i => filled (put ix dim i)) (positions g)) (dv out ix).
Proof.
  induction g as [|[b e] g IH]; intros Hg out Ho Hr; cbn [reduce_group].
  - exists out. repeat (split; [assumption || reflexivity|]). reflexivity.
  - destruct (Hg b e (or_introl eq_refl)) as [Hb He].
    destruct (dslice_ok data dim n b e Hdata Hn Hb He) as (s & -> & Hs & Ls & Hhs & Vs). cbn [bind].
    assert (Hstep : exists o, match u with Some m => do ms <- mask_slice m dim b e; do w <- where_ ms fill s; acc out w | None => acc out s end = Ok o /\
      dd o = dd out /\ well_formed o /\ forall ix, inside (dd out) ix ->
        dv o ix = fold_left f (map (fun i => filled (put ix dim i)) (zseq b (Z.to_nat (e - b)))) (dv out ix)).
    { assert (Hrs : rest_of (dd out) (dd s) dim).
      { intros k x. rewrite (Hr k x), Hhs. split; [intros [X Y]; auto|]. intros [[[-> _]|[_ X]] Y]; [contradiction|auto]. }
      assert (Hns : has (dd s) dim (e - b)) by (apply Hhs; auto).
      destruct u as [m|].
      - destruct Hu as (U1 & U2 & U3 & U4 & U5).
        assert (Hmn : has (dd (k_arr m)) dim n).
        { apply (pairs_labels _ _ (proj1 U1)) in U4 as [n' Hn']. rewrite (has_unique' _ _ _ _ (proj1 Hdata) Hn (U3 _ _ Hn')). exact Hn'. }
        unfold mask_slice. destruct (dslice_ok (k_arr m) dim n b e U1 Hmn Hb He) as (ma & -> & Hma & Lm & Hhm & Vm). cbn [bind].
        set (ms := mkmask ma (k_bool m) (k_none m) (k_ro m)).
        destruct (where_ok ms fill s Hma U2 Hs) as (w & -> & Hw & Hhw & _ & Vw).
        { intros k x. change (has (dd ma) k x -> has (dd s) k x). rewrite Hhm, Hhs. intros [X|[X Y]]; [auto|right; auto]. }
        cbn [bind]. destruct (Hacc out w dim (e - b) Ho Hw (proj2 (Hhw _ _) Hns)) as (o & Eo & Do & Wo & Vo).
        + intros k x. rewrite Hhw. apply Hrs.
        + intros x Hx Hl. apply (Hres x Hx). apply pairs_labels in Hl as [y Hy]; [|apply Hw]. apply Hhw in Hy.
          rewrite <- Ls. apply pairs_labels; [apply Hs|eauto].
        + exists o. split; [exact Eo|]. split; [exact Do|]. split; [exact Wo|]. intros ix Hix. rewrite Vo by exact Hix. f_equal.
          unfold along. rewrite map_map, <- (zseq_shift b), map_map. apply map_ext. intros j. rewrite Vw. change (k_arr ms) with ma. rewrite Vm, Vs.
          assert (E : forall k, bump dim b (put ix dim j) k = put ix dim (j + b) k) by (intros k; unfold bump, put; destruct (Z.eqb_spec k dim); lia).
          unfold filled. rewrite <- U5. rewrite (proj2 U1 _ (put ix dim (j + b))) by (intros; apply E).
          rewrite (proj2 Hdata _ (put ix dim (j + b))) by (intros; apply E). reflexivity.
      - destruct (Hacc out s dim (e - b) Ho Hs Hns Hrs) as (o & Eo & Do & Wo & Vo); [rewrite Ls; exact Hres|].
        exists o. split; [exact Eo|]. split; [exact Do|]. split; [exact Wo|]. intros ix Hix. rewrite Vo by exact Hix.
        rewrite (slice_along data s b e ix Hdata Vs). f_equal. apply map_ext. intros i. unfold filled. rewrite Hu. reflexivity. }
    destruct Hstep as (o & -> & Do & Wo & Vo). cbn [bind].
    destruct (IH (fun b' e' Hi => Hg b' e' (or_intror Hi)) o Wo) as (r & Er & Dr & Wr & Vr).
    { rewrite Do. exact Hr. }
    exists r. split; [exact Er|]. split; [congruence|]. split; [exact Wr|]. intros ix Hix.
    rewrite Vr by (rewrite Do; exact Hix). rewrite Vo by exact Hix. unfold positions. cbn [flat_map fst snd]. rewrite map_app, fold_left_app. reflexivity.
Qed.
End Reduce.

(** ** All groups *)
Notation mk := View_Proofs.mk.
Notation mapM := Mapper_Model.mapM.
Lemma filter_split p1 k n (p2 : list (Z * Z)) : ~ In k (keys p1) -> ~ In k (keys p2) ->
  filter (fun e => negb (fst e =? k)) (p1 ++ (k, n) :: p2) = p1 ++ p2.
Proof.
  intros Ha Hb. rewrite filter_app. cbn [filter fst]. rewrite Z.eqb_refl. cbn [negb].
  assert (Hf : forall q, ~ In k (keys q) -> filter (fun e : Z * Z => negb (fst e =? k)) q = q).
  { intros q Hq. apply filter_all. intros [k' x] Hx. cbn [fst]. apply Bool.negb_true_iff, Z.eqb_neq. intros ->. apply Hq. apply In_keys. eauto. }
  rewrite !Hf by assumption. reflexivity.
Qed.
Lemma lwf_split p1 k n p2 : lwf (p1 ++ (k, n) :: p2) -> ~ In k (keys p1) /\ ~ In k (keys p2) /\ 0 <= n /\ k <> InvalidDim.
Proof.
  intros (Hnd & Hf & Hi). rewrite keys_app in Hnd, Hi. cbn [keys map fst] in Hnd, Hi. fold (keys p2) in *. split; [|split; [|split]].
  - intros Hk. apply NoDup_remove_2 in Hnd. apply Hnd, in_app_iff. auto.
  - intros Hk. apply NoDup_remove_2 in Hnd. apply Hnd, in_app_iff. auto.
  - rewrite Forall_forall in Hf. apply Hf. rewrite extents_app. apply in_app_iff. right. left. reflexivity.
  - intros ->. apply Hi. apply in_app_iff. right. left. reflexivity.
Qed.
Lemma lwf_swap p1 k n p2 k' n' : lwf (p1 ++ (k, n) :: p2) -> k' <> InvalidDim -> 0 <= n' -> ~ In k' (keys p1) -> ~ In k' (keys p2) -> lwf (p1 ++ (k', n') :: p2).
Proof.
  intros (Hnd & Hf & Hi) Hk Hn Ha Hb. unfold lwf. rewrite keys_app, extents_app in *. cbn [keys extents map fst snd] in *. fold (keys p2) (extents p2) in *. split; [|split].
  - apply NoDup_remove_1 in Hnd. apply NoDup_Add with (a := k') (l := keys p1 ++ keys p2); [apply Add_app|]. split; [exact Hnd|]. intros Hx. apply in_app_iff in Hx as [Hx|Hx]; contradiction.
  - apply Forall_app in Hf as [F1 F2]. apply Forall_app. split; [exact F1|]. inversion F2; subst. constructor; assumption.
  - intros Hx. apply Hi. apply in_app_iff in Hx as [Hx|[Hx|Hx]]; apply in_app_iff; [auto|contradiction|right; right; exact Hx].
Qed.

Lemma output_dims_ok p1 dim n p2 gdim m : lwf (p1 ++ (dim, n) :: p2) -> 0 <= m -> gdim <> InvalidDim ->
  output_dims (mk (p1 ++ (dim, n) :: p2)) dim gdim m
  = if mem gdim (keys p1) || mem gdim (keys p2) then Throw DimensionError else Ok (mk (p1 ++ (gdim, m) :: p2)).
Proof.
  intros Hp Hm Hg. destruct (lwf_split _ _ _ _ Hp) as (Ha & Hb & Hn & Hd). unfold output_dims. rewrite resize_sp by assumption. cbn [bind].
  assert (Hp' : lwf (p1 ++ (dim, m) :: p2)) by (apply (lwf_swap p1 dim n p2); assumption).
  pose proof (rename_dims_mk [(dim, gdim)] (p1 ++ (dim, m) :: p2) true Hp') as R. cbn [rename_pairs map snd] in R.
  specialize (R ltac:(intros [E|[]]; congruence)).
  assert (Hmem : mem dim (keys (p1 ++ (dim, m) :: p2)) = true) by (apply mem_In; rewrite keys_app; apply in_app_iff; right; left; reflexivity).
  rewrite Hmem in R.
  assert (E : negb (dim =? gdim) && mem gdim (keys (p1 ++ (dim, m) :: p2)) = mem gdim (keys p1) || mem gdim (keys p2)).
  { apply Bool.eq_true_iff_eq. rewrite Bool.andb_true_iff, Bool.orb_true_iff, Bool.negb_true_iff, Z.eqb_neq, !mem_In, keys_app, in_app_iff. cbn [keys map fst]. fold (keys p2).
    split; [intros [X [Y|[Y|Y]]]; [auto|contradiction|auto]|]. intros X. split; [intros ->; destruct X; contradiction|]. destruct X as [X|X]; [auto|right; right; exact X]. }
  rewrite E in R. destruct (mem gdim (keys p1) || mem gdim (keys p2)) eqn:Em; [exact R|].
  destruct R as [R _]. rewrite R. repeat f_equal. rewrite map_app. cbn [map fst snd]. rewrite Z.eqb_refl.
  assert (Hf : forall q, ~ In dim (keys q) -> map (fun e : Z * Z => (if fst e =? dim then gdim else fst e, snd e)) q = q).
  { induction q as [|[k x] q IH]; intros Hq; [reflexivity|]. cbn [map fst snd keys] in *. rewrite IH by (intros X; apply Hq; right; exact X).
    destruct (Z.eqb_spec k dim); [exfalso; apply Hq; left; assumption|reflexivity]. }
  rewrite !Hf by assumption. reflexivity.
Qed.

Lemma slice_group_ok p1 gdim m p2 i : lwf (p1 ++ (gdim, m) :: p2) -> 0 <= i < m ->
  slice_group (mk (p1 ++ (gdim, m) :: p2)) gdim i = Ok (mk (p1 ++ p2)) /\ lwf (p1 ++ p2).
Proof.
  intros Hp Hi. destruct (lwf_split _ _ _ _ Hp) as (Ha & Hb & Hn & Hd). unfold slice_group, slice_point. replace (i <? 0) with false by lia. cbn [bind].
  pose proof (sizes_slice_ok (mk (p1 ++ (gdim, m) :: p2)) (mkslice gdim i (-1) 1) (wf_mk _ Hp)) as S.
  assert (Hdef : slice_eqb (mkslice gdim i (-1) 1) slice_default = false).
  { unfold slice_eqb, slice_default. cbn [s_dim s_begin s_end s_stride]. replace (i =? -1) with false by lia. rewrite Bool.andb_false_r. reflexivity. }
  specialize (S ltac:(right; cbn; lia) Hdef). unfold slice_dims in S. rewrite Hdef, pairs_mk in S. cbn [s_dim s_begin s_end s_stride] in S.
  rewrite (proj2 (extent_In (p1 ++ (gdim, m) :: p2) gdim m (proj1 Hp))) in S by (apply in_app_iff; right; left; reflexivity).
  cbn [Z.eqb] in S. replace (i <? m) with true in S by lia. rewrite filter_split in S by assumption. exact S.
Qed.

Lemma mapM_combine {X Y} (g : Z * X -> res Y) (l : list X) (R : Z -> X -> Y -> Prop) : forall a,
  (forall i x, 0 <= i < zlen l -> nth_error l (Z.to_nat i) = Some x -> exists y, g (a + i, x) = Ok y /\ R (a + i) x y) ->
  exists ys, mapM g (combine (zseq a (length l)) l) = Ok ys /\ length ys = length l /\
    forall i x, 0 <= i < zlen l -> nth_error l (Z.to_nat i) = Some x -> exists y, nth_error ys (Z.to_nat i) = Some y /\ R (a + i) x y.
Proof.
  induction l as [|x l IH]; intros a Hg; [exists []; split; [reflexivity|]; split; [reflexivity|]; unfold zlen; cbn; lia|].
  cbn [length]. rewrite zseq_S. cbn [combine mapM].
  assert (Hz : zlen (x :: l) = zlen l + 1) by (unfold zlen; cbn [length]; lia).
  destruct (Hg 0 x ltac:(unfold zlen in *; lia) eq_refl) as (y & Ey & Ry). rewrite Z.add_0_r in Ey, Ry. rewrite Ey. cbn [bind].
  destruct (IH (a + 1)) as (ys & -> & Ly & Hys).
  { intros i x' Hi Hx. destruct (Hg (i + 1) x') as (y' & Ey' & Ry'); [lia| |].
    - replace (Z.to_nat (i + 1)) with (S (Z.to_nat i)) by lia. exact Hx.
    - exists y'. replace (a + 1 + i) with (a + (i + 1)) by lia. auto. }
  cbn [bind]. exists (y :: ys). split; [reflexivity|]. split; [cbn [length]; congruence|]. intros i x' Hi Hx.
  destruct (Z.eq_dec i 0) as [->|Hne].
  - cbn in Hx. injection Hx as <-. exists y. rewrite Z.add_0_r. auto.
  - replace (Z.to_nat i) with (S (Z.to_nat (i - 1))) in * by lia. cbn [nth_error] in *. destruct (Hys (i - 1) x' ltac:(lia) Hx) as (y' & E' & R').
    exists y'. replace (a + i) with (a + 1 + (i - 1)) by lia. auto.
Qed.

Definition slices_inside (n : Z) (g : group) : Prop := forall b e, In (b, e) g -> 0 <= b <= e /\ e <= n.

Section All.
Context {A : Type}.
Variables (reserved : list Z) (f : A -> A -> A) (acc : darr A -> darr A -> res (darr A)) (Hacc : accumulates_any reserved f acc).
Variables (fill : A) (data : darr A) (p1 p2 : list (Z * Z)) (dim n gdim : Z) (l : list (Z * mask)).
Hypotheses (Hdata : well_formed data) (Hp : pairs (dd data) = p1 ++ (dim, n) :: p2) (Hres : forall x, In x reserved -> ~ In x (labels (dd data))).
Hypotheses (Hw : forall k m, In (k, m) l -> well_formed (k_arr m)) (Happ : applicable l dim data).
Hypotheses (Hg : gdim <> InvalidDim) (Hg1 : ~ In gdim (keys p1)) (Hg2 : ~ In gdim (keys p2)).

Lemma dim_of_data : has (dd data) dim n.
Proof. unfold has. rewrite Hp. apply in_app_iff. right. left. reflexivity. Qed.
Lemma lwf_data : lwf (p1 ++ (dim, n) :: p2).
Proof. rewrite <- Hp. apply wf_mk_pairs. apply Hdata. Qed.
Lemma union_cases : exists u, irreducible_mask l dim = Ok u /\
  match u with Some m => union_spec (dd data) dim (masked l dim) m | None => forall jx, masked l dim jx = false end.
Proof.
  destruct (irreducible_ok (dd data) dim l (proj1 Hdata) Hw Happ) as [[E Hnone]|(u & E & U)]; [exists None|exists (Some u)]; auto.
Qed.

Lemma groupby_filled (groups : list group) : (forall g, In g groups -> slices_inside n g) ->
  exists r, groupby_reduce acc fill dim dim gdim data l groups = Ok r /\ well_formed r /\ pairs (dd r) = p1 ++ (gdim, zlen groups) :: p2 /\
    forall ix g, inside (dd r) ix -> nth_error groups (Z.to_nat (ix gdim)) = Some g ->
      dv r ix = fold_left f (map (fun i => filled fill data dim l (put ix dim i)) (positions g)) fill.
Proof.
  intros Hin. pose proof lwf_data as Hlw. pose proof dim_of_data as Hn. destruct (lwf_split _ _ _ _ Hlw) as (Ha & Hb & Hn0 & Hd).
  unfold groupby_reduce. destruct (wf_mk_pairs (dd data) (proj1 Hdata)) as [Edd _]. rewrite Hp in Edd.
  rewrite Edd, output_dims_ok by (try assumption; unfold zlen; lia).
  rewrite (proj2 (mem_nIn gdim (keys p1))), (proj2 (mem_nIn gdim (keys p2))) by assumption. cbn [orb bind].
  destruct union_cases as (u & -> & Hu). cbn [bind].
  set (m := @zlen group groups).
  assert (Hlw' : lwf (p1 ++ (gdim, m) :: p2)) by (apply (lwf_swap p1 dim n p2); try assumption; unfold m, zlen; lia).
  set (dg := mk (p1 ++ (gdim, m) :: p2)).
  destruct (mapM_combine (fun ig => do ds <- slice_group dg gdim (fst ig); reduce_group acc fill dim data u (snd ig) (Accumulate_Model.mkd ds (fun _ => fill))) groups
    (fun i g r => dd r = mk (p1 ++ p2) /\ well_formed r /\ forall ix, inside (dd r) ix ->
       dv r ix = fold_left f (map (fun i => filled fill data dim l (put ix dim i)) (positions g)) fill) 0) as (outs & Eo & Lo & Ho).
  { intros i g Hi Hg0. cbn [fst snd Z.add]. unfold dg. destruct (slice_group_ok p1 gdim m p2 i Hlw' Hi) as [-> Hl12]. cbn [bind].
    assert (Hwo : well_formed (Accumulate_Model.mkd (mk (p1 ++ p2)) (fun _ => fill))) by (apply const_well_formed, wf_mk; exact Hl12).
    destruct (reduce_group_ok reserved f acc Hacc fill data dim n l u Hdata Hn Hres Hu g (Hin g (nth_error_In _ _ Hg0)) _ Hwo) as (r & Er & Dr & Wr & Vr).
    - intros k x. cbn [dd]. unfold has. rewrite pairs_mk, Hp. rewrite !in_app_iff. cbn [In]. split.
      + intros [X|X]; (split; [auto|]); intros ->; [apply Ha|apply Hb]; apply In_keys; eauto.
      + intros [[X|[X|X]] Y]; [auto|injection X as -> _; contradiction|auto].
    - exists r. split; [exact Er|]. split; [exact Dr|]. split; [exact Wr|]. intros ix Hix. rewrite Vr by (rewrite <- Dr; exact Hix). reflexivity. }
  match type of Eo with ?x = _ => match goal with |- context [Mapper_Model.mapM ?g ?q] => change (Mapper_Model.mapM g q) with x end end.
  rewrite Eo. cbn [bind]. eexists. split; [reflexivity|]. cbn [dd dv]. unfold dg. rewrite pairs_mk.
  assert (Hnth : forall ix, inside (mk (p1 ++ (gdim, m) :: p2)) ix -> 0 <= ix gdim < zlen groups).
  { intros ix Hix. apply (Hix gdim m). rewrite pairs_mk. apply in_app_iff. right. left. reflexivity. }
  split; [|split; [reflexivity|]].
  - split; [apply wf_mk; exact Hlw'|]. intros jx jx' Hj. cbn [dd dv] in *.
    assert (Hlab : labels (mk (p1 ++ (gdim, m) :: p2)) = keys (p1 ++ (gdim, m) :: p2)) by reflexivity.
    rewrite (Hj gdim) by (rewrite Hlab, keys_app; apply in_app_iff; right; left; reflexivity).
    destruct (nth_error outs (Z.to_nat (jx' gdim))) as [o|] eqn:Eno; [|reflexivity].
    assert (Hlt : (Z.to_nat (jx' gdim) < length groups)%nat) by (rewrite <- Lo; apply nth_error_Some; congruence).
    destruct (nth_error groups (Z.to_nat (jx' gdim))) as [g|] eqn:Eg; [|apply nth_error_None in Eg; lia].
    assert (Hz : exists i, 0 <= i < zlen groups /\ Z.to_nat i = Z.to_nat (jx' gdim)) by (exists (Z.of_nat (Z.to_nat (jx' gdim))); unfold zlen; lia).
    destruct Hz as (i & Hi & Ei). rewrite <- Ei in *. destruct (Ho i g Hi Eg) as (o' & Eo' & Do & Wo & _).
    rewrite Eno in Eo'. injection Eo' as <-. apply (proj2 Wo). intros k Hk. apply Hj. rewrite Do in Hk. rewrite Hlab.
    change (In k (keys (p1 ++ p2))) in Hk. rewrite keys_app in *. cbn [keys map fst]. apply in_app_iff in Hk as [Hk|Hk]; apply in_app_iff; [auto|right; right; exact Hk].
  - intros ix g Hix Eg. destruct (Ho (ix gdim) g (Hnth ix Hix) Eg) as (o & -> & Do & Wo & Vo). apply Vo.
    rewrite Do. intros k x Hk. apply Hix. rewrite pairs_mk in *. apply in_app_iff in Hk as [Hk|Hk]; apply in_app_iff; [auto|right; right; exact Hk].
Qed.

Theorem groupby_ok P (groups : list group) : ignores_for P f fill fill -> (forall jx, inside (dd data) jx -> masked l dim jx = false -> P (dv data jx)) ->
  (forall g, In g groups -> slices_inside n g) ->
  exists r, groupby_reduce acc fill dim dim gdim data l groups = Ok r /\ well_formed r /\ pairs (dd r) = p1 ++ (gdim, zlen groups) :: p2 /\
    forall ix g, inside (dd r) ix -> nth_error groups (Z.to_nat (ix gdim)) = Some g ->
      dv r ix = fold_left f (map (dv data) (unmasked l dim (map (put ix dim) (positions g)))) fill.
Proof.
  intros (good & G1 & G2 & G3) HP Hin. destruct (groupby_filled groups Hin) as (r & Er & Wr & Pr & Vr).
  exists r. split; [exact Er|]. split; [exact Wr|]. split; [exact Pr|]. intros ix g Hix Eg. rewrite (Vr ix g Hix Eg).
  unfold unmasked. rewrite <- (fold_filled f fill P good); try assumption; [rewrite map_map; reflexivity|].
  intros jx Hj. apply in_map_iff in Hj as (i & <- & Hi). apply HP.
  intros k x Hk. rewrite Hp in Hk. destruct (lwf_split _ _ _ _ lwf_data) as (Ha & Hb & _ & _).
  apply in_app_iff in Hk as [Hk|[Hk|Hk]].
  - rewrite put_else by (intros ->; apply Ha, In_keys; eauto). apply Hix. rewrite Pr. apply in_app_iff. auto.
  - injection Hk as <- <-. rewrite put_at. unfold positions in Hi. apply in_flat_map in Hi as ([b e] & Hbe & Hi). apply zseq_In in Hi.
    destruct (Hin g (nth_error_In _ _ Eg) b e Hbe) as [? ?]. cbn [fst snd] in Hi. lia.
  - rewrite put_else by (intros ->; apply Hb, In_keys; eauto). apply Hix. rewrite Pr. apply in_app_iff. right. right. exact Hk.
Qed.
End All.

(** ** Means *)
Lemma ones_fold {X} (p : X -> bool) js : forall a,
  fold_left Z.add (map (fun j => if p j then 1 else 0) js) a = a + zlen js - zlen (filter (fun j => negb (p j)) js).
Proof.
  induction js as [|j js IH]; intros a; [unfold zlen; cbn; lia|]. cbn [map fold_left filter]. rewrite IH. destruct (p j); cbn [negb]; unfold zlen; cbn [length]; lia.
Qed.
Lemma filter_map_len {X Y} (q : X -> Y) (p : Y -> bool) js : zlen (filter p (map q js)) = zlen (filter (fun j => p (q j)) js).
Proof. induction js as [|j js IH]; [reflexivity|]. cbn [map filter]. destruct (p (q j)); [|exact IH]. unfold zlen in *. cbn [length]. lia. Qed.

Section Scale.
Variables (reserved : list Z) (accZ : darr Z -> darr Z -> res (darr Z)) (HaccZ : accumulates reserved Z.add accZ).
Variables (dim n : Z) (l : list (Z * mask)) (u : option mask).
Hypotheses (Hdim : dim <> InvalidDim) (Hn : 0 <= n) (Hres : ~ In dim reserved).
Hypothesis Hu : match u with Some m => union_spec (mk [(dim, n)]) dim (masked l dim) m | None => forall jx, masked l dim jx = false end.

Lemma scale_group_ok (ix : Z -> Z) g : slices_inside n g -> forall c,
  scale_group accZ dim dim u g c = Ok (c + zlen (filter (fun i => negb (masked l dim (put ix dim i))) (positions g))).
Proof.
  induction g as [|[b e] g IH]; intros Hg c; cbn [scale_group].
  - f_equal. unfold zlen. cbn. lia.
  - destruct (Hg b e (or_introl eq_refl)) as [Hb He]. unfold positions. cbn [flat_map fst snd]. rewrite filter_app. fold (positions g).
    assert (Hlen : zlen (zseq b (Z.to_nat (e - b))) = e - b) by (unfold zlen, zseq; rewrite map_length, seq_length; lia).
    assert (Happ : forall x y : list Z, zlen (x ++ y) = zlen x + zlen y) by (intros; unfold zlen; rewrite app_length; lia).
    assert (Hg' : slices_inside n g) by (intros b' e' Hi; apply Hg; right; exact Hi).
    rewrite Happ. destruct u as [m|].
    + destruct Hu as (U1 & U2 & U3 & U4 & U5).
      assert (Hone : forall k x, has (k_dims m) k x -> k = dim /\ x = n).
      { intros k x Hk. apply U3 in Hk. unfold has in Hk. rewrite pairs_mk in Hk. destruct Hk as [[= -> ->]|[]]. auto. }
      assert (Hmn : has (k_dims m) dim n).
      { apply (pairs_labels _ _ (proj1 U1)) in U4 as [n' Hn']. destruct (Hone _ _ Hn') as [_ ->]. exact Hn'. }
      destruct (dslice_ok (k_arr m) dim n b e U1 Hmn Hb He) as (ms & -> & Hms & Lm & Hhm & Vm). cbn [bind].
      set (cnt := Accumulate_Model.mkd (dd ms) (fun ix => if dv ms ix then 1 else 0)).
      assert (Hcnt : well_formed cnt).
      { split; [apply Hms|]. intros jx jx' Hj. cbn [cnt dv]. rewrite (proj2 Hms jx jx' Hj). reflexivity. }
      assert (Hlab : forall k, In k (labels (dd ms)) -> k = dim).
      { intros k Hk. rewrite Lm in Hk. apply (pairs_labels _ _ (proj1 U1)) in Hk as [x Hx]. apply Hone in Hx. apply Hx. }
      destruct (reduce_dim_ok reserved Z.add accZ HaccZ 0 cnt dim (e - b) Hcnt) as (s & -> & Hs & Ps & Vs).
      { apply Hhm. auto. }
      { intros x Hx Hl. apply Hlab in Hl. subst x. contradiction. }
      cbn [bind].
      assert (Es : pairs (dd s) = []).
      { destruct (pairs (dd s)) as [|[k x] q] eqn:Eq; [reflexivity|]. exfalso.
        assert (Hk : In (k, x) (without_dim (dd cnt) dim)) by (rewrite <- Ps; left; reflexivity).
        apply without_dim_has in Hk as [Hk Hne]. apply Hne, Hlab. apply (pairs_labels _ _ (proj1 Hms)). exists x. exact Hk. }
      assert (Ed : ndim (dd s) = 0).
      { destruct (wf_mk_pairs (dd s) (proj1 Hs)) as [-> _]. rewrite Es. reflexivity. }
      rewrite Ed. cbn [Z.eqb bind]. rewrite (IH Hg'). f_equal.
      assert (Hv : dv s (fun _ => 0) = zlen (zseq b (Z.to_nat (e - b))) - zlen (filter (fun i => negb (masked l dim (put ix dim i))) (zseq b (Z.to_nat (e - b))))).
      { rewrite Vs by (intros k x Hk; unfold has in Hk; rewrite Es in Hk; destruct Hk).
        rewrite <- (Z.add_0_l (zlen (zseq b _))), <- (ones_fold (fun i => masked l dim (put ix dim i))). f_equal.
        unfold along. rewrite map_map, <- (zseq_shift b), map_map. apply map_ext. intros j. cbn [cnt dv]. rewrite Vm, <- U5.
        rewrite (proj2 U1 _ (put ix dim (j + b))); [reflexivity|]. intros k Hk. assert (k = dim) as -> by (apply Hlab; rewrite Lm; exact Hk).
        unfold bump. rewrite !put_at, Z.eqb_refl. lia. }
      rewrite Hv, Hlen. lia.
    + cbn [bind]. rewrite (IH Hg'). f_equal. rewrite (filter_all _ (zseq b _)) by (intros i _; rewrite Hu; reflexivity). rewrite Hlen. lia.
Qed.
End Scale.

Theorem groupby_mean_ok {A B} reserved (f : A -> A -> A) acc reserved' accZ zero (norm : A -> Z -> B) data p1 dim n p2 gdim l (groups : list group) :
  accumulates_any reserved f acc -> accumulates reserved' Z.add accZ -> ignores f zero zero ->
  well_formed data -> pairs (dd data) = p1 ++ (dim, n) :: p2 -> (forall x, In x (reserved ++ reserved') -> ~ In x (labels (dd data))) ->
  (forall k m, In (k, m) l -> well_formed (k_arr m)) -> applicable l dim data ->
  (forall k m, In (k, m) l -> In dim (labels (k_dims m)) -> labels (k_dims m) = [dim]) ->
  gdim <> InvalidDim -> ~ In gdim (keys p1) -> ~ In gdim (keys p2) -> (forall g, In g groups -> slices_inside n g) ->
  exists r, groupby_mean acc accZ zero norm dim dim gdim data l groups = Ok r /\ pairs (dd r) = p1 ++ (gdim, zlen groups) :: p2 /\
    forall ix g, inside (dd r) ix -> nth_error groups (Z.to_nat (ix gdim)) = Some g ->
      let js := unmasked l dim (map (put ix dim) (positions g)) in dv r ix = norm (fold_left f (map (dv data) js) zero) (zlen js).
Proof.
  intros Hacc HaccZ Hig Hdata Hp Hres Hw Happ Hone Hg Hg1 Hg2 Hin. unfold groupby_mean.
  pose proof (lwf_data data p1 p2 dim n Hdata Hp) as Hlw. destruct (lwf_split _ _ _ _ Hlw) as (Ha & Hb & Hn0 & Hd).
  destruct (groupby_ok reserved f acc Hacc zero data p1 p2 dim n gdim l Hdata Hp) with (P := fun _ : A => True) (groups := groups) as (r & -> & Wr & Pr & Vr); try assumption; auto.
  { intros x Hx. apply Hres, in_app_iff. auto. }
  cbn [bind].
  assert (Hlw1 : wf (mk [(dim, n)])).
  { apply wf_mk. split; [|split]; cbn; [repeat constructor; intros []|repeat constructor; assumption|intros [E|[]]; congruence]. }
  assert (Hu : exists u, irreducible_mask l dim = Ok u /\
    match u with Some m => union_spec (mk [(dim, n)]) dim (masked l dim) m | None => forall jx, masked l dim jx = false end).
  { destruct (irreducible_ok (mk [(dim, n)]) dim l Hlw1 Hw) as [[E Hnone]|(u & E & U)]; [|exists None; auto|exists (Some u); auto].
    intros k m Hm Hdm. destruct (Happ k m Hm Hdm) as [Um Im]. split; [exact Um|]. intros k' x Hk. unfold has. rewrite pairs_mk.
    assert (k' = dim) as ->.
    { assert (Hi : In k' (labels (k_dims m))) by (apply pairs_labels; [apply (Hw k m Hm)|eauto]). rewrite (Hone k m Hm Hdm) in Hi. destruct Hi as [->|[]]. reflexivity. }
    rewrite (has_unique' _ _ _ _ (proj1 Hdata) (Im _ _ Hk) (dim_of_data data p1 p2 dim n Hp)). left. reflexivity. }
  destruct Hu as (u & -> & Hu). cbn [bind].
  assert (Hndr : ~ In dim reserved').
  { intros Hx. apply (Hres dim); [apply in_app_iff; auto|]. apply pairs_labels; [apply Hdata|]. exists n. exact (dim_of_data data p1 p2 dim n Hp). }
  rewrite (mapM_ok _ (fun g => zlen (filter (fun i => negb (masked l dim (put (fun _ => 0) dim i))) (positions g)))).
  2:{ intros g Hg0. rewrite (scale_group_ok reserved' accZ HaccZ dim n l u Hd Hn0 Hndr Hu (fun _ => 0) g (Hin g Hg0) 0). reflexivity. }
  cbn [bind]. eexists. split; [reflexivity|]. cbn [dd dv]. split; [exact Pr|]. intros ix g Hix Eg. cbn zeta. rewrite (Vr ix g Hix Eg). f_equal.
  assert (Hix0 : 0 <= ix gdim).
  { apply (Hix gdim (zlen groups)). rewrite Pr. apply in_app_iff. right. left. reflexivity. }
  unfold znth. replace (ix gdim <? 0) with false by lia. rewrite (nth_error_nth (map _ groups) _ 0 (map_nth_error _ _ _ Eg)).
  pose proof (scale_group_ok reserved' accZ HaccZ dim n l u) as Hs.
  pose proof (Hs Hd Hn0 Hndr Hu (fun _ => 0) g (Hin g (nth_error_In _ _ Eg)) 0) as E0.
  pose proof (Hs Hd Hn0 Hndr Hu ix g (Hin g (nth_error_In _ _ Eg)) 0) as E1.
  rewrite E0 in E1. unfold unmasked. rewrite filter_map_len. injection E1 as E1. exact E1.
Qed.
