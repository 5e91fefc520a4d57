From Coq Require Import Sorted.
From Verif Require Import Base Map_Model Map_Spec Map_Proofs Numeric_Model Lookup_Model Lookup_Proofs Lookup_Props Mapper_Model Mapper_Proofs
  Dims_Model Dims_Spec Dims_Proofs View_Model View_Spec View_Proofs
  Transform_Model Transform_Spec Transform_Proofs SizedDict_Model SizedDict_Spec SizedDict_Proofs Accumulate_Spec Accumulate_Model Accumulate_Proofs
  Mask_Model Mask_Spec Mask_Proofs EventLookup_Model EventLookup_Spec.

(** ** The innermost dimension of a merged shape *)
Lemma from_suffix k b it : (exists s, b = s ++ it) -> exists s, b = s ++ from k it.
Proof. intros (s & ->). exists (s ++ Dims_Proofs.before k it). rewrite <- app_assoc, before_from. reflexivity. Qed.
Lemma from_last k : forall it s t, NoDup (s ++ [k]) -> s ++ [k] = t ++ it -> from k it = [] \/ from k it = [k].
Proof.
  induction it as [|y it IH]; intros s t Hnd E; [left; reflexivity|]. cbn [from]. destruct (Z.eqb_spec y k) as [->|Hne].
  - right. f_equal. destruct it as [|z it]; [reflexivity|]. exfalso.
    assert (Hl : exists it' , k :: z :: it = k :: it' ++ [k]).
    { destruct (@exists_last _ (z :: it) ltac:(discriminate)) as (it' & w & Ew). rewrite Ew in *. exists it'.
      replace (t ++ k :: it' ++ [w]) with ((t ++ k :: it') ++ [w]) in E by (rewrite <- app_assoc; reflexivity).
      apply app_inj_tail in E as [_ <-]. reflexivity. }
    destruct Hl as (it' & El). rewrite El in E. replace (t ++ k :: it' ++ [k]) with ((t ++ k :: it') ++ [k]) in E by (rewrite <- app_assoc; reflexivity).
    apply app_inj_tail in E as [-> _]. apply NoDup_remove_2 in Hnd. apply Hnd. rewrite app_nil_r. apply in_app_iff. right. left. reflexivity.
  - apply (IH s (t ++ [y]) Hnd). rewrite E, <- app_assoc. reflexivity.
Qed.
Lemma merge_labels_last a b dim s : labels b = s ++ [dim] -> NoDup (labels b) -> In dim (labels a) -> forall ds L it, (exists t, labels b = t ++ it) ->
  exists L' r, merge_labels a b L it (ds ++ [dim]) = (L' ++ [dim], r) /\ without a r = [].
Proof.
  intros Eb Hnd Hda. induction ds as [|k ds IH]; intros L it Hit.
  - cbn [app merge_labels]. assert (memb b dim = true) as ->. { apply memb_labels. rewrite Eb. apply in_app_iff. right. left. reflexivity. }
    exists (L ++ without a (Dims_Proofs.before dim it)), (from dim it). split; [rewrite app_assoc; reflexivity|]. destruct Hit as (t & Hit). rewrite Eb in Hit, Hnd.
    destruct (from_last dim it s t Hnd Hit) as [->| ->]; [reflexivity|]. apply without_none. intros x [<-|[]]. exact Hda.
  - cbn [app merge_labels]. destruct (memb b k).
    + apply IH. apply from_suffix. exact Hit.
    + apply IH. exact Hit.
Qed.
Lemma merge_inner a b m dim : wf a -> wf b -> ~ conflict a b -> dims_merge a b = Ok m -> inner a dim -> inner b dim -> inner m dim.
Proof.
  intros Ha Hb Hnc Em [sa Ea] [sb Eb]. destruct (merge_ok a b Ha Hb Hnc) as (m' & E' & _ & _ & _ & _ & El). rewrite Em in E'. injection E' as <-.
  destruct (merge_labels_last a b dim sb Eb) with (ds := sa) (L := @nil Z) (it := labels b) as (L' & r & Er & Hr).
  - apply Hb.
  - rewrite Ea. apply in_app_iff. right. left. reflexivity.
  - exists []. reflexivity.
  - unfold inner. rewrite El, Ea, Er. cbn [fst snd]. rewrite Hr, app_nil_r. exists L'. reflexivity.
Qed.

Lemma irreducible_inner d dim : wf d -> forall l u u',
  (forall k m, In (k, m) l -> well_formed (k_arr m)) ->
  (forall k m, In (k, m) l -> In dim (labels (k_dims m)) -> usable m /\ forall k' n, has (k_dims m) k' n -> has d k' n) ->
  (forall k m, In (k, m) l -> In dim (labels (k_dims m)) -> inner (k_dims m) dim) ->
  (forall m, u = Some m -> well_formed (k_arr m) /\ usable m /\ (forall k' n, has (k_dims m) k' n -> has d k' n) /\ inner (k_dims m) dim) ->
  irreducible_loop u dim l = Ok (Some u') -> inner (k_dims u') dim.
Proof.
  intros Hd. induction l as [|[k m] l IH]; intros u u' Hw Hu Hi Hs; cbn [irreducible_loop].
  - intros E. injection E as ->. apply (Hs u' eq_refl).
  - assert (Hm : well_formed (k_arr m)) by (apply (Hw k); left; reflexivity).
    assert (Hw' : forall k' m', In (k', m') l -> well_formed (k_arr m')) by (intros k' m' Hx; apply (Hw k'); right; exact Hx).
    assert (Hu' : forall k' m', In (k', m') l -> In dim (labels (k_dims m')) -> usable m' /\ forall k' n, has (k_dims m') k' n -> has d k' n)
      by (intros k' m' Hx; apply (Hu k'); right; exact Hx).
    assert (Hi' : forall k' m', In (k', m') l -> In dim (labels (k_dims m')) -> inner (k_dims m') dim) by (intros k' m' Hx; apply (Hi k'); right; exact Hx).
    rewrite dcontains_In by apply Hm. destruct (mem dim (labels (k_dims m))) eqn:E; [|apply IH; assumption].
    apply mem_In in E. destruct (Hu k m (or_introl eq_refl) E) as [Um Wm]. pose proof (Hi k m (or_introl eq_refl) E) as Im.
    destruct u as [u0|].
    + destruct (Hs u0 eq_refl) as (S1 & S2 & S3 & S4). pose proof (within_noconf d _ _ Hd S3 Wm) as Hnc.
      destruct (mask_or_ok u0 m S1 Hm S2 Um Hnc) as (v & Ev & V1 & V2 & _ & V3 & V4). rewrite Ev. cbn [bind]. apply IH; try assumption.
      intros v' Hv'. injection Hv' as <-. split; [exact V1|]. split; [exact V2|]. split; [intros k' n Hk; apply V3 in Hk as [Hk|Hk]; auto|].
      unfold mask_or in Ev. destruct (negb (k_bool u0 && k_bool m)); [discriminate|]. destruct (negb (k_none u0 && k_none m)); [discriminate|].
      destruct (dims_merge (k_dims u0) (k_dims m)) as [dm| |] eqn:Ed; try discriminate. cbn [bind] in Ev. injection Ev as <-.
      apply (merge_inner _ _ _ _ (proj1 S1) (proj1 Hm) Hnc Ed S4 Im).
    + cbn [bind]. apply IH; try assumption. intros v' Hv'. injection Hv' as <-. destruct m as [ar bo no ro]. unfold usable, k_dims in *. cbn [mask_copy k_arr k_bool k_none] in *. auto.
Qed.

Lemma inner_stride d dim : wf d -> inner d dim -> inner_volume dim (labels d) (shape d) = 1.
Proof.
  intros Hd [s Es]. assert (Hlen : length (labels d) = length (shape d)) by (destruct Hd as (_ & Hl & _); unfold labels, shape; lia). assert (Hnd : NoDup (labels d)) by apply Hd. rewrite Es in *. revert Hlen Hnd. generalize (shape d). clear Es.
  induction s as [|k s IH]; intros ns Hlen Hnd; destruct ns as [|n ns]; try discriminate.
  - destruct ns; [|discriminate]. cbn. rewrite Z.eqb_refl. reflexivity.
  - cbn [app inner_volume]. inversion Hnd as [|? ? Hn Hnd']; subst. destruct (Z.eqb_spec k dim) as [->|_].
    + exfalso. apply Hn, in_app_iff. right. left. reflexivity.
    + apply IH; [cbn in Hlen; lia|exact Hnd'].
Qed.

(** ** The masked data *)
Lemma masked_data_ok {W} (data : source W) l dim n fill : well_formed (s_arr data) -> has (dd (s_arr data)) dim n -> stride_of data dim = 1 ->
  (forall k b, In (k, b) l -> well_formed (k_arr b)) -> applicable l dim (s_arr data) ->
  (forall k b, In (k, b) l -> In dim (labels (k_dims b)) -> inner (k_dims b) dim /\ inner (dd (s_arr data)) dim) ->
  exists s, masked_data true data l dim fill = Ok s /\ well_formed (s_arr s) /\ (forall k j, has (dd (s_arr s)) k j <-> has (dd (s_arr data)) k j) /\ stride_of s dim = 1 /\
    forall jx, dv (s_arr s) jx = if masked l dim jx then fill else dv (s_arr data) jx.
Proof.
  intros Hd Hn Hst Hw Ha Hi. unfold masked_data. destruct (irreducible_ok (dd (s_arr data)) dim l (proj1 Hd) Hw) as [[E Hm]|(u & E & U1 & U2 & U3 & U4 & U5)].
  - intros k m Hk Hl. exact (Ha k m Hk Hl).
  - rewrite E. cbn [bind]. exists data. split; [reflexivity|]. split; [exact Hd|]. split; [reflexivity|]. split; [exact Hst|]. intros jx. rewrite Hm. reflexivity.
  - rewrite E. cbn [bind]. destruct (where_ok u fill (s_arr data) U1 U2 Hd U3) as (w & Ew & W1 & W2 & _ & W4). rewrite Ew. cbn [bind].
    exists (mksource w None). cbn [s_arr]. split; [reflexivity|]. split; [exact W1|]. split; [exact W2|]. split.
    + unfold stride_of. cbn [s_stride s_arr]. apply inner_stride; [apply W1|]. assert (Iu : inner (k_dims u) dim).
      { apply (irreducible_inner (dd (s_arr data)) dim (proj1 Hd) l None u Hw); try assumption.
        - intros k m Hk Hl. apply (Hi k m Hk Hl).
        - discriminate. }
      assert (Id : inner (dd (s_arr data)) dim).
      { (* some mask depends on [dim] *)
        assert (Hex : (exists k m, In (k, m) l /\ In dim (labels (k_dims m))) \/ forall k m, In (k, m) l -> ~ In dim (labels (k_dims m))).
        { clear. induction l as [|[k m] l IH]; [right; intros k m []|]. destruct (in_dec Z.eq_dec dim (labels (k_dims m))) as [Hx|Hx].
          - left. exists k, m. split; [left; reflexivity|exact Hx].
          - destruct IH as [(k' & m' & Hk & Hl)|IH]; [left; exists k', m'; split; [right; exact Hk|exact Hl]|].
            right. intros k' m' [Ek|Hk]; [injection Ek as <- <-; exact Hx|exact (IH k' m' Hk)]. }
        destruct Hex as [(k & m & Hk & Hl)|Hex]; [apply (Hi k m Hk Hl)|]. exfalso.
        assert (En : irreducible_loop None dim l = Ok None); [|unfold irreducible_mask in E; congruence].
        clear E Ha Hi U5 Iu. induction l as [|[k m] l IH]; [reflexivity|]. cbn [irreducible_loop]. rewrite dcontains_In by (apply (Hw k); left; reflexivity).
        replace (mem dim (labels (k_dims m))) with false by (symmetry; apply mem_nIn, (Hex k); left; reflexivity).
        apply IH; intros k' m' Hk; [apply (Hw k')|apply (Hex k')]; right; exact Hk. }
      unfold where_ in Ew. destruct (negb (k_bool u)); [discriminate|]. destruct (negb (k_none u)); [discriminate|].
      rewrite (merge_includes (k_dims u) mempty (proj1 U1) wf_empty) in Ew by (intros k j []). cbn [bind] in Ew.
      destruct (dims_merge (k_dims u) (dd (s_arr data))) as [dm| |] eqn:Ed; try discriminate. cbn [bind] in Ew. injection Ew as <-. cbn [dd].
      apply (merge_inner _ _ _ _ (proj1 U1) (proj1 Hd) (sub_noconf _ _ (proj1 Hd) U3) Ed Iu Id).
    + intros jx. rewrite W4, U5. reflexivity.
Qed.

(** ** Spans *)
Lemma span_length {A} (a : darr A) dim n ix : 0 <= n -> Z.of_nat (length (span a dim n ix)) = n.
Proof. intros Hn. unfold span. rewrite map_length. unfold zseq. rewrite map_length, seq_length. lia. Qed.
Lemma span_vget {A} (a : darr A) dim n ix i : 0 <= i < n -> vget (span a dim n ix) i = Ok (dv a (put ix dim i)).
Proof.
  intros Hi. unfold vget, span. destruct (Z.ltb_spec i 0); [lia|]. rewrite nth_error_map. unfold zseq. rewrite nth_error_map.
  replace (nth_error (seq 0 (Z.to_nat n)) (Z.to_nat i)) with (Some (Z.to_nat i)).
  - cbn. f_equal. f_equal. f_equal. lia.
  - symmetry. rewrite (nth_error_nth' _ 0%nat) by (rewrite seq_length; lia). rewrite seq_nth by lia. reflexivity.
Qed.
Lemma span_vget_inv {A} (a : darr A) dim n ix i x : 0 <= n -> vget (span a dim n ix) i = Ok x -> 0 <= i < n /\ x = dv a (put ix dim i).
Proof.
  intros Hn E. pose proof (vget_bound _ _ _ E) as Hb. rewrite span_length in Hb by exact Hn. rewrite span_vget in E by exact Hb. injection E as <-. auto.
Qed.
Lemma span_ext {A} (a : darr A) dim n ix ix' : well_formed a -> (forall l, In l (labels (dd a)) -> l <> dim -> ix l = ix' l) -> span a dim n ix = span a dim n ix'.
Proof.
  intros [_ Hp] Hx. apply map_ext. intros i. apply Hp. intros l Hl. destruct (Z.eq_dec l dim) as [->|Hne]; [rewrite !put_at; reflexivity|].
  rewrite !put_else by exact Hne. auto.
Qed.
Lemma subspan_ok {A} (a : source A) dim n : well_formed (s_arr a) -> has (dd (s_arr a)) dim n -> stride_of a dim = 1 ->
  exists d, subspan_view a dim = Ok (d, span (s_arr a) dim n) /\ wf d /\ forall k j, has d k j <-> has (dd (s_arr a)) k j /\ k <> dim.
Proof.
  intros Hw Hn Hs. unfold subspan_view. rewrite (dat_has _ _ _ (proj1 Hw) Hn). cbn [bind]. rewrite Hs. cbn [Z.eqb negb Pos.eqb].
  destruct (merase_dim _ _ _ (proj1 Hw) Hn) as (d & -> & Hd & Ep). cbn [bind]. exists d. split; [reflexivity|]. split; [exact Hd|].
  intros k j. unfold has at 1. rewrite Ep. apply without_dim_has.
Qed.
Lemma all_along_ok {A} test (a : darr A) dim n : well_formed a -> has (dd a) dim n -> exists b, all_along test a dim = Ok b /\
  (b = true -> forall ix, (forall k j, has (dd a) k j -> k <> dim -> 0 <= ix k < j) -> test (span a dim n ix) = true) /\
  ((forall ix, (forall k j, has (dd a) k j -> k <> dim -> 0 <= ix k < j) -> test (span a dim n ix) = true) -> b = true).
Proof.
  intros Hw Hn. unfold all_along. rewrite (dat_has _ _ _ (proj1 Hw) Hn). cbn [bind].
  destruct (merase_dim _ _ _ (proj1 Hw) Hn) as (d & -> & Hd & Ep). cbn [bind]. eexists. split; [reflexivity|].
  assert (Hh : forall k j, has d k j <-> has (dd a) k j /\ k <> dim) by (intros k j; unfold has at 1; rewrite Ep; apply without_dim_has).
  destruct (indices_enum d Hd) as (_ & Hin & Hcov). split.
  - intros Ht ix Hix. rewrite forallb_forall in Ht. assert (Hi : inside d ix) by (intros k j Hk; apply Hh in Hk as [Hk Hne]; apply (Hix k j Hk Hne)).
    specialize (Hcov ix Hi). unfold coords in Hcov. apply in_map_iff in Hcov as (jx & Ej & Hj). rewrite <- (Ht jx Hj). f_equal. apply span_ext; [exact Hw|].
    intros k Hk Hne. apply (pairs_labels _ _ (proj1 Hw)) in Hk as [j Hk]. symmetry. apply (map_eq_in _ _ _ Ej). apply (pairs_labels _ _ Hd). exists j. apply Hh. auto.
  - intros Ht. apply forallb_forall. intros jx Hj. apply Ht. intros k j Hk Hne. apply (Hin jx Hj). apply Hh. auto.
Qed.

(** ** Element functions *)
Lemma upper_loop_nonneg {E} (lt : E -> bool) edges : forall fuel first len it, 0 <= first -> 0 <= len -> upper_bound_loop lt edges fuel first len = Ok it -> 0 <= it.
Proof.
  induction fuel as [|fuel IH]; intros first len it Hf Hl E0; cbn [upper_bound_loop] in E0; [discriminate|].
  destruct (Z.leb_spec len 0); [injection E0 as <-; exact Hf|]. pose proof (Z.quot_pos len 2 ltac:(lia) ltac:(lia)) as Hq.
  assert (Hlt : Z.quot len 2 < len) by (apply Z.quot_lt; lia).
  remember (Z.quot len 2) as h eqn:Eh. cbn zeta in E0. try rewrite <- Eh in E0. destruct (vget edges (first + h)) as [e| |]; try discriminate. cbn [bind] in E0. destruct (lt e).
  - apply (IH _ _ _ Hf Hq E0).
  - refine (IH _ _ _ _ _ E0); lia.
Qed.
Lemma sorted_is_linspace {E W} (lt : E -> E -> bool) x edges (weights : list W) fill : edges <> [] ->
  map_sorted_edges lt x edges weights fill = map_linspace (bin_sorted (lt x) edges) weights fill.
Proof.
  intros Hne. unfold map_sorted_edges, map_linspace, bin_sorted. destruct (upper_bound (lt x) edges) as [it| |] eqn:Eu; try reflexivity. cbn [bind].
  rewrite Bool.orb_comm. unfold zlen. destruct ((it =? 0) || (it =? Z.of_nat (length edges))) eqn:Eb; [reflexivity|]. cbn [bind].
  destruct (Z.ltb_spec (it - 1) 0); [|reflexivity]. exfalso. apply orb_false_elim in Eb as [Eb _]. apply Z.eqb_neq in Eb.
  pose proof (upper_loop_nonneg (lt x) edges (S (length edges)) 0 (Z.of_nat (length edges)) it ltac:(lia) ltac:(lia) Eu). lia.
Qed.
Lemma mul_sorted_is_linspace {E W} (lt : E -> E -> bool) (mul : W -> W -> W) zero x edges (weights : list W) y : edges <> [] ->
  mul_sorted_edges lt mul zero x edges weights y = mul_linspace mul zero (bin_sorted (lt x) edges) weights y.
Proof.
  intros Hne. pose proof (sorted_is_linspace lt x edges (map Some weights) None Hne) as E0. unfold map_sorted_edges, map_linspace in E0. unfold mul_sorted_edges, mul_linspace, bin_sorted in *.
  destruct (upper_bound (lt x) edges) as [it| |]; try reflexivity. cbn [bind] in *. rewrite Bool.orb_comm in *. unfold zlen in *.
  destruct ((it =? 0) || (it =? Z.of_nat (length edges))); [reflexivity|]. cbn [bind] in *. destruct (Z.ltb_spec (it - 1) 0) as [Hlt|]; [|reflexivity].
  exfalso. unfold vget in E0. destruct (Z.ltb_spec (it - 1) 0); [discriminate|lia].
Qed.
Lemma linspace_value {E W} (ins : E -> E -> Prop) (coord : source E) (a : darr W) dim n m ix bin fill : 0 <= n -> 0 < m -> m = n + 1 ->
  (exists r, bin = Ok r /\ is_bin ins (span (s_arr coord) dim m ix) r) ->
  exists w, map_linspace bin (span a dim n ix) fill = Ok w /\ value_in_bins ins (coord_of coord dim ix) (fun i => dv a (put ix dim i)) n fill w.
Proof.
  intros Hn Hm -> (r & -> & Hr1 & Hr). unfold map_linspace. cbn [bind]. destruct (Z.ltb_spec r 0) as [Hneg|Hpos].
  - exists fill. split; [reflexivity|]. split; [|reflexivity]. intros i Hi Hc. exfalso. destruct (Hr i ltac:(lia)) as [_ Hr'].
    assert (r = i); [|lia]. apply Hr'. exists (coord_of coord dim ix i), (coord_of coord dim ix (i + 1)). rewrite !span_vget by lia. auto.
  - destruct (proj1 (Hr r Hpos) eq_refl) as (x0 & x1 & E0 & E1 & Hc). apply span_vget_inv in E0 as [B0 ->]; [|lia]. apply span_vget_inv in E1 as [B1 ->]; [|lia].
    exists (dv a (put ix dim r)). split; [apply span_vget; lia|]. split.
    + intros i Hi Hci. assert (r = i) as ->; [|reflexivity]. apply (Hr i ltac:(lia)). exists (coord_of coord dim ix i), (coord_of coord dim ix (i + 1)). rewrite !span_vget by lia. auto.
    + intros Hno. exfalso. apply (Hno r ltac:(lia)). exact Hc.
Qed.

(** ** Evaluation *)
Lemma eval_ok {W} d (dflt : W) g : wf d -> (forall ix, inside d ix -> exists w, g ix = Ok w) ->
  exists r, eval d dflt g = Ok r /\ dd r = d /\ forall ix, inside d ix -> g ix = Ok (dv r ix).
Proof.
  intros Hd Hg. unfold eval. set (h := fun ix => match g ix with Ok w => w | _ => dflt end).
  rewrite (mapM_ok g h).
  - cbn [bind]. eexists. split; [reflexivity|]. cbn [dd dv]. split; [reflexivity|]. intros ix Hi. unfold h. destruct (Hg ix Hi) as (w & ->). reflexivity.
  - intros ix Hi. unfold h. destruct (Hg ix) as (w & ->); [|reflexivity]. apply (indices_enum d Hd). exact Hi.
Qed.

Lemma merged3 (x c w : sizes) : wf x -> wf c -> wf w -> (forall k j, has c k j -> has w k j) -> (forall k i j, has x k i -> has w k j -> i = j) ->
  exists d1 d2, dims_merge x c = Ok d1 /\ dims_merge d1 w = Ok d2 /\ dims_merge d2 mempty = Ok d2 /\ wf d2 /\ forall k j, has d2 k j <-> has x k j \/ has w k j.
Proof.
  intros Hx Hc Hw Hcw Hxw. destruct (merge_ok x c Hx Hc) as (d1 & E1 & W1 & H1 & _).
  { intros (k & i & j & Hi & Hj & Hne). apply Hne. apply (Hxw k); auto. }
  destruct (merge_ok d1 w W1 Hw) as (d2 & E2 & W2 & H2 & _).
  { intros (k & i & j & Hi & Hj & Hne). apply Hne. apply H1 in Hi as [Hi|Hi]; [apply (Hxw k); auto|]. apply (has_unique' w k); auto. }
  exists d1, d2. split; [exact E1|]. split; [exact E2|]. split; [apply (merge_includes d2 mempty W2 wf_empty); intros k j []|]. split; [exact W2|].
  intros k j. rewrite H2, H1. split; [intros [[Hk|Hk]|Hk]; auto|intros [Hk|Hk]; auto].
Qed.

Lemma value_in_bins_ext {E W} (ins : E -> E -> Prop) edge (v v' : Z -> W) n fill r : (forall i, 0 <= i < n -> v i = v' i) ->
  value_in_bins ins edge v n fill r -> value_in_bins ins edge v' n fill r.
Proof. intros Hv [A B]. split; [|exact B]. intros i Hi Hc. rewrite <- Hv by exact Hi. auto. Qed.

(** ** Sorted rows *)
Lemma adjacent_nth {A} (p : A -> A -> bool) l : (forall k x y, nth_error l k = Some x -> nth_error l (S k) = Some y -> p x y = false) -> no_adjacent p l = true.
Proof.
  induction l as [|a l IH]; intros Hp; [reflexivity|]. destruct l as [|b l]; [reflexivity|]. change (negb (p a b) && no_adjacent p (b :: l) = true).
  rewrite (Hp 0%nat a b eq_refl eq_refl). cbn [negb andb]. apply IH. intros k x y Hx Hy. apply (Hp (S k)); assumption.
Qed.
Lemma adjacent_inv {A} (p : A -> A -> bool) l : no_adjacent p l = true -> forall k x y, nth_error l k = Some x -> nth_error l (S k) = Some y -> p x y = false.
Proof.
  induction l as [|a l IH]; intros Hp k x y Hx Hy; [destruct k; discriminate|]. destruct l as [|b l]; [destruct k; [discriminate|destruct k; discriminate]|].
  change (negb (p a b) && no_adjacent p (b :: l) = true) in Hp. apply andb_true_iff in Hp as [P1 P2]. destruct k as [|k].
  - cbn in Hx, Hy. injection Hx as <-. injection Hy as <-. apply negb_true_iff. exact P1.
  - apply (IH P2 k); assumption.
Qed.
Lemma vget_some {A} (l : list A) i x : vget l i = Ok x <-> 0 <= i /\ nth_error l (Z.to_nat i) = Some x.
Proof.
  unfold vget. destruct (Z.ltb_spec i 0); [split; [discriminate|lia]|]. destruct (nth_error l (Z.to_nat i)); split; try discriminate; try (intros [_ E]; discriminate).
  - intros E. injection E as ->. auto.
  - intros [_ E]. injection E as ->. reflexivity.
Qed.
Lemma sorted_span_row {E} (le : E -> E -> bool) (a : darr E) dim m ix : 0 <= m ->
  (sorted_span le (span a dim m ix) = true <-> forall i, 0 <= i -> i + 1 < m -> le (dv a (put ix dim i)) (dv a (put ix dim (i + 1))) = true).
Proof.
  intros Hm. split.
  - intros Hs i Hi Hi'. apply negb_false_iff. apply (adjacent_inv _ _ Hs (Z.to_nat i)).
    + apply (vget_some (span a dim m ix) i). apply span_vget. lia.
    + replace (S (Z.to_nat i)) with (Z.to_nat (i + 1)) by lia. apply (vget_some (span a dim m ix) (i + 1)). apply span_vget. lia.
  - intros Hr. apply adjacent_nth. intros k x y Hx Hy. apply negb_false_iff.
    assert (Vx : vget (span a dim m ix) (Z.of_nat k) = Ok x) by (apply vget_some; split; [lia|rewrite Nat2Z.id; exact Hx]).
    assert (Vy : vget (span a dim m ix) (Z.of_nat k + 1) = Ok y) by (apply vget_some; split; [lia|replace (Z.to_nat (Z.of_nat k + 1)) with (S k) by lia; exact Hy]).
    apply span_vget_inv in Vx as [B1 ->]; [|lia]. apply span_vget_inv in Vy as [B2 ->]; [|lia]. apply Hr; lia.
Qed.
Lemma sorted_strongly {E} (le : E -> E -> bool) l : (forall x y z, le x y = true -> le y z = true -> le x z = true) -> sorted_span le l = true -> StronglySorted (fun x y => le x y = true) l.
Proof.
  intros Ht Hs. apply Sorted_StronglySorted; [intros x y z; apply Ht|]. induction l as [|a l IH]; [constructor|]. destruct l as [|b l]; [constructor; constructor|].
  change (negb (negb (le a b)) && sorted_span le (b :: l) = true) in Hs. rewrite negb_involutive in Hs. apply andb_true_iff in Hs as [S1 S2]. constructor; [apply IH; exact S2|constructor; exact S1].
Qed.

Section Functions.
Context {E W : Type} (lt le : E -> E -> bool) (islin : list E -> bool) (bin : list E -> E -> res Z) (ins : E -> E -> E -> Prop).
Hypothesis sorted_lookup : forall edges x, sorted_span le edges = true -> exists r, bin_sorted (lt x) edges = Ok r /\ is_bin (ins x) edges r.
Variables (data : source W) (coord : source E) (l : list (Z * mask)) (dim : Dim) (n m : Z).
Hypothesis HF : function_fine data coord l dim n m.
(** The lookup of linearly spaced edges works for the rows of the coordinate that are used. *)
Hypothesis lin_lookup : forall ix, (forall k j, has (dd (s_arr coord)) k j -> k <> dim -> 0 <= ix k < j) -> islin (span (s_arr coord) dim m ix) = true ->
  forall x, exists r, bin (span (s_arr coord) dim m ix) x = Ok r /\ is_bin (ins x) (span (s_arr coord) dim m ix) r.

Lemma extents_nonneg : 0 <= n /\ 0 <= m.
Proof. destruct HF. split; [apply (has_nonneg _ _ _ (proj1 fn_data) fn_n)|apply (has_nonneg _ _ _ (proj1 fn_coord) fn_m)]. Qed.

Lemma edges_test : m = n + 1 -> is_edges (dd (s_arr data)) (dd (s_arr coord)) dim = Ok true.
Proof.
  intros Em. destruct HF. pose proof (proj1 (wf_lwf _) (proj1 fn_data)) as [Lp Ep]. pose proof (proj1 (wf_lwf _) (proj1 fn_coord)) as [Lq Eq].
  unfold is_edges. replace (dim =? InvalidDim) with false by (symmetry; apply Z.eqb_neq; apply (has_valid _ _ _ (proj1 fn_data) fn_n)). cbn [orb].
  rewrite dcontains_In by apply fn_coord. replace (mem dim (labels (dd (s_arr coord)))) with true by (symmetry; apply mem_In, (pairs_labels _ _ (proj1 fn_coord)); eauto). cbn [negb].
  assert (El : is_edges_loop (dd (s_arr data)) (dd (s_arr coord)) dim (m_keys (dd (s_arr coord))) = Ok true).
  { destruct (is_edges_loop_ok (pairs (dd (s_arr data))) (pairs (dd (s_arr coord))) dim (m_keys (dd (s_arr coord))) Lp Lq) as (b & Eb & Hb).
    - intros k Hk. change (In k (labels (dd (s_arr coord)))) in Hk. rewrite labels_keys in Hk by apply fn_coord. exact Hk.
    - rewrite (mk_pairs _ Ep), (mk_pairs _ Eq) in Eb. rewrite Eb. f_equal. apply Hb. intros k j _ Hne Hk. apply (fn_dims k j Hk Hne). }
  rewrite El. assert (Eo : (if msize (dd (s_arr data)) =? 0 then Ok true else Ok true) = @Ok bool true) by (destruct (msize (dd (s_arr data)) =? 0); reflexivity).
  rewrite Eo. cbn [bind negb]. rewrite (dat_has _ _ _ (proj1 fn_coord) fn_m). cbn [bind].
  rewrite dcontains_In by apply fn_data. replace (mem dim (labels (dd (s_arr data)))) with true by (symmetry; apply mem_In, (pairs_labels _ _ (proj1 fn_data)); eauto).
  rewrite (dat_has _ _ _ (proj1 fn_data) fn_n). cbn [bind]. f_equal. lia.
Qed.

Lemma setup fill : exists s wd cd, masked_data true data l dim fill = Ok s /\ subspan_view s dim = Ok (wd, span (s_arr s) dim n) /\ subspan_view coord dim = Ok (cd, span (s_arr coord) dim m) /\
  wf wd /\ wf cd /\ (forall k j, has wd k j <-> has (dd (s_arr data)) k j /\ k <> dim) /\ (forall k j, has cd k j <-> has (dd (s_arr coord)) k j /\ k <> dim) /\
  (forall ix i, dv (s_arr s) (put ix dim i) = value_of data l dim fill ix i).
Proof.
  destruct HF. destruct fn_stride as [S1 S2], fn_masks as [M1 M2].
  destruct (masked_data_ok data l dim n fill fn_data fn_n S1 M1 M2 fn_inner) as (s & Es & Ws & Hs & Ss & Vs).
  destruct (subspan_ok s dim n Ws (proj2 (Hs _ _) fn_n) Ss) as (wd & Ew & Ww & Hw). destruct (subspan_ok coord dim m fn_coord fn_m S2) as (cd & Ec & Wc & Hc).
  exists s, wd, cd. repeat (split; [assumption|]). split; [intros k j; rewrite Hw, Hs; reflexivity|]. split; [exact Hc|].
  intros ix i. rewrite Vs. reflexivity.
Qed.

Definition rows_sorted : Prop := forall ix, (forall k j, has (dd (s_arr coord)) k j -> k <> dim -> 0 <= ix k < j) -> sorted_span le (span (s_arr coord) dim m ix) = true.
Definition rows_linear : Prop := forall ix, (forall k j, has (dd (s_arr coord)) k j -> k <> dim -> 0 <= ix k < j) -> islin (span (s_arr coord) dim m ix) = true.

Theorem map_ok x fill : m = n + 1 -> points_fine x data dim -> rows_sorted \/ rows_linear ->
  exists r, buckets_map lt le islin bin true true true data coord l x dim fill = Ok r /\ result_dims (dd r) (dd x) data dim /\
    forall ix, inside (dd r) ix -> value_in_bins (ins (dv x ix)) (coord_of coord dim ix) (value_of data l dim fill ix) n fill (dv r ix).
Proof.
  intros Em [Hx Hxd] Hrows. destruct extents_nonneg as [Hn Hm]. destruct (setup fill) as (s & wd & cd & Es & Ew & Ec & Ww & Wc & Hw & Hc & Vs). pose proof HF as HF'. destruct HF'.
  unfold buckets_map. cbn [negb]. rewrite (edges_test Em). cbn [bind negb]. rewrite Es. cbn [bind]. rewrite Ew. cbn [bind].
  destruct (all_along_ok islin (s_arr coord) dim m fn_coord fn_m) as (lin & El & L1 & L2). rewrite El. cbn [bind].
  destruct (all_along_ok (sorted_span le) (s_arr coord) dim m fn_coord fn_m) as (srt & Esr & S1 & S2).
  assert (Hls : lin = true \/ (lin = false /\ srt = true)).
  { destruct Hrows as [Hr|Hr]; [destruct lin; [auto|right; split; [reflexivity|apply S2; exact Hr]]|left; apply L2; exact Hr]. }
  assert (Echk : (if lin then Ok tt else do s0 <- all_along (sorted_span le) (s_arr coord) dim; if s0 then Ok tt else Throw BinEdgeError) = Ok tt).
  { destruct Hls as [->|[-> ->]]; [reflexivity|]. rewrite Esr. reflexivity. }
  rewrite Echk. cbn [bind]. rewrite Ec. cbn [bind andb negb fst snd].
  destruct (merged3 (dd x) cd wd (proj1 Hx) Wc Ww) as (d1 & d2 & E1 & E2 & E3 & Wd & Hd).
  { intros k j Hk. apply Hc in Hk as [Hk Hne]. apply Hw. split; [apply (fn_dims k j Hk Hne)|exact Hne]. }
  { intros k i j Hk Hk'. apply Hw in Hk' as [Hk' Hne]. apply (Hxd k i j Hne Hk Hk'). }
  rewrite E1. cbn [bind]. rewrite E2. cbn [bind]. rewrite E3. cbn [bind].
  assert (Hix : forall ix, inside d2 ix -> forall k j, has (dd (s_arr coord)) k j -> k <> dim -> 0 <= ix k < j).
  { intros ix Hi k j Hk Hne. apply (Hi k j). apply Hd. right. apply Hw. split; [apply (fn_dims k j Hk Hne)|exact Hne]. }
  assert (Hev : forall ix, inside d2 ix -> exists w, (if lin then map_linspace (bin (span (s_arr coord) dim m ix) (dv x ix)) (span (s_arr s) dim n ix) fill
        else map_sorted_edges lt (dv x ix) (span (s_arr coord) dim m ix) (span (s_arr s) dim n ix) fill) = Ok w /\
        value_in_bins (ins (dv x ix)) (coord_of coord dim ix) (value_of data l dim fill ix) n fill w).
  { intros ix Hi. assert (Hb : exists w, (if lin then map_linspace (bin (span (s_arr coord) dim m ix) (dv x ix)) (span (s_arr s) dim n ix) fill
        else map_sorted_edges lt (dv x ix) (span (s_arr coord) dim m ix) (span (s_arr s) dim n ix) fill) = Ok w /\
        value_in_bins (ins (dv x ix)) (coord_of coord dim ix) (fun i => dv (s_arr s) (put ix dim i)) n fill w).
    { destruct Hls as [->|[-> ->]].
      - apply (linspace_value _ coord (s_arr s) dim n m); try lia. apply (lin_lookup ix (Hix ix Hi) (L1 eq_refl ix (Hix ix Hi))).
      - rewrite sorted_is_linspace; [apply (linspace_value _ coord (s_arr s) dim n m); try lia; apply (sorted_lookup _ _ (S1 eq_refl ix (Hix ix Hi)))|].
        intros E0. pose proof (span_length (s_arr coord) dim m ix Hm) as Hl. rewrite E0 in Hl. cbn in Hl. lia. }
    destruct Hb as (w & Ev & Hv). exists w. split; [exact Ev|]. revert Hv. apply value_in_bins_ext. intros i _. apply Vs. }
  destruct (eval_ok d2 fill (fun ix => if lin then map_linspace (bin (span (s_arr coord) dim m ix) (dv x ix)) (span (s_arr s) dim n ix) fill
        else map_sorted_edges lt (dv x ix) (span (s_arr coord) dim m ix) (span (s_arr s) dim n ix) fill) Wd) as (r & Er & Dr & Vr).
  { intros ix Hi. destruct (Hev ix Hi) as (w & Ev & _). eauto. }
  exists r. split; [exact Er|]. rewrite Dr. split; [intros k j; rewrite Hd, Hw; reflexivity|]. intros ix Hi. destruct (Hev ix Hi) as (w & Ev & Hv).
  rewrite (Vr ix Hi) in Ev. injection Ev as ->. exact Hv.
Qed.

(** A row that is neither. *)
Theorem map_unsorted x fill : m = n + 1 -> ~ rows_linear -> ~ rows_sorted ->
  buckets_map lt le islin bin true true true data coord l x dim fill = Throw BinEdgeError.
Proof.
  intros Em Hl Hs. destruct (setup fill) as (s & wd & cd & Es & Ew & Ec & _). pose proof HF as HF'. destruct HF'.
  unfold buckets_map. cbn [negb]. rewrite (edges_test Em). cbn [bind negb]. rewrite Es. cbn [bind]. rewrite Ew. cbn [bind].
  destruct (all_along_ok islin (s_arr coord) dim m fn_coord fn_m) as (lin & El & L1 & L2). rewrite El. cbn [bind].
  destruct lin; [exfalso; apply Hl; exact (L1 eq_refl)|].
  destruct (all_along_ok (sorted_span le) (s_arr coord) dim m fn_coord fn_m) as (srt & Esr & S1 & S2). rewrite Esr. cbn [bind].
  destruct srt; [exfalso; apply Hs; exact (S1 eq_refl)|]. reflexivity.
Qed.
Theorem map_not_edges x fill : m <> n + 1 -> buckets_map lt le islin bin true true true data coord l x dim fill = Throw BinEdgeError.
Proof.
  intros Em. pose proof HF as HF'. destruct HF'. unfold buckets_map. cbn [negb].
  assert (Ee : is_edges (dd (s_arr data)) (dd (s_arr coord)) dim = Ok false); [|rewrite Ee; reflexivity].
  pose proof (proj1 (wf_lwf _) (proj1 fn_data)) as [Lp Ep]. pose proof (proj1 (wf_lwf _) (proj1 fn_coord)) as [Lq Eq].
  unfold is_edges. destruct ((dim =? InvalidDim) || negb (dcontains (dd (s_arr coord)) dim)); [reflexivity|].
  destruct (is_edges_loop_ok (pairs (dd (s_arr data))) (pairs (dd (s_arr coord))) dim (m_keys (dd (s_arr coord))) Lp Lq) as (b & Eb & Hb).
  { intros k Hk. change (In k (labels (dd (s_arr coord)))) in Hk. rewrite labels_keys in Hk by apply fn_coord. exact Hk. }
  rewrite (mk_pairs _ Ep), (mk_pairs _ Eq) in Eb. rewrite Eb.
  assert (Eo : (if msize (dd (s_arr data)) =? 0 then Ok true else Ok b) = @Ok bool true).
  { assert (b = true) as ->; [apply Hb; intros k j _ Hne Hk; apply (fn_dims k j Hk Hne)|]. destruct (msize (dd (s_arr data)) =? 0); reflexivity. }
  rewrite Eo. cbn [bind negb]. rewrite (dat_has _ _ _ (proj1 fn_coord) fn_m). cbn [bind].
  rewrite dcontains_In by apply fn_data. replace (mem dim (labels (dd (s_arr data)))) with true by (symmetry; apply mem_In, (pairs_labels _ _ (proj1 fn_data)); eauto).
  rewrite (dat_has _ _ _ (proj1 fn_data) fn_n). cbn [bind]. f_equal. lia.
Qed.

(** ** [lookup_previous] *)
Variable ng : E -> E -> Prop.     (* [ng x p]: the point [p] is not greater than [x] *)
Theorem previous_ok x fill : m <= n -> points_fine x data dim -> rows_sorted ->
  (forall ix, (forall k j, has (dd (s_arr coord)) k j -> k <> dim -> 0 <= ix k < j) -> sorted_span le (span (s_arr coord) dim m ix) = true ->
     exists it, upper_bound (lt (dv x ix)) (span (s_arr coord) dim m ix) = Ok it /\ 0 <= it <= Z.of_nat (length (span (s_arr coord) dim m ix)) /\
     (forall i p, vget (span (s_arr coord) dim m ix) i = Ok p -> i < it -> ng (dv x ix) p) /\
     (forall i p, vget (span (s_arr coord) dim m ix) i = Ok p -> it <= i -> ~ ng (dv x ix) p)) ->
  exists r, lookup_previous lt le true true true data coord l x dim fill = Ok r /\ result_dims (dd r) (dd x) data dim /\
    forall ix, inside (dd r) ix -> value_before (ng (dv x ix)) (coord_of coord dim ix) (value_of data l dim fill ix) m fill (dv r ix).
Proof.
  clear sorted_lookup lin_lookup. intros Em [Hx Hxd] Hrows Hub. destruct extents_nonneg as [Hn Hm]. destruct (setup fill) as (s & wd & cd & Es & Ew & Ec & Ww & Wc & Hw & Hc & Vs). pose proof HF as HF'. destruct HF'.
  unfold lookup_previous. cbn [negb]. rewrite Es. cbn [bind]. rewrite Ew. cbn [bind].
  destruct (all_along_ok (sorted_span le) (s_arr coord) dim m fn_coord fn_m) as (srt & Esr & S1 & S2). rewrite Esr. cbn [bind].
  rewrite (S2 Hrows). cbn [negb]. rewrite Ec. cbn [bind andb negb fst snd].
  destruct (merged3 (dd x) cd wd (proj1 Hx) Wc Ww) as (d1 & d2 & E1 & E2 & E3 & Wd & Hd).
  { intros k j Hk. apply Hc in Hk as [Hk Hne]. apply Hw. split; [apply (fn_dims k j Hk Hne)|exact Hne]. }
  { intros k i j Hk Hk'. apply Hw in Hk' as [Hk' Hne]. apply (Hxd k i j Hne Hk Hk'). }
  rewrite E1. cbn [bind]. rewrite E2. cbn [bind]. rewrite E3. cbn [bind].
  assert (Hix : forall ix, inside d2 ix -> forall k j, has (dd (s_arr coord)) k j -> k <> dim -> 0 <= ix k < j).
  { intros ix Hi k j Hk Hne. apply (Hi k j). apply Hd. right. apply Hw. split; [apply (fn_dims k j Hk Hne)|exact Hne]. }
  assert (Hev : forall ix, inside d2 ix -> exists w, previous lt (dv x ix) (span (s_arr coord) dim m ix) (span (s_arr s) dim n ix) fill = Ok w /\
        value_before (ng (dv x ix)) (coord_of coord dim ix) (value_of data l dim fill ix) m fill w).
  { intros ix Hi. destruct (Hub ix (Hix ix Hi) (Hrows ix (Hix ix Hi))) as (it & Eu & Hit & Hlo & Hhi).
    rewrite span_length in Hit by exact Hm. unfold previous. rewrite Eu. cbn [bind]. destruct (Z.eqb_spec it 0) as [->|Hnz].
    - exists fill. split; [reflexivity|]. split; [|reflexivity]. intros i Hi' Hng. exfalso.
      apply (Hhi i (coord_of coord dim ix i)); [apply span_vget; exact Hi'|lia|exact Hng].
    - exists (dv (s_arr s) (put ix dim (it - 1))). split; [apply span_vget; lia|]. rewrite Vs. split.
      + intros i Hi' Hng Hlast. destruct (Z.lt_trichotomy i (it - 1)) as [Hlt|[->|Hgt]]; [|reflexivity|].
        * exfalso. apply (Hlast (it - 1) ltac:(lia)). apply (Hlo (it - 1)); [apply span_vget; lia|lia].
        * exfalso. apply (Hhi i (coord_of coord dim ix i)); [apply span_vget; exact Hi'|lia|exact Hng].
      + intros Hno. exfalso. apply (Hno (it - 1) ltac:(lia)). apply (Hlo (it - 1)); [apply span_vget; lia|lia]. }
  destruct (eval_ok d2 fill (fun ix => previous lt (dv x ix) (span (s_arr coord) dim m ix) (span (s_arr s) dim n ix) fill) Wd) as (r & Er & Dr & Vr).
  { intros ix Hi. destruct (Hev ix Hi) as (w & Ev & _). eauto. }
  exists r. split; [exact Er|]. rewrite Dr. split; [intros k j; rewrite Hd, Hw; reflexivity|]. intros ix Hi. destruct (Hev ix Hi) as (w & Ev & Hv).
  rewrite (Vr ix Hi) in Ev. injection Ev as ->. exact Hv.
Qed.
Theorem previous_unsorted x fill : ~ rows_sorted -> lookup_previous lt le true true true data coord l x dim fill = Throw DataArrayError.
Proof.
  intros Hs. destruct (setup fill) as (s & wd & cd & Es & Ew & Ec & _). pose proof HF as HF'. destruct HF'.
  unfold lookup_previous. cbn [negb]. rewrite Es. cbn [bind]. rewrite Ew. cbn [bind].
  destruct (all_along_ok (sorted_span le) (s_arr coord) dim m fn_coord fn_m) as (srt & Esr & S1 & S2). rewrite Esr. cbn [bind].
  destruct srt; [exfalso; apply Hs; exact (S1 eq_refl)|]. reflexivity.
Qed.

(** ** [scale] *)
Variables (mul : W -> W -> W) (zero : W).
Theorem scale_ok (events : darr (list (W * E))) : m = n + 1 -> wf (dd events) -> (forall k j, has (dd (s_arr data)) k j -> k <> dim -> has (dd events) k j) -> rows_sorted \/ rows_linear ->
  exists r, scale_events lt le islin bin mul zero true events data coord l dim = Ok r /\ dd r = dd events /\
    forall ix, inside (dd events) ix -> Forall2 (fun e e' => snd e' = snd e /\ exists w, fst e' = mul (fst e) w /\
      value_in_bins (ins (snd e)) (coord_of coord dim ix) (value_of data l dim zero ix) n zero w) (dv events ix) (dv r ix).
Proof.
  intros Em He Hed Hrows. destruct extents_nonneg as [Hn Hm]. destruct (setup zero) as (s & wd & cd & Es & Ew & Ec & Ww & Wc & Hw & Hc & Vs). pose proof HF as HF'. destruct HF'.
  unfold scale_events. rewrite Es. cbn [bind]. rewrite Ew. cbn [bind].
  destruct (all_along_ok islin (s_arr coord) dim m fn_coord fn_m) as (lin & El & L1 & L2). rewrite El. cbn [bind].
  destruct (all_along_ok (sorted_span le) (s_arr coord) dim m fn_coord fn_m) as (srt & Esr & S1 & S2).
  assert (Hls : lin = true \/ (lin = false /\ srt = true)).
  { destruct Hrows as [Hr|Hr]; [destruct lin; [auto|right; split; [reflexivity|apply S2; exact Hr]]|left; apply L2; exact Hr]. }
  assert (Echk : (if lin then Ok tt else do s0 <- all_along (sorted_span le) (s_arr coord) dim; if s0 then Ok tt else Throw BinEdgeError) = Ok tt).
  { destruct Hls as [->|[-> ->]]; [reflexivity|]. rewrite Esr. reflexivity. }
  rewrite Echk. cbn [bind]. rewrite Ec. cbn [bind andb negb fst snd].
  assert (Hinc : forall d, wf d -> (forall k j, has d k j -> has (dd events) k j) -> includes (dd events) d = Ok true).
  { intros d Hd Hk. destruct (includes_ok (dd events) d (wf_wfm _ He) (wf_wfm _ Hd)) as (b & -> & Hb). f_equal. apply Hb. exact Hk. }
  rewrite (Hinc cd Wc) by (intros k j Hk; apply Hc in Hk as [Hk Hne]; apply Hed; [apply (fn_dims k j Hk Hne)|exact Hne]).
  rewrite (Hinc wd Ww) by (intros k j Hk; apply Hw in Hk as [Hk Hne]; apply Hed; assumption). cbn [bind andb negb].
  assert (Hix : forall ix, inside (dd events) ix -> forall k j, has (dd (s_arr coord)) k j -> k <> dim -> 0 <= ix k < j).
  { intros ix Hi k j Hk Hne. apply (Hi k j). apply Hed; [apply (fn_dims k j Hk Hne)|exact Hne]. }
  set (step := fun ix (e : W * E) => do w <- (if lin then mul_linspace mul zero (bin (span (s_arr coord) dim m ix) (snd e)) (span (s_arr s) dim n ix) (fst e)
        else mul_sorted_edges lt mul zero (snd e) (span (s_arr coord) dim m ix) (span (s_arr s) dim n ix) (fst e)); Ok (w, snd e)).
  assert (Hstep : forall ix e, inside (dd events) ix -> exists e', step ix e = Ok e' /\ snd e' = snd e /\ exists w, fst e' = mul (fst e) w /\
      value_in_bins (ins (snd e)) (coord_of coord dim ix) (value_of data l dim zero ix) n zero w).
  { intros ix e Hi.
    assert (Hbin : exists b r, b = Ok r /\ is_bin (ins (snd e)) (span (s_arr coord) dim m ix) r /\
      (if lin then mul_linspace mul zero (bin (span (s_arr coord) dim m ix) (snd e)) (span (s_arr s) dim n ix) (fst e)
       else mul_sorted_edges lt mul zero (snd e) (span (s_arr coord) dim m ix) (span (s_arr s) dim n ix) (fst e)) = mul_linspace mul zero b (span (s_arr s) dim n ix) (fst e)).
    { destruct Hls as [->|[-> ->]].
      - destruct (lin_lookup ix (Hix ix Hi) (L1 eq_refl ix (Hix ix Hi)) (snd e)) as (r & Er & Hr). exists (Ok r), r. rewrite Er. auto.
      - destruct (sorted_lookup _ (snd e) (S1 eq_refl ix (Hix ix Hi))) as (r & Er & Hr). exists (Ok r), r. split; [reflexivity|]. split; [exact Hr|].
        rewrite mul_sorted_is_linspace; [rewrite Er; reflexivity|]. intros E0. pose proof (span_length (s_arr coord) dim m ix Hm) as Hl. rewrite E0 in Hl. cbn in Hl. lia. }
    destruct Hbin as (b & r & -> & Hr & Eq). unfold step. rewrite Eq.
    destruct (linspace_value (ins (snd e)) coord (s_arr s) dim n m ix (Ok r) zero Hn ltac:(lia) Em (ex_intro _ r (conj eq_refl Hr))) as (w & Ew' & Hv).
    unfold map_linspace in Ew'. unfold mul_linspace. cbn [bind] in *.
    exists (mul (fst e) w, snd e). split.
    - destruct (r <? 0); [injection Ew' as <-; reflexivity|]. rewrite Ew'. reflexivity.
    - split; [reflexivity|]. exists w. split; [reflexivity|]. revert Hv. apply value_in_bins_ext. intros i _. apply Vs. }
  assert (Hev : forall ix, inside (dd events) ix -> forall es, exists es', mapM (step ix) es = Ok es' /\ Forall2 (fun e e' => snd e' = snd e /\ exists w, fst e' = mul (fst e) w /\
      value_in_bins (ins (snd e)) (coord_of coord dim ix) (value_of data l dim zero ix) n zero w) es es').
  { intros ix Hi. induction es as [|e es (es' & Ees & Hes)]; [exists []; split; [reflexivity|constructor]|].
    destruct (Hstep ix e Hi) as (e' & Ee & He'). exists (e' :: es'). split; [|constructor; assumption]. cbn [Mapper_Model.mapM]. rewrite Ee. cbn [bind]. rewrite Ees. reflexivity. }
  destruct (eval_ok (dd events) [] (fun ix => mapM (step ix) (dv events ix)) He) as (r & Er & Dr & Vr).
  { intros ix Hi. destruct (Hev ix Hi (dv events ix)) as (w & Ev & _). eauto. }
  exists r. split; [exact Er|]. split; [exact Dr|]. intros ix Hi. destruct (Hev ix Hi (dv events ix)) as (w & Ev & Hv). rewrite (Vr ix Hi) in Ev. injection Ev as ->. exact Hv.
Qed.
End Functions.
