(** Properties of concatenation (C17). *)
From Verif Require Import Base Map_Model Dims_Model Dims_Spec Dims_Proofs Index_Model View_Model View_Spec View_Proofs SizedDict_Proofs
  Transform_Model Transform_Spec Transform_Proofs Concat_Model Concat_Spec Concat_Proofs.

(** What the inputs of all theorems have in common: buffers [out], [tmp] are new, blocks divide the range. *)
Definition concat_input (dim : Dim) (l : list arr) (out tmp : nat) (blocks : sizes -> list (Z * Z)) : Prop :=
  (forall d, wf d -> tiles 0 (volume d) (blocks d)) /\ out <> tmp /\ l <> [] /\ dim <> InvalidDim /\
  Forall (fun a => wfv (a_var a)) l /\ (forall a, In a l -> a_buf a <> out /\ a_buf a <> tmp) /\
  (length (concat_shape dim l) <= NDIM_OP_MAX)%nat.

(** C17. If all other dimensions of every input are dimensions of the result, and all units are the same: whatever the order of
    the steps of all threads, the result has the specified shape, every element is that of the input covering its position,
    and no other memory changes. *)
Theorem C17_concat : forall A (default : A) unit dim l out tmp blocks u h, concat_input dim l out tmp blocks ->
  (forall a, In a l -> fits_in dim l a) -> (forall a, In a l -> unit (a_buf a) = u) ->
  (exists r, concat_run default unit l dim out tmp blocks h r) /\
  forall r, concat_run default unit l dim out tmp blocks h r -> exists o h', r = Ok (o, h', u) /\ o = mkarr out (var_fresh (a_dims o)) /\ wf (a_dims o) /\
    ashape o = concat_shape dim l /\
    (forall i a ix, nth_error l i = Some a -> inside (a_dims o) ix -> start_of dim l i <= ix dim < start_of dim l i + part dim a ->
       value_at h' o ix = value_at h a (put ix dim (ix dim - start_of dim l i))) /\
    forall c, fst c <> out -> fst c <> tmp -> h' c = h c.
Proof. intros A default unit dim l out tmp blocks u h (H1 & H2 & H3 & H4 & H5 & H6 & H7). apply concat_ok; assumption. Qed.
Print Assumptions C17_concat.

(** C17. Every position along the dimension is covered by exactly one input. *)
Theorem C17_cover : forall dim l k, Forall (fun a => wfv (a_var a)) l -> 0 <= k < total dim l ->
  exists i a, nth_error l i = Some a /\ start_of dim l i <= k < start_of dim l i + part dim a /\
    forall j b, nth_error l j = Some b -> start_of dim l j <= k < start_of dim l j + part dim b -> j = i.
Proof.
  intros dim l. induction l as [|a l IH]; intros k Hw Hk; [unfold total in Hk; cbn in Hk; lia|]. apply Forall_cons_iff in Hw as [Ha Hw].
  pose proof (part_nonneg dim a Ha) as Hp. unfold total in Hk. cbn [map sumZ fold_right] in Hk. fold (sumZ (map (part dim) l)) in Hk. fold (total dim l) in Hk.
  assert (Hst : forall j, start_of dim (a :: l) (S j) = part dim a + start_of dim l j) by reflexivity.
  assert (Hs0 : start_of dim (a :: l) 0 = 0) by reflexivity.
  assert (Hnn : forall j, 0 <= start_of dim l j).
  { intros j. unfold start_of. apply sum_nonneg, Forall_forall. intros x Hx. apply in_map_iff in Hx as (b & <- & Hb). apply part_nonneg.
    rewrite Forall_forall in Hw. apply Hw. rewrite <- (firstn_skipn j l). apply in_or_app. left. exact Hb. }
  destruct (Z.lt_ge_cases k (part dim a)) as [Hlt|Hge].
  - exists O, a. split; [reflexivity|]. rewrite Hs0. split; [lia|]. intros [|j] b Hj Hr; [reflexivity|]. rewrite Hst in Hr. specialize (Hnn j). lia.
  - destruct (IH (k - part dim a) Hw ltac:(lia)) as (i & b & Hi & Hr & Hu). exists (S i), b. split; [exact Hi|]. rewrite Hst. split; [lia|].
    intros [|j] c Hj Hr'; [rewrite Hs0 in Hr'; cbn in Hj; injection Hj as <-; lia|]. rewrite Hst in Hr'. f_equal. apply (Hu j c Hj). lia.
Qed.
Print Assumptions C17_cover.

(** C17. Slicing the result gives the inputs back. *)
Theorem C17_slices : forall A (default : A) unit dim l out tmp blocks u h, concat_input dim l out tmp blocks ->
  (forall a, In a l -> fits_in dim l a) -> (forall a, In a l -> unit (a_buf a) = u) ->
  forall o h' i a, concat_run default unit l dim out tmp blocks h (Ok (o, h', u)) -> nth_error l i = Some a ->
  exists v, (do s <- slice_range dim (start_of dim l i) (start_of dim l i + part dim a) 1; var_slice (a_var o) s) = Ok v /\
    pairs (v_dims v) = map (fun e => if fst e =? dim then (dim, part dim a) else e) (concat_shape dim l) /\
    forall ix, valid_at (pairs (v_dims v)) ix -> value_at h' (mkarr (a_buf o) v) ix = value_at h a ix.
Proof.
  intros A default unit dim l out tmp blocks u h Hin Hfit Hu o h' i a Hr Hi. pose proof Hin as (_ & Hot & Hne & Hd & Hw & _ & Hrk).
  destruct (C17_concat A default unit dim l out tmp blocks u h Hin Hfit Hu) as [_ Hall]. destruct (Hall _ Hr) as (o2 & h2 & E & Eo & Ho & Hs & Hv & _). injection E as <- <-.
  destruct (base_ok dim l Hne Hw Hd) as (p1 & p2 & Hp & _ & Es & _). destruct (lwf_app _ _ _ _ Hp) as (L12 & _ & Hk1 & Hk2 & _).
  destruct (total_nonneg dim l Hw) as [Ht _]. assert (Hp' : lwf (p1 ++ (dim, total dim l) :: p2)) by (apply lwf_app_inv; assumption).
  assert (Hex : exists l2, l = firstn i l ++ a :: l2).
  { exists (skipn (S i) l). clear - Hi. revert i Hi. induction l as [|b l IH]; intros [|i] Hi; try discriminate; [injection Hi as <-; reflexivity|cbn; f_equal; apply IH, Hi]. }
  destruct Hex as [l2 El].
  assert (Hsa : forall x y, sumZ (x ++ y) = sumZ x + sumZ y) by (induction x; intros y; cbn; [reflexivity|]; unfold sumZ in *; cbn; rewrite IHx; lia).
  assert (Hwx : forall b, In b l -> 0 <= part dim b) by (intros b Hb; apply part_nonneg; rewrite Forall_forall in Hw; apply Hw, Hb).
  assert (H0 : 0 <= start_of dim l i).
  { unfold start_of. apply sum_nonneg, Forall_forall. intros x Hx. apply in_map_iff in Hx as (b & <- & Hb). apply Hwx. rewrite El. apply in_or_app. left. exact Hb. }
  assert (Ha0 : 0 <= part dim a) by (apply Hwx; rewrite El; apply in_or_app; right; left; reflexivity).
  assert (Hle : start_of dim l i + part dim a <= total dim l).
  { unfold total. rewrite El at 2. rewrite map_app, Hsa. cbn [map sumZ fold_right]. fold (sumZ (map (part dim) l2)). unfold start_of.
    assert (0 <= sumZ (map (part dim) l2)); [|lia]. apply sum_nonneg, Forall_forall. intros x Hx. apply in_map_iff in Hx as (b & <- & Hb). apply Hwx. rewrite El. apply in_or_app. right. right. exact Hb. }
  destruct (wf_mk_pairs _ Ho) as [Em _]. fold (ashape o) in Em. rewrite Hs, Es in Em. rewrite Em in Eo.
  destruct (slice_of_o dim p1 p2 (total dim l) Hp' out tmp Hot ltac:(rewrite <- Es; exact Hrk) (start_of dim l i) (part dim a) H0 Ha0 Hle) as (v & Ev & Ep & _ & _ & _ & _ & Hx).
  rewrite Eo. cbn [a_var]. cbn [a_var] in Ev. exists v. split; [exact Ev|]. split; [rewrite Es, map_split by assumption; exact Ep|].
  rewrite Ep. intros ix Hix. destruct (Hx ix Hix) as [V1 V2]. cbn [a_var] in V2.
  assert (Hrg : 0 <= ix dim < part dim a) by (apply Hix, in_or_app; right; left; reflexivity).
  specialize (Hv i a (put ix dim (start_of dim l i + ix dim)) Hi). unfold inside in Hv. unfold ashape in Hs. rewrite Hs, Es, put_same in Hv. specialize (Hv V1 ltac:(lia)).
  assert (Eaddr : value_at h' o (put ix dim (start_of dim l i + ix dim)) = value_at h' (mkarr (a_buf (mkarr out (var_fresh (mk (p1 ++ (dim, total dim l) :: p2))))) v) ix).
  { rewrite Eo. unfold value_at. cbn [a_buf a_var]. rewrite V2. reflexivity. }
  rewrite <- Eaddr, Hv. unfold value_at. do 2 f_equal. unfold vaddr. do 2 f_equal. apply map_ext. intros k. unfold put. destruct (k =? dim) eqn:Ek; [|reflexivity]. apply Z.eqb_eq in Ek. subst k. lia.
Qed.
Print Assumptions C17_slices.

(** C17. If some other dimension of an input is not one of the result, a DimensionError is raised. *)
Theorem C17_dims : forall A (default : A) unit dim l out tmp blocks u h, concat_input dim l out tmp blocks ->
  (exists a, In a l /\ ~ fits_in dim l a) -> (forall a, In a l -> unit (a_buf a) = u) ->
  (exists r, concat_run default unit l dim out tmp blocks h r) /\ forall r, concat_run default unit l dim out tmp blocks h r -> r = Throw DimensionError.
Proof. intros A default unit dim l out tmp blocks u h (H1 & H2 & H3 & H4 & H5 & H6 & H7). apply concat_dim_error; assumption. Qed.
Print Assumptions C17_dims.

(** C17. Different units are refused, provided that the first input is not empty. *)
Theorem C17_units : forall A (default : A) unit dim front l out tmp blocks h, concat_input dim (front :: l) out tmp blocks ->
  (forall a, In a (front :: l) -> fits_in dim (front :: l) a) -> ~ empty_shape (concat_shape dim (front :: l)) -> 0 < part dim front ->
  (exists a, In a l /\ unit (a_buf a) <> unit (a_buf front)) ->
  (exists r, concat_run default unit (front :: l) dim out tmp blocks h r) /\ forall r, concat_run default unit (front :: l) dim out tmp blocks h r -> r = Throw UnitError.
Proof.
  intros A default unit dim front l out tmp blocks h (H1 & H2 & H3 & H4 & H5 & H6 & H7) Hf He Hp (a & Ha & Hu).
  apply (concat_unit_error default unit dim out tmp blocks (front :: l) H1 H2 H3 H4 H5 H6 H7 front l); try assumption; [reflexivity|]. exists a. split; [right; exact Ha|exact Hu].
Qed.
Print Assumptions C17_units.

(** ** Concrete cases *)
Notation cX := 5 (only parsing).
Notation cY := 6 (only parsing).
Definition cwhole (d : sizes) : list (Z * Z) := [(0, volume d)].
Lemma cwhole_tiles d : wf d -> tiles 0 (volume d) (cwhole d).
Proof. intros Hd. assert (0 <= volume d) by (rewrite volume_vol; apply vol_nonneg, Hd). apply tiles_cons; [lia|constructor]. Qed.
(** A transposed view {x:2, y:3}, a variable {y:3} without x, an empty slice {x:0, y:3} and a variable {x:2}. *)
Definition c_xy : arr := mkarr 0 (mkvar (mk [(cX, 2); (cY, 3)]) [1; 2] 0 false 6).
Definition c_y : arr := mkarr 1 (var_fresh (mk [(cY, 3)])).
Definition c_0y : arr := mkarr 2 (mkvar (mk [(cX, 0); (cY, 3)]) [3; 1] 3 false 6).
Definition c_x : arr := mkarr 3 (var_fresh (mk [(cX, 2)])).
Ltac wfv_case := split; [split; [|split; [|split]]; cbn; [repeat constructor; cbn; intuition discriminate | reflexivity | repeat constructor; lia | intuition discriminate]|
  split; [reflexivity|cbn; repeat constructor; lia]].
Lemma c_wf2 : wfv (var_fresh (mk [(cX, 2); (cY, 3)])).
Proof. wfv_case. Qed.
Lemma c_wf a : In a [c_xy; c_y; c_0y; c_x] -> wfv (a_var a).
Proof. intros [<-|[<-|[<-|[<-|[]]]]]; wfv_case. Qed.
Lemma c_input l : l <> [] -> incl l [c_xy; c_y; c_0y; c_x] -> (length (concat_shape cX l) <= 6)%nat -> concat_input cX l 8 9 cwhole.
Proof.
  intros Hl Hi Hr. split; [exact cwhole_tiles|]. split; [discriminate|]. split; [exact Hl|]. split; [discriminate|].
  split; [apply Forall_forall; intros a Ha; apply c_wf, Hi, Ha|]. split; [|exact Hr].
  intros a Ha. destruct (Hi a Ha) as [<-|[<-|[<-|[<-|[]]]]]; split; discriminate.
Qed.
Ltac fit_case := intros a Ha; cbn in Ha; repeat (destruct Ha as [<-|Ha]; [intros k n Hk Hne; cbn in Hk |- *; intuition congruence|]); destruct Ha.
Ltac incl_case := intros a Ha; cbn in *; tauto.
(** concat([{y:3}, {x:2, y:3}, {x:0, y:3}, {x:2, y:3}], x) has the shape {x:5, y:3}. *)
Example C17_case : let l := [c_y; c_xy; c_0y; c_xy] in concat_input cX l 8 9 cwhole /\ (forall a, In a l -> fits_in cX l a) /\
  concat_shape cX l = [(cX, 5); (cY, 3)] /\ map (start_of cX l) [0; 1; 2; 3]%nat = [0; 1; 3; 3].
Proof.
  intros l. split; [apply c_input; [discriminate|incl_case|cbn; lia]|]. split; [fit_case|]. split; reflexivity.
Qed.

(** The inputs of [C17_units], with the unit of the second input different. *)
Example C17_units_case : let l := [c_xy; c_y] in concat_input cX l 8 9 cwhole /\ (forall a, In a l -> fits_in cX l a) /\ ~ empty_shape (concat_shape cX l) /\
  0 < part cX c_xy /\ exists a, In a [c_y] /\ Z.of_nat (a_buf a) <> Z.of_nat (a_buf c_xy).
Proof.
  intros l. split; [apply c_input; [discriminate|incl_case|cbn; lia]|]. split; [fit_case|]. split; [intros [k [[=]|[[=]|[]]]]|]. split; [reflexivity|].
  exists c_y. split; [left; reflexivity|discriminate].
Qed.
(** The last block of [C17_case] is the input again, by [C17_slices]. *)
Example C17_slices_case : forall h : heap Z, exists o h', concat_run 0 (fun _ => 7) [c_y; c_xy; c_0y; c_xy] cX 8 9 cwhole h (Ok (o, h', 7)) /\
  exists v, (do s <- slice_range cX 3 5 1; var_slice (a_var o) s) = Ok v /\ pairs (v_dims v) = [(cX, 2); (cY, 3)] /\
    forall ix, valid_at (pairs (v_dims v)) ix -> value_at h' (mkarr 8 v) ix = value_at h c_xy ix.
Proof.
  intros h. destruct C17_case as (Hin & Hf & _). destruct (C17_concat Z 0 (fun _ => 7) _ _ _ _ _ 7 h Hin Hf ltac:(reflexivity)) as [[r Hr] Ha].
  destruct (Ha r Hr) as (o & h' & -> & Eo & _). exists o, h'. split; [exact Hr|].
  destruct (C17_slices Z 0 (fun _ => 7) _ _ _ _ _ 7 h Hin Hf ltac:(reflexivity) o h' 3%nat c_xy Hr eq_refl) as (v & E1 & E2 & E3).
  exists v. split; [exact E1|]. split; [exact E2|]. rewrite Eo in E3. exact E3.
Qed.

(** ** Counterexamples *)
(** C17. It does not fail if an input lacks another dimension: the input is repeated along it. *)
Theorem C17_missing_dimension_refuted : exists (l : list arr) a b, concat_input cX l 8 9 cwhole /\ In a l /\ In b l /\
  ashape a = [(cX, 2); (cY, 3)] /\ ashape b = [(cX, 2)] /\
  forall (h : heap Z), (exists r, concat_run 0 (fun _ => 0) l cX 8 9 cwhole h r) /\
    forall r, concat_run 0 (fun _ => 0) l cX 8 9 cwhole h r -> exists o h', r = Ok (o, h', 0) /\ ashape o = [(cX, 4); (cY, 3)] /\
      forall x y, 0 <= x < 2 -> 0 <= y < 3 -> h' (8%nat, 6 + 3 * x + y) = h (3%nat, x).
Proof.
  exists [c_xy; c_x], c_xy, c_x. assert (Hin : concat_input cX [c_xy; c_x] 8 9 cwhole) by (apply c_input; [discriminate|incl_case|cbn; lia]).
  split; [exact Hin|]. split; [left; reflexivity|]. split; [right; left; reflexivity|]. split; [reflexivity|]. split; [reflexivity|]. intros h.
  destruct (C17_concat Z 0 (fun _ => 0) cX [c_xy; c_x] 8 9 cwhole 0 h Hin) as [He Ha]; [fit_case|reflexivity|]. split; [exact He|].
  intros r Hr. destruct (Ha r Hr) as (o & h' & -> & Eo & Ho & Es & Hv & _). exists o, h'. split; [reflexivity|]. split; [exact Es|]. intros x y Hx Hy.
  set (ix := fun k => if k =? cX then 2 + x else y). specialize (Hv 1%nat c_x ix eq_refl). unfold inside in Hv. destruct (wf_mk_pairs _ Ho) as [Em _]. fold (ashape o) in Em. rewrite Es in Em.
  change (concat_shape cX [c_xy; c_x]) with [(cX, 4); (cY, 3)] in Em. rewrite Em in Eo, Hv. change (start_of cX [c_xy; c_x] 1) with 2 in Hv.
  change (part cX c_x) with 2 in Hv. change (ix cX) with (2 + x) in Hv.
  assert (Hval : valid_at [(cX, 4); (cY, 3)] ix) by (intros k n [[= <- <-]|[[= <- <-]|[]]]; unfold ix; cbn [Z.eqb Pos.eqb]; lia).
  specialize (Hv Hval ltac:(lia)). unfold value_at in Hv. replace (2 + x - 2) with x in Hv by lia.
  assert (V1 : vaddr (a_var o) ix = 6 + 3 * x + y) by (rewrite Eo; unfold vaddr, ix; cbn -[Z.mul Z.add]; lia).
  assert (V2 : vaddr (a_var c_x) (put ix cX x) = x) by (unfold vaddr, put; cbn -[Z.mul Z.add]; lia).
  rewrite V1, V2 in Hv. rewrite Eo in Hv. exact Hv.
Qed.
Print Assumptions C17_missing_dimension_refuted.

(** C17. The same inputs in another order are refused. *)
Theorem C17_order_refuted : exists a b, concat_input cX [a; b] 8 9 cwhole /\ concat_input cX [b; a] 8 9 cwhole /\ forall h : heap Z,
  (forall r, concat_run 0 (fun _ => 0) [a; b] cX 8 9 cwhole h r -> exists x, r = Ok x) /\
  (forall r, concat_run 0 (fun _ => 0) [b; a] cX 8 9 cwhole h r -> r = Throw DimensionError).
Proof.
  exists c_xy, c_x. assert (Hin : concat_input cX [c_xy; c_x] 8 9 cwhole) by (apply c_input; [discriminate|incl_case|cbn; lia]).
  assert (Hin2 : concat_input cX [c_x; c_xy] 8 9 cwhole) by (apply c_input; [discriminate|incl_case|cbn; lia]). split; [exact Hin|]. split; [exact Hin2|]. intros h. split.
  - destruct (C17_concat Z 0 (fun _ => 0) cX [c_xy; c_x] 8 9 cwhole 0 h Hin) as [_ Ha]; [fit_case|reflexivity|]. intros r Hr. destruct (Ha r Hr) as (o & h' & -> & _). eauto.
  - destruct (C17_dims Z 0 (fun _ => 0) cX [c_x; c_xy] 8 9 cwhole 0 h Hin2) as [_ Ha]; [|reflexivity|exact Ha].
    exists c_xy. split; [right; left; reflexivity|]. intros Hf. specialize (Hf cY 3 (or_intror (or_introl eq_refl)) ltac:(discriminate)). cbn in Hf. intuition discriminate.
Qed.
Print Assumptions C17_order_refuted.

(** C17. Different units go unnoticed if the first input is empty; the unit is then that of the second. *)
Theorem C17_units_refuted : exists l (unit : nat -> Z) a b, concat_input cX l 8 9 cwhole /\ l = [a; b] /\ unit (a_buf a) = 1 /\ unit (a_buf b) = 2 /\
  forall h : heap Z, exists o h', concat_run 0 unit l cX 8 9 cwhole h (Ok (o, h', 2)).
Proof.
  exists [c_0y; c_xy], (fun b => if (b =? 2)%nat then 1 else 2), c_0y, c_xy. assert (Hin : concat_input cX [c_0y; c_xy] 8 9 cwhole) by (apply c_input; [discriminate|incl_case|cbn; lia]).
  split; [exact Hin|]. do 3 (split; [reflexivity|]). intros h.
  pose (o := mkarr 8 (var_fresh (mk [(cX, 2); (cY, 3)]))). pose (d0 := mkarr 8 (mkvar (mk [(cX, 0); (cY, 3)]) [3; 1] 0 false 6)).
  assert (D0 : wfv (a_var d0)) by wfv_case. assert (D1 : wfv (a_var o)) by exact (c_wf2).
  assert (Hd0 : distinct_elements d0) by (intros ix ix' Hi; exfalso; specialize (Hi cX 0 (or_introl eq_refl)); lia).
  assert (Hd1 : distinct_elements o) by (apply (fresh_one (mk [(cX, 2); (cY, 3)]) 8); apply D1).
  destruct (in_place_total (do_copy 0) h d0 [c_0y] 9 cwhole) as (h1 & ps & h2 & E1 & M1);
    [constructor; [exact D0|constructor; [apply c_wf; right; right; left; reflexivity|constructor]]|exact Hd0|reflexivity|cbn; unfold NDIM_OP_MAX; lia|exact cwhole_tiles|left; cbn; lia|intros b [<-|[]] k n Hk; exact Hk|].
  destruct (in_place_total (do_copy 0) h2 o [c_xy] 9 cwhole) as (h3 & ps2 & h4 & E2 & M2);
    [constructor; [exact D1|constructor; [apply c_wf; left; reflexivity|constructor]]|exact Hd1|reflexivity|cbn; unfold NDIM_OP_MAX; lia|exact cwhole_tiles|left; cbn; lia|intros b [<-|[]] k n Hk; exact Hk|].
  exists o, h4. eapply (cr_ok _ _ _ _ _ _ _ _ o [c_0y; c_xy] c_0y); [reflexivity|reflexivity|].
  eapply ca_step with (n := 0); [reflexivity| |exact M1|].
  { cbn [bind]. transitivity (copy_into 0 (fun b => if (b =? 2)%nat then 1 else 2) 9 cwhole h 1 d0 c_0y); [reflexivity|]. unfold copy_into. cbn. cbn in E1. rewrite E1. reflexivity. }
  eapply ca_step with (n := 2); [reflexivity| |exact M2|constructor].
  transitivity (copy_into 0 (fun b => if (b =? 2)%nat then 1 else 2) 9 cwhole h2 1 o c_xy); [reflexivity|]. unfold copy_into. cbn. cbn in E2. rewrite E2. reflexivity.
Qed.
Print Assumptions C17_units_refuted.
