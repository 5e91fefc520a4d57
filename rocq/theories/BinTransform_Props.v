(** C12 for binned operands. *)
From Verif Require Import Base Dims_Spec Index_Model Index_Spec Index_Proofs BinIndex_Model BinIndex_Spec BinIndex_Proofs
  BinIndex_Make BinIndex_Zero Transform_Model Transform_Spec Machine_Proofs Transform_Proofs BinTransform_Model BinIndex_Props.

(** ** Specification *)

(** The cell of event [i] of bin [k] in an operand. *)
Definition event_cell (inner : list Z) (idx : nat) (sh : list Z) (ki : Z * Z) (x : place * operand) : cell :=
  (fst (fst x), snd (fst x) + event_pos inner idx sh (fst ki) (snd ki) (snd x)).
(** [i] is an event of bin [k]. *)
Definition is_event (inner : list Z) (idx : nat) (sh : list Z) (size : Z -> Z) (ki : Z * Z) : Prop :=
  0 <= fst ki < vol sh /\ 0 <= snd ki < vol (event_shape inner idx (size (fst ki))).

(** Not stretched in any dimension. *)
Definition unstretched (sh st : list Z) : Prop := forall d, (d < length sh)%nat -> nth d sh 0 <> 1 -> nth d st 0 <> 0.
(** The bins and the buffer of an output that is allocated by the operation are not stretched, unless there are no
    bins; for the buffer, only the dimensions inside the sliced one matter. *)
Definition own_layout (inner : list Z) (idx : nat) (sh : list Z) (o : operand) : Prop :=
  (0 < vol sh -> unstretched sh (op_strides o)) /\ unstretched (skipn idx inner) (skipn idx (inner_strides o)).

(** ** Proofs *)
Lemma unstretched_safe sh st sts : In st sts -> unstretched sh st -> flattening_safe sh sts.
Proof.
  intros Hin Hu. right. intros d Hd Hz. destruct (Z.eq_dec (nth d sh 0) 1) as [E|E]; [assumption|]. exfalso.
  apply (Hu d); [lia|assumption|]. apply (Hz d); [lia|assumption].
Qed.
Lemma own_safe inner idx sh o ins : 0 < vol sh -> own_layout inner idx sh o -> layout_safe inner idx sh (o :: ins).
Proof.
  intros Hv [Ho Hi]. split.
  - apply (unstretched_safe sh (op_strides o)); [left; reflexivity|auto].
  - apply (unstretched_safe _ (skipn idx (inner_strides o))); [left; reflexivity|assumption].
Qed.
(** The strides of memory that is allocated for an array. *)
Lemma row_major_unstretched sh : nonneg sh -> 0 < vol sh -> unstretched sh (fst (Dims_Model.row_major sh)).
Proof.
  induction sh as [|n sh IH]; intros Hnn Hv d Hd Hne; [cbn in Hd; lia|]. apply Forall_cons_iff in Hnn as [Hn Hnn].
  change (vol (n :: sh)) with (n * vol sh) in Hv. pose proof (Dims_Proofs.vol_nonneg _ Hnn) as Hv'. assert (0 < vol sh) by nia.
  rewrite Dims_Proofs.row_major_strides. destruct d as [|d]; [cbn; lia|]. cbn [nth length] in *.
  apply (IH Hnn ltac:(assumption) d); [lia|assumption].
Qed.
Lemma empty_blocks {A} (c : list cell -> list (instr A)) pl fuel s : forall bs ps, tiles 0 0 bs ->
  binned_programs c pl fuel s bs = Ok ps -> ps = map (fun _ => []) bs.
Proof.
  assert (Hb : forall r, bi_block fuel s 0 0 = Ok r -> r = []).
  { intros r. unfold bi_block. destruct (bi_set_index s 0) as [s1| |]; cbn [bind]; try discriminate. intros E.
    destruct fuel; cbn [bi_run] in E; unfold bi_eqb in E; rewrite list_eqb_refl in E; congruence. }
  induction bs as [|[b e] bs IH]; intros ps Ht E; cbn in E.
  - injection E as <-. reflexivity.
  - assert (b = 0 /\ e = 0) as [-> ->].
    { destruct (tiles_in _ _ _ _ _ Ht (or_introl eq_refl)). cbn in *. lia. }
    inversion Ht as [|? ? ? ? ? Ht']; subst. destruct (bi_block fuel s 0 0) as [r| |] eqn:Er; cbn [bind] in E; try discriminate.
    rewrite (Hb r eq_refl) in E.
    change (mapM _ bs) with (binned_programs c pl fuel s bs) in E.
    destruct (binned_programs c pl fuel s bs) as [ps'| |] eqn:Eb; cbn [bind] in E; try discriminate. injection E as <-.
    cbn [flat_map map]. f_equal. apply IH; [assumption|reflexivity].
Qed.
Section Bins.
Variables (inner : list Z) (idx : nat) (sh : list Z) (size : Z -> Z).

Definition pairs_of (b e : Z) : list (Z * Z) :=
  flat_map (fun k => map (fun i => (k, i)) (zseq 0 (Z.to_nat (vol (event_shape inner idx (size k)))))) (zseq b (Z.to_nat (e - b))).

Lemma events_pairs ops b e : events_of inner idx sh ops size b e =
  map (fun ki => map (event_pos inner idx sh (fst ki) (snd ki)) ops) (pairs_of b e).
Proof.
  unfold events_of, pairs_of, events. rewrite !flat_map_concat_map, concat_map, map_map. f_equal. apply map_ext. intros k.
  rewrite map_map. reflexivity.
Qed.
Lemma pairs_of_app a m e : a <= m <= e -> pairs_of a e = pairs_of a m ++ pairs_of m e.
Proof. intros Hm. unfold pairs_of. rewrite (zseq_split a m e) by assumption. apply flat_map_app. Qed.
Lemma pairs_of_In b e ki : 0 <= b <= e -> e <= vol sh -> In ki (pairs_of b e) -> is_event inner idx sh size ki.
Proof.
  intros Hb He Hin. apply in_flat_map in Hin as (k & Hk & Hin). apply in_map_iff in Hin as (i & <- & Hi).
  apply zseq_In in Hk, Hi. unfold is_event. cbn [fst snd]. lia.
Qed.
Lemma pairs_of_all ki : is_event inner idx sh size ki -> In ki (pairs_of 0 (vol sh)).
Proof.
  intros [Hk Hi]. apply in_flat_map. exists (fst ki). split; [apply zseq_In; lia|]. apply in_map_iff. exists (snd ki).
  split; [destruct ki; reflexivity|]. apply zseq_In. lia.
Qed.
Lemma pairs_of_NoDup b e : NoDup (pairs_of b e).
Proof.
  unfold pairs_of. generalize (zseq_NoDup b (Z.to_nat (e - b))). induction (zseq b (Z.to_nat (e - b))) as [|k ks IH]; intros Hnd; [constructor|].
  cbn [flat_map]. inversion Hnd as [|? ? Hni Hnd']; subst. apply NoDup_app_intro.
  - apply FinFun.Injective_map_NoDup; [intros x y E; congruence|apply zseq_NoDup].
  - apply IH. assumption.
  - intros x Hx Hy. apply in_map_iff in Hx as (i & <- & _). apply in_flat_map in Hy as (k' & Hk' & Hy).
    apply in_map_iff in Hy as (j & E & _). injection E as -> _. contradiction.
Qed.
Definition kiss (bs : list (Z * Z)) : list (list (Z * Z)) := map (fun b => pairs_of (fst b) (snd b)) bs.
Lemma kiss_concat b e bs : tiles b e bs -> concat (kiss bs) = pairs_of b e.
Proof.
  induction 1 as [b|b m e bs Hbm Ht IH].
  - unfold pairs_of. rewrite Z.sub_diag. reflexivity.
  - cbn [kiss map concat fst snd]. fold (kiss bs). rewrite IH. symmetry. apply pairs_of_app.
    pose proof (tiles_concat _ _ _ Ht). lia.
Qed.

Lemma pcells_ok : forall (xs : list (place * operand)) ki,
  pcells (map fst xs) (map (event_pos inner idx sh (fst ki) (snd ki)) (map snd xs)) = map (event_cell inner idx sh ki) xs.
Proof.
  intros xs ki. unfold pcells. induction xs as [|x xs IH]; [reflexivity|]. cbn [map combine]. rewrite IH. reflexivity.
Qed.

Lemma binned_programs_ok {A} (c : list cell -> list (instr A)) xs s fuel bs :
  let ops := map snd xs in
  layout_ok inner idx sh ops -> layout_safe inner idx sh ops ->
  (forall k, 0 <= k < vol sh -> 0 <= size k) -> Forall (has_sizes sh size) ops -> bi_make inner idx sh ops = Ok s ->
  tiles 0 (vol sh) bs -> (length (events_of inner idx sh ops size 0 (vol sh)) <= fuel)%nat ->
  binned_programs c (map fst xs) fuel s bs =
  Ok (map (fun kis => flat_map (fun ki => c (map (event_cell inner idx sh ki) xs)) kis) (kiss bs)).
Proof.
  intros ops HL HS Hsz Hhs HM Ht Hf. unfold binned_programs, kiss. rewrite map_map. apply mapM_ok. intros [b e] Hin.
  destruct (tiles_in _ _ _ _ _ Ht Hin) as [Hbe He]. cbn [fst snd].
  assert (Hlen : (length (events_of inner idx sh ops size b e) <= fuel)%nat).
  { rewrite events_pairs, map_length in *. rewrite (pairs_of_app 0 b) in Hf by lia. rewrite (pairs_of_app b e) in Hf by lia.
    rewrite !app_length in Hf. lia. }
  rewrite (C11_block_partial inner idx sh ops size s) by (assumption || lia). cbn [bind]. f_equal.
  rewrite events_pairs, !flat_map_concat_map, map_map. f_equal. apply map_ext. intros ki. f_equal. apply pcells_ok.
Qed.

Lemma binned_elementwise {A} (f : list A -> A) (o : place * operand) ins kss (h h' : heap A) :
  concat kss = pairs_of 0 (vol sh) ->
  (forall x y, is_event inner idx sh size x -> is_event inner idx sh size y ->
     event_cell inner idx sh x o = event_cell inner idx sh y o -> x = y) ->
  (forall x y i, is_event inner idx sh size x -> is_event inner idx sh size y -> In i ins ->
     event_cell inner idx sh x o = event_cell inner idx sh y i -> x = y) ->
  may_end h (map (fun kis => flat_map (fun ki => map Ld (map (event_cell inner idx sh ki) ins) ++ [St (event_cell inner idx sh ki o) f]) kis) kss) h' ->
  (forall x, is_event inner idx sh size x -> h' (event_cell inner idx sh x o) = f (map (fun i => h (event_cell inner idx sh x i)) ins)) /\
  (forall c, (forall x, is_event inner idx sh size x -> c <> event_cell inner idx sh x o) -> h' c = h c).
Proof.
  intros Hk Hinj Hal (sched & Hfin & Hh').
  assert (Hv0 : vol sh <= 0 \/ 0 < vol sh) by lia.
  assert (Hin : forall x, In x (concat kss) -> is_event inner idx sh size x).
  { intros x Hx. rewrite Hk in Hx. destruct Hv0 as [Hv|Hv].
    - unfold pairs_of in Hx. replace (Z.to_nat (vol sh - 0)) with 0%nat in Hx by lia. destruct Hx.
    - apply (pairs_of_In 0 (vol sh)); [lia|lia|assumption]. }
  destruct (calls_par f (fun x => event_cell inner idx sh x o) (fun x => map (event_cell inner idx sh x) ins) h kss sched) as [Hv Hu].
  - rewrite Hk in Hin |- *. generalize (pairs_of_NoDup 0 (vol sh)). revert Hin. generalize (pairs_of 0 (vol sh)) as l. clear - Hinj.
    induction l as [|x l IH]; intros Hin Hnd; cbn [map]; [constructor|]. inversion Hnd as [|? ? Hni Hnd']; subst. constructor.
    + intros Hx. apply in_map_iff in Hx as (y & E & Hy). apply Hni. rewrite <- (Hinj y x); auto; apply Hin; cbn; auto.
    + apply IH; [|assumption]. intros y Hy. apply Hin. right. assumption.
  - intros x y Hx Hy Hxy. apply in_map_iff in Hxy as (i & E & Hi). rewrite (Hal x y i); auto.
  - exact Hfin.
  - unfold kcall in Hv, Hu. rewrite Hh' in Hv, Hu. split.
    + intros x Hx. rewrite Hv; [rewrite map_map; reflexivity|]. rewrite Hk. apply pairs_of_all. assumption.
    + intros c Hc. apply Hu. intros Hx. apply in_map_iff in Hx as (x & <- & Hx). apply (Hc x); auto.
Qed.
End Bins.

(** C12, binned operands: for every division of the bins into blocks and every order of steps, every event of every bin
    of the output becomes the operation applied to the corresponding events (or dense elements) of the inputs, and
    nothing else changes. [fuel] only has to exceed the number of events. The bins of the output do not overlap and
    its memory is not used by the inputs. *)
Theorem C12_binned : forall A (f : list A -> A) (o : place * operand) ins inner idx sh size fuel blocks ps (h h' : heap A),
  let ops := map snd (o :: ins) in
  layout_ok inner idx sh ops -> own_layout inner idx sh (snd o) ->
  (forall k, 0 <= k < vol sh -> 0 <= size k) -> Forall (has_sizes sh size) ops ->
  (forall x y, is_event inner idx sh size x -> is_event inner idx sh size y ->
     event_cell inner idx sh x o = event_cell inner idx sh y o -> x = y) ->
  (forall i, In i ins -> fst (fst i) <> fst (fst o)) ->
  tiles 0 (vol sh) blocks -> (length (events_of inner idx sh ops size 0 (vol sh)) <= fuel)%nat ->
  binned_transform f (map fst (o :: ins)) inner idx sh ops fuel blocks = Ok ps -> may_end h ps h' ->
  (forall x, is_event inner idx sh size x -> h' (event_cell inner idx sh x o) = f (map (fun i => h (event_cell inner idx sh x i)) ins)) /\
  (forall c, (forall x, is_event inner idx sh size x -> c <> event_cell inner idx sh x o) -> h' c = h c).
Proof.
  intros A f o ins inner idx sh size fuel blocks ps h h' ops HL HO Hsz Hhs Hinj Hbuf Ht Hf E Hend.
  unfold binned_transform in E. destruct (bi_make inner idx sh ops) as [s| |] eqn:Es; cbn [bind] in E; try discriminate.
  assert (Hex : exists kss, concat kss = pairs_of inner idx size 0 (vol sh) /\
    ps = map (fun kis => flat_map (fun ki => call f (map (event_cell inner idx sh ki) (o :: ins))) kis) kss).
  { pose proof (Dims_Proofs.vol_nonneg _ (proj1 (proj2 (proj2 HL)))) as Hv.
    destruct (Z.eq_dec (vol sh) 0) as [Hv0|Hv0].
    - rewrite Hv0 in Ht |- *. rewrite (empty_blocks _ _ _ _ _ _ Ht E). exists (map (fun _ => []) blocks).
      rewrite map_map. split; [|reflexivity]. change (pairs_of inner idx size 0 0) with (@nil (Z * Z)). clear.
      induction blocks; [reflexivity|assumption].
    - rewrite (binned_programs_ok inner idx sh size (call f) (o :: ins) s fuel blocks HL
        (own_safe inner idx sh (snd o) (map snd ins) ltac:(lia) HO) Hsz Hhs Es Ht Hf) in E.
      injection E as <-. eexists. split; [apply (kiss_concat inner idx size); eassumption|reflexivity]. }
  destruct Hex as (kss & Hk & ->).
  apply (binned_elementwise inner idx sh size f o ins kss h h'); try assumption.
  intros x y i _ _ Hi Ec. exfalso. apply (Hbuf i Hi). unfold event_cell in Ec. injection Ec as Ec _. congruence.
Qed.
Print Assumptions C12_binned.

(** C12, in-place operation on binned data. The other operands must not share cells with the output, except for an
    operand whose corresponding event is the same cell. Missing for the full claim: layouts excluded by [layout_safe],
    see C11. *)
Theorem C12_binned_in_place_partial : forall A (f : list A -> A) (o : place * operand) ins inner idx sh size fuel blocks ps (h h' : heap A),
  let ops := map snd (o :: ins) in
  layout_ok inner idx sh ops -> layout_safe inner idx sh ops ->
  (forall k, 0 <= k < vol sh -> 0 <= size k) -> Forall (has_sizes sh size) ops ->
  (forall x y i, is_event inner idx sh size x -> is_event inner idx sh size y -> In i (o :: ins) ->
     event_cell inner idx sh x o = event_cell inner idx sh y i -> x = y) ->
  tiles 0 (vol sh) blocks -> (length (events_of inner idx sh ops size 0 (vol sh)) <= fuel)%nat ->
  binned_in_place f (map fst (o :: ins)) inner idx sh ops fuel (vol sh) blocks = Ok ps -> may_end h ps h' ->
  (forall x, is_event inner idx sh size x ->
     h' (event_cell inner idx sh x o) = f (map (fun i => h (event_cell inner idx sh x i)) (o :: ins))) /\
  (forall c, (forall x, is_event inner idx sh size x -> c <> event_cell inner idx sh x o) -> h' c = h c).
Proof.
  intros A f o ins inner idx sh size fuel blocks ps h h' ops HL HS Hsz Hhs Hal Ht Hf E Hend.
  unfold binned_in_place in E. destruct (bi_make inner idx sh ops) as [s| |] eqn:Es; cbn [bind] in E; try discriminate.
  assert (Hex : exists kss, concat kss = pairs_of inner idx size 0 (vol sh) /\
    ps = map (fun kis => flat_map (fun ki => call_in_place f (map (event_cell inner idx sh ki) (o :: ins))) kis) kss).
  { destruct (bi_has_stride_zero s).
    - pose proof (Dims_Proofs.vol_nonneg _ (proj1 (proj2 (proj2 HL)))) as Hv.
      rewrite (C11_serial_partial inner idx sh ops size s) in E by (assumption || lia). cbn [bind] in E. injection E as <-.
      exists [pairs_of inner idx size 0 (vol sh)]. split; [cbn; apply app_nil_r|]. cbn [map]. f_equal.
      rewrite events_pairs, !flat_map_concat_map, map_map. f_equal. apply map_ext. intros ki. f_equal.
      exact (pcells_ok inner idx sh (o :: ins) ki).
    - rewrite (binned_programs_ok inner idx sh size (call_in_place f) (o :: ins) s fuel blocks HL HS Hsz Hhs Es Ht Hf) in E.
      injection E as <-. eexists. split; [apply (kiss_concat inner idx size); eassumption|reflexivity]. }
  destruct Hex as (kss & Hk & ->).
  apply (binned_elementwise inner idx sh size f o (o :: ins) kss h h'); try assumption.
  intros x y Hx Hy Ec. apply (Hal x y o); try assumption. left. reflexivity.
Qed.
Print Assumptions C12_binned_in_place_partial.

(** Two bins with two and one events in different orders in the two buffers, and a dense operand with one element per
    bin, which is broadcast to the events: two threads. *)
Definition ix_out : bin_memory := fun k => if k =? 0 then Some (0, 2) else if k =? 1 then Some (2, 3) else None.
Definition ix_in : bin_memory := fun k => if k =? 0 then Some (1, 3) else if k =? 1 then Some (0, 1) else None.
Example C12_binned_case :
  let o := ((2%nat, 0), mkoperand [1] (Some ([1], ix_out))) in
  let a := ((0%nat, 0), mkoperand [1] (Some ([1], ix_in))) in
  let b := ((1%nat, 0), mkoperand [1] None) in
  let h : heap Z := fun c => match c with (O, k) => k + 1 | (S O, k) => 10 * (k + 1) | _ => 0 end in
  let size := fun k => if k =? 0 then 2 else 1 in
  layout_ok [3] 0 [2] (map snd [o; a; b]) /\ own_layout [3] 0 [2] (snd o) /\
  Forall (has_sizes [2] size) (map snd [o; a; b]) /\
  exists ps h', binned_transform sumZ (map fst [o; a; b]) [3] 0 [2] (map snd [o; a; b]) 3 [(0, 1); (1, 2)] = Ok ps /\
    length ps = 2%nat /\ may_end h ps h' /\ map (fun k => h' (2%nat, k)) [0; 1; 2] = [12; 13; 21].
Proof.
  intros o a b h size. split; [|split; [|split]].
  - split; [cbn; lia|]. split; [repeat constructor; lia|]. split; [repeat constructor; lia|].
    split; [|exists (snd o); split; [left; reflexivity|discriminate]].
    repeat constructor; intros st ix E; try discriminate; injection E as <- <-; reflexivity.
  - split; [intros _|]; intros [|d] Hd _; cbn in Hd |- *; lia.
  - cbn [map snd o a b]. repeat apply Forall_cons; try apply Forall_nil; intros st ix E; try discriminate; injection E as <- <-;
      intros k Hk; change (vol [2]) with 2 in Hk; (assert (k = 0 \/ k = 1) as [->| ->] by lia);
      first [exists 0; reflexivity|exists 1; reflexivity|exists 2; reflexivity].
  - destruct (binned_transform sumZ (map fst [o; a; b]) [3] 0 [2] (map snd [o; a; b]) 3 [(0, 1); (1, 2)]) as [ps| |] eqn:E;
      [|vm_compute in E; discriminate E|vm_compute in E; discriminate E].
    cbv -[sumZ] in E. injection E as <-. eexists _, _. split; [reflexivity|]. split; [reflexivity|]. split.
    + exists (concat (repeat [1%nat; 0%nat] 6)). split; [|reflexivity]. cbv -[sumZ hset h]. intuition (subst; reflexivity).
    + vm_compute. reflexivity.
Qed.
