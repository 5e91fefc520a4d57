(** Theorems about binning (C20, C23) and the chunks of tables (C45). *)
From Coq Require Import Sorted Permutation.
From Verif Require Transform_Proofs.
From Verif Require Import Base Float Arr Subbin_Model Numeric_Model Numeric_Props Lookup_Model Lookup_Proofs Linspace_Proofs Lookup_Props BinKernel_Model BinKernel_Proofs Mapper_Model Mapper_Proofs Mapper_Proofs2 Mapper_Proofs3 Mapper_Props TargetBins_Model TargetBins_Proofs TargetBins_Proofs2.

(** the input bins visited for an output position [q]: nested loops over the dimensions [rs], the first is outermost *)
Fixpoint loops (sh : list Z) (rs : list Z) (q : pos) : list pos :=
  match rs with [] => [q] | d :: rs' => flat_map (fun k => loops sh rs' (zupd q d k)) (zseq 0 (Z.to_nat (znth 0 sh d))) end.
(** the targets of the events relative to the window of the input bin *)
Definition targets {E} (st : @state E) (events : pos -> list E) (p : pos) : list (Z * E) :=
  map (fun e => (match s_index st p e with Ok i => i | _ => -1 end, e)) (events p).

Lemma contents_loops {A} sh (ev : pos -> list (Z * A)) off nb b rs : forall p, contents sh ev off nb rs p b = flat_map (fun p => vals ev off nb p b) (loops sh rs p).
Proof.
  induction rs as [|d rs IH]; intros p; cbn [contents loops flat_map]; [rewrite app_nil_r; reflexivity|]. rewrite flat_map_flat_map. apply flat_map_ext. intros k. apply IH.
Qed.
Lemma loops_valid sh rs : Forall (okdim sh) rs -> forall q, validx sh rs q -> forall p, In p (loops sh rs q) -> valid sh p.
Proof.
  induction rs as [|d rs IH]; intros Hr q Hq p Hp; cbn [loops] in Hp.
  - destruct Hp as [<-|[]]. exact Hq.
  - apply Forall_cons_iff in Hr. destruct Hr as [Hd Hr]. apply in_flat_map in Hp. destruct Hp as (k & Hk & Hp). apply In_zseq in Hk. apply (IH Hr (zupd q d k)); [|exact Hp]. apply validx_upd; [exact Hd|exact Hq|lia].
Qed.
Lemma loops_frame sh rs : Forall (okdim sh) rs -> forall q, zlen q = zlen sh -> forall p, In p (loops sh rs q) -> forall i, ~ In i rs -> znth 0 p i = znth 0 q i.
Proof.
  induction rs as [|d rs IH]; intros Hr q Hq p Hp i Hi; cbn [loops] in Hp.
  - destruct Hp as [<-|[]]. reflexivity.
  - apply Forall_cons_iff in Hr. destruct Hr as [Hd Hr]. unfold okdim in Hd. apply in_flat_map in Hp. destruct Hp as (k & _ & Hp). rewrite (IH Hr (zupd q d k) ltac:(rewrite zlen_zupd; exact Hq) p Hp i) by (intros Hx; apply Hi; right; exact Hx). rewrite znth_zupd by lia. destruct (Z.eqb_spec i d) as [->|]; [|reflexivity]. exfalso. apply Hi. left. reflexivity.
Qed.
(** The loops visit every input bin that agrees with [q] in the other dimensions exactly once. *)
Lemma loops_all sh rs : Forall (okdim sh) rs -> NoDup rs -> forall q, zlen q = zlen sh ->
  NoDup (loops sh rs q) /\ forall p, valid sh p -> (forall i, ~ In i rs -> znth 0 p i = znth 0 q i) -> In p (loops sh rs q).
Proof.
  induction rs as [|d rs IH]; intros Hr Hnd q Hq; cbn [loops].
  - split; [repeat constructor; intros []|]. intros p [Hp _] Hi. left. apply (znth_ext 0); [congruence|]. intros i _. symmetry. apply Hi. intros [].
  - pose proof Hr as Hr0. apply Forall_cons_iff in Hr. destruct Hr as [Hd Hr]. inversion Hnd as [|? ? Hni Hnd']; subst. assert (Hd0 : 0 <= d < zlen q) by (unfold okdim in Hd; lia).
    assert (Hlen : forall k, zlen (zupd q d k) = zlen sh) by (intros k; rewrite zlen_zupd; exact Hq).
    assert (Hk : forall k p, In p (loops sh rs (zupd q d k)) -> znth 0 p d = k). { intros k p Hp. rewrite (loops_frame sh rs Hr _ (Hlen k) p Hp d Hni). rewrite znth_zupd by exact Hd0. rewrite Z.eqb_refl. reflexivity. }
    split.
    + generalize (Transform_Proofs.zseq_NoDup 0 (Z.to_nat (znth 0 sh d))). generalize (zseq 0 (Z.to_nat (znth 0 sh d))). intros l Hl. induction Hl as [|k l Hkl Hl IHl]; [constructor|]. cbn [flat_map]. apply Transform_Proofs.NoDup_app_intro; [apply (IH Hr Hnd' _ (Hlen k))|exact IHl|].
      intros p Hp Hp'. apply in_flat_map in Hp'. destruct Hp' as (k' & Hk' & Hp'). apply Hk in Hp. apply Hk in Hp'. congruence.
    + intros p Hp Hi. apply in_flat_map. exists (znth 0 p d). split; [apply In_zseq; destruct Hp as [_ N]; specialize (N d Hd ltac:(intros [])); lia|]. apply (IH Hr Hnd' _ (Hlen _)); [exact Hp|]. intros i Hi'. rewrite znth_zupd by exact Hd0. destruct (Z.eqb_spec i d) as [->|Hne]; [reflexivity|]. apply Hi. intros [E|E]; [congruence|exact (Hi' E)].
Qed.

Lemma vals_targets {E} (st : @state E) events T sh p b : valid sh p -> 0 <= s_off st p ->
  (forall e, In e (events p) -> exists i, s_index st p e = Ok i /\ ((i = -1 /\ T p e = -1) \/ (0 <= i < s_nb st p /\ T p e = s_off st p + i))) -> 0 <= b ->
  vals (targets st events) (s_off st) (s_nb st) p b = filter (fun e => T p e =? b) (events p).
Proof.
  intros Hp Ho Hi Hb. unfold vals. destruct ((s_off st p <=? b) && (b <? s_off st p + s_nb st p)) eqn:Ew.
  - unfold targets, vals_of. revert Hi. induction (events p) as [|e l IH]; intros Hi; [reflexivity|]. cbn [map filter]. rewrite <- IH by (intros; apply Hi; right; assumption). destruct (Hi e (or_introl eq_refl)) as (i & Ei & Hx). rewrite Ei. cbn [fst].
    destruct Hx as [[-> ->]|[Hx ->]]; [replace (-1 =? b - s_off st p) with false by lia; replace (-1 =? b) with false by lia; reflexivity|]. replace (s_off st p + i =? b) with (i =? b - s_off st p) by lia. destruct (i =? b - s_off st p); reflexivity.
  - symmetry. revert Hi. induction (events p) as [|e l IH]; intros Hi; [reflexivity|]. cbn [filter]. rewrite IH by (intros; apply Hi; right; assumption). destruct (Hi e (or_introl eq_refl)) as (i & _ & Hx). replace (T p e =? b) with false by lia. reflexivity.
Qed.

(** ** C23: binning of binned data *)
(** Every event of every input bin gets its row-major target bin [T] (or -1, outside); the windows of the input bins contain
    these targets, and the output bin [b] at the outer position [q] holds the events with target [b] of the input bins at [q],
    in the order of the loops; all writes in any order. *)
Theorem C23_rebin {E} bits sh (acts : list (action E)) (events : pos -> list E) strat :
  Forall (fun n => 0 <= n) sh -> Forall (action_ok bits sh) acts -> (forall a p e, In a acts -> valid sh p -> In e (events p) -> event_ok sh a p e) ->
  shortcut_ok sh acts -> Forall (okdim sh) strat -> NoDup strat ->
  exists st T, build bits sh acts = Ok st /\ (forall p e, valid sh p -> In e (events p) -> target acts p e 0 (T p e) /\ -1 <= T p e < Z.max 0 (volume acts)) /\
  let ev := targets st events in
  exists sizes total, bin_sizes sh strat ev (s_off st) (s_nb st) (volume acts) = Ok sizes /\ total_size sh strat ev (s_off st) (s_nb st) = Ok total /\
  (forall p, valid sh p -> exists w, writes sh strat ev (s_off st) (s_nb st) p = Ok w) /\
  (forall W buf, (forall e, In e W <-> exists p w, valid sh p /\ writes sh strat ev (s_off st) (s_nb st) p = Ok w /\ In e w) -> zlen buf = total ->
    exists out, apply_writes buf W = Ok out /\
      bins_of_sizes out sizes = flat_map (fun q => map (fun b => flat_map (fun p => filter (fun e => T p e =? b) (events p)) (loops sh (rev strat) q)) (zseq 0 (Z.to_nat (volume acts)))) (rows strat 0 sh)).
Proof.
  intros Hsh Ha Hev Hshort Hdims Hnd. unfold build. set (V := volume acts).
  destruct (steps_ok bits sh events V acts [] (init V) (fun _ => 0) (fun _ => 1) 1) as (st & b & w & Q & Est & Hinv); try assumption.
  { unfold inv. cbn [init s_off s_nb s_index s_scalar]. change (volume (@nil (action E))) with 1. split; [lia|]. split; [fold V; lia|]. split; [intros p Hp; fold V; repeat split; lia|]. split.
    - intros p e _ _. exists 0, 0. split; [reflexivity|]. split; [reflexivity|right; lia].
    - split; [intros; lia|]. intros _ key edges d c []. }
  cbn [app] in Hinv. destruct Hinv as (HQ & HV & Hw & He & Hm & _). fold V in HV, Hw.
  set (T := fun p e => match s_index st p e with Ok i => if i =? -1 then -1 else s_off st p + i | _ => -1 end).
  assert (Hidx : forall p e, valid sh p -> In e (events p) -> exists i, s_index st p e = Ok i /\ ((i = -1 /\ T p e = -1) \/ (0 <= i < s_nb st p /\ T p e = s_off st p + i))).
  { intros p e Hp Hin. destruct (He p e Hp Hin) as (t & i & _ & Ei & Hi). destruct (Hw p Hp) as (_ & _ & _ & W4 & W5). exists i. split; [exact Ei|]. unfold T. rewrite Ei, W4, W5, Z.mul_1_r. destruct Hi as [[-> ->]|[Hi ->]]; [left; split; reflexivity|right]. split; [exact Hi|]. replace (i =? -1) with false by lia. reflexivity. }
  exists st, T. split; [exact Est|]. split.
  { intros p e Hp Hin. destruct (He p e Hp Hin) as (t & i & Ht & Ei & Hi). destruct (Hw p Hp) as (W1 & W2 & W3 & W4 & _). assert (Et : T p e = t). { unfold T. rewrite Ei, W4, Z.mul_1_r. destruct Hi as [[-> ->]|[Hi ->]]; [reflexivity|]. replace (i =? -1) with false by lia. reflexivity. }
    rewrite Et. split; [exact Ht|]. destruct Hi as [[_ ->]|[Hi ->]]; nia. }
  assert (M : mappable sh strat (targets st events) (s_off st) (s_nb st) V).
  { constructor; try assumption.
    - intros p Hp. destruct (Hw p Hp) as (W1 & W2 & W3 & W4 & W5). rewrite W4, W5, Z.mul_1_r. repeat split; nia.
    - intros p Hp. apply Forall_forall. intros x Hx. unfold targets in Hx. apply in_map_iff in Hx. destruct Hx as (e & <- & Hin). cbn [fst]. destruct (Hidx p e Hp Hin) as (i & -> & Hi). destruct (Hw p Hp) as (W1 & W2 & W3 & W4 & W5). assert (0 <= s_nb st p) by (rewrite W5; nia). lia.
    - intros d Hd p k Hp Hk. pose proof (proj1 (Forall_forall _ _) Hdims d Hd) as Hok. assert (Hp' : valid sh (zupd p d k)). { apply valid_upd; [exact Hok|exact Hp|]. destruct Hp as [_ N]. specialize (N d Hok ltac:(intros [])). lia. }
      destruct (Hw p Hp) as (_ & _ & _ & W4 & W5). destruct (Hw _ Hp') as (_ & _ & _ & W4' & W5'). rewrite W4, W5, W4', W5', Z.mul_1_r. destruct (Hm p d k Hp Hok Hk). nia.
    - destruct strat as [|d ds]; [exact I|]. intros p k Hp Hk. apply Forall_cons_iff in Hdims. destruct Hdims as [Hok _]. assert (Hp' : valid sh (zupd p d k)). { apply valid_upd; [exact Hok|exact Hp|]. destruct Hp as [_ N]. specialize (N d Hok ltac:(intros [])). lia. }
      destruct (Hw p Hp) as (_ & _ & _ & W4 & W5). destruct (Hw _ Hp') as (_ & _ & _ & W4' & W5'). rewrite W4, W4', Z.mul_1_r. destruct (Hm p d k Hp Hok Hk). nia.
    - unfold V. clear - Ha Hsh. induction acts as [|x acts IH]; [discriminate|]. apply Forall_cons_iff in Ha. destruct Ha as [Hx Hacts]. rewrite volume_cons. apply Z.mul_nonneg_nonneg; [|apply IH; exact Hacts].
      destruct x as [? groups|? edges bc|d n|]; cbn [asize action_ok] in *; [apply zlen_nonneg|lia| |lia]. destruct Hx as [Hd ->]. rewrite Forall_forall in Hsh. apply Hsh. apply znth_In. exact Hd. }
  cbv zeta. destruct (C20_mapper sh strat (targets st events) (s_off st) (s_nb st) V M) as (sizes & total & E1 & E2 & E3 & _ & E5). exists sizes, total. split; [exact E1|]. split; [exact E2|]. split; [exact E3|].
  intros W buf HW Hl. destruct (E5 W buf HW Hl) as (out & Eo & Eb). exists out. split; [exact Eo|]. rewrite Eb. apply flat_map_ext_in. intros q Hq. apply map_ext_in. intros b0 Hb0. apply In_zseq in Hb0. rewrite contents_loops. apply flat_map_ext_in. intros p Hp.
  assert (Hvp : valid sh p). { apply (loops_valid sh (rev strat)) with (q := q); [apply Forall_rev; exact Hdims| |exact Hp]. apply (row_ok sh strat). exact Hq. }
  apply (vals_targets st events T sh); [exact Hvp| |intros e Hin; apply Hidx; assumption|lia]. destruct (Hw p Hvp) as (W1 & W2 & W3 & W4 & _). rewrite W4. nia.
Qed.
Print Assumptions C23_rebin.

(** The target of an event is unique. *)
Lemma is_bin_unique {B} (P : B -> B -> Prop) edges r r' : is_bin P edges r -> is_bin P edges r' -> r = r'.
Proof.
  intros [L N] [L' N']. destruct (Z.eq_dec r (-1)) as [->|Hne].
  - destruct (Z.eq_dec r' (-1)) as [|Hne']; [congruence|]. apply (N r' ltac:(lia)). apply (N' r' ltac:(lia)). reflexivity.
  - symmetry. apply (N' r ltac:(lia)). apply (N r ltac:(lia)). reflexivity.
Qed.
Lemma is_group_unique groups x i j : NoDup groups -> is_group groups x i -> is_group groups x j -> i = j.
Proof.
  intros Hnd [[-> Hi]|[Hi <-]] [[-> Hj]|[Hj Ej]].
  - reflexivity.
  - exfalso. apply Hi. rewrite <- Ej. apply znth_In. exact Hj.
  - exfalso. apply Hj. apply znth_In. exact Hi.
  - destruct (Z.eq_dec i j) as [|Hne]; [assumption|]. exfalso. rewrite (NoDup_nth groups 0) in Hnd. unfold znth in Ej. destruct (Z.ltb_spec i 0); [lia|]. destruct (Z.ltb_spec j 0); [lia|]. unfold zlen in *. specialize (Hnd (Z.to_nat j) (Z.to_nat i) ltac:(lia) ltac:(lia) Ej). lia.
Qed.
Theorem C23_target_unique {E} bits sh (acts : list (action E)) p e : Forall (action_ok bits sh) acts -> forall acc t t', target acts p e acc t -> target acts p e acc t' -> t = t'.
Proof.
  induction acts as [|a acts IH]; intros Ha acc t t' Ht Ht'; cbn [target] in *; [congruence|]. apply Forall_cons_iff in Ha. destruct Ha as [Ha Hacts]. destruct Ht as (i & Hi & Ht). destruct Ht' as (j & Hj & Ht'). assert (i = j) as <-.
  { destruct a; cbn [slot action_ok] in *; [apply (is_group_unique groups (key p e)); assumption|apply (is_bin_unique _ _ _ _ Hi Hj)|congruence|congruence]. }
  exact (IH Hacts _ _ _ Ht Ht').
Qed.
Print Assumptions C23_target_unique.

Lemma ssorted_strictly l : StronglySorted Z.lt l -> strictly l.
Proof. intros Hs i j Hij Hj. apply (sorted_vget Z.lt l Hs i j); [lia| |]; apply vget_znth; lia. Qed.
Lemma strictly_ascending l : strictly l -> ascending l.
Proof. intros Hs i j Hij Hj. destruct (Z.eq_dec i j) as [->|]; [lia|]. specialize (Hs i j ltac:(lia) Hj). lia. Qed.
Ltac ssorted := repeat first [apply SSorted_nil|apply SSorted_cons|apply Forall_nil|apply Forall_cons|lia].
Lemma bin_ok_case {E} bits sh key edges bc : StronglySorted Z.lt edges -> 2 <= zlen edges <= 2 ^ 40 -> zlen edges < 2 ^ (bits - 1) -> znth 0 edges (zlen edges - 1) - znth 0 edges 0 < 2 ^ 63 ->
  match bc with None => True | Some (d, c) => (d = -1 \/ okdim sh d) /\ (zlen c = dim_size sh d \/ zlen c = dim_size sh d + 1 /\ 1 <= dim_size sh d) end -> action_ok bits sh (@Bin E key edges bc).
Proof.
  intros Hs He Hb Hr Hc. apply ssorted_strictly in Hs. split; [apply strictly_ascending; exact Hs|]. split; [lia|]. split; [intros _; repeat split; lia|]. destruct bc as [[d c]|]; [|exact I]. destruct Hc as [Hd Hc]. split; [exact Hd|]. split; [exact Hc|]. left. exact Hs.
Qed.
(** data binned along x and y; x is rebinned using the edges of the input bins, y is kept *)
Definition case_acts : list (action Z) := [Bin (fun _ e => e / 10) [0; 2; 4; 6] (Some (0, [1; 3; 5])); Existing 1 2].
Definition case_events (p : pos) : list Z := if znth 0 p 0 =? 0 then [20 + znth 0 p 1; 10 + znth 0 p 1] else [40 + znth 0 p 1; 30 + znth 0 p 1].
Example C23_case : Forall (action_ok 32 [2; 2]) case_acts /\ (forall a p e, In a case_acts -> valid [2; 2] p -> In e (case_events p) -> event_ok [2; 2] a p e) /\ shortcut_ok [2; 2] case_acts /\
  (exists st, build 32 [2; 2] case_acts = Ok st /\ map (s_off st) [[0; 0]; [1; 0]] = [0; 2] /\ map (s_nb st) [[0; 0]; [1; 0]] = [4; 4] /\ targets st case_events [0; 1] = [(3, 21); (1, 11)]) /\
  target case_acts [0; 1] 21 0 3.
Proof.
  split.
  { apply Forall_cons; [|apply Forall_cons; [|constructor]].
    - apply bin_ok_case; [ssorted|split; [discriminate|discriminate]|reflexivity|reflexivity|]. split; [right; split; [discriminate|reflexivity]|right; split; [reflexivity|discriminate]].
    - split; [split; [discriminate|reflexivity]|reflexivity]. }
  split.
  { intros a p e [<-|[<-|[]]] [_ Hp] Hin; [|exact I]. intros _. cbv zeta. pose proof (Hp 0 ltac:(unfold okdim, zlen; cbn; lia) ltac:(intros [])) as P0. pose proof (Hp 1 ltac:(unfold okdim, zlen; cbn; lia) ltac:(intros [])) as P1. change (znth 0 [2; 2] 0) with 2 in P0. change (znth 0 [2; 2] 1) with 2 in P1. unfold coord_index, case_events in *. change (0 <? 0) with false. cbv iota.
    change (zlen [1; 3; 5] =? dim_size [2; 2] 0 + 1) with true. cbv iota. set (k := znth 0 p 0) in *. set (y := znth 0 p 1) in *. clearbody k y. assert (k = 0 \/ k = 1) as [-> | ->] by lia; assert (y = 0 \/ y = 1) as [-> | ->] by lia; cbn [Z.eqb Pos.eqb] in Hin; destruct Hin as [<-|[<-|[]]]; (split; [discriminate|reflexivity]). }
  split.
  { intros pre key edges d c post Ee _. left. destruct pre as [|a [|a' pre]]; [reflexivity| |]; injection Ee; intros; subst; try discriminate. destruct pre; discriminate. }
  split.
  { eexists. split; [reflexivity|]. repeat split. }
  exists 1. split; [|exists 1; split; reflexivity].
  destruct (C19_sorted_int [0; 2; 4; 6] 2) as (r & Er & Hr); [repeat constructor; lia|]. cbn in Er. injection Er as <-. exact Hr.
Qed.

(** Grouping along a before the shortcut along x: with data binned along a and x, the event of group 1 and x-bin 0 is put into
    the output bin of group 0 and x-bin 1. *)
Theorem C23_order_refuted : exists (acts : list (action Z)) events st i t, Forall (action_ok 32 [2; 2]) acts /\ (forall a p e, In a acts -> valid [2; 2] p -> In e (events p) -> event_ok [2; 2] a p e) /\
  build 32 [2; 2] acts = Ok st /\ valid [2; 2] [1; 0] /\ In 5 (events [1; 0]) /\ s_index st [1; 0] 5 = Ok i /\ target acts [1; 0] 5 0 t /\ t = 2 /\ s_off st [1; 0] + i = 1.
Proof.
  exists [Group (fun p _ => znth 0 p 0) [0; 1]; Bin (fun p _ => znth 0 p 1) [0; 1; 2] (Some (1, [0; 1; 2]))], (fun _ => [5]). eexists _, _, _. 
  split.
  { apply Forall_cons; [|apply Forall_cons; [|constructor]].
    - constructor; [intros [E|[]]; discriminate|constructor; [intros []|constructor]].
    - apply bin_ok_case; [ssorted|split; [discriminate|discriminate]|reflexivity|reflexivity|]. split; [right; split; [discriminate|reflexivity]|right; split; [reflexivity|discriminate]]. }
  split.
  { intros a p e [<-|[<-|[]]] [_ Hp] _; cbn [event_ok].
    - intros _. pose proof (Hp 0 ltac:(unfold okdim, zlen; cbn; lia) ltac:(intros [])) as P0. change (znth 0 [2; 2] 0) with 2 in P0. change (znth 0 [0; 1] 0) with 0. unfold in_range. lia.
    - intros _. cbv zeta. pose proof (Hp 1 ltac:(unfold okdim, zlen; cbn; lia) ltac:(intros [])) as P1. change (znth 0 [2; 2] 1) with 2 in P1. unfold coord_index. change (1 <? 0) with false. cbv iota. change (zlen [0; 1; 2] =? dim_size [2; 2] 1 + 1) with true. cbv iota. set (y := znth 0 p 1) in *. clearbody y. assert (y = 0 \/ y = 1) as [-> | ->] by lia; (split; [discriminate|reflexivity]). }
  split; [reflexivity|]. split; [split; [reflexivity|]; intros i Hi _; unfold okdim, zlen in Hi; cbn in Hi; assert (i = 0 \/ i = 1) as [->| ->] by lia; (split; [discriminate|reflexivity])|]. split; [left; reflexivity|]. split; [reflexivity|].
  split; [|split; reflexivity]. exists 1. split; [right; split; [unfold zlen; cbn; lia|reflexivity]|]. exists 0. split; [|reflexivity].
  destruct (C19_sorted_int [0; 1; 2] 0) as (r & Er & Hr); [repeat constructor; lia|]. cbn in Er. injection Er as <-. exact Hr.
Qed.
Print Assumptions C23_order_refuted.

(** Two shortcuts for slices (or dimensions of length 1): the second one replaces the window of the first one. *)
Theorem C23_twice_refuted : exists (acts : list (action Z)) st i t, Forall (action_ok 32 []) acts /\ (forall a, In a acts -> event_ok [] a [] 5) /\
  build 32 [] acts = Ok st /\ s_index st [] 5 = Ok i /\ target acts [] 5 0 t /\ t = 2 /\ s_off st [] + i = 0.
Proof.
  exists [Bin (fun _ _ => 1) [0; 1; 2] (Some (-1, [1; 2])); Bin (fun _ _ => 0) [0; 1; 2] (Some (-1, [0; 1]))]. eexists _, _, _.
  split. { apply Forall_cons; [|apply Forall_cons; [|constructor]]; (apply bin_ok_case; [ssorted|split; [discriminate|discriminate]|reflexivity|reflexivity|]); (split; [left; reflexivity|right; split; [reflexivity|discriminate]]). }
  split. { intros a [<-|[<-|[]]]; intros _; cbn; (split; [discriminate|reflexivity]). }
  split; [reflexivity|]. split; [reflexivity|]. split; [|split; reflexivity].
  exists 1. split. { destruct (C19_sorted_int [0; 1; 2] 1) as (r & Er & Hr); [repeat constructor; lia|]. cbn in Er. injection Er as <-. exact Hr. }
  exists 0. split; [|reflexivity]. destruct (C19_sorted_int [0; 1; 2] 0) as (r & Er & Hr); [repeat constructor; lia|]. cbn in Er. injection Er as <-. exact Hr.
Qed.
Print Assumptions C23_twice_refuted.

(** An empty input bin of width zero at a repeated output edge: the number of output bins becomes negative and the call
    throws, although all edges are sorted and there are no events at all. *)
Theorem C23_zero_width_refuted : exists (acts : list (action Z)) st, shortcut_ok [1] acts /\ build 64 [1] acts = Ok st /\ s_nb st [0] = -1 /\
  bin_sizes [1] [0] (targets st (fun _ => [])) (s_off st) (s_nb st) (volume acts) = Throw RuntimeError.
Proof.
  exists [Bin (fun _ e => e) [0; 1; 1; 2] (Some (0, [1; 1]))]. eexists. split; [|split; [reflexivity|split; reflexivity]].
  intros pre key edges d c post Ee _. left. destruct pre as [|a [|a' pre]]; [reflexivity| |]; discriminate.
Qed.
Print Assumptions C23_zero_width_refuted.

(** Group labels with repeated values that pass as a contiguous range: no error, and the event with label 3 goes to the group
    with label 1. *)
Theorem C20_groups_refuted : exists (groups : list Z) st, ~ NoDup groups /\ build 32 [1] [Group (fun _ (e : Z) => e) groups] = Ok st /\ s_index st [0] 3 = Ok 3 /\ znth 0 groups 3 = 1 /\ ~ In 3 groups.
Proof.
  exists [0; 1; 0; 1; 2]. eexists. split; [intros Hnd; inversion Hnd as [|? ? Hni _]; subst; apply Hni; right; left; reflexivity|]. split; [reflexivity|]. split; [reflexivity|]. split; [reflexivity|]. intros Hin. cbn in Hin. lia.
Qed.
Print Assumptions C20_groups_refuted.

Lemma skipn_skipn' {A} a b (l : list A) : skipn a (skipn b l) = skipn (a + b) l.
Proof. revert l. induction b as [|b IH]; intros l; [rewrite Nat.add_0_r; reflexivity|]. rewrite Nat.add_succ_r. destruct l as [|x l]; [rewrite !skipn_nil; reflexivity|]. cbn [skipn]. apply IH. Qed.
(** ** C45: the chunks of a table *)
Theorem C45_pretend_bins {A} (l : list A) : let r := pretend_bins (zlen l) in
  concat (map (slice_range l) r) = l /\ Forall (fun b => 0 <= fst b <= snd b /\ snd b <= zlen l) r /\ r <> [].
Proof.
  cbv zeta. unfold pretend_bins. set (n := zlen l). assert (Hn : 0 <= n) by apply zlen_nonneg.
  set (size := Z.max 1 n). assert (Hst : 1 <= pretend_stride n <= size). { unfold pretend_stride. fold size. cbv zeta. assert (1 <= size) by lia. repeat match goal with |- context [if ?c then _ else _] => destruct c end; split; try lia; apply Z.max_lub; try lia; apply Z.quot_le_upper_bound; nia. }
  set (stride := pretend_stride n) in *. set (m := Z.to_nat (Z.quot size stride)). 
  assert (Hm : (1 <= m)%nat /\ Z.of_nat m * stride <= size). { unfold m. pose proof (Z.quot_rem' size stride). pose proof (Z.rem_bound_pos size stride ltac:(lia) ltac:(lia)). assert (1 <= Z.quot size stride) by (apply Z.quot_le_lower_bound; lia). split; [lia|]. rewrite Z2Nat.id by lia. nia. }
  destruct Hm as [Hm1 Hm2]. clearbody m stride.
  assert (Hgen : forall k a, Z.of_nat (S k) * stride + a * stride <= size -> 0 <= a ->
    let r := combine (map (fun k => k * stride) (zseq a (S k))) (removelast (map (fun b => b + stride) (map (fun k => k * stride) (zseq a (S k)))) ++ [n]) in
    a * stride <= n \/ k = 0%nat /\ a = 0 -> concat (map (slice_range l) r) = skipn (Z.to_nat (a * stride)) l /\ Forall (fun b => 0 <= fst b <= snd b /\ snd b <= n) r /\ r <> []).
  { intros k. induction k as [|k IH]; intros a Hb Ha r Hor; unfold r; clear r.
    - cbn [zseq seq map removelast app combine]. change (Z.of_nat 0) with 0. rewrite Z.add_0_r. cbn [map concat]. rewrite app_nil_r. assert (Has : 0 <= a * stride <= n) by (destruct Hor as [Hor|[_ ->]]; nia). split; [|split; [repeat constructor; cbn [fst snd]; lia|discriminate]].
      unfold slice_range. cbn [fst snd]. apply firstn_all2. rewrite skipn_length. unfold n, zlen. lia.
    - assert (Has : a * stride + stride <= n) by (destruct Hor as [Hor|[Hk _]]; [unfold size in Hb; nia|discriminate]).
      rewrite (zseq_S a (S k)). cbn [map]. specialize (IH (a + 1) ltac:(lia) ltac:(lia)). cbv zeta in IH. destruct IH as (IH1 & IH2 & IH3); [left; lia|].
      assert (Er : forall x (y : list Z), y <> [] -> removelast (x :: y) = x :: removelast y) by (intros x [|y0 y] Hy; [contradiction|reflexivity]). rewrite Er by (rewrite zseq_S; discriminate). cbn [app combine map concat]. rewrite IH1. split; [|split; [|discriminate]].
      + unfold slice_range. cbn [fst snd]. replace (a * stride + stride - a * stride) with stride by lia. replace ((a + 1) * stride) with (stride + a * stride) by lia. rewrite Z2Nat.inj_add by lia. rewrite <- skipn_skipn'. apply firstn_skipn.
      + constructor; [cbn [fst snd]; lia|exact IH2]. }
  destruct m as [|m]; [lia|]. specialize (Hgen m 0 ltac:(lia) ltac:(lia)). cbv zeta in Hgen. rewrite Z.mul_0_l in Hgen. cbn [skipn Z.to_nat] in Hgen. apply Hgen. left. exact Hn.
Qed.
Print Assumptions C45_pretend_bins.
Example C45_pretend_case : pretend_bins 100003 = [(0, 50001); (50001, 100003)] /\ pretend_bins 5 = [(0, 5)] /\ pretend_bins 0 = [(0, 0)].
Proof. repeat split. Qed.

Lemma flat_map_znth {A B} (d : A) (l : list A) (f : A -> list B) : flat_map (fun k => f (znth d l k)) (zseq 0 (Z.to_nat (zlen l))) = flat_map f l.
Proof.
  assert (Hg : forall l a pre, zlen pre = a -> flat_map (fun k => f (znth d (pre ++ l) k)) (zseq a (length l)) = flat_map f l).
  { clear l. induction l as [|x l IH]; intros a pre Ha; [reflexivity|]. cbn [length]. rewrite zseq_S. cbn [flat_map]. f_equal.
    - f_equal. rewrite znth_app, Ha, Z.ltb_irrefl, Z.sub_diag. apply znth_0.
    - specialize (IH (a + 1) (pre ++ [x])). rewrite <- app_assoc in IH. cbn [app] in IH. apply IH. rewrite zlen_app, Ha. reflexivity. }
  unfold zlen. rewrite Nat2Z.id. apply (Hg l 0 []). reflexivity.
Qed.
(** ** C20: tables *)
(** the axes of a table: coordinates of rows *)
Inductive table_axis (E : Type) : Type := TGroup (key : E -> Z) (groups : list Z) | TBin (key : E -> Z) (edges : list Z).
Arguments TGroup {E}. Arguments TBin {E}.
Definition table_action {E} (a : table_axis E) : action E := match a with TGroup key groups => Group (fun _ => key) groups | TBin key edges => Bin (fun _ => key) edges None end.
Definition axis_ok {E} (bits : Z) (table : list E) (a : table_axis E) : Prop :=
  match a with TGroup key groups => NoDup groups /\ forall e, In e table -> group_fits groups (key e) | TBin _ edges => ascending edges /\ 2 <= zlen edges /\ bin_fits bits edges end.
(** the output bin of a row: row-major in the positions along the axes, -1 if the row is outside one of the axes *)
Fixpoint row_bin {E} (axes : list (table_axis E)) (e : E) (acc t : Z) : Prop :=
  match axes with
  | [] => t = acc
  | TGroup key groups :: r => exists i, is_group groups (key e) i /\ row_bin r e (place acc (zlen groups) i) t
  | TBin key edges :: r => exists i, is_bin (int_inside (key e)) edges i /\ row_bin r e (place acc (zlen edges - 1) i) t
  end.
Definition table_bins {E} (axes : list (table_axis E)) : Z := volume (map table_action axes).
Lemma row_bin_target {E} (axes : list (table_axis E)) p e : forall acc t, target (map table_action axes) p e acc t <-> row_bin axes e acc t.
Proof.
  induction axes as [|[key groups|key edges] axes IH]; intros acc t; cbn [map table_action target row_bin slot asize]; [reflexivity| |]; split; intros (i & Hi & Ht); exists i; (split; [exact Hi|]); apply IH; exact Ht.
Qed.
(** Binning a table: output bin [b] holds the rows with target [b] in the order of the table. *)
Theorem C20_table {E} bits (axes : list (table_axis E)) (table : list E) : Forall (axis_ok bits table) axes ->
  let chunks := pretend_bins (zlen table) in let sh := [zlen chunks] in
  let events := fun p => slice_range table (znth (0, 0) chunks (znth 0 p 0)) in
  exists st T, build bits sh (map table_action axes) = Ok st /\ (forall e, In e table -> row_bin axes e 0 (T e)) /\
  let ev := targets st events in
  exists sizes total, bin_sizes sh [0] ev (s_off st) (s_nb st) (table_bins axes) = Ok sizes /\ total_size sh [0] ev (s_off st) (s_nb st) = Ok total /\
  forall W buf, (forall e, In e W <-> exists p w, valid sh p /\ writes sh [0] ev (s_off st) (s_nb st) p = Ok w /\ In e w) -> zlen buf = total ->
    exists out, apply_writes buf W = Ok out /\
      bins_of_sizes out sizes = map (fun b => filter (fun e => T e =? b) table) (zseq 0 (Z.to_nat (table_bins axes))).
Proof.
  intros Hax chunks sh events. destruct (C45_pretend_bins table) as (Hc & _ & _). fold chunks in Hc.
  assert (Hshape : valid sh [0] -> 0 < zlen chunks) by (intros [_ N]; specialize (N 0 ltac:(unfold okdim, zlen; cbn; lia) ltac:(intros [])); exact (proj2 N)).
  assert (Hin : forall p e, valid sh p -> In e (events p) -> In e table).
  { intros p e [_ N] He. specialize (N 0 ltac:(unfold okdim, zlen; cbn; lia) ltac:(intros [])). change (znth 0 sh 0) with (zlen chunks) in N. rewrite <- Hc. apply in_concat. eexists. split; [apply in_map; apply (znth_In (0, 0) chunks); exact N|exact He]. }
  destruct (C23_rebin bits sh (map table_action axes) events [0]) as (st & T & Est & HT & sizes & total & E1 & E2 & _ & E4).
  - constructor; [apply zlen_nonneg|constructor].
  - apply Forall_map. eapply Forall_impl; [|exact Hax]. intros [key groups|key edges] Ha; cbn [axis_ok table_action action_ok] in *; [apply Ha|]. destruct Ha as (A1 & A2 & A3). split; [exact A1|split; [exact A2|split; [exact A3|exact I]]].
  - intros a p e Ha Hp He. apply in_map_iff in Ha. destruct Ha as (x & <- & Hx). rewrite Forall_forall in Hax. specialize (Hax x Hx). destruct x as [key groups|key edges]; cbn [axis_ok table_action event_ok] in *; [|exact I]. apply (proj2 Hax). exact (Hin p e Hp He).
  - intros pre key edges d c post Ee _. exfalso. assert (Hb : In (Bin key edges (Some (d, c))) (map table_action axes)) by (rewrite Ee; apply in_or_app; right; left; reflexivity). apply in_map_iff in Hb. destruct Hb as (x & Ex & _). destruct x; discriminate.
  - constructor; [unfold okdim, zlen; cbn; lia|constructor].
  - constructor; [intros []|constructor].
  - assert (Hact : forall sh, Forall (action_ok bits sh) (map table_action axes)). { intros sh0. apply Forall_map. eapply Forall_impl; [|exact Hax]. intros [key groups|key edges] Ha; cbn [axis_ok table_action action_ok] in *; [apply Ha|]. destruct Ha as (A1 & A2 & A3). split; [exact A1|split; [exact A2|split; [exact A3|exact I]]]. }
    destruct (C23_rebin bits [1] (map table_action axes) (fun _ => table) []) as (_ & T1 & _ & HT1 & _).
    { repeat constructor. lia. }
    { apply Hact. }
    { intros a p e Ha Hp He. apply in_map_iff in Ha. destruct Ha as (x & <- & Hx). rewrite Forall_forall in Hax. specialize (Hax x Hx). destruct x as [key groups|key edges]; cbn [axis_ok table_action event_ok] in *; [|exact I]. apply (proj2 Hax). exact He. }
    { intros pre key edges d c post Ee _. exfalso. assert (Hb : In (Bin key edges (Some (d, c))) (map table_action axes)) by (rewrite Ee; apply in_or_app; right; left; reflexivity). apply in_map_iff in Hb. destruct Hb as (x & Ex & _). destruct x; discriminate. }
    { constructor. }
    { constructor. }
    assert (Hv1 : valid [1] [0]). { split; [reflexivity|]. intros i Hi _. unfold okdim, zlen in Hi. cbn in Hi. assert (i = 0) as -> by lia. cbn. lia. }
    exists st, (T1 [0]). split; [exact Est|]. split; [intros e He; apply (row_bin_target axes [0]); apply (HT1 [0] e Hv1 He)|].
    assert (HTT : forall p e, valid sh p -> In e (events p) -> T p e = T1 [0] e).
    { intros p e Hp He. apply (C23_target_unique bits [1] (map table_action axes) [0] e (Hact [1]) 0); [|apply (HT1 [0] e Hv1 (Hin p e Hp He))]. apply row_bin_target. apply (row_bin_target axes p). apply (HT p e Hp He). }
    exists sizes, total. split; [exact E1|]. split; [exact E2|]. intros W buf HW Hl. destruct (E4 W buf HW Hl) as (out & Eo & Eb). exists out. split; [exact Eo|]. rewrite Eb. cbn [rev app]. change (rows [0] 0 sh) with [[0]]. cbn [flat_map]. rewrite app_nil_r. apply map_ext_in. intros b _. cbn [loops]. change (znth 0 sh 0) with (zlen chunks).
    rewrite flat_map_flat_map.
    transitivity (flat_map (fun k => filter (fun e => T1 [0] e =? b) (slice_range table (znth (0, 0) chunks k))) (zseq 0 (Z.to_nat (zlen chunks)))).
    + apply flat_map_ext_in. intros k Hk. apply In_zseq in Hk. cbn [flat_map]. rewrite app_nil_r. change (zupd [0] 0 k) with [k]. assert (Hp : valid sh [k]). { split; [reflexivity|]. intros i Hi _. unfold okdim, zlen in Hi. cbn in Hi. assert (i = 0) as -> by lia. change (znth 0 sh 0) with (zlen chunks). change (znth 0 [k] 0) with k. lia. }
      change (events [k]) with (slice_range table (znth (0, 0) chunks k)). apply filter_ext_in. intros e He. rewrite (HTT [k] e Hp He). reflexivity.
    + rewrite (flat_map_znth (0, 0) chunks (fun r => filter (fun e => T1 [0] e =? b) (slice_range table r))). transitivity (filter (fun e => T1 [0] e =? b) (concat (map (slice_range table) chunks))); [|rewrite Hc; reflexivity]. rewrite <- flat_map_concat_map. clear. induction chunks as [|c l IHc]; [reflexivity|]. cbn [flat_map]. rewrite filter_app. f_equal. exact IHc.
Qed.
Print Assumptions C20_table.
Example C20_table_case : let axes := [TGroup (fun e : Z * Z => fst e) [7; 3]; TBin (fun e : Z * Z => snd e) [0; 1; 3; 10]] in
  let table := [(3, 2); (7, 5); (3, 1); (9, 1); (3, 10)] in
  Forall (axis_ok 64 table) axes /\ row_bin axes (3, 2) 0 4 /\ exists st, build 64 [1] (map table_action axes) = Ok st /\ map fst (targets st (fun _ => table) [0]) = [4; 2; 4; -1; -1].
Proof.
  cbv zeta. split; [|split].
  - apply Forall_cons; [|apply Forall_cons; [|constructor]].
    + split; [constructor; [intros [E|[]]; discriminate|constructor; [intros []|constructor]]|]. intros e _ Hc. discriminate.
    + assert (Hs : strictly [0; 1; 3; 10]) by (apply ssorted_strictly; ssorted). split; [apply strictly_ascending; exact Hs|]. split; [discriminate|]. intros Hc. discriminate.
  - exists 1. split; [right; split; [split; [discriminate|reflexivity]|reflexivity]|]. exists 1. split; [|reflexivity]. destruct (C19_sorted_int [0; 1; 3; 10] 2) as (r & Er & Hr); [ssorted|]. cbn in Er. injection Er as <-. exact Hr.
  - eexists. split; [reflexivity|]. reflexivity.
Qed.
