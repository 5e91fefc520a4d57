(** Proofs about the construction of the target bins: the invariant of the loop over the axes. *)
From Coq Require Import Sorted Permutation.
From Verif Require Import Base Float Arr Numeric_Model Numeric_Props Lookup_Model Lookup_Proofs Linspace_Proofs Lookup_Props BinKernel_Model BinKernel_Proofs Mapper_Model Mapper_Proofs Mapper_Proofs2 Mapper_Proofs3 Mapper_Props TargetBins_Model TargetBins_Proofs.

(** ** specification *)
Section Spec.
Context {E : Type}.
Implicit Types (a : action E) (acts : list (action E)).

(** the position of an event along one output dimension, or -1 *)
Definition slot a (p : pos) (e : E) (i : Z) : Prop :=
  match a with
  | Group key groups => is_group groups (key p e) i
  | Bin key edges _ => is_bin (int_inside (key p e)) edges i
  | Existing d _ => i = znth 0 p d
  | Join => i = 0
  end.
Definition place (acc n i : Z) : Z := if (acc =? -1) || (i =? -1) then -1 else acc * n + i.
(** the row-major index of the output bin of an event, or -1 *)
Fixpoint target acts (p : pos) (e : E) (acc t : Z) : Prop :=
  match acts with [] => t = acc | a :: r => exists i, slot a p e i /\ target r p e (place acc (asize a) i) t end.

Definition strictly (l : list Z) : Prop := forall i j, 0 <= i < j -> j < zlen l -> znth 0 l i < znth 0 l j.
Definition coord_index (d : Z) (p : pos) : Z := if d <? 0 then 0 else znth 0 p d.
Definition action_ok bits sh a : Prop :=
  match a with
  | Group _ groups => NoDup groups
  | Bin _ edges bc => ascending edges /\ 2 <= zlen edges /\ bin_fits bits edges /\
      match bc with
      | None => True
      | Some (d, c) => (d = -1 \/ okdim sh d) /\ (zlen c = dim_size sh d \/ zlen c = dim_size sh d + 1 /\ 1 <= dim_size sh d) /\ (strictly edges \/ strictly c)
      end
  | Existing d n => okdim sh d /\ n = znth 0 sh d
  | Join => True
  end.
(** numbers fit the integer types, and the event lies in its input bin *)
Definition event_ok sh a p e : Prop :=
  match a with
  | Group key groups => group_fits groups (key p e)
  | Bin key _ (Some (d, c)) => sortedb c = true -> let k := coord_index d p in
      if zlen c =? dim_size sh d + 1 then znth 0 c k <= key p e < znth 0 c (k + 1) else key p e = znth 0 c k
  | _ => True
  end.
(** An axis with a coordinate of the input bins comes after axes of length 1 only, or after another such axis. *)
Definition shortcut_ok sh acts : Prop := forall pre key edges d c post, acts = pre ++ Bin key edges (Some (d, c)) :: post -> sortedb c = true ->
  volume pre = 1 \/ exists key' edges' d' c', In (Bin key' edges' (Some (d', c'))) pre /\ sortedb c' = true /\ dim_size sh d' <> 1.
End Spec.

Lemma volume_app {E} (l m : list (action E)) : volume (l ++ m) = volume l * volume m.
Proof. unfold volume. induction l as [|a l IH]; cbn [app map]; unfold prodZ in *; cbn [fold_right] in *; [lia|]. rewrite IH. lia. Qed.
Lemma volume_cons {E} (a : action E) l : volume (a :: l) = asize a * volume l. Proof. reflexivity. Qed.
Lemma volume_nil {E} : volume (@nil (action E)) = 1. Proof. reflexivity. Qed.
Lemma target_snoc {E} (acts : list (action E)) a p e : forall acc t, target (acts ++ [a]) p e acc t <-> exists t0 i, target acts p e acc t0 /\ slot a p e i /\ t = place t0 (asize a) i.
Proof.
  induction acts as [|x acts IH]; intros acc t; cbn [app target].
  - split; [intros (i & Hi & ->); exists acc, i; repeat split; assumption|]. intros (t0 & i & -> & Hi & ->). exists i. split; [exact Hi|reflexivity].
  - split.
    + intros (i & Hi & Ht). apply IH in Ht. destruct Ht as (t0 & j & T0 & Hj & ->). exists t0, j. split; [exists i; split; assumption|]. split; [exact Hj|reflexivity].
    + intros (t0 & j & (i & Hi & T0) & Hj & ->). exists i. split; [exact Hi|]. apply IH. exists t0, j. repeat split; assumption.
Qed.

Lemma entry_ok sh d (l : list Z) p : (d = -1 \/ okdim sh d) -> zlen l = dim_size sh d -> valid sh p -> entry d l p = znth 0 l (coord_index d p) /\ 0 <= coord_index d p < zlen l.
Proof.
  intros Hd Hl [_ Hp]. unfold entry, coord_index, dim_size in *. destruct Hd as [->|Hd]; [cbn in *; rewrite Hl; cbn; split; [reflexivity|lia]|]. specialize (Hp d Hd ltac:(intros [])). pose proof Hd as Hd'. unfold okdim in Hd'. destruct (Z.ltb_spec d 0); [lia|]. split; [|lia].
  destruct (Z.eqb_spec (zlen l) 1); [|reflexivity]. f_equal. lia.
Qed.
Lemma coord_index_upd sh d p d' k : okdim sh d' -> (d = -1 \/ okdim sh d) -> valid sh p -> znth 0 p d' <= k < znth 0 sh d' -> coord_index d p <= coord_index d (zupd p d' k).
Proof.
  intros Hd' Hd Hp Hk. unfold coord_index. destruct (Z.ltb_spec d 0); [lia|]. destruct Hp as [Hl _]. unfold okdim in *. destruct (Z.eq_dec d d') as [->|].
  - rewrite znth_zupd by lia. rewrite Z.eqb_refl. lia.
  - rewrite znth_zupd by lia. destruct (Z.eqb_spec d d'); [lia|]. lia.
Qed.
Lemma valid_upd sh p d k : okdim sh d -> valid sh p -> 0 <= k < znth 0 sh d -> valid sh (zupd p d k).
Proof. intros Hd Hp Hk. apply (validx_upd sh d []); [exact Hd| |exact Hk]. destruct Hp as [L N]. split; [exact L|]. intros i Hi Hni. apply N; [exact Hi|intros []]. Qed.

(** the window of output bins of an input bin covers the bins of its events *)
Lemma window_edges edges b r L R x i : ascending edges -> last_below Z.leb edges L b -> last_below Z.ltb edges R r -> L <= x < R -> is_bin (int_inside x) edges i -> 0 <= i -> b <= i < r + 2 - 1.
Proof.
  intros Has (B1 & B2 & B3 & B4) (R1 & R2 & R3 & R4) Hx Hi Hi0. pose proof (is_bin_bound _ _ _ Hi) as Br. pose proof (proj1 (is_bin_znth _ _ i i Hi Hi0 ltac:(lia)) eq_refl) as Hri. split.
  - destruct (Z_le_gt_dec b i); [assumption|]. destruct B3 as [B3|B3]; [lia|]. apply Z.leb_le in B3. pose proof (Has (i + 1) b ltac:(lia) ltac:(lia)). lia.
  - destruct (Z_lt_ge_dec i (r + 1)); [lia|]. destruct R4 as [R4|R4]; [lia|]. apply Z.ltb_ge in R4. pose proof (Has (r + 1) i ltac:(lia) ltac:(lia)). lia.
Qed.
Lemma window_point edges b x i : ascending edges -> last_below Z.leb edges x b -> is_bin (int_inside x) edges i -> 0 <= i -> b <= i < b + 2 - 1.
Proof.
  intros Has (B1 & B2 & B3 & B4) Hi Hi0. pose proof (is_bin_bound _ _ _ Hi) as Br. pose proof (proj1 (is_bin_znth _ _ i i Hi Hi0 ltac:(lia)) eq_refl) as Hri. split.
  - destruct (Z_le_gt_dec b i); [assumption|]. destruct B3 as [B3|B3]; [lia|]. apply Z.leb_le in B3. pose proof (Has (i + 1) b ltac:(lia) ltac:(lia)). lia.
  - destruct (Z_lt_ge_dec i (b + 1)); [lia|]. destruct B4 as [B4|B4]; [lia|]. apply Z.leb_gt in B4. pose proof (Has (b + 1) i ltac:(lia) ltac:(lia)). lia.
Qed.
Lemma window_order edges b r L R : ascending edges -> last_below Z.leb edges L b -> last_below Z.ltb edges R r -> L <= R -> (L < R -> b <= r) /\ (strictly edges -> b <= r + 1).
Proof.
  intros Has (B1 & B2 & B3 & B4) (R1 & R2 & R3 & R4) Hx. split.
  - intros Hlt. destruct (Z_le_gt_dec b r); [assumption|]. destruct R4 as [R4|R4]; [lia|]. destruct B3 as [B3|B3]; [lia|]. apply Z.leb_le in B3. apply Z.ltb_ge in R4. pose proof (Has (r + 1) b ltac:(lia) ltac:(lia)). lia.
  - intros Hs. destruct (Z_le_gt_dec b (r + 1)); [assumption|]. destruct R4 as [R4|R4]; [lia|]. destruct B3 as [B3|B3]; [lia|]. apply Z.leb_le in B3. apply Z.ltb_ge in R4. pose proof (Hs (r + 1) b ltac:(lia) ltac:(lia)). lia.
Qed.

Section Build.
Context {E : Type}.
Variable bits : Z.
Variable sh : list Z.
Variable events : pos -> list E.
Variable V : Z.
Notation state := (@state E).
Notation step := (step bits sh V).
Notation steps := (steps bits sh V).

Definition inv (pre : list (action E)) (rest : Z) (s : state) (b w : pos -> Z) (Q : Z) : Prop :=
  0 <= Q /\ volume pre * rest = V /\
  (forall p, valid sh p -> 0 <= b p /\ 0 <= w p /\ b p * Q + w p * Q <= volume pre /\ s_off s p = b p * (Q * rest) /\ s_nb s p = w p * (Q * rest)) /\
  (forall p e, valid sh p -> In e (events p) -> exists t i, target pre p e 0 t /\ s_index s p e = Ok i /\ ((i = -1 /\ t = -1) \/ (0 <= i < w p * Q /\ t = b p * Q + i))) /\
  (forall p d k, valid sh p -> okdim sh d -> znth 0 p d <= k < znth 0 sh d -> b p <= b (zupd p d k) /\ b p + w p <= b (zupd p d k) + w (zupd p d k)) /\
  (s_scalar s = true -> forall key edges d c, In (Bin key edges (Some (d, c))) pre -> sortedb c = true -> dim_size sh d = 1).

Lemma inv_dense pre rest s b w Q a n (look : pos -> E -> res Z) scalar : inv pre (n * rest) s b w Q -> asize a = n -> 0 <= n -> 
  (scalar = true -> s_scalar s = true) ->
  (scalar = true -> forall key edges d c, a = Bin key edges (Some (d, c)) -> sortedb c = true -> dim_size sh d = 1) ->
  (forall p e, valid sh p -> In e (events p) -> exists i, look p e = Ok i /\ slot a p e i /\ -1 <= i < Z.max 0 n) ->
  inv (pre ++ [a]) rest {| s_index := fun p e => do i <- s_index s p e; update_index i n (look p e); s_off := s_off s; s_nb := s_nb s; s_scalar := scalar |} b w (Q * n).
Proof.
  intros (HQ & HV & Hw & He & Hm & Hs) Ha Hn Hsc Hsn Hl. unfold inv. cbn [s_index s_off s_nb s_scalar]. rewrite volume_app, volume_cons, volume_nil, Ha. split; [nia|]. split; [rewrite <- HV; ring|]. split; [|split; [|split]].
  - intros p Hp. destruct (Hw p Hp) as (W1 & W2 & W3 & W4 & W5). repeat split; try assumption; [nia|rewrite W4; ring|rewrite W5; ring].
  - intros p e Hp Hin. destruct (He p e Hp Hin) as (t & i & Ht & Ei & Hi). destruct (Hl p e Hp Hin) as (j & Ej & Hj & Bj). destruct (Hw p Hp) as (W1 & W2 & W3 & _).
    exists (place t n j). rewrite Ei. cbn [bind]. unfold update_index. rewrite Ej. cbn [bind]. destruct Hi as [[-> ->]|[Hi ->]].
    + exists (-1). split; [apply target_snoc; exists (-1), j; rewrite Ha; repeat split; assumption|]. split; [reflexivity|left; split; reflexivity].
    + assert (Hpos : 0 <= b p * Q + i) by nia. destruct (Z.eqb_spec i (-1)); [lia|]. destruct (Z.ltb_spec j 0).
      * exists (-1). assert (j = -1) as -> by lia. split; [apply target_snoc; exists (b p * Q + i), (-1); rewrite Ha; repeat split; assumption|]. split; [reflexivity|left]. split; [reflexivity|]. unfold place. rewrite orb_true_r. reflexivity.
      * exists (i * n + j). split; [apply target_snoc; exists (b p * Q + i), j; rewrite Ha; repeat split; assumption|]. split; [reflexivity|right]. split; [nia|]. unfold place. destruct (Z.eqb_spec (b p * Q + i) (-1)); [lia|]. destruct (Z.eqb_spec j (-1)); [lia|]. cbn [orb]. ring.
  - exact Hm.
  - intros Hsca key edges d c Hin Hc. apply in_app_or in Hin. destruct Hin as [Hin|[Hin|[]]]; [exact (Hs (Hsc Hsca) key edges d c Hin Hc)|]. exact (Hsn Hsca key edges d c Hin Hc).
Qed.

(** a new window for axes before which everything has length 1 *)
Lemma inv_window pre rest s b w Q a n (b' w' : pos -> Z) (look : pos -> E -> Z -> res Z) off nb scalar : inv pre (n * rest) s b w Q -> asize a = n -> 0 <= n -> ((exists p, valid sh p) -> volume pre = 1) ->
  (scalar = true -> s_scalar s = true) ->
  (scalar = true -> forall key edges d c, a = Bin key edges (Some (d, c)) -> sortedb c = true -> dim_size sh d = 1) ->
  (forall p, valid sh p -> 0 <= b' p /\ 0 <= w' p /\ b' p + w' p <= n /\ off p = b' p * rest /\ nb p = w' p * rest) ->
  (forall p d k, valid sh p -> okdim sh d -> znth 0 p d <= k < znth 0 sh d -> b' p <= b' (zupd p d k) /\ b' p + w' p <= b' (zupd p d k) + w' (zupd p d k)) ->
  (forall p e, valid sh p -> In e (events p) -> exists j, slot a p e j /\ -1 <= j < Z.max 0 n /\ look p e (-1) = Ok (-1) /\ look p e 0 = Ok (if j =? -1 then -1 else j - b' p) /\ (j <> -1 -> b' p <= j < b' p + w' p)) ->
  inv (pre ++ [a]) rest {| s_index := fun p e => do i <- s_index s p e; look p e i; s_off := off; s_nb := nb; s_scalar := scalar |} b' w' 1.
Proof.
  intros (HQ & HV & Hw & He & Hm & Hs) Ha Hn Hpre Hsc Hsn Hw' Hm' Hl. unfold inv. cbn [s_index s_off s_nb s_scalar]. assert (Hvol : volume (pre ++ [a]) = volume pre * (n * 1)) by (rewrite volume_app, volume_cons, volume_nil, Ha; reflexivity). rewrite Hvol. clear Hvol. split; [lia|]. split; [rewrite <- HV; ring|]. split; [|split; [|split]].
  - intros p Hp. destruct (Hw' p Hp) as (W1 & W2 & W3 & W4 & W5). pose proof (Hpre (ex_intro _ p Hp)) as Hp1. rewrite Hp1. repeat split; try assumption; try lia.
  - intros p e Hp Hin. destruct (He p e Hp Hin) as (t & i & Ht & Ei & Hi). destruct (Hl p e Hp Hin) as (j & Hj & Bj & L1 & L0 & Bw). destruct (Hw p Hp) as (W1 & W2 & W3 & _). pose proof (Hpre (ex_intro _ p Hp)) as Hp1. rewrite Hp1 in W3.
    exists (place t n j). rewrite Ei. cbn [bind]. destruct Hi as [[-> ->]|[Hi ->]].
    + exists (-1). split; [apply target_snoc; exists (-1), j; rewrite Ha; repeat split; assumption|]. split; [exact L1|left; split; reflexivity].
    + assert (i = 0 /\ b p * Q = 0) as [-> Hb0] by nia. rewrite Hb0 in *. eexists. split; [apply target_snoc; exists (0 + 0), j; rewrite Ha; repeat split; eassumption|]. split; [exact L0|]. unfold place. change (0 + 0 =? -1) with false. cbn [orb]. destruct (Z.eqb_spec j (-1)) as [->|Hne]; [left; split; reflexivity|right]. specialize (Bw Hne). lia.
  - exact Hm'.
  - intros Hsca key edges d c Hin Hc. apply in_app_or in Hin. destruct Hin as [Hin|[Hin|[]]]; [exact (Hs (Hsc Hsca) key edges d c Hin Hc)|]. exact (Hsn Hsca key edges d c Hin Hc).
Qed.

Lemma step_ok pre rest s b w Q a : inv pre (asize a * rest) s b w Q -> action_ok bits sh a -> Forall (fun n => 0 <= n) sh -> (forall p e, valid sh p -> In e (events p) -> event_ok sh a p e) -> 0 <= rest ->
  shortcut_ok sh (pre ++ [a]) -> exists s' b' w' Q', step s a = Ok s' /\ inv (pre ++ [a]) rest s' b' w' Q'.
Proof.
  intros Hinv Ha Hsh Hev Hrest Hshort. destruct a as [key groups|key edges bc|d n|].
  - cbn [action_ok event_ok asize step] in *. assert (Hc : check_groups groups = Ok tt).
    { unfold check_groups. destruct (contiguous_groups groups); [reflexivity|]. rewrite distinct_NoDup, Z.eqb_refl by exact Ha. reflexivity. }
    rewrite Hc. cbn [bind]. eexists _, b, w, _. split; [reflexivity|]. apply (inv_dense pre rest s b w Q (Group key groups) (zlen groups)); [exact Hinv|reflexivity|apply zlen_nonneg|intros Hx; exact Hx|discriminate|].
    intros p e Hp Hin. destruct (lookup_group_ok groups (key p e) Ha (Hev p e Hp Hin)) as (_ & i & Ei & Hi). exists i. split; [exact Ei|]. split; [exact Hi|]. destruct Hi as [[-> _]|[Hi _]]; lia.
  - destruct Ha as (Has & Hn & Hfit & Hbc). cbn [asize] in Hinv.
    assert (Hdense : (s_scalar s = true -> forall d c, bc = Some (d, c) -> sortedb c = true -> dim_size sh d = 1) ->
       inv (pre ++ [Bin key edges bc]) rest {| s_index := fun p e => do i <- s_index s p e; update_index i (zlen edges - 1) (lookup_bin bits (islinspace_int edges) edges (key p e)); s_off := s_off s; s_nb := s_nb s; s_scalar := s_scalar s |} b w (Q * (zlen edges - 1))).
    { intros Hx. apply (inv_dense pre rest s b w Q (Bin key edges bc) (zlen edges - 1)); [exact Hinv|reflexivity|lia|intros Hy; exact Hy| |].
      - intros Hy key' edges' d c Ee. injection Ee as -> -> Ee. exact (Hx Hy d c Ee).
      - intros p e Hp Hin. destruct (lookup_bin_ok bits edges 0 (zlen edges) (key p e) Has Hfit ltac:(lia) ltac:(lia) ltac:(lia)) as (i & Ei & Hi). rewrite sub_edges_all in Ei, Hi. exists i. split; [exact Ei|]. split; [exact Hi|]. pose proof (is_bin_bound _ _ _ Hi). lia. }
    cbn [step]. destruct bc as [[d c]|]; [|eexists _, b, w, _; split; [reflexivity|]; apply Hdense; intros; discriminate].
    destruct Hbc as (Hd & Hlen & Hstr). destruct (s_scalar s) eqn:Es; cbn [andb].
    2:{ eexists _, b, w, _. split; [reflexivity|]. apply Hdense. discriminate. }
    destruct (sortedb c) eqn:Ec.
    2:{ eexists _, b, w, _. split; [reflexivity|]. apply Hdense. intros _ d' c' Ed. injection Ed as -> ->. congruence. }
    clear Hdense. pose proof (sortedb_strong _ Ec) as Hcs. pose proof (strong_ascending _ Hcs) as Hca.
    assert (Hpre : volume pre = 1).
    { destruct (Hshort pre key edges d c [] eq_refl Ec) as [Hv|(key' & edges' & d' & c' & Hin & Hc' & Hne)]; [exact Hv|]. exfalso. destruct Hinv as (_ & _ & _ & _ & _ & Hs). apply Hne. exact (Hs Es key' edges' d' c' Hin Hc'). }
    assert (Hds : 0 <= dim_size sh d). { unfold dim_size. destruct (d <? 0); [lia|]. destruct (Z_lt_dec d (zlen sh)) as [Hdl|]; [|rewrite znth_out by lia; lia]. destruct (Z_le_dec 0 d); [|rewrite znth_out by lia; lia]. rewrite Forall_forall in Hsh. apply Hsh. apply znth_In. lia. }
    assert (HV : V = (zlen edges - 1) * rest). { destruct Hinv as (_ & HV & _). rewrite Hpre in HV. lia. }
    assert (Hquot : Z.quot V (zlen edges - 1) = rest). { rewrite HV, Z.mul_comm. apply Z.quot_mul. lia. }
    assert (Hcmp : (forall e c c', c <= c' -> (e <=? c) = true -> (e <=? c') = true) /\ (forall e c c', c <= c' -> (e <? c) = true -> (e <? c') = true)) by (split; intros; lia). destruct Hcmp as [Hcmp1 Hcmp2].
    assert (Hbegin : forall l, StronglySorted Z.le l -> exists bs, begin_edge l edges = Ok bs /\ zlen bs = zlen l /\ StronglySorted Z.le bs /\ forall k, 0 <= k < zlen l -> last_below Z.leb edges (znth 0 l k) (znth 0 bs k)).
    { intros l Hl. destruct (edge_scan_ok Z.leb edges Hcmp1 Hn l 0 Hl ltac:(lia) ltac:(lia) (or_introl eq_refl)) as (bs & E1 & E2 & E3 & E4). exists bs. inversion E3; subst. repeat split; try assumption; apply E4; assumption. }
    (* the common part of edges and points *)
    assert (Hcommon : forall bs es, zlen bs = dim_size sh d -> zlen es = dim_size sh d -> ascending bs -> ascending es ->
      (forall k, 0 <= k < dim_size sh d -> 0 <= znth 0 bs k /\ znth 0 bs k + 1 <= znth 0 es k <= zlen edges) ->
      (forall p e r, valid sh p -> In e (events p) -> is_bin (int_inside (key p e)) edges r -> 0 <= r -> znth 0 bs (coord_index d p) <= r < znth 0 es (coord_index d p) - 1) ->
      (forall p e, valid sh p -> In e (events p) -> znth 0 bs (coord_index d p) + 2 <= znth 0 es (coord_index d p)) ->
      exists s' b' w' Q', (if zlen edges - 1 =? 0 then Ub else Ok {| s_index := fun p e => do i <- s_index s p e; update_index i (zlen (sub_edges edges (entry d bs p) (entry d es p)) - 1) (lookup_bin bits (islinspace_int edges) (sub_edges edges (entry d bs p) (entry d es p)) (key p e));
              s_off := fun p => entry d bs p * Z.quot V (zlen edges - 1); s_nb := fun p => (entry d es p - entry d bs p - 1) * Z.quot V (zlen edges - 1); s_scalar := zlen bs =? 1 |}) = Ok s' /\ inv (pre ++ [Bin key edges (Some (d, c))]) rest s' b' w' Q').
    { intros bs es Lb Le Ab Ae Hwin Hcov Hne. destruct (Z.eqb_spec (zlen edges - 1) 0); [lia|]. rewrite Hquot. eexists _, (fun p => entry d bs p), (fun p => entry d es p - entry d bs p - 1), 1. split; [reflexivity|].
      apply (inv_window pre rest s b w Q (Bin key edges (Some (d, c))) (zlen edges - 1) _ _ (fun p e i => update_index i (zlen (sub_edges edges (entry d bs p) (entry d es p)) - 1) (lookup_bin bits (islinspace_int edges) (sub_edges edges (entry d bs p) (entry d es p)) (key p e)))); [exact Hinv|reflexivity|lia| | | | | |].
      - intros _. exact Hpre.
      - intros _. exact Es.
      - intros Hone key' edges' d' c' Ee _. injection Ee as -> -> -> ->. lia.
      - intros p Hp. destruct (entry_ok sh d bs p Hd Lb Hp) as [Eb Bk]. destruct (entry_ok sh d es p Hd Le Hp) as [Ee _]. rewrite Eb, Ee. specialize (Hwin (coord_index d p) ltac:(lia)). repeat split; lia.
      - intros p d' k Hp Hd' Hk. assert (Hp' : valid sh (zupd p d' k)). { apply valid_upd; [exact Hd'|exact Hp|]. destruct Hp as [_ N]. specialize (N d' Hd' ltac:(intros [])). lia. }
        destruct (entry_ok sh d bs p Hd Lb Hp) as [Eb Bk]. destruct (entry_ok sh d es p Hd Le Hp) as [Ee _]. destruct (entry_ok sh d bs (zupd p d' k) Hd Lb Hp') as [Eb' Bk']. destruct (entry_ok sh d es (zupd p d' k) Hd Le Hp') as [Ee' _].
        rewrite Eb, Ee, Eb', Ee'. pose proof (coord_index_upd sh d p d' k Hd' Hd Hp Hk). pose proof (Ab (coord_index d p) (coord_index d (zupd p d' k)) ltac:(lia) ltac:(lia)). pose proof (Ae (coord_index d p) (coord_index d (zupd p d' k)) ltac:(lia) ltac:(lia)). lia.
      - intros p e Hp Hin. destruct (entry_ok sh d bs p Hd Lb Hp) as [Eb Bk]. destruct (entry_ok sh d es p Hd Le Hp) as [Ee _]. rewrite Eb, Ee. specialize (Hwin (coord_index d p) ltac:(lia)). specialize (Hne p e Hp Hin).
        destruct (C19_sorted_int edges (key p e) (ascending_strong _ Has)) as (r & _ & Hr). specialize (Hcov p e r Hp Hin Hr). exists r. pose proof (is_bin_bound _ _ _ Hr) as Br.
        destruct (lookup_bin_ok bits edges (znth 0 bs (coord_index d p)) (znth 0 es (coord_index d p)) (key p e) Has Hfit ltac:(lia) ltac:(lia) ltac:(lia)) as (r' & Er' & Hr').
        pose proof (is_bin_sub (key p e) edges (znth 0 bs (coord_index d p)) (znth 0 es (coord_index d p)) r r' ltac:(lia) Hne ltac:(lia) Hr Hr' Hcov) as Err. rewrite Er'. split; [exact Hr|]. split; [lia|]. split; [reflexivity|]. split; [|intros; lia].
        unfold update_index. cbn [bind]. change (0 =? -1) with false. cbn [andb]. rewrite Err. destruct (Z.eqb_spec r (-1)); [reflexivity|]. destruct (Z.ltb_spec (r - znth 0 bs (coord_index d p)) 0); [lia|]. f_equal. }
    cbn [asize]. destruct (Z.eqb_spec (zlen c) (dim_size sh d + 1)) as [Eh|Eh].
    + (* edges *)
      assert (Hd1 : 1 <= dim_size sh d) by lia. unfold left_edge, right_edge. destruct (Z.ltb_spec (zlen c) 2) as [Hc2|Hc2]; [lia|]. cbn [bind].
      assert (Hl : zlen (removelast c) = dim_size sh d /\ forall k, 0 <= k < dim_size sh d -> znth 0 (removelast c) k = znth 0 c k).
      { rewrite removelast_firstn_len. replace (pred (length c)) with (Z.to_nat (dim_size sh d)) by (unfold zlen in Eh; lia). split; [apply zlen_firstn; lia|]. intros k Hk. apply znth_firstn. lia. }
      assert (Hrr : zlen (tl c) = dim_size sh d /\ forall k, 0 <= k < dim_size sh d -> znth 0 (tl c) k = znth 0 c (k + 1)).
      { destruct c as [|c0 c']; [change (zlen (@nil Z)) with 0 in Hc2; lia|]. cbn [tl]. rewrite zlen_cons in Eh. split; [lia|]. intros k Hk. rewrite znth_S by lia. f_equal. lia. }
      destruct Hl as [Ll Nl]. destruct Hrr as [Lr Nr].
      assert (Hrl : StronglySorted Z.le (removelast c)) by (apply ascending_strong; intros i j Hij Hj; rewrite Ll in Hj; rewrite !Nl by lia; apply Hca; lia).
      destruct (Hbegin (removelast c) Hrl) as (bs & Ebs & Lbs & Sbs & Pbs).
      rewrite Ebs. cbn [bind]. unfold end_edge. assert (Htl : StronglySorted Z.le (tl c)) by (apply ascending_strong; intros i j Hij Hj; rewrite Lr in Hj; rewrite !Nr by lia; apply Hca; lia).
      destruct (edge_scan_ok Z.ltb edges Hcmp2 Hn (tl c) 0 Htl ltac:(lia) ltac:(lia) (or_introl eq_refl)) as (rs & Ers & Lrs & Srs & Prs).
      rewrite Ers. cbn [bind]. rewrite Ll in Lbs, Pbs. rewrite Lr in Lrs, Prs. assert (Ners : forall k, 0 <= k < dim_size sh d -> znth 0 (map (fun b => b + 2) rs) k = znth 0 rs k + 2) by (intros k Hk; rewrite (znth_map _ 0) by lia; reflexivity).
      assert (Hord : forall k, 0 <= k < dim_size sh d -> znth 0 bs k <= znth 0 rs k + 1 /\ (znth 0 c k < znth 0 c (k + 1) -> znth 0 bs k <= znth 0 rs k)).
      { intros k Hk. specialize (Pbs k Hk). specialize (Prs k Hk). rewrite Nl in Pbs by exact Hk. rewrite Nr in Prs by exact Hk. pose proof (Hca k (k + 1) ltac:(lia) ltac:(lia)) as Hk1.
        destruct (window_order edges _ _ _ _ Has Pbs Prs Hk1) as [Hlt Hst]. split; [|exact Hlt]. destruct Hstr as [Hstr|Hstr]; [exact (Hst Hstr)|]. specialize (Hlt (Hstr k (k + 1) ltac:(lia) ltac:(lia))). clear - Hlt. lia. }
      apply Hcommon; try assumption; try (rewrite zlen_map; assumption).
      * apply strong_ascending. exact Sbs.
      * intros i j Hij Hj. rewrite zlen_map in Hj. rewrite !Ners by lia. inversion Srs as [|? ? Srs' _]; subst. pose proof (strong_ascending _ Srs' i j Hij Hj). lia.
      * intros k Hk. rewrite Ners by exact Hk. destruct (Pbs k Hk) as (B1 & _). destruct (Prs k Hk) as (_ & R2 & _). destruct (Hord k Hk). lia.
      * intros p e r Hp Hin Hr Hr0. destruct (entry_ok sh d bs p Hd Lbs Hp) as [_ Bk]. rewrite Lbs in Bk. rewrite Ners by exact Bk. pose proof (Hev p e Hp Hin Ec) as Hx. cbv zeta in Hx. rewrite (proj2 (Z.eqb_eq _ _) Eh) in Hx.
        specialize (Pbs _ Bk). specialize (Prs _ Bk). rewrite Nl in Pbs by exact Bk. rewrite Nr in Prs by exact Bk. exact (window_edges edges _ _ _ _ _ r Has Pbs Prs Hx Hr Hr0).
      * intros p e Hp Hin. destruct (entry_ok sh d bs p Hd Lbs Hp) as [_ Bk]. rewrite Lbs in Bk. rewrite Ners by exact Bk. pose proof (Hev p e Hp Hin Ec) as Hx. cbv zeta in Hx. rewrite (proj2 (Z.eqb_eq _ _) Eh) in Hx.
        destruct (Hord _ Bk) as [_ Ho]. specialize (Ho ltac:(clear - Hx; lia)). clear - Ho. lia.
    + (* points *)
      assert (Lc : zlen c = dim_size sh d) by lia. cbn [bind]. destruct (Hbegin c Hcs) as (bs & Ebs & Lbs & Sbs & Pbs). rewrite Ebs. cbn [bind]. rewrite Lc in Lbs, Pbs. assert (Nes : forall k, 0 <= k < dim_size sh d -> znth 0 (map (fun b => b + 2) bs) k = znth 0 bs k + 2) by (intros k Hk; rewrite (znth_map _ 0) by lia; reflexivity).
      apply Hcommon; try assumption; try (rewrite zlen_map; assumption).
      * apply strong_ascending. exact Sbs.
      * intros i j Hij Hj. rewrite zlen_map in Hj. rewrite !Nes by lia. pose proof (strong_ascending _ Sbs i j Hij Hj). lia.
      * intros k Hk. rewrite Nes by exact Hk. destruct (Pbs k Hk) as (B1 & B2 & _). lia.
      * intros p e r Hp Hin Hr Hr0. destruct (entry_ok sh d bs p Hd Lbs Hp) as [_ Bk]. rewrite Lbs in Bk. rewrite Nes by exact Bk. pose proof (Hev p e Hp Hin Ec) as Hx. cbv zeta in Hx. rewrite (proj2 (Z.eqb_neq _ _) Eh) in Hx.
        specialize (Pbs _ Bk). rewrite <- Hx in Pbs. exact (window_point edges _ _ r Has Pbs Hr Hr0).
      * intros p e Hp Hin. destruct (entry_ok sh d bs p Hd Lbs Hp) as [_ Bk]. rewrite Lbs in Bk. rewrite Nes by exact Bk. apply Z.le_refl.
  - cbn [action_ok asize step] in *. destruct Ha as [Hd ->]. assert (Hn0 : 0 <= znth 0 sh d) by (rewrite Forall_forall in Hsh; apply Hsh; apply znth_In; exact Hd). destruct (s_scalar s && (znth 0 sh d =? V)) eqn:Ex.
    + apply andb_prop in Ex. destruct Ex as [Es Ev]. apply Z.eqb_eq in Ev.
      assert (Hone : (exists p, valid sh p) -> volume pre = 1 /\ rest = 1).
      { intros (p & _ & Hp). specialize (Hp d Hd ltac:(intros [])). destruct Hinv as (_ & HV & _). rewrite <- Ev in HV. assert (Hvr : volume pre * rest = 1) by nia. apply Z.mul_eq_1 in Hvr as Hor. nia. }
      eexists _, (fun p => znth 0 p d), (fun _ => 1), 1. split; [reflexivity|].
      pose proof (inv_window pre rest s b w Q (Existing d (znth 0 sh d)) (znth 0 sh d) (fun p => znth 0 p d) (fun _ => 1) (fun p e i => Ok i) (fun p => znth 0 p d) (fun _ => 1) false Hinv eq_refl Hn0) as Hw. 
      assert (Hext : inv (pre ++ [Existing d (znth 0 sh d)]) rest {| s_index := fun p e => do i <- s_index s p e; Ok i; s_off := fun p => znth 0 p d; s_nb := fun _ => 1; s_scalar := false |} (fun p => znth 0 p d) (fun _ => 1) 1).
      { apply Hw; [|discriminate|discriminate| | |].
        - intros Hex. apply Hone. exact Hex.
        - intros p Hp. destruct (Hone (ex_intro _ p Hp)) as [_ Hr1]. destruct Hp as [_ N]. specialize (N d Hd ltac:(intros [])). rewrite Hr1. lia.
        - intros p d' k Hp Hd' Hk. pose proof (coord_index_upd sh d p d' k Hd' (or_intror Hd) Hp Hk) as Hc. unfold coord_index in Hc. unfold okdim in Hd. destruct (Z.ltb_spec d 0); lia.
        - intros p e Hp Hin. exists (znth 0 p d). destruct Hp as [_ N]. specialize (N d Hd ltac:(intros [])). split; [reflexivity|]. split; [lia|]. split; [reflexivity|]. split; [|lia]. destruct (Z.eqb_spec (znth 0 p d) (-1)); [lia|]. f_equal. lia. }
      destruct Hext as (H1 & H2 & H3 & H4 & H5 & H6). split; [exact H1|]. split; [exact H2|]. split; [exact H3|]. split; [|split; [exact H5|exact H6]]. intros p e Hp Hin. destruct (H4 p e Hp Hin) as (t & i & T1 & T2 & T3). exists t, i. split; [exact T1|]. split; [|exact T3]. cbn [s_index] in T2 |- *. destruct (s_index s p e); cbn [bind] in T2; congruence.
    + eexists _, b, w, _. split; [reflexivity|]. apply (inv_dense pre rest s b w Q (Existing d (znth 0 sh d)) (znth 0 sh d) (fun p _ => Ok (znth 0 p d))); [exact Hinv|reflexivity|exact Hn0|intros Hx; exact Hx|discriminate|].
      intros p e Hp Hin. exists (znth 0 p d). destruct Hp as [_ N]. specialize (N d Hd ltac:(intros [])). split; [reflexivity|]. split; [reflexivity|]. lia.
  - cbn [step asize] in *. exists s, b, w, Q. split; [reflexivity|]. rewrite Z.mul_1_l in Hinv. destruct Hinv as (H1 & H2 & H3 & H4 & H5 & H6). assert (Hv : volume (pre ++ [@Join E]) = volume pre) by (rewrite volume_app; change (volume [@Join E]) with 1; apply Z.mul_1_r).
    unfold inv. rewrite Hv. clear Hv. split; [exact H1|]. split; [exact H2|]. split; [exact H3|]. split; [|split; [exact H5|]].
    + intros p e Hp Hin. destruct (H4 p e Hp Hin) as (t & i & T1 & T2 & T3). exists t, i. split; [|split; [exact T2|exact T3]]. apply target_snoc. exists t, 0. split; [exact T1|]. split; [reflexivity|]. unfold place. cbn [asize]. change (0 =? -1) with false. rewrite orb_false_r. destruct (Z.eqb_spec t (-1)); [assumption|lia].
    + intros Hsc key edges d c Hin. apply in_app_or in Hin. destruct Hin as [Hin|[Hin|[]]]; [|discriminate]. apply (H6 Hsc _ _ _ _ Hin).
Qed.

Lemma steps_ok acts : forall pre s b w Q, inv pre (volume acts) s b w Q -> Forall (action_ok bits sh) acts -> Forall (fun n => 0 <= n) sh -> (forall a p e, In a acts -> valid sh p -> In e (events p) -> event_ok sh a p e) ->
  shortcut_ok sh (pre ++ acts) -> exists s' b' w' Q', steps s acts = Ok s' /\ inv (pre ++ acts) 1 s' b' w' Q'.
Proof.
  induction acts as [|a acts IH]; intros pre s b w Q Hinv Ha Hsh Hev Hshort.
  - exists s, b, w, Q. split; [reflexivity|]. rewrite app_nil_r. exact Hinv.
  - apply Forall_cons_iff in Ha. destruct Ha as [Ha Hacts]. cbn [TargetBins_Model.steps]. rewrite volume_cons in Hinv. replace (pre ++ a :: acts) with ((pre ++ [a]) ++ acts) in * by (rewrite <- app_assoc; reflexivity).
    assert (Hv : 0 <= volume acts).
    { clear - Hacts Hsh. induction acts as [|x acts IH]; [discriminate|]. apply Forall_cons_iff in Hacts. destruct Hacts as [Hx Hacts]. rewrite volume_cons. apply Z.mul_nonneg_nonneg; [|apply IH; exact Hacts].
      destruct x as [? groups|? edges bc|d n|]; cbn [asize action_ok] in *; [apply zlen_nonneg|lia| |lia]. destruct Hx as [Hd ->]. rewrite Forall_forall in Hsh. apply Hsh. apply znth_In. exact Hd. }
    destruct (step_ok pre (volume acts) s b w Q a Hinv Ha Hsh (fun p e Hp Hin => Hev a p e (or_introl eq_refl) Hp Hin) Hv) as (s1 & b1 & w1 & Q1 & E1 & Hinv1).
    { intros pre' key edges d c post Ee Hc. apply (Hshort pre' key edges d c (post ++ acts)); [|exact Hc]. rewrite Ee. rewrite <- app_assoc. reflexivity. }
    rewrite E1. cbn [bind]. apply (IH _ s1 b1 w1 Q1); try assumption. intros a' p e Hin. apply Hev. right. exact Hin.
Qed.
End Build.
