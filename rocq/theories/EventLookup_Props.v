(** Properties of the lookup of function values (C44). *)
From Coq Require Import Sorted Reals Lra.
From Flocq Require Import Core BinarySingleNaN.
From Verif Require Import Base Float Numeric_Model Lookup_Model NanReduce_Proofs Lookup_Proofs Linspace_Proofs Lookup_Props Map_Model Dims_Model Dims_Spec Dims_Proofs View_Model View_Spec View_Proofs
  Transform_Model Transform_Spec SizedDict_Model SizedDict_Spec Accumulate_Spec Accumulate_Model Accumulate_Proofs Mask_Model Mask_Spec Mask_Proofs Mask_Props
  EventLookup_Model EventLookup_Spec EventLookup_Proofs.
Local Open Scope Z_scope.

(** The rows of the coordinate that there are. *)
Definition row_index {E} (coord : source E) (dim : Dim) (ix : Dim -> Z) : Prop := forall k j, has (dd (s_arr coord)) k j -> k <> dim -> 0 <= ix k < j.
(** In every row, the coordinate does not decrease. *)
Definition rising {E} (le : E -> E -> bool) (coord : source E) (dim : Dim) (m : Z) : Prop :=
  forall ix, row_index coord dim ix -> forall i, 0 <= i -> i + 1 < m -> le (coord_of coord dim ix i) (coord_of coord dim ix (i + 1)) = true.
Lemma rising_rows {E W} (le : E -> E -> bool) (data : source W) coord l dim n m : function_fine data coord l dim n m -> (rising le coord dim m <-> rows_sorted le coord dim m).
Proof. intros HF. destruct (extents_nonneg _ _ _ _ _ _ HF) as [_ Hm]. split; intros Hr ix Hix; apply (sorted_span_row le (s_arr coord) dim m ix Hm); apply Hr; exact Hix. Qed.

(** ** Histograms as functions *)

(** C44. Integers and time points: for edges that do not decrease (of a total width less than 2^63), every element of the
    result is the value of the bin [edge i <= x < edge (i+1)], and the fill value for points in no bin and in masked bins. *)
Theorem C44_map_int_partial {W} (data : source W) coord l dim n x fill : function_fine data coord l dim n (n + 1) -> points_fine x data dim ->
  rising Z.leb coord dim (n + 1) -> n < 2 ^ 40 -> (forall ix, row_index coord dim ix -> coord_of coord dim ix n - coord_of coord dim ix 0 < 2 ^ 63) ->
  exists r, buckets_map Z.ltb Z.leb islinspace_int (get_bin_int 64) true true true data coord l x dim fill = Ok r /\ result_dims (dd r) (dd x) data dim /\
    forall ix, inside (dd r) ix -> value_in_bins (int_inside (dv x ix)) (coord_of coord dim ix) (value_of data l dim fill ix) n fill (dv r ix).
Proof.
  intros HF Hx Hr Hn Hw. destruct (extents_nonneg _ _ _ _ _ _ HF) as [Hn0 Hm0].
  assert (Hsrt : forall edges, sorted_span Z.leb edges = true -> StronglySorted Z.le edges).
  { intros edges Hs. assert (Hs' : StronglySorted (fun a b => (a <=? b) = true) edges) by (apply sorted_strongly; [intros; lia|exact Hs]).
    clear Hs. induction Hs' as [|a e Hs' IH Ha]; [constructor|]. constructor; [exact IH|]. revert Ha. apply Forall_impl. intros b Hb. lia. }
  apply (map_ok Z.ltb Z.leb islinspace_int (get_bin_int 64) int_inside) with (m := n + 1); try assumption; try reflexivity.
  - intros edges y Hs. apply C19_sorted_int, Hsrt, Hs.
  - intros ix Hix Hlin y. pose proof (span_length (s_arr coord) dim (n + 1) ix Hm0) as Hlen.
    apply C19_linspace_int_partial; [exact Hlin| |lia|lia|].
    + apply Hsrt. apply (proj1 (rising_rows _ _ _ _ _ _ _ HF) Hr ix Hix).
    + specialize (Hw ix Hix). unfold coord_of in Hw. unfold span. replace (Z.to_nat (n + 1)) with (S (Z.to_nat n)) by lia.
      rewrite <- (map_map (fun i => i) (fun i => dv (s_arr coord) (put ix dim i))), map_id.
      assert (El : forall (f : Z -> Z) k, last (map f (zseq 0 (S k))) 0 = f (Z.of_nat k)).
      { intros f k. unfold zseq. rewrite map_map. replace (S k) with (k + 1)%nat by lia. rewrite seq_app, map_app. cbn [map seq]. rewrite last_last. f_equal. }
      rewrite El. rewrite Z2Nat.id by lia. exact Hw.
  - left. apply (rising_rows _ _ _ _ _ _ _ HF). exact Hr.
Qed.
Print Assumptions C44_map_int_partial.

(** C44. The same for doubles; a NaN is in no bin. The limits are only needed for rows that pass the test of even spacing. *)
Theorem C44_map_f64_partial {W} (data : source W) (coord : source f64) l dim n (x : darr f64) fill : function_fine data coord l dim n (n + 1) -> points_fine x data dim ->
  rising fleb coord dim (n + 1) ->
  (forall ix, row_index coord dim ix -> let row := span (s_arr coord) dim (n + 1) ix in islinspace_f64 row = true -> 1 <= n <= 2 ^ 40 /\ bounded row /\ wide_enough row n) ->
  exists r, buckets_map fltb fleb islinspace_f64 (get_bin_f64 64) true true true data coord l x dim fill = Ok r /\ result_dims (dd r) (dd x) data dim /\
    forall ix, inside (dd r) ix -> value_in_bins (f64_inside (dv x ix)) (coord_of coord dim ix) (value_of data l dim fill ix) n fill (dv r ix).
Proof.
  intros HF Hx Hr Hlim. destruct (extents_nonneg _ _ _ _ _ _ HF) as [Hn0 Hm0].
  apply (map_ok fltb fleb islinspace_f64 (get_bin_f64 64) f64_inside) with (m := n + 1); try assumption; try reflexivity.
  - intros edges y Hs. apply C19_sorted_f64. apply sorted_strongly; [apply fleb_trans|exact Hs].
  - intros ix Hix Hlin y. destruct (Hlim ix Hix Hlin) as (L1 & L2 & L3). apply (C19_linspace_f64_partial 64 _ y n); try assumption; try lia.
    pose proof (span_length (s_arr coord) dim (n + 1) ix Hm0). lia.
  - left. apply (rising_rows _ _ _ _ _ _ _ HF). exact Hr.
Qed.
Print Assumptions C44_map_f64_partial.

(** C44. Refused: a coordinate that is not bin edges, and edges that are neither evenly spaced nor sorted. *)
Theorem C44_map_errors {E W} (lt le : E -> E -> bool) islin bin (data : source W) coord l dim n m x fill : function_fine data coord l dim n m ->
  (m <> n + 1 -> buckets_map lt le islin bin true true true data coord l x dim fill = Throw BinEdgeError) /\
  (m = n + 1 -> ~ rows_linear islin coord dim m -> ~ rising le coord dim m -> buckets_map lt le islin bin true true true data coord l x dim fill = Throw BinEdgeError).
Proof.
  intros HF. split; [intros Hm; eapply map_not_edges; eassumption|]. intros Hm Hl Hr. eapply map_unsorted; try eassumption.
  intros Hs. apply Hr. apply (rising_rows _ _ _ _ _ _ _ HF). exact Hs.
Qed.
Print Assumptions C44_map_errors.

(** ** The previous point *)

Lemma upper_bound_int edges x : StronglySorted Z.le edges -> exists it, upper_bound (Z.ltb x) edges = Ok it /\ 0 <= it <= Z.of_nat (length edges) /\
  (forall i p, vget edges i = Ok p -> i < it -> p <= x) /\ (forall i p, vget edges i = Ok p -> it <= i -> ~ p <= x).
Proof.
  intros Hs. destruct (upper_bound_ok (Z.ltb x) edges) as (it & Eu & Hit & Hlo & Hhi).
  - intros i j Hij (e & He & Hlt) Hj. destruct (Z.eq_dec i j) as [<-|Hne]; [exists e; auto|]. pose proof (vget_bound _ _ _ He) as Hi.
    destruct (vget_in edges j ltac:(lia)) as [e' He']. exists e'. split; [exact He'|]. pose proof (sorted_vget _ _ Hs i j e e' ltac:(lia) He He'). lia.
  - exists it. split; [exact Eu|]. split; [exact Hit|]. split.
    + intros i p Hp Hlt. pose proof (vget_bound _ _ _ Hp). destruct (Hlo i ltac:(lia)) as (e & He & Hl). rewrite Hp in He. injection He as <-. lia.
    + intros i p Hp Hge. pose proof (vget_bound _ _ _ Hp). destruct (Hhi i ltac:(lia)) as (e & He & Hl). rewrite Hp in He. injection He as <-. lia.
Qed.
Lemma upper_bound_f64 (edges : list f64) (x : f64) : StronglySorted (fun a b => fleb a b = true) edges -> is_nan x = false -> (forall i p, vget edges i = Ok p -> is_nan p = false) ->
  exists it, upper_bound (fltb x) edges = Ok it /\ 0 <= it <= Z.of_nat (length edges) /\
  (forall i p, vget edges i = Ok p -> i < it -> fleb p x = true) /\ (forall i p, vget edges i = Ok p -> it <= i -> ~ fleb p x = true).
Proof.
  intros Hs Nx Ne. destruct (upper_bound_ok (fltb x) edges) as (it & Eu & Hit & Hlo & Hhi).
  - intros i j Hij (e & He & Hlt) Hj. destruct (Z.eq_dec i j) as [<-|Hne]; [exists e; auto|]. pose proof (vget_bound _ _ _ He) as Hi.
    destruct (vget_in edges j ltac:(lia)) as [e' He']. exists e'. split; [exact He'|]. pose proof (sorted_vget _ _ Hs i j e e' ltac:(lia) He He') as Hle. cbv beta in Hle.
    pose proof (Ne _ _ He) as N1. pose proof (Ne _ _ He') as N2. rewrite fltb_key in * by assumption. rewrite fleb_key in Hle by assumption.
    destruct (Rlt_bool_spec (key x) (key e)) as [Hl1|]; [|discriminate]. destruct (Rle_bool_spec (key e) (key e')) as [Hl2|]; [|discriminate].
    apply Rlt_bool_true. exact (Rlt_le_trans _ _ _ Hl1 Hl2).
  - assert (Hneg : forall p, is_nan p = false -> fltb x p = negb (fleb p x)).
    { intros p Np. rewrite fltb_key, fleb_key by assumption. symmetry. apply negb_Rlt_bool. }
    exists it. split; [exact Eu|]. split; [exact Hit|]. split.
    + intros i p Hp Hlt. pose proof (vget_bound _ _ _ Hp). destruct (Hlo i ltac:(lia)) as (e & He & Hl). rewrite Hp in He. injection He as <-.
      rewrite Hneg in Hl by apply (Ne _ _ Hp). apply negb_false_iff. exact Hl.
    + intros i p Hp Hge. pose proof (vget_bound _ _ _ Hp). destruct (Hhi i ltac:(lia)) as (e & He & Hl). rewrite Hp in He. injection He as <-.
      rewrite Hneg in Hl by apply (Ne _ _ Hp). apply negb_true_iff in Hl. congruence.
Qed.

(** C44. Integers and time points: every element of the result is the value at the last point that is not greater, and the
    fill value if there is none or if it is masked. Refused exactly if some row is not sorted. *)
Theorem C44_previous_int {W} (data : source W) coord l dim n x fill : function_fine data coord l dim n n -> points_fine x data dim ->
  (rising Z.leb coord dim n -> exists r, lookup_previous Z.ltb Z.leb true true true data coord l x dim fill = Ok r /\ result_dims (dd r) (dd x) data dim /\
    forall ix, inside (dd r) ix -> value_before (fun p => p <= dv x ix) (coord_of coord dim ix) (value_of data l dim fill ix) n fill (dv r ix)) /\
  (~ rising Z.leb coord dim n -> lookup_previous Z.ltb Z.leb true true true data coord l x dim fill = Throw DataArrayError).
Proof.
  intros HF Hx. split.
  - intros Hr. apply (previous_ok Z.ltb Z.leb data coord l dim n n HF (fun y p => p <= y)); try assumption; [lia|apply (rising_rows _ _ _ _ _ _ _ HF); exact Hr|].
    intros ix Hix Hs. apply upper_bound_int. assert (Hs' : StronglySorted (fun a b => (a <=? b) = true) (span (s_arr coord) dim n ix)) by (apply sorted_strongly; [intros; lia|exact Hs]).
    clear Hs. induction Hs' as [|a e Hs' IH Ha]; [constructor|]. constructor; [exact IH|]. revert Ha. apply Forall_impl. intros b Hb. lia.
  - intros Hr. eapply previous_unsorted; [exact HF|]. intros Hs. apply Hr. apply (rising_rows _ _ _ _ _ _ _ HF). exact Hs.
Qed.
Print Assumptions C44_previous_int.

(** C44. Doubles, for points and coordinates that are not NaN. *)
Theorem C44_previous_f64_partial {W} (data : source W) (coord : source f64) l dim n (x : darr f64) fill : function_fine data coord l dim n n -> points_fine x data dim ->
  (forall ix, is_nan (dv x ix) = false) -> (forall ix, is_nan (dv (s_arr coord) ix) = false) ->
  (rising fleb coord dim n -> exists r, lookup_previous fltb fleb true true true data coord l x dim fill = Ok r /\ result_dims (dd r) (dd x) data dim /\
    forall ix, inside (dd r) ix -> value_before (fun p => fleb p (dv x ix) = true) (coord_of coord dim ix) (value_of data l dim fill ix) n fill (dv r ix)) /\
  (~ rising fleb coord dim n -> lookup_previous fltb fleb true true true data coord l x dim fill = Throw DataArrayError).
Proof.
  intros HF Hx Nx Nc. split.
  - intros Hr. apply (previous_ok fltb fleb data coord l dim n n HF (fun y p => fleb p y = true)); try assumption; [lia|apply (rising_rows _ _ _ _ _ _ _ HF); exact Hr|].
    intros ix Hix Hs. apply upper_bound_f64; [apply sorted_strongly; [apply fleb_trans|exact Hs]|apply Nx|].
    intros i p Hp. destruct (extents_nonneg _ _ _ _ _ _ HF) as [Hn0 _]. apply span_vget_inv in Hp as [_ ->]; [apply Nc|exact Hn0].
  - intros Hr. eapply previous_unsorted; [exact HF|]. intros Hs. apply Hr. apply (rising_rows _ _ _ _ _ _ _ HF). exact Hs.
Qed.
Print Assumptions C44_previous_f64_partial.

(** ** Scaling events *)

(** C44. Every event keeps its coordinate, and its value is multiplied by the value of the bin of the histogram that contains
    it, by zero if there is none or it is masked; time points as coordinate. *)
Theorem C44_scale_int_partial {W} (mul : W -> W -> W) zero events (data : source W) coord l dim n : function_fine data coord l dim n (n + 1) ->
  wf (dd events) -> (forall k j, has (dd (s_arr data)) k j -> k <> dim -> has (dd events) k j) ->
  rising Z.leb coord dim (n + 1) -> n < 2 ^ 40 -> (forall ix, row_index coord dim ix -> coord_of coord dim ix n - coord_of coord dim ix 0 < 2 ^ 63) ->
  exists r, scale_events Z.ltb Z.leb islinspace_int (get_bin_int 64) mul zero true events data coord l dim = Ok r /\ dd r = dd events /\
    forall ix, inside (dd events) ix -> Forall2 (fun e e' => snd e' = snd e /\ exists w, fst e' = mul (fst e) w /\
      value_in_bins (int_inside (snd e)) (coord_of coord dim ix) (value_of data l dim zero ix) n zero w) (dv events ix) (dv r ix).
Proof.
  intros HF He Hed Hr Hn Hw. destruct (extents_nonneg _ _ _ _ _ _ HF) as [Hn0 Hm0].
  assert (Hsrt : forall edges, sorted_span Z.leb edges = true -> StronglySorted Z.le edges).
  { intros edges Hs. assert (Hs' : StronglySorted (fun a b => (a <=? b) = true) edges) by (apply sorted_strongly; [intros; lia|exact Hs]).
    clear Hs. induction Hs' as [|a e Hs' IH Ha]; [constructor|]. constructor; [exact IH|]. revert Ha. apply Forall_impl. intros b Hb. lia. }
  apply (scale_ok Z.ltb Z.leb islinspace_int (get_bin_int 64) int_inside) with (m := n + 1); try assumption; try reflexivity.
  - intros edges y Hs. apply C19_sorted_int, Hsrt, Hs.
  - intros ix Hix Hlin y. pose proof (span_length (s_arr coord) dim (n + 1) ix Hm0) as Hlen.
    apply C19_linspace_int_partial; [exact Hlin| |lia|lia|].
    + apply Hsrt. apply (proj1 (rising_rows _ _ _ _ _ _ _ HF) Hr ix Hix).
    + specialize (Hw ix Hix). unfold coord_of in Hw. unfold span. replace (Z.to_nat (n + 1)) with (S (Z.to_nat n)) by lia.
      assert (El : forall (f : Z -> Z) k, last (map f (zseq 0 (S k))) 0 = f (Z.of_nat k)).
      { intros f k. unfold zseq. rewrite map_map. replace (S k) with (k + 1)%nat by lia. rewrite seq_app, map_app. cbn [map seq]. rewrite last_last. f_equal. }
      rewrite El. rewrite Z2Nat.id by lia. exact Hw.
  - left. apply (rising_rows _ _ _ _ _ _ _ HF). exact Hr.
Qed.
Print Assumptions C44_scale_int_partial.
Theorem C44_scale_f64_partial {W} (mul : W -> W -> W) zero events (data : source W) (coord : source f64) l dim n : function_fine data coord l dim n (n + 1) ->
  wf (dd events) -> (forall k j, has (dd (s_arr data)) k j -> k <> dim -> has (dd events) k j) -> rising fleb coord dim (n + 1) ->
  (forall ix, row_index coord dim ix -> let row := span (s_arr coord) dim (n + 1) ix in islinspace_f64 row = true -> 1 <= n <= 2 ^ 40 /\ bounded row /\ wide_enough row n) ->
  exists r, scale_events fltb fleb islinspace_f64 (get_bin_f64 64) mul zero true events data coord l dim = Ok r /\ dd r = dd events /\
    forall ix, inside (dd events) ix -> Forall2 (fun e e' => snd e' = snd e /\ exists w, fst e' = mul (fst e) w /\
      value_in_bins (f64_inside (snd e)) (coord_of coord dim ix) (value_of data l dim zero ix) n zero w) (dv events ix) (dv r ix).
Proof.
  intros HF He Hed Hr Hlim. destruct (extents_nonneg _ _ _ _ _ _ HF) as [Hn0 Hm0].
  apply (scale_ok fltb fleb islinspace_f64 (get_bin_f64 64) f64_inside) with (m := n + 1); try assumption; try reflexivity.
  - intros edges y Hs. apply C19_sorted_f64. apply sorted_strongly; [apply fleb_trans|exact Hs].
  - intros ix Hix Hlin y. destruct (Hlim ix Hix Hlin) as (L1 & L2 & L3). apply (C19_linspace_f64_partial 64 _ y n); try assumption; try lia.
    pose proof (span_length (s_arr coord) dim (n + 1) ix Hm0). lia.
  - left. apply (rising_rows _ _ _ _ _ _ _ HF). exact Hr.
Qed.
Print Assumptions C44_scale_f64_partial.

(** ** Where the claim fails *)
Definition row {A} (dflt : A) (d : Dim) (v : list A) : source A := mksource (mkd (mkmap [d] [zlen v]) (fun ix => nth (Z.to_nat (ix d)) v dflt)) None.
Definition scalar {A} (v : A) : darr A := mkd mempty (fun _ => v).
Definition origin : Dim -> Z := fun _ => 0.
Lemma row_wf {A} (dflt : A) d v : d <> InvalidDim -> well_formed (s_arr (row dflt d v)).
Proof.
  intros Hd. split.
  - apply (mk_wf [(d, zlen v)]). unfold lwf. split; [repeat constructor; cbn; tauto|]. split; [repeat constructor; cbn; unfold zlen; lia|cbn; intuition congruence].
  - intros jx jx' Hj. cbn [row s_arr dv dd labels m_keys] in *. rewrite Hj by (left; reflexivity). reflexivity.
Qed.
Lemma row_fine {E W} (dW : W) (dE : E) (v : list W) (c : list E) : function_fine (row dW dim_x v) (row dE dim_x c) [] dim_x (zlen v) (zlen c).
Proof.
  split.
  - apply row_wf. discriminate.
  - apply row_wf. discriminate.
  - left. reflexivity.
  - left. reflexivity.
  - intros k j [Ek|[]] Hne. injection Ek as <- <-. contradiction.
  - split; reflexivity.
  - split; [intros k b []|intros k b []].
  - intros k b [].
Qed.
Lemma scalar_fine {E W} (y : E) (data : source W) dim : points_fine (scalar y) data dim.
Proof. split; [split; [apply wf_empty|reflexivity]|]. intros k i j _ []. Qed.

(** Edges that are not sorted pass the test of even spacing and are not refused; the value of only one of the bins that contain
    the point is returned. *)
Theorem C44_unsorted_refuted : exists (data : source Z) (coord : source Z) x r, function_fine data coord [] dim_x 3 (3 + 1) /\ points_fine x data dim_x /\ ~ rising Z.leb coord dim_x (3 + 1) /\
  buckets_map Z.ltb Z.leb islinspace_int (get_bin_int 64) true true true data coord [] x dim_x (-1) = Ok r /\
  ~ value_in_bins (int_inside (dv x origin)) (coord_of coord dim_x origin) (value_of data [] dim_x (-1) origin) 3 (-1) (dv r origin).
Proof.
  exists (row 0 dim_x [10; 20; 30]), (row 0 dim_x [0; 1; 0; 1]), (scalar 0). eexists. split; [apply (row_fine 0 0 [10; 20; 30] [0; 1; 0; 1])|]. split; [apply scalar_fine|]. split; [|split].
  - intros Hr. specialize (Hr origin). assert (Hi : row_index (row 0 dim_x [0; 1; 0; 1]) dim_x origin) by (intros k j [Ek|[]] Hne; injection Ek as <- <-; contradiction).
    specialize (Hr Hi 1 ltac:(lia) ltac:(lia)). discriminate Hr.
  - vm_compute. reflexivity.
  - intros [Hb _]. specialize (Hb 2 ltac:(lia)). cbv beta in Hb. discriminate Hb. split; vm_compute; [discriminate|reflexivity].
Qed.
Print Assumptions C44_unsorted_refuted.

(** A NaN gets the value of the last point, not the fill value. *)
Theorem C44_previous_nan_refuted : exists (data : source Z) (coord : source f64) (x : darr f64) r, function_fine data coord [] dim_x 2 2 /\ points_fine x data dim_x /\ rising fleb coord dim_x 2 /\
  lookup_previous fltb fleb true true true data coord [] x dim_x (-1) = Ok r /\ dv r origin = 20 /\
  ~ value_before (fun p => fleb p (dv x origin) = true) (coord_of coord dim_x origin) (value_of data [] dim_x (-1) origin) 2 (-1) (dv r origin).
Proof.
  exists (row 0 dim_x [10; 20]), (row f_zero dim_x [f_zero; inf false]), (scalar B754_nan). eexists. split; [apply (row_fine 0 f_zero [10; 20] [f_zero; inf false])|]. split; [apply scalar_fine|]. split; [|split; [|split]].
  - intros ix _ i Hi Hi'. assert (i = 0) as -> by lia. unfold coord_of. cbn [row s_arr dv]. rewrite !put_at. reflexivity.
  - vm_compute. reflexivity.
  - reflexivity.
  - intros [_ Hb]. assert (E0 : 20 = -1); [|discriminate]. apply Hb. intros i _ Hi. cbn [scalar dv] in Hi. rewrite (proj2 (nan_lt B754_nan _ eq_refl)) in Hi. discriminate.
Qed.
Print Assumptions C44_previous_nan_refuted.

(** [lookup_previous] does not check that the coordinate is not bin edges: a point that is not below the last edge reads behind
    the end of the data. *)
Theorem C44_previous_edges_refuted : exists (data coord : source Z) x, function_fine data coord [] dim_x 2 3 /\ points_fine x data dim_x /\ rising Z.leb coord dim_x 3 /\
  lookup_previous Z.ltb Z.leb true true true data coord [] x dim_x (-1) = Ub.
Proof.
  exists (row 0 dim_x [10; 20]), (row 0 dim_x [0; 1; 2]), (scalar 2). split; [apply (row_fine 0 0 [10; 20] [0; 1; 2])|]. split; [apply scalar_fine|]. split.
  - intros ix _ i Hi Hi'. unfold coord_of. cbn [row s_arr dv]. rewrite !put_at. assert (Hc : i = 0 \/ i = 1) by lia. destruct Hc as [-> | ->]; reflexivity.
  - vm_compute. reflexivity.
Qed.
Print Assumptions C44_previous_edges_refuted.

(** A mask with the dimensions in a different order than the data makes [masked_data] transpose the data, which are then
    refused as not contiguous. *)
Definition table : source Z := mksource (mkd (mkmap [dim_y; dim_x] [2; 3]) (fun ix => 100 * ix dim_y + 10 * ix dim_x)) None.
Definition flipped : mask := bmask (mkd (mkmap [dim_x; dim_y] [3; 2]) (fun ix => ix dim_x =? ix dim_y)).
Theorem C44_mask_order_refuted : exists (data coord : source Z) l x, well_formed (s_arr data) /\ stride_of data dim_x = 1 /\ rising Z.leb coord dim_x 4 /\
  (forall k b, In (k, b) l -> well_formed (k_arr b)) /\ applicable l dim_x (s_arr data) /\
  buckets_map Z.ltb Z.leb islinspace_int (get_bin_int 64) true true true data coord l x dim_x (-1) = Throw DimensionError /\
  exists r, buckets_map Z.ltb Z.leb islinspace_int (get_bin_int 64) true true true data coord [] x dim_x (-1) = Ok r.
Proof.
  exists table, (row 0 dim_x [0; 10; 20; 40]), [(mask_m, flipped)], (scalar 15). split; [|split; [reflexivity|split; [|split; [|split; [|split]]]]].
  - split; [apply (mk_wf [(dim_y, 2); (dim_x, 3)]); repeat constructor; cbn; intuition discriminate|]. intros jx jx' Hj. cbn [table s_arr dv dd labels m_keys] in *.
    rewrite (Hj dim_x), (Hj dim_y) by (cbn; tauto). reflexivity.
  - intros ix _ i Hi Hi'. unfold coord_of. cbn [row s_arr dv]. rewrite !put_at. assert (Hc : i = 0 \/ i = 1 \/ i = 2) by lia. destruct Hc as [-> | [-> | ->]]; reflexivity.
  - intros k b [Ek|[]]. injection Ek as <- <-. split; [apply (mk_wf [(dim_x, 3); (dim_y, 2)]); repeat constructor; cbn; intuition discriminate|]. intros jx jx' Hj. cbn [flipped bmask k_arr dv dd labels m_keys] in *.
    rewrite (Hj dim_x), (Hj dim_y) by (cbn; tauto). reflexivity.
  - intros k b [Ek|[]] _. injection Ek as <- <-. split; [split; reflexivity|]. intros d j Hh. cbn in Hh |- *. unfold has, pairs in *. cbn in *. tauto.
  - vm_compute. reflexivity.
  - eexists. vm_compute. reflexivity.
Qed.
Print Assumptions C44_mask_order_refuted.

(** Outside of the histogram, infinite events become NaN, not zero. *)
Theorem C44_scale_infinity_refuted : exists (events : darr (list (f64 * Z))) (data : source f64) (coord : source Z) r, function_fine data coord [] dim_x 1 2 /\ rising Z.leb coord dim_x 2 /\
  dv events origin = [(inf false, 7)] /\ coord_of coord dim_x origin 1 < 7 /\
  scale_events Z.ltb Z.leb islinspace_int (get_bin_int 64) fmul f_zero true events data coord [] dim_x = Ok r /\ dv r origin = [(B754_nan, 7)].
Proof.
  exists (scalar [(inf false, 7)]), (row f_zero dim_x [f_zero]), (row 0 dim_x [0; 1]). eexists. split; [apply (row_fine f_zero 0 [f_zero] [0; 1])|]. split; [|split; [reflexivity|split; [reflexivity|split]]].
  - intros ix _ i Hi Hi'. assert (i = 0) as -> by lia. unfold coord_of. cbn [row s_arr dv]. rewrite !put_at. reflexivity.
  - vm_compute. reflexivity.
  - vm_compute. reflexivity.
Qed.
Print Assumptions C44_scale_infinity_refuted.

(** ** Concrete cases *)

(** A two-dimensional function with a mask; its bins are [0,10), [10,20) and [20,40). *)
Definition col_mask : mask := bmask (line 3 dim_x [false; false; true]).
Lemma table_fine : function_fine table (row 0 dim_x [0; 10; 20; 40]) [(mask_m, col_mask)] dim_x 3 (3 + 1).
Proof.
  split.
  - split; [apply (mk_wf [(dim_y, 2); (dim_x, 3)]); repeat constructor; cbn; intuition discriminate|]. intros jx jx' Hj. cbn [table s_arr dv dd labels m_keys] in *.
    rewrite (Hj dim_x), (Hj dim_y) by (cbn; tauto). reflexivity.
  - apply row_wf. discriminate.
  - right. left. reflexivity.
  - left. reflexivity.
  - intros k j [Ek|[]] Hne. injection Ek as <- <-. contradiction.
  - split; reflexivity.
  - split.
    + intros k b [Ek|[]]. injection Ek as <- <-. split; [apply (mk_wf [(dim_x, 3)]); repeat constructor; cbn; intuition discriminate|].
      intros jx jx' Hj. cbn [col_mask bmask k_arr line dv dd labels m_keys] in *. rewrite Hj by (left; reflexivity). reflexivity.
    + intros k b [Ek|[]] _. injection Ek as <- <-. split; [split; reflexivity|]. intros d j Hh. cbn in Hh |- *. unfold has, pairs in *. cbn in *. tauto.
  - intros k b [Ek|[]] _. injection Ek as <- <-. split; [exists []; reflexivity|exists [dim_y]; reflexivity].
Qed.
Example C44_map_case : rising Z.leb (row 0 dim_x [0; 10; 20; 40]) dim_x (3 + 1) /\
  map (fun y => match buckets_map Z.ltb Z.leb islinspace_int (get_bin_int 64) true true true table (row 0 dim_x [0; 10; 20; 40]) [(mask_m, col_mask)] (scalar y) dim_x (-1) with
                | Ok r => map (fun i => dv r (fun _ => i)) [0; 1] | _ => [] end) [-5; 0; 9; 10; 19; 20; 39; 40]
  = [[-1; -1]; [0; 100]; [0; 100]; [10; 110]; [10; 110]; [-1; -1]; [-1; -1]; [-1; -1]].
Proof.
  split; [|vm_compute; reflexivity]. intros ix _ i Hi Hi'. unfold coord_of. cbn [row s_arr dv]. rewrite !put_at. assert (Hc : i = 0 \/ i = 1 \/ i = 2) by lia. destruct Hc as [-> | [-> | ->]]; reflexivity.
Qed.
(** evenly spaced edges *)
Example C44_map_linear_case :
  map (fun y => match buckets_map Z.ltb Z.leb islinspace_int (get_bin_int 64) true true true (row 0 dim_x [1; 2; 3]) (row 0 dim_x [0; 10; 20; 30]) [] (scalar y) dim_x (-1) with
                | Ok r => dv r origin | _ => 0 end) [-5; 0; 9; 10; 19; 20; 29; 30] = [-1; 1; 1; 2; 2; 3; 3; -1] /\ islinspace_int [0; 10; 20; 30] = true.
Proof. split; vm_compute; reflexivity. Qed.
Example C44_previous_case :
  map (fun y => match lookup_previous Z.ltb Z.leb true true true (row 0 dim_x [1; 2; 3]) (row 0 dim_x [0; 10; 10]) [] (scalar y) dim_x (-1) with
                | Ok r => dv r origin | _ => 0 end) [-5; 0; 9; 10; 11] = [-1; 1; 1; 3; 3] /\
  lookup_previous Z.ltb Z.leb true true true (row 0 dim_x [1; 2; 3]) (row 0 dim_x [0; 10; 9]) [] (scalar 1) dim_x (-1) = Throw DataArrayError.
Proof. split; vm_compute; reflexivity. Qed.
(** events of two bins *)
Example C44_scale_case :
  match scale_events Z.ltb Z.leb islinspace_int (get_bin_int 64) Z.mul 0 true (mkd (mkmap [dim_y] [2]) (fun ix => if ix dim_y =? 0 then [(1, 0); (2, 19); (3, 25)] else [(4, 12); (5, 50)]))
      table (row 0 dim_x [0; 10; 20; 40]) [(mask_m, col_mask)] dim_x with
  | Ok r => map (fun i => dv r (fun _ => i)) [0; 1] | _ => [] end = [[(0, 0); (20, 19); (0, 25)]; [(440, 12); (0, 50)]].
Proof. vm_compute. reflexivity. Qed.
Definition uneven : list f64 := map f_of_Z [0; 1; 10].
Example C44_map_f64_case : rising fleb (row f_zero dim_x uneven) dim_x (2 + 1) /\ islinspace_f64 uneven = false /\
  map (fun y => match buckets_map fltb fleb islinspace_f64 (get_bin_f64 64) true true true (row 0 dim_x [1; 2]) (row f_zero dim_x uneven) [] (scalar y) dim_x (-1) with
                | Ok r => dv r origin | _ => 0 end) [B754_nan; f_of_Z (-1); f_of_Z 0; f_make 1 (-1); f_of_Z 1; f_of_Z 9; f_of_Z 10; inf false] = [-1; -1; 1; 1; 2; 2; -1; -1] /\
  map (fun y => match lookup_previous fltb fleb true true true (row 0 dim_x [1; 2; 3]) (row f_zero dim_x uneven) [] (scalar y) dim_x (-1) with
                | Ok r => dv r origin | _ => 0 end) [f_of_Z (-1); f_of_Z 0; f_make 1 (-1); f_of_Z 1; f_of_Z 9; f_of_Z 10; inf false] = [-1; 1; 1; 2; 2; 3; 3].
Proof.
  split; [|split; [vm_compute; reflexivity|split; vm_compute; reflexivity]].
  intros ix _ i Hi Hi'. unfold coord_of. cbn [row s_arr dv]. rewrite !put_at. assert (Hc : i = 0 \/ i = 1) by lia. destruct Hc as [-> | ->]; vm_compute; reflexivity.
Qed.
