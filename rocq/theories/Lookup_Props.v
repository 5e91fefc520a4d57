(** Properties of the lookup of bins (C19), and linear spacing of doubles (C40). *)
From Coq Require Import Reals Lra Sorted.
From Flocq Require Import Core BinarySingleNaN.
From Verif Require Import Base Float Numeric_Model Numeric_Props Lookup_Model Lookup_Proofs Linspace_Proofs.

(** [r] is the bin of a value: the only [i] whose edges [a], [b] satisfy [inside a b], or -1 if there is none. *)
Definition is_bin {E} (inside : E -> E -> Prop) (edges : list E) (r : Z) : Prop :=
  -1 <= r /\ forall i, 0 <= i -> (r = i <-> exists a b, vget edges i = Ok a /\ vget edges (i + 1) = Ok b /\ inside a b).
Definition int_inside (x a b : Z) : Prop := a <= x < b.
(** the comparisons of doubles; false if a NaN is involved *)
Definition f64_inside (x a b : f64) : Prop := fleb a x = true /\ fltb x b = true.

Lemma sorted_vget {E} (R : E -> E -> Prop) l : StronglySorted R l -> forall i j a b, i < j -> vget l i = Ok a -> vget l j = Ok b -> R a b.
Proof.
  intros Hs i j a b Hij Ha Hb. apply vget_nth in Ha, Hb. destruct Ha as [Hi Ha], Hb as [_ Hb]. 
  assert (Hk : (Z.to_nat i < Z.to_nat j)%nat) by lia. revert Ha Hb Hk. generalize (Z.to_nat i) (Z.to_nat j). clear i j Hij Hi.
  induction Hs as [|e l Hs IH Hall]; intros i j Ha Hb Hk; [destruct i; discriminate|].
  destruct j as [|j]; [lia|]. destruct i as [|i].
  - cbn in Ha, Hb. injection Ha as ->. rewrite Forall_forall in Hall. apply Hall. apply nth_error_In in Hb. exact Hb.
  - apply (IH i j Ha Hb). lia.
Qed.
Lemma vget_inj {E} (l : list E) i a b : vget l i = Ok a -> vget l i = Ok b -> a = b.
Proof. congruence. Qed.

(** ** general lookup *)
Theorem C19_sorted_int edges x : StronglySorted Z.le edges -> exists r, bin_sorted (fun e => x <? e) edges = Ok r /\ is_bin (int_inside x) edges r.
Proof.
  intros Hs. destruct (bin_sorted_ok (fun e => x <? e) edges) as (r & Er & Hr & Hbin).
  - intros i j Hij (e & He & Hlt) Hj. destruct (Z.eq_dec i j) as [<-|Hne]; [exists e; auto|]. pose proof (vget_bound _ _ _ He) as Hi.
    destruct (vget_in edges j ltac:(lia)) as [e' He']. exists e'. split; [exact He'|]. pose proof (sorted_vget _ _ Hs i j e e' ltac:(lia) He He'). lia.
  - exists r. split; [exact Er|]. split; [exact Hr|]. intros i Hi. rewrite (Hbin i Hi). split.
    + intros (_ & (a & Ha & La) & (b & Hb & Lb)). exists a, b. split; [exact Ha|]. split; [exact Hb|]. unfold int_inside. lia.
    + intros (a & b & Ha & Hb & Hab). unfold int_inside in Hab. split; [exact Hi|]. split; [exists a|exists b]; (split; [assumption|lia]).
Qed.
Print Assumptions C19_sorted_int.
Example C19_sorted_int_case : StronglySorted Z.le [1; 3; 3; 7] /\ map (fun x => bin_sorted (fun e => x <? e) [1; 3; 3; 7]) [0; 1; 2; 3; 6; 7] = map (@Ok Z) [-1; 0; 0; 2; 2; -1].
Proof. split; [repeat constructor; lia|reflexivity]. Qed.

Lemma fleb_not_nan x y : fleb x y = true -> is_nan x = false /\ is_nan y = false.
Proof. destruct x as [| | |], y as [| | |]; intros E; try discriminate; split; reflexivity. Qed.

Theorem C19_sorted_f64 (edges : list f64) (x : f64) : StronglySorted (fun a b => fleb a b = true) edges ->
  exists r, bin_sorted (fun e => fltb x e) edges = Ok r /\ is_bin (f64_inside x) edges r.
Proof.
  intros Hs. destruct (is_nan x) eqn:Nx.
  - destruct (bin_sorted_ok (fun e => fltb x e) edges) as (r & Er & Hr & Hbin).
    { intros i j _ (e & _ & Hlt) _. rewrite (proj1 (nan_lt x e Nx)) in Hlt. discriminate. }
    exists r. split; [exact Er|]. split; [exact Hr|]. intros i Hi. rewrite (Hbin i Hi). split.
    + intros (_ & _ & (b & _ & Lb)). rewrite (proj1 (nan_lt x b Nx)) in Lb. discriminate.
    + intros (a & b & _ & _ & _ & Lb). rewrite (proj1 (nan_lt x b Nx)) in Lb. discriminate.
  - destruct (bin_sorted_ok (fun e => fltb x e) edges) as (r & Er & Hr & Hbin).
    + intros i j Hij (e & He & Hlt) Hj. destruct (Z.eq_dec i j) as [<-|Hne]; [exists e; auto|]. pose proof (vget_bound _ _ _ He) as Hi.
      destruct (vget_in edges j ltac:(lia)) as [e' He']. exists e'. split; [exact He'|]. pose proof (sorted_vget _ _ Hs i j e e' ltac:(lia) He He') as Hle.
      cbv beta in Hle. destruct (fleb_not_nan _ _ Hle) as [Ne Ne']. rewrite fltb_key in * by assumption. rewrite fleb_key in Hle by assumption.
      destruct (Rlt_bool_spec (key x) (key e)) as [Hl1|]; [|discriminate]. destruct (Rle_bool_spec (key e) (key e')) as [Hl2|]; [|discriminate].
      apply Rlt_bool_true. exact (Rlt_le_trans _ _ _ Hl1 Hl2).
    + exists r. split; [exact Er|]. split; [exact Hr|]. intros i Hi. rewrite (Hbin i Hi).
      assert (Hnn : forall a b, vget edges i = Ok a -> vget edges (i + 1) = Ok b -> fltb x a = negb (fleb a x)).
      { intros a b Ha Hb. pose proof (sorted_vget _ _ Hs i (i + 1) a b ltac:(lia) Ha Hb) as Hle. cbv beta in Hle. destruct (fleb_not_nan _ _ Hle) as [Na _].
        rewrite fltb_key, fleb_key by assumption. symmetry. apply negb_Rlt_bool. }
      split.
      * intros (_ & (a & Ha & La) & (b & Hb & Lb)). exists a, b. split; [exact Ha|]. split; [exact Hb|]. split; [|exact Lb]. rewrite (Hnn a b Ha Hb) in La. apply negb_false_iff. exact La.
      * intros (a & b & Ha & Hb & Lab & Lb). split; [exact Hi|]. split; [exists a|exists b]; (split; [assumption|]); [|exact Lb]. rewrite (Hnn a b Ha Hb), Lab. reflexivity.
Qed.
Print Assumptions C19_sorted_f64.
Example C19_sorted_f64_case :
  let e := [B754_infinity true; f_make 1 (-1); f_of_Z 3; B754_infinity false] in
  StronglySorted (fun a b => fleb a b = true) e /\
  map (fun x => bin_sorted (fun a => fltb x a) e) [B754_nan; B754_infinity true; f_of_Z 0; f_make 1 (-1); f_of_Z 3; B754_infinity false] = map (@Ok Z) [-1; 0; 0; 1; 2; -1].
Proof. split; [repeat constructor|reflexivity]. Qed.

(** [std::is_sorted] accepts a NaN among the edges; then a value is put into a bin it is not in. *)
Theorem C19_nan_edges_refuted : exists (edges : list f64) (x : f64),
  no_adjacent (fun a b => fltb b a) edges = true /\ exists r, bin_sorted (fun e => fltb x e) edges = Ok r /\ ~ is_bin (f64_inside x) edges r.
Proof.
  exists [f_of_Z 0; B754_nan; f_of_Z 2], (f_of_Z 1). split; [reflexivity|]. exists 1. split; [reflexivity|]. intros [_ Hb].
  destruct (Hb 1 ltac:(lia)) as [Hb' _]. destruct (Hb' eq_refl) as (a & b & Ha & _ & Hin & _). cbn in Ha. injection Ha as <-. discriminate.
Qed.
Print Assumptions C19_nan_edges_refuted.

(** ** linearly spaced edges: integers and time points *)
Lemma islinspace_int_sorted l : islinspace_int l = true -> StronglySorted Z.le l ->
  exists a d n, l = progression a d (S (S n)) /\ 0 < d.
Proof.
  destruct l as [|a [|b l]]; try discriminate. intros E Hs. unfold islinspace_int in E. destruct (Z.leb_spec (last (a :: b :: l) a) a) as [|Hl]; [discriminate|].
  exists a, (b - a), (length l). set (d := b - a) in *.
  assert (Hp : forall (l : list Z) a b, no_adjacent (fun x y => negb (Z.abs (y - x) =? d)) (a :: b :: l) = true -> StronglySorted Z.le (a :: b :: l) ->
    a :: b :: l = progression a d (S (S (length l)))).
  { clearbody d. clear. intros l. induction l as [|c l IH]; intros a b E Hs; cbn [no_adjacent] in E; apply andb_true_iff in E; destruct E as [E1 E2]; apply StronglySorted_inv in Hs; destruct Hs as [Hs Hf]; apply Forall_inv in Hf; rewrite negb_involutive in E1.
    - rewrite !progression_S. cbn [length progression seq map]. f_equal. f_equal. lia.
    - rewrite (IH b c E2 Hs). cbn [length]. rewrite (progression_S a). f_equal. f_equal. lia. }
  split; [exact (Hp l a b E Hs)|]. apply StronglySorted_inv in Hs. destruct Hs as [Hs Hf]. pose proof (Forall_inv Hf) as Hab. cbv beta in Hab.
  destruct (Z.eq_dec d 0) as [Hd|]; [|lia]. exfalso. pose proof (Hp l a b E ltac:(constructor; assumption)) as El. rewrite El, Hd in Hl.
  assert (Hc : forall n, last (progression a 0 (S n)) a = a).
  { clear. intros n. induction n as [|n IH]; [cbn; lia|]. rewrite progression_S. replace (a + 0) with a by lia. rewrite (progression_S a 0 n) in *. exact IH. }
  rewrite Hc in Hl. lia.
Qed.

(** The whole width fits into the 64-bit type; [bits] is the size of the index type. *)
Theorem C19_linspace_int_partial bits edges x : islinspace_int edges = true -> StronglySorted Z.le edges ->
  Z.of_nat (length edges) <= 2 ^ 40 -> Z.of_nat (length edges) < 2 ^ (bits - 1) -> last edges 0 - hd 0 edges < 2 ^ 63 ->
  exists r, get_bin_int bits edges x = Ok r /\ is_bin (int_inside x) edges r.
Proof.
  intros El Hs Hn Hbits Hw. destruct (C19_sorted_int edges x Hs) as (r & Er & Hr). exists r. split; [|exact Hr].
  destruct (islinspace_int_sorted _ El Hs) as (a & d & n & -> & Hd). rewrite length_progression in Hn, Hbits.
  rewrite get_bin_int_ok; [exact Er|lia|exact Hd| |lia].
  assert (Hlast : forall n a d, last (progression a d (S n)) 0 = a + d * Z.of_nat n).
  { clear. intros n. induction n as [|n IH]; intros a d; [cbn; lia|]. rewrite progression_S. pose proof (IH (a + d) d) as E. rewrite (progression_S (a + d)) in *.
    change (last (a :: a + d :: progression (a + d + d) d n) 0) with (last (a + d :: progression (a + d + d) d n) 0). rewrite E. lia. }
  rewrite Hlast in Hw. rewrite progression_S in Hw. cbn [hd] in Hw. lia.
Qed.
Print Assumptions C19_linspace_int_partial.
Example C19_linspace_int_case : let e := [2; 5; 8; 11] in islinspace_int e = true /\ StronglySorted Z.le e /\
  map (get_bin_int 32 e) [1; 2; 4; 5; 10; 11] = map (@Ok Z) [-1; 0; 0; 1; 2; -1].
Proof. split; [reflexivity|]. split; [repeat constructor; lia|reflexivity]. Qed.

(** Without the bound on the width the difference of the outer edges overflows. *)
Theorem C19_linspace_width_refuted : exists edges x, islinspace_int edges = true /\ StronglySorted Z.le edges /\ forallb (in_range 64) edges = true /\ in_range 64 x = true /\
  get_bin_int 64 edges x = Ub.
Proof. exists [- 2 ^ 62 * 1; 0; 2 ^ 62], 0. split; [reflexivity|]. split; [repeat constructor; lia|]. repeat split. Qed.
Print Assumptions C19_linspace_width_refuted.

(** Unsorted edges pass the test of linear spacing; the two lookups disagree. *)
Theorem C19_unsorted_refuted : exists edges x r s, islinspace_int edges = true /\ get_bin_int 64 edges x = Ok r /\ bin_sorted (fun e => x <? e) edges = Ok s /\ r <> s.
Proof. exists [0; 1; 0; 1], 0, 0, 2. repeat split. discriminate. Qed.
Print Assumptions C19_unsorted_refuted.

(** ** linearly spaced edges: doubles *)
Local Open Scope R_scope.
(** [n] bins; the total width is large enough compared to the magnitude of the edges and the square of the number of bins. *)
Definition wide_enough (l : list f64) (n : Z) : Prop :=
  bpow radix2 (-900) <= vals l n - vals l 0 <= bpow radix2 900 /\
  96 * bpow radix2 (-53) * (IZR n * IZR n) * (Rabs (vals l 0) + Rabs (vals l n)) <= vals l n - vals l 0.

(** Accepted edges are within an eighth of a bin of exactly even spacing; in particular they increase. *)
Theorem C40_islinspace_f64_partial (l : list f64) n : length l = S (Z.to_nat n) -> (1 <= n <= 2 ^ 40)%Z -> bounded l -> wide_enough l n ->
  islinspace_f64 l = true ->
  (forall i, (0 <= i <= n)%Z -> Rabs (vals l i - (vals l 0 + IZR i * ((vals l n - vals l 0) / IZR n))) <= (vals l n - vals l 0) / IZR n / 8) /\
  (forall i j, (0 <= i < j)%Z -> (j <= n)%Z -> vals l i < vals l j).
Proof.
  intros Hlen Hn Hb [Hw Ht] Hl. pose proof (islinspace_f64_linear l n Hlen Hn Hb (proj1 Hw) Ht Hl) as Hlin. split; [exact Hlin|].
  apply nearly_linear_mono; [apply Hn| |exact Hlin]. eapply Rlt_le_trans; [apply bpow_gt_0|apply Hw].
Qed.
Print Assumptions C40_islinspace_f64_partial.

Theorem C19_linspace_f64_partial bits (edges : list f64) (x : f64) n : length edges = S (Z.to_nat n) -> (1 <= n <= 2 ^ 40)%Z -> (n + 1 < 2 ^ (bits - 1))%Z ->
  bounded edges -> wide_enough edges n -> islinspace_f64 edges = true ->
  exists r, get_bin_f64 bits edges x = Ok r /\ is_bin (f64_inside x) edges r.
Proof.
  intros Hlen Hn Hbits Hb Hwide Hl. destruct (C40_islinspace_f64_partial edges n Hlen Hn Hb Hwide Hl) as [Hlin Hmono]. destruct Hwide as [Hw _].
  assert (Hfin : forallb (fun e : f64 => is_finite e) edges = true).
  { apply forallb_forall. intros e He. unfold bounded in Hb. rewrite Forall_forall in Hb. apply (Hb e He). }
  rewrite (get_bin_f64_ok bits edges x n Hlen Hn Hbits Hfin Hw Hlin). apply C19_sorted_f64.
  assert (Hs : forall (l : list f64), (forall e, In e l -> is_finite e = true) -> (forall i j a b, (i < j)%nat -> nth_error l i = Some a -> nth_error l j = Some b -> val a < val b) ->
    StronglySorted (fun a b => fleb a b = true) l).
  { clear. intros l. induction l as [|a l IH]; intros Hf Hlt; constructor.
    - apply IH; [intros e He; apply Hf; right; exact He|]. intros i j b c Hij Hb Hc. exact (Hlt (S i) (S j) b c ltac:(clear - Hij; lia) Hb Hc).
    - apply Forall_forall. intros b Hb. apply In_nth_error in Hb as Hk. destruct Hk as [k Hk]. pose proof (Hlt 0%nat (S k) a b ltac:(clear; lia) eq_refl Hk) as Hl.
      unfold fleb. rewrite Bleb_correct; [apply Rle_bool_true; left; exact Hl|apply Hf; left; reflexivity|apply Hf; right; exact Hb]. }
  apply Hs; [intros e He; rewrite forallb_forall in Hfin; apply Hfin; exact He|]. intros i j a b Hij Ha Hb'.
  assert (Hj : (j <= Z.to_nat n)%nat) by (apply Nat.lt_succ_r; rewrite <- Hlen; apply nth_error_Some; rewrite Hb'; discriminate).
  pose proof (Hmono (Z.of_nat i) (Z.of_nat j) ltac:(clear - Hij; lia) ltac:(clear - Hj Hn; lia)) as Hlt.
  rewrite (vals_get _ _ _ (nth_vget _ _ _ Ha)), (vals_get _ _ _ (nth_vget _ _ _ Hb')) in Hlt. exact Hlt.
Qed.
Print Assumptions C19_linspace_f64_partial.

(** At 2^53 sorted edges with five empty bins of width zero pass the test of linear spacing, and a value is put into one of the empty bins. *)
Theorem C19_linspace_f64_refuted : exists (edges : list f64) (x : f64) r s, islinspace_f64 edges = true /\ StronglySorted (fun a b => fleb a b = true) edges /\
  get_bin_f64 64 edges x = Ok r /\ bin_sorted (fun e => fltb x e) edges = Ok s /\ r <> s.
Proof.
  exists (map f_of_Z [2 ^ 53; 2 ^ 53; 2 ^ 53; 2 ^ 53; 2 ^ 53; 2 ^ 53 + 20]%Z), (f_of_Z (2 ^ 53 + 2)), 1%Z, 4%Z.
  split; [vm_compute; reflexivity|]. split; [repeat constructor|]. split; [vm_compute; reflexivity|]. split; [vm_compute; reflexivity|]. discriminate.
Qed.
Print Assumptions C19_linspace_f64_refuted.

(** Edges 0, 1, 2, 3: the hypotheses of the two theorems hold. *)
Example C19_linspace_f64_case : let e := map f_of_Z [0; 1; 2; 3]%Z in
  length e = S (Z.to_nat 3) /\ bounded e /\ wide_enough e 3 /\ islinspace_f64 e = true /\
  map (get_bin_f64 32 e) [B754_nan; f_make (-1) (-1); f_of_Z 0; f_make 3 (-1); f_of_Z 2; f_of_Z 3; B754_infinity false] = map (@Ok Z) [-1; -1; 0; 1; 2; -1; -1]%Z.
Proof.
  cbv zeta.
  destruct (f_of_Z_exact 0) as [V0 F0]; [discriminate|]. destruct (f_of_Z_exact 1) as [V1 F1]; [discriminate|].
  destruct (f_of_Z_exact 2) as [V2 F2]; [discriminate|]. destruct (f_of_Z_exact 3) as [V3 F3]; [discriminate|].
  assert (Hbig : 4 <= bpow radix2 900) by (change 4 with (bpow radix2 2); apply bpow_le; discriminate).
  split; [reflexivity|]. split; [|split; [|split; [reflexivity|reflexivity]]].
  - unfold bounded. cbn [map]. rewrite !Forall_cons_iff, V0, V1, V2, V3. repeat split; try assumption; try (rewrite Rabs_pos_eq; lra). constructor.
  - unfold wide_enough. rewrite (vals_get _ 0 (f_of_Z 0)) by reflexivity. rewrite (vals_get _ 3 (f_of_Z 3)) by reflexivity. rewrite V0, V3, Rabs_R0, (Rabs_pos_eq 3) by lra.
    assert (bpow radix2 (-900) <= 1) by (change 1 with (bpow radix2 0); apply bpow_le; discriminate).
    assert (bpow radix2 (-53) <= / 1000000) by apply u53_small. split; lra.
Qed.
