(** Proofs for the lookup of bins. *)
From Coq Require Import Reals Lra Sorted SpecFloat.
From Flocq Require Import Core BinarySingleNaN Relative.
From Verif Require Import Base Float Numeric_Model Lookup_Model Numeric_Props.

Lemma vget_in {E} (edges : list E) i : 0 <= i < Z.of_nat (length edges) -> exists e, vget edges i = Ok e.
Proof.
  intros Hi. unfold vget. replace (i <? 0) with false by lia. destruct (nth_error edges (Z.to_nat i)) eqn:En; [eauto|].
  apply nth_error_None in En. lia.
Qed.
Lemma vget_bound {E} (edges : list E) i e : vget edges i = Ok e -> 0 <= i < Z.of_nat (length edges).
Proof.
  unfold vget. destruct (Z.ltb_spec i 0); [discriminate|]. destruct (nth_error edges (Z.to_nat i)) eqn:En; [|discriminate]. intros _.
  assert (Z.to_nat i < length edges)%nat by (apply nth_error_Some; congruence). lia.
Qed.

(** ** bisection *)
Section Sorted.
Context {E : Type} (lt : E -> bool) (edges : list E).
Let n := Z.of_nat (length edges).
Definition above (i : Z) : Prop := exists e, vget edges i = Ok e /\ lt e = true.
Definition below (i : Z) : Prop := exists e, vget edges i = Ok e /\ lt e = false.
Hypothesis mono : forall i j, i <= j -> above i -> j < n -> above j.

Lemma above_not_below i : above i -> ~ below i.
Proof. intros (e & E1 & L1) (e' & E2 & L2). congruence. Qed.
Lemma above_or_below i : 0 <= i < n -> above i \/ below i.
Proof. intros Hi. destruct (vget_in edges i Hi) as [e He]. destruct (lt e) eqn:L; [left|right]; exists e; auto. Qed.

Lemma upper_loop fuel : forall first len, 0 <= len < Z.of_nat fuel -> 0 <= first -> first + len <= n ->
  (forall i, 0 <= i < first -> below i) -> (forall i, first + len <= i < n -> above i) ->
  exists it, upper_bound_loop lt edges fuel first len = Ok it /\ 0 <= it <= n /\ (forall i, 0 <= i < it -> below i) /\ (forall i, it <= i < n -> above i).
Proof.
  induction fuel as [|fuel IH]; intros first len Hf H0 Hn Hb Ha; [lia|]. cbn [upper_bound_loop].
  destruct (Z.leb_spec len 0).
  - exists first. split; [reflexivity|]. split; [lia|]. split; [assumption|]. intros i Hi. apply Ha. lia.
  - rewrite Z.quot_div_nonneg by lia. set (half := len / 2). assert (Hh : 0 <= half < len) by (unfold half; split; [apply Z.div_pos; lia|apply Z.div_lt; lia]).
    destruct (vget_in edges (first + half) ltac:(lia)) as [e He]. rewrite He. cbn [bind]. destruct (lt e) eqn:L.
    + apply IH; try assumption; try lia. intros i Hi. apply (mono (first + half)); [lia| |lia]. exists e. auto.
    + apply IH; try lia.
      * intros i Hi. destruct (Z.lt_ge_cases i first); [apply Hb; lia|]. destruct (above_or_below i ltac:(lia)) as [Hab|Hbl]; [|assumption].
        exfalso. apply (above_not_below (first + half)); [|exists e; auto]. apply (mono i); [lia|assumption|lia].
      * intros i Hi. apply Ha. lia.
Qed.
Lemma upper_bound_ok : exists it, upper_bound lt edges = Ok it /\ 0 <= it <= n /\ (forall i, 0 <= i < it -> below i) /\ (forall i, it <= i < n -> above i).
Proof. apply upper_loop; unfold n; try lia; intros; unfold n in *; lia. Qed.

(** the bin of the value: the value is not below its left edge and below its right edge *)
Definition in_bin (i : Z) : Prop := 0 <= i /\ below i /\ above (i + 1).
Lemma in_bin_unique i j : in_bin i -> in_bin j -> i = j.
Proof.
  intros (Hi & Bi & Ai) (Hj & Bj & Aj). destruct (Z.lt_trichotomy i j) as [Hlt|[?|Hgt]]; [|assumption|].
  - exfalso. apply (above_not_below j); [|assumption]. destruct Bj as (e & He & _). apply (vget_bound edges) in He. apply (mono (i + 1)); [lia|assumption|lia].
  - exfalso. apply (above_not_below i); [|assumption]. destruct Bi as (e & He & _). apply (vget_bound edges) in He. apply (mono (j + 1)); [lia|assumption|lia].
Qed.

Lemma bin_sorted_ok : exists r, bin_sorted lt edges = Ok r /\ -1 <= r /\ (forall i, 0 <= i -> (r = i <-> in_bin i)).
Proof.
  destruct upper_bound_ok as (it & E1 & Hit & Hb & Ha). unfold bin_sorted. rewrite E1. cbn [bind]. fold n.
  destruct ((it =? 0) || (it =? n)) eqn:Eb.
  - exists (-1). split; [reflexivity|]. split; [lia|]. intros i Hi. split; [lia|]. intros (_ & Bi & Ai). exfalso.
    pose proof Ai as (e & He & _). apply (vget_bound edges) in He. apply orb_prop in Eb as [Eb|Eb].
    + apply (above_not_below i); [apply Ha; lia|assumption].
    + apply (above_not_below (i + 1)); [assumption|apply Hb; lia].
  - exists (it - 1). split; [reflexivity|]. split; [lia|]. intros i Hi.
    assert (Hin : in_bin (it - 1)).
    { split; [lia|]. split; [apply Hb; lia|]. replace (it - 1 + 1) with it by lia. apply Ha. lia. }
    split; [intros <-; exact Hin|]. intros Hi'. apply in_bin_unique; assumption.
Qed.

(** ** [get_bin] with an estimate that is at most one bin off *)
Variable ge : E -> bool.
Hypothesis compl : forall e, In e edges -> ge e = negb (lt e).
Lemma get_bin_ok est nan : 1 < n -> (nan = true -> forall i, ~ in_bin i) ->
  (nan = false -> forall i, in_bin i -> exists b, est = Ok b /\ i - 1 <= Z.max 0 (Z.min b (n - 2)) <= i + 1) ->
  get_bin lt ge nan est edges = bin_sorted lt edges.
Proof.
  intros Hn Hnan Hest. destruct bin_sorted_ok as (r & Er & Hr & Hbin). rewrite Er. unfold get_bin. fold n.
  assert (Hge : forall i e, vget edges i = Ok e -> ge e = negb (lt e)).
  { intros i e He. apply compl. unfold vget in He. destruct (i <? 0); [discriminate|]. destruct (nth_error edges (Z.to_nat i)) eqn:En; [|discriminate].
    injection He as <-. apply nth_error_In in En. assumption. }
  destruct (vget_in edges 0 ltac:(lia)) as [front Ef]. destruct (vget_in edges (n - 1) ltac:(lia)) as [back Eb]. rewrite Ef, Eb. cbn [bind].
  rewrite (Hge _ _ Eb).
  assert (Hnone : (forall i, ~ in_bin i) -> Ok (-1) = Ok r).
  { intros Hno. f_equal. destruct (Z.lt_ge_cases r 0); [lia|]. exfalso. apply (Hno r). apply Hbin; [assumption|reflexivity]. }
  destruct (lt front || negb (lt back)) eqn:Eout.
  - apply Hnone. intros i (Hi & Bi & Ai). destruct (lt front) eqn:Lf.
    + apply (above_not_below i); [|assumption]. pose proof Bi as (e & He & _). apply (vget_bound edges) in He. apply (mono 0); [lia|exists front; auto|lia].
    + destruct (lt back) eqn:Lb; [discriminate|]. pose proof Ai as (e & He & _). apply (vget_bound edges) in He.
      apply (above_not_below (n - 1)); [apply (mono (i + 1)); [lia|assumption|lia]|exists back; auto].
  - destruct nan eqn:En; [apply Hnone, Hnan; reflexivity|].
    assert (Hin : in_bin r).
    { apply Hbin; [|reflexivity]. destruct (Z.lt_ge_cases r 0) as [Hneg|]; [|assumption]. exfalso. destruct upper_bound_ok as (it & E1 & Hit & Hb & Ha).
      unfold bin_sorted in Er. rewrite E1 in Er. cbn [bind] in Er. fold n in Er. destruct ((it =? 0) || (it =? n)) eqn:Ei.
      - apply orb_prop in Ei as [Ei|Ei].
        + destruct (Ha 0 ltac:(lia)) as (e & He & Le). rewrite Ef in He. injection He as <-. rewrite Le in Eout. discriminate.
        + destruct (Hb (n - 1) ltac:(lia)) as (e & He & Le). rewrite Eb in He. injection He as <-. rewrite Le in Eout. destruct (lt front); discriminate.
      - injection Er as <-. lia. }
    destruct (Hest eq_refl r Hin) as (b & -> & Hb). cbn [bind]. replace (n - 1 - 1) with (n - 2) by lia.
    set (bin := Z.max 0 (Z.min b (n - 2))) in *. destruct Hin as (Hr0 & Br & Ar).
    pose proof Ar as (er' & Her' & _). apply (vget_bound edges) in Her'.
    assert (Hb2 : 0 <= bin <= n - 2) by lia.
    destruct (vget_in edges bin ltac:(lia)) as [e He]. rewrite He. cbn [bind].
    destruct (vget_in edges (bin + 1) ltac:(lia)) as [e' He']. rewrite He'. cbn [bind]. rewrite (Hge _ _ He').
    destruct (lt e) eqn:Le.
    + f_equal. destruct (Z.le_gt_cases bin r) as [Hle|]; [|lia]. exfalso. apply (above_not_below r); [|assumption]. apply (mono bin); [assumption|exists e; auto|lia].
    + destruct (lt e') eqn:Le'; cbn [negb].
      * f_equal. symmetry. apply Hbin; [lia|]. split; [lia|]. split; [exists e|exists e']; auto.
      * f_equal. destruct (Z.le_gt_cases r bin) as [Hle|]; [|lia]. exfalso. apply (above_not_below (bin + 1)); [apply (mono (r + 1)); [lia|assumption|lia]|exists e'; auto].
Qed.
End Sorted.

(** ** the estimate in floating point *)
Local Open Scope R_scope.
Notation u53 := (bpow radix2 (-53)).
Lemma half_u : / 2 * bpow radix2 (-53 + 1) = u53.
Proof. change (-53 + 1)%Z with (1 + -53)%Z. rewrite bpow_plus. change (bpow radix2 1) with 2. field. Qed.
Lemma rnd_rel x : bpow radix2 (-1000) <= Rabs x -> exists e, Rabs e <= u53 /\ rnd x = x * (1 + e).
Proof.
  intros Hx. destruct (relative_error_N_FLT_ex radix2 (-1074) 53 ltac:(reflexivity) (fun z => negb (Z.even z)) x) as (e & He & E).
  - eapply Rle_trans; [|exact Hx]. apply bpow_le. lia.
  - exists e. split; [|exact E]. rewrite <- half_u. exact He.
Qed.
Lemma rnd_abs x : exists e h, Rabs e <= u53 /\ Rabs h <= bpow radix2 (-1074) /\ rnd x = x * (1 + e) + h.
Proof.
  destruct (error_N_FLT radix2 (-1074) 53 ltac:(reflexivity) (fun z => negb (Z.even z)) x) as (e & h & He & Hh & _ & E).
  exists e, h. split; [rewrite <- half_u; exact He|]. split; [|exact E]. pose proof (bpow_gt_0 radix2 (-1074)). lra.
Qed.
Lemma u53_small : 0 < u53 <= / 1000000.
Proof.
  split; [apply bpow_gt_0|]. apply Rle_trans with (bpow radix2 (-20)); [apply bpow_le; lia|]. change (bpow radix2 (-20)) with (/ 1048576).
  apply Rinv_le; lra.
Qed.

Lemma quot_err e1 e2 e3 e4 : Rabs e1 <= u53 -> Rabs e2 <= u53 -> Rabs e3 <= u53 -> Rabs e4 <= u53 ->
  Rabs ((1 + e2) * (1 + e3) * (1 + e4) / (1 + e1) - 1) <= 10 * u53 /\ Rabs ((1 + e2) / (1 + e1) * (1 + e4)) <= 2.
Proof.
  pose proof u53_small as [Hu Hs]. set (v := u53) in *. intros H1 H2 H3 H4. apply Rabs_le_inv in H1, H2, H3, H4.
  assert (Hc : 0 < 1 + e1) by lra.
  assert (Hi : 1 - 2 * v <= / (1 + e1) <= 1 + 2 * v).
  { split.
    - apply Rmult_le_reg_l with (1 + e1); [assumption|]. rewrite Rinv_r by lra. nra.
    - apply Rmult_le_reg_l with (1 + e1); [assumption|]. rewrite Rinv_r by lra. nra. }
  set (c := / (1 + e1)) in *. unfold Rdiv. fold c.
  assert (H23 : 1 - 2 * v - v <= (1 + e2) * (1 + e3) <= 1 + 2 * v + v) by (split; nra).
  assert (H4c : 1 - 3 * v - v <= (1 + e4) * c <= 1 + 3 * v + v) by (split; nra).
  split.
  - replace ((1 + e2) * (1 + e3) * (1 + e4) * c - 1) with (((1 + e2) * (1 + e3)) * ((1 + e4) * c) - 1) by ring.
    set (p := (1 + e2) * (1 + e3)) in *. set (q := (1 + e4) * c) in *. apply Rabs_le. split; nra.
  - replace ((1 + e2) * c * (1 + e4)) with ((1 + e2) * ((1 + e4) * c)) by ring. set (q := (1 + e4) * c) in *. apply Rabs_le. split; nra.
Qed.

(** [n]: number of bins, [w]: distance of the outermost edges, [z]: distance of the value from the first edge *)
Lemma estimate_close n w z : 1 <= n <= bpow radix2 40 -> bpow radix2 (-900) <= w <= bpow radix2 900 -> 0 <= z <= w ->
  let P := rnd (rnd z * rnd (n / rnd w)) in 0 <= P /\ Rabs (P - z * n / w) <= / 8 /\ Rabs (rnd (n / rnd w)) <= bpow radix2 942 /\ rnd w <> 0.
Proof.
  intros Hn Hw Hz P. assert (Hw0 : 0 < w) by (eapply Rlt_le_trans; [apply bpow_gt_0|apply Hw]).
  pose proof u53_small as [Hu Hs].
  destruct (rnd_rel w) as (e1 & He1 & E1). { rewrite Rabs_pos_eq by lra. eapply Rle_trans; [|apply Hw]. apply bpow_le. lia. }
  pose proof He1 as He1'. apply Rabs_le_inv in He1'. assert (Hc1 : / 2 <= 1 + e1 <= 2) by lra.
  assert (HW : w / 2 <= rnd w <= 2 * w) by (rewrite E1; nra). assert (HW0 : 0 < rnd w) by lra.
  assert (Hq : n / (2 * w) <= n / rnd w <= 2 * n / w).
  { unfold Rdiv. split.
    - apply Rmult_le_compat_l; [lra|]. apply Rinv_le; lra.
    - apply Rmult_le_reg_r with (rnd w * w); [nra|]. replace (n * / rnd w * (rnd w * w)) with (n * w) by (field; lra).
      replace (2 * n * / w * (rnd w * w)) with (2 * n * rnd w) by (field; lra). nra. }
  assert (Hqlo : bpow radix2 (-901) <= n / rnd w).
  { eapply Rle_trans; [|apply Hq]. apply Rmult_le_reg_r with (2 * w); [lra|]. unfold Rdiv. rewrite Rmult_assoc, Rinv_l by lra. rewrite Rmult_1_r.
    apply Rle_trans with (bpow radix2 (-901) * bpow radix2 901).
    - apply Rmult_le_compat_l; [apply bpow_ge_0|]. change 901%Z with (1 + 900)%Z. rewrite bpow_plus. change (bpow radix2 1) with 2. lra.
    - rewrite <- bpow_plus. change (bpow radix2 (-901 + 901)) with 1. lra. }
  assert (Hqhi : n / rnd w <= bpow radix2 941).
  { eapply Rle_trans; [apply Hq|]. apply Rmult_le_reg_r with w; [assumption|]. unfold Rdiv. rewrite Rmult_assoc, Rinv_l by lra. rewrite Rmult_1_r.
    apply Rle_trans with (bpow radix2 941 * bpow radix2 (-900)).
    - rewrite <- bpow_plus. change (941 + -900)%Z with (1 + 40)%Z. rewrite bpow_plus. change (bpow radix2 1) with 2. lra.
    - apply Rmult_le_compat_l; [apply bpow_ge_0|]. apply Hw. }
  assert (Hqpos : 0 < n / rnd w) by (eapply Rlt_le_trans; [apply bpow_gt_0|exact Hqlo]).
  destruct (rnd_rel (n / rnd w)) as (e2 & He2 & E2). { rewrite Rabs_pos_eq by lra. eapply Rle_trans; [|exact Hqlo]. apply bpow_le. lia. }
  destruct (rnd_abs z) as (e3 & h3 & He3 & Hh3 & E3).
  assert (HS : 0 <= rnd (n / rnd w) <= bpow radix2 941).
  { split.
    - apply round_ge_generic; try typeclasses eauto; [apply generic_format_0|lra].
    - apply round_le_generic; try typeclasses eauto; [apply generic_format_bpow; vm_compute; discriminate|assumption]. }
  assert (HZ : 0 <= rnd z) by (apply round_ge_generic; try typeclasses eauto; [apply generic_format_0|lra]).
  destruct (rnd_abs (rnd z * rnd (n / rnd w))) as (e4 & h4 & He4 & Hh4 & E4). fold P in E4.
  destruct (quot_err e1 e2 e3 e4 He1 He2 He3 He4) as [Hqe Hqe2].
  split; [apply round_ge_generic; try typeclasses eauto; [apply generic_format_0|apply Rmult_le_pos; lra]|].
  split; [|split; [rewrite Rabs_pos_eq by lra; eapply Rle_trans; [apply HS|apply bpow_le; lia]|lra]].
  assert (Ht : 0 <= z * n / w <= bpow radix2 40).
  { split.
    - apply Rmult_le_pos; [nra|]. left. apply Rinv_0_lt_compat. assumption.
    - apply Rmult_le_reg_r with w; [assumption|]. unfold Rdiv. rewrite Rmult_assoc, Rinv_l by lra. nra. }
  assert (EP : P - z * n / w = (z * n / w) * ((1 + e2) * (1 + e3) * (1 + e4) / (1 + e1) - 1) + (h3 * (n / w) * ((1 + e2) / (1 + e1) * (1 + e4)) + h4)).
  { rewrite E4, E3, E2, E1. field. split; lra. }
  rewrite EP. eapply Rle_trans; [apply Rabs_triang|]. replace (/ 8) with (/ 16 + / 16) by field. apply Rplus_le_compat.
  - rewrite Rabs_mult, (Rabs_pos_eq (z * n / w)) by lra. apply Rle_trans with (bpow radix2 40 * (10 * u53)).
    + apply Rmult_le_compat; try lra; try apply Rabs_pos.
    + replace (bpow radix2 40 * (10 * u53)) with (10 * (bpow radix2 40 * u53)) by ring. rewrite <- bpow_plus. change (bpow radix2 (40 + -53)) with (/ 8192). lra.
  - eapply Rle_trans; [apply Rabs_triang|]. rewrite (Rabs_mult (h3 * (n / w))), (Rabs_mult h3).
    assert (Hnw : 0 <= n / w <= bpow radix2 940).
    { split; [apply Rmult_le_pos; [lra|left; apply Rinv_0_lt_compat; assumption]|]. apply Rmult_le_reg_r with w; [assumption|]. unfold Rdiv. rewrite Rmult_assoc, Rinv_l by lra. rewrite Rmult_1_r.
      apply Rle_trans with (bpow radix2 940 * bpow radix2 (-900)); [rewrite <- bpow_plus; apply Hn|]. apply Rmult_le_compat_l; [apply bpow_ge_0|apply Hw]. }
    rewrite (Rabs_pos_eq (n / w)) by lra.
    apply Rle_trans with (bpow radix2 (-1074) * bpow radix2 940 * 2 + bpow radix2 (-1074)).
    + apply Rplus_le_compat; [|assumption]. apply Rle_trans with (bpow radix2 (-1074) * bpow radix2 940 * Rabs ((1 + e2) / (1 + e1) * (1 + e4))).
      * apply Rmult_le_compat_r; [apply Rabs_pos|]. apply Rmult_le_compat; try lra; try apply Rabs_pos.
      * apply Rmult_le_compat_l; [apply Rmult_le_pos; apply bpow_ge_0|assumption].
    + rewrite <- bpow_plus. apply Rle_trans with (bpow radix2 (-10) * 2 + bpow radix2 (-10)).
      * apply Rplus_le_compat; [apply Rmult_le_compat_r; [lra|]|]; apply bpow_le; lia.
      * change (bpow radix2 (-10)) with (/ 1024). lra.
Qed.

(** ** bins of nearly equal width *)
Definition nearly_linear (e : Z -> R) (n : Z) : Prop :=
  forall i, (0 <= i <= n)%Z -> Rabs (e i - (e 0%Z + IZR i * ((e n - e 0%Z) / IZR n))) <= (e n - e 0%Z) / IZR n / 8.

Lemma near_bin e n i x P : (1 <= n)%Z -> 0 < e n - e 0%Z -> nearly_linear e n -> (0 <= i < n)%Z -> e i <= x < e (i + 1)%Z ->
  0 <= P -> Rabs (P - (x - e 0%Z) * IZR n / (e n - e 0%Z)) <= / 8 ->
  (i - 1 <= Z.max 0 (Z.min (Ztrunc P) (n - 1)) <= i + 1)%Z /\ (0 <= Ztrunc P <= i + 1)%Z.
Proof.
  intros Hn Hw Hlin Hi Hx HP0 HP. set (w := e n - e 0%Z) in *. assert (Hn0 : 1 <= IZR n) by (apply IZR_le; lia).
  set (D := w / IZR n) in *. assert (HD : 0 < D) by (apply Rmult_lt_0_compat; [lra|apply Rinv_0_lt_compat; lra]).
  pose proof (Hlin i ltac:(lia)) as H1. pose proof (Hlin (i + 1)%Z ltac:(lia)) as H2. fold w D in H1, H2.
  apply Rabs_le_inv in H1, H2, HP. rewrite plus_IZR in H2.
  assert (Et : (x - e 0%Z) * IZR n / w = (x - e 0%Z) / D) by (unfold D; field; split; lra).
  rewrite Et in HP. set (t := (x - e 0%Z) / D) in *. assert (Etx : x - e 0%Z = t * D) by (unfold t; field; lra).
  assert (Ht1 : IZR i - / 8 <= t).
  { apply Rmult_le_reg_r with D; [assumption|]. lra. }
  assert (Ht2 : t <= IZR i + 1 + / 8).
  { apply Rmult_le_reg_r with D; [assumption|]. lra. }
  assert (HPlo : IZR i - / 4 <= P) by lra. assert (HPhi : P <= IZR i + 1 + / 4) by lra.
  rewrite Ztrunc_floor by assumption.
  assert (Hf0 : (0 <= Zfloor P)%Z) by (apply Zfloor_lub; assumption).
  assert (Hf1 : (i - 1 <= Zfloor P)%Z) by (apply Zfloor_lub; rewrite minus_IZR; lra).
  assert (Hf2 : (Zfloor P < i + 2)%Z) by (apply lt_IZR; rewrite plus_IZR; pose proof (Zfloor_lb P); lra).
  lia.
Qed.

Lemma nearly_linear_mono e n : (1 <= n)%Z -> 0 < e n - e 0%Z -> nearly_linear e n -> forall i j, (0 <= i < j)%Z -> (j <= n)%Z -> e i < e j.
Proof.
  intros Hn Hw Hlin i j Hij Hj. assert (Hn0 : 1 <= IZR n) by (apply IZR_le; lia).
  set (w := e n - e 0%Z) in *. assert (HD : 0 < w / IZR n) by (apply Rmult_lt_0_compat; [lra|apply Rinv_0_lt_compat; lra]).
  pose proof (Hlin i ltac:(lia)) as H1. pose proof (Hlin j ltac:(lia)) as H2. fold w in H1, H2.
  apply Rabs_le_inv in H1, H2. assert (Hij' : IZR i + 1 <= IZR j) by (rewrite <- plus_IZR; apply IZR_le; lia).
  set (D := w / IZR n) in *. apply (Rmult_le_compat_r D) in Hij'; lra.
Qed.

(** ** integer edges *)
Lemma vget_progression a d n i : (0 <= i < Z.of_nat n)%Z -> vget (progression a d n) i = Ok (a + d * i)%Z.
Proof.
  intros Hi. unfold vget, progression. replace (i <? 0)%Z with false by lia. rewrite nth_error_map.
  rewrite (nth_error_nth' _ 0%nat) by (rewrite seq_length; lia). rewrite seq_nth by lia. cbn. rewrite Z2Nat.id by lia. reflexivity.
Qed.
Lemma length_progression a d n : length (progression a d n) = n.
Proof. unfold progression. rewrite map_length, seq_length. reflexivity. Qed.

Theorem get_bin_int_ok bits a d n x : (1 <= Z.of_nat n <= 2 ^ 40)%Z -> (0 < d)%Z -> (d * Z.of_nat n < 2 ^ 63)%Z -> (Z.of_nat n + 1 < 2 ^ (bits - 1))%Z ->
  get_bin_int bits (progression a d (S n)) x = bin_sorted (fun e => (x <? e)%Z) (progression a d (S n)).
Proof.
  intros Hn Hd Hw Hbits. unfold get_bin_int. set (edges := progression a d (S n)).
  assert (Hlen : Z.of_nat (length edges) = (Z.of_nat n + 1)%Z) by (unfold edges; rewrite length_progression; lia).
  assert (Hget : forall i, (0 <= i <= Z.of_nat n)%Z -> vget edges i = Ok (a + d * i)%Z) by (intros i Hi; apply vget_progression; lia).
  apply get_bin_ok; rewrite ?Hlen; try lia.
  - intros i j Hij (e & He & Le) Hj. pose proof (vget_bound _ _ _ He) as Hb. rewrite Hlen in Hb. rewrite Hget in He by lia. injection He as <-.
    exists (a + d * j)%Z. split; [apply Hget; lia|]. nia.
  - intros _ i (Hi & (e & He & Le) & (e' & He' & Le')). pose proof (vget_bound _ _ _ He') as Hb'. rewrite Hlen in Hb'.
    rewrite Hget in He, He' by lia. injection He as <-. injection He' as <-. unfold estimate_int. rewrite Hlen.
    rewrite (Hget 0%Z) by lia. cbn [bind]. replace (Z.of_nat n + 1 - 1)%Z with (Z.of_nat n) by lia. rewrite (Hget (Z.of_nat n)) by lia. cbn [bind].
    replace (a + d * Z.of_nat n - (a + d * 0))%Z with (d * Z.of_nat n)%Z by lia. replace (x - (a + d * 0))%Z with (x - a)%Z by lia.
    assert (Hz : (0 <= x - a < d * Z.of_nat n)%Z) by nia.
    unfold int_val. replace (in_range 64 (d * Z.of_nat n)) with true by (unfold in_range; lia). replace (in_range 64 (x - a)) with true by (unfold in_range; lia). cbn [bind].
    set (N := Z.of_nat n) in *.
    destruct (f_of_Z_val (x - a)) as [Ez Fz]; [lia|]. destruct (f_of_Z_exact N) as [En Fn]; [lia|]. destruct (f_of_Z_val (d * N)) as [Ew Fw]; [lia|].
    assert (HNr : 1 <= IZR N <= bpow radix2 40) by (split; [apply IZR_le; lia|replace (bpow radix2 40) with (IZR (2 ^ 40)) by reflexivity; apply IZR_le; lia]).
    assert (Hwr : bpow radix2 (-900) <= IZR (d * N) <= bpow radix2 900).
    { split.
      - apply Rle_trans with (bpow radix2 0); [apply bpow_le; lia|]. change (bpow radix2 0) with 1. apply IZR_le. nia.
      - apply Rle_trans with (bpow radix2 63); [replace (bpow radix2 63) with (IZR (2 ^ 63)) by reflexivity; apply IZR_le; lia|apply bpow_le; lia]. }
    assert (Hzr : 0 <= IZR (x - a) <= IZR (d * N)) by (split; apply IZR_le; lia).
    destruct (estimate_close (IZR N) (IZR (d * N)) (IZR (x - a)) HNr Hwr Hzr) as (HP0 & HP & HS & Hw0). set (P := rnd (rnd (IZR (x - a)) * rnd (IZR N / rnd (IZR (d * N))))) in *.
    assert (Hv0 : val (f_of_Z (d * N)) <> 0) by (rewrite Ew; assumption).
    destruct (fdiv_val (f_of_Z N) (f_of_Z (d * N)) Fn Hv0) as [Eq Fq].
    { rewrite En, Ew. eapply Rle_lt_trans; [exact HS|]. apply bpow_lt. lia. }
    rewrite En, Ew in Eq.
    assert (Hnear : (i - 1 <= Z.max 0 (Z.min (Ztrunc P) (N - 1)) <= i + 1)%Z /\ (0 <= Ztrunc P <= i + 1)%Z).
    { apply (near_bin (fun k => IZR (a + d * k)) N i (IZR x) P); try lia.
      - rewrite <- minus_IZR. apply IZR_lt. nia.
      - intros k Hk. replace (IZR (a + d * k) - (IZR (a + d * 0) + IZR k * ((IZR (a + d * N) - IZR (a + d * 0)) / IZR N))) with 0.
        + rewrite Rabs_R0. rewrite <- minus_IZR. apply Rmult_le_pos; [|lra]. apply Rmult_le_pos; [apply IZR_le; nia|]. left. apply Rinv_0_lt_compat. lra.
        + rewrite !plus_IZR, !mult_IZR. field. lra.
      - split; [apply IZR_le; lia|apply IZR_lt; lia].
      - assumption.
      - replace ((IZR x - IZR (a + d * 0)) * IZR N / (IZR (a + d * N) - IZR (a + d * 0))) with (IZR (x - a) * IZR N / IZR (d * N)); [assumption|].
        rewrite <- !minus_IZR. replace (x - (a + d * 0))%Z with (x - a)%Z by lia. replace (a + d * N - (a + d * 0))%Z with (d * N)%Z by lia. reflexivity. }
    assert (HPb : Rabs P < bpow radix2 1024).
    { rewrite Rabs_pos_eq by assumption. apply Rle_lt_trans with (bpow radix2 41); [|apply bpow_lt; lia]. apply Rabs_le_inv in HP.
      assert (IZR (x - a) * IZR N / IZR (d * N) <= IZR N).
      { assert (0 < IZR (d * N)) by (apply IZR_lt; nia). apply Rmult_le_reg_r with (IZR (d * N)); [assumption|]. unfold Rdiv. rewrite Rmult_assoc, Rinv_l by lra. nra. }
      change 41%Z with (1 + 40)%Z. rewrite bpow_plus. change (bpow radix2 1) with 2. lra. }
    destruct (fmul_val (f_of_Z (x - a)) (fdiv (f_of_Z N) (f_of_Z (d * N))) Fz Fq) as [Em Fm]; [rewrite Ez, Eq; exact HPb|]. rewrite Ez, Eq in Em. fold P in Em.
    exists (Ztrunc P). split.
    + unfold f_to_Z. rewrite Fm, Btrunc_val, Em. replace (in_range bits (Ztrunc P)) with true; [reflexivity|]. unfold in_range. lia.
    + replace (N + 1 - 2)%Z with (N - 1)%Z by lia. apply Hnear.
Qed.

(** ** double edges *)
(** order of doubles that are not NaN *)
Definition key (x : f64) : R :=
  match x with B754_infinity s => if s then - bpow radix2 1024 else bpow radix2 1024 | _ => val x end.
Lemma key_finite x : is_finite x = true -> key x = val x /\ - bpow radix2 1024 < val x < bpow radix2 1024.
Proof.
  intros F. split; [destruct x; try discriminate; reflexivity|]. pose proof (abs_B2R_lt_emax 53 1024 x) as Hx. apply Rabs_lt_inv in Hx. exact Hx.
Qed.
Lemma fltb_key x y : is_nan x = false -> is_nan y = false -> fltb x y = Rlt_bool (key x) (key y).
Proof.
  intros Nx Ny. destruct (is_finite x) eqn:Fx, (is_finite y) eqn:Fy.
  - rewrite (proj1 (key_finite x Fx)), (proj1 (key_finite y Fy)). apply Bltb_correct; assumption.
  - destruct (key_finite x Fx) as [-> Hx]. destruct y as [sy|sy| |sy my ey Hy]; try discriminate. cbn [key]. revert Hx. generalize (bpow radix2 1024) (val x). intros B v Hv.
    unfold fltb, Bltb, SFltb. destruct sy; destruct x as [sx|sx| |sx mx ex Hm]; try discriminate; cbn [B2SF SFcompare]; symmetry; try (apply Rlt_bool_true; lra); try (apply Rlt_bool_false; lra).
  - destruct (key_finite y Fy) as [-> Hy]. destruct x as [sx|sx| |sx mx ex Hx]; try discriminate. cbn [key]. revert Hy. generalize (bpow radix2 1024) (val y). intros B v Hv.
    unfold fltb, Bltb, SFltb. destruct sx; destruct y as [sy|sy| |sy my ey Hm]; try discriminate; cbn [B2SF SFcompare]; symmetry; try (apply Rlt_bool_true; lra); try (apply Rlt_bool_false; lra).
  - pose proof (bpow_gt_0 radix2 1024) as Hp. destruct x as [sx|sx| |sx mx ex Hx]; try discriminate. destruct y as [sy|sy| |sy my ey Hy]; try discriminate. cbn [key].
    revert Hp. generalize (bpow radix2 1024). intros B Hp. unfold fltb, Bltb, SFltb. destruct sx, sy; cbn [B2SF SFcompare]; symmetry; try (apply Rlt_bool_true; lra); try (apply Rlt_bool_false; lra).
Qed.
Lemma fleb_key x y : is_nan x = false -> is_nan y = false -> fleb x y = Rle_bool (key x) (key y).
Proof.
  intros Nx Ny. destruct (is_finite x) eqn:Fx, (is_finite y) eqn:Fy.
  - rewrite (proj1 (key_finite x Fx)), (proj1 (key_finite y Fy)). apply Bleb_correct; assumption.
  - destruct (key_finite x Fx) as [-> Hx]. destruct y as [sy|sy| |sy my ey Hy]; try discriminate. cbn [key]. revert Hx. generalize (bpow radix2 1024) (val x). intros B v Hv.
    unfold fleb, Bleb, SFleb. destruct sy; destruct x as [sx|sx| |sx mx ex Hm]; try discriminate; cbn [B2SF SFcompare]; symmetry; try (apply Rle_bool_true; lra); try (apply Rle_bool_false; lra).
  - destruct (key_finite y Fy) as [-> Hy]. destruct x as [sx|sx| |sx mx ex Hx]; try discriminate. cbn [key]. revert Hy. generalize (bpow radix2 1024) (val y). intros B v Hv.
    unfold fleb, Bleb, SFleb. destruct sx; destruct y as [sy|sy| |sy my ey Hm]; try discriminate; cbn [B2SF SFcompare]; symmetry; try (apply Rle_bool_true; lra); try (apply Rle_bool_false; lra).
  - pose proof (bpow_gt_0 radix2 1024) as Hp. destruct x as [sx|sx| |sx mx ex Hx]; try discriminate. destruct y as [sy|sy| |sy my ey Hy]; try discriminate. cbn [key].
    revert Hp. generalize (bpow radix2 1024). intros B Hp. unfold fleb, Bleb, SFleb. destruct sx, sy; cbn [B2SF SFcompare]; symmetry; try (apply Rle_bool_true; lra); try (apply Rle_bool_false; lra).
Qed.
Lemma nan_lt x y : is_nan x = true -> fltb x y = false /\ fleb y x = false.
Proof. destruct x; try discriminate. intros _. split; [reflexivity|]. destruct y; reflexivity. Qed.

Definition vals (l : list f64) (i : Z) : R := match vget l i with Ok x => val x | _ => 0 end.
Lemma vals_get l i x : vget l i = Ok x -> vals l i = val x.
Proof. intros E. unfold vals. rewrite E. reflexivity. Qed.

Lemma estimate_f64_val n (x e0 en : f64) : (1 <= n <= 2 ^ 40)%Z -> is_finite x = true -> is_finite e0 = true -> is_finite en = true ->
  bpow radix2 (-900) <= val en - val e0 <= bpow radix2 900 -> 0 <= val x - val e0 <= val en - val e0 ->
  let est := fmul (fsub x e0) (fdiv (f_of_Z n) (fsub en e0)) in
  is_finite est = true /\ 0 <= val est /\ Rabs (val est - (val x - val e0) * IZR n / (val en - val e0)) <= / 8.
Proof.
  intros Hn Fx F0 Fn Hw Hz est.
  destruct (f_of_Z_exact n) as [EN FN]; [clear - Hn; lia|].
  assert (HNr : 1 <= IZR n <= bpow radix2 40) by (split; [apply IZR_le; apply Hn|replace (bpow radix2 40) with (IZR (2 ^ 40)) by reflexivity; apply IZR_le; apply Hn]).
  destruct (estimate_close (IZR n) (val en - val e0) (val x - val e0) HNr Hw Hz) as (HP0 & HP & HS & Hrw0).
  assert (Hw0 : 0 < val en - val e0) by (eapply Rlt_le_trans; [apply bpow_gt_0|apply Hw]).
  destruct (fsub_val x e0 Fx F0) as [Es Fs]; [apply (rnd_lt_max _ 900); [discriminate| |discriminate]; rewrite Rabs_pos_eq by apply Hz; eapply Rle_trans; [apply Hz|apply Hw]|].
  destruct (fsub_val en e0 Fn F0) as [Ew Fw]; [apply (rnd_lt_max _ 900); [discriminate| |discriminate]; rewrite Rabs_pos_eq by (left; exact Hw0); apply Hw|].
  destruct (fdiv_val (f_of_Z n) (fsub en e0) FN) as [Eq Fq]; [rewrite Ew; exact Hrw0|rewrite EN, Ew; eapply Rle_lt_trans; [exact HS|]; apply bpow_lt; reflexivity|].
  rewrite EN, Ew in Eq.
  assert (HPb : Rabs (rnd (rnd (val x - val e0) * rnd (IZR n / rnd (val en - val e0)))) < bpow radix2 1024).
  { rewrite Rabs_pos_eq by exact HP0. apply Rle_lt_trans with (bpow radix2 41); [|apply bpow_lt; reflexivity]. apply Rabs_le_inv in HP.
    set (w := val en - val e0) in *. set (z := val x - val e0) in *.
    assert (Hzw : z * IZR n / w <= IZR n).
    { apply Rmult_le_reg_r with w; [exact Hw0|]. unfold Rdiv. rewrite Rmult_assoc, Rinv_l, Rmult_1_r by lra. rewrite Rmult_comm. apply Rmult_le_compat_l; lra. }
    change 41%Z with (1 + 40)%Z. rewrite bpow_plus. change (bpow radix2 1) with 2. lra. }
  destruct (fmul_val (fsub x e0) (fdiv (f_of_Z n) (fsub en e0)) Fs Fq) as [Em Fm]; [rewrite Es, Eq; exact HPb|].
  split; [exact Fm|]. unfold est. rewrite Em, Es, Eq. split; [exact HP0|exact HP].
Qed.

Theorem get_bin_f64_ok bits (edges : list f64) (x : f64) n : length edges = S (Z.to_nat n) -> (1 <= n <= 2 ^ 40)%Z -> (n + 1 < 2 ^ (bits - 1))%Z ->
  forallb (fun e : f64 => is_finite e) edges = true -> bpow radix2 (-900) <= vals edges n - vals edges 0 <= bpow radix2 900 -> nearly_linear (vals edges) n ->
  get_bin_f64 bits edges x = bin_sorted (fun e => fltb x e) edges.
Proof.
  intros Hlen Hn Hbits Hfin Hw Hlin. unfold get_bin_f64.
  assert (Hw0 : 0 < vals edges n - vals edges 0) by (eapply Rlt_le_trans; [apply bpow_gt_0|apply Hw]).
  assert (Hl : Z.of_nat (length edges) = (n + 1)%Z) by (rewrite Hlen; lia).
  pose proof (nearly_linear_mono _ n (proj1 Hn) Hw0 Hlin) as Hmono.
  assert (Hin : forall e, In e edges -> is_finite e = true) by (intros e He; rewrite forallb_forall in Hfin; auto).
  assert (Hget : forall i, (0 <= i <= n)%Z -> exists e, vget edges i = Ok e /\ is_finite e = true /\ vals edges i = val e).
  { intros i Hi. destruct (vget_in edges i) as [e He]; [lia|]. exists e. split; [assumption|]. split; [|apply vals_get; assumption].
    apply Hin. unfold vget in He. destruct (i <? 0)%Z; [discriminate|]. destruct (nth_error edges (Z.to_nat i)) eqn:En; [|discriminate]. injection He as <-.
    apply nth_error_In in En. assumption. }
  assert (Hnn : forall e : f64, is_finite e = true -> is_nan e = false) by (intros e Fe; destruct e; try discriminate; reflexivity).
  destruct (is_nan x) eqn:Nx.
  - (* NaN: not in any bin *)
    destruct (Hget 0%Z ltac:(lia)) as (e0 & E0 & _ & _). destruct (Hget n ltac:(lia)) as (en & En & _ & _).
    unfold get_bin. rewrite Hl. replace (n + 1 - 1)%Z with n by lia. rewrite E0, En. cbn [bind].
    destruct (nan_lt x e0 Nx) as [-> _]. destruct (nan_lt x en Nx) as [_ ->]. cbn [orb].
    assert (Hmn : forall i j, (i <= j)%Z -> above (fun e => fltb x e) edges i -> (j < Z.of_nat (length edges))%Z -> above (fun e => fltb x e) edges j).
    { intros i j _ (e & _ & Le) _. destruct (nan_lt x e Nx) as [Le' _]. rewrite Le' in Le. discriminate. }
    destruct (bin_sorted_ok (fun e => fltb x e) edges Hmn) as (r & Er & Hr & Hb). rewrite Er. f_equal.
    destruct (Z.lt_ge_cases r 0) as [|Hge]; [lia|]. exfalso. destruct (proj1 (Hb r Hge) eq_refl) as (_ & _ & (e & _ & Le)).
    destruct (nan_lt x e Nx) as [Le' _]. rewrite Le' in Le. discriminate.
  - assert (Hlt : forall i e, (0 <= i <= n)%Z -> vget edges i = Ok e -> fltb x e = Rlt_bool (key x) (vals edges i)).
    { intros i e Hi He. destruct (Hget i Hi) as (e' & He' & Fe & ->). rewrite He in He'. injection He' as <-. rewrite fltb_key by auto. rewrite (proj1 (key_finite e Fe)). reflexivity. }
    apply get_bin_ok; try lia.
    + intros i j Hij (e & He & Le) Hj. pose proof (vget_bound _ _ _ He) as Hb. rewrite Hl in *. destruct (Hget j ltac:(lia)) as (e' & He' & _ & _).
      exists e'. split; [assumption|]. rewrite (Hlt i e ltac:(lia) He) in Le. rewrite (Hlt j e' ltac:(lia) He').
      destruct (Rlt_bool_spec (key x) (vals edges i)) as [Hlti|]; [|discriminate]. apply Rlt_bool_true.
      destruct (Z.eq_dec i j) as [<-|]; [assumption|]. eapply Rlt_trans; [exact Hlti|]. apply Hmono; lia.
    + intros e He. pose proof (Hin e He) as Fe. rewrite fltb_key, fleb_key by auto.
      destruct (Rlt_bool_spec (key x) (key e)); destruct (Rle_bool_spec (key e) (key x)); try reflexivity; lra.
    + intros _ i (Hi & (e & He & Le) & (e' & He' & Le')). pose proof (vget_bound _ _ _ He') as Hb'. rewrite Hl in *.
      rewrite (Hlt i e ltac:(lia) He) in Le. rewrite (Hlt (i + 1)%Z e' ltac:(lia) He') in Le'.
      destruct (Rlt_bool_spec (key x) (vals edges i)) as [|Hxi]; [discriminate|]. destruct (Rlt_bool_spec (key x) (vals edges (i + 1))) as [Hxi'|]; [|discriminate].
      (* x is finite *)
      destruct (Hget i ltac:(lia)) as (e1 & He1 & Fe1 & Ev1). destruct (Hget (i + 1)%Z ltac:(lia)) as (e2 & He2 & Fe2 & Ev2).
      assert (Fx : is_finite x = true).
      { pose proof (proj2 (key_finite e1 Fe1)). pose proof (proj2 (key_finite e2 Fe2)). rewrite Ev1 in Hxi. rewrite Ev2 in Hxi'.
        destruct x as [s|s| |s m ee Hm]; try reflexivity; try discriminate. cbn [key] in *. destruct s; lra. }
      rewrite (proj1 (key_finite x Fx)) in Hxi, Hxi'.
      destruct (Hget 0%Z ltac:(lia)) as (e0 & E0 & F0 & V0). destruct (Hget n ltac:(lia)) as (en & En & Fn & Vn).
      unfold estimate_f64. rewrite Hl. replace (n + 1 - 1)%Z with n by lia. rewrite E0, En. cbn [bind].
      assert (Hz : 0 <= val x - vals edges 0 <= vals edges n - vals edges 0).
      { split.
        - destruct (Z.eq_dec i 0) as [->|]; [lra|]. pose proof (Hmono 0%Z i ltac:(lia) ltac:(lia)). lra.
        - destruct (Z.eq_dec (i + 1) n) as [Ei|]; [rewrite Ei in Hxi'; lra|]. pose proof (Hmono (i + 1)%Z n ltac:(lia) ltac:(lia)). lra. }
      assert (HNr : 1 <= IZR n <= bpow radix2 40) by (split; [apply IZR_le; lia|replace (bpow radix2 40) with (IZR (2 ^ 40)) by reflexivity; apply IZR_le; lia]).
      rewrite V0 in Hz, Hw. rewrite Vn in Hz, Hw. destruct (estimate_f64_val n x e0 en Hn Fx F0 Fn Hw Hz) as (Fm & HP0 & HP).
      set (P := val (fmul (fsub x e0) (fdiv (f_of_Z n) (fsub en e0)))) in *.
      assert (Hnear : (i - 1 <= Z.max 0 (Z.min (Ztrunc P) (n - 1)) <= i + 1)%Z /\ (0 <= Ztrunc P <= i + 1)%Z).
      { apply (near_bin (vals edges) n i (val x) P (proj1 Hn) Hw0 Hlin); [clear - Hi Hb'; lia|split; assumption|exact HP0|rewrite V0, Vn; exact HP]. }
      clear HP HP0. exists (Ztrunc P). split.
      * unfold f_to_Z. rewrite Fm, Btrunc_val. fold P. replace (in_range bits (Ztrunc P)) with true; [reflexivity|]. unfold in_range. clear - Hnear Hbits Hi Hb'. lia.
      * replace (n + 1 - 2)%Z with (n - 1)%Z by (clear; lia). apply Hnear.
Qed.
