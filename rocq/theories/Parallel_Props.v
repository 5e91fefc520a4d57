(** Ranges of parallel loops (lib/core/include/scipp/core/parallel-tbb.h, parallel-fallback.h) and their splitting (C45). *)
From Verif Require Import Base Index_Proofs.

(** parallel-tbb.h 16-27: [blocked_range] with the default and with an explicit grain size *)
Definition grain (begin end_ grainsize : Z) : Z := if grainsize =? -1 then Z.max 1 (Z.quot (end_ - begin) 24) else grainsize.
(** The documented behaviour of [tbb::parallel_for] on a [tbb::blocked_range]: an empty range runs nothing; a range larger than
    the grain size may be run as it is or be split in the middle, any number of times. [runs begin end g l]: the body may be
    called with the ranges [l] (listed from left to right; the calls may happen in any order). *)
Inductive runs (g : Z) : Z -> Z -> list (Z * Z) -> Prop :=
| runs_empty b e : e <= b -> runs g b e []
| runs_body b e : b < e -> runs g b e [(b, e)]
| runs_split b e l r : g < e - b -> runs g b (b + Z.quot (e - b) 2) l -> runs g (b + Z.quot (e - b) 2) e r -> runs g b e (l ++ r).
(** parallel-fallback.h 30-32: one call, also for an empty range *)
Definition fallback_runs (b e : Z) : list (Z * Z) := [(b, e)].
(** [for (i = range.begin(); i < range.end(); ++i)] *)
Definition indices (r : Z * Z) : list Z := zseq (fst r) (Z.to_nat (snd r - fst r)).

Theorem C45_grains begin end_ grainsize l : grainsize = -1 \/ 1 <= grainsize -> begin <= end_ -> runs (grain begin end_ grainsize) begin end_ l ->
  concat (map indices l) = indices (begin, end_) /\ Forall (fun r => begin <= fst r < snd r /\ snd r <= end_) l /\ 1 <= grain begin end_ grainsize /\
  concat (map indices (fallback_runs begin end_)) = indices (begin, end_).
Proof.
  intros Hg Hbe Hr. assert (Hgr : 1 <= grain begin end_ grainsize) by (unfold grain; destruct (Z.eqb_spec grainsize (-1)); lia).
  revert Hr Hgr. generalize (grain begin end_ grainsize). intros g Hr Hgr. assert (Hx : concat (map indices l) = indices (begin, end_) /\ Forall (fun r => begin <= fst r < snd r /\ snd r <= end_) l).
  { clear Hg grainsize. induction Hr as [b e He|b e He|b e l r Hs Hl IHl Hr IHr].
    - split; [|constructor]. unfold indices. cbn [fst snd]. replace (Z.to_nat (e - b)) with O by lia. reflexivity.
    - split; [cbn [map concat]; apply app_nil_r|]. repeat constructor; cbn [fst snd]; lia.
    - pose proof (Z.quot_rem' (e - b) 2). pose proof (Z.rem_bound_pos (e - b) 2 ltac:(lia) ltac:(lia)). set (m := b + Z.quot (e - b) 2) in *. assert (Hm : b <= m <= e) by (unfold m; lia). clearbody m. destruct (IHl ltac:(lia)) as [L1 L2]. destruct (IHr ltac:(lia)) as [R1 R2]. rewrite map_app, concat_app, L1, R1. split.
      + unfold indices. cbn [fst snd]. replace (Z.to_nat (e - b)) with (Z.to_nat (m - b) + Z.to_nat (e - m))%nat by lia. rewrite zseq_app. do 2 f_equal. lia.
      + apply Forall_app. split; [eapply Forall_impl; [|exact L2]|eapply Forall_impl; [|exact R2]]; cbn beta; intros; lia. }
  destruct Hx as [X1 X2]. split; [exact X1|]. split; [exact X2|]. split; [exact Hgr|]. cbn. apply app_nil_r.
Qed.
Print Assumptions C45_grains.
Example C45_grains_case : grain 0 100 (-1) = 4 /\ runs 4 0 10 [(0, 5); (5, 7); (7, 10)].
Proof. split; [reflexivity|]. apply (runs_split 4 0 10 [(0, 5)] [(5, 7); (7, 10)]); [lia|apply runs_body; cbn; lia|]. apply (runs_split 4 5 10 [(5, 7)] [(7, 10)]); [lia|apply runs_body; cbn; lia|apply runs_body; cbn; lia]. Qed.
