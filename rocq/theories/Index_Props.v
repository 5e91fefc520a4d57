(** Properties C09 and C10: iteration over one and over several operands. *)
From Verif Require Import Base Dims_Model Dims_Spec Index_Model Index_Spec Index_Proofs.

(** C09. Any history of increments and jumps keeps position and address in step. *)
Theorem C09_history : forall sh st v os, nonneg sh -> length st = length sh -> vi_make sh st = Ok v ->
  vallowed (vol sh) 0 os ->
  let v' := fold_left vstep os v in
  let p := fold_left vpos os 0 in
  vi_pos v' = p /\ 0 <= p <= vol sh /\ (p < vol sh -> vi_mem v' = address sh st p).
Proof. exact vi_history. Qed.

(** C09. Walking from begin to end yields every element once, in row-major order. *)
Theorem C09_walk : forall sh st v, nonneg sh -> length st = length sh -> vi_make sh st = Ok v ->
  vi_walk (Z.to_nat (vol sh)) v (vol sh) = Ok (map (address sh st) (zseq 0 (Z.to_nat (vol sh)))).
Proof. exact vi_walk_ok. Qed.

(** C09. Construction succeeds for every shape within the supported rank. *)
Theorem C09_construct : forall sh st, (length sh <= NDIM_OP_MAX)%nat -> length st = length sh ->
  exists v, vi_make sh st = Ok v.
Proof. exact vi_make_ok. Qed.

(** C09, beyond the supported rank: seven dimensions that cannot be merged overrun the arrays. There is no check. *)
Theorem C09_rank_seven_refuted : vi_make [2; 2; 2; 2; 2; 2; 2] [0; 0; 0; 0; 0; 0; 0] = Ub.
Proof. vm_compute. reflexivity. Qed.

Example C09_case : (* shape 2x3x2, transposed and broadcast strides *)
  (do v <- vi_make [2; 3; 2] [1; 2; 0]; vi_walk 12 v 12) = Ok [0; 0; 2; 2; 4; 4; 1; 1; 3; 3; 5; 5].
Proof. vm_compute. reflexivity. Qed.
Example C09_case_history : exists v, vi_make [2; 3; 2] [1; 2; 0] = Ok v /\
  vallowed (vol [2; 3; 2]) 0 [VInc; VSet 12; VSet 5; VInc] /\
  vi_mem (fold_left vstep [VInc; VSet 12; VSet 5; VInc] v) = 1.
Proof. eexists. split; [vm_compute; reflexivity|]. split; [repeat constructor; cbn; lia|vm_compute; reflexivity]. Qed.

(** C10. The positions of all operands are right for every index exactly for the stride patterns that are safe to
    flatten. *)
Theorem C10_positions_iff : forall sh sts m, Forall (fun n => 0 < n) sh ->
  Forall (fun st => length st = length sh) sts -> mi_make sh sts = Ok m ->
  ((forall k, 0 <= k < vol sh -> mi_data (mi_set_index m k) = addresses sh sts k) <-> flattening_safe sh sts).
Proof. exact mi_positions_iff. Qed.

(** C10. Any history of increments and jumps. Missing for the full claim: the stride patterns excluded by
    [flattening_safe], for which it is false (next theorem). *)
Theorem C10_history_partial : forall sh sts m os, Forall (fun n => 0 < n) sh ->
  Forall (fun st => length st = length sh) sts -> mi_make sh sts = Ok m -> flattening_safe sh sts ->
  vallowed (vol sh) 0 os ->
  let m' := fold_left mstep os m in
  let p := fold_left vpos os 0 in
  0 <= p <= vol sh /\ (p < vol sh -> mi_data m' = addresses sh sts p) /\ mi_eqb m' (mi_set_to_end m) = (p =? vol sh).
Proof. exact mi_history. Qed.

(** C10. The loop over one block of the range calls the operation at exactly the elements of the block. *)
Theorem C10_block_partial : forall sh sts m b e, nonneg sh -> Forall (fun st => length st = length sh) sts ->
  mi_make sh sts = Ok m -> flattening_safe sh sts -> 0 <= b <= e -> e <= vol sh ->
  mi_block m b e = Ok (map (addresses sh sts) (zseq b (Z.to_nat (e - b)))).
Proof. exact mi_block_ok. Qed.

Theorem C10_construct : forall sh sts, (length sh <= NDIM_OP_MAX)%nat -> exists m, mi_make sh sts = Ok m.
Proof. exact mi_make_total. Qed.

(** C10 is false without the condition: output and input of [sum(broadcast(var{z:2,x:3}, {z:2,y:2,x:3}), 'y')], both
    with strides z:3, y:0, x:1. The element with index 3 is (0,1,0), at address 0, but the code goes to 3; the last
    elements lie outside of both buffers (six elements). *)
Theorem C10_refuted : exists sh sts m, mi_make sh sts = Ok m /\ vol sh = 12 /\
  mi_data (mi_set_index m 3) = [3; 3] /\ addresses sh sts 3 = [0; 0] /\
  mi_data (mi_set_index m 11) = [8; 8] /\ addresses sh sts 11 = [5; 5].
Proof.
  exists [2; 2; 3], [[3; 0; 1]; [3; 0; 1]]. eexists. split; [vm_compute; reflexivity|]. vm_compute. auto.
Qed.

Example C10_case : (* a + transpose(b) + broadcast(c), shape 2x2x3 *)
  let sts := [[6; 3; 1]; [1; 2; 4]; [0; 0; 1]] in
  flattening_safe [2; 2; 3] sts /\
  (do m <- mi_make [2; 2; 3] sts; mi_block m 2 9) =
  Ok [[2; 8; 2]; [3; 2; 0]; [4; 6; 1]; [5; 10; 2]; [6; 1; 0]; [7; 5; 1]; [8; 9; 2]].
Proof.
  split; [|vm_compute; reflexivity]. right. intros d Hd Hz. cbn in Hd. assert (d = 1%nat) as -> by lia.
  specialize (Hz 1%nat ltac:(cbn; lia) [6; 3; 1]). cbn in Hz. exfalso. enough (3 = 0) by lia. apply Hz. auto.
Qed.
Example C10_case_history : exists m, mi_make [2; 2; 3] [[6; 3; 1]; [1; 2; 4]; [0; 0; 1]] = Ok m /\
  mi_data (fold_left mstep [VInc; VSet 5; VInc; VInc] m) = [7; 5; 1] /\
  mi_eqb (fold_left mstep [VSet 10; VInc; VInc] m) (mi_set_to_end m) = true.
Proof. eexists. split; [vm_compute; reflexivity|]. vm_compute. auto. Qed.

Print Assumptions C09_history.
Print Assumptions C09_walk.
Print Assumptions C10_positions_iff.
Print Assumptions C10_history_partial.
Print Assumptions C10_block_partial.
