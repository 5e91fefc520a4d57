(** * C52: assignments cannot make variables contain themselves *)
From Coq Require Import Relations.
From Verif Require Import Base Nesting_Model Nesting_Spec Nesting_Proofs.

(** In all histories of new buffers and assignments, with any views and any nesting of variables, data arrays and datasets, the checks end,
    and throw exactly if the left-hand side can be reached from the right-hand side along elements of the sort they look at. *)
Theorem C52_check_variable h L r : history h -> valid h r ->
  exists N, forall n, (N <= n)%nat ->
    (var_check n h L r = Ok tt /\ ~ exists l, L = Some l /\ reaches is_vars h [r] l) \/
    (var_check n h L r = Throw InvalidArgument /\ exists l, L = Some l /\ reaches is_vars h [r] l).
Proof.
  intros Hh V. destruct (history_inv h Hh) as (A & B & _). destruct (decides_all is_vars (fun _ => true) h L ltac:(reflexivity) A B eq_refl [r]) as [N D]; [intros r' [<-|[]]; exact V|].
  exists N. intros n Hn. rewrite var_gen. exact (D n Hn).
Qed.
Theorem C52_check_array h (array : bool) L rs : history h -> (forall r, In r rs -> valid h r) -> (forall o i ob, L = Some (o, i) -> nth_error h o = Some ob -> if array then exists l, ob = Arrays l else exists l, ob = Sets l) ->
  exists N, forall n, (N <= n)%nat ->
    (set_check n h array L rs = Ok tt /\ ~ exists l, L = Some l /\ reaches is_sets h rs l) \/
    (set_check n h array L rs = Throw InvalidArgument /\ exists l, L = Some l /\ reaches is_sets h rs l).
Proof.
  intros Hh V T. destruct (history_inv h Hh) as (A & _ & B). destruct (decides_all is_sets (cmp_set array) h L) with (rs := rs) as [N D]; try assumption; [|reflexivity|].
  - intros o i ob E1 E2 _. specialize (T o i ob E1 E2). destruct array; destruct T as [l ->]; reflexivity.
  - exists N. intros n Hn. rewrite set_gen. exact (D n Hn).
Qed.
(** Nothing is rejected in vain: without the check an element would see itself. *)
Theorem C52_rejected n h o i l r : history h -> nth_error h o = Some (Vars l) -> (i < length l)%nat -> valid h r -> assign_var n h o i r = Throw InvalidArgument ->
  clos_trans _ (sees (Nesting_Model.replace h o (Vars (Nesting_Model.replace l i r)))) (o, i) (o, i).
Proof.
  intros Hh Eo Li V E. destruct (C52_check_variable h (Some (o, i)) r Hh V) as [N D]. unfold assign_var in E. rewrite Eo in E. destruct (var_check n h (Some (o, i)) r) as [|e|] eqn:Ec; try discriminate E. cbn [bind] in E. injection E as ->.
  assert (Ec' : var_check (N + n) h (Some (o, i)) r = Throw InvalidArgument) by (rewrite var_gen in *; apply (gen_mono _ _ _ _ n); [lia|exact Ec|discriminate]).
  destruct (D (N + n)%nat ltac:(lia)) as [[Q _]|[_ (x & [= <-] & R)]]; [congruence|].
  apply (cycle_write h o i [r] (Vars l) (Vars (Nesting_Model.replace l i r)) Eo) with (p := is_vars); [|cbn [elements]; now rewrite map_length|exact R].
  split; [exact (map_replace (fun x => [x]) l i r)|]. repeat split; discriminate.
Qed.
Theorem C52_rejected_array n h o i l rs : history h -> nth_error h o = Some (Arrays l) -> (i < length l)%nat -> (forall r, In r rs -> valid h r) -> assign_array n h o i rs = Throw InvalidArgument ->
  clos_trans _ (sees (Nesting_Model.replace h o (Arrays (Nesting_Model.replace l i rs)))) (o, i) (o, i).
Proof.
  intros Hh Eo Li V E. destruct (C52_check_array h true (Some (o, i)) rs Hh V) as [N D]; [intros o' i' ob [= <- <-] E'; rewrite Eo in E'; injection E' as <-; eauto|].
  unfold assign_array in E. rewrite Eo in E. destruct (set_check n h true (Some (o, i)) rs) as [|e|] eqn:Ec; try discriminate E. cbn [bind] in E. injection E as ->.
  assert (Ec' : set_check (N + n) h true (Some (o, i)) rs = Throw InvalidArgument) by (rewrite set_gen in *; apply (gen_mono _ _ _ _ n); [lia|exact Ec|discriminate]).
  destruct (D (N + n)%nat ltac:(lia)) as [[Q _]|[_ (x & [= <-] & R)]]; [congruence|].
  apply (cycle_write h o i rs (Arrays l) (Arrays (Nesting_Model.replace l i rs)) Eo) with (p := is_sets); [|exact Li|exact R].
  repeat split; discriminate.
Qed.
(** No buffer keeps itself alive, if elements are variables only, or data arrays and datasets only, and see all of their buffers. *)
Theorem C52_no_cycle h : history h -> (forall e r, holds h e r -> whole h r) ->
  (forall ob, In ob h -> ob = Plain \/ is_vars ob = true) \/ (forall ob, In ob h -> ob = Plain \/ is_sets ob = true) -> no_cycle h.
Proof.
  intros Hh Wh Pu. destruct (history_inv h Hh) as (_ & A & B). destruct Pu as [Pu|Pu]; [exact (no_cycle_whole is_vars h A Pu Wh)|exact (no_cycle_whole is_sets h B Pu Wh)].
Qed.
(** An assignment to a variable on the stack is never rejected. *)
Theorem C52_root h r : history h -> valid h r -> exists N, forall n, (N <= n)%nat -> var_check n h None r = Ok tt.
Proof. intros Hh V. destruct (C52_check_variable h None r Hh V) as [N D]. exists N. intros n Hn. destruct (D n Hn) as [[Q _]|[_ (l & E & _)]]; [exact Q|discriminate E]. Qed.

(** ** Cases and counterexamples *)
Definition num : handle := mkh 0 [].
(** Two variables in one, and that one in another. *)
Definition h_case : heap := [Plain; Vars [num; num]; Vars [mkh 1 [0; 1]%nat]].
Lemma new_history h ob : history h -> (forall s r, In s (elements ob) -> In r s -> valid h r) -> history (h ++ [ob]).
Proof. intros Hh V. eapply rt_trans; [exact Hh|]. apply rt_step. now apply Step_new. Qed.
Lemma history_1 : history [Plain]. Proof. apply (new_history [] Plain); [apply rt_refl|intros s r []]. Qed.
Lemma num_valid h : nth_error h 0 = Some Plain -> valid h num.
Proof. intros E. exists Plain. split; [exact E|]. intros N. exfalso. now apply N. Qed.
Lemma history_2 l : Forall (fun r => r = num) l -> history [Plain; Vars l].
Proof. intros F. apply (new_history [Plain] (Vars l) history_1). intros s r I J. cbn [elements] in I. apply in_map_iff in I as (x & <- & I). destruct J as [<-|[]]. rewrite Forall_forall in F. rewrite (F x I). now apply num_valid. Qed.
Lemma history_case : history h_case.
Proof.
  apply (new_history [Plain; Vars [num; num]] (Vars [mkh 1 [0; 1]%nat])); [apply history_2; repeat constructor|]. intros s r [<-|[]] [<-|[]]. exists (Vars [num; num]). split; [reflexivity|]. intros _ j [<-|[<-|[]]]; cbn; lia.
Qed.
Example C52_case : history h_case /\ (forall e r, holds h_case e r -> whole h_case r) /\ (forall ob, In ob h_case -> ob = Plain \/ is_vars ob = true) /\ owns h_case 2 1 /\
  assign_var 3 h_case 1 1 (mkh 2 [0]%nat) = Throw InvalidArgument /\ assign_var 3 h_case 1 1 num = Ok h_case.
Proof.
  split; [exact history_case|]. split.
  { intros [o i] r (ob & s & A & B & I) ob' j E Lj. destruct o as [|[|[|[|o]]]]; cbn in A; try discriminate A; injection A as <-; [destruct i; discriminate B| |].
    - destruct i as [|[|i]]; cbn in B; try (injection B as <-; destruct I as [<-|[]]; cbn in E; injection E as <-; cbn in Lj; lia). destruct i; discriminate B.
    - destruct i as [|i]; cbn in B; [|destruct i; discriminate B]. injection B as <-. destruct I as [<-|[]]. cbn in E. injection E as <-. cbn in Lj. destruct j as [|[|j]]; cbn; lia. }
  split; [intros ob [<-|[<-|[<-|[]]]]; auto|]. split; [|split; reflexivity].
  exists 0%nat, (mkh 1 [0; 1]%nat). split; [|reflexivity]. eexists _, _. repeat split; now left.
Qed.
(** A slice that does not contain the left-hand side, of the same buffer: the buffer keeps itself alive from then on. *)
Theorem C52_slice_refuted : exists h n h', history h /\ assign_var n h 1 1 (mkh 1 [0]%nat) = Ok h' /\ history h' /\ ~ no_cycle h'.
Proof.
  exists [Plain; Vars [num; num]], 2%nat, [Plain; Vars [num; mkh 1 [0]%nat]]. assert (Hh : history [Plain; Vars [num; num]]) by (apply history_2; repeat constructor).
  split; [exact Hh|]. split; [reflexivity|]. split.
  - eapply rt_trans; [exact Hh|]. apply rt_step. apply (Step_var _ 2 1 1 (mkh 1 [0]%nat)); [|reflexivity]. exists (Vars [num; num]). split; [reflexivity|]. intros _ j [<-|[]]. cbn. lia.
  - intros N. apply (N 1%nat). apply t_step. exists 1%nat, (mkh 1 [0]%nat). split; [|reflexivity]. eexists _, _. repeat split; now left.
Qed.
(** Data arrays are not looked into when variables are assigned: a variable in the data of a data array in a variable. *)
Theorem C52_mixed_refuted : exists h n h', history h /\ (forall e r, holds h e r -> whole h r) /\ assign_var n h 1 0 (mkh 2 [0]%nat) = Ok h' /\ history h' /\ clos_trans _ (sees h') (1, 0)%nat (1, 0)%nat.
Proof.
  assert (Hh : history [Plain; Vars [num]; Arrays [[mkh 1 [0]%nat]]]).
  { apply (new_history [Plain; Vars [num]] (Arrays [[mkh 1 [0]%nat]])); [apply history_2; repeat constructor|]. intros s r [<-|[]] [<-|[]]. exists (Vars [num]). split; [reflexivity|]. intros _ j [<-|[]]. cbn. lia. }
  exists [Plain; Vars [num]; Arrays [[mkh 1 [0]%nat]]], 2%nat, [Plain; Vars [mkh 2 [0]%nat]; Arrays [[mkh 1 [0]%nat]]]. split; [exact Hh|]. split; [|split; [reflexivity|split]].
  - intros [o i] r (ob & s & A & B & I) ob' j E Lj. destruct o as [|[|[|[|o]]]]; cbn in A; try discriminate A; injection A as <-; [destruct i; discriminate B| |].
    + destruct i as [|i]; cbn in B; [|destruct i; discriminate B]. injection B as <-. destruct I as [<-|[]]. cbn in E. injection E as <-. cbn in Lj. lia.
    + destruct i as [|i]; cbn in B; [|destruct i; discriminate B]. injection B as <-. destruct I as [<-|[]]. cbn in E. injection E as <-. cbn in Lj. destruct j as [|j]; cbn; lia.
  - eapply rt_trans; [exact Hh|]. apply rt_step. apply (Step_var _ 2 1 0 (mkh 2 [0]%nat)); [|reflexivity]. exists (Arrays [[mkh 1 [0]%nat]]). split; [reflexivity|]. intros _ j [<-|[]]. cbn. lia.
  - eapply t_trans with (2, 0)%nat; apply t_step.
    + exists (mkh 2 [0]%nat). split; [eexists _, _; repeat split; now left|]. split; [reflexivity|now left].
    + exists (mkh 1 [0]%nat). split; [eexists _, _; repeat split; now left|]. split; [reflexivity|now left].
Qed.
(** Neither are the buffers of bins. *)
Theorem C52_bins_refuted : exists h n h', history h /\ assign_var n h 1 0 (mkh 2 [0]%nat) = Ok h' /\ history h' /\ clos_trans _ (sees h') (1, 0)%nat (1, 0)%nat.
Proof.
  assert (Hh : history [Plain; Vars [num]; Bins (mkh 1 [0]%nat)]).
  { apply (new_history [Plain; Vars [num]] (Bins (mkh 1 [0]%nat))); [apply history_2; repeat constructor|]. intros s r [<-|[]] [<-|[]]. exists (Vars [num]). split; [reflexivity|]. intros _ j [<-|[]]. cbn. lia. }
  exists [Plain; Vars [num]; Bins (mkh 1 [0]%nat)], 2%nat, [Plain; Vars [mkh 2 [0]%nat]; Bins (mkh 1 [0]%nat)]. split; [exact Hh|]. split; [reflexivity|split].
  - eapply rt_trans; [exact Hh|]. apply rt_step. apply (Step_var _ 2 1 0 (mkh 2 [0]%nat)); [|reflexivity]. exists (Bins (mkh 1 [0]%nat)). split; [reflexivity|]. intros _ j [<-|[]]. cbn. lia.
  - eapply t_trans with (2, 0)%nat; apply t_step.
    + exists (mkh 2 [0]%nat). split; [eexists _, _; repeat split; now left|]. split; [reflexivity|now left].
    + exists (mkh 1 [0]%nat). split; [eexists _, _; repeat split; now left|]. split; [reflexivity|now left].
Qed.
(** Variables are not looked into when data arrays are assigned. *)
Theorem C52_array_mixed_refuted : exists h n h', history h /\ assign_array n h 1 0 [mkh 2 [0]%nat] = Ok h' /\ history h' /\ clos_trans _ (sees h') (1, 0)%nat (1, 0)%nat.
Proof.
  assert (H2 : history [Plain; Arrays [[num]]]) by (apply (new_history [Plain] (Arrays [[num]]) history_1); intros s r [<-|[]] [<-|[]]; now apply num_valid).
  assert (Hh : history [Plain; Arrays [[num]]; Vars [mkh 1 [0]%nat]]).
  { apply (new_history [Plain; Arrays [[num]]] (Vars [mkh 1 [0]%nat]) H2). intros s r [<-|[]] [<-|[]]. exists (Arrays [[num]]). split; [reflexivity|]. intros _ j [<-|[]]. cbn. lia. }
  exists [Plain; Arrays [[num]]; Vars [mkh 1 [0]%nat]], 2%nat, [Plain; Arrays [[mkh 2 [0]%nat]]; Vars [mkh 1 [0]%nat]]. split; [exact Hh|]. split; [reflexivity|split].
  - eapply rt_trans; [exact Hh|]. apply rt_step. apply (Step_array _ 2 1 0 [mkh 2 [0]%nat]); [|reflexivity]. intros r [<-|[]]. exists (Vars [mkh 1 [0]%nat]). split; [reflexivity|]. intros _ j [<-|[]]. cbn. lia.
  - eapply t_trans with (2, 0)%nat; apply t_step.
    + exists (mkh 2 [0]%nat). split; [eexists _, _; repeat split; now left|]. split; [reflexivity|now left].
    + exists (mkh 1 [0]%nat). split; [eexists _, _; repeat split; now left|]. split; [reflexivity|now left].
Qed.
(** A coord of a data array that is an element can be set to the variable it is in; after that, checking it never ends. *)
Theorem C52_set_coord_refuted : exists h h', history h /\ set_coord h 1 0 (mkh 1 [0]%nat) = Ok h' /\ ~ no_cycle h' /\ forall n, set_check n h' true None [mkh 1 [0]%nat] = Ub.
Proof.
  exists [Plain; Arrays [[num]]], [Plain; Arrays [[num; mkh 1 [0]%nat]]]. split; [|split; [reflexivity|split]].
  - apply (new_history [Plain] (Arrays [[num]]) history_1). intros s r [<-|[]] [<-|[]]. now apply num_valid.
  - intros N. apply (N 1%nat). apply t_step. exists 0%nat, (mkh 1 [0]%nat). split; [|reflexivity]. eexists _, _. repeat split. right. now left.
  - assert (G : forall n, set_check n [Plain; Arrays [[num; mkh 1 [0]%nat]]] true None [num; mkh 1 [0]%nat] = Ub).
    { induction n as [|n IH]; [reflexivity|]. cbn -[set_check]. cbn [set_check each h_obj num nth_error bind h_vis is_at andb element]. rewrite IH. reflexivity. }
    intros [|n]; [reflexivity|]. cbn [set_check each h_obj num nth_error bind h_vis is_at andb element]. rewrite G. reflexivity.
Qed.
Print Assumptions C52_check_variable.
Print Assumptions C52_check_array.
Print Assumptions C52_rejected.
Print Assumptions C52_rejected_array.
Print Assumptions C52_no_cycle.
Print Assumptions C52_root.
Print Assumptions C52_slice_refuted.
Print Assumptions C52_mixed_refuted.
Print Assumptions C52_bins_refuted.
Print Assumptions C52_array_mixed_refuted.
Print Assumptions C52_set_coord_refuted.
