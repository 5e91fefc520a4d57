(** Property theorems about views: C06, C07, C08. *)
From Verif Require Import Base Map_Model Dims_Model Dims_Spec View_Model View_Spec View_Proofs.

Ltac wf_ex := split; [apply no_dup_NoDup; reflexivity|split; [reflexivity|split; [repeat constructor; lia|
  simpl; unfold InvalidDim; intuition lia]]].

(** C06: a slice is accepted exactly if it lies within the dimension, the result has exactly the shape
    [slice_dims] (ceil((e-b)/s) elements for a range, the dimension removed for a point, everything else
    unchanged), and its elements are those of the source at [b + s*i] / [b]. *)
Theorem C06_slice : forall v s, wfv v -> slice_ok s ->
  match slice_dims (pairs (v_dims v)) s with
  | Some p' => exists v', var_slice v s = Ok v' /\ pairs (v_dims v') = p' /\ wfv v' /\
      v_readonly v' = v_readonly v /\ v_size v' = v_size v /\
      forall ix, valid_at p' ix -> valid_at (pairs (v_dims v)) (pull (pairs (v_dims v)) (VwSlice s) ix) /\
        vaddr v' ix = vaddr v (pull (pairs (v_dims v)) (VwSlice s) ix)
  | None => var_slice v s = Throw SliceError
  end.
Proof. exact slice_accept. Qed.
Print Assumptions C06_slice.

(** C06: every slice the constructors of [Slice] accept meets [slice_ok]. *)
Theorem C06_constructors : forall d b e st s, slice_range d b e st = Ok s ->
  s = mkslice d b e st /\ slice_ok s /\ slice_eqb s slice_default = false.
Proof. exact slice_range_ok. Qed.
Print Assumptions C06_constructors.

(** C06: slicing a slice (by a point or a non-empty range) is one slice with composed begin, end and step:
    the very same view. An empty second range has no elements ([C06_slice]). *)
Theorem C06_compose : forall v d b1 e1 st1 s1 v1 b2 e2 st2 s2 v2, wfv v ->
  slice_range d b1 e1 st1 = Ok s1 -> e1 <> -1 -> var_slice v s1 = Ok v1 ->
  slice_range d b2 e2 st2 = Ok s2 -> (e2 = -1 \/ b2 < e2) -> var_slice v1 s2 = Ok v2 ->
  var_slice v (compose_slice s1 s2) = Ok v2.
Proof. exact slice_compose. Qed.
Print Assumptions C06_compose.

(** C06: slices along different dimensions commute. *)
Theorem C06_commute : forall v s1 s2 v1 v2, wfv v -> slice_ok s1 -> slice_ok s2 -> s_dim s1 <> s_dim s2 ->
  var_slice v s1 = Ok v1 -> var_slice v1 s2 = Ok v2 ->
  exists w, var_slice v s2 = Ok w /\ var_slice w s1 = Ok v2.
Proof. exact slice_commute. Qed.
Print Assumptions C06_commute.

(** x: 10, y: 3; [x 1:9:3] has elements 1, 4, 7; of these [1:3] are 4, 7; composed: [4:8:3]. *)
Definition ex_v := var_fresh (mkmap [10; 11] [10; 3]).
Example C06_ex_wf : wfv ex_v.
Proof. split; [wf_ex|]. split; [reflexivity|]. repeat constructor; lia. Qed.
Example C06_ex :
  exists v1 v2, var_slice ex_v (mkslice 10 1 9 3) = Ok v1 /\ shape (v_dims v1) = [3; 3] /\
    var_slice v1 (mkslice 10 1 3 1) = Ok v2 /\ shape (v_dims v2) = [2; 3] /\ v_offset v2 = 12 /\ v_strides v2 = [9; 1] /\
    compose_slice (mkslice 10 1 9 3) (mkslice 10 1 3 1) = mkslice 10 4 8 3 /\
    var_slice ex_v (mkslice 10 4 8 3) = Ok v2.
Proof. do 2 eexists. vm_compute. repeat split; reflexivity. Qed.
Example C06_ex_commute :
  exists v1 v2, var_slice ex_v (mkslice 10 1 9 3) = Ok v1 /\ var_slice v1 (mkslice 11 2 (-1) 1) = Ok v2 /\
    shape (v_dims v2) = [3] /\ v_offset v2 = 5.
Proof. do 2 eexists. vm_compute. repeat split; reflexivity. Qed.
Example C06_ex_reject : var_slice ex_v (mkslice 10 1 11 3) = Throw SliceError /\
  var_slice ex_v (mkslice 11 3 (-1) 1) = Throw SliceError /\ var_slice ex_v (mkslice 12 0 1 1) = Throw SliceError.
Proof. vm_compute. repeat split; reflexivity. Qed.

(** C07: any chain of slice, broadcast, fold, transpose, rename, squeeze and flatten on a fresh array is
    accepted exactly if the specification accepts it and has the specified shape; every valid index addresses an
    element inside the buffer, namely the one found by pulling the index back through the chain. (When [flatten]
    has to copy, the buffer of the copy is addressed; the element value is that of the original one.) *)
Theorem C07_chain : forall (A : Type) (buf : Z -> A) d os, wf d -> Forall op_ok os ->
  match chain_dims (pairs d) os with
  | Some p' => exists buf' v', view_chain buf (var_fresh d) os = Ok (buf', v') /\
      pairs (v_dims v') = p' /\
      (forall ix, valid_at p' ix -> 0 <= vaddr v' ix < v_size v') /\
      forall ix, valid_at p' ix -> valid_at (pairs d) (pull_chain (pairs d) os ix) /\
        buf' (vaddr v' ix) = buf (position (shape d) (map (pull_chain (pairs d) os ix) (labels d)))
  | None => exists e, view_chain buf (var_fresh d) os = Throw e
  end.
Proof.
  intros A buf d os Hd Hos. pose proof (chain_fresh buf d os Hd Hos) as Hc.
  destruct (chain_dims (pairs d) os) as [p'|]; [|exact Hc].
  destruct Hc as (buf' & v' & HE & Hp & Hb & _ & He). exists buf', v'. auto.
Qed.
Print Assumptions C07_chain.

(** Steps that share the buffer keep it: address for address. *)
Theorem C07_step : forall v o, wfv v -> op_ok o ->
  match view_dims (pairs (v_dims v)) o with
  | Some p' => exists c v', view_step v o = Ok (c, v') /\ pairs (v_dims v') = p' /\ wfv v' /\
      (c = false -> v_size v' = v_size v /\ forall ix, valid_at p' ix ->
         valid_at (pairs (v_dims v)) (pull (pairs (v_dims v)) o ix) /\
         vaddr v' ix = vaddr v (pull (pairs (v_dims v)) o ix))
  | None => exists e, view_step v o = Throw e
  end.
Proof.
  intros v o Hv Ho. destruct (wfv_SV v Hv) as (sf & Hp & Hn & Ev). clear Hv. revert Hp Hn Ev.
  generalize (pairs (v_dims v)) as p, (v_offset v) as off, (v_readonly v) as ro, (v_size v) as sz.
  intros p off ro sz Hp Hn ->. pose proof (view_step_ok p o Hp Ho sf off ro sz Hn) as Hst.
  destruct (view_dims p o) as [p'|]; [|exact Hst].
  destruct Hst as (Hw & Hv & _ & c & sf' & off' & ro' & sz' & HE & Hn' & Hc). exists c, (SV p' sf' off' ro' sz').
  split; [exact HE|]. split; [apply pairs_mk|]. split; [apply SV_wfv; assumption|]. intros ->.
  destruct Hc as (-> & _ & Hc). split; [reflexivity|]. intros ix Hix. split; [auto|]. rewrite !vaddr_SV. auto.
Qed.
Print Assumptions C07_step.

(** x: 2, y: 3 -> transposed -> [y 0:3:2] -> broadcast along z -> z, y flattened to w (needs a copy). *)
Definition ex_chain : list view_op :=
  [VwTranspose []; VwSlice (mkslice 11 0 3 2); VwRename [(10, 13)] true;
   VwBroadcast (mkmap [12; 11; 13] [2; 2; 2]); VwFlatten [12; 11] 14].
Definition ex_d : sizes := mkmap [10; 11] [2; 3].
Example C07_ex_hyps : wf ex_d /\ Forall op_ok ex_chain.
Proof.
  split; [wf_ex|]. constructor; [exact I|]. constructor; [right; simpl; lia|].
  constructor; [simpl; unfold InvalidDim; intuition lia|]. constructor; [wf_ex|].
  constructor; [simpl; unfold InvalidDim; lia|constructor].
Qed.
Example C07_ex : chain_dims (pairs ex_d) ex_chain = Some [(14, 4); (13, 2)] /\
  map (fun ab => let ix := fun k => if k =? 14 then fst ab else if k =? 13 then snd ab else 99 in
                 map (pull_chain (pairs ex_d) ex_chain ix) [10; 11])
      [(0, 0); (0, 1); (1, 0); (1, 1); (2, 0); (3, 1)] = [[0; 0]; [1; 0]; [0; 2]; [1; 2]; [0; 0]; [1; 2]] /\
  exists buf' v', view_chain (fun k => k) (var_fresh ex_d) ex_chain = Ok (buf', v') /\
    map (fun ab => let ix := fun k => if k =? 14 then fst ab else if k =? 13 then snd ab else 99 in buf' (vaddr v' ix))
        [(0, 0); (0, 1); (1, 0); (1, 1); (2, 0); (3, 1)] = [0; 3; 2; 5; 0; 5].
Proof. split; [reflexivity|]. split; [reflexivity|]. do 2 eexists. split; [reflexivity|]. vm_compute. reflexivity. Qed.
(** Fold splits x into a, b; squeeze drops the extent-1 label. *)
Definition ex_chain2 : list view_op :=
  [VwFold 10 (mkmap [20; 21; 22] [2; 1; 3]); VwSqueeze None; VwTranspose [22; 20]; VwSlice (mkslice 20 1 (-1) 1)].
Example C07_ex2 : chain_dims (pairs (mkmap [10] [6])) ex_chain2 = Some [(22, 3)] /\
  exists v', view_chain (fun k => k) (var_fresh (mkmap [10] [6])) ex_chain2 = Ok (fun k => k, v') /\
    map (fun i => vaddr v' (fun _ => i)) [0; 1; 2] = [3; 4; 5].
Proof. split; [reflexivity|]. eexists. split; reflexivity. Qed.

(** C08: in every view reached by any chain from a fresh array, if the view is not read-only then distinct
    valid indices have distinct addresses. *)
Theorem C08_writable_one_to_one : forall (A : Type) (buf buf' : Z -> A) d os v', wf d -> Forall op_ok os ->
  view_chain buf (var_fresh d) os = Ok (buf', v') -> v_readonly v' = false ->
  forall ix ix', valid_at (pairs (v_dims v')) ix -> valid_at (pairs (v_dims v')) ix' ->
    vaddr v' ix = vaddr v' ix' -> same_at (pairs (v_dims v')) ix ix'.
Proof.
  intros A buf buf' d os v' Hd Hos HE Hr. pose proof (chain_fresh buf d os Hd Hos) as Hc.
  destruct (chain_dims (pairs d) os) as [p'|]; [|destruct Hc; congruence].
  destruct Hc as (b2 & v2 & HE2 & Hp & _ & Hinj & _). rewrite HE in HE2. injection HE2 as <- <-. rewrite Hp. exact (Hinj Hr).
Qed.
Print Assumptions C08_writable_one_to_one.

(** C08: views of read-only views (sharing the buffer) are read-only. *)
Theorem C08_readonly_kept : forall v v', wfv v -> view_of v v' -> v_readonly v = true -> v_readonly v' = true.
Proof. intros v v' Hv Hvo. apply (view_of_keeps v v' Hv Hvo). Qed.
Print Assumptions C08_readonly_kept.

(** C08: a write through a read-only view is rejected; a write through a writable one changes the addressed
    element only. *)
Theorem C08_write_rejected : forall (A : Type) (buf : Z -> A) v ix x, v_readonly v = true ->
  write buf v ix x = Throw ReadonlyError.
Proof. exact @write_readonly. Qed.
Print Assumptions C08_write_rejected.
Theorem C08_write_local : forall (A : Type) (buf : Z -> A) d os buf' v' x, wf d -> Forall op_ok os ->
  view_chain buf (var_fresh d) os = Ok (buf', v') -> v_readonly v' = false ->
  forall ix, valid_at (pairs (v_dims v')) ix -> exists buf2, write buf' v' ix x = Ok buf2 /\
    buf2 (vaddr v' ix) = x /\
    forall ix', valid_at (pairs (v_dims v')) ix' -> ~ same_at (pairs (v_dims v')) ix ix' ->
      buf2 (vaddr v' ix') = buf' (vaddr v' ix').
Proof. exact @write_local. Qed.
Print Assumptions C08_write_local.

(** A broadcast that repeats elements is read-only and stays so; one that only adds an extent-1 label is writable. *)
Example C08_ex :
  (exists v1 v2, view_step (var_fresh ex_d) (VwBroadcast (mkmap [12; 10; 11] [2; 2; 3])) = Ok (false, v1) /\
     v_readonly v1 = true /\ view_step v1 (VwSlice (mkslice 12 0 (-1) 1)) = Ok (false, v2) /\ v_readonly v2 = true /\
     view_of (var_fresh ex_d) v2) /\
  (exists v1, view_step (var_fresh ex_d) (VwBroadcast (mkmap [12; 10; 11] [1; 2; 3])) = Ok (false, v1) /\
     v_readonly v1 = false).
Proof.
  split.
  - do 2 eexists. split; [reflexivity|]. split; [reflexivity|]. split; [reflexivity|]. split; [reflexivity|].
    apply vo_step with (o := VwBroadcast (mkmap [12; 10; 11] [2; 2; 3])) (v1 := mkvar (mkmap [12; 10; 11] [2; 2; 3]) [0; 3; 1] 0 true 6);
      [|reflexivity|apply vo_step with (o := VwSlice (mkslice 12 0 (-1) 1)) (v1 := mkvar (mkmap [10; 11] [2; 3]) [3; 1] 0 true 6); [|reflexivity|apply vo_self]].
    + simpl. wf_ex.
    + simpl. right. simpl. lia.
  - eexists. split; reflexivity.
Qed.
