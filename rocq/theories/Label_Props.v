(** Property theorems about dimension labels: C01. *)
From Coq Require Import String.
From Verif Require Import Base Label_Model Label_Proofs.
#[local] Open Scope string_scope.

(** C01, any number of threads: as long as no two threads construct the same new label at the same time,
    labels are equal exactly if created from equal strings, and keep their name.
    Missing from the full statement: schedules where two threads construct the same new label at the same
    time, for which the statement is false (see below). *)
Theorem C01_labels_partial : forall es, race_free es ->
  let s := reg_run reg_init es in
  (forall l i l' i', In (l, i) (handed s) -> In (l', i') (handed s) -> (i = i' <-> l = l')) /\
  (forall l i, In (l, i) (handed s) -> dim_name s i = l /\ 0 <= i <= 65535).
Proof. exact labels_ok. Qed.
Print Assumptions C01_labels_partial.

Example C01_labels_partial_ex :
  let es := [Lookup 1 "alpha"; Lookup 2 "beta"; Register 2; Lookup 3 "beta"; Register 1; Lookup 2 "x"; Lookup 2 "alpha"] in
  race_free es /\
  handed (reg_run reg_init es) = [("alpha", 1001); ("x", 19); ("alpha", 1001); ("beta", 1000); ("beta", 1000)].
Proof.
  split; [|reflexivity]. intros n. do 8 (destruct n as [|n]; [vm_compute; repeat constructor; simpl; intuition discriminate|]).
  vm_compute. repeat constructor.
Qed.

(** C01, single-threaded use: the full statement, for every sequence of constructions. *)
Theorem C01_labels_sequential : forall ls : list string,
  let s := reg_run reg_init (sequential ls) in
  (forall l i l' i', In (l, i) (handed s) -> In (l', i') (handed s) -> (i = i' <-> l = l')) /\
  (forall l i, In (l, i) (handed s) -> dim_name s i = l /\ 0 <= i <= 65535).
Proof. exact (fun ls => labels_ok (sequential ls) (sequential_race_free ls)). Qed.
Print Assumptions C01_labels_sequential.

(** Every construction hands out a label until 64536 custom labels exist. *)
Theorem C01_construct_succeeds : forall s l, pending s = [] -> zlen (custom s) < 64536 ->
  exists i, handed (reg_run s (construct l)) = (l, i) :: handed s.
Proof. exact construct_hands_out. Qed.
Print Assumptions C01_construct_succeeds.

Example C01_labels_sequential_ex :
  handed (reg_run reg_init (sequential ["x"; "bank"; "tof"; "bank"])) = [("bank", 1000); ("tof", 1001); ("bank", 1000); ("x", 19)].
Proof. reflexivity. Qed.

(** Two threads creating the same new label concurrently: the lookup is not repeated under the write
    lock, so one string gets two identities, a later label shares one of them, and the name is lost. *)
Theorem C01_labels_refuted :
  exists es l1 l2 l3 i j,
    let s := reg_run reg_init es in
    In (l1, i) (handed s) /\ In (l1, j) (handed s) /\ i <> j /\
    In (l2, j) (handed s) /\ l1 <> l2 /\
    dim_name s i = l3 /\ l3 <> l1.
Proof. exact labels_race_refuted. Qed.
Print Assumptions C01_labels_refuted.
