(** Theorems on copies, views and writes (C42). *)
From Verif Require Import Base Map_Model Map_Spec Dims_Model Dims_Spec Dims_Proofs Index_Model Index_Spec Index_Proofs
  View_Model View_Spec View_Proofs Transform_Model Transform_Spec Machine_Proofs Transform_Proofs Sharing_Model Sharing_Spec Sharing_Proofs.

(** C42: every history of creating, sharing, viewing, copying and writing shows what it shows for stores of labelled elements and
    references to elements: shapes, elements, dtypes, units, presence of variances, read-only and alignment flags of all variables. Failing
    operations change nothing. *)
Theorem C42_histories : forall (E : Type) tr (s : state E), reached tr s -> exists w, sruns (mkworld [] []) tr w /\ agrees s w.
Proof. intros E tr s Re. destruct (reached_rel tr s Re) as (w & A & B). exists w. split; [exact A|apply rel_agrees; exact B]. Qed.
Print Assumptions C42_histories.

(** C42: a deep copy shows what the original shows, is writable, and leaves all variables as they are. *)
Theorem C42_copy : forall (E : Type) tr (s : state E) i s', reached tr s -> hstep s (Copy i) (Ok tt) s' ->
  same_variable s i s' (length (st_vars s)) /\ writable s' (length (st_vars s)) /\
  (forall j, (j < length (st_vars s))%nat -> same_variable s j s' j).
Proof. exact @copy_effect. Qed.
Print Assumptions C42_copy.
(** Any variable can be copied, unless it has more dimensions than the element loop supports. *)
Theorem C42_copy_succeeds : forall (E : Type) tr (s : state E) i x, reached tr s -> nth_error (st_vars s) i = Some x ->
  (length (labels (h_dims x)) <= NDIM_OP_MAX)%nat -> exists s', hstep s (Copy i) (Ok tt) s'.
Proof. exact @copy_succeeds. Qed.
Print Assumptions C42_copy_succeeds.

(** C42: a history that never writes through a variable of the family of [i] (the variables obtained from the same creation or deep copy by
    shallow copies, views and assignment) leaves [i] as it is. *)
Theorem C42_independent : forall (E : Type) tr0 (s : state E) tr s' i f, reached tr0 s -> runs s tr s' ->
  nth_error (fst (families_after ([], 0%nat) tr0)) i = Some f -> leaves_alone (families_after ([], 0%nat) tr0) f tr -> never_rebinds i tr ->
  same_variable s i s' i.
Proof. exact @independent. Qed.
Print Assumptions C42_independent.

(** C42: after a copy, no history of writes through variables that do not come from the copy changes the copy, and no history of writes
    through variables that do not come from the original changes the original. *)
Theorem C42_copy_independent : forall (E : Type) tr0 (s : state E) i s1 tr s2, reached tr0 s -> hstep s (Copy i) (Ok tt) s1 -> runs s1 tr s2 ->
  let fs := families_after ([], 0%nat) (tr0 ++ [(Copy i, Ok tt)]) in
  exists f g, nth_error (fst fs) i = Some f /\ nth_error (fst fs) (length (st_vars s)) = Some g /\ f <> g /\
  (forall j, (j < length (st_vars s))%nat -> nth_error (fst fs) j <> Some g) /\
  (leaves_alone fs g tr -> never_rebinds (length (st_vars s)) tr -> same_variable s i s2 (length (st_vars s))) /\
  (leaves_alone fs f tr -> never_rebinds i tr -> same_variable s i s2 i).
Proof.
  intros E tr0 s i s1 tr s2 Re St Rn fs. destruct (copy_effect tr0 s i s1 Re St) as (Cn & _ & Oth). pose proof (reached_fam tr0 s Re) as (L & lab & B & C).
  destruct St as (x & X & Cs) eqn:Q. clear Q. assert (Li : (i < length (st_vars s))%nat) by (apply nth_error_Some; congruence).
  assert (Re1 : reached (tr0 ++ [(Copy i, Ok tt)]) s1) by (eapply reached_app; [exact Re|apply runs_one; exact St]).
  assert (Ef : fs = (fst (families_after ([], 0%nat) tr0) ++ [snd (families_after ([], 0%nat) tr0)], S (snd (families_after ([], 0%nat) tr0)))).
  { unfold fs, families_after. rewrite fold_left_app. reflexivity. }
  destruct (C i x X) as [Lb Fi].
  assert (Tr : forall a b c d e f0, same_variable s a s1 b -> @same_variable E s1 b c d -> e = s -> f0 = a -> same_variable e f0 c d).
  { intros a b c d e f0 (P1 & P2 & P3) (Q1 & Q2 & Q3) -> ->. split; [|split]; intros; [rewrite P1; apply Q1|rewrite P2; apply Q2|rewrite P3; apply Q3]. }
  exists (lab (h_buf x)), (snd (families_after ([], 0%nat) tr0)). rewrite Ef. cbn [fst]. split; [rewrite nth_error_app1 by lia; exact Fi|].
  split; [rewrite <- L; apply nth_error_snoc|]. split; [specialize (B _ Lb); lia|]. split.
  - intros j Lj. rewrite nth_error_app1 by lia. destruct (nth_error (st_vars s) j) as [z|] eqn:Z; [|apply nth_error_None in Z; lia].
    destruct (C j z Z) as [Lz ->]. specialize (B _ Lz). intros Q. injection Q as Q. lia.
  - rewrite <- Ef. split; intros La Nr.
    + eapply Tr; [exact Cn| |reflexivity|reflexivity]. eapply independent; [exact Re1|exact Rn| |exact La|exact Nr]. fold fs. rewrite Ef. cbn [fst]. rewrite <- L. apply nth_error_snoc.
    + eapply Tr; [exact (Oth i Li)| |reflexivity|reflexivity]. eapply independent; [exact Re1|exact Rn| |exact La|exact Nr]. fold fs. rewrite Ef. cbn [fst]. rewrite nth_error_app1 by lia. exact Fi.
Qed.
Print Assumptions C42_copy_independent.

(** C42: a view (slice, broadcast, fold, transpose, rename, squeeze, read-only view) shows the elements, unit and dtype of the original for
    all times; a write through the view changes the original exactly at the element it stands for, and a write through the original
    changes the view exactly at the elements that stand for the written one. *)
Theorem C42_shared : forall (E : Type) tr0 (s : state E) i o s1 tr s2, reached tr0 s -> hstep s (View i o) (Ok tt) s1 -> shares o -> runs s1 tr s2 ->
  never_rebinds i tr -> never_rebinds (length (st_vars s)) tr ->
  exists p p', shape_of s2 i p /\ view_dims p o = Some p' /\ shape_of s2 (length (st_vars s)) p' /\
  (forall ix, valid_at p' ix -> valid_at p (pull p o ix) /\ forall e, shows s2 (length (st_vars s)) ix e <-> shows s2 i (pull p o ix) e) /\
  (forall ob, has_object s2 (length (st_vars s)) ob <-> has_object s2 i ob) /\
  (forall ix e s3, hstep s2 (Poke (length (st_vars s)) ix e) (Ok tt) s3 -> valid_at p' ix /\ forall iy, valid_at p iy ->
     (same_at p iy (pull p o ix) -> shows s3 i iy e) /\
     (~ same_at p iy (pull p o ix) -> forall e', shows s3 i iy e' <-> shows s2 i iy e')) /\
  (forall iy e s3, hstep s2 (Poke i iy e) (Ok tt) s3 -> valid_at p iy /\ forall ix, valid_at p' ix ->
     (same_at p iy (pull p o ix) -> shows s3 (length (st_vars s)) ix e) /\
     (~ same_at p iy (pull p o ix) -> forall e', shows s3 (length (st_vars s)) ix e' <-> shows s2 (length (st_vars s)) ix e')).
Proof. exact @shared. Qed.
Print Assumptions C42_shared.

(** C42: assigning to a slice and copying into a variable store the values the source had before, also if source and target overlap in any
    way; of the variable itself nothing else changes. *)
Theorem C42_set_slice : forall (E : Type) tr0 (s : state E) i sl j s', reached tr0 s -> hstep s (SetSlice i sl j) (Ok tt) s' ->
  exists p p', shape_of s i p /\ shape_of s' i p /\ slice_dims p sl = Some p' /\
  (forall ix iy, valid_at p' ix -> valid_at p iy -> same_at p iy (pull p (VwSlice sl) ix) -> forall e, shows s' i iy e <-> shows s j ix e) /\
  (forall iy, valid_at p iy -> (forall ix, valid_at p' ix -> ~ same_at p iy (pull p (VwSlice sl) ix)) -> forall e, shows s' i iy e <-> shows s i iy e) /\
  (forall o, has_object s' i o <-> has_object s i o).
Proof. exact @set_slice_effect. Qed.
Print Assumptions C42_set_slice.
Theorem C42_copy_to : forall (E : Type) tr0 (s : state E) i j s', reached tr0 s -> hstep s (CopyTo i j) (Ok tt) s' ->
  exists p, shape_of s' j p /\ (forall ix e, valid_at p ix -> shows s' j ix e <-> shows s i ix e) /\
  (forall oi oj, has_object s i oi -> has_object s j oj ->
     has_object s' j (mkobj (o_type oj) (o_unit oi) (o_vars oj)) /\ o_type oi = o_type oj /\ o_vars oi = o_vars oj).
Proof. exact @copy_to_effect. Qed.
Print Assumptions C42_copy_to.

(** Assigning to a slice succeeds if the source fits into the slice and has the same dtype, unit and presence of variances. *)
Theorem C42_set_slice_succeeds : forall (E : Type) tr0 (s : state E) i sl j x y p', reached tr0 s -> nth_error (st_vars s) i = Some x -> nth_error (st_vars s) j = Some y -> slice_ok sl ->
  v_readonly (h_var x) = false -> slice_dims (pairs (h_dims x)) sl = Some p' -> (forall k n, has (h_dims y) k n -> In (k, n) p') -> (length p' <= NDIM_OP_MAX)%nat ->
  (forall ox oy, has_object s i ox -> has_object s j oy -> ox = oy) -> exists s', hstep s (SetSlice i sl j) (Ok tt) s'.
Proof. exact @set_slice_succeeds. Qed.
Print Assumptions C42_set_slice_succeeds.

(** C42: the unit of a variable changes by [setUnit] only through a variable that has all the elements of the buffer. *)
Theorem C42_unit_whole : forall (E : Type) tr0 (s : state E) i u s' ob, reached tr0 s -> hstep s (SetUnit i u) (Ok tt) s' -> has_object s i ob -> o_unit ob <> u ->
  (forall j, (exists o, has_object s' j o /\ ~ has_object s j o) -> has_object s' j (mkobj (o_type ob) u (o_vars ob)) /\
     forall iy e, shows s j iy e -> exists ix, shows s i ix e) /\
  forall x z iy, nth_error (st_vars s) i = Some x -> In z (st_vars s) -> h_buf z = h_buf x -> valid_at (pairs (h_dims z)) iy ->
    exists ix, valid_at (pairs (h_dims x)) ix /\ vaddr (h_var x) ix = vaddr (h_var z) iy.
Proof. exact @unit_whole. Qed.
Print Assumptions C42_unit_whole.

(** ** A concrete history: x: 2, y: 3; slice [x = 1]; deep copy; write 99 through the slice at [y = 2] *)
Definition sX : Dim := 5.
Definition sY : Dim := 6.
Definition d23 : sizes := mkmap [sX; sY] [2; 3].
Ltac wf_now := split; [repeat constructor; cbn; intuition discriminate|]; split; [reflexivity|]; split; [repeat constructor; lia|cbn; intuition discriminate].
Lemma d23_wf : wf d23. Proof. wf_now. Qed.
Definition i2 (a b : Z) : Dim -> Z := fun k => if k =? sX then a else b.
Definition sl1 : slice := mkslice sX 1 (-1) 1.
Definition mk23 : hop Z := Make d23 1 7 false (fun k => 10 + k).
Definition start23 : state Z := mkst (fun c => if (fst c =? 0)%nat then 10 + snd c else 0) [mkobj 1 7 false] [mkh (mkarr 0 (var_fresh d23)) true].
Lemma start23_reached : reached [(mk23, Ok tt)] start23.
Proof. exists (fun _ => 0). apply runs_one. split; [apply d23_wf|]. split; reflexivity. Qed.
Definition v_sl1 : var := mkvar (mkmap [sY] [3]) [1] 3 false 6.
Definition sliced23 : state Z := with_vars start23 (st_vars start23 ++ [mkh (mkarr 0 v_sl1) true]).
Lemma slice_step : hstep start23 (View 0 (VwSlice sl1)) (Ok tt) sliced23.
Proof. split; [right; cbn; lia|]. eexists. split; [reflexivity|]. vm_compute. split; reflexivity. Qed.
Lemma sliced_reached : reached [(mk23, Ok tt); (View 0 (VwSlice sl1), Ok tt)] sliced23.
Proof. exact (reached_app _ _ _ _ start23_reached (runs_one _ _ _ _ slice_step)). Qed.

Ltac valid23 := let k := fresh in let n := fresh in let I := fresh in intros k n I; cbn in I; repeat (destruct I as [I|I]; [injection I as <- <-; cbn; lia|]); destruct I.
Example C42_case : exists s1 s2, hstep sliced23 (Copy 0) (Ok tt) s1 /\ hstep s1 (Poke 1 (i2 0 2) 99) (Ok tt) s2 /\
  shows s2 0 (i2 1 2) 99 /\ shows s2 0 (i2 0 2) 12 /\ shows s2 1 (i2 0 2) 99 /\ shows s2 2 (i2 1 2) 15.
Proof.
  destruct (copy_succeeds _ sliced23 0 (mkh (mkarr 0 (var_fresh d23)) true) sliced_reached eq_refl) as [s1 Cs]; [cbn; unfold NDIM_OP_MAX; lia|].
  pose proof (copy_effect _ sliced23 0 s1 sliced_reached Cs) as (Cn & _ & Oth).
  pose proof Cs as (x & X & Cs'). injection X as <-. destruct (copy_vars _ _ _ _ _ Cs') as [(e & C & _)|(_ & Vs & _)]; [discriminate C|].
  set (s2 := mkst (hset (st_heap s1) (0%nat, vaddr v_sl1 (i2 0 2)) 99) (st_objs s1) (st_vars s1)).
  assert (Pk : hstep s1 (Poke 1 (i2 0 2) 99) (Ok tt) s2).
  { exists (mkh (mkarr 0 v_sl1) true). split; [rewrite Vs; reflexivity|]. split; [reflexivity|]. split; reflexivity. }
  assert (Re1 : reached ([(mk23, Ok tt); (View 0 (VwSlice sl1), Ok tt)] ++ [(Copy 0, Ok tt)]) s1) by (exact (reached_app _ _ _ _ sliced_reached (runs_one _ _ _ _ Cs))).
  destruct (C42_shared Z _ start23 0 (VwSlice sl1) sliced23 [(Copy 0, Ok tt)] s1 start23_reached slice_step I (runs_one _ _ _ _ Cs)) as (p & p' & Hp & Hd & Hp' & _ & _ & W & _).
  { intros o r [Q|[]]. injection Q as <- <-. discriminate. } { intros o r [Q|[]]. injection Q as <- <-. discriminate. }
  destruct Hp as (x & X & ->). rewrite Vs in X. injection X as <-. destruct (W (i2 0 2) 99 s2 Pk) as [_ W2].
  assert (V12 : valid_at (pairs (h_dims (mkh (mkarr 0 (var_fresh d23)) true))) (i2 1 2)) by valid23.
  assert (V02 : valid_at (pairs (h_dims (mkh (mkarr 0 (var_fresh d23)) true))) (i2 0 2)) by valid23.
  exists s1, s2. split; [exact Cs|]. split; [exact Pk|]. split; [|split; [|split]].
  - apply (proj1 (W2 (i2 1 2) V12)). intros k Hk. cbn in Hk. destruct Hk as [<-|[<-|[]]]; reflexivity.
  - refine (proj2 (proj2 (W2 (i2 0 2) V02) _ 12) _).
    + intros Sm. specialize (Sm sX (or_introl eq_refl)). cbn in Sm. discriminate.
    + apply (proj1 (proj2 (Oth 0%nat ltac:(cbn; lia)))). exists (mkh (mkarr 0 (var_fresh d23)) true). split; [reflexivity|]. split; [exact V02|reflexivity].
  - exists (mkh (mkarr 0 v_sl1) true). split; [cbn [s2 st_vars]; rewrite Vs; reflexivity|]. split; [valid23|]. unfold value_at. cbn [s2 st_heap h_arr a_buf a_var]. symmetry. apply hset_same.
  - assert (Sv : same_variable s1 2 s2 2).
    { refine (independent _ s1 [(Poke 1 (i2 0 2) 99, Ok tt)] s2 2 1 Re1 (runs_one _ _ _ _ Pk) _ _ _); [reflexivity| |].
      - split; [|exact I]. intros j Q. injection Q as <-. cbn. discriminate.
      - intros o r [Q|[]]. injection Q as <- <-. discriminate. }
    apply (proj1 (proj2 Sv)). apply (proj1 (proj2 Cn)). exists (mkh (mkarr 0 (var_fresh d23)) true). split; [reflexivity|]. split; [exact V12|reflexivity].
Qed.

(** The shift [y 1:3] := [y 0:2] of variable 0: source and target overlap. *)
Definition v_lo : var := mkvar (mkmap [sX; sY] [2; 2]) [3; 1] 0 false 6.
Definition lo23 : state Z := with_vars start23 (st_vars start23 ++ [mkh (mkarr 0 v_lo) true]).
Example C42_set_slice_case : exists s', hstep lo23 (SetSlice 0 (mkslice sY 1 3 1) 1) (Ok tt) s' /\
  shows s' 0 (i2 1 0) 13 /\ shows s' 0 (i2 1 1) 13 /\ shows s' 0 (i2 1 2) 14 /\ shows s' 1 (i2 1 1) 13.
Proof.
  assert (Sl : hstep start23 (View 0 (VwSlice (mkslice sY 0 2 1))) (Ok tt) lo23).
  { split; [right; cbn; lia|]. eexists. split; [reflexivity|]. vm_compute. split; reflexivity. }
  pose proof (reached_app _ _ _ _ start23_reached (runs_one _ _ _ _ Sl)) as Re.
  destruct (set_slice_succeeds _ lo23 0 (mkslice sY 1 3 1) 1 (mkh (mkarr 0 (var_fresh d23)) true) (mkh (mkarr 0 v_lo) true) [(sX, 2); (sY, 2)] Re eq_refl eq_refl) as [s' St].
  { right. cbn. lia. } { reflexivity. } { reflexivity. } { intros k n Hk. exact Hk. } { cbn. unfold NDIM_OP_MAX. lia. }
  { intros ox oy (x & X & Ox) (y & Y & Oy). injection X as <-. injection Y as <-. cbn in Ox, Oy. congruence. }
  exists s'. split; [exact St|]. destruct (set_slice_effect _ lo23 0 _ 1 s' Re St) as (p & p' & (x & X & ->) & _ & Sd & In_ & Out & _). injection X as <-. injection Sd as <-.
  assert (Vy : forall a b, 0 <= a < 2 -> 0 <= b < 3 -> valid_at (pairs d23) (i2 a b)) by (intros a b Ha Hb; valid23).
  assert (G : forall a b, 0 <= a < 2 -> 0 <= b < 2 -> shows s' 0 (i2 a (1 + b)) (10 + (3 * a + b))).
  { intros a b Ha Hb. apply (In_ (i2 a b) (i2 a (1 + b))); [valid23|apply Vy; lia| |].
    - intros k Hk. cbn in Hk. destruct Hk as [<-|[<-|[]]]; unfold i2, pull, put; cbn [s_dim s_begin s_end s_stride]; unfold sX, sY; cbn -[Z.add Z.mul]; try lia.
    - exists (mkh (mkarr 0 v_lo) true). split; [reflexivity|]. split; [valid23|]. unfold value_at, vaddr, i2, sX, sY, lo23, with_vars, start23. cbn -[Z.add Z.mul]. lia. }
  pose proof (C42_shared Z _ start23 0 _ lo23 [(SetSlice 0 (mkslice sY 1 3 1) 1, Ok tt)] s' start23_reached Sl I (runs_one _ _ _ _ St)) as (q & q' & (x & X & ->) & Vd & _ & Vw & _).
  { intros o r [Q|[]]. injection Q as <- <-. discriminate. } { intros o r [Q|[]]. injection Q as <- <-. discriminate. }
  assert (X' : nth_error (st_vars s') 0 = Some (mkh (mkarr 0 (var_fresh d23)) true)).
  { destruct (runs_keeps lo23 _ s' 0 (mkh (mkarr 0 (var_fresh d23)) true) (runs_one _ _ _ _ St)) as (z & Z & Qz); [intros o r [Q|[]]; injection Q as <- <-; discriminate|reflexivity|].
    destruct St as (_ & a & b & _ & _ & St). rewrite X in Z. injection Z as <-. destruct (do _ <- _; _) as [v|e|]; [|destruct St; discriminate|destruct St]. destruct (in_place_vars _ _ _ _ _ _ St) as [-> _]. reflexivity. }
  rewrite X' in X. injection X as <-. injection Vd as <-.
  split; [|split; [exact (G 1 0 ltac:(lia) ltac:(lia))|split; [exact (G 1 1 ltac:(lia) ltac:(lia))|]]].
  - refine (proj2 (Out (i2 1 0) (Vy 1 0 ltac:(lia) ltac:(lia)) _ 13) _).
    + intros ix Hix Sm. specialize (Sm sY ltac:(cbn; auto)). specialize (Hix sY 2 ltac:(cbn; auto)). unfold pull, put, i2, sX, sY in *. cbn -[Z.add Z.mul] in Sm. lia.
    + exists (mkh (mkarr 0 (var_fresh d23)) true). split; [reflexivity|]. split; [apply Vy; lia|reflexivity].
  - refine (proj2 (proj2 (Vw (i2 1 1) _) 13) _); [valid23|]. destruct (G 1 0 ltac:(lia) ltac:(lia)) as (z & Z & Iz & Ez). exists z. split; [exact Z|]. rewrite X' in Z. injection Z as <-. split; [valid23|]. exact Ez.
Qed.

(** ** Flatten *)
(** [flatten] returns a view of the original if the layout allows, otherwise a copy; writes through the result reach the original only in the
    first case. Variable 0 is x: 2, y: 3, variable 1 its transpose, variable 2 the flattened transpose, variable 3 the flattened original. *)
Definition dT : sizes := mkmap [sY; sX] [3; 2].
Theorem C42_flatten_shares_refuted : exists (tr : list (hop Z * res unit)) s, reached tr s /\
  tr = [(mk23, Ok tt); (View 0 (VwTranspose [sY; sX]), Ok tt); (View 1 (VwFlatten [sY; sX] 9), Ok tt); (View 0 (VwFlatten [sX; sY] 9), Ok tt);
        (Poke 2 (fun _ => 0) 99, Ok tt); (Poke 3 (fun _ => 0) 77, Ok tt)] /\
  shows s 2 (fun _ => 0) 99 /\ shows s 1 (fun _ => 0) 77 /\ shows s 0 (fun _ => 0) 77.
Proof.
  set (vt := mkvar dT [1; 3] 0 false 6). set (st := with_vars start23 (st_vars start23 ++ [mkh (mkarr 0 vt) true])).
  assert (S1 : hstep start23 (View 0 (VwTranspose [sY; sX])) (Ok tt) st).
  { split; [exact I|]. eexists. split; [reflexivity|]. vm_compute. split; reflexivity. }
  pose proof (reached_app _ _ _ _ start23_reached (runs_one _ _ _ _ S1)) as R1.
  destruct (reached_rel _ st R1) as (w & _ & Rl). destruct (rel_ref st w 1 (mkh (mkarr 0 vt) true) Rl eq_refl) as (y & _ & V).
  destruct (copy_exists st w _ y (mkvar (mkmap [9] [6]) [1] 0 false 6) Rl V) as [s2 Cs]; [cbn; unfold NDIM_OP_MAX; lia|].
  assert (S2 : hstep st (View 1 (VwFlatten [sY; sX] 9)) (Ok tt) s2).
  { split; [discriminate|]. eexists. split; [reflexivity|].
    replace (view_step _ _) with (Ok (true, mkvar (mkmap [9] [6]) [1] 0 false 6)) by (vm_compute; reflexivity). exact Cs. }
  destruct (copy_vars _ _ _ _ _ Cs) as [(e & C & _)|(_ & Vs & Lo)]; [discriminate C|]. cbn [length st_objs st with_vars start23] in Vs, Lo.
  pose proof (reached_app _ _ _ _ R1 (runs_one _ _ _ _ S2)) as R2.
  set (s3 := with_vars s2 (st_vars s2 ++ [mkh (mkarr 0 (mkvar (mkmap [9] [6]) [1] 0 false 6)) true])).
  assert (S3 : hstep s2 (View 0 (VwFlatten [sX; sY] 9)) (Ok tt) s3).
  { split; [discriminate|]. eexists. split; [rewrite Vs; reflexivity|].
    replace (view_step _ _) with (Ok (false, mkvar (mkmap [9] [6]) [1] 0 false 6)) by (vm_compute; reflexivity). split; reflexivity. }
  set (s4 := mkst (hset (st_heap s3) (1%nat, 0) 99) (st_objs s3) (st_vars s3)).
  assert (S4 : hstep s3 (Poke 2 (fun _ => 0) 99) (Ok tt) s4).
  { eexists. split; [cbn [s3 with_vars st_vars]; rewrite Vs; reflexivity|]. split; [reflexivity|]. split; reflexivity. }
  set (s5 := mkst (hset (st_heap s4) (0%nat, 0) 77) (st_objs s4) (st_vars s4)).
  assert (S5 : hstep s4 (Poke 3 (fun _ => 0) 77) (Ok tt) s5).
  { eexists. split; [cbn [s4 s3 with_vars st_vars]; rewrite Vs; reflexivity|]. split; [reflexivity|]. split; reflexivity. }
  eexists. exists s5. split; [|split; [reflexivity|]].
  - exact (reached_app _ _ [_; _; _] _ R2 (runs_cons _ _ _ _ _ _ S3 (runs_cons _ _ _ _ _ _ S4 (runs_one _ _ _ _ S5)))).
  - split; [|split].
    + eexists. split; [cbn [s5 s4 s3 with_vars st_vars]; rewrite Vs; reflexivity|]. split; [valid23|]. vm_compute. reflexivity.
    + eexists. split; [cbn [s5 s4 s3 with_vars st_vars]; rewrite Vs; reflexivity|]. split; [valid23|]. vm_compute. reflexivity.
    + eexists. split; [cbn [s5 s4 s3 with_vars st_vars]; rewrite Vs; reflexivity|]. split; [valid23|]. vm_compute. reflexivity.
Qed.
Print Assumptions C42_flatten_shares_refuted.

(** ** Setting variances *)
(** The full statement (false, below): the new variances are the elements of the argument,
    [set_variances v w u u' b values = Ok (vars, n) -> forall ix, valid_at (pairs (v_dims v)) ix -> vars (vaddr v ix) = values (vaddr w ix)]
    and the new array has as many elements as the array of values. It holds if both variables have the same layout. *)
Theorem C42_set_variances_partial : forall (A : Type) (v w : var) u u' b (values : Z -> A) vars n, wfv v -> wfv w ->
  v_dims v = v_dims w -> v_strides v = v_strides w -> v_offset v = v_offset w -> v_size v = v_size w ->
  set_variances v w u u' b values = Ok (vars, n) ->
  n = v_size v /\ forall ix, valid_at (pairs (v_dims v)) ix -> vars (vaddr v ix) = values (vaddr w ix).
Proof.
  intros A v w u u' b values vars n Wv Ww D S O Sz Q. unfold set_variances, expect_writable in Q.
  destruct (v_readonly v); [discriminate|]. cbn [bind] in Q. destruct (var_is_slice v); [discriminate|]. destruct (negb _); [discriminate|]. destruct (negb _); [discriminate|]. destruct b; [discriminate|]. injection Q as <- <-.
  split; [congruence|]. intros ix I. f_equal. unfold vaddr. congruence.
Qed.
Print Assumptions C42_set_variances_partial.
Example C42_set_variances_case : exists vars, set_variances (var_fresh d23) (var_fresh d23) 1 1 false (fun k => 10 + k) = Ok (vars, 6) /\ vars (vaddr (var_fresh d23) (i2 1 2)) = 15.
Proof. eexists. vm_compute. split; reflexivity. Qed.
(** x: 2, y: 3 from (a) row 2 to 3 of a 4 x 3 array, (b) the transpose of a 3 x 2 array, (c) a broadcast scalar: wrong variances in (a) and (b); one
    element instead of six in (c), and element [x = 1, y = 2] is read behind the end of the array. *)
Theorem C42_set_variances_refuted :
  let v := var_fresh d23 in let ix := i2 1 2 in
  (exists w vars n, var_slice (var_fresh (mkmap [sX; sY] [4; 3])) (mkslice sX 2 4 1) = Ok w /\ set_variances v w 1 1 false (fun k => 10 + k) = Ok (vars, n) /\
     valid_at (pairs (v_dims v)) ix /\ vars (vaddr v ix) = 15 /\ 10 + vaddr w ix = 21) /\
  (exists w vars n, var_transpose (var_fresh dT) [sX; sY] = Ok w /\ set_variances v w 1 1 false (fun k => 10 + k) = Ok (vars, n) /\
     vars (vaddr v (i2 0 1)) = 11 /\ 10 + vaddr w (i2 0 1) = 12) /\
  (exists w vars n, var_broadcast (var_fresh (mkmap [] [])) d23 = Ok w /\ set_variances v w 1 1 false (fun k => 10 + k) = Ok (vars, n) /\
     n = 1 /\ v_size v = 6 /\ vaddr v ix = 5).
Proof.
  cbv zeta. split; [|split].
  - do 3 eexists. split; [vm_compute; reflexivity|]. split; [vm_compute; reflexivity|]. split; [valid23|]. vm_compute. split; reflexivity.
  - do 3 eexists. split; [vm_compute; reflexivity|]. split; [vm_compute; reflexivity|]. vm_compute. split; reflexivity.
  - do 3 eexists. split; [vm_compute; reflexivity|]. split; [vm_compute; reflexivity|]. vm_compute. repeat split; reflexivity.
Qed.
Print Assumptions C42_set_variances_refuted.
