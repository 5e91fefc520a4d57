(** Proofs for histories of sharing variables. *)
From Verif Require Import Base Map_Model Map_Spec Dims_Model Dims_Spec Dims_Proofs Index_Model Index_Spec Index_Proofs
  View_Model View_Spec View_Proofs Transform_Model Transform_Spec Machine_Proofs Transform_Proofs Sharing_Model Sharing_Spec.

(** ** Threads *)
Section Threads.
Context {E : Type}.

Lemma run_unwritten (sched : list nat) c : forall (h : heap E) (ths : list (thread E)), (forall th i, In th ths -> In i (fst th) -> ~ writes1 i c) ->
  fst (run_threads sched (h, ths)) c = h c.
Proof.
  unfold run_threads. induction sched as [|t sched IH]; intros h ths W; [reflexivity|]. cbn [fold_left]. remember (step (h, ths) t) as s1 eqn:Es. unfold step in Es. cbn [snd fst] in Es.
  revert Es. destruct (nth_error ths t) as [[[|i p] regs]|] eqn:T; intros Es; try (subst s1; apply IH; exact W). pose proof (nth_error_In _ _ T) as I.
  cbv zeta in Es. subst s1. rewrite IH.
  - destruct i as [d|d f]; cbn; [reflexivity|]. apply hset_other. intros ->. apply (W _ (St d f) I); [left; reflexivity|reflexivity].
  - intros th j H1 H2. apply In_nth_error in H1 as (n & Hn). destruct (Nat.eq_dec t n) as [<-|N].
    + rewrite nth_upd in Hn by (apply nth_error_Some; congruence). injection Hn as <-. apply (W _ j I). right. exact H2.
    + rewrite nth_upd_other in Hn by exact N. apply nth_error_In in Hn. exact (W _ j Hn H2).
Qed.

Section Race.
Variable f : list E -> E.
Hypothesis F : forall a b l, f (a :: b :: l) = b.
Variable outc : Z -> cell.
Variable src : cell.
Variable h0 : heap E.
Let acall (k : Z) : list (instr E) := [Ld (outc k); Ld src; St (outc k) f].
Variable all : list Z.
Definition ok_thread (th : thread E) : Prop := exists ks, incl ks all /\
  ((fst th = flat_map acall ks /\ snd th = []) \/
   (exists k x, In k all /\ fst th = Ld src :: St (outc k) f :: flat_map acall ks /\ snd th = [x]) \/
   (exists k x, In k all /\ fst th = St (outc k) f :: flat_map acall ks /\ snd th = [x; h0 src])).
Definition race_inv (s : heap E * list (thread E)) : Prop :=
  (forall th, In th (snd s) -> ok_thread th) /\ fst s src = h0 src /\
  (forall k, In k all -> fst s (outc k) = h0 src \/ exists th, In th (snd s) /\ In (St (outc k) f) (fst th)).
Lemma race_step s t : race_inv s -> race_inv (step s t).
Proof.
  intros (T & S & P). unfold step. destruct (nth_error (snd s) t) as [[[|i p] regs]|] eqn:N; try (repeat split; assumption).
  cbv zeta. pose proof (nth_error_In _ _ N) as I. pose proof (T _ I) as (ks & K & C). cbn [fst snd] in C.
  assert (L : (t < length (snd s))%nat) by (apply nth_error_Some; congruence).
  assert (Old : forall th q r, In th (upd (snd s) t (q, r)) -> th = (q, r) \/ In th (snd s)).
  { intros th q r J. apply In_nth_error in J as (n & J). destruct (Nat.eq_dec t n) as [<-|D].
    - rewrite nth_upd in J by exact L. injection J as <-. auto.
    - rewrite nth_upd_other in J by exact D. right. apply nth_error_In in J. exact J. }
  assert (New : forall q r k, (In (St (outc k) f) (i :: p) -> fst s (outc k) = h0 src \/ In (St (outc k) f) q) ->
    (fst s (outc k) = h0 src \/ exists th, In th (snd s) /\ In (St (outc k) f) (fst th)) ->
    fst s (outc k) = h0 src \/ exists th, In th (upd (snd s) t (q, r)) /\ In (St (outc k) f) (fst th)).
  { intros q r k Q [A|(th & J & M)]; [auto|]. apply In_nth_error in J as (n & J). destruct (Nat.eq_dec t n) as [<-|D].
    - rewrite N in J. injection J as <-. destruct (Q M) as [A|A]; [auto|]. right. exists (q, r). split; [|exact A].
      apply nth_error_In with t. apply nth_upd. exact L.
    - right. exists th. split; [|exact M]. apply nth_error_In with n. rewrite nth_upd_other by exact D. exact J. }
  destruct C as [(Ep & Er)|[(k & x & Hk & Ep & Er)|(k & x & Hk & Ep & Er)]].
  - destruct ks as [|k ks]; [discriminate Ep|]. cbn in Ep. injection Ep as -> ->. subst regs. cbn [exec fst snd app].
    split; [|split; [exact S|]].
    + intros th J. apply Old in J as [->|J]; [|apply T; exact J]. exists ks. split; [intros z Z; apply K; right; exact Z|]. right. left.
      exists k, (fst s (outc k)). split; [apply K; left; reflexivity|auto].
    + intros k' Hk'. apply New; [|apply P; exact Hk']. intros [C|C]; [discriminate C|]. right. exact C.
  - injection Ep as -> ->. subst regs. cbn [exec fst snd app]. split; [|split; [exact S|]].
    + intros th J. apply Old in J as [->|J]; [|apply T; exact J]. exists ks. split; [exact K|]. right. right.
      exists k, x. split; [exact Hk|]. split; [reflexivity|]. cbn [snd]. rewrite S. reflexivity.
    + intros k' Hk'. apply New; [|apply P; exact Hk']. intros [C|C]; [discriminate C|]. right. exact C.
  - injection Ep as -> ->. subst regs. cbn [exec fst snd]. rewrite F.
    assert (W : forall c, fst s c = h0 src -> hset (fst s) (outc k) (h0 src) c = h0 src).
    { intros c Hc. unfold hset. destruct (cell_eqb c (outc k)); [reflexivity|exact Hc]. }
    split; [|split].
    + intros th J. apply Old in J as [->|J]; [|apply T; exact J]. exists ks. split; [exact K|]. left. auto.
    + apply W. exact S.
    + intros k' Hk'. destruct (cell_dec (outc k') (outc k)) as [D|D]; [left; rewrite D; apply hset_same|].
      destruct (New (flat_map acall ks) [] k') as [A|A]; [|apply P; exact Hk'|left; apply W; exact A|right; exact A].
      intros [C|C]; [|right; exact C]. injection C as C. congruence.
Qed.
Lemma race_run sched : forall s, race_inv s -> race_inv (run_threads sched s).
Proof. unfold run_threads. induction sched as [|t sched IH]; intros s I; [exact I|]. cbn [fold_left]. apply IH, race_step, I. Qed.
End Race.

Lemma assign_race (f : list E -> E) (outc : Z -> cell) (src : cell) (h0 h' : heap E) kss : (forall a b l, f (a :: b :: l) = b) ->
  may_end h0 (map (fun ks => flat_map (fun k => [Ld (outc k); Ld src; St (outc k) f]) ks) kss) h' ->
  forall k, In k (concat kss) -> h' (outc k) = h0 src.
Proof.
  intros F (sched & Fin & <-) k Hk. set (s := run_threads sched _) in *.
  assert (I : race_inv f outc src h0 (concat kss) s).
  { apply race_run; [exact F|]. split; [|split; [reflexivity|]].
    - intros th J. cbn [snd start] in J. unfold start in J. rewrite map_map in J. apply in_map_iff in J as (ks & <- & J). exists ks.
      split; [intros z Z; apply in_concat; eauto|]. left. auto.
    - intros z Z. right. apply in_concat in Z as (ks & J & Z). eexists. split; [cbn [snd]; unfold start; rewrite map_map; apply in_map; exact J|].
      cbn [fst]. apply in_flat_map. exists z. split; [exact Z|]. right. right. left. reflexivity. }
  destruct I as (_ & _ & P). destruct (P k Hk) as [A|(th & J & M)]; [exact A|]. rewrite (Fin th J) in M. destruct M.
Qed.
End Threads.

(** ** In-place operations with one operand *)
Lemma in_place_shape {A} (f : list A -> A) h out src tmp bl h1 ps : wfv (a_var out) -> wfv (a_var src) -> distinct_elements out ->
  a_buf out <> tmp -> (forall d, wf d -> tiles 0 (volume d) (bl d)) -> transform_in_place f h out [src] tmp bl = Ok (h1, ps) ->
  v_readonly (a_var out) = false /\ (forall k n, has (a_dims src) k n -> has (a_dims out) k n) /\
  exists src' kss, concat kss = zseq 0 (Z.to_nat (volume (a_dims out))) /\ fits (a_dims out) src' /\
    ps = map (fun ks => flat_map (fun k => [Ld (opcell (a_dims out) k out); Ld (opcell (a_dims out) k src'); St (opcell (a_dims out) k out) f]) ks) kss /\
    (h1 = clone_to h tmp src /\ src' = mkarr tmp (var_fresh (a_dims src)) \/ h1 = h /\ src' = src).
Proof.
  intros Hwo Hws Hdist Htmp Hb Ht. unfold transform_in_place in Ht.
  assert (Hw : Forall (fun a => wfv (a_var a)) [out; src]) by auto.
  destruct (includes_all_inv out [src] Hw) as [(u & Eu & Hinc)|[Eu _]]; rewrite Eu in Ht; cbn [bind] in Ht; [|discriminate].
  pose proof (proj1 Hwo) as Hd. fold (a_dims out) in Hd.
  unfold transform_data, expect_writable in Ht. destruct (v_readonly (a_var out)); cbn [bind] in Ht; [discriminate|].
  set (d := a_dims out) in *. split; [reflexivity|]. specialize (Hinc src (or_introl eq_refl)). split; [exact Hinc|].
  assert (Hfo : fits d out) by (split; [assumption|auto]). assert (Hone : one_cell_each d out) by exact Hdist.
  assert (Hgo : forall b g, fits d b ->
    (do dims <- merge_all d (map a_dims [b]);
     do sts <- mapM (redim dims) [out; b];
     do m <- mi_make (shape dims) sts;
     do ps <- in_place_programs f [out; b] m (volume dims) (bl dims);
     Ok (g, ps)) = Ok (h1, ps) ->
    h1 = g /\ exists kss, concat kss = zseq 0 (Z.to_nat (volume d)) /\
      ps = map (fun ks => flat_map (fun k => [Ld (opcell d k out); Ld (opcell d k b); St (opcell d k out) f]) ks) kss).
  { intros b g Hfb X. assert (Hfo' : Forall (fits d) [b]) by auto. rewrite merge_all_included in X.
    2: assumption.
    2:{ repeat constructor; apply Hfb. }
    2:{ intros e [<-|[]]. apply Hfb. }
    cbn [bind] in X. assert (Hall : Forall (fits d) [out; b]) by auto.
    rewrite redims_ok in X by assumption. cbn [bind] in X.
    destruct (mi_make _ _) as [m| |] eqn:Emi; cbn [bind] in X; try discriminate.
    destruct (in_place_programs f _ _ _ _) as [ps'| |] eqn:Eps; cbn [bind] in X; try discriminate.
    injection X as Eg Eps'. subst g ps'. split; [reflexivity|].
    destruct (in_place_programs_ok f d out [b] m (bl d) ps Hd Hall Emi) as (kss & Hk & ->); try assumption.
    { intros Hv. apply one_cell_safe; assumption. }
    { apply Hb. assumption. }
    exists kss. split; [exact Hk|reflexivity]. }
  assert (Hfs : fits d src) by (split; assumption).
  unfold handle_overlap in Ht. destruct (existsb (overlaps out) [src]); cbn [bind] in Ht.
  - pose proof (proj1 Hws) as Hwbd. fold (a_dims src) in Hwbd.
    assert (Hfc : fits d (mkarr tmp (var_fresh (a_dims src)))) by (split; [apply fresh_wfv; assumption|exact Hinc]).
    destruct (Hgo _ _ Hfc Ht) as (-> & kss & K & P). exists (mkarr tmp (var_fresh (a_dims src))), kss. auto 6.
  - destruct (Hgo _ _ Hfs Ht) as (-> & kss & K & P). exists src, kss. auto 6.
Qed.

Lemma in_place_effect {A} (f : list A -> A) h out src tmp bl h1 ps h' : wfv (a_var out) -> wfv (a_var src) -> distinct_elements out ->
  a_buf out <> tmp -> a_buf src <> tmp -> (forall d, wf d -> tiles 0 (volume d) (bl d)) ->
  transform_in_place f h out [src] tmp bl = Ok (h1, ps) -> may_end h1 ps h' ->
  v_readonly (a_var out) = false /\ (forall k n, has (a_dims src) k n -> has (a_dims out) k n) /\
  (forall c, ~ cell_of out c -> fst c <> tmp -> h' c = h c) /\
  ((forall a b l, f (a :: b :: l) = b) \/ ~ hidden_alias out src ->
   forall ix, inside (a_dims out) ix -> value_at h' out ix = f [value_at h out ix; value_at h src ix]).
Proof.
  intros Hwo Hws Hdist Hto Hts Hb Ht Hend.
  destruct (in_place_shape f h out src tmp bl h1 ps Hwo Hws Hdist Hto Hb Ht) as (Ro & Hinc & src' & kss & K & Fs & P & Alt).
  pose proof (proj1 Hwo) as Hd. fold (a_dims out) in Hd. set (d := a_dims out) in *.
  split; [exact Ro|]. split; [exact Hinc|].
  assert (Un : forall c, ~ cell_of out c -> h' c = h1 c).
  { intros c N. destruct Hend as (sched & _ & <-). apply run_unwritten. intros th i J I W. apply N.
    unfold start in J. rewrite P, map_map in J. apply in_map_iff in J as (ks & <- & J). cbn [fst] in I.
    apply in_flat_map in I as (k & Kk & I). assert (0 <= k < volume d).
    { assert (Z : In k (concat kss)) by (apply in_concat; eauto). rewrite K in Z. apply zseq_In in Z. lia. }
    destruct I as [<-|[<-|[<-|[]]]]; try (destruct W; fail). cbn in W. subst c. exists (index_of d k). split; [apply inside_index_of; assumption|reflexivity]. }
  split.
  { intros c N T. rewrite (Un c N). destruct Alt as [[-> _]|[-> _]]; [apply clone_other; exact T|reflexivity]. }
  intros Q ix Hix.
  assert (Hfo : fits d out) by (split; [assumption|auto]). assert (Hone : one_cell_each d out) by exact Hdist.
  assert (Src : forall iy, inside d iy -> inside (a_dims src) iy) by (intros iy Hy k n Hkn; apply Hy, Hinc; exact Hkn).
  destruct Q as [F|Q].
  - rewrite F. destruct Alt as [[-> Es]|[-> Es]].
    + destruct (elementwise f d out [out; src'] kss (clone_to h tmp src) h') as [Hv _]; try assumption.
      * constructor; [assumption|]. constructor; [assumption|constructor].
      * intros j k a Hj Hk [<-|[<-|[]]] X; [exact X|]. exfalso. rewrite Es in X. unfold opcell in X. injection X as X _. exact (Hto X).
      * rewrite P in Hend. exact Hend.
      * rewrite Hv by exact Hix. cbn [map]. rewrite F, Es. apply clone_value; auto.
    + subst src'. destruct (Forall_dec (fun s => s = 0) (fun s => Z.eq_dec s 0) (v_strides (a_var src))) as [Z|Z].
      * destruct (index_of_inside d ix Hd Hix) as (k & Hk & Hs).
        rewrite <- (value_same d h' out _ _ Hd Hfo Hs). rewrite <- (value_same d h src _ _ Hd Fs Hs).
        transitivity (h (a_buf src, v_offset (a_var src))); [|unfold value_at; rewrite vaddr_zeros by exact Z; reflexivity].
        change (value_at h' out (index_of d k)) with (h' (opcell d k out)).
        apply (assign_race f (fun k => opcell d k out) (a_buf src, v_offset (a_var src)) h h' kss F).
        -- rewrite P in Hend. erewrite map_ext; [exact Hend|]. intros ks. cbn beta. apply flat_map_ext. intros j. unfold opcell at 4. rewrite vaddr_zeros by exact Z. reflexivity.
        -- rewrite K. apply zseq_In. lia.
      * rewrite <- (F (value_at h out ix) (value_at h src ix) []).
        refine (proj1 (in_place_correct f h out [src] tmp bl h ps h' _ _ _ _ _ Ht Hend) ix Hix); auto.
        -- intros a [<-|[<-|[]]]; assumption.
        -- intros b [<-|[]] (_ & _ & C & _). exact (Z C).
  - refine (proj1 (in_place_correct f h out [src] tmp bl h1 ps h' _ _ _ _ _ Ht Hend) ix Hix); auto.
    + intros a [<-|[<-|[]]]; assumption.
    + intros b [<-|[]]. exact Q.
Qed.

(** ** The simulation *)
Definition pos (p : list (Dim * Z)) (y : Dim -> Z) : Z := position (extents p) (map y (keys p)).
Lemma pos_inj p y y' : valid_at p y -> valid_at p y' -> pos p y = pos p y' -> same_at p y y'.
Proof.
  intros V V' Q k Hk. apply (map_eq_in _ _ (keys p)); [|assumption]. apply valid_at_idx in V, V'. unfold pos in Q.
  rewrite <- (index_at_position _ _ V), <- (index_at_position _ _ V'), Q. reflexivity.
Qed.
Lemma pos_same p y y' : same_at p y y' -> pos p y = pos p y'.
Proof. intros S. unfold pos. f_equal. apply map_ext_in. exact S. Qed.

Section Simulation.
Context {E : Type}.
Definition rel_store (h : heap E) (b : nat) (o : object) (t : store E) : Prop :=
  lwf (s_shape t) /\ s_obj t = o /\ forall y, valid_at (s_shape t) y -> s_at t y = h (b, pos (s_shape t) y).
Definition rel_var (sts : list (store E)) (x : hvar) (y : ref) : Prop :=
  r_store y = h_buf x /\ wfv (h_var x) /\ pairs (h_dims x) = r_shape y /\ r_readonly y = v_readonly (h_var x) /\ r_aligned y = h_aligned x /\
  (v_readonly (h_var x) = false -> one_to_one (r_shape y) (h_var x)) /\
  exists t, nth_error sts (h_buf x) = Some t /\ v_size (h_var x) = vol (extents (s_shape t)) /\
    forall ix, valid_at (r_shape y) ix -> valid_at (s_shape t) (r_elem y ix) /\ vaddr (h_var x) ix = pos (s_shape t) (r_elem y ix).
Definition rel (s : state E) (w : world E) : Prop :=
  length (st_objs s) = length (w_stores w) /\ length (st_vars s) = length (w_refs w) /\
  (forall b o t, nth_error (st_objs s) b = Some o -> nth_error (w_stores w) b = Some t -> rel_store (st_heap s) b o t) /\
  (forall i x y, nth_error (st_vars s) i = Some x -> nth_error (w_refs w) i = Some y -> rel_var (w_stores w) x y).

Lemma rel_ref s w i x : rel s w -> nth_error (st_vars s) i = Some x -> exists y, nth_error (w_refs w) i = Some y /\ rel_var (w_stores w) x y.
Proof.
  intros (_ & L & _ & V) N. destruct (nth_error (w_refs w) i) as [y|] eqn:Y; [eauto|].
  apply nth_error_None in Y. assert (i < length (st_vars s))%nat by (apply nth_error_Some; congruence). lia.
Qed.
Lemma rel_obj s w x y : rel s w -> rel_var (w_stores w) x y -> exists t, nth_error (w_stores w) (h_buf x) = Some t /\
  nth_error (st_objs s) (h_buf x) = Some (object_of s x) /\ s_obj t = object_of s x /\ rel_store (st_heap s) (h_buf x) (object_of s x) t.
Proof.
  intros (L & _ & B & _) (_ & _ & _ & _ & _ & _ & t & T & _). exists t. split; [exact T|].
  assert (Hl : (h_buf x < length (st_objs s))%nat) by (rewrite L; apply nth_error_Some; congruence).
  assert (N : nth_error (st_objs s) (h_buf x) = Some (object_of s x)) by (apply nth_error_nth'; exact Hl).
  split; [exact N|]. pose proof (B _ _ _ N T) as R. split; [apply R|exact R].
Qed.
Lemma rel_obj_of s w x y : rel s w -> rel_var (w_stores w) x y -> obj_of w y (object_of s x).
Proof.
  intros R V. destruct (rel_obj s w x y R V) as (t & T & _ & O & _). exists t. destruct V as (-> & _). auto.
Qed.
Lemma rel_read s w x y ix : rel s w -> rel_var (w_stores w) x y -> valid_at (r_shape y) ix -> read w y ix (value_at (st_heap s) (h_arr x) ix).
Proof.
  intros R V Hix. destruct (rel_obj s w x y R V) as (t & T & _ & _ & _ & _ & S). exists t. destruct V as (Eb & _ & _ & _ & _ & _ & t' & T' & _ & A).
  rewrite Eb. split; [exact T|]. rewrite T in T'. injection T' as <-. destruct (A ix Hix) as [V' A']. rewrite S by exact V'. unfold value_at.
  change (vaddr (a_var (h_arr x)) ix) with (vaddr (h_var x) ix). rewrite A'. reflexivity.
Qed.
Definition keeps_shapes (sts sts' : list (store E)) : Prop :=
  forall b t, nth_error sts b = Some t -> exists t', nth_error sts' b = Some t' /\ s_shape t' = s_shape t.
Lemma rel_var_shapes sts sts' x y : keeps_shapes sts sts' -> rel_var sts x y -> rel_var sts' x y.
Proof.
  intros K (A & B & C & D & F & G & t & T & Sz & P). destruct (K _ _ T) as (t' & T' & S). repeat (split; [assumption|]). exists t'.
  split; [exact T'|]. rewrite S. auto.
Qed.
Lemma upd_shapes sts b t t' : nth_error sts b = Some t -> s_shape t' = s_shape t -> keeps_shapes sts (upd sts b t').
Proof.
  intros T S c u U. destruct (Nat.eq_dec b c) as [<-|N].
  - exists t'. rewrite nth_upd by (apply nth_error_Some; congruence). split; [reflexivity|]. congruence.
  - exists u. rewrite nth_upd_other by exact N. auto.
Qed.
Lemma app_shapes sts t : keeps_shapes sts (sts ++ [t]).
Proof. intros b u U. exists u. split; [|reflexivity]. rewrite nth_error_app1; [exact U|apply nth_error_Some; congruence]. Qed.

(** One store changes. *)
Lemma rel_change s w x y h' o' t' t : rel s w -> rel_var (w_stores w) x y -> nth_error (w_stores w) (h_buf x) = Some t ->
  s_shape t' = s_shape t -> rel_store h' (h_buf x) o' t' ->
  (forall b k, b <> h_buf x -> (b < length (st_objs s))%nat -> h' (b, k) = st_heap s (b, k)) ->
  rel (mkst h' (upd (st_objs s) (h_buf x) o') (st_vars s)) (mkworld (upd (w_stores w) (h_buf x) t') (w_refs w)).
Proof.
  intros R V T S N Oth. pose proof (rel_obj s w x y R V) as (_ & _ & No & _ & _). destruct R as (L & Lv & B & Vs). split; [|split; [|split]]; cbn [st_objs st_vars st_heap w_stores w_refs].
  - rewrite !upd_length. exact L.
  - exact Lv.
  - intros b o u Ho Hu. destruct (Nat.eq_dec (h_buf x) b) as [<-|D].
    + rewrite nth_upd in Ho by (apply nth_error_Some; congruence). rewrite nth_upd in Hu by (apply nth_error_Some; congruence). injection Ho as <-. injection Hu as <-. exact N.
    + rewrite nth_upd_other in Ho by exact D. rewrite nth_upd_other in Hu by exact D. destruct (B b o u Ho Hu) as (W & O & Q). split; [exact W|]. split; [exact O|].
      intros z Hz. rewrite (Q z Hz). symmetry. apply Oth; [congruence|]. apply nth_error_Some. congruence.
  - intros i a c Ha Hc. apply (rel_var_shapes (w_stores w)); [eapply upd_shapes; eassumption|]. eapply Vs; eassumption.
Qed.

Lemma in_place_sim g s w out src xo ys r s' : rel s w -> rel_var (w_stores w) out xo -> rel_var (w_stores w) src ys ->
  in_place_step g s out src r s' ->
  (exists e, r = Throw e /\ s' = s) \/ (r = Ok tt /\ exists w', updated g w xo ys w' /\ rel s' w').
Proof.
  intros R Vo Vs (bl & Tl & St). destruct (in_place_start bl g s out src) as [[[h1 ps] u]|e|] eqn:Q; [|left; exists e; exact St|destruct St].
  destruct St as (h' & End & -> & ->). right. split; [reflexivity|].
  unfold in_place_start in Q. destruct (includes (h_dims out) (h_dims src)) as [[|]| |]; cbn [bind negb] in Q; try discriminate Q.
  destruct (i_unit g _ _) as [u'| |] eqn:U; cbn [bind] in Q; try discriminate Q.
  destruct (expect_can_set_unit s out u') as [[]| |] eqn:Cu; cbn [bind] in Q; try discriminate Q.
  destruct (i_types g _ _) as [[]| |] eqn:Ty; cbn [bind] in Q; try discriminate Q.
  destruct (i_vars g _ _) as [[]| |] eqn:Va; cbn [bind] in Q; try discriminate Q.
  set (f := fun l => _) in Q.
  destruct (transform_in_place f _ _ _ _ bl) as [[h2 ps2]| |] eqn:Tr; cbn [bind] in Q; try discriminate Q. injection Q as -> -> ->.
  pose proof (rel_obj s w out xo R Vo) as (to & To & No & Oo & Ro). pose proof (rel_obj s w src ys R Vs) as (ts & Ts & Ns & Os & Rs).
  assert (Lo : (h_buf out < length (st_objs s))%nat) by (apply nth_error_Some; congruence).
  assert (Ls : (h_buf src < length (st_objs s))%nat) by (apply nth_error_Some; congruence).
  pose proof Vo as (Eb & Wo & Po & Rdo & Alo & Inj & t1 & T1 & Szo & Ado). rewrite To in T1. injection T1 as <-.
  pose proof Vs as (Ebs & Ws & Ps & Rds & Als & _ & t2 & T2 & Szs & Ads). rewrite Ts in T2. injection T2 as <-.
  assert (Ro' : v_readonly (h_var out) = false).
  { unfold transform_in_place in Tr. destruct (mapM _ _); cbn [bind] in Tr; try discriminate Tr. unfold transform_data, expect_writable in Tr.
    change (a_var (h_arr out)) with (h_var out) in Tr. destruct (v_readonly (h_var out)); [discriminate Tr|reflexivity]. }
  assert (Dist : distinct_elements (h_arr out)).
  { intros ix ix' I I' A. change (a_dims (h_arr out)) with (h_dims out) in *. unfold inside in I, I'. rewrite Po in I, I' |- *. apply (Inj Ro'); assumption. }
  assert (Bo : a_buf (h_arr out) <> length (st_objs s)) by (change (h_buf out <> length (st_objs s)); lia).
  assert (Bs : a_buf (h_arr src) <> length (st_objs s)) by (change (h_buf src <> length (st_objs s)); lia).
  destruct (in_place_effect f (st_heap s) (h_arr out) (h_arr src) (length (st_objs s)) bl h1 ps h' Wo Ws Dist Bo Bs Tl Tr End) as (_ & Inc & Un & Val).
  set (t' := mkstore (s_shape to) (set_unit_of (object_of s out) u) (fun y => h' (h_buf out, pos (s_shape to) y))).
  assert (InS : forall ix, valid_at (r_shape xo) ix -> valid_at (r_shape ys) ix).
  { intros ix I k n Hk. rewrite <- Po in I. apply I. rewrite <- Ps in Hk. apply Inc. exact Hk. }
  exists (mkworld (upd (w_stores w) (h_buf out) t') (w_refs w)). split.
  - exists (object_of s out), (object_of s src), u. split; [apply (rel_obj_of s w out xo R Vo)|]. split; [apply (rel_obj_of s w src ys R Vs)|].
    split; [exact U|]. split; [exact Ty|]. split; [exact Va|]. split; [congruence|]. exists to, t'. rewrite Eb. split; [exact To|]. split; [|reflexivity].
    split; [reflexivity|]. split; [reflexivity|]. cbn [s_at t']. split.
    + intros ix y I Sm Q. exists (value_at (st_heap s) (h_arr out) ix), (value_at (st_heap s) (h_arr src) ix).
      split; [apply rel_read; assumption|]. split; [apply rel_read; auto|]. rewrite (pos_same _ _ _ Sm). rewrite <- (proj2 (Ado ix I)).
      change (h' (h_buf out, vaddr (h_var out) ix)) with (value_at h' (h_arr out) ix). rewrite Val; [reflexivity| |unfold inside; change (a_dims (h_arr out)) with (h_dims out); rewrite Po; exact I].
      destruct Q as [A|Nr]; [left; intros a b l; apply A|right]. intros (Hb & _ & Hz & _ & iz & Hiz & Hc). apply Nr.
      change (a_dims (h_arr out)) with (h_dims out) in Hiz. unfold inside in Hiz. rewrite Po in Hiz. exists iz. split; [exact Hiz|].
      intros iy Hiy. split; [rewrite Eb, Ebs; exact Hb|]. intros t Ht. rewrite Eb, To in Ht. injection Ht as <-.
      assert (Eto : ts = to) by (change (h_buf out = h_buf src) in Hb; rewrite Hb in To; congruence). subst ts.
      apply pos_inj; [apply Ado; exact Hiz|apply Ads; exact Hiy|]. rewrite <- (proj2 (Ado iz Hiz)), <- (proj2 (Ads iy Hiy)).
      change (v_strides (a_var (h_arr src))) with (v_strides (h_var src)) in Hz. rewrite (vaddr_zeros (h_var src) iy Hz). injection Hc as _ Hc. symmetry. exact Hc.
    + intros y Hy No'. rewrite (proj2 (proj2 Ro) y Hy). apply Un; [|cbn [fst]; lia]. intros (ix & Hix & Hc). change (a_dims (h_arr out)) with (h_dims out) in Hix. unfold inside in Hix. rewrite Po in Hix.
      injection Hc as Hc. apply (No' ix Hix). apply pos_inj; [exact Hy|apply Ado; exact Hix|]. rewrite <- (proj2 (Ado ix Hix)). exact Hc.
  - apply (rel_change s w out xo h' _ t' to R Vo To); [reflexivity| |].
    + split; [apply Ro|]. split; [reflexivity|]. reflexivity.
    + intros b k D Lb. apply Un; [|cbn [fst]; lia]. intros (ix & _ & Hc). injection Hc as Hc _. exact (D Hc).
Qed.

Lemma nth_error_snoc {A} (l : list A) a : nth_error (l ++ [a]) (length l) = Some a.
Proof. rewrite nth_error_app2 by lia. rewrite Nat.sub_diag. reflexivity. Qed.
Lemma upd_snoc {A} (l : list A) a b : upd (l ++ [a]) (length l) b = l ++ [b].
Proof. induction l as [|c l IH]; [reflexivity|]. cbn. f_equal. exact IH. Qed.
Lemma nth_error_snoc_inv {A} (l : list A) a i x : nth_error (l ++ [a]) i = Some x -> nth_error l i = Some x \/ i = length l /\ x = a.
Proof.
  intros N. destruct (Nat.lt_ge_cases i (length l)) as [L|L]; [rewrite nth_error_app1 in N by exact L; auto|].
  rewrite nth_error_app2 in N by exact L. destruct (i - length l)%nat as [|k] eqn:D; [|destruct k; discriminate N]. cbn in N. injection N as <-. right. split; [lia|reflexivity].
Qed.

Lemma rel_push s w x y : rel s w -> rel_var (w_stores w) x y -> rel (with_vars s (st_vars s ++ [x])) (push w y).
Proof.
  intros (L & Lv & B & V) N. split; [exact L|]. split; [cbn; rewrite !app_length, Lv; reflexivity|]. split; [exact B|]. cbn [st_vars with_vars w_refs w_stores push].
  intros i a c Ha Hc. apply nth_error_snoc_inv in Ha. apply nth_error_snoc_inv in Hc.
  destruct Ha as [Ha|[-> ->]], Hc as [Hc|[Hi ->]]; [eauto| | |exact N].
  - assert (i < length (st_vars s))%nat by (apply nth_error_Some; congruence). lia.
  - assert (length (st_vars s) < length (w_refs w))%nat by (apply nth_error_Some; congruence). lia.
Qed.
Lemma rel_new_store s w o t h' : rel s w -> (forall b k, (b < length (st_objs s))%nat -> h' (b, k) = st_heap s (b, k)) ->
  rel_store h' (length (st_objs s)) o t -> rel (mkst h' (st_objs s ++ [o]) (st_vars s)) (mkworld (w_stores w ++ [t]) (w_refs w)).
Proof.
  intros (L & Lv & B & V) H' N. split; [cbn; rewrite !app_length, L; reflexivity|]. split; [exact Lv|]. cbn [st_objs st_vars st_heap w_stores w_refs]. split.
  - intros b a c Ha Hc. apply nth_error_snoc_inv in Ha. apply nth_error_snoc_inv in Hc. destruct Ha as [Ha|[-> ->]], Hc as [Hc|[Hi ->]].
    + destruct (B b a c Ha Hc) as (W & O & Q). split; [exact W|]. split; [exact O|]. intros z Hz. rewrite (Q z Hz). symmetry. apply H'. apply nth_error_Some. congruence.
    + assert (b < length (st_objs s))%nat by (apply nth_error_Some; congruence). lia.
    + assert (length (st_objs s) < length (w_stores w))%nat by (apply nth_error_Some; congruence). lia.
    + exact N.
  - intros i a c Ha Hc. apply (rel_var_shapes (w_stores w)); [apply app_shapes|eauto].
Qed.

Lemma fresh_pos d : wf d -> lwf (pairs d) /\ pairs (v_dims (var_fresh d)) = pairs d /\ one_to_one (pairs d) (var_fresh d) /\
  v_size (var_fresh d) = vol (extents (pairs d)) /\ forall ix, valid_at (pairs d) ix -> vaddr (var_fresh d) ix = pos (pairs d) ix.
Proof.
  intros Hd. destruct (var_fresh_SV d Hd) as [Hp Ef]. split; [exact Hp|]. split; [reflexivity|]. split; [rewrite Ef; apply fresh_state; exact Hp|].
  split; [rewrite Ef; reflexivity|]. intros ix Hix. rewrite fresh_vaddr by assumption. unfold pos. rewrite labels_keys, shape_extents by exact Hd. reflexivity.
Qed.

(** A view into the elements of a new store. *)
Definition view_into (p : list (Dim * Z)) (v : var) (p' : list (Dim * Z)) (el : (Dim -> Z) -> (Dim -> Z)) : Prop :=
  wfv v /\ pairs (v_dims v) = p' /\ v_readonly v = false /\ one_to_one p' v /\ v_size v = vol (extents p) /\
  forall ix, valid_at p' ix -> valid_at p (el ix) /\ vaddr v ix = pos p (el ix).

Lemma copy_sim s w x y v p' el r s' : rel s w -> rel_var (w_stores w) x y -> view_into (r_shape y) v p' el -> copy_step s x v r s' ->
  (exists e, r = Throw e /\ s' = s) \/ (r = Ok tt /\ exists w', copied_to_new w y el p' w' /\ rel s' w').
Proof.
  intros R V (Wv & Pv & Rv & Iv & Zv & Av) (r1 & s1 & St & Out). pose proof (rel_obj s w x y R V) as (tx & Tx & Nx & Ox & Rx).
  pose proof V as (Eb & Wx & Px & Rdx & Alx & _ & _). pose proof R as (L & _).
  pose proof (proj1 Wx) as Hd. fold (h_dims x) in Hd.
  destruct (fresh_pos (h_dims x) Hd) as (Hp & _ & Fi & Fz & Fa). rewrite Px in *.
  set (n := length (st_objs s)) in *. set (out := mkh (mkarr n (var_fresh (h_dims x))) (h_aligned x)) in *.
  set (s0 := mkst (st_heap s) (st_objs s ++ [object_of s x]) (st_vars s)) in *.
  set (t0 := mkstore (r_shape y) (object_of s x) (fun z => st_heap s (n, pos (r_shape y) z)) : store E).
  set (w0 := mkworld (w_stores w ++ [t0]) (w_refs w)).
  assert (R0 : rel s0 w0) by (apply rel_new_store; [exact R|reflexivity|]; split; [exact Hp|]; split; reflexivity).
  assert (V0 : rel_var (w_stores w0) x y) by (apply (rel_var_shapes (w_stores w)); [apply app_shapes|exact V]).
  assert (Vo : rel_var (w_stores w0) out (mkref n (r_shape y) (fun ix => ix) false (h_aligned x))).
  { split; [reflexivity|]. split; [apply fresh_wfv; exact Hd|]. split; [exact Px|]. split; [reflexivity|]. split; [reflexivity|]. split; [intros _; exact Fi|].
    exists t0. cbn [w_stores w0 h_buf h_arr a_buf out]. rewrite L. split; [apply nth_error_snoc|]. split; [exact Fz|]. cbn. intros ix I. split; [exact I|apply Fa; exact I]. }
  destruct (in_place_sim (copy_op E) s0 w0 out x _ y r1 s1 R0 Vo V0 St) as [(e & -> & ->)|(-> & w1 & Up & R1)]; [left; exists e; exact Out|].
  destruct Out as [-> ->]. right. split; [reflexivity|].
  destruct Up as (oo & os & u & Oo & Os & U & _ & _ & _ & t & t1 & T & (Sh & Ob & Vl & _) & W1). cbn [r_store] in *.
  assert (Et : t = t0). { cbn [w_stores w0] in T. rewrite L, nth_error_snoc in T. congruence. } subst t. cbn [s_shape t0] in Sh.
  assert (W1' : w1 = mkworld (w_stores w ++ [t1]) (w_refs w)).
  { rewrite W1. cbn [w_stores w_refs w0]. rewrite L, upd_snoc. reflexivity. }
  exists (mkworld (w_stores w ++ [t1]) (w_refs w ++ [mkref n p' el false (h_aligned x)])). split.
  - exists t1. split; [exact Sh|]. split; [|split; [|rewrite Alx; rewrite L; reflexivity]].
    + rewrite Ob. assert (Eo : oo = object_of s x). { destruct Oo as (z & Z & ->). cbn [r_store w_stores w0] in Z. rewrite L, nth_error_snoc in Z. injection Z as <-. reflexivity. }
      assert (Es : os = object_of s x). { destruct Os as (z & Z & ->). rewrite Eb in Z. cbn [w_stores w0] in Z. rewrite nth_error_app1 in Z by (apply nth_error_Some; congruence). congruence. }
      rewrite Eo, Es in *. cbn in U. injection U as <-. replace (mkobj _ _ _) with (object_of s x) by (destruct (object_of s x); reflexivity). apply (rel_obj_of s w x y R V).
    + intros ix I. specialize (Vl ix ix I ltac:(intros k _; reflexivity)). destruct (Vl ltac:(left; intros a b; reflexivity)) as (a & b & _ & (z & Z & ->) & ->).
      exists z. split; [|reflexivity]. cbn [w_stores w0] in Z. rewrite nth_error_app1 in Z; [exact Z|]. rewrite Eb. apply nth_error_Some. congruence.
  - rewrite W1' in R1. assert (Ev : st_vars s = st_vars s1).
    { destruct St as (bl & _ & St). destruct (in_place_start bl _ s0 out x) as [[[? ?] ?]| |]; [|destruct St as [C _]; discriminate C|destruct St]. destruct St as (? & _ & _ & ->). reflexivity. }
    rewrite Ev. apply (rel_push s1 (mkworld (w_stores w ++ [t1]) (w_refs w)) (mkh (mkarr n v) (h_aligned x)) (mkref n p' el false (h_aligned x)) R1).
    split; [reflexivity|]. split; [exact Wv|]. split; [exact Pv|]. split; [symmetry; exact Rv|]. split; [reflexivity|]. split; [intros _; exact Iv|].
    exists t1. cbn [w_stores h_buf h_arr a_buf]. rewrite L. split; [apply nth_error_snoc|]. rewrite Sh. split; [exact Zv|]. exact Av.
Qed.

Lemma view_sim (sts : list (store E)) x y o c v : rel_var sts x y -> op_ok o -> view_step (h_var x) o = Ok (c, v) ->
  exists p', view_dims (r_shape y) o = Some p' /\
  if c then (exists f t, o = VwFlatten f t) /\ view_into (r_shape y) v p' (pull (r_shape y) o)
  else rel_var sts (mkh (mkarr (h_buf x) v) (h_aligned x)) (mkref (r_store y) p' (fun ix => r_elem y (pull (r_shape y) o ix)) (r_readonly y || repeats (r_shape y) o) (r_aligned y)).
Proof.
  intros (Eb & Wx & Px & Rx & Al & Inj & t & T & Sz & A) Ok_ St. destruct (wfv_SV _ Wx) as (sf & Hp & Hn & Ev).
  change (v_dims (h_var x)) with (h_dims x) in *. rewrite Px in *. pose proof (view_step_ok _ o Hp Ok_ sf (v_offset (h_var x)) (v_readonly (h_var x)) (v_size (h_var x)) Hn) as Hst.
  rewrite <- Ev in Hst. destruct (view_dims (r_shape y) o) as [p'|]; [|destruct Hst as [e Hst]; congruence]. exists p'. split; [reflexivity|].
  destruct Hst as (Hw & Hval & Hi & c' & sf' & off' & ro' & sz' & Hs & Hn' & Hc). rewrite Hs in St. injection St as -> <-.
  assert (Ad : forall ix, valid_at (r_shape y) ix -> v_offset (h_var x) + asum (r_shape y) sf ix = vaddr (h_var x) ix).
  { intros ix I. rewrite Ev. rewrite vaddr_SV. reflexivity. }
  destruct c.
  - destruct Hc as (Ez & Er & Hm & Hc). split.
    { clear -Hs. unfold view_step in Hs. destruct o; try discriminate Hs; try (do 2 eexists; reflexivity); match type of Hs with context [bind ?e _] => destruct e; discriminate Hs end. }
    split; [apply SV_wfv; assumption|]. split; [apply pairs_mk|]. split; [exact Er|]. split; [|split; [exact Ez|]].
    + intros ix ix' I I' Q. rewrite !vaddr_SV, !Hc in Q by assumption. apply (Hi ix ix' Hm I I'). apply pos_inj; auto.
    + intros ix I. split; [apply Hval; exact I|]. rewrite vaddr_SV. apply Hc. exact I.
  - destruct Hc as (Ez & Er & Hc). split; [exact Eb|]. split; [apply SV_wfv; assumption|]. split; [apply pairs_mk|]. cbn [r_readonly].
    split; [rewrite Rx; symmetry; exact Er|]. split; [exact Al|]. split.
    + cbn [h_var h_arr a_var v_readonly SV r_shape]. intros Hro ix ix' I I' Q. rewrite Er in Hro. apply orb_false_iff in Hro as [Hro Hm]. rewrite !vaddr_SV, !Hc in Q by assumption.
      apply (Hi ix ix' Hm I I'). apply (Inj Hro); [apply Hval; exact I|apply Hval; exact I'|]. rewrite <- !Ad by (apply Hval; assumption). exact Q.
    + exists t. split; [exact T|]. split; [cbn [h_var h_arr a_var v_size SV]; rewrite Ez; exact Sz|]. cbn [r_shape r_elem]. intros ix I.
      pose proof (Hval ix I) as I2. destruct (A _ I2) as [B1 B2]. split; [exact B1|]. unfold h_var. cbn [h_arr a_var]. rewrite vaddr_SV, Hc by exact I. rewrite Ad by exact I2. exact B2.
Qed.

Lemma rel_upd_var s w i x y z : rel s w -> nth_error (st_vars s) i = Some z -> rel_var (w_stores w) x y ->
  rel (with_vars s (upd (st_vars s) i x)) (mkworld (w_stores w) (upd (w_refs w) i y)).
Proof.
  intros (L & Lv & B & V) Z N. split; [exact L|]. split; [cbn; rewrite !upd_length; exact Lv|]. split; [exact B|]. cbn [st_vars with_vars w_refs w_stores].
  assert (Li : (i < length (st_vars s))%nat) by (apply nth_error_Some; congruence).
  intros j a c Ha Hc. destruct (Nat.eq_dec i j) as [<-|D].
  - rewrite nth_upd in Ha by exact Li. rewrite nth_upd in Hc by lia. injection Ha as <-. injection Hc as <-. exact N.
  - rewrite nth_upd_other in Ha by exact D. rewrite nth_upd_other in Hc by exact D. eauto.
Qed.
Lemma upd_self {A} (l : list A) i x : nth_error l i = Some x -> upd l i x = l.
Proof. revert i. induction l as [|a l IH]; intros [|i] N; cbn in *; try discriminate N; [congruence|]. f_equal. auto. Qed.
Lemma within_valid d ix : within d ix = true -> valid_at (pairs d) ix.
Proof. intros W k n Hk. unfold within in W. rewrite forallb_forall in W. specialize (W _ Hk). cbn in W. lia. Qed.
Lemma fresh_view_into d : wf d -> view_into (pairs d) (var_fresh d) (pairs d) (fun ix => ix).
Proof.
  intros Hd. destruct (fresh_pos d Hd) as (_ & _ & I & Z & A). split; [apply fresh_wfv; exact Hd|]. split; [reflexivity|]. split; [reflexivity|].
  split; [exact I|]. split; [exact Z|]. intros ix V. split; [exact V|apply A; exact V].
Qed.
Lemma rel_object s w x y f : rel s w -> rel_var (w_stores w) x y -> exists t, nth_error (w_stores w) (r_store y) = Some t /\ s_obj t = object_of s x /\
  rel (with_object s (h_buf x) (f (object_of s x))) (mkworld (upd (w_stores w) (r_store y) (mkstore (s_shape t) (f (s_obj t)) (s_at t))) (w_refs w)).
Proof.
  intros R V. destruct (rel_obj s w x y R V) as (t & T & _ & O & W & _ & A). exists t. pose proof (proj1 V) as Eb. rewrite Eb. split; [exact T|]. split; [exact O|].
  unfold with_object. apply (rel_change s w x y (st_heap s) _ _ t R V T); [reflexivity| |reflexivity]. split; [exact W|]. split; [cbn; rewrite O; reflexivity|exact A].
Qed.

Theorem hstep_sim s w o r s' : rel s w -> hstep s o r s' ->
  (exists e, r = Throw e /\ s' = s) \/ (r = Ok tt /\ exists w', sstep w o w' /\ rel s' w').
Proof.
  intros R St. destruct o as [d ty un vs init|i|i o|i|i j|i p j|g i j|i ix e|i u|i|i b|i j]; cbn [hstep sstep] in *.
  - destruct St as (Hd & -> & ->). right. split; [reflexivity|]. pose proof R as (L & _). destruct (fresh_pos d Hd) as (Hp & _ & I & Z & A).
    set (t := mkstore (pairs d) (mkobj ty un vs) (fun ix => init (pos (pairs d) ix)) : store E).
    set (w1 := mkworld (w_stores w ++ [t]) (w_refs w)). exists (push w1 (mkref (length (w_stores w)) (pairs d) (fun ix => ix) false true)). split.
    + exists t. split; [reflexivity|]. split; [reflexivity|]. split; [reflexivity|reflexivity].
    + set (h' := fun c => _). apply (rel_push (mkst h' (st_objs s ++ [mkobj ty un vs]) (st_vars s)) w1).
      * apply rel_new_store; [exact R| |].
        -- intros b k Lb. unfold h'. cbn [fst]. replace (b =? _)%nat with false; [reflexivity|]. symmetry. apply Nat.eqb_neq. lia.
        -- split; [exact Hp|]. split; [reflexivity|]. intros y Hy. unfold h'. cbn [fst snd]. rewrite Nat.eqb_refl. reflexivity.
      * split; [cbn; lia|]. split; [apply fresh_wfv; exact Hd|]. split; [reflexivity|]. split; [reflexivity|]. split; [reflexivity|]. split; [intros _; exact I|].
        exists t. cbn [w_stores w1 h_buf h_arr a_buf]. rewrite L. split; [apply nth_error_snoc|]. split; [exact Z|]. intros ix V. split; [exact V|apply A; exact V].
  - destruct St as (x & X & -> & ->). right. split; [reflexivity|]. destruct (rel_ref s w i x R X) as (y & Y & V). exists (push w y).
    split; [eauto|]. apply rel_push; assumption.
  - destruct St as (Ok_ & x & X & St). destruct (rel_ref s w i x R X) as (y & Y & V).
    destruct (view_step (h_var x) o) as [[c v]|e|] eqn:Vs; [|left; exists e; exact St|destruct St].
    destruct (view_sim (w_stores w) x y o c v V Ok_ Vs) as (p' & Vd & Res). destruct c.
    + destruct Res as [Fl Vi]. destruct (copy_sim s w x y v p' _ r s' R V Vi St) as [F|(-> & w' & C & R')]; [left; exact F|right]. split; [reflexivity|].
      exists w'. split; [|exact R']. exists y, p'. split; [exact Y|]. split; [exact Vd|]. right. auto.
    + destruct St as [-> ->]. right. split; [reflexivity|]. eexists. split; [exists y, p'; split; [exact Y|]; split; [exact Vd|]; left; reflexivity|].
      apply rel_push; [exact R|exact Res].
  - destruct St as (x & X & St). destruct (rel_ref s w i x R X) as (y & Y & V). pose proof V as (_ & Wx & Px & _).
    assert (Vi : view_into (r_shape y) (var_fresh (h_dims x)) (r_shape y) (fun ix => ix)) by (rewrite <- Px; apply fresh_view_into; apply Wx).
    destruct (copy_sim s w x y _ _ _ r s' R V Vi St) as [F|(-> & w' & C & R')]; [left; exact F|right]. split; [reflexivity|]. exists w'. eauto.
  - destruct St as (x & z & X & Z & St). destruct (rel_ref s w i x R X) as (x' & X' & Vx). destruct (rel_ref s w j z R Z) as (z' & Z' & Vz).
    destruct (in_place_sim _ s w z x z' x' r s' R Vz Vx St) as [F|(-> & w' & C & R')]; [left; exact F|right]. split; [reflexivity|]. exists w'. split; [|exact R']. exists x', z'. auto.
  - destruct St as (Hp & x & z & X & Z & St). destruct (rel_ref s w i x R X) as (x' & X' & Vx). destruct (rel_ref s w j z R Z) as (z' & Z' & Vz).
    destruct (validate_slice s x p z) as [[]|e|]; cbn [bind] in St; [|left; exists e; exact St|destruct St].
    destruct (var_slice (h_var x) p) as [v|e|] eqn:Sl; [|left; exists e; exact St|destruct St].
    assert (Vs : view_step (h_var x) (VwSlice p) = Ok (false, v)) by (cbn; rewrite Sl; reflexivity).
    destruct (view_sim (w_stores w) x x' (VwSlice p) false v Vx Hp Vs) as (p' & Vd & Vv).
    destruct (in_place_sim _ s w _ z _ z' r s' R Vv Vz St) as [F|(-> & w' & C & R')]; [left; exact F|right]. split; [reflexivity|]. exists w'. split; [|exact R'].
    exists x', z', p'. split; [exact X'|]. split; [exact Z'|]. split; [exact Vd|]. cbn [repeats] in C. rewrite orb_false_r in C. exact C.
  - destruct St as (x & z & X & Z & St). destruct (rel_ref s w i x R X) as (x' & X' & Vx). destruct (rel_ref s w j z R Z) as (z' & Z' & Vz).
    destruct (in_place_sim _ s w x z x' z' r s' R Vx Vz St) as [F|(-> & w' & C & R')]; [left; exact F|right]. split; [reflexivity|]. exists w'. split; [|exact R']. exists x', z'. auto.
  - destruct St as (x & X & Win & St). destruct (rel_ref s w i x R X) as (y & Y & V). unfold expect_writable in St.
    destruct (v_readonly (h_var x)) eqn:Ro; [left; eexists; exact St|right]. destruct St as [-> ->]. split; [reflexivity|].
    destruct (rel_obj s w x y R V) as (t & T & No & Oo & Wt & _ & At). pose proof V as (Eb & Wx & Px & Rd & _ & Inj & t2 & T2 & _ & Ad). rewrite T in T2. injection T2 as <-.
    specialize (Inj Ro). apply within_valid in Win. rewrite Px in Win.
    set (h' := hset (st_heap s) (h_buf x, vaddr (h_var x) ix) e). set (t' := mkstore (s_shape t) (s_obj t) (fun z => h' (h_buf x, pos (s_shape t) z)) : store E).
    exists (mkworld (upd (w_stores w) (h_buf x) t') (w_refs w)). split.
    + exists y, (object_of s x). split; [exact Y|]. split; [congruence|]. split; [apply (rel_obj_of s w x y R V)|]. exists t, t'. rewrite Eb. split; [exact T|]. split; [|reflexivity].
      split; [reflexivity|]. split; [exact Oo|]. cbn [s_at t']. split.
      * intros iy z I Sm. rewrite (pos_same _ _ _ Sm). rewrite <- (proj2 (Ad iy I)). split; intros Q.
        -- assert (Ea : vaddr (h_var x) iy = vaddr (h_var x) ix).
           { apply (vaddr_same (h_dims x) (h_arr x)); [apply Wx|split; [exact Wx|intros k n Hk; exact Hk]|rewrite Px; exact Q]. }
           unfold h'. rewrite Ea. apply hset_same.
        -- unfold h'. rewrite hset_other; [apply (rel_read s w x y iy R V I)|]. intros Hc. injection Hc as Hc. apply Q. apply Inj; auto.
      * intros z Hz N. unfold h'. rewrite hset_other; [symmetry; apply At; exact Hz|]. intros Hc. injection Hc as Hc. apply (N ix Win).
        apply pos_inj; [exact Hz|apply Ad; exact Win|]. rewrite <- (proj2 (Ad ix Win)). congruence.
    + pose proof (rel_change s w x y h' (object_of s x) t' t R V T) as Rc. rewrite (upd_self _ _ _ No) in Rc. apply Rc; [reflexivity| |].
      * split; [exact Wt|]. split; [exact Oo|reflexivity].
      * intros b k D _. apply hset_other. congruence.
  - destruct St as (x & X & St). destruct (rel_ref s w i x R X) as (y & Y & V). unfold expect_writable in St.
    destruct (v_readonly (h_var x)) eqn:Ro; cbn [bind] in St; [left; eexists; exact St|]. destruct (expect_can_set_unit s x u) as [[]|e|]; [|left; exists e; exact St|destruct St].
    destruct St as [-> ->]. right. split; [reflexivity|]. destruct (rel_object s w x y (fun o => set_unit_of o u) R V) as (t & T & _ & R').
    eexists. split; [|exact R']. exists y, t. split; [exact Y|]. split; [destruct V as (_ & _ & _ & -> & _); exact Ro|]. split; [exact T|reflexivity].
  - destruct St as (x & X & St). destruct (rel_ref s w i x R X) as (y & Y & V). unfold expect_writable in St.
    destruct (v_readonly (h_var x)) eqn:Ro; cbn [bind] in St; [left; eexists; exact St|]. destruct (var_is_slice (h_var x)); [left; eexists; exact St|].
    destruct St as [-> ->]. right. split; [reflexivity|]. destruct (rel_object s w x y (fun o => mkobj (o_type o) (o_unit o) false) R V) as (t & T & _ & R').
    eexists. split; [|exact R']. exists y, t. split; [exact Y|]. split; [destruct V as (_ & _ & _ & -> & _); exact Ro|]. split; [exact T|reflexivity].
  - destruct St as (x & X & -> & ->). right. split; [reflexivity|]. destruct (rel_ref s w i x R X) as (y & Y & V). eexists. split; [exists y; split; [exact Y|reflexivity]|].
    apply (rel_upd_var s w i _ _ x R X). destruct V as (V1 & V2 & V3 & V4 & _ & V5). split; [exact V1|]. split; [exact V2|]. split; [exact V3|]. split; [exact V4|]. split; [reflexivity|exact V5].
  - destruct St as (x & z & X & Z & -> & ->). right. split; [reflexivity|]. destruct (rel_ref s w j z R Z) as (z' & Z' & Vz). destruct (rel_ref s w i x R X) as (x' & X' & _).
    exists (mkworld (w_stores w) (upd (w_refs w) i z')). split; [exists x', z'; auto|]. apply (rel_upd_var s w i _ _ x R X Vz).
Qed.

Theorem runs_sim s tr s' : runs s tr s' -> forall w, rel s w -> exists w', sruns w tr w' /\ rel s' w'.
Proof.
  induction 1 as [s|s o r s1 tr s2 St Rn IH]; intros w R; [exists w; split; [constructor|exact R]|].
  destruct (hstep_sim s w o r s1 R St) as [(e & -> & ->)|(-> & w1 & Ss & R1)].
  - destruct (IH w R) as (w' & A & B). exists w'. split; [apply sruns_fail; exact A|exact B].
  - destruct (IH w1 R1) as (w' & A & B). exists w'. split; [apply sruns_ok with w1; assumption|exact B].
Qed.
Lemma rel_empty h : rel (empty_state h) (mkworld [] []).
Proof. split; [reflexivity|]. split; [reflexivity|]. split; intros [|?]; discriminate. Qed.
End Simulation.

(** ** Consequences *)
Section Histories.
Context {E : Type}.
Notation state := (state E).

Lemma reached_rel tr (s : state) : reached tr s -> exists w, sruns (mkworld [] []) tr w /\ rel s w.
Proof. intros [h R]. exact (runs_sim _ _ _ R _ (rel_empty h)). Qed.
Lemma runs_app (s : state) tr s1 tr' s2 : runs s tr s1 -> runs s1 tr' s2 -> runs s (tr ++ tr') s2.
Proof. induction 1; intros; [assumption|]. cbn. econstructor; eauto. Qed.
Lemma runs_one (s : state) o r s' : hstep s o r s' -> runs s [(o, r)] s'.
Proof. intros St. econstructor; [exact St|constructor]. Qed.
Lemma reached_app tr (s : state) tr' s' : reached tr s -> runs s tr' s' -> reached (tr ++ tr') s'.
Proof. intros [h R] R'. exists h. eapply runs_app; eassumption. Qed.

Lemma in_place_vars g (s : state) out src r s' : in_place_step g s out src r s' -> st_vars s' = st_vars s /\ length (st_objs s') = length (st_objs s).
Proof.
  intros (bl & _ & St). destruct (in_place_start bl g s out src) as [[[h1 ps] u]|e|]; [|destruct St as [_ ->]; auto|destruct St].
  destruct St as (h' & _ & _ & ->). cbn. rewrite upd_length. auto.
Qed.
Lemma copy_vars (s : state) x v r s' : copy_step s x v r s' -> (exists e, r = Throw e /\ s' = s) \/
  r = Ok tt /\ st_vars s' = st_vars s ++ [mkh (mkarr (length (st_objs s)) v) (h_aligned x)] /\ length (st_objs s') = S (length (st_objs s)).
Proof.
  intros (r1 & s1 & St & Out). pose proof (in_place_vars _ _ _ _ _ _ St) as [V L]. destruct r1 as [[]|e|]; [|left; eauto|destruct Out].
  destruct Out as [-> ->]. right. split; [reflexivity|]. split; [reflexivity|]. cbn in *. rewrite L, app_length. cbn. lia.
Qed.

(** A variable keeps its buffer and view until it is rebound. *)
Lemma hstep_keeps (s : state) o r s' i x : hstep s o r s' -> rebinds o <> Some i -> nth_error (st_vars s) i = Some x ->
  exists x', nth_error (st_vars s') i = Some x' /\ h_arr x' = h_arr x.
Proof.
  intros St Nr X. assert (Li : (i < length (st_vars s))%nat) by (apply nth_error_Some; congruence).
  assert (App : forall z, nth_error (st_vars s ++ [z]) i = Some x) by (intros z; rewrite nth_error_app1 by exact Li; exact X).
  destruct o as [d ty un vs init|j|j o|j|j k|j p k|g j k|j ix e|j u|j|j b|j k]; cbn [hstep] in St.
  - destruct St as (_ & _ & ->). exists x. cbn. auto.
  - destruct St as (z & _ & _ & ->). exists x. cbn. auto.
  - destruct St as (_ & z & _ & St). destruct (view_step (h_var z) o) as [[[|] v]|e|]; [|destruct St as [_ ->]; exists x; cbn; auto|destruct St as [_ ->]; eauto|destruct St].
    destruct (copy_vars _ _ _ _ _ St) as [(e & _ & ->)|(_ & -> & _)]; eauto.
  - destruct St as (z & _ & St). destruct (copy_vars _ _ _ _ _ St) as [(e & _ & ->)|(_ & -> & _)]; eauto.
  - destruct St as (a & c & _ & _ & St). destruct (in_place_vars _ _ _ _ _ _ St) as [-> _]. eauto.
  - destruct St as (_ & a & c & _ & _ & St). destruct (do _ <- _; _) as [v|e|]; [|destruct St as [_ ->]; eauto|destruct St].
    destruct (in_place_vars _ _ _ _ _ _ St) as [-> _]. eauto.
  - destruct St as (a & c & _ & _ & St). destruct (in_place_vars _ _ _ _ _ _ St) as [-> _]. eauto.
  - destruct St as (a & _ & _ & St). destruct (expect_writable _) as [v|e'|]; [destruct St as [_ ->]; eauto|destruct St as [_ ->]; eauto|destruct St].
  - destruct St as (a & _ & St). destruct (do _ <- _; _) as [v|e'|]; [destruct St as [_ ->]; eauto|destruct St as [_ ->]; eauto|destruct St].
  - destruct St as (a & _ & St). destruct (do _ <- _; _) as [v|e'|]; [destruct St as [_ ->]; eauto|destruct St as [_ ->]; eauto|destruct St].
  - destruct St as (a & A & _ & ->). cbn [st_vars with_vars]. destruct (Nat.eq_dec j i) as [<-|D].
    + rewrite nth_upd by exact Li. eexists. split; [reflexivity|]. cbn. congruence.
    + rewrite nth_upd_other by exact D. eauto.
  - destruct St as (a & c & A & _ & _ & ->). cbn [st_vars with_vars]. rewrite nth_upd_other by (cbn in Nr; congruence). eauto.
Qed.
Lemma runs_keeps (s : state) tr s' i x : runs s tr s' -> never_rebinds i tr -> nth_error (st_vars s) i = Some x ->
  exists x', nth_error (st_vars s') i = Some x' /\ h_arr x' = h_arr x.
Proof.
  intros R. revert x. induction R as [s|s o r s1 tr s2 St Rn IH]; intros x Nr X; [eauto|].
  destruct (hstep_keeps s o r s1 i x St (Nr o r (or_introl eq_refl)) X) as (x1 & X1 & Q). rewrite <- Q. apply IH; [|exact X1].
  intros o' r' I. apply (Nr o' r'). right. exact I.
Qed.

(** Stores that are not written keep their contents. *)
Lemma sstep_others (w : world E) o w' b : sstep w o w' -> (b < length (w_stores w))%nat ->
  (forall i x, writes_through o = Some i -> nth_error (w_refs w) i = Some x -> r_store x <> b) ->
  nth_error (w_stores w') b = nth_error (w_stores w) b.
Proof.
  intros St Lb W. assert (New : forall x el p w', copied_to_new w x el p w' -> nth_error (w_stores w') b = nth_error (w_stores w) b).
  { intros x el p w1 (t & _ & _ & _ & ->). cbn. apply nth_error_app1. exact Lb. }
  assert (Wr : forall x val o' w', written w x val o' w' -> r_store x <> b -> nth_error (w_stores w') b = nth_error (w_stores w) b).
  { intros x val o' w1 (t & t' & _ & _ & ->) D. cbn. apply nth_upd_other. exact D. }
  destruct o as [d ty un vs init|i|i o|i|i j|i p j|g i j|i ix e|i u|i|i c|i j]; cbn [sstep writes_through] in *.
  - destruct St as (t & _ & _ & _ & ->). cbn. apply nth_error_app1. exact Lb.
  - destruct St as (x & _ & ->). reflexivity.
  - destruct St as (x & p' & _ & _ & [->|[_ C]]); [reflexivity|eauto].
  - destruct St as (x & _ & C). eauto.
  - destruct St as (x & y & X & Y & Up). destruct Up as (? & ? & ? & _ & _ & _ & _ & _ & _ & Wn). eapply Wr; [exact Wn|]. eapply W; eauto.
  - destruct St as (x & y & p' & X & Y & _ & Up). destruct Up as (? & ? & ? & _ & _ & _ & _ & _ & _ & Wn). eapply Wr; [exact Wn|]. cbn. eapply W; eauto.
  - destruct St as (x & y & X & Y & Up). destruct Up as (? & ? & ? & _ & _ & _ & _ & _ & _ & Wn). eapply Wr; [exact Wn|]. eapply W; eauto.
  - destruct St as (x & ox & X & _ & _ & Wn). eapply Wr; [exact Wn|]. eapply W; eauto.
  - destruct St as (x & t & X & _ & _ & ->). cbn. apply nth_upd_other. eapply W; eauto.
  - destruct St as (x & t & X & _ & _ & ->). cbn. apply nth_upd_other. eapply W; eauto.
  - destruct St as (x & _ & ->). reflexivity.
  - destruct St as (x & y & _ & _ & ->). reflexivity.
Qed.

(** Families: variables on one buffer belong to one family. *)
Definition fam_ok (s : state) (fs : list nat * nat) : Prop :=
  length (fst fs) = length (st_vars s) /\ exists lab : nat -> nat,
  (forall b, (b < length (st_objs s))%nat -> (lab b < snd fs)%nat) /\
  forall i x, nth_error (st_vars s) i = Some x -> (h_buf x < length (st_objs s))%nat /\ nth_error (fst fs) i = Some (lab (h_buf x)).
Lemma fam_same (s s' : state) fs : st_vars s' = st_vars s -> length (st_objs s') = length (st_objs s) -> fam_ok s fs -> fam_ok s' fs.
Proof. intros V L (A & lab & B & C). split; [congruence|]. exists lab. rewrite L, V. auto. Qed.
Lemma fam_push (s s' : state) fs i x z : fam_ok s fs -> nth_error (st_vars s) i = Some x -> h_buf z = h_buf x -> st_vars s' = st_vars s ++ [z] ->
  length (st_objs s') = length (st_objs s) -> fam_ok s' (fst fs ++ [nth i (fst fs) 0%nat], snd fs).
Proof.
  intros (A & lab & B & C) X Z V L. destruct (C i x X) as [Lb Fx]. split; [cbn; rewrite V, !app_length, A; reflexivity|]. exists lab. rewrite L. split; [exact B|].
  intros j y Y. rewrite V in Y. apply nth_error_snoc_inv in Y. cbn [fst]. destruct Y as [Y|[-> ->]].
  - destruct (C j y Y) as [L1 L2]. split; [exact L1|]. rewrite nth_error_app1; [exact L2|]. apply nth_error_Some. congruence.
  - rewrite Z. split; [exact Lb|]. rewrite <- A, nth_error_snoc. f_equal. apply nth_error_nth. exact Fx.
Qed.
Lemma fam_new (s s' : state) fs z f n : fam_ok s fs -> h_buf z = length (st_objs s) -> st_vars s' = st_vars s ++ [z] ->
  length (st_objs s') = S (length (st_objs s)) -> (f < n)%nat -> (snd fs <= n)%nat -> fam_ok s' (fst fs ++ [f], n).
Proof.
  intros (A & lab & B & C) Z V L F N. split; [cbn; rewrite V, !app_length, A; reflexivity|].
  exists (fun b => if (b =? length (st_objs s))%nat then f else lab b). rewrite L. cbn [fst snd]. split.
  - intros b Hb. destruct (Nat.eqb_spec b (length (st_objs s))); [exact F|]. specialize (B b ltac:(lia)). lia.
  - intros j y Y. rewrite V in Y. apply nth_error_snoc_inv in Y. destruct Y as [Y|[-> ->]].
    + destruct (C j y Y) as [L1 L2]. split; [lia|]. destruct (Nat.eqb_spec (h_buf y) (length (st_objs s))); [lia|]. rewrite nth_error_app1; [exact L2|]. apply nth_error_Some. congruence.
    + rewrite Z, Nat.eqb_refl. split; [lia|]. rewrite <- A. apply nth_error_snoc.
Qed.
Lemma hstep_fam (s : state) o r s' fs : hstep s o r s' -> fam_ok s fs -> fam_ok s' (families fs o r).
Proof.
  intros St F. assert (Fail : forall e, r = Throw e -> s' = s -> fam_ok s' (families fs o r)) by (intros e -> ->; exact F).
  destruct o as [d ty un vs init|j|j o|j|j k|j p k|g j k|j ix e|j u|j|j b|j k]; cbn [hstep] in St.
  - destruct St as (_ & -> & ->). cbn. eapply fam_new; [exact F| | | | |]; try reflexivity; cbn; rewrite ?app_length; cbn; lia.
  - destruct St as (z & Z & -> & ->). cbn. eapply fam_push; [exact F|exact Z| | |]; reflexivity.
  - destruct St as (_ & z & Z & St). destruct (view_step (h_var z) o) as [[[|] v]|e|]; [| |destruct St; eauto|destruct St].
    + destruct (copy_vars _ _ _ _ _ St) as [(e & -> & ->)|(-> & V & L)]; [eauto|]. cbn. pose proof F as (A & lab & B & C). destruct (C j z Z) as [L1 L2].
      refine (fam_new s s' fs _ _ _ F _ V L _ _); [reflexivity| |lia]. rewrite (nth_error_nth _ _ _ L2). apply B. exact L1.
    + destruct St as [-> ->]. cbn. refine (fam_push s _ fs j z (mkh (mkarr (h_buf z) v) (h_aligned z)) F Z _ _ _); reflexivity.
  - destruct St as (z & Z & St). destruct (copy_vars _ _ _ _ _ St) as [(e & -> & ->)|(-> & V & L)]; [eauto|]. cbn. refine (fam_new s s' fs _ _ _ F _ V L _ _); [reflexivity|lia|lia].
  - destruct St as (a & c & _ & _ & St). destruct (in_place_vars _ _ _ _ _ _ St) as [V L]. replace (families _ _ _) with fs by (destruct r; reflexivity). eapply fam_same; eauto.
  - destruct St as (_ & a & c & _ & _ & St). destruct (do _ <- _; _) as [v|e|]; [|destruct St; eauto|destruct St].
    destruct (in_place_vars _ _ _ _ _ _ St) as [V L]. replace (families _ _ _) with fs by (destruct r; reflexivity). eapply fam_same; eauto.
  - destruct St as (a & c & _ & _ & St). destruct (in_place_vars _ _ _ _ _ _ St) as [V L]. replace (families _ _ _) with fs by (destruct r; reflexivity). eapply fam_same; eauto.
  - destruct St as (a & _ & _ & St). destruct (expect_writable _) as [v|e'|]; [|destruct St; eauto|destruct St]. destruct St as [-> ->]. eapply fam_same; [| |exact F]; reflexivity.
  - destruct St as (a & _ & St). destruct (do _ <- _; _) as [v|e'|]; [|destruct St; eauto|destruct St]. destruct St as [-> ->]. eapply fam_same; [| |exact F]; [reflexivity|]. cbn. apply upd_length.
  - destruct St as (a & _ & St). destruct (do _ <- _; _) as [v|e'|]; [|destruct St; eauto|destruct St]. destruct St as [-> ->]. eapply fam_same; [| |exact F]; [reflexivity|]. cbn. apply upd_length.
  - destruct St as (a & A & -> & ->). cbn. destruct F as (L & lab & B & C). split; [cbn; rewrite upd_length; exact L|]. exists lab. split; [exact B|]. cbn [st_vars with_vars].
    intros i x X. destruct (Nat.eq_dec j i) as [<-|D].
    + rewrite nth_upd in X by (apply nth_error_Some; congruence). injection X as <-. apply (C j a A).
    + rewrite nth_upd_other in X by exact D. apply (C i x X).
  - destruct St as (a & c & A & Cc & -> & ->). cbn. destruct F as (L & lab & B & C). split; [cbn; rewrite !upd_length; exact L|]. exists lab. split; [exact B|]. cbn [st_vars with_vars fst].
    assert (Lj : (j < length (st_vars s))%nat) by (apply nth_error_Some; congruence).
    intros i x X. destruct (Nat.eq_dec j i) as [<-|D].
    + rewrite nth_upd in X by exact Lj. injection X as <-. destruct (C k c Cc) as [C1 C2]. split; [exact C1|]. rewrite nth_upd by lia. f_equal. apply nth_error_nth. exact C2.
    + rewrite nth_upd_other in X by exact D. rewrite nth_upd_other by exact D. apply (C i x X).
Qed.
Lemma fam_empty h : fam_ok (empty_state h) ([], 0%nat).
Proof. split; [reflexivity|]. exists (fun b => b). split; [cbn; lia|]. intros [|i]; discriminate. Qed.
Lemma runs_fam (s : state) tr s' : runs s tr s' -> forall fs, fam_ok s fs -> fam_ok s' (families_after fs tr).
Proof. induction 1 as [s|s o r s1 tr s2 St Rn IH]; intros fs F; [exact F|]. apply IH. eapply hstep_fam; eassumption. Qed.
Lemma reached_fam tr (s : state) : reached tr s -> fam_ok s (families_after ([], 0%nat) tr).
Proof. intros [h R]. exact (runs_fam _ _ _ R _ (fam_empty h)). Qed.

Lemma runs_unwritten (s : state) tr s' b : runs s tr s' -> forall w fs f, rel s w -> fam_ok s fs ->
  (exists i x, nth_error (st_vars s) i = Some x /\ h_buf x = b /\ nth_error (fst fs) i = Some f /\ never_rebinds i tr) -> leaves_alone fs f tr ->
  exists w', rel s' w' /\ nth_error (w_stores w') b = nth_error (w_stores w) b.
Proof.
  induction 1 as [s|s o r s1 tr s2 St Rn IH]; intros w fs f R F (i & x & X & Xb & Xf & Nr) La; [exists w; auto|]. destruct La as [La La'].
  destruct (hstep_keeps s o r s1 i x St (Nr o r (or_introl eq_refl)) X) as (x1 & X1 & Q). pose proof (hstep_fam s o r s1 fs St F) as F1.
  assert (Xf1 : nth_error (fst (families fs o r)) i = Some f).
  { destruct F as (Lf & _). assert (Li : (i < length (fst fs))%nat) by (apply nth_error_Some; congruence).
    assert (Nr1 : rebinds o <> Some i) by (apply (Nr o r); left; reflexivity).
    destruct r as [[]| |], o; cbn [families fst]; try exact Xf; try (rewrite nth_error_app1 by exact Li; exact Xf). rewrite nth_upd_other by (cbn in Nr1; congruence). exact Xf. }
  assert (Go : exists i x, nth_error (st_vars s1) i = Some x /\ h_buf x = b /\ nth_error (fst (families fs o r)) i = Some f /\ never_rebinds i tr).
  { exists i, x1. split; [exact X1|]. split; [unfold h_buf in *; congruence|]. split; [exact Xf1|]. intros o' r' I. apply (Nr o' r'). right. exact I. }
  destruct (hstep_sim s w o r s1 R St) as [(e & -> & ->)|(-> & w1 & Ss & R1)].
  - apply (IH w _ f R F1 Go La').
  - destruct (IH w1 _ f R1 F1 Go La') as (w' & R' & N). exists w'. split; [exact R'|]. rewrite N.
    apply (sstep_others w o w1 b Ss).
    + pose proof R as (L & _). rewrite <- L. rewrite <- Xb. destruct F as (_ & lab & _ & C). apply (C i x X).
    + intros k y Wk Y Eb. pose proof R as (_ & Lv & _ & Vs). destruct (nth_error (st_vars s) k) as [z|] eqn:Z.
      * apply (La k Wk). destruct F as (_ & lab & _ & C). rewrite (proj2 (C k z Z)). pose proof (Vs k z y Z Y) as (Eb' & _). rewrite <- Eb', Eb, <- Xb, <- (proj2 (C i x X)). exact Xf.
      * apply nth_error_None in Z. assert (k < length (w_refs w))%nat by (apply nth_error_Some; congruence). lia.
Qed.

Lemma same_contents (s s' : state) w w' i i' x x' : rel s w -> rel s' w' -> nth_error (st_vars s) i = Some x -> nth_error (st_vars s') i' = Some x' -> h_arr x' = h_arr x ->
  nth_error (w_stores w') (h_buf x) = nth_error (w_stores w) (h_buf x) -> same_variable s i s' i'.
Proof.
  intros R R' X X' Q N. destruct (rel_ref s w i x R X) as (y & Y & V). destruct (rel_ref s' w' i' x' R' X') as (y' & Y' & V').
  destruct (rel_obj s w x y R V) as (t & T & No & Oo & Rs). destruct (rel_obj s' w' x' y' R' V') as (t' & T' & No' & Oo' & Rs').
  assert (Eb : h_buf x' = h_buf x) by (unfold h_buf; congruence). rewrite Eb in *. rewrite N, T in T'. injection T' as <-.
  assert (Val : forall ix, valid_at (pairs (h_dims x)) ix -> value_at (st_heap s') (h_arr x) ix = value_at (st_heap s) (h_arr x) ix).
  { intros ix I. destruct V as (_ & _ & Px & _ & _ & _ & t2 & T2 & _ & A). rewrite T in T2. injection T2 as <-. rewrite Px in I. destruct (A ix I) as [I2 Ad].
    unfold value_at. change (a_buf (h_arr x)) with (h_buf x). change (a_var (h_arr x)) with (h_var x). rewrite Ad. rewrite <- (proj2 (proj2 Rs) _ I2), <- (proj2 (proj2 Rs') _ I2). reflexivity. }
  split; [|split].
  - intros p. split; intros (z & Z & ->); [exists x'|exists x]; split; try assumption; unfold h_dims, h_var; congruence.
  - intros ix e. split; intros (z & Z & I & ->).
    + rewrite X in Z. injection Z as <-. exists x'. split; [exact X'|]. unfold h_dims, h_var in *. rewrite Q. split; [exact I|]. symmetry. apply Val. exact I.
    + rewrite X' in Z. injection Z as <-. exists x. split; [exact X|]. unfold h_dims, h_var in *. rewrite Q in I |- *. split; [exact I|]. apply Val. exact I.
  - intros o. split; intros (z & Z & O).
    + rewrite X in Z. injection Z as <-. exists x'. split; [exact X'|]. rewrite Eb. congruence.
    + rewrite X' in Z. injection Z as <-. exists x. split; [exact X|]. rewrite Eb in O. congruence.
Qed.

Theorem independent tr0 (s : state) tr s' i f : reached tr0 s -> runs s tr s' ->
  nth_error (fst (families_after ([], 0%nat) tr0)) i = Some f -> leaves_alone (families_after ([], 0%nat) tr0) f tr -> never_rebinds i tr ->
  same_variable s i s' i.
Proof.
  intros Re R Fi La Nr. destruct (reached_rel tr0 s Re) as (w & _ & Rl). pose proof (reached_fam tr0 s Re) as F.
  assert (Hx : exists x, nth_error (st_vars s) i = Some x).
  { destruct (nth_error (st_vars s) i) eqn:X; [eauto|]. apply nth_error_None in X. destruct F as [L _]. assert (i < length (fst (families_after ([], 0%nat) tr0)))%nat by (apply nth_error_Some; congruence). lia. }
  destruct Hx as [x X]. destruct (runs_unwritten s tr s' (h_buf x) R w _ f Rl F ltac:(exists i, x; auto) La) as (w' & Rl' & N).
  destruct (runs_keeps s tr s' i x R Nr X) as (x' & X' & Q). exact (same_contents s s' w w' i i x x' Rl Rl' X X' Q N).
Qed.

Lemma rel_agrees (s : state) w : rel s w -> agrees s w.
Proof.
  intros R. pose proof R as (L & Lv & B & Vs). split; [exact Lv|]. intros i x y X Y. pose proof (Vs i x y X Y) as V. pose proof V as (Eb & _ & Px & Rd & Al & _).
  destruct (rel_obj s w x y R V) as (t & T & No & Oo & _). split; [exact Px|]. split; [congruence|]. split; [congruence|]. split.
  - intros o. split.
    + intros (z & Z & O). rewrite X in Z. injection Z as <-. exists t. rewrite Eb. split; [exact T|congruence].
    + intros (t' & T' & ->). exists x. split; [exact X|]. rewrite Eb, T in T'. injection T' as <-. congruence.
  - intros ix I. apply rel_read; assumption.
Qed.

Theorem copy_effect tr0 (s : state) i s' : reached tr0 s -> hstep s (Copy i) (Ok tt) s' ->
  same_variable s i s' (length (st_vars s)) /\ writable s' (length (st_vars s)) /\
  (forall j, (j < length (st_vars s))%nat -> same_variable s j s' j).
Proof.
  intros Re St. destruct (reached_rel tr0 s Re) as (w & _ & R). destruct (hstep_sim s w (Copy i) (Ok tt) s' R St) as [(e & C & _)|(_ & w' & Ss & R')]; [discriminate C|].
  pose proof St as (x & X & Cs). destruct (copy_vars s x _ _ _ Cs) as [(e & C & _)|(_ & Vs & _)]; [discriminate C|].
  destruct Ss as (y & Y & t & Sh & (tx & Tx & Ob) & Vl & Ew). pose proof R as (L & Lv & _ & Vr). pose proof (Vr i x y X Y) as V.
  set (n := length (st_vars s)) in *. set (xn := mkh (mkarr (length (st_objs s)) (var_fresh (h_dims x))) (h_aligned x)) in *.
  assert (Xn : nth_error (st_vars s') n = Some xn) by (rewrite Vs; apply nth_error_snoc).
  assert (Yn : nth_error (w_refs w') n = Some (mkref (length (w_stores w)) (r_shape y) (fun ix => ix) false (r_aligned y))) by (rewrite Ew; cbn [w_refs]; rewrite Lv; apply nth_error_snoc).
  pose proof R' as (_ & _ & _ & Vr'). pose proof (Vr' n _ _ Xn Yn) as V'. pose proof V as (Eb & Wx & Px & _).
  assert (Val : forall ix, valid_at (r_shape y) ix -> value_at (st_heap s') (h_arr xn) ix = value_at (st_heap s) (h_arr x) ix).
  { intros ix I. destruct (rel_read s' w' xn _ ix R' V' I) as (t' & T' & ->). cbn [r_store r_elem] in *. rewrite Ew in T'. cbn [w_stores] in T'. rewrite nth_error_snoc in T'. injection T' as <-.
    destruct (Vl ix I) as (t2 & T2 & ->). destruct (rel_read s w x y ix R V I) as (t3 & T3 & ->). congruence. }
  assert (Dn : pairs (h_dims xn) = pairs (h_dims x)) by reflexivity.
  split; [split; [|split]|split].
  - intros p. split; intros (z & Z & ->); [exists xn|exists x]; (split; [assumption|]); [rewrite X in Z; injection Z as <-; reflexivity|rewrite Xn in Z; injection Z as <-; reflexivity].
  - intros ix e. split; intros (z & Z & I & ->).
    + rewrite X in Z. injection Z as <-. exists xn. split; [exact Xn|]. split; [exact I|]. symmetry. apply Val. rewrite <- Px. exact I.
    + rewrite Xn in Z. injection Z as <-. exists x. split; [exact X|]. split; [exact I|]. apply Val. rewrite <- Px. exact I.
  - intros o. destruct (rel_obj s w x y R V) as (tx2 & Tx2 & Nx & Ox & _). destruct (rel_obj s' w' xn _ R' V') as (tn & Tn & Nn & On & _).
    assert (Eo : object_of s' xn = object_of s x).
    { rewrite <- On, <- Ox. pose proof V' as (Ebn & _). rewrite <- Ebn in Tn. cbn [r_store] in Tn. rewrite Ew in Tn. cbn [w_stores] in Tn. rewrite nth_error_snoc in Tn. injection Tn as <-. rewrite Eb in Tx. congruence. }
    split; intros (z & Z & O).
    + rewrite X in Z. injection Z as <-. exists xn. split; [exact Xn|]. congruence.
    + rewrite Xn in Z. injection Z as <-. exists x. split; [exact X|]. congruence.
  - exists xn. split; [exact Xn|reflexivity].
  - intros j Lj. destruct (nth_error (st_vars s) j) as [z|] eqn:Z; [|apply nth_error_None in Z; unfold n in Lj; lia].
    apply (same_contents s s' w w' j j z z R R' Z); [rewrite Vs, nth_error_app1 by exact Lj; exact Z|reflexivity|]. rewrite Ew. cbn [w_stores]. apply nth_error_app1. rewrite <- L.
    pose proof (reached_fam tr0 s Re) as (_ & lab & _ & C). apply (C j z Z).
Qed.

Lemma copy_exists (s : state) w x y v : rel s w -> rel_var (w_stores w) x y -> (length (labels (h_dims x)) <= NDIM_OP_MAX)%nat -> exists s', copy_step s x v (Ok tt) s'.
Proof.
  intros R V Ld. pose proof V as (_ & Wx & Px & _). pose proof (rel_obj s w x y R V) as (_ & _ & No & _).
  set (n := length (st_objs s)). set (out := mkh (mkarr n (var_fresh (h_dims x))) (h_aligned x)). set (s0 := mkst (st_heap s) (st_objs s ++ [object_of s x]) (st_vars s)).
  assert (Ox : object_of s0 x = object_of s x) by (unfold object_of at 1; cbn [s0 st_objs]; rewrite app_nth1 by (apply nth_error_Some; congruence); reflexivity).
  assert (Oo : object_of s0 out = object_of s x) by (unfold object_of at 1; cbn [s0 out st_objs h_buf h_arr a_buf]; rewrite app_nth2 by (unfold n; lia); unfold n; rewrite Nat.sub_diag; reflexivity).
  set (bl := fun d => [(0, volume d)]).
  assert (Tl : forall d, wf d -> tiles 0 (volume d) (bl d)).
  { intros d Hd. apply tiles_cons; [|constructor]. rewrite (volume_vol d). apply vol_nonneg. apply Hd. }
  destruct (fresh_pos (h_dims x) (proj1 Wx)) as (_ & _ & Fi & _).
  destruct (includes_ok (h_dims x) (h_dims x) (wf_wfm _ (proj1 Wx)) (wf_wfm _ (proj1 Wx))) as (b & Eb & Hb).
  assert (Et : b = true) by (apply (proj2 Hb); auto). subst b.
  set (f := fun l => match l with a :: b :: _ => i_fun (copy_op E) a b | _ => st_heap s0 (0%nat, 0) end).
  destruct (in_place_total f (st_heap s0) (h_arr out) [h_arr x] (length (st_objs s0)) bl) as (h1 & ps & h' & Tr & End).
  { constructor; [apply fresh_wfv; apply Wx|]. constructor; [exact Wx|constructor]. }
  { exact Fi. }
  { reflexivity. }
  { exact Ld. }
  { exact Tl. }
  { left. cbn. lia. }
  { intros c [<-|[]] k m Hk. exact Hk. }
  eexists. exists (Ok tt), (with_object (mkst h' (st_objs s0) (st_vars s0)) (h_buf out) (set_unit_of (object_of s0 out) (o_unit (object_of s0 x)))). split; [|split; reflexivity].
  change (in_place_step (copy_op E) s0 out x (Ok tt) (with_object (mkst h' (st_objs s0) (st_vars s0)) (h_buf out) (set_unit_of (object_of s0 out) (o_unit (object_of s0 x))))).
  exists bl. split; [exact Tl|]. unfold in_place_start. change (h_dims out) with (h_dims x). rewrite Eb. cbn [bind negb i_unit i_types i_vars copy_op].
  unfold expect_can_set_unit. fold out s0. rewrite Oo, Ox, Z.eqb_refl. cbn [negb andb bind]. rewrite Z.eqb_refl, eqb_reflx. cbn [bind].
  fold f. rewrite Tr. cbn [bind]. exists h'. split; [exact End|]. split; reflexivity.
Qed.
Theorem copy_succeeds tr0 (s : state) i x : reached tr0 s -> nth_error (st_vars s) i = Some x -> (length (labels (h_dims x)) <= NDIM_OP_MAX)%nat ->
  exists s', hstep s (Copy i) (Ok tt) s'.
Proof.
  intros Re X Ld. destruct (reached_rel tr0 s Re) as (w & _ & R). destruct (rel_ref s w i x R X) as (y & _ & V).
  destruct (copy_exists s w x y (var_fresh (h_dims x)) R V Ld) as [s' C]. exists s', x. auto.
Qed.

(** Views. *)
Definition shares (o : view_op) : Prop := match o with VwFlatten _ _ => False | _ => True end.
Lemma view_effect tr0 (s : state) i o s1 : reached tr0 s -> hstep s (View i o) (Ok tt) s1 -> shares o ->
  exists x xn p', nth_error (st_vars s) i = Some x /\ st_vars s1 = st_vars s ++ [xn] /\ view_dims (pairs (h_dims x)) o = Some p' /\ h_buf xn = h_buf x /\ pairs (h_dims xn) = p' /\
  wfv (h_var x) /\ (v_readonly (h_var xn) = v_readonly (h_var x) || repeats (pairs (h_dims x)) o) /\
  forall ix, valid_at p' ix -> valid_at (pairs (h_dims x)) (pull (pairs (h_dims x)) o ix) /\ vaddr (h_var xn) ix = vaddr (h_var x) (pull (pairs (h_dims x)) o ix).
Proof.
  intros Re (Ok_ & x & X & St) Sh. destruct (reached_rel tr0 s Re) as (w & _ & R). destruct (rel_ref s w i x R X) as (y & Y & V).
  destruct (view_step (h_var x) o) as [[c v]|e|] eqn:Vs; [|destruct St; discriminate|destruct St].
  destruct (view_sim (w_stores w) x y o c v V Ok_ Vs) as (p' & Vd & Res). destruct c; [destruct Res as [(f & t & ->) _]; destruct Sh|].
  destruct St as [_ ->]. pose proof V as (_ & Wx & Px & Rd & _ & _ & t & T & _ & A). exists x, (mkh (mkarr (h_buf x) v) (h_aligned x)), p'. rewrite Px.
  destruct Res as (_ & Wv & Pv & Rv & _ & _ & t2 & T2 & _ & A2). cbn [r_shape r_elem r_readonly h_buf h_arr a_buf] in *. rewrite T in T2. injection T2 as <-.
  split; [exact X|]. split; [reflexivity|]. split; [exact Vd|]. split; [reflexivity|]. split; [exact Pv|]. split; [exact Wx|]. split; [rewrite <- Rv, Rd; reflexivity|].
  intros ix I. destruct (A2 ix I) as [_ Q].
  assert (I2 : valid_at (r_shape y) (pull (r_shape y) o ix)).
  { destruct (wfv_SV _ Wx) as (sf & Hp & Hn & _). change (v_dims (h_var x)) with (h_dims x) in Hp, Hn. rewrite Px in Hp, Hn. pose proof (view_step_ok _ o Hp Ok_ sf 0 false 0 Hn) as Hst. rewrite Vd in Hst. apply Hst. exact I. }
  split; [exact I2|]. rewrite Q. symmetry. apply A. exact I2.
Qed.

Lemma one_to_one_reached tr0 (s : state) i x ix ix' : reached tr0 s -> nth_error (st_vars s) i = Some x -> v_readonly (h_var x) = false ->
  valid_at (pairs (h_dims x)) ix -> valid_at (pairs (h_dims x)) ix' -> vaddr (h_var x) ix = vaddr (h_var x) ix' -> same_at (pairs (h_dims x)) ix ix'.
Proof.
  intros Re X Ro. destruct (reached_rel tr0 s Re) as (w & _ & R). destruct (rel_ref s w i x R X) as (y & Y & _ & _ & Px & _ & _ & Inj & _). rewrite Px. apply (Inj Ro).
Qed.

Theorem shared tr0 (s : state) i o s1 tr s2 : reached tr0 s -> hstep s (View i o) (Ok tt) s1 -> shares o -> runs s1 tr s2 ->
  never_rebinds i tr -> never_rebinds (length (st_vars s)) tr ->
  exists p p', shape_of s2 i p /\ view_dims p o = Some p' /\ shape_of s2 (length (st_vars s)) p' /\
  (forall ix, valid_at p' ix -> valid_at p (pull p o ix) /\ forall e, shows s2 (length (st_vars s)) ix e <-> shows s2 i (pull p o ix) e) /\
  (forall ob, has_object s2 (length (st_vars s)) ob <-> has_object s2 i ob) /\
  (forall ix e s3, hstep s2 (Poke (length (st_vars s)) ix e) (Ok tt) s3 -> valid_at p' ix /\ forall iy, valid_at p iy ->
     (same_at p iy (pull p o ix) -> shows s3 i iy e) /\
     (~ same_at p iy (pull p o ix) -> forall e', shows s3 i iy e' <-> shows s2 i iy e')) /\
  (forall iy e s3, hstep s2 (Poke i iy e) (Ok tt) s3 -> valid_at p iy /\ forall ix, valid_at p' ix ->
     (same_at p iy (pull p o ix) -> shows s3 (length (st_vars s)) ix e) /\
     (~ same_at p iy (pull p o ix) -> forall e', shows s3 (length (st_vars s)) ix e' <-> shows s2 (length (st_vars s)) ix e')).
Proof.
  intros Re St Sh Rn Ni Nn. destruct (view_effect tr0 s i o s1 Re St Sh) as (x & xn & p' & X & Vs & Vd & Eb & Pn & Wx & Rd & Ad).
  set (n := length (st_vars s)) in *.
  assert (Ln : (i < n)%nat) by (apply nth_error_Some; congruence).
  destruct (runs_keeps s1 tr s2 i x Rn Ni) as (x2 & X2 & Qx); [rewrite Vs, nth_error_app1 by exact Ln; exact X|].
  destruct (runs_keeps s1 tr s2 n xn Rn Nn) as (xn2 & Xn2 & Qn); [rewrite Vs; apply nth_error_snoc|].
  assert (Re2 : reached (tr0 ++ (View i o, Ok tt) :: tr) s2) by (eapply reached_app; [exact Re|econstructor; eassumption]).
  assert (Dx : h_dims x2 = h_dims x /\ h_buf x2 = h_buf x /\ h_var x2 = h_var x) by (unfold h_dims, h_buf, h_var; rewrite Qx; auto).
  assert (Dn : h_dims xn2 = h_dims xn /\ h_buf xn2 = h_buf xn /\ h_var xn2 = h_var xn) by (unfold h_dims, h_buf, h_var; rewrite Qn; auto).
  destruct Dx as (Dx & Bx & Ux), Dn as (Dn & Bn & Un). set (p := pairs (h_dims x)) in *. exists p, p'.
  split; [exists x2; rewrite Dx; auto|]. split; [exact Vd|]. split; [exists xn2; rewrite Dn; auto|].
  assert (Sx : forall (st : state) (iy : Dim -> Z) (e : E), nth_error (st_vars st) i = Some x2 -> shows st i iy e <-> valid_at p iy /\ e = st_heap st (h_buf x, vaddr (h_var x) iy)).
  { intros st iy e Z. unfold shows. rewrite Z. split.
    - intros (z & Q & I & ->). injection Q as <-. rewrite Dx in I. unfold value_at. change (a_var (h_arr x2)) with (h_var x2). change (a_buf (h_arr x2)) with (h_buf x2). rewrite Ux, Bx. auto.
    - intros (I & ->). exists x2. rewrite Dx. unfold value_at. change (a_var (h_arr x2)) with (h_var x2). change (a_buf (h_arr x2)) with (h_buf x2). rewrite Ux, Bx. auto. }
  assert (Sn : forall (st : state) (ix : Dim -> Z) (e : E), nth_error (st_vars st) n = Some xn2 -> shows st n ix e <-> valid_at p' ix /\ e = st_heap st (h_buf x, vaddr (h_var xn) ix)).
  { intros st iy e Z. unfold shows. rewrite Z. split.
    - intros (z & Q & I & ->). injection Q as <-. rewrite Dn, Pn in I. unfold value_at. change (a_var (h_arr xn2)) with (h_var xn2). change (a_buf (h_arr xn2)) with (h_buf xn2). rewrite Un, Bn, Eb. auto.
    - intros (I & ->). exists xn2. rewrite Dn, Pn. unfold value_at. change (a_var (h_arr xn2)) with (h_var xn2). change (a_buf (h_arr xn2)) with (h_buf xn2). rewrite Un, Bn, Eb. auto. }
  assert (Poke_inv : forall j z ix e s3, nth_error (st_vars s2) j = Some z -> hstep s2 (Poke j ix e) (Ok tt) s3 ->
    v_readonly (h_var z) = false /\ valid_at (pairs (h_dims z)) ix /\ st_vars s3 = st_vars s2 /\ st_heap s3 = hset (st_heap s2) (h_buf z, vaddr (h_var z) ix) e).
  { intros j z ix e s3 Z (z' & Z' & Wi & Out). rewrite Z in Z'. injection Z' as <-. unfold expect_writable in Out. destruct (v_readonly (h_var z)); [destruct Out; discriminate|].
    destruct Out as [_ ->]. split; [reflexivity|]. split; [apply within_valid; exact Wi|]. split; reflexivity. }
  assert (Same : forall a b, same_at p a b -> vaddr (h_var x) a = vaddr (h_var x) b).
  { intros a b Q. apply (vaddr_same (h_dims x) (h_arr x)); [apply Wx|split; [exact Wx|auto]|exact Q]. }
  split; [|split; [|split]].
  - intros ix I. destruct (Ad ix I) as [I2 Q]. split; [exact I2|]. intros e. rewrite (Sn s2 ix e Xn2), (Sx s2 _ e X2), Q. tauto.
  - intros ob. split; intros (z & Z & O); [exists x2|exists xn2]; (split; [assumption|]); [rewrite Xn2 in Z|rewrite X2 in Z]; injection Z as <-; congruence.
  - intros ix e s3 Pk. destruct (Poke_inv n xn2 ix e s3 Xn2 Pk) as (Ro & I & V3 & H3). rewrite Dn, Pn in I. rewrite Un, Bn, Eb in H3. split; [exact I|]. destruct (Ad ix I) as [I2 Q].
    assert (Ro' : v_readonly (h_var x) = false) by (rewrite Un, Rd in Ro; apply orb_false_iff in Ro; apply Ro).
    assert (X3 : nth_error (st_vars s3) i = Some x2) by (rewrite V3; exact X2).
    intros iy Iy. split.
    + intros Sm. apply (Sx s3 iy e X3). split; [exact Iy|]. rewrite H3, Q, (Same _ _ Sm). symmetry. apply hset_same.
    + intros N e'. rewrite (Sx s3 iy e' X3), (Sx s2 iy e' X2), H3. rewrite hset_other; [tauto|]. intros C. injection C as C. apply N. rewrite Q in C.
      apply (one_to_one_reached _ s i x _ _ Re X Ro'); [exact Iy|exact I2|congruence].
  - intros iy e s3 Pk. destruct (Poke_inv i x2 iy e s3 X2 Pk) as (Ro & Iy & V3 & H3). rewrite Dx in Iy. rewrite Ux, Bx in H3. rewrite Ux in Ro. split; [exact Iy|].
    assert (X3 : nth_error (st_vars s3) n = Some xn2) by (rewrite V3; exact Xn2).
    intros ix I. destruct (Ad ix I) as [I2 Q]. split.
    + intros Sm. apply (Sn s3 ix e X3). split; [exact I|]. rewrite H3, Q, <- (Same _ _ Sm). symmetry. apply hset_same.
    + intros N e'. rewrite (Sn s3 ix e' X3), (Sn s2 ix e' Xn2), H3. rewrite hset_other; [tauto|]. intros C. injection C as C. apply N. rewrite Q in C.
      apply (one_to_one_reached _ s i x _ _ Re X Ro); [exact Iy|exact I2|congruence].
Qed.

(** Assignment of elements. *)
Lemma elem_same sts x y t a b : @rel_var E sts x y -> nth_error sts (h_buf x) = Some t -> valid_at (r_shape y) a -> valid_at (r_shape y) b ->
  same_at (r_shape y) a b -> same_at (s_shape t) (r_elem y a) (r_elem y b).
Proof.
  intros (_ & Wx & Px & _ & _ & _ & t2 & T2 & _ & A) T Ia Ib Sm. rewrite T in T2. injection T2 as <-. destruct (A a Ia) as [Va Qa], (A b Ib) as [Vb Qb].
  apply pos_inj; [exact Va|exact Vb|]. rewrite <- Qa, <- Qb. apply (vaddr_same (h_dims x) (h_arr x)); [apply Wx|split; [exact Wx|auto]|rewrite Px; exact Sm].
Qed.
Lemma elem_inj sts x y t a b : @rel_var E sts x y -> nth_error sts (h_buf x) = Some t -> v_readonly (h_var x) = false -> valid_at (r_shape y) a -> valid_at (r_shape y) b ->
  same_at (s_shape t) (r_elem y a) (r_elem y b) -> same_at (r_shape y) a b.
Proof.
  intros (_ & Wx & Px & _ & _ & Inj & t2 & T2 & _ & A) T Ro Ia Ib Sm. rewrite T in T2. injection T2 as <-. destruct (A a Ia) as [Va Qa], (A b Ib) as [Vb Qb].
  apply (Inj Ro a b Ia Ib). rewrite Qa, Qb. apply pos_same. exact Sm.
Qed.

Theorem copy_to_effect tr0 (s : state) i j s' : reached tr0 s -> hstep s (CopyTo i j) (Ok tt) s' ->
  exists p, shape_of s' j p /\ (forall ix e, valid_at p ix -> shows s' j ix e <-> shows s i ix e) /\
  (forall oi oj, has_object s i oi -> has_object s j oj -> has_object s' j (mkobj (o_type oj) (o_unit oi) (o_vars oj)) /\ o_type oi = o_type oj /\ o_vars oi = o_vars oj).
Proof.
  intros Re St. destruct (reached_rel tr0 s Re) as (w & _ & R). destruct (hstep_sim s w _ (Ok tt) s' R St) as [(e & C & _)|(_ & w' & Ss & R')]; [discriminate C|].
  destruct St as (x & y & X & Y & St). destruct (in_place_vars _ _ _ _ _ _ St) as [Vs _]. assert (Y' : nth_error (st_vars s') j = Some y) by congruence.
  destruct Ss as (rx & ry & Rx & Ry & ox & oy & u & Ox & Oy & U & Ty & Va & Ro & t & t' & T & (Sh & Ob & Vl & _) & Ew).
  pose proof R as (_ & _ & _ & Vr). pose proof (Vr i x rx X Rx) as Vx. pose proof (Vr j y ry Y Ry) as Vy. pose proof R' as (_ & _ & _ & Vr').
  assert (Ry' : nth_error (w_refs w') j = Some ry) by (rewrite Ew; exact Ry). pose proof (Vr' j y ry Y' Ry') as Vy'.
  assert (Ly : (r_store ry < length (w_stores w))%nat) by (apply nth_error_Some; congruence).
  assert (Inc : forall ix, valid_at (r_shape ry) ix -> valid_at (r_shape rx) ix).
  { destruct Vx as (_ & Wx & Px & _), Vy as (_ & Wy & Py & _). rewrite <- Px, <- Py. destruct St as (bl & _ & St). unfold in_place_start in St.
    destruct (includes_ok (h_dims y) (h_dims x) (wf_wfm _ (proj1 Wy)) (wf_wfm _ (proj1 Wx))) as (b & Eb & Hb). rewrite Eb in St. cbn [bind] in St. destruct b; [|cbn in St; destruct St; discriminate].
    intros ix I k n Hk. apply I. apply (proj1 Hb eq_refl). exact Hk. }
  exists (pairs (h_dims y)). split; [exists y; auto|]. split.
  - intros ix e I. pose proof Vy as (_ & _ & Py & _). rewrite Py in I.
    assert (Val : value_at (st_heap s') (h_arr y) ix = value_at (st_heap s) (h_arr x) ix).
    { destruct (rel_read s' w' y ry ix R' Vy' I) as (t1 & T1 & ->). rewrite Ew in T1. cbn [w_stores] in T1. rewrite nth_upd in T1 by exact Ly. injection T1 as <-.
      destruct (Vl ix (r_elem ry ix) I ltac:(intros k _; reflexivity) ltac:(left; intros a b; reflexivity)) as (a & b & _ & (t2 & T2 & ->) & ->). cbn [i_fun copy_op].
      destruct (rel_read s w x rx ix R Vx (Inc ix I)) as (t3 & T3 & ->). congruence. }
    split; intros (z & Z & Iz & ->).
    + rewrite Y' in Z. injection Z as <-. exists x. split; [exact X|]. split; [destruct Vx as (_ & _ & -> & _); auto|exact Val].
    + rewrite X in Z. injection Z as <-. exists y. split; [exact Y'|]. split; [rewrite Py; exact I|symmetry; exact Val].
  - intros oi oj (z & Z & Oi) (z' & Z' & Oj). rewrite X in Z. injection Z as <-. rewrite Y in Z'. injection Z' as <-.
    assert (ox = oj). { destruct (rel_obj s w y ry R Vy) as (t2 & T2 & N2 & O2 & _). destruct Ox as (t3 & T3 & ->). rewrite (proj1 Vy) in T3. congruence. }
    assert (oy = oi). { destruct (rel_obj s w x rx R Vx) as (t2 & T2 & N2 & O2 & _). destruct Oy as (t3 & T3 & ->). rewrite (proj1 Vx) in T3. congruence. }
    subst ox oy. cbn [i_unit copy_op] in U. injection U as <-. split.
    + destruct (rel_obj s' w' y ry R' Vy') as (t2 & T2 & N2 & O2 & _). exists y. split; [exact Y'|]. rewrite N2. f_equal. rewrite <- O2, <- Ob. rewrite <- (proj1 Vy), Ew in T2. cbn [w_stores] in T2. rewrite nth_upd in T2 by exact Ly. congruence.
    + cbn in Ty, Va. destruct (Z.eqb_spec (o_type oj) (o_type oi)); [|discriminate]. destruct (Bool.eqb_spec (o_vars oj) (o_vars oi)); [|discriminate]. auto.
Qed.

Theorem set_slice_effect tr0 (s : state) i sl j s' : reached tr0 s -> hstep s (SetSlice i sl j) (Ok tt) s' ->
  exists p p', shape_of s i p /\ shape_of s' i p /\ slice_dims p sl = Some p' /\
  (forall ix iy, valid_at p' ix -> valid_at p iy -> same_at p iy (pull p (VwSlice sl) ix) -> forall e, shows s' i iy e <-> shows s j ix e) /\
  (forall iy, valid_at p iy -> (forall ix, valid_at p' ix -> ~ same_at p iy (pull p (VwSlice sl) ix)) -> forall e, shows s' i iy e <-> shows s i iy e) /\
  (forall o, has_object s' i o <-> has_object s i o).
Proof.
  intros Re St. destruct (reached_rel tr0 s Re) as (w & _ & R). destruct (hstep_sim s w _ (Ok tt) s' R St) as [(e & C & _)|(_ & w' & Ss & R')]; [discriminate C|].
  destruct St as (Hsl & x & y & X & Y & St). destruct (validate_slice s x sl y) as [[]|e|] eqn:Vd; cbn [bind] in St; [|destruct St; discriminate|destruct St].
  destruct (var_slice (h_var x) sl) as [v|e|] eqn:Sl; [|destruct St; discriminate|destruct St].
  destruct (in_place_vars _ _ _ _ _ _ St) as [Vs _]. assert (X' : nth_error (st_vars s') i = Some x) by congruence.
  destruct Ss as (rx & ry & p' & Rx & Ry & Sd & ox & oy & u & Ox & Oy & U & Ty & Va & Ro & t & t' & T & (Sh & Ob & Vl & Un) & Ew). cbn [r_store r_shape r_elem r_readonly] in *.
  pose proof R as (_ & _ & _ & Vr). pose proof (Vr i x rx X Rx) as Vx. pose proof (Vr j y ry Y Ry) as Vy. pose proof R' as (_ & _ & _ & Vr').
  assert (Rx' : nth_error (w_refs w') i = Some rx) by (rewrite Ew; exact Rx). pose proof (Vr' i x rx X' Rx') as Vx'.
  assert (Lx : (r_store rx < length (w_stores w))%nat) by (apply nth_error_Some; congruence).
  pose proof Vx as (Ebx & Wx & Px & Rdx & _). assert (Tx : nth_error (w_stores w) (h_buf x) = Some t) by (rewrite <- Ebx; exact T).
  assert (Vst : view_step (h_var x) (VwSlice sl) = Ok (false, v)) by (cbn; rewrite Sl; reflexivity).
  destruct (view_sim (w_stores w) x rx (VwSlice sl) false v Vx Hsl Vst) as (p2 & Vd2 & Vv). cbn [view_dims] in Vd2. rewrite Sd in Vd2. injection Vd2 as <-.
  assert (Pv : forall ix, valid_at p' ix -> valid_at (r_shape rx) (pull (r_shape rx) (VwSlice sl) ix)).
  { destruct (wfv_SV _ Wx) as (sf & Hp & Hn & _). change (v_dims (h_var x)) with (h_dims x) in Hp, Hn. rewrite Px in Hp, Hn. pose proof (view_step_ok _ (VwSlice sl) Hp Hsl sf 0 false 0 Hn) as Hst. cbn [view_dims] in Hst. rewrite Sd in Hst. apply Hst. }
  assert (Inc : forall ix, valid_at p' ix -> valid_at (r_shape ry) ix).
  { destruct Vv as (_ & Wv & Pv' & _), Vy as (_ & Wy & Py & _). cbn [r_shape] in Pv'. rewrite <- Py, <- Pv'. destruct St as (bl & _ & St). unfold in_place_start in St. set (xv := mkh _ _) in *.
    destruct (includes_ok (h_dims xv) (h_dims y) (wf_wfm _ (proj1 Wv)) (wf_wfm _ (proj1 Wy))) as (b & Eb & Hb). rewrite Eb in St. cbn [bind] in St. destruct b; [|cbn in St; destruct St; discriminate].
    intros ix I k n Hk. apply I. apply (proj1 Hb eq_refl). exact Hk. }
  exists (r_shape rx), p'. split; [exists x; rewrite Px; auto|]. split; [exists x; rewrite Px; auto|]. split; [exact Sd|].
  assert (New : forall iy, valid_at (r_shape rx) iy -> value_at (st_heap s') (h_arr x) iy = s_at t' (r_elem rx iy)).
  { intros iy I. destruct (rel_read s' w' x rx iy R' Vx' I) as (t1 & T1 & ->). rewrite Ew in T1. cbn [w_stores] in T1. rewrite nth_upd in T1 by exact Lx. injection T1 as <-. reflexivity. }
  split; [|split].
  - intros ix iy I Iy Sm e. pose proof (elem_same _ x rx t _ _ Vx Tx Iy (Pv ix I) Sm) as Se.
    assert (Val : value_at (st_heap s') (h_arr x) iy = value_at (st_heap s) (h_arr y) ix).
    { rewrite (New iy Iy). destruct (Vl ix (r_elem rx iy) I Se ltac:(left; intros a b; reflexivity)) as (a & b & _ & (t2 & T2 & ->) & ->). cbn [i_fun copy_op].
      destruct (rel_read s w y ry ix R Vy (Inc ix I)) as (t3 & T3 & ->). congruence. }
    split; intros (z & Z & Iz & ->).
    + rewrite X' in Z. injection Z as <-. exists y. split; [exact Y|]. split; [destruct Vy as (_ & _ & -> & _); auto|exact Val].
    + rewrite Y in Z. injection Z as <-. exists x. split; [exact X'|]. split; [rewrite Px; exact Iy|symmetry; exact Val].
  - intros iy Iy No e.
    assert (Val : value_at (st_heap s') (h_arr x) iy = value_at (st_heap s) (h_arr x) iy).
    { rewrite (New iy Iy). pose proof Vx as (_ & _ & _ & _ & _ & _ & t2 & T2 & _ & A). rewrite Tx in T2. injection T2 as <-. rewrite Un; [|apply A; exact Iy|].
      - destruct (rel_read s w x rx iy R Vx Iy) as (t3 & T3 & ->). congruence.
      - intros ix I Se. apply (No ix I). apply (elem_inj _ x rx t _ _ Vx Tx); [congruence|exact Iy|apply Pv; exact I|exact Se]. }
    split; intros (z & Z & Iz & ->); [rewrite X' in Z|rewrite X in Z]; injection Z as <-; exists x; (split; [assumption|]); split; auto.
  - assert (Eo : object_of s' x = object_of s x).
    { destruct (rel_obj s' w' x rx R' Vx') as (t2 & T2 & _ & O2 & _). rewrite <- O2. rewrite <- Ebx, Ew in T2. cbn [w_stores] in T2. rewrite nth_upd in T2 by exact Lx. injection T2 as <-. rewrite Ob.
      destruct (rel_obj s w x rx R Vx) as (t3 & T3 & _ & O3 & _). destruct Ox as (t4 & T4 & ->). cbn [r_store] in T4. rewrite Ebx in T4.
      assert (s_obj t4 = object_of s x) by congruence. rewrite H in *. destruct (rel_obj s w y ry R Vy) as (t5 & T5 & _ & O5 & _). destruct Oy as (t6 & T6 & ->). rewrite (proj1 Vy) in T6. assert (s_obj t6 = object_of s y) by congruence.
      cbn [i_unit copy_op] in U. injection U as <-. rewrite H0. unfold validate_slice in Vd. destruct (valid_slice _ _); try discriminate Vd. cbn [bind] in Vd.
      destruct (negb (Bool.eqb _ _)); [discriminate|]. destruct (Z.eqb_spec (o_unit (object_of s y)) (o_unit (object_of s x))) as [Q|]; [|discriminate]. rewrite Q. destruct (object_of s x); reflexivity. }
    intros o. destruct (rel_obj s' w' x rx R' Vx') as (_ & _ & N2 & _). destruct (rel_obj s w x rx R Vx) as (_ & _ & N3 & _).
    split; intros (z & Z & O); [rewrite X' in Z|rewrite X in Z]; injection Z as <-; exists x; (split; [assumption|]); congruence.
Qed.

(** A unit can only be changed through a variable that has all elements of its buffer. *)
Lemma all_positions d v : wf d -> one_to_one (pairs d) v -> (forall ix, valid_at (pairs d) ix -> 0 <= vaddr v ix < volume d) ->
  forall a, 0 <= a < volume d -> exists ix, valid_at (pairs d) ix /\ vaddr v ix = a.
Proof.
  intros Hd Inj Bd a Ha. set (l := map (fun k => vaddr v (index_of d k)) (zseq 0 (Z.to_nat (volume d)))).
  assert (In0 : forall k, In k (zseq 0 (Z.to_nat (volume d))) <-> 0 <= k < volume d) by (intros k; rewrite zseq_In; lia).
  assert (Nl : NoDup l).
  { unfold l. assert (G : forall ks, NoDup ks -> (forall k, In k ks -> 0 <= k < volume d) -> NoDup (map (fun k => vaddr v (index_of d k)) ks)).
    { induction ks as [|k ks IH]; intros N B; [constructor|]. inversion N as [|? ? N1 N2]; subst. cbn. constructor; [|apply IH; [exact N2|intros; apply B; right; assumption]].
      intros I. apply in_map_iff in I as (k' & Q & I). apply N1. replace k with k'; [exact I|]. pose proof (B k (or_introl eq_refl)). pose proof (B k' (or_intror I)).
      apply (index_of_inj d); try assumption. apply Inj; [apply inside_index_of; assumption|apply inside_index_of; assumption|exact Q]. }
    apply G; [apply zseq_NoDup|intros k; apply In0]. }
  assert (I : In a l).
  { apply (NoDup_length_incl Nl (l' := zseq 0 (Z.to_nat (volume d)))).
    - unfold l. rewrite map_length. lia.
    - intros b I. unfold l in I. apply in_map_iff in I as (k & <- & I). apply In0. apply Bd. apply inside_index_of; [exact Hd|]. apply In0. exact I.
    - apply In0. exact Ha. }
  unfold l in I. apply in_map_iff in I as (k & Q & I). exists (index_of d k). split; [|exact Q]. apply inside_index_of; [exact Hd|]. apply In0. exact I.
Qed.
Theorem unit_whole tr0 (s : state) i u s' ob : reached tr0 s -> hstep s (SetUnit i u) (Ok tt) s' -> has_object s i ob -> o_unit ob <> u ->
  (forall j, (exists o, has_object s' j o /\ ~ has_object s j o) -> has_object s' j (mkobj (o_type ob) u (o_vars ob)) /\
     forall iy e, shows s j iy e -> exists ix, shows s i ix e) /\
  forall x z iy, nth_error (st_vars s) i = Some x -> In z (st_vars s) -> h_buf z = h_buf x -> valid_at (pairs (h_dims z)) iy ->
    exists ix, valid_at (pairs (h_dims x)) ix /\ vaddr (h_var x) ix = vaddr (h_var z) iy.
Proof.
  intros Re (x & X & St) (x2 & X2 & O) Nu. rewrite X in X2. injection X2 as <-. destruct (reached_rel tr0 s Re) as (w & _ & R). destruct (rel_ref s w i x R X) as (y & Y & V).
  destruct (rel_obj s w x y R V) as (t & T & No & Oo & Wt & _). assert (Eo : object_of s x = ob) by congruence.
  unfold expect_writable in St. destruct (v_readonly (h_var x)) eqn:Ro; cbn [bind] in St; [destruct St; discriminate|]. unfold expect_can_set_unit in St. rewrite Eo in St.
  replace (o_unit ob =? u) with false in St by (symmetry; apply Z.eqb_neq; exact Nu). cbn [negb andb] in St. destruct (var_is_slice (h_var x)) eqn:Is; [destruct St; discriminate|]. destruct St as [_ ->].
  unfold var_is_slice in Is. apply orb_false_iff in Is as [_ Is]. apply negb_false_iff, Z.eqb_eq in Is. change (v_dims (h_var x)) with (h_dims x) in Is.
  pose proof V as (Eb & Wx & Px & _ & _ & Inj & t2 & T2 & Sz & A). rewrite T in T2. injection T2 as <-. specialize (Inj Ro).
  assert (All : forall z iy, In z (st_vars s) -> h_buf z = h_buf x -> valid_at (pairs (h_dims z)) iy -> exists ix, valid_at (pairs (h_dims x)) ix /\ vaddr (h_var x) ix = vaddr (h_var z) iy).
  { intros z iy Iz Bz I. apply In_nth_error in Iz as [k Z]. destruct (rel_ref s w k z R Z) as (yz & _ & _ & Wz & Pz & _ & _ & _ & tz & Tz & _ & Az). rewrite Bz, T in Tz. injection Tz as <-.
    rewrite Pz in I. destruct (Az iy I) as [Vz Qz]. apply all_positions; [apply Wx|rewrite Px; exact Inj| |].
    - intros ix Ix. rewrite Px in Ix. destruct (A ix Ix) as [Va Qa]. rewrite Qa, Is, Sz. unfold pos. apply position_bound. apply valid_at_idx. exact Va.
    - rewrite Qz, Is, Sz. unfold pos. apply position_bound. apply valid_at_idx. exact Vz. }
  split.
  - intros j (o & (z & Z & O1) & O2). cbn [st_vars with_object st_objs] in *. destruct (Nat.eq_dec (h_buf x) (h_buf z)) as [Q|D].
    + split.
      * exists z. split; [exact Z|]. cbn [st_objs with_object]. rewrite <- Q, nth_upd by (apply nth_error_Some; congruence). unfold set_unit_of. f_equal.
      * intros iy e (z2 & Z2 & I & ->). rewrite Z in Z2. injection Z2 as <-. destruct (All z iy (nth_error_In _ _ Z) (eq_sym Q) I) as (ix & Ix & Qa). exists ix, x. split; [exact X|]. split; [exact Ix|].
        unfold value_at. change (a_buf (h_arr z)) with (h_buf z). change (a_buf (h_arr x)) with (h_buf x). change (a_var (h_arr z)) with (h_var z). change (a_var (h_arr x)) with (h_var x). congruence.
    + exfalso. apply O2. exists z. split; [exact Z|]. rewrite nth_upd_other in O1 by exact D. exact O1.
  - intros x2 z iy X2 Iz Bz I. rewrite X in X2. injection X2 as <-. apply All; assumption.
Qed.

Lemma in_place_exists g (s : state) w out src xo ys u : rel s w -> rel_var (w_stores w) out xo -> rel_var (w_stores w) src ys -> r_readonly xo = false ->
  (length (labels (h_dims out)) <= NDIM_OP_MAX)%nat -> (forall k n, has (h_dims src) k n -> has (h_dims out) k n) ->
  i_unit g (o_unit (object_of s out)) (o_unit (object_of s src)) = Ok u -> (u = o_unit (object_of s out) \/ var_is_slice (h_var out) = false) ->
  i_types g (o_type (object_of s out)) (o_type (object_of s src)) = Ok tt -> i_vars g (o_vars (object_of s out)) (o_vars (object_of s src)) = Ok tt ->
  exists s', in_place_step g s out src (Ok tt) s'.
Proof.
  intros R Vo Vs Ro Ld Inc U Cu Ty Va. pose proof Vo as (_ & Wo & Po & Rdo & _ & Inj & _). pose proof Vs as (_ & Ws & _). rewrite Rdo in Ro. specialize (Inj Ro).
  set (bl := fun d => [(0, volume d)]).
  assert (Tl : forall d, wf d -> tiles 0 (volume d) (bl d)).
  { intros d Hd. apply tiles_cons; [|constructor]. rewrite (volume_vol d). apply vol_nonneg. apply Hd. }
  destruct (includes_ok (h_dims out) (h_dims src) (wf_wfm _ (proj1 Wo)) (wf_wfm _ (proj1 Ws))) as (b & Eb & Hb).
  assert (Et : b = true) by (apply (proj2 Hb); exact Inc). subst b.
  set (f := fun l => match l with a :: b :: _ => i_fun g a b | _ => st_heap s (0%nat, 0) end).
  destruct (in_place_total f (st_heap s) (h_arr out) [h_arr src] (length (st_objs s)) bl) as (h1 & ps & h' & Tr & End).
  { constructor; [exact Wo|]. constructor; [exact Ws|constructor]. }
  { intros ix ix' I I' Q. change (a_dims (h_arr out)) with (h_dims out) in *. unfold inside in I, I'. rewrite Po in I, I' |- *. apply Inj; assumption. }
  { exact Ro. } { exact Ld. } { exact Tl. } { left. cbn. lia. }
  { intros c [<-|[]] k m Hk. apply Inc. exact Hk. }
  eexists. exists bl. split; [exact Tl|]. unfold in_place_start. rewrite Eb. cbn [bind negb]. rewrite U. cbn [bind].
  replace (expect_can_set_unit s out u) with (@Ok unit tt).
  - cbn [bind]. rewrite Ty. cbn [bind]. rewrite Va. cbn [bind]. fold f. rewrite Tr. cbn [bind]. exists h'. split; [exact End|]. split; reflexivity.
  - unfold expect_can_set_unit. destruct Cu as [->| ->]; [rewrite Z.eqb_refl; reflexivity|rewrite andb_false_r; reflexivity].
Qed.
(** Assigning to a slice succeeds. *)
Theorem set_slice_succeeds tr0 (s : state) i sl j x y p' : reached tr0 s -> nth_error (st_vars s) i = Some x -> nth_error (st_vars s) j = Some y -> slice_ok sl ->
  v_readonly (h_var x) = false -> slice_dims (pairs (h_dims x)) sl = Some p' -> (forall k n, has (h_dims y) k n -> In (k, n) p') -> (length p' <= NDIM_OP_MAX)%nat ->
  (forall ox oy, has_object s i ox -> has_object s j oy -> ox = oy) -> exists s', hstep s (SetSlice i sl j) (Ok tt) s'.
Proof.
  intros Re X Y Hsl Ro Sd Inc Ld Eo. destruct (reached_rel tr0 s Re) as (w & _ & R). destruct (rel_ref s w i x R X) as (rx & _ & Vx). destruct (rel_ref s w j y R Y) as (ry & _ & Vy).
  destruct (rel_obj s w x rx R Vx) as (_ & _ & Nx & _). destruct (rel_obj s w y ry R Vy) as (_ & _ & Ny & _).
  assert (Q : object_of s x = object_of s y) by (apply Eo; [exists x|exists y]; auto).
  pose proof Vx as (_ & Wx & Px & Rdx & _). destruct (wfv_SV _ Wx) as (sf & Hp & Hn & Ev). change (v_dims (h_var x)) with (h_dims x) in *. rewrite Px in *.
  pose proof (view_step_ok _ (VwSlice sl) Hp Hsl sf (v_offset (h_var x)) (v_readonly (h_var x)) (v_size (h_var x)) Hn) as Hst. rewrite <- Ev in Hst. cbn [view_dims] in Hst. rewrite Sd in Hst.
  destruct Hst as (_ & _ & _ & c & sf' & off' & ro' & sz' & Hs & _). set (v := SV p' sf' off' ro' sz') in *.
  assert (Sl : var_slice (h_var x) sl = Ok v) by (cbn in Hs; destruct (var_slice (h_var x) sl); [injection Hs as _ ->; reflexivity|discriminate|discriminate]).
  assert (Vst : view_step (h_var x) (VwSlice sl) = Ok (false, v)) by (cbn; rewrite Sl; reflexivity).
  destruct (view_sim (w_stores w) x rx (VwSlice sl) false v Vx Hsl Vst) as (p2 & Vd2 & Vv). cbn [view_dims] in Vd2. rewrite Sd in Vd2. injection Vd2 as <-.
  pose proof Vv as (_ & Wv & Pv & _). cbn [r_shape] in Pv.
  destruct (in_place_exists (copy_op E) s w _ y _ ry (o_unit (object_of s y)) R Vv Vy) as [s' St].
  - cbn [r_readonly repeats]. rewrite orb_false_r. congruence.
  - rewrite labels_keys by apply Wv. change (h_dims (mkh (mkarr (h_buf x) v) (h_aligned x))) with (v_dims v) in *. rewrite Pv. unfold keys. rewrite map_length. exact Ld.
  - intros k n Hk. change (In (k, n) (pairs (h_dims (mkh (mkarr (h_buf x) v) (h_aligned x))))). rewrite Pv. apply Inc. exact Hk.
  - reflexivity.
  - left. rewrite <- Q. reflexivity.
  - cbn [i_types copy_op]. change (object_of s (mkh (mkarr (h_buf x) v) (h_aligned x))) with (object_of s x). rewrite Q, Z.eqb_refl. reflexivity.
  - cbn [i_vars copy_op]. change (object_of s (mkh (mkarr (h_buf x) v) (h_aligned x))) with (object_of s x). rewrite Q, eqb_reflx. reflexivity.
  - exists s'. split; [exact Hsl|]. exists x, y. split; [exact X|]. split; [exact Y|]. unfold validate_slice. rewrite Q, eqb_reflx, !Z.eqb_refl. cbn [negb].
    assert (Vs : valid_slice (h_dims x) sl = Ok tt) by (unfold var_slice in Sl; change (v_dims (h_var x)) with (h_dims x) in Sl; destruct (valid_slice (h_dims x) sl) as [[]| |]; [reflexivity|discriminate|discriminate]).
    rewrite Vs. cbn [bind]. rewrite Sl. exact St.
Qed.
End Histories.
