(** Threads that do not touch what others write end with the result of running alone. *)
From Verif Require Import Base Transform_Model.

Section Machine.
Context {A : Type}.
Implicit Types (h : heap A) (p : list (instr A)).

Lemma cell_eqb_spec c d : cell_eqb c d = true <-> c = d.
Proof.
  destruct c as [b k], d as [b' k']. unfold cell_eqb. cbn [fst snd].
  rewrite andb_true_iff, Nat.eqb_eq, Z.eqb_eq. split; [intros [-> ->]; reflexivity|intros E; injection E; auto].
Qed.
Lemma cell_eqb_refl c : cell_eqb c c = true.
Proof. apply cell_eqb_spec. reflexivity. Qed.
Lemma cell_eqb_neq c d : c <> d -> cell_eqb c d = false.
Proof. intros Hn. apply not_true_iff_false. rewrite cell_eqb_spec. assumption. Qed.
Lemma cell_dec (c d : cell) : {c = d} + {c <> d}.
Proof. destruct (cell_eqb c d) eqn:E; [left; apply cell_eqb_spec; assumption|right]. intros ->. rewrite cell_eqb_refl in E. discriminate. Qed.
Lemma hset_same h c x : hset h c x c = x.
Proof. unfold hset. rewrite cell_eqb_refl. reflexivity. Qed.
Lemma hset_other h c x d : d <> c -> hset h c x d = h d.
Proof. intros Hn. unfold hset. rewrite cell_eqb_neq by assumption. reflexivity. Qed.

Definition writes1 (i : instr A) (c : cell) : Prop := match i with Ld _ => False | St d _ => c = d end.
Definition touches1 (i : instr A) (c : cell) : Prop := match i with Ld d => c = d | St d _ => c = d end.
Definition writes p (c : cell) : Prop := exists i, In i p /\ writes1 i c.
Definition touches p (c : cell) : Prop := exists i, In i p /\ touches1 i c.
Lemma writes_touches p c : writes p c -> touches p c.
Proof. intros (i & Hi & Hw). exists i. split; [assumption|]. destruct i; [destruct Hw|assumption]. Qed.
Lemma writes_dec p c : {writes p c} + {~ writes p c}.
Proof.
  induction p as [|i p IH]; [right; intros (? & [] & _)|].
  destruct IH as [Hy|Hn]; [left; destruct Hy as (j & Hj & Hw); exists j; split; [right|]; assumption|].
  destruct i as [d|d f].
  - right. intros (j & [<-|Hj] & Hw); [destruct Hw|]. apply Hn. exists j. auto.
  - destruct (cell_dec c d) as [->|Hne].
    + left. exists (St d f). split; [left; reflexivity|reflexivity].
    + right. intros (j & [<-|Hj] & Hw); [contradiction|]. apply Hn. exists j. auto.
Qed.

Definition solo (s : heap A * list A) p : heap A * list A := fold_left exec p s.
Lemma solo_snoc s p i : solo s (p ++ [i]) = exec (solo s p) i.
Proof. unfold solo. rewrite fold_left_app. reflexivity. Qed.
Lemma solo_app s p q : solo s (p ++ q) = solo (solo s p) q.
Proof. apply fold_left_app. Qed.

Lemma exec_unwritten s i c : ~ writes1 i c -> fst (exec s i) c = fst s c.
Proof. destruct i as [d|d f]; cbn; [reflexivity|]. intros Hn. apply hset_other. assumption. Qed.
Lemma solo_unwritten p : forall s c, ~ writes p c -> fst (solo s p) c = fst s c.
Proof.
  induction p as [|i p IH]; intros s c Hn; [reflexivity|]. cbn [solo fold_left]. fold (solo (exec s i) p).
  rewrite IH, exec_unwritten; [reflexivity| |].
  - intros Hw. apply Hn. exists i. split; [left; reflexivity|assumption].
  - intros (j & Hj & Hw). apply Hn. exists j. split; [right|]; assumption.
Qed.

(** Only the cells an instruction touches matter. *)
Lemma exec_agree h h' regs i (T : cell -> Prop) : (forall c, touches1 i c -> T c) -> (forall c, T c -> h c = h' c) ->
  snd (exec (h, regs) i) = snd (exec (h', regs) i) /\
  forall c, T c -> fst (exec (h, regs) i) c = fst (exec (h', regs) i) c.
Proof.
  intros Hi Hag. destruct i as [d|d f]; cbn.
  - rewrite (Hag d) by (apply Hi; reflexivity). auto.
  - split; [reflexivity|]. intros c Hc. unfold hset. destruct (cell_eqb c d); auto.
Qed.

Lemma nth_upd {B} (l : list B) n x : (n < length l)%nat -> nth_error (upd l n x) n = Some x.
Proof. revert n. induction l as [|b l IH]; intros [|n] Hn; cbn in *; try lia; auto. apply IH. lia. Qed.
Lemma nth_upd_other {B} (l : list B) n m x : n <> m -> nth_error (upd l n x) m = nth_error l m.
Proof. revert n m. induction l as [|b l IH]; intros [|n] [|m] Hn; cbn; auto; try lia. Qed.
Lemma upd_length {B} (l : list B) n x : length (upd l n x) = length l.
Proof. revert n. induction l as [|b l IH]; intros [|n]; cbn; auto. Qed.

Variable h0 : heap A.
Variable progs : list (list (instr A)).
Definition prog (t : nat) : list (instr A) := nth t progs [].
Definition independent : Prop := forall t u c, t <> u -> writes (prog t) c -> ~ touches (prog u) c.

(** Every thread has executed a prefix of its program as if it were alone. *)
Definition consistent (s : heap A * list (thread A)) : Prop :=
  length (snd s) = length progs /\
  (forall t th, nth_error (snd s) t = Some th -> exists done,
     prog t = done ++ fst th /\ snd th = snd (solo (h0, []) done) /\
     forall c, touches (prog t) c -> fst s c = fst (solo (h0, []) done) c) /\
  (forall c, (forall t, ~ writes (prog t) c) -> fst s c = h0 c).

Lemma consistent_start : consistent (h0, start progs).
Proof.
  unfold consistent, start. cbn [fst snd]. split; [apply map_length|]. split; [|reflexivity].
  intros t th Ht. rewrite nth_error_map in Ht. destruct (nth_error progs t) as [p|] eqn:E; cbn in Ht; [|discriminate].
  injection Ht as <-. exists []. cbn. split; [|auto]. unfold prog. apply nth_error_nth. assumption.
Qed.

Lemma consistent_step s t : independent -> consistent s -> consistent (step s t).
Proof.
  intros Hind (Hlen & Hth & Hun). unfold step. destruct (nth_error (snd s) t) as [[[|i p] regs]|] eqn:Et;
    try (exact (conj Hlen (conj Hth Hun))).
  destruct (Hth t _ Et) as (done & Hp & Hr & Hag). cbn [fst snd] in Hp, Hr.
  assert (Hit : forall c, touches1 i c -> touches (prog t) c).
  { intros c Hc. exists i. split; [rewrite Hp; apply in_or_app; right; left; reflexivity|assumption]. }
  assert (Hiw : forall c, writes1 i c -> writes (prog t) c).
  { intros c Hc. exists i. split; [rewrite Hp; apply in_or_app; right; left; reflexivity|assumption]. }
  assert (Htl : (t < length (snd s))%nat) by (apply nth_error_Some; congruence).
  destruct (exec_agree (fst s) (fst (solo (h0, []) done)) regs i (touches (prog t)) Hit Hag) as [Hregs Hheap].
  assert (Es : exec (fst (solo (h0, []) done), regs) i = solo (h0, []) (done ++ [i])).
  { rewrite solo_snoc, Hr, <- surjective_pairing. reflexivity. }
  cbv zeta. unfold consistent. cbn [fst snd]. split; [rewrite upd_length; assumption|]. split.
  - intros u th Hu. destruct (Nat.eq_dec t u) as [<-|Hne].
    + rewrite nth_upd in Hu by assumption. injection Hu as <-. exists (done ++ [i]). cbn [fst snd].
      rewrite <- app_assoc. cbn [app]. split; [assumption|]. rewrite <- Es. auto.
    + rewrite nth_upd_other in Hu by assumption. destruct (Hth u th Hu) as (du & Hpu & Hru & Hagu).
      exists du. split; [assumption|]. split; [assumption|]. intros c Hc. rewrite exec_unwritten.
      * apply Hagu. assumption.
      * intros Hw. apply (Hind t u c Hne (Hiw c Hw) Hc).
  - intros c Hc. rewrite exec_unwritten; [apply Hun; assumption|]. intros Hw. apply (Hc t), Hiw, Hw.
Qed.

Lemma consistent_run sched : independent -> forall s, consistent s -> consistent (run_threads sched s).
Proof.
  intros Hind. unfold run_threads. induction sched as [|t sched IH]; intros s Hs; [assumption|].
  cbn [fold_left]. apply IH, consistent_step; assumption.
Qed.

Theorem noninterference sched : independent ->
  let s := run_threads sched (h0, start progs) in
  finished s ->
  (forall t c, touches (prog t) c -> fst s c = fst (solo (h0, []) (prog t)) c) /\
  (forall c, (forall t, ~ writes (prog t) c) -> fst s c = h0 c).
Proof.
  intros Hind s Hfin. destruct (consistent_run sched Hind _ consistent_start) as (Hlen & Hth & Hun). fold s in Hlen, Hth, Hun.
  split; [|assumption]. intros t c Hc.
  destruct (nth_error (snd s) t) as [th|] eqn:E.
  - destruct (Hth t th E) as (done & Hp & _ & Hag). rewrite (Hfin th (nth_error_In _ _ E)), app_nil_r in Hp.
    subst done. apply Hag. assumption.
  - apply nth_error_None in E. rewrite Hlen in E. unfold prog in Hc. rewrite nth_overflow in Hc by assumption.
    destruct Hc as (? & [] & _).
Qed.

(** Some schedule ends all threads. *)
Lemma step_one h th rest a b i p regs : a ++ (i :: p, regs) :: b = th -> rest = length a ->
  step (h, th) rest = (fst (exec (h, regs) i), a ++ (p, snd (exec (h, regs) i)) :: b).
Proof.
  intros <- ->. unfold step. cbn [fst snd]. rewrite nth_error_app2 by lia. rewrite Nat.sub_diag. cbn [nth_error].
  cbv zeta. f_equal. induction a as [|x a IH]; [reflexivity|]. cbn [app length upd]. f_equal. assumption.
Qed.
End Machine.

Lemma finish_one {A} (p : list (instr A)) : forall (h : heap A) regs a b,
  exists h' regs', run_threads (repeat (length a) (length p)) (h, a ++ (p, regs) :: b) = (h', a ++ ([], regs') :: b).
Proof.
  induction p as [|i p IH]; intros h regs a b; [cbn; eauto|]. cbn [length repeat]. unfold run_threads in *. cbn [fold_left].
  rewrite (step_one h _ _ a b i p regs eq_refl eq_refl). apply IH.
Qed.
Lemma finish_all {A} (progs : list (list (instr A))) : forall (h : heap A) a, (forall t, In t a -> fst t = []) ->
  exists sched, finished (run_threads sched (h, a ++ start progs)).
Proof.
  induction progs as [|p progs IH]; intros h a Ha.
  - exists []. cbn. rewrite app_nil_r. exact Ha.
  - change (start (p :: progs)) with ((p, [] : list A) :: start progs). destruct (finish_one p h [] a (start progs)) as (h' & regs' & E).
    destruct (IH h' (a ++ [([], regs')])) as [sched Hs].
    { intros t Ht. apply in_app_or in Ht as [Ht|[<-|[]]]; [auto|reflexivity]. }
    exists (repeat (length a) (length p) ++ sched). unfold run_threads in *. rewrite fold_left_app, E.
    rewrite <- app_assoc in Hs. exact Hs.
Qed.
Lemma can_finish {A} (h : heap A) progs : exists sched, finished (run_threads sched (h, start progs)).
Proof. apply (finish_all progs h []). intros t []. Qed.

(** ** Programs made of calls *)
Section Calls.
Context {A B : Type}.
Variable f : list A -> A.
Variable out : B -> cell.
Variable ins : B -> list cell.
Definition kcall (k : B) : list (instr A) := map Ld (ins k) ++ [St (out k) f].

Lemma solo_loads cs : forall (h : heap A) regs, solo (h, regs) (map Ld cs) = (h, regs ++ map h cs).
Proof.
  induction cs as [|c cs IH]; intros h regs; cbn; [rewrite app_nil_r; reflexivity|].
  rewrite <- (app_nil_l (map h cs)). unfold solo in IH. rewrite IH, <- app_assoc. reflexivity.
Qed.
Lemma solo_kcall h k : solo (h, []) (kcall k) = (hset h (out k) (f (map h (ins k))), []).
Proof. unfold kcall. rewrite solo_snoc, solo_loads. reflexivity. Qed.

Lemma kcall_writes ks c : writes (flat_map kcall ks) c <-> exists k, In k ks /\ c = out k.
Proof.
  split.
  - intros (i & Hi & Hw). apply in_flat_map in Hi as (k & Hk & Hi). unfold kcall in Hi.
    apply in_app_or in Hi as [Hi|[<-|[]]]; [apply in_map_iff in Hi as (d & <- & _); destruct Hw|].
    exists k. auto.
  - intros (k & Hk & ->). exists (St (out k) f). split; [|reflexivity]. apply in_flat_map. exists k. split; [assumption|].
    unfold kcall. apply in_or_app. right. left. reflexivity.
Qed.
Lemma kcall_touches ks c : touches (flat_map kcall ks) c -> exists k, In k ks /\ (c = out k \/ In c (ins k)).
Proof.
  intros (i & Hi & Hw). apply in_flat_map in Hi as (k & Hk & Hi). exists k. split; [assumption|]. unfold kcall in Hi.
  apply in_app_or in Hi as [Hi|[<-|[]]]; [|left; assumption].
  apply in_map_iff in Hi as (d & <- & Hd). cbn in Hw. subst. right. assumption.
Qed.

(** Every call writes its own cell and no call reads a cell that another call writes. *)
Lemma solo_calls ks : forall h, NoDup (map out ks) ->
  (forall j k, In j ks -> In k ks -> In (out j) (ins k) -> out j = out k) ->
  let s := solo (h, []) (flat_map kcall ks) in
  snd s = [] /\ (forall k, In k ks -> fst s (out k) = f (map h (ins k))) /\
  (forall c, ~ In c (map out ks) -> fst s c = h c).
Proof.
  induction ks as [|k ks IH]; intros h Hnd Hro; [cbn; split; [reflexivity|split; [intros ? []|reflexivity]]|].
  cbn [flat_map map] in *. rewrite solo_app, solo_kcall. inversion Hnd as [|? ? Hni Hnd']; subst.
  destruct (IH (hset h (out k) (f (map h (ins k)))) Hnd') as (Hr & Hv & Hu).
  { intros j l Hj Hl. apply Hro; right; assumption. }
  split; [assumption|]. split.
  - intros j [<-|Hj].
    + rewrite Hu by assumption. apply hset_same.
    + rewrite Hv by assumption. f_equal. apply map_ext_in. intros c Hc. apply hset_other. intros ->.
      apply Hni. rewrite (Hro k j); [apply in_map; assumption|left; reflexivity|right; assumption|assumption].
  - intros c Hc. rewrite Hu by (intros Hin; apply Hc; right; assumption). apply hset_other. intros ->. apply Hc. left. reflexivity.
Qed.

Lemma nth_in_concat (kss : list (list B)) t k : In k (nth t kss []) -> In k (concat kss).
Proof.
  intros Hk. apply in_concat. exists (nth t kss []). split; [|assumption].
  destruct (Nat.lt_ge_cases t (length kss)) as [Hl|Hl]; [apply nth_In; assumption|].
  rewrite nth_overflow in Hk by assumption. destruct Hk.
Qed.
Lemma in_concat_nth (kss : list (list B)) k : In k (concat kss) -> exists t, In k (nth t kss []).
Proof.
  intros Hk. apply in_concat in Hk as (ks & Hks & Hk). apply In_nth with (d := []) in Hks as (t & _ & <-). eauto.
Qed.
Lemma NoDup_parts (kss : list (list B)) : NoDup (map out (concat kss)) ->
  (forall t, NoDup (map out (nth t kss []))) /\
  (forall t u j k, In j (nth t kss []) -> In k (nth u kss []) -> out j = out k -> t = u).
Proof.
  induction kss as [|ks kss IH]; cbn [concat]; intros Hnd.
  - split; [intros [|t]; constructor|]. intros [|t] u j k [].
  - rewrite map_app in Hnd.
    assert (Hsep : forall j k, In j ks -> In k (concat kss) -> out j = out k -> False).
    { intros j k Hj Hk E. apply (in_map out) in Hj, Hk. rewrite E in Hj. clear IH E.
      induction (map out ks) as [|x l IHl]; [destruct Hj|]. cbn in Hnd. inversion Hnd; subst.
      destruct Hj as [->|Hj]; [|auto]. apply H1. apply in_or_app. right. assumption. }
    assert (H1 : NoDup (map out ks)).
    { clear IH Hsep. induction (map out ks) as [|x l IHl]; [constructor|]. cbn in Hnd. inversion Hnd; subst.
      constructor; [|auto]. intros Hin. apply H1, in_or_app. left. assumption. }
    assert (H2 : NoDup (map out (concat kss))).
    { clear - Hnd. induction (map out ks) as [|x l IHl]; [assumption|]. cbn in Hnd. inversion Hnd; subst. auto. }
    destruct (IH H2) as [Ha Hb]. split.
    + intros [|t]; cbn; auto.
    + intros [|t] [|u] j k Hj Hk E; cbn in *; [reflexivity| | |].
      * exfalso. apply (Hsep j k Hj); [apply (nth_in_concat kss u); assumption|assumption].
      * exfalso. apply (Hsep k j Hk); [apply (nth_in_concat kss t); assumption|symmetry; assumption].
      * f_equal. apply (Hb t u j k); assumption.
Qed.

Theorem calls_par h kss sched : NoDup (map out (concat kss)) ->
  (forall j k, In j (concat kss) -> In k (concat kss) -> In (out j) (ins k) -> out j = out k) ->
  let s := run_threads sched (h, start (map (fun ks => flat_map kcall ks) kss)) in
  finished s ->
  (forall k, In k (concat kss) -> fst s (out k) = f (map h (ins k))) /\
  (forall c, ~ In c (map out (concat kss)) -> fst s c = h c).
Proof.
  intros Hnd Hro s Hfin. destruct (NoDup_parts kss Hnd) as [Hnd1 Hnd2].
  assert (Hp : forall t, prog (map (fun ks => flat_map kcall ks) kss) t = flat_map kcall (nth t kss [])).
  { intros t. unfold prog. change [] with (flat_map kcall []) at 1. apply (map_nth (fun ks => flat_map kcall ks)). }
  assert (Hind : independent (map (fun ks => flat_map kcall ks) kss)).
  { intros t u c Hne Hw Ht. rewrite Hp in Hw, Ht. apply kcall_writes in Hw as (j & Hj & ->).
    apply kcall_touches in Ht as (k & Hk & [E|E]).
    - apply Hne. apply (Hnd2 t u j k); assumption.
    - apply Hne. apply (Hnd2 t u j k); try assumption. apply Hro; try assumption; eapply nth_in_concat; eassumption. }
  destruct (noninterference h _ sched Hind Hfin) as [Hto Hun]. fold s in Hto, Hun. split.
  - intros k Hk. destruct (in_concat_nth _ _ Hk) as [t Ht]. rewrite (Hto t).
    + rewrite Hp. destruct (solo_calls (nth t kss []) h (Hnd1 t)) as (_ & Hv & _); [|apply Hv; assumption].
      intros i j Hi Hj. apply Hro; eapply nth_in_concat; eassumption.
    + rewrite Hp. apply writes_touches, kcall_writes. exists k. auto.
  - intros c Hc. apply Hun. intros t Hw. rewrite Hp in Hw. apply kcall_writes in Hw as (k & Hk & ->).
    apply Hc. apply in_map. eapply nth_in_concat; eassumption.
Qed.
End Calls.
