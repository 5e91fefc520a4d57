(** Lemmas about nested variables. *)
From Coq Require Import Relations.
From Verif Require Import Base Nesting_Model Nesting_Spec.

Lemma replace_same {A} (l : list A) i a : (i < length l)%nat -> nth_error (replace l i a) i = Some a.
Proof. revert i. induction l as [|b l IH]; intros [|i] L; cbn [length] in L; try lia; [reflexivity|]. cbn. apply IH. lia. Qed.
Lemma replace_other {A} (l : list A) i k a : k <> i -> nth_error (replace l i a) k = nth_error l k.
Proof. revert i k. induction l as [|b l IH]; intros [|i] [|k] N; try reflexivity; try (exfalso; now apply N). cbn. apply IH. congruence. Qed.
Lemma replace_length {A} (l : list A) i a : length (replace l i a) = length l.
Proof. revert i. induction l as [|b l IH]; intros [|i]; cbn; auto. Qed.
Lemma replace_over {A} (l : list A) i a : (length l <= i)%nat -> replace l i a = l.
Proof. revert i. induction l as [|b l IH]; intros [|i] L; cbn [length] in L; try lia; [reflexivity|reflexivity|]. cbn. f_equal. apply IH. lia. Qed.
Lemma map_replace {A B} (f : A -> B) l i a : map f (replace l i a) = replace (map f l) i (f a).
Proof. revert i. induction l as [|b l IH]; intros [|i]; cbn; try reflexivity. f_equal. apply IH. Qed.

(** Both checks as one. *)
Section Check.
Variable p : object -> bool.
Variable cmp : object -> bool.
Fixpoint gen (n : nat) (h : heap) (L : addr) (rs : list handle) : res unit :=
  match n with
  | O => Ub
  | S n' =>
    each (fun r =>
      match nth_error h (h_obj r) with
      | Some ob => if p ob then each (fun j => if cmp ob && is_at L (h_obj r) j then Throw InvalidArgument else do s <- element (elements ob) j; gen n' h L s) (h_vis r) else Ok tt
      | None => Ok tt
      end) rs
  end.
Lemma each_spec {A} (f : nat -> A -> res unit) (B : A -> Prop) l :
  (forall a, In a l -> exists N, forall n, (N <= n)%nat -> (f n a = Ok tt /\ ~ B a) \/ (f n a = Throw InvalidArgument /\ B a)) ->
  exists N, forall n, (N <= n)%nat -> (each (f n) l = Ok tt /\ forall a, In a l -> ~ B a) \/ (each (f n) l = Throw InvalidArgument /\ exists a, In a l /\ B a).
Proof using .
  clear p cmp. induction l as [|a l IH]; intros Q; [exists 0%nat; intros n _; left; split; [reflexivity|intros a []]|].
  destruct (Q a (or_introl eq_refl)) as [N1 Q1]. destruct IH as [N2 Q2]; [intros b I; exact (Q b (or_intror I))|]. exists (N1 + N2)%nat. intros n Hn. cbn [each].
  destruct (Q1 n ltac:(lia)) as [[-> B1]|[-> B1]]; cbn [bind].
  - destruct (Q2 n ltac:(lia)) as [[-> B2]|[-> (b & I & Bb)]]; [left|right]; (split; [reflexivity|]).
    + intros b [<-|I]; [exact B1|exact (B2 b I)].
    + exists b. split; [now right|exact Bb].
  - right. split; [reflexivity|]. exists a. split; [now left|exact B1].
Qed.

Variable h : heap.
Variable L : addr.
Hypothesis Lc : forall o i ob, L = Some (o, i) -> nth_error h o = Some ob -> p ob = true -> cmp ob = true.
Hypothesis hv : forall e r, holds h e r -> valid h r.
Hypothesis wf : forall e, Acc (fun x y => sees_sort p h y x) e.
Hypothesis pp : p Plain = false.
Definition hits (rs : list handle) : Prop := exists l, L = Some l /\ reaches p h rs l.
Definition decides (rs : list handle) : Prop := exists N, forall n, (N <= n)%nat -> (gen n h L rs = Ok tt /\ ~ hits rs) \/ (gen n h L rs = Throw InvalidArgument /\ hits rs).

Lemma reaches_content e ob s l : nth_error h (fst e) = Some ob -> nth_error (elements ob) (snd e) = Some s ->
  clos_refl_trans _ (sees_sort p h) e l <-> e = l \/ reaches p h s l.
Proof using.
  clear Lc hv wf pp. intros Eo Es. split.
  - intros C. apply clos_rt_rt1n in C. inversion C as [|e' ? S C']; subst; [now left|]. right. destruct S as (S1 & r & (ob' & s' & X1 & X2 & X3) & S2). rewrite X1 in Eo. injection Eo as ->. rewrite X2 in Es. injection Es as ->.
    exists r, e'. split; [exact X3|]. split; [exact S2|]. split; [exact S1|]. apply clos_rt1n_rt, C'.
  - intros [->|(r & e' & I & S & K & C)]; [apply rt_refl|]. eapply rt_trans; [apply rt_step|exact C]. split; [exact K|]. exists r. split; [|exact S]. exists ob, s. auto.
Qed.
Lemma is_at_iff o j : is_at L o j = true <-> L = Some (o, j).
Proof using. clear. unfold is_at. destruct L as [[o' i']|]; [|split; discriminate]. rewrite andb_true_iff, !Nat.eqb_eq. split; [intros [-> ->]; reflexivity|intros [= -> ->]; auto]. Qed.

Lemma decides_step rs : (forall r, In r rs -> valid h r) ->
  (forall r e ob s, In r rs -> sees_from r e -> nth_error h (fst e) = Some ob -> p ob = true -> nth_error (elements ob) (snd e) = Some s -> decides s) -> decides rs.
Proof using Lc pp hv wf.
  intros V Q.
  destruct (each_spec (fun n r => match nth_error h (h_obj r) with
      | Some ob => if p ob then each (fun j => if cmp ob && is_at L (h_obj r) j then Throw InvalidArgument else do s <- element (elements ob) j; gen n h L s) (h_vis r) else Ok tt
      | None => Ok tt end) (fun r => hits [r]) rs) as [N HN].
  { intros r Ir. destruct (V r Ir) as (ob & Eo & Vis). rewrite Eo. destruct (p ob) eqn:Ep.
    - assert (Np : ob <> Plain) by (intros ->; rewrite pp in Ep; discriminate). specialize (Vis Np).
      destruct (each_spec (fun n j => if cmp ob && is_at L (h_obj r) j then Throw InvalidArgument else do s <- element (elements ob) j; gen n h L s)
        (fun j => exists l, L = Some l /\ clos_refl_trans _ (sees_sort p h) (h_obj r, j) l) (h_vis r)) as [N HN].
      + intros j Ij. destruct (nth_error (elements ob) j) as [s|] eqn:Es; [|apply nth_error_None in Es; specialize (Vis j Ij); lia].
        destruct (Q r (h_obj r, j) ob s Ir (conj eq_refl Ij) Eo Ep Es) as [N HN]. exists N. intros n Hn.
        destruct (is_at L (h_obj r) j) eqn:A.
        * apply is_at_iff in A. rewrite (Lc _ _ _ A Eo Ep). cbn [andb]. right. split; [reflexivity|]. exists (h_obj r, j). split; [exact A|apply rt_refl].
        * rewrite andb_false_r. unfold element. rewrite Es. cbn [bind]. destruct (HN n Hn) as [[-> B]|[-> (l & El & B)]]; [left|right]; (split; [reflexivity|]).
          -- intros (l & El & C). apply (reaches_content (h_obj r, j) ob s l Eo Es) in C as [C|C]; [rewrite <- C in El; apply is_at_iff in El; congruence|]. apply B. exists l. auto.
          -- exists l. split; [exact El|]. apply (reaches_content (h_obj r, j) ob s l Eo Es). now right.
      + exists N. intros n Hn. destruct (HN n Hn) as [[-> B]|[-> (j & Ij & l & El & B)]]; [left|right]; (split; [reflexivity|]).
        * intros (l & El & r' & e & [<-|[]] & (S1 & S2) & K & C). apply (B (snd e) S2). exists l. split; [exact El|]. rewrite <- S1, <- surjective_pairing. exact C.
        * exists l. split; [exact El|]. exists r, (h_obj r, j). split; [now left|]. split; [split; [reflexivity|exact Ij]|]. split; [exists ob; auto|exact B].
    - exists 0%nat. intros n _. left. split; [reflexivity|]. intros (l & El & r' & e & [<-|[]] & (S1 & S2) & (ob' & K1 & K2) & C). rewrite S1, Eo in K1. injection K1 as <-. congruence. }
  exists (S N). intros [|n] Hn; [lia|]. cbn [gen]. destruct (HN n ltac:(lia)) as [[E B]|[E (r & Ir & l & El & r' & e & [<-|[]] & C)]]; rewrite E; [left|right]; (split; [reflexivity|]).
  - intros (l & El & r & e & Ir & C). apply (B r Ir). exists l. split; [exact El|]. exists r, e. split; [now left|exact C].
  - exists l. split; [exact El|]. exists r, e. split; [exact Ir|exact C].
Qed.
Lemma decides_all rs : (forall r, In r rs -> valid h r) -> decides rs.
Proof using Lc hv wf pp.
  assert (G : forall e ob s, nth_error h (fst e) = Some ob -> nth_error (elements ob) (snd e) = Some s -> decides s).
  { intros e. induction (wf e) as [e _ IH]. intros ob s Eo Es. apply decides_step.
    - intros r I. apply (hv e). exists ob, s. auto.
    - intros r e' ob' s' I S Eo' Ep' Es'. refine (IH e' _ ob' s' Eo' Es'). split; [exists ob'; auto|]. exists r. split; [exists ob, s; auto|exact S]. }
  intros V. apply decides_step; [exact V|]. intros r e ob s _ _ Eo _ Es. exact (G e ob s Eo Es).
Qed.
End Check.

Lemma each_ext {A} (f g : A -> res unit) l : (forall a, f a = g a) -> each f l = each g l.
Proof. intros E. induction l as [|a l IH]; [reflexivity|]. cbn [each]. now rewrite E, IH. Qed.
Lemma each_one {A} (f : A -> res unit) a : each f [a] = f a.
Proof. cbn [each]. destruct (f a) as [[]| |]; reflexivity. Qed.
Lemma var_gen n h L r : var_check n h L r = gen is_vars (fun _ => true) n h L [r].
Proof.
  revert r. induction n as [|n IH]; intros r; [reflexivity|]. cbn [gen]. rewrite each_one. cbn [var_check]. destruct (nth_error h (h_obj r)) as [[|l|l|l|b]|]; try reflexivity. cbn [is_vars elements andb]. apply each_ext. intros j.
  destruct (is_at L (h_obj r) j); [reflexivity|]. unfold element. rewrite nth_error_map. destruct (nth_error l j) as [s|]; [|reflexivity]. cbn [option_map bind]. apply IH.
Qed.
Definition cmp_set (array : bool) (ob : object) : bool := match ob with Arrays _ => array | Sets _ => negb array | _ => false end.
Lemma set_gen n h array L rs : set_check n h array L rs = gen is_sets (cmp_set array) n h L rs.
Proof.
  revert rs. induction n as [|n IH]; intros rs; [reflexivity|]. cbn [gen set_check]. apply each_ext. intros r. destruct (nth_error h (h_obj r)) as [[|l|l|l|b]|]; try reflexivity; cbn [is_sets elements cmp_set]; apply each_ext; intros j;
    destruct (_ && _); try reflexivity; unfold element; destruct (nth_error l j) as [s|]; try reflexivity; cbn [bind]; apply IH.
Qed.

Lemma pair_dec (e e' : nat * nat) : e = e' \/ e <> e'.
Proof. destruct e as [a b], e' as [c d]. destruct (Nat.eq_dec a c) as [->|N]; [destruct (Nat.eq_dec b d) as [->|N]|]; [now left|right|right]; congruence. Qed.
(** Writing an element. *)
Definition put (ob : object) (i : nat) (rs : list handle) (ob' : object) : Prop :=
  elements ob' = replace (elements ob) i rs /\ is_vars ob' = is_vars ob /\ is_sets ob' = is_sets ob /\ (ob' = Plain <-> ob = Plain).
Section Write.
Variables (h : heap) (o i : nat) (rs : list handle) (ob ob' : object).
Hypothesis Eo : nth_error h o = Some ob.
Hypothesis Pu : put ob i rs ob'.
Let h' := replace h o ob'.
Lemma o_in : (o < length h)%nat. Proof using Eo. apply nth_error_Some. congruence. Qed.
Lemma h'_at k : nth_error h' k = if Nat.eqb k o then Some ob' else nth_error h k.
Proof using Eo. pose proof o_in as Lo. unfold h'. destruct (Nat.eqb k o) eqn:E; [apply Nat.eqb_eq in E; subst; now apply replace_same|apply Nat.eqb_neq in E; now apply replace_other]. Qed.
Lemma holds_write e r : holds h' e r -> (e <> (o, i) /\ holds h e r) \/ (e = (o, i) /\ In r rs).
Proof using Eo Pu.
  destruct Pu as (P1 & _). intros (ob1 & s & A & B & I). rewrite h'_at in A. destruct (Nat.eqb (fst e) o) eqn:E.
  - apply Nat.eqb_eq in E. injection A as <-. rewrite P1 in B. destruct (Nat.eq_dec (snd e) i) as [Ei|Ni].
    + right. split; [rewrite <- E, <- Ei; apply surjective_pairing|]. rewrite Ei in B.
      destruct (Nat.lt_ge_cases i (length (elements ob))) as [Li|Li]; [rewrite replace_same in B by exact Li; injection B as <-; exact I|].
      rewrite replace_over in B by exact Li. apply nth_error_None in Li. congruence.
    + left. split; [intros X; apply Ni; rewrite X; reflexivity|]. exists ob, s. rewrite E. split; [exact Eo|]. split; [|exact I]. rewrite replace_other in B by exact Ni. exact B.
  - left. split; [intros X; rewrite X, Nat.eqb_refl in E; discriminate E|]. exists ob1, s. auto.
Qed.
Lemma holds_kept e r : e <> (o, i) -> holds h e r -> holds h' e r.
Proof using Eo Pu.
  destruct Pu as (P1 & _). intros N (ob1 & s & A & B & I). destruct (Nat.eq_dec (fst e) o) as [E|E].
  - exists ob', s. rewrite h'_at, (proj2 (Nat.eqb_eq _ _) E). split; [reflexivity|]. split; [|exact I]. rewrite E, Eo in A. injection A as <-. rewrite P1, replace_other; [exact B|]. intros X. apply N. rewrite <- E, <- X. apply surjective_pairing.
  - exists ob1, s. rewrite h'_at, (proj2 (Nat.eqb_neq _ _) E). auto.
Qed.
Lemma holds_new r : (i < length (elements ob))%nat -> In r rs -> holds h' (o, i) r.
Proof using Eo Pu. destruct Pu as (P1 & _). intros Li I. exists ob', rs. cbn [fst snd]. rewrite h'_at, Nat.eqb_refl. split; [reflexivity|]. split; [|exact I]. rewrite P1. now apply replace_same. Qed.
Lemma valid_write r : valid h r <-> valid h' r.
Proof using Eo Pu.
  destruct Pu as (P1 & _ & _ & P4). unfold valid. split; intros (ob1 & A & B).
  - rewrite h'_at. destruct (Nat.eqb (h_obj r) o) eqn:E; [|exists ob1; auto]. apply Nat.eqb_eq in E. rewrite E, Eo in A. injection A as <-. exists ob'. split; [reflexivity|]. intros N j I. rewrite P1, replace_length. apply B; [|exact I]. intros X. apply N, P4, X.
  - rewrite h'_at in A. destruct (Nat.eqb (h_obj r) o) eqn:E; [|exists ob1; auto]. apply Nat.eqb_eq in E. injection A as <-. exists ob. rewrite E. split; [exact Eo|]. intros N j I. rewrite P1, replace_length in B. apply B; [|exact I]. intros X. apply N, P4, X.
Qed.
Variable p : object -> bool.
Hypothesis pk : p ob' = p ob.
Lemma sort_write e : sort p h' e <-> sort p h e.
Proof using Eo pk.
  unfold sort. rewrite h'_at. destruct (Nat.eqb (fst e) o) eqn:E; [|reflexivity]. apply Nat.eqb_eq in E. rewrite E, Eo. split; intros (x & [= <-] & B); eexists; (split; [reflexivity|]); congruence.
Qed.
Lemma wf_write : (forall e, Acc (fun x y => sees_sort p h y x) e) -> (p ob = true -> ~ reaches p h rs (o, i)) -> forall e, Acc (fun x y => sees_sort p h' y x) e.
Proof using Eo Pu pk.
  intros W NR.
  assert (S1 : forall e e', e <> (o, i) -> sees_sort p h' e e' -> sees_sort p h e e').
  { intros e e' N (K & r & Hr & S). split; [now apply sort_write|]. exists r. split; [|exact S]. destruct (holds_write e r Hr) as [[_ X]|[X _]]; [exact X|contradiction]. }
  assert (S2 : forall e', sees_sort p h' (o, i) e' -> exists r, In r rs /\ sees_from r e' /\ sort p h e').
  { intros e' (K & r & Hr & S). exists r. destruct (holds_write (o, i) r Hr) as [[X _]|[_ X]]; [exfalso; now apply X|]. split; [exact X|]. split; [exact S|now apply sort_write]. }
  assert (A : forall x, sort p h x -> ~ clos_refl_trans _ (sees_sort p h) x (o, i) -> Acc (fun x y => sees_sort p h' y x) x).
  { intros x. induction (W x) as [x _ IH]. intros K N. constructor. intros y Sy. assert (Nx : x <> (o, i)) by (intros ->; apply N, rt_refl). pose proof (S1 x y Nx Sy) as Sy'. apply (IH y Sy'); [apply Sy'|].
    intros C. apply N. eapply rt_trans; [apply rt_step; exact Sy'|exact C]. }
  assert (B : Acc (fun x y => sees_sort p h' y x) (o, i)).
  { constructor. intros y Sy. destruct (S2 y Sy) as (r & I & S & K). destruct (p ob) eqn:Ep.
    - apply A; [exact K|]. intros C. apply (NR eq_refl). exists r, y. auto.
    - (* the element is of another sort and never seen *)
      clear Sy S. revert K. induction (W y) as [y _ IH]. intros K. constructor. intros z Sz. assert (Ny : y <> (o, i)) by (intros ->; destruct K as (x & X1 & X2); cbn [fst] in X1; congruence).
      pose proof (S1 y z Ny Sz) as Sz'. apply (IH z Sz'). apply Sz'. }
  intros e. induction (W e) as [e _ IH]. destruct (pair_dec e (o, i)) as [->|N]; [exact B|]. constructor. intros y Sy. apply IH, S1; assumption.
Qed.
(** A write that is rejected would make a cycle. *)
Lemma cycle_write : (i < length (elements ob))%nat -> reaches p h rs (o, i) -> clos_trans _ (sees h') (o, i) (o, i).
Proof using Eo Pu.
  intros Li (r & e & I & S & _ & C). assert (F : sees h' (o, i) e) by (exists r; split; [now apply holds_new|exact S]).
  assert (G : e = (o, i) \/ clos_trans _ (sees h') e (o, i)).
  { apply clos_rt_rt1n in C. clear F S. remember (o, i) as l eqn:El. induction C as [|x y z (_ & r' & Hr & S) C IH]; [now left|]. destruct (pair_dec x z) as [->|N]; [now left|]. right.
    assert (F : sees h' x y) by (exists r'; split; [apply holds_kept; [congruence|exact Hr]|exact S]). destruct (IH El) as [->|D]; [now apply t_step|]. eapply t_trans; [apply t_step; exact F|exact D]. }
  destruct G as [->|G]; [now apply t_step|]. eapply t_trans; [apply t_step; exact F|exact G].
Qed.
End Write.

(** The invariant of all histories. *)
Definition inv (h : heap) : Prop := (forall e r, holds h e r -> valid h r) /\ (forall e, Acc (fun x y => sees_sort is_vars h y x) e) /\ (forall e, Acc (fun x y => sees_sort is_sets h y x) e).
Lemma inv_nil : inv [].
Proof.
  assert (N : forall e r, ~ holds [] e r) by (intros e r (ob & s & A & _); destruct (fst e); discriminate A).
  split; [intros e r X; destruct (N _ _ X)|]. split; intros e; constructor; intros y (_ & r & X & _); destruct (N _ _ X).
Qed.
Lemma inv_new h ob : inv h -> (forall s r, In s (elements ob) -> In r s -> valid h r) -> inv (h ++ [ob]).
Proof.
  intros (V & W1 & W2) Vo.
  assert (Vk : forall r, valid h r -> valid (h ++ [ob]) r).
  { intros r (ob1 & A & B). exists ob1. split; [|exact B]. rewrite nth_error_app1; [exact A|]. apply nth_error_Some. congruence. }
  assert (Hk : forall e r, holds (h ++ [ob]) e r -> valid h r).
  { intros e r (ob1 & s & A & B & I). destruct (Nat.lt_ge_cases (fst e) (length h)) as [Lt|Ge].
    - rewrite nth_error_app1 in A by exact Lt. apply (V e). exists ob1, s. auto.
    - rewrite nth_error_app2 in A by exact Ge. destruct (fst e - length h)%nat as [|k]; [|destruct k; discriminate A]. injection A as <-. apply (Vo s r); [eapply nth_error_In; exact B|exact I]. }
  assert (Ho : forall e r, (fst e < length h)%nat -> holds (h ++ [ob]) e r -> holds h e r).
  { intros e r Lt (ob1 & s & A & B & I). rewrite nth_error_app1 in A by exact Lt. exists ob1, s. auto. }
  assert (Wk : forall p, (forall e, Acc (fun x y => sees_sort p h y x) e) -> forall e, Acc (fun x y => sees_sort p (h ++ [ob]) y x) e).
  { intros p W. assert (Tgt : forall e y, sees_sort p (h ++ [ob]) e y -> (fst y < length h)%nat) by (intros e y (_ & r & Hr & S & _); destruct (Hk e r Hr) as (ob1 & A & _); rewrite S; apply nth_error_Some; congruence).
    assert (Old : forall e, (fst e < length h)%nat -> Acc (fun x y => sees_sort p (h ++ [ob]) y x) e).
    { intros e. induction (W e) as [e _ IH]. intros Le. constructor. intros y Sy. pose proof (Tgt e y Sy) as Ly. apply IH; [|exact Ly]. destruct Sy as ((ob1 & K1 & K2) & r & Hr & S). split; [exists ob1; rewrite nth_error_app1 in K1 by exact Ly; auto|]. exists r. split; [apply Ho; assumption|exact S]. }
    intros e. constructor. intros y Sy. apply Old, (Tgt e y Sy). }
  split; [intros e r X; apply Vk, (Hk e r X)|]. split; apply Wk; assumption.
Qed.
Lemma inv_write h o i rs ob ob' : inv h -> nth_error h o = Some ob -> put ob i rs ob' -> (forall r, In r rs -> valid h r) ->
  (is_vars ob = true -> ~ reaches is_vars h rs (o, i)) -> (is_sets ob = true -> ~ reaches is_sets h rs (o, i)) -> inv (replace h o ob').
Proof.
  intros (V & W1 & W2) Eo Pu Vr N1 N2. split; [|split].
  - intros e r X. apply (valid_write h o i rs ob ob' Eo Pu). destruct (holds_write h o i rs ob ob' Eo Pu e r X) as [[_ Y]|[_ Y]]; [exact (V e r Y)|exact (Vr r Y)].
  - apply (wf_write h o i rs ob ob' Eo Pu is_vars); [apply Pu|exact W1|exact N1].
  - apply (wf_write h o i rs ob ob' Eo Pu is_sets); [apply Pu|exact W2|exact N2].
Qed.
Lemma gen_mono p cmp h L : forall n n' rs r, (n <= n')%nat -> gen p cmp n h L rs = r -> r <> Ub -> gen p cmp n' h L rs = r.
Proof.
  assert (E : forall A (f g : A -> res unit) l r, (forall a r, f a = r -> r <> Ub -> g a = r) -> each f l = r -> r <> Ub -> each g l = r).
  { intros A f g l r Q. induction l as [|a l IH]; cbn [each]; intros X N; [exact X|]. destruct (f a) as [[]|e|] eqn:Ef; cbn [bind] in X; [|subst r|congruence].
    - rewrite (Q a (Ok tt) Ef) by discriminate. cbn [bind]. auto.
    - rewrite (Q a (Throw e) Ef) by discriminate. reflexivity. }
  induction n as [|n IH]; intros n' rs r Le X N; [cbn [gen] in X; congruence|]. destruct n' as [|n']; [lia|]. cbn [gen] in *. revert X N. apply E. intros a r1. destruct (nth_error h (h_obj a)) as [ob|]; [|auto]. destruct (p ob); [|auto]. apply E. intros j r2. destruct (_ && _); [auto|].
  destruct (element (elements ob) j) as [s| |]; cbn [bind]; auto. intros X1 N1. apply (IH n'); auto. lia.
Qed.
Lemma step_inv h h' : inv h -> step h h' -> inv h'.
Proof.
  intros I S. pose proof I as (V & W1 & W2). destruct S as [ob Vo|n o i r h' Vr E|n o i rs h' Vr E|n o i rs h' Vr E].
  - apply inv_new; assumption.
  - unfold assign_var in E. destruct (nth_error h o) as [[|l|l|l|b]|] eqn:Eo; try discriminate E. destruct (var_check n h (Some (o, i)) r) as [[]| |] eqn:Ec; try discriminate E. cbn [bind] in E. injection E as <-.
    apply (inv_write h o i [r] (Vars l)); [exact I|exact Eo| |intros r' [<-|[]]; exact Vr| |discriminate].
    + split; [cbn [elements]; now rewrite map_replace|]. repeat split; discriminate.
    + intros _. rewrite var_gen in Ec. destruct (decides_all is_vars (fun _ => true) h (Some (o, i)) ltac:(reflexivity) V W1 eq_refl [r]) as [N D]; [intros r' [<-|[]]; exact Vr|].
      destruct (D (N + n)%nat ltac:(lia)) as [[_ Q]|[Q _]].
      * intros R. apply Q. exists (o, i). auto.
      * rewrite (gen_mono _ _ _ _ n (N + n)%nat _ _ ltac:(lia) Ec) in Q by discriminate. discriminate Q.
  - unfold assign_array in E. destruct (nth_error h o) as [[|l|l|l|b]|] eqn:Eo; try discriminate E. destruct (set_check n h true (Some (o, i)) rs) as [[]| |] eqn:Ec; try discriminate E. cbn [bind] in E. injection E as <-.
    apply (inv_write h o i rs (Arrays l)); [exact I|exact Eo| |exact Vr|discriminate|].
    + repeat split; discriminate.
    + intros _. rewrite set_gen in Ec. destruct (decides_all is_sets (cmp_set true) h (Some (o, i)) ltac:(intros o' i' ob [= <- <-] Eo'; rewrite Eo in Eo'; injection Eo' as <-; reflexivity) V W2 eq_refl rs Vr) as [N D].
      destruct (D (N + n)%nat ltac:(lia)) as [[_ Q]|[Q _]].
      * intros R. apply Q. exists (o, i). auto.
      * rewrite (gen_mono _ _ _ _ n (N + n)%nat _ _ ltac:(lia) Ec) in Q by discriminate. discriminate Q.
  - unfold assign_set in E. destruct (nth_error h o) as [[|l|l|l|b]|] eqn:Eo; try discriminate E. destruct (set_check n h false (Some (o, i)) rs) as [[]| |] eqn:Ec; try discriminate E. cbn [bind] in E. injection E as <-.
    apply (inv_write h o i rs (Sets l)); [exact I|exact Eo| |exact Vr|discriminate|].
    + repeat split; discriminate.
    + intros _. rewrite set_gen in Ec. destruct (decides_all is_sets (cmp_set false) h (Some (o, i)) ltac:(intros o' i' ob [= <- <-] Eo'; rewrite Eo in Eo'; injection Eo' as <-; reflexivity) V W2 eq_refl rs Vr) as [N D].
      destruct (D (N + n)%nat ltac:(lia)) as [[_ Q]|[Q _]].
      * intros R. apply Q. exists (o, i). auto.
      * rewrite (gen_mono _ _ _ _ n (N + n)%nat _ _ ltac:(lia) Ec) in Q by discriminate. discriminate Q.
Qed.
Lemma history_inv h : history h -> inv h.
Proof.
  intros C. apply clos_rt_rtn1 in C. induction C as [|h h' S _ IH]; [exact inv_nil|]. exact (step_inv h h' IH S).
Qed.
(** Cycles of buffers are cycles of elements, if all views are whole. *)
Lemma acc_no_cycle {A} (R : A -> A -> Prop) x : Acc (fun x y => R y x) x -> ~ clos_trans _ R x x.
Proof.
  induction 1 as [x _ IH]. intros C. apply clos_trans_t1n in C. inversion C as [y S|y z S C']; subst; [exact (IH x S (t_step _ _ _ _ S))|].
  apply clos_t1n_trans in C'. apply (IH y S). eapply t_trans; [exact C'|]. now apply t_step.
Qed.
Lemma no_cycle_whole p h : (forall e, Acc (fun x y => sees_sort p h y x) e) -> (forall ob, In ob h -> ob = Plain \/ p ob = true) -> (forall e r, holds h e r -> whole h r) -> no_cycle h.
Proof.
  intros W Pu Wh.
  assert (G : forall o o', clos_trans _ (owns h) o o' -> exists i ob, nth_error h o = Some ob /\ (i < length (elements ob))%nat /\
    forall j ob', nth_error h o' = Some ob' -> (j < length (elements ob'))%nat -> clos_trans _ (sees_sort p h) (o, i) (o', j)).
  { assert (F : forall o o', owns h o o' -> exists i ob, nth_error h o = Some ob /\ (i < length (elements ob))%nat /\ forall j ob', nth_error h o' = Some ob' -> (j < length (elements ob'))%nat -> sees_sort p h (o, i) (o', j)).
    { intros o o' (i & r & Hr & <-). pose proof Hr as (ob & s & A & B & I). exists i, ob. split; [exact A|]. split; [apply nth_error_Some; cbn [snd] in B; congruence|]. intros j ob' Eo' Lj. split.
      - exists ob'. split; [exact Eo'|]. destruct (Pu ob' (nth_error_In _ _ Eo')) as [->|X]; [cbn in Lj; lia|exact X].
      - exists r. split; [exact Hr|]. split; [reflexivity|]. exact (Wh _ _ Hr ob' j Eo' Lj). }
    intros o o' C. apply clos_trans_t1n in C. induction C as [o o' S|o x o' S _ IH].
    - destruct (F o o' S) as (i & ob & A & B & C). exists i, ob. split; [exact A|]. split; [exact B|]. intros j ob' X Y. apply t_step. exact (C j ob' X Y).
    - destruct (F o x S) as (i & ob & A & B & C). destruct IH as (k & ob2 & A2 & B2 & C2). exists i, ob. split; [exact A|]. split; [exact B|]. intros j ob' X Y. eapply t_trans; [apply t_step; exact (C k ob2 A2 B2)|exact (C2 j ob' X Y)]. }
  intros o C. destruct (G o o C) as (i & ob & A & B & D). exact (acc_no_cycle _ _ (W (o, i)) (D i ob A B)).
Qed.
