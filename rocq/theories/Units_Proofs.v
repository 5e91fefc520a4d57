From Coq Require Import Reals Lra.
From Flocq Require Import Core BinarySingleNaN.
From Verif Require Import Base Float Units_Model Units_Spec.
Local Open Scope Z_scope.

(** ** lists *)
Lemma in_limits_iff lims : forall es, in_limits lims es = true <-> Forall2 (fun l e => (fst l <= e <= snd l)%Z) lims es.
Proof.
  induction lims as [|[lo hi] l IH]; intros [|e es]; cbn [in_limits]; try (split; [discriminate|intros F; inversion F]); [split; [constructor|reflexivity]|].
  rewrite !andb_true_iff, !Z.leb_le, IH. split.
  - intros ((A & B) & C). constructor; [cbn; lia|exact C].
  - intros F. inversion F as [|x y xs ys A B]; subst. cbn in A. auto.
Qed.
Lemma limits_length lims es : in_limits lims es = true -> length es = length lims.
Proof. revert es. induction lims as [|[lo hi] l IH]; intros [|e es]; cbn [in_limits]; try discriminate; [reflexivity|]. rewrite andb_true_iff. intros [_ L]. cbn. f_equal. apply IH. exact L. Qed.
Lemma cw_nth f a : forall b i, f 0 0 = 0 -> length a = length b -> nth i (combine_with f a b) 0 = f (nth i a 0) (nth i b 0).
Proof.
  induction a as [|x a IH]; intros [|y b] i F L; try discriminate; cbn [combine_with].
  - destruct i; cbn; auto.
  - destruct i; cbn; [reflexivity|]. apply IH; [exact F|]. injection L as L. exact L.
Qed.
Lemma cw_length f a : forall b, length a = length b -> length (combine_with f a b) = length a.
Proof. induction a as [|x a IH]; intros [|y b] L; try discriminate; cbn; [reflexivity|]. f_equal. apply IH. injection L as L. exact L. Qed.
Lemma list_ext (a b : list Z) : length a = length b -> (forall i, nth i a 0 = nth i b 0) -> a = b.
Proof. intros L E. apply (nth_ext a b 0 0 L). intros n _. apply E. Qed.
Lemma zero_nth i : nth i (repeat 0 10) 0 = 0.
Proof. do 11 (destruct i as [|i]; [reflexivity|]). reflexivity. Qed.
Lemma zero_limits lims : proper_limits lims -> in_limits lims (repeat 0 10) = true.
Proof.
  intros [L F]. rewrite <- L. clear L. apply in_limits_iff. induction F as [|l ls P F IH]; cbn [length repeat]; constructor; [exact P|exact IH].
Qed.

(** ** equality *)
Lemma punit_eqb_iff a b : punit_eqb a b = true <-> a = b.
Proof.
  unfold punit_eqb. destruct a as [m es], b as [m' es']. cbn [fst snd]. destruct (Req_EM_T m m') as [->|N]; [|split; [discriminate|intros E; injection E; contradiction]].
  destruct (list_eq_dec Z.eq_dec es es') as [->|N]; cbn [andb]; [split; auto|split; [discriminate|intros E; injection E; contradiction]].
Qed.
Lemma unit_eqb_iff a b : unit_eqb a b = true <-> a = b.
Proof.
  destruct a as [p|], b as [q|]; cbn [unit_eqb]; try (split; discriminate); [|split; reflexivity]. rewrite punit_eqb_iff. split; [intros ->; reflexivity|intros E; injection E; auto].
Qed.
Lemma unit_eqb_refl a : unit_eqb a a = true.
Proof. apply unit_eqb_iff. reflexivity. Qed.
Lemma unit_same_iff a b u : unit_same a b = Ok u <-> a = b /\ u = a.
Proof.
  unfold unit_same. destruct (unit_eqb a b) eqn:E.
  - apply unit_eqb_iff in E. split; [intros C; injection C as <-; auto|intros [_ ->]; reflexivity].
  - split; [discriminate|]. intros [C _]. apply unit_eqb_iff in C. congruence.
Qed.
Lemma unit_same_fails a b : a <> b -> unit_same a b = Throw UnitError.
Proof. intros N. unfold unit_same. destruct (unit_eqb a b) eqn:E; [apply unit_eqb_iff in E; contradiction|reflexivity]. Qed.

(** ** products *)
Lemma mul_some lims p q : unit_mul lims (Some p) (Some q) = if in_limits lims (snd (ptimes p q)) then Ok (Some (ptimes p q)) else Throw UnitError.
Proof. unfold unit_mul, overflows. cbn. destruct (in_limits lims _); reflexivity. Qed.
Lemma div_some lims p q : unit_div lims (Some p) (Some q) = if in_limits lims (snd (pdivides p q)) then Ok (Some (pdivides p q)) else Throw UnitError.
Proof. unfold unit_div, overflows. cbn. destruct (in_limits lims _); reflexivity. Qed.
Lemma punit_ext (a b : punit) : fst a = fst b -> length (snd a) = length (snd b) -> (forall i, nth i (snd a) 0 = nth i (snd b) 0) -> a = b.
Proof. destruct a, b. cbn. intros -> L E. f_equal. apply list_ext; assumption. Qed.

Section Lims.
Variable lims : limits.
Hypothesis plims : proper_limits lims.
Notation proper := (proper_unit lims).
Lemma proper_len m es : proper (Some (m, es)) -> length es = 10%nat.
Proof. intros [_ F]. apply in_limits_iff in F. rewrite (limits_length _ _ F). exact (proj1 plims). Qed.
Lemma mul_proper a b u : proper a -> proper b -> unit_mul lims a b = Ok u -> proper u.
Proof.
  destruct a as [[m es]|], b as [[m' es']|]; try discriminate.
  - intros A B. rewrite mul_some. destruct (in_limits lims _) eqn:L; [|discriminate]. intros E. injection E as <-. destruct A as [A _], B as [B _]. split; [apply Rmult_lt_0_compat; assumption|]. apply in_limits_iff. exact L.
  - intros _ _ E. injection E as <-. exact I.
Qed.
Lemma div_proper a b u : proper a -> proper b -> unit_div lims a b = Ok u -> proper u.
Proof.
  destruct a as [[m es]|], b as [[m' es']|]; try discriminate.
  - intros A B. rewrite div_some. destruct (in_limits lims _) eqn:L; [|discriminate]. intros E. injection E as <-. destruct A as [A _], B as [B _]. split; [apply Rdiv_lt_0_compat; assumption|]. apply in_limits_iff. exact L.
  - intros _ _ E. injection E as <-. exact I.
Qed.
Lemma one_proper : proper one.
Proof. split; [lra|]. apply in_limits_iff. apply zero_limits. exact plims. Qed.
Lemma ptimes_comm p q : length (snd p) = length (snd q) -> ptimes p q = ptimes q p.
Proof.
  intros L. apply punit_ext; cbn.
  - ring.
  - rewrite !cw_length by congruence. exact L.
  - intros i. rewrite !cw_nth by (lia || congruence). lia.
Qed.
Lemma mul_comm a b : proper a -> proper b -> unit_mul lims a b = unit_mul lims b a.
Proof.
  destruct a as [[m es]|], b as [[m' es']|]; try reflexivity. intros A B. rewrite !mul_some, ptimes_comm; [reflexivity|]. cbn. rewrite (proper_len _ _ A), (proper_len _ _ B). reflexivity.
Qed.
Lemma mul_assoc a b c ab bc : proper a -> proper b -> proper c -> unit_mul lims a b = Ok ab -> unit_mul lims b c = Ok bc -> unit_mul lims ab c = unit_mul lims a bc.
Proof.
  destruct a as [[m es]|], b as [[m' es']|]; try discriminate.
  - destruct c as [[m'' es'']|]; [|intros _ _ _ _; discriminate]. intros A B C. rewrite !mul_some. destruct (in_limits lims _); [|discriminate]. destruct (in_limits lims (snd (ptimes (m', es') _))); [|discriminate].
    intros E1 E2. injection E1 as <-. injection E2 as <-. rewrite !mul_some.
    apply proper_len in A, B, C.
    replace (ptimes (ptimes (m, es) (m', es')) (m'', es'')) with (ptimes (m, es) (ptimes (m', es') (m'', es''))); [reflexivity|].
    apply punit_ext; cbn; [ring| |].
    + rewrite !cw_length by (rewrite ?cw_length; congruence). congruence.
    + intros i. rewrite !cw_nth by (try reflexivity; rewrite ?cw_length by congruence; congruence). lia.
  - destruct c as [[m'' es'']|]; [intros _ _ _ _; discriminate|]. intros _ _ _ E1 E2. injection E1 as <-. injection E2 as <-. reflexivity.
Qed.
Lemma mul_one a : proper a -> a <> none -> unit_mul lims a one = Ok a /\ unit_mul lims one a = Ok a.
Proof.
  intros A N. rewrite (mul_comm one a one_proper A). destruct a as [[m es]|]; [|contradiction N; reflexivity].
  assert (E : ptimes (m, es) (1%R, repeat 0 10) = (m, es)).
  { apply punit_ext; cbn [ptimes fst snd]; [ring|apply cw_length; rewrite (proper_len _ _ A); reflexivity|]. intros i. rewrite cw_nth by (try reflexivity; rewrite (proper_len _ _ A); reflexivity). rewrite zero_nth. lia. }
  assert (R : unit_mul lims (Some (m, es)) one = Ok (Some (m, es))); [|auto]. unfold one. rewrite mul_some, E. destruct A as [_ F]. cbn [snd]. rewrite (proj2 (in_limits_iff _ _) F). reflexivity.
Qed.
Lemma mul_div a b ab : proper a -> proper b -> unit_mul lims a b = Ok ab -> unit_div lims ab b = Ok a.
Proof.
  destruct a as [[m es]|], b as [[m' es']|]; try discriminate; [|intros _ _ E; injection E as <-; reflexivity].
  intros A B. rewrite mul_some. destruct (in_limits lims _); [|discriminate]. intros E. injection E as <-. rewrite div_some.
  assert (R : pdivides (ptimes (m, es) (m', es')) (m', es') = (m, es)).
  { pose proof (proper_len _ _ A) as LA. pose proof (proper_len _ _ B) as LB. apply punit_ext; cbn.
    - field. destruct B as [B _]. lra.
    - rewrite !cw_length by (rewrite ?cw_length; congruence). reflexivity.
    - intros i. rewrite !cw_nth by (try reflexivity; rewrite ?cw_length by congruence; congruence). lia. }
  rewrite R. destruct A as [_ F]. cbn [snd]. rewrite (proj2 (in_limits_iff _ _) F). reflexivity.
Qed.
Lemma div_mul a b q : proper a -> proper b -> unit_div lims a b = Ok q -> unit_mul lims q b = Ok a.
Proof.
  destruct a as [[m es]|], b as [[m' es']|]; try discriminate; [|intros _ _ E; injection E as <-; reflexivity].
  intros A B. rewrite div_some. destruct (in_limits lims _); [|discriminate]. intros E. injection E as <-. rewrite mul_some.
  assert (R : ptimes (pdivides (m, es) (m', es')) (m', es') = (m, es)).
  { pose proof (proper_len _ _ A) as LA. pose proof (proper_len _ _ B) as LB. apply punit_ext; cbn.
    - field. destruct B as [B _]. lra.
    - rewrite !cw_length by (rewrite ?cw_length; congruence). reflexivity.
    - intros i. rewrite !cw_nth by (try reflexivity; rewrite ?cw_length by congruence; congruence). lia. }
  rewrite R. destruct A as [_ F]. cbn [snd]. rewrite (proj2 (in_limits_iff _ _) F). reflexivity.
Qed.
Lemma div_self a : proper a -> a <> none -> unit_div lims a a = Ok one.
Proof.
  destruct a as [[m es]|]; [|intros _ N; contradiction N; reflexivity]. intros A _. rewrite div_some.
  assert (R : pdivides (m, es) (m, es) = (1%R, repeat 0 10)).
  { pose proof (proper_len _ _ A) as LA. apply punit_ext; cbn [pdivides fst snd].
    - field. destruct A as [A _]. lra.
    - rewrite cw_length by reflexivity. rewrite LA. reflexivity.
    - intros i. rewrite cw_nth by reflexivity. rewrite zero_nth. lia. }
  rewrite R. cbn [snd]. rewrite (zero_limits lims plims). reflexivity.
Qed.
Lemma mul_ok_iff a b : proper a -> proper b -> (exists u, unit_mul lims a b = Ok u) <->
  match a, b with Some (_, es), Some (_, es') => Forall2 (fun l e => (fst l <= e <= snd l)%Z) lims (combine_with Z.add es es') | None, None => True | _, _ => False end.
Proof.
  destruct a as [[m es]|], b as [[m' es']|]; intros A B.
  - rewrite mul_some. cbn [snd ptimes]. rewrite <- in_limits_iff. destruct (in_limits lims _); split; try (intros; eauto; reflexivity); [intros [u C]; discriminate|discriminate].
  - split; [intros [u C]; discriminate|tauto].
  - split; [intros [u C]; discriminate|tauto].
  - split; [auto|]. intros _. exists None. reflexivity.
Qed.

(** ** sqrt *)
Lemma even_half es : forallb Z.even es = true -> combine_with Z.add (map (fun e => e / 2) es) (map (fun e => e / 2) es) = es.
Proof.
  induction es as [|e es IH]; cbn; [reflexivity|]. rewrite andb_true_iff. intros [E F]. rewrite IH by exact F. f_equal. apply Z.even_spec in E. destruct E as [k ->]. rewrite Z.mul_comm, Z.div_mul by lia. lia.
Qed.
Lemma sqrt_ok a : proper a -> (exists r, unit_sqrt a = Ok r) <-> match a with None => True | Some (_, es) => Forall (fun e => exists k, e = 2 * k) es end.
Proof.
  destruct a as [[m es]|]; intros A; [|split; [auto|intros _; exists None; reflexivity]]. unfold unit_sqrt, psqrt_error, none. cbn [unit_eqb underlying bind snd]. 
  assert (E : forallb Z.even es = true <-> Forall (fun e => exists k, e = 2 * k) es).
  { rewrite forallb_forall, Forall_forall. split; intros Q e I; specialize (Q e I); [apply Z.even_spec; exact Q|apply Z.even_spec in Q; exact Q]. }
  rewrite <- E. destruct (forallb Z.even es); cbn [negb]; split; intros Q; [reflexivity|eexists; reflexivity|destruct Q as [r C]; discriminate C|discriminate Q].
Qed.
Lemma sqrt_square a r : proper a -> unit_sqrt a = Ok r -> unit_mul lims r r = Ok a.
Proof.
  destruct a as [[m es]|]; [|intros _ E; injection E as <-; reflexivity]. intros A. unfold unit_sqrt, psqrt_error, none. cbn [unit_eqb underlying bind snd].
  destruct (forallb Z.even es) eqn:F; [|discriminate]. cbn [negb]. intros E. injection E as <-. rewrite mul_some.
  assert (R : ptimes (psqrt (m, es)) (psqrt (m, es)) = (m, es)).
  { unfold ptimes, psqrt. cbn [fst snd]. rewrite even_half by exact F. f_equal. apply sqrt_sqrt. destruct A as [A _]. lra. }
  rewrite R. destruct A as [_ L]. cbn [snd]. rewrite (proj2 (in_limits_iff _ _) L). reflexivity.
Qed.
Lemma square_sqrt a s : proper a -> unit_mul lims a a = Ok s -> unit_sqrt s = Ok a.
Proof.
  destruct a as [[m es]|]; [|intros _ E; injection E as <-; reflexivity]. intros A. rewrite mul_some. destruct (in_limits lims _); [|discriminate]. intros E. injection E as <-.
  unfold unit_sqrt, psqrt_error, none. cbn [unit_eqb underlying bind snd ptimes].
  assert (D : forall l, forallb Z.even (combine_with Z.add l l) = true /\ map (fun e => e / 2) (combine_with Z.add l l) = l).
  { induction l as [|e l [I1 I2]]; cbn; [auto|]. rewrite I1, I2. replace (e + e) with (e * 2) by lia. rewrite Z.div_mul by lia. rewrite Z.even_mul, orb_true_r. auto. }
  destruct (D es) as [D1 D2]. rewrite D1. cbn [negb]. unfold psqrt, ptimes. cbn [fst snd]. rewrite D2. do 3 f_equal. apply R_sqrt.sqrt_square. destruct A as [A _]. lra.
Qed.

(** ** pow *)
Lemma to_int_small n : - 2 ^ 31 <= n < 2 ^ 31 -> to_int n = n.
Proof. intros Hn. unfold to_int. rewrite Z.mod_small by lia. lia. Qed.
Lemma pow_some p n : unit_pow lims (Some p) n = if in_limits lims (snd (ppow p (to_int n))) then Ok (Some (ppow p (to_int n))) else Throw UnitError.
Proof. unfold unit_pow, overflows, none. cbn [unit_eqb underlying bind]. destruct (in_limits lims _); reflexivity. Qed.
Lemma map_nth0 (f : Z -> Z) l i : f 0 = 0 -> nth i (map f l) 0 = f (nth i l 0).
Proof. intros F. rewrite <- F at 1. apply map_nth. Qed.
Lemma pow_zero a : proper a -> a <> none -> unit_pow lims a 0 = Ok one.
Proof.
  destruct a as [[m es]|]; [|intros _ N; contradiction N; reflexivity]. intros A _. rewrite pow_some, to_int_small by lia.
  assert (R : ppow (m, es) 0 = (1%R, repeat 0 10)).
  { apply punit_ext; cbn [ppow fst snd]; [reflexivity|rewrite map_length, (proper_len _ _ A); reflexivity|]. intros i. rewrite map_nth0 by lia. rewrite zero_nth. lia. }
  rewrite R. cbn [snd]. rewrite (zero_limits lims plims). reflexivity.
Qed.
Lemma pow_add a n k an ak : proper a -> - 2 ^ 30 <= n < 2 ^ 30 -> - 2 ^ 30 <= k < 2 ^ 30 -> unit_pow lims a n = Ok an -> unit_pow lims a k = Ok ak ->
  unit_mul lims an ak = unit_pow lims a (n + k).
Proof.
  destruct a as [[m es]|]; [|intros _ _ _ E1 E2; injection E1 as <-; injection E2 as <-; reflexivity]. intros A Hn Hk. rewrite !pow_some, !to_int_small by lia.
  destruct (in_limits lims _); [|discriminate]. destruct (in_limits lims (snd (ppow _ k))); [|discriminate]. intros E1 E2. injection E1 as <-. injection E2 as <-. rewrite mul_some.
  replace (ptimes (ppow (m, es) n) (ppow (m, es) k)) with (ppow (m, es) (n + k)); [reflexivity|]. apply punit_ext; cbn [ptimes ppow fst snd].
  - apply powerRZ_add. destruct A as [A _]. lra.
  - rewrite cw_length; rewrite ?map_length; reflexivity.
  - intros i. rewrite cw_nth by (try reflexivity; rewrite !map_length; reflexivity). rewrite !map_nth0 by lia. lia.
Qed.
Lemma pow_one a : proper a -> unit_pow lims a 1 = Ok a.
Proof.
  destruct a as [[m es]|]; [|reflexivity]. intros A. rewrite pow_some, to_int_small by lia.
  assert (R : ppow (m, es) 1 = (m, es)).
  { apply punit_ext; cbn [ppow fst snd]; [apply powerRZ_1|rewrite map_length; reflexivity|]. intros i. rewrite map_nth0 by lia. lia. }
  rewrite R. destruct A as [_ L]. cbn [snd]. rewrite (proj2 (in_limits_iff _ _) L). reflexivity.
Qed.
Lemma pow_wraps a n : unit_pow lims a (n + 2 ^ 32) = unit_pow lims a n.
Proof. assert (T : to_int (n + 2 ^ 32) = to_int n). { unfold to_int. replace (n + 2 ^ 32 + 2 ^ 31) with (n + 2 ^ 31 + 1 * 2 ^ 32) by ring. rewrite Z.mod_add by lia. reflexivity. } unfold unit_pow. rewrite T. reflexivity. Qed.

(** ** meaning *)
Lemma bop_meaning op a b v : op <> FloorDiv -> proper (fst a) -> proper (fst b) -> snd b <> 0%R -> transform_bop lims op a b = Ok v ->
  same (meaning v) (match op with Add => qadd | Sub => qsub | Mul => qmul | Div => qdiv | FloorDiv => qfloordiv | Mod => qmod end (meaning a) (meaning b)).
Proof.
  intros N A B Hy E. destruct a as [a x], b as [b y]. cbn [fst snd] in *. unfold transform_bop in E. cbn [fst snd] in E.
  assert (Scale : forall m m' : R, (0 < m)%R -> (0 < m')%R -> (x / y * (m / m') = x * m / (y * m'))%R) by (intros m m' P P'; field; repeat split; lra).
  assert (Quot : forall m : R, (0 < m)%R -> ((x * m) / (y * m) = x / y)%R) by (intros m P; field; split; lra).
  destruct op; try (contradiction N; reflexivity); cbn [bop_unit] in E.
  1,2,5: (destruct (unit_same a b) eqn:S; [|discriminate|discriminate]; cbn [bind] in E; injection E as <-; apply unit_same_iff in S; destruct S as [<- ->]; unfold meaning; cbn [fst snd];
    destruct a as [[m es]|]; cbn [same qadd qsub qmod lift number bop_val]; [split; [|reflexivity]|reflexivity]; try ring).
  - rewrite Quot by exact (proj1 A). ring.
  - destruct (unit_mul lims a b) eqn:S; [|discriminate|discriminate]. cbn [bind] in E. injection E as <-. unfold meaning. cbn [fst snd]. destruct a as [[m es]|], b as [[m' es']|]; try discriminate.
    + rewrite mul_some in S. destruct (in_limits lims _); [|discriminate]. injection S as <-. cbn. split; [ring|]. intros i. apply cw_nth; [reflexivity|]. rewrite (proper_len _ _ A), (proper_len _ _ B). reflexivity.
    + injection S as <-. reflexivity.
  - destruct (unit_div lims a b) eqn:S; [|discriminate|discriminate]. cbn [bind] in E. injection E as <-. unfold meaning. cbn [fst snd]. destruct a as [[m es]|], b as [[m' es']|]; try discriminate.
    + rewrite div_some in S. destruct (in_limits lims _); [|discriminate]. injection S as <-. cbn. split; [apply Scale; [exact (proj1 A)|exact (proj1 B)]|]. intros i. apply cw_nth; [reflexivity|]. rewrite (proper_len _ _ A), (proper_len _ _ B). reflexivity.
    + injection S as <-. reflexivity.
Qed.
End Lims.
