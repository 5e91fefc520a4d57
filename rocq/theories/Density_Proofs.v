From Coq Require Import Reals Lra.
From Verif Require Import Base Units_Model Units_Spec Units_Proofs Density_Model Density_Spec.
Local Open Scope R_scope.

Lemma find_coord_In cs d c : NoDup (map fst cs) -> In (d, c) cs -> find_coord cs d = Some c.
Proof.
  induction cs as [|[k x] cs IH]; [intros _ []|]. cbn [map fst find_coord]. intros N [E|I].
  - injection E as -> ->. now rewrite Z.eqb_refl.
  - inversion N as [|? ? N1 N2]; subst. destruct (k =? d)%Z eqn:E; [|exact (IH N2 I)]. apply Z.eqb_eq in E. subst. exfalso. apply N1. change d with (fst (d, c)). now apply in_map.
Qed.
Lemma extent_In s d n : NoDup (map fst s) -> In (d, n) s -> extent s d = Some n.
Proof.
  induction s as [|[k x] s IH]; [intros _ []|]. cbn [map fst extent]. intros N [E|I].
  - injection E as -> ->. now rewrite Z.eqb_refl.
  - inversion N as [|? ? N1 N2]; subst. destruct (k =? d)%Z eqn:E; [|exact (IH N2 I)]. apply Z.eqb_eq in E. subst. exfalso. apply N1. change d with (fst (d, n)). now apply in_map.
Qed.
Lemma extent_In_inv s d n : extent s d = Some n -> In (d, n) s.
Proof. induction s as [|[k x] s IH]; [discriminate|]. cbn [extent]. destruct (k =? d)%Z eqn:E; [|intros X; right; exact (IH X)]. intros [= ->]. apply Z.eqb_eq in E. subst. now left. Qed.

Lemma bin_width_ok cs s d c : NoDup (map fst cs) -> NoDup (map fst s) -> In (d, c) cs -> edges_for s d c -> c_unit c <> one ->
  exists w, bin_width cs d = Ok w /\ c_unit w = c_unit c /\ (forall p, c_val w p = width c d p) /\ includes s (c_shape w) = true.
Proof.
  intros Nc Ns I (Nk & (n & Is & Hn & Id) & Ot) U. unfold bin_width. rewrite (find_coord_In _ _ _ Nc I), (extent_In _ _ _ Nk Id).
  destruct (unit_eqb (c_unit c) one) eqn:E; [apply unit_eqb_iff in E; contradiction|]. replace (n + 1 <? 1)%Z with false by (symmetry; apply Z.ltb_ge; lia).
  unfold unit_same. rewrite unit_eqb_refl. cbn [bind]. eexists. split; [reflexivity|]. cbn [c_unit c_val c_shape]. split; [reflexivity|]. split; [reflexivity|].
  unfold includes, resized. apply forallb_forall. intros kn Ik. apply in_map_iff in Ik as ((k & x) & <- & Ik). cbn [fst snd]. destruct (k =? d)%Z eqn:Ek; cbn [fst snd].
  - rewrite (extent_In _ _ _ Ns Is). apply Z.eqb_eq. lia.
  - apply Z.eqb_neq in Ek. rewrite (extent_In _ _ _ Ns (Ot k x Ik Ek)). apply Z.eqb_refl.
Qed.
Definition for_width (s : shape) (d : Z) (c w : coord) : Prop := c_unit w = c_unit c /\ (forall p, c_val w p = width c d p) /\ includes s (c_shape w) = true.
Inductive widths_for (s : shape) : list Z -> list coord -> list coord -> Prop :=
| wf_nil : widths_for s [] [] []
| wf_cons d ds c cl w ws : for_width s d c w -> widths_for s ds cl ws -> widths_for s (d :: ds) (c :: cl) (w :: ws).
Lemma bin_widths_ok cs s ds cl lims : coords_for cs s ds cl -> units_ok lims cl -> exists ws, bin_widths cs ds = Ok ws /\ widths_for s ds cl ws.
Proof.
  intros (Nc & Ns & F) U. revert U. induction F as [|d c ds cl [I E] F IH]; intros U; [exists []; split; [reflexivity|constructor]|].
  inversion U as [|? ? (U1 & U2 & U3) U4]; subst. destruct (bin_width_ok cs s d c Nc Ns I E U3) as (w & W & Q). destruct (IH U4) as (ws & Ws & Qs).
  exists (w :: ws). cbn [bin_widths]. rewrite W. cbn [bind]. rewrite Ws. split; [reflexivity|]. constructor; assumption.
Qed.

Section Op.
Variable lims : limits.
Variable op : bop.

Fixpoint unit_fold (u : uunit) (ws : list coord) : res uunit :=
  match ws with [] => Ok u | w :: ws' => do v <- bop_unit lims op u (c_unit w); unit_fold v ws' end.

Lemma bop_cases a b : (exists u, bop_unit lims op a b = Ok u) \/ exists e, bop_unit lims op a b = Throw e.
Proof.
  clear. destruct op; unfold bop_unit, unit_same, unit_mul, unit_div, expect_not_none; destruct a, b; cbn [has_value bind underlying none unit_eqb andb]; repeat match goal with |- context [if ?b then _ else _] => destruct b end; eauto.
Qed.
Lemma in_place_all_ok x : d_partial x = false -> d_readonly x = false -> forall ws m, (forall w, In w ws -> includes (d_shape x) (c_shape w) = true) ->
  (exists m', in_place_all lims op m x ws = (m', match unit_fold (fst (m (d_obj x))) ws with Ok _ => Ok tt | Throw e => Throw e | Ub => Ub end) /\
   (forall o, o <> d_obj x -> m' o = m o) /\
   forall u, unit_fold (fst (m (d_obj x))) ws = Ok u -> fst (m' (d_obj x)) = u /\ forall p, snd (m' (d_obj x)) p = fold_left (fun a w => bop_val op a (c_val w p)) ws (snd (m (d_obj x)) p)).
Proof.
  intros Pa Ro. induction ws as [|w ws IH]; intros m In.
  - exists m. split; [reflexivity|]. split; [reflexivity|]. intros u [= <-]. split; reflexivity.
  - cbn [in_place_all unit_fold fold_left]. unfold in_place. rewrite (In w (or_introl eq_refl)), Pa, Ro. cbn [negb].
    destruct (bop_cases (fst (m (d_obj x))) (c_unit w)) as [[u Hu]|[e He]].
    + rewrite Hu. rewrite Bool.andb_false_r. cbn [bind]. set (m1 := set_mem m (d_obj x) _). destruct (IH m1 (fun w' I => In w' (or_intror I))) as (m' & Q & O & V).
      assert (E1 : m1 (d_obj x) = (u, fun p => bop_val op (snd (m (d_obj x)) p) (c_val w p))) by (unfold m1, set_mem; rewrite Nat.eqb_refl; reflexivity).
      rewrite E1 in Q, V. cbn [fst snd] in Q, V. exists m'. split; [exact Q|]. split.
      * intros o Ho. rewrite (O o Ho). unfold m1, set_mem. apply Nat.eqb_neq in Ho. rewrite Ho. reflexivity.
      * intros v Hv. exact (V v Hv).
    + rewrite He. exists m. cbn [bind]. split; [reflexivity|]. split; [reflexivity|]. discriminate.
Qed.
End Op.

Lemma widths_includes s ds cl ws : widths_for s ds cl ws -> forall w, In w ws -> includes s (c_shape w) = true.
Proof. induction 1 as [|d ds c cl w ws (A & B & C) F IH]; [intros w []|]. intros w' [<-|I]; [exact C|exact (IH w' I)]. Qed.
Lemma fold_div s ds cl ws p : widths_for s ds cl ws -> forall a, fold_left (fun a w => bop_val Div a (c_val w p)) ws a = a / volume cl ds p.
Proof.
  induction 1 as [|d ds c cl w ws (A & B & C) F IH]; intros a; cbn [fold_left volume]; [now field|]. rewrite IH. cbn [bop_val]. rewrite B. unfold Rdiv. rewrite Rinv_mult. ring.
Qed.
Lemma fold_mul s ds cl ws p : widths_for s ds cl ws -> forall a, fold_left (fun a w => bop_val Mul a (c_val w p)) ws a = a * volume cl ds p.
Proof. induction 1 as [|d ds c cl w ws (A & B & C) F IH]; intros a; cbn [fold_left volume]; [ring|]. rewrite IH. cbn [bop_val]. rewrite B. ring. Qed.

Ltac nn := solve [congruence | match goal with N : ~ _, E : _ = None |- _ => exfalso; exact (N E) | N : ~ _ |- _ => exfalso; exact (N eq_refl) end].
Section Units.
Variable lims : limits.
Hypothesis plims : proper_limits lims.

Lemma nth_cw f a b i : f 0%Z 0%Z = 0%Z -> length a = length b -> nth i (combine_with f a b) 0%Z = f (nth i a 0%Z) (nth i b 0%Z).
Proof using . clear. intros. now apply cw_nth. Qed.
Lemma in_limits_nth es : length es = length lims -> (in_limits lims es = true <-> forall i l, nth_error lims i = Some l -> (fst l <= nth i es 0 <= snd l)%Z).
Proof using .
  clear plims. intros L. rewrite in_limits_iff. revert es L. induction lims as [|l ls IH]; intros [|e es] L; try discriminate L.
  - split; [intros _ [|i] l; discriminate|constructor].
  - cbn in L. split.
    + intros F [|i] l' E; inversion F as [|? ? ? ? F1 F2]; subst; [injection E as <-; exact F1|]. exact (proj1 (IH es ltac:(lia)) F2 i l' E).
    + intros G. constructor; [exact (G 0%nat l eq_refl)|]. apply IH; [lia|]. intros i l' E. exact (G (S i) l' E).
Qed.
Lemma divisible_ext us : forall e e', (forall i, e i = e' i) -> divisible lims e us <-> divisible lims e' us.
Proof using .
  clear. induction us as [|u us IH]; [tauto|]. intros e e' X. cbn [divisible].
  rewrite (IH (fun i => (e i - exponent u i)%Z) (fun i => (e' i - exponent u i)%Z)) by (intros i; rewrite X; reflexivity).
  split; intros [A B]; (split; [|exact B]); intros i l El; specialize (A i l El); rewrite X in *; exact A.
Qed.
Lemma fold_div_units us : forall u ws, map c_unit ws = us -> Forall (fun u => proper_unit lims u /\ u <> None) us -> proper_unit lims u -> u <> None ->
  (exists v, unit_fold lims Div u ws = Ok v) <-> divisible lims (exponent u) us.
Proof.
  induction us as [|w us IH]; intros u ws E F P N.
  { destruct ws; [|discriminate E]. split; [intros _; exact I|intros _; exists u; reflexivity]. }
  destruct ws as [|c ws]; [discriminate E|]. assert (E1 : c_unit c = w) by exact (f_equal (hd None) E). assert (E2 : map c_unit ws = us) by exact (f_equal (@tl _) E). clear E. subst w us.
  inversion F as [|? ? [P1 N1] F2]; subst.
  cbn [unit_fold divisible]. unfold bop_unit. destruct u as [[a es]|]; [|nn]. destruct (c_unit c) as [[b fs]|] eqn:Eu; [|nn]. rewrite div_some.
  assert (L : length es = length fs) by (rewrite (proper_len lims plims a es P), (proper_len lims plims b fs P1); reflexivity).
  assert (L2 : length (combine_with Z.sub es fs) = length lims) by (rewrite cw_length by exact L; rewrite (proper_len lims plims a es P); symmetry; exact (proj1 plims)).
  cbn [pdivides snd]. destruct (in_limits lims (combine_with Z.sub es fs)) eqn:Q.
  - cbn [bind]. rewrite IH; [|reflexivity|exact F2| |discriminate].
    + pose proof (proj1 (in_limits_nth _ L2) Q) as G.
      rewrite (divisible_ext (map c_unit ws) (exponent (Some (pdivides (a, es) (b, fs)))) (fun i => (exponent (Some (a, es)) i - exponent (Some (b, fs)) i)%Z)).
      * split; [|intros [_ D]; exact D]. intros D. split; [|exact D]. intros i l El. specialize (G i l El). rewrite nth_cw in G by (auto; lia). exact G.
      * intros i. cbn [exponent pdivides fst snd]. apply nth_cw; auto; lia.
    + apply (div_proper lims (Some (a, es)) (Some (b, fs))); [exact P|exact P1|]. rewrite div_some. cbn [pdivides snd]. rewrite Q. reflexivity.
  - cbn [bind]. split; [intros [v X]; discriminate|]. intros [D _]. exfalso. assert (in_limits lims (combine_with Z.sub es fs) = true); [|nn].
    apply (in_limits_nth _ L2). intros i l El. rewrite nth_cw by (auto; lia). exact (D i l El).
Qed.
(** A quotient of quantities. *)
Lemma fold_meaning op (Hop : op = Div \/ op = Mul) s ds cl ws p : widths_for s ds cl ws -> forall u v x, proper_unit lims u -> u <> None -> Forall (fun c => proper_unit lims (c_unit c) /\ c_unit c <> None) cl ->
  unit_fold lims op u ws = Ok v -> volume cl ds p <> 0 ->
  same (match op with Div => qmul (meaning (v, x / volume cl ds p)) (cell cl ds p) | _ => meaning (v, x * volume cl ds p) end)
       (match op with Div => meaning (u, x) | _ => qmul (meaning (u, x)) (cell cl ds p) end) /\ proper_unit lims v /\ v <> None.
Proof.
  induction 1 as [|d ds c cl w ws (A & B & C) F IH]; intros u v x Pu Nu Fu Ev Hv.
  - cbn [unit_fold] in Ev. injection Ev as <-. cbn [volume cell]. split; [|split; assumption]. destruct u as [[a es]|]; [|nn]. destruct Hop as [-> | ->]; cbn [meaning fst snd qmul lift same]; (split; [field|]); intros i; lia.
  - cbn [unit_fold] in Ev. destruct (bop_unit lims op u (c_unit w)) as [u1| |] eqn:E1; try discriminate Ev. cbn [bind] in Ev. rewrite A in E1. inversion Fu as [|? ? [P1 N1] F2]; subst.
    cbn [volume] in Hv. assert (Wd : width c d p <> 0 /\ volume cl ds p <> 0) by (split; intros Z0; apply Hv; rewrite Z0; ring). destruct Wd as [Wd Wv].
    assert (Pu1 : proper_unit lims u1 /\ u1 <> None).
    { destruct Hop as [-> | ->]; cbn [bop_unit] in E1; (split; [first [apply (div_proper lims u (c_unit c)); assumption|apply (mul_proper lims u (c_unit c)); assumption]|]); destruct u as [[a es]|]; try nn; destruct (c_unit c) as [[b fs]|]; try nn;
        first [rewrite div_some in E1|rewrite mul_some in E1]; destruct (in_limits _ _); congruence. }
    destruct Pu1 as [Pu1 Nu1]. cbn [volume cell].
    destruct Hop as [-> | ->]; cbn [bop_unit] in E1.
    + destruct (IH u1 v (x / width c d p) Pu1 Nu1 F2 Ev Wv) as (Q & Pv & Nv). split; [|split; assumption].
      destruct u as [[a es]|]; [|nn]. destruct (c_unit c) as [[b fs]|] eqn:Eu; [|nn]. rewrite div_some in E1. destruct (in_limits _ _) eqn:Il; [|discriminate]. injection E1 as <-.
      assert (L : length es = length fs) by (rewrite (proper_len lims plims a es Pu), (proper_len lims plims b fs P1); reflexivity).
      destruct v as [[vv ve]|]; [|nn]. destruct (cell cl ds p) as [cx|cx cd] eqn:Ec; [cbn [qmul lift meaning fst snd same] in Q; contradiction|].
      cbn [meaning fst snd qmul lift same pdivides] in Q |- *. destruct Q as [Q1 Q2]. destruct P1 as [Pb _]. split.
      * transitivity ((x / width c d p / volume cl ds p * vv * cx) * (width c d p * b)); [field; auto|]. rewrite Q1. field. split; [lra|assumption].
      * intros i. specialize (Q2 i). rewrite nth_cw in Q2 by (auto; lia). lia.
    + destruct (IH u1 v (x * width c d p) Pu1 Nu1 F2 Ev Wv) as (Q & Pv & Nv). split; [|split; assumption].
      destruct u as [[a es]|]; [|nn]. destruct (c_unit c) as [[b fs]|] eqn:Eu; [|nn]. rewrite mul_some in E1. destruct (in_limits _ _) eqn:Il; [|discriminate]. injection E1 as <-.
      assert (L : length es = length fs) by (rewrite (proper_len lims plims a es Pu), (proper_len lims plims b fs P1); reflexivity).
      destruct v as [[vv ve]|]; [|nn]. destruct (cell cl ds p) as [cx|cx cd] eqn:Ec; [cbn [qmul lift meaning fst snd same] in Q; contradiction|].
      cbn [meaning fst snd qmul lift same ptimes] in Q |- *. destruct Q as [Q1 Q2]. split.
      * rewrite <- Rmult_assoc, Q1. ring.
      * intros i. specialize (Q2 i). rewrite nth_cw in Q2 by (auto; lia). lia.
Qed.
End Units.
