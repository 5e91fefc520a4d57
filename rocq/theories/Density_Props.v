(** * C51: converting counts to densities divides by the bin widths, and back multiplies *)
From Coq Require Import Reals Lra.
From Verif Require Import Base Units_Model Units_Spec Units_Proofs Density_Model Density_Spec Density_Proofs.
Local Open Scope R_scope.

Section Props.
Variable lims : list (Z * Z).
Hypothesis plims : proper_limits lims.
Hypothesis pcounts : proper_unit lims counts.

Lemma units_weak cl : units_ok lims cl -> Forall (fun c => proper_unit lims (c_unit c) /\ c_unit c <> None) cl.
Proof. apply Forall_impl. tauto. Qed.
Lemma widths_units s ds cl ws : widths_for s ds cl ws -> map c_unit ws = map c_unit cl.
Proof. induction 1 as [|d ds c cl w ws (A & B) F IH]; [reflexivity|]. cbn [map]. rewrite A, IH. reflexivity. Qed.
Lemma is_counts_iff u : is_counts u = true <-> u = counts.
Proof. apply unit_eqb_iff. Qed.
Lemma is_counts_no u : u <> counts -> is_counts u = false.
Proof. intros N. destruct (is_counts u) eqn:E; [|reflexivity]. apply is_counts_iff in E. contradiction. Qed.
Lemma is_density_iff u : is_count_density u = true <-> u <> counts /\ exponent u 8 <> 0%Z.
Proof.
  destruct u as [[a es]|]; [|split; [discriminate|intros [_ N]; exfalso; apply N; reflexivity]]. unfold is_count_density. cbn [exponent]. split.
  - intros E. apply andb_prop in E as [E1 E2]. split; [intros E; pose proof (proj2 (is_counts_iff _) E) as E'; rewrite E' in E1; discriminate E1|]. apply Bool.negb_true_iff, Z.eqb_neq in E2. exact E2.
  - intros [N1 N2]. rewrite (is_counts_no _ N1). apply Z.eqb_neq in N2. rewrite N2. reflexivity.
Qed.
Lemma set_mem_same m o v : set_mem m o v o = v. Proof. unfold set_mem. now rewrite Nat.eqb_refl. Qed.
Lemma set_mem_other m o v o' : o' <> o -> set_mem m o v o' = m o'. Proof. intros N. unfold set_mem. apply Nat.eqb_neq in N. now rewrite N. Qed.

(** Data arrays: every count is divided by the volume of its cell. The density times the volume is the count, as quantities with
    units. The input does not change. It fails exactly if an exponent of the unit leaves its range. *)
Theorem C51_to_density (m : memory) new cs x ds cl : coords_for cs (d_shape x) ds cl -> units_ok lims cl -> fst (m (d_obj x)) = counts -> new <> d_obj x ->
  exists m' r, convert_da (to_density lims) m new cs x ds = (m', r) /\ (forall o, o <> new -> m' o = m o) /\
    ((exists y, r = Ok y) <-> divisible lims (exponent counts) (map c_unit cl)) /\
    forall y, r = Ok y -> d_obj y = new /\ d_shape y = d_shape x /\
      forall p, volume cl ds p <> 0 -> snd (m' new) p = snd (m (d_obj x)) p / volume cl ds p /\ same (qmul (value m' y p) (cell cl ds p)) (value m x p).
Proof.
  intros Hc Hu Cn Nn. destruct (bin_widths_ok cs (d_shape x) ds cl lims Hc Hu) as (ws & W & F). unfold convert_da. rewrite W. set (y := mkdata new (d_shape x) false false). set (m0 := set_mem m new (m (d_obj x))).
  assert (E0 : m0 (d_obj y) = m (d_obj x)) by apply set_mem_same. unfold to_density. rewrite E0. rewrite (proj2 (is_counts_iff _) Cn).
  destruct (in_place_all_ok lims Div y eq_refl eq_refl ws m0 (widths_includes _ _ _ _ F)) as (m' & Q & O & V). rewrite Q, E0 in *. rewrite Cn in *.
  assert (Fu : Forall (fun u => proper_unit lims u /\ u <> None) (map c_unit cl)) by (apply Forall_map, units_weak, Hu).
  pose proof (fold_div_units lims plims (map c_unit cl) counts ws (widths_units _ _ _ _ F) Fu pcounts ltac:(discriminate)) as D.
  exists m', (do _ <- match unit_fold lims Div counts ws with Ok _ => Ok tt | Throw e => Throw e | Ub => Ub end; Ok y). split; [reflexivity|]. split.
  { intros o No. rewrite (O o No). apply set_mem_other. exact No. }
  split. { rewrite <- D. destruct (unit_fold lims Div counts ws) as [u|e|]; cbn [bind]; split; intros [z Z0]; try discriminate Z0; eauto. }
  intros z Ez. destruct (unit_fold lims Div counts ws) as [u|e|] eqn:Eu; cbn [bind] in Ez; try discriminate Ez. injection Ez as <-. split; [reflexivity|]. split; [reflexivity|]. intros p Hp.
  destruct (V u eq_refl) as [V1 V2]. rewrite (fold_div _ _ _ _ p F) in V2 || (specialize (V2 p); rewrite (fold_div _ _ _ _ p F) in V2). split; [exact V2|].
  unfold value. rewrite V1, V2, Cn. exact (proj1 (fold_meaning lims plims Div (or_introl eq_refl) _ _ _ _ p F counts u _ pcounts ltac:(discriminate) (units_weak _ Hu) Eu Hp)).
Qed.
(** Back: densities are multiplied by the volumes. *)
Theorem C51_from_density (m : memory) new cs x ds cl : coords_for cs (d_shape x) ds cl -> units_ok lims cl -> proper_unit lims (fst (m (d_obj x))) ->
  fst (m (d_obj x)) <> counts -> exponent (fst (m (d_obj x))) 8 <> 0%Z -> new <> d_obj x ->
  exists m' r, convert_da (from_density lims) m new cs x ds = (m', r) /\ (forall o, o <> new -> m' o = m o) /\
    forall y, r = Ok y -> d_obj y = new /\ d_shape y = d_shape x /\ proper_unit lims (fst (m' new)) /\
      forall p, volume cl ds p <> 0 -> snd (m' new) p = snd (m (d_obj x)) p * volume cl ds p /\ same (value m' y p) (qmul (value m x p) (cell cl ds p)).
Proof.
  intros Hc Hu Px Nc Ne Nn. destruct (bin_widths_ok cs (d_shape x) ds cl lims Hc Hu) as (ws & W & F). unfold convert_da. rewrite W. set (y := mkdata new (d_shape x) false false). set (m0 := set_mem m new (m (d_obj x))).
  assert (E0 : m0 (d_obj y) = m (d_obj x)) by apply set_mem_same. unfold from_density. rewrite E0. rewrite (is_counts_no _ Nc), (proj2 (is_density_iff _) (conj Nc Ne)).
  destruct (in_place_all_ok lims Mul y eq_refl eq_refl ws m0 (widths_includes _ _ _ _ F)) as (m' & Q & O & V). rewrite Q, E0 in *.
  eexists m', _. split; [reflexivity|]. split.
  { intros o No. rewrite (O o No). apply set_mem_other. exact No. }
  intros z Ez. destruct (unit_fold lims Mul (fst (m (d_obj x))) ws) as [u|e|] eqn:Eu; cbn [bind] in Ez; try discriminate Ez. injection Ez as <-. split; [reflexivity|]. split; [reflexivity|].
  destruct (V u eq_refl) as [V1 V2]. assert (Nx : fst (m (d_obj x)) <> None) by (intros E; apply Ne; rewrite E; reflexivity).
  assert (M : forall p, volume cl ds p <> 0 -> _) by (intros p Hp; exact (fold_meaning lims plims Mul (or_intror eq_refl) _ _ _ _ p F (fst (m (d_obj x))) u (snd (m (d_obj x)) p) Px Nx (units_weak _ Hu) Eu Hp)).
  split.
  - change new with (d_obj y). rewrite V1. clear - Eu Px plims F Hu. revert Eu Px Hu. generalize (fst (m (d_obj x))). induction F as [|d ds c cl w ws (A & B) F IH]; intros v Eu Px Hu; cbn [unit_fold] in Eu; [congruence|].
    inversion Hu as [|? ? (P1 & _) H2]; subst. destruct (bop_unit lims Mul v (c_unit w)) as [v1| |] eqn:E1; try discriminate Eu. apply (IH v1 Eu); [|exact H2]. rewrite A in E1. exact (mul_proper lims v (c_unit c) v1 Px P1 E1).
  - intros p Hp. specialize (V2 p). rewrite (fold_mul _ _ _ _ p F) in V2. split; [exact V2|]. unfold value. change new with (d_obj y). rewrite V1, V2. exact (proj1 (M p Hp)).
Qed.
(** Data without counts in their unit are copied; so are counts by [from_density]. *)
Theorem C51_unchanged (m : memory) new cs x ds cl : coords_for cs (d_shape x) ds cl -> units_ok lims cl -> new <> d_obj x ->
  (exponent (fst (m (d_obj x))) 8 = 0%Z -> convert_da (to_density lims) m new cs x ds = (set_mem m new (m (d_obj x)), Ok (mkdata new (d_shape x) false false))) /\
  (exponent (fst (m (d_obj x))) 8 = 0%Z \/ fst (m (d_obj x)) = counts ->
   convert_da (from_density lims) m new cs x ds = (set_mem m new (m (d_obj x)), Ok (mkdata new (d_shape x) false false))) /\
  (exponent (fst (m (d_obj x))) 8 <> 0%Z -> fst (m (d_obj x)) <> counts -> snd (convert_da (to_density lims) m new cs x ds) = Throw RuntimeError).
Proof.
  intros Hc Hu Nn. destruct (bin_widths_ok cs (d_shape x) ds cl lims Hc Hu) as (ws & W & F). unfold convert_da. rewrite W. unfold to_density, from_density. cbn [d_obj]. rewrite set_mem_same.
  assert (N0 : exponent (fst (m (d_obj x))) 8 = 0%Z -> is_counts (fst (m (d_obj x))) = false /\ is_count_density (fst (m (d_obj x))) = false).
  { intros E. split; [apply is_counts_no; intros E'; rewrite E' in E; discriminate E|]. destruct (is_count_density _) eqn:Q; [|reflexivity]. apply is_density_iff in Q. tauto. }
  split; [|split].
  - intros E. destruct (N0 E) as [-> ->]. reflexivity.
  - intros [E| ->]; [destruct (N0 E) as [-> ->]; reflexivity|]. unfold is_counts. rewrite unit_eqb_refl. reflexivity.
  - intros E N. rewrite (is_counts_no _ N), (proj2 (is_density_iff _) (conj N E)). reflexivity.
Qed.
(** There and back: the same counts, if no coord counts things and the unit of the density is not (by cancellation) that of counts. *)
Lemma fold_exponent op (Hop : op = Div \/ op = Mul) s ds cl ws : widths_for s ds cl ws -> forall u v, proper_unit lims u -> u <> None -> units_ok lims cl -> (forall c, In c cl -> exponent (c_unit c) 8 = 0%Z) ->
  unit_fold lims op u ws = Ok v -> exponent v 8 = exponent u 8 /\ proper_unit lims v.
Proof.
  induction 1 as [|d ds c cl w ws (A & B) F IH]; intros u v Pu Nu Hu Z0 E; cbn [unit_fold] in E; [injection E as <-; split; [reflexivity|assumption]|].
  destruct (bop_unit lims op u (c_unit w)) as [u1| |] eqn:E1; try discriminate E. cbn [bind] in E. rewrite A in E1. inversion Hu as [|? ? (P1 & N1 & _) H2]; subst.
  assert (X : exponent u1 8 = exponent u 8 /\ proper_unit lims u1 /\ u1 <> None).
  { pose proof (Z0 c (or_introl eq_refl)) as Zc. destruct u as [[a es]|]; [|nn]. destruct (c_unit c) as [[b fs]|] eqn:Eu; [|nn].
    assert (L : length es = length fs) by (rewrite (proper_len lims plims a es Pu), (proper_len lims plims b fs P1); reflexivity).
    destruct Hop as [-> | ->]; cbn [bop_unit] in E1; (split; [|split; [first [exact (div_proper lims (Some (a, es)) (Some (b, fs)) u1 Pu P1 E1)|exact (mul_proper lims (Some (a, es)) (Some (b, fs)) u1 Pu P1 E1)]|]]);
      first [rewrite div_some in E1|rewrite mul_some in E1]; destruct (in_limits _ _); try discriminate E1; injection E1 as <-; try discriminate;
      cbn [exponent pdivides ptimes fst snd] in *; (rewrite nth_cw by (auto; lia)); lia. }
  destruct X as (X1 & X2 & X3). destruct (IH u1 v X2 X3 H2 (fun c' I => Z0 c' (or_intror I)) E) as [Y1 Y2]. split; [congruence|exact Y2].
Qed.
Theorem C51_round_trip (m : memory) new new' cs x ds cl (m1 : memory) y (m2 : memory) z : coords_for cs (d_shape x) ds cl -> units_ok lims cl -> (forall c, In c cl -> exponent (c_unit c) 8 = 0%Z) ->
  fst (m (d_obj x)) = counts -> new <> d_obj x -> new' <> new ->
  convert_da (to_density lims) m new cs x ds = (m1, Ok y) -> fst (m1 new) <> counts ->
  convert_da (from_density lims) m1 new' cs y ds = (m2, Ok z) ->
  fst (m2 new') = counts /\ forall p, volume cl ds p <> 0 -> snd (m2 new') p = snd (m (d_obj x)) p.
Proof.
  intros Hc Hu Z0 Cn Nn Nn' Q1 Nc Q2. destruct (C51_to_density m new cs x ds cl Hc Hu Cn Nn) as (m1' & r1 & R1 & _ & _ & V1). rewrite Q1 in R1. injection R1 as <- <-.
  destruct (V1 y eq_refl) as (Ey & Sy & Vy). 
  assert (U : exponent (fst (m1 new)) 8 = 1%Z /\ proper_unit lims (fst (m1 new))).
  { destruct (bin_widths_ok cs (d_shape x) ds cl lims Hc Hu) as (ws & W & F). unfold convert_da in Q1. rewrite W in Q1. set (y0 := mkdata new (d_shape x) false false) in *. set (m0 := set_mem m new (m (d_obj x))) in *.
    assert (E0 : m0 (d_obj y0) = m (d_obj x)) by apply set_mem_same. unfold to_density in Q1. rewrite E0, (proj2 (is_counts_iff _) Cn) in Q1.
    destruct (in_place_all_ok lims Div y0 eq_refl eq_refl ws m0 (widths_includes _ _ _ _ F)) as (m' & Q & O & V). rewrite Q, E0, Cn in *.
    destruct (unit_fold lims Div counts ws) as [u|e|] eqn:Eu; cbn [bind] in Q1; try discriminate Q1. injection Q1 as -> _. destruct (V u eq_refl) as [V3 _]. change new with (d_obj y0). rewrite V3.
    destruct (fold_exponent Div (or_introl eq_refl) _ _ _ _ F counts u pcounts ltac:(discriminate) Hu Z0 Eu) as [E8 Pu]. split; [rewrite E8; reflexivity|]. exact Pu. }
  destruct U as (U8 & Pu). rewrite <- Ey in *. assert (U8' : exponent (fst (m1 (d_obj y))) 8 <> 0%Z) by (intros E; pose proof (eq_trans (eq_sym U8) E) as X; discriminate X). rewrite <- Sy in Hc.
  destruct (C51_from_density m1 new' cs y ds cl Hc Hu Pu Nc U8' Nn') as (m2' & r2 & R2 & _ & V2). rewrite Q2 in R2. injection R2 as <- <-.
  destruct (V2 z eq_refl) as (Ez & Sz & _ & Vz). split.
  - (* the unit *)
    destruct (bin_widths_ok cs (d_shape x) ds cl lims ltac:(rewrite <- Sy; exact Hc) Hu) as (ws & W & F).
    assert (UD : exists u, unit_fold lims Div counts ws = Ok u /\ fst (m1 (d_obj y)) = u).
    { unfold convert_da in Q1. rewrite W in Q1. set (y0 := mkdata (d_obj y) (d_shape x) false false) in *. set (m0 := set_mem m (d_obj y) (m (d_obj x))) in *.
      assert (E0 : m0 (d_obj y0) = m (d_obj x)) by apply set_mem_same. unfold to_density in Q1. rewrite E0, (proj2 (is_counts_iff _) Cn) in Q1.
      destruct (in_place_all_ok lims Div y0 eq_refl eq_refl ws m0 (widths_includes _ _ _ _ F)) as (m' & Q & O & V). rewrite Q, E0, Cn in *.
      destruct (unit_fold lims Div counts ws) as [u|e|] eqn:Eu; cbn [bind] in Q1; try discriminate Q1. exists u. split; [reflexivity|]. injection Q1 as -> _. exact (proj1 (V u eq_refl)). }
    destruct UD as (u & UD & Eu1).
    assert (UM : unit_fold lims Mul u ws = Ok (fst (m2 new'))).
    { unfold convert_da in Q2. rewrite W, Sy in Q2. set (y0 := mkdata new' (d_shape x) false false) in *. set (m0 := set_mem m1 new' (m1 (d_obj y))) in *.
      assert (E0 : m0 (d_obj y0) = m1 (d_obj y)) by apply set_mem_same. unfold from_density in Q2. rewrite E0, (is_counts_no _ Nc), (proj2 (is_density_iff _) (conj Nc U8')) in Q2.
      destruct (in_place_all_ok lims Mul y0 eq_refl eq_refl ws m0 (widths_includes _ _ _ _ F)) as (m' & Q & O & V). rewrite Q, E0, Eu1 in *.
      destruct (unit_fold lims Mul u ws) as [v|e|] eqn:Eu; cbn [bind] in Q2; try discriminate Q2. injection Q2 as -> _. destruct (V v eq_refl) as [V3 _]. change new' with (d_obj y0). rewrite V3. reflexivity. }
    clear - plims pcounts F Hu UD UM. revert UD UM. generalize (fst (m2 new')). intros v UD UM.
    (* quantities with a common number decide the unit *)
    assert (K : forall u0, proper_unit lims u0 -> u0 <> None -> forall u, unit_fold lims Div u0 ws = Ok u -> forall v, unit_fold lims Mul u ws = Ok v -> v = u0); [|exact (K counts pcounts ltac:(discriminate) u UD v UM)].
    clear UD UM u v. intros u0 P0 N0 u UD v UM.
    assert (S : forall s ds cl ws, widths_for s ds cl ws -> units_ok lims cl -> forall op u0 u, op = Div \/ op = Mul -> proper_unit lims u0 -> u0 <> None -> unit_fold lims op u0 ws = Ok u ->
      proper_unit lims u /\ u <> None /\ forall i, exponent u i = (exponent u0 i + (match op with Div => - sumZ (map (fun c => exponent (c_unit c) i) cl) | _ => sumZ (map (fun c => exponent (c_unit c) i) cl) end))%Z /\
      match u, u0 with Some (a, _), Some (a0, _) => a = match op with Div => a0 / fold_right Rmult 1 (map (fun c => match c_unit c with Some (b, _) => b | None => 1 end) cl) | _ => a0 * fold_right Rmult 1 (map (fun c => match c_unit c with Some (b, _) => b | None => 1 end) cl) end | _, _ => True end).
    { clear - plims. induction 1 as [|d ds c cl w ws (A & B) F IH]; intros Hu op u0 u Hop P0 N0 E; cbn [unit_fold] in E.
      - injection E as <-. split; [assumption|]. split; [assumption|]. intros i. destruct Hop as [-> | ->]; destruct u0 as [[a es]|]; cbn; (split; [lia|]); try exact I; field.
      - destruct (bop_unit lims op u0 (c_unit w)) as [u1| |] eqn:E1; try discriminate E. cbn [bind] in E. rewrite A in E1. inversion Hu as [|? ? (P1 & N1 & _) H2]; subst.
        assert (X : proper_unit lims u1 /\ u1 <> None).
        { destruct Hop as [-> | ->]; cbn [bop_unit] in E1; (split; [first [exact (div_proper lims u0 (c_unit c) u1 P0 P1 E1)|exact (mul_proper lims u0 (c_unit c) u1 P0 P1 E1)]|]);
            destruct u0 as [[a es]|]; try nn; destruct (c_unit c) as [[b fs]|]; try nn; first [rewrite div_some in E1|rewrite mul_some in E1]; destruct (in_limits _ _); try discriminate E1; injection E1 as <-; discriminate. }
        destruct X as [X1 X2]. destruct (IH H2 op u1 u Hop X1 X2 E) as (Y1 & Y2 & Y3). split; [exact Y1|]. split; [exact Y2|]. intros i. destruct (Y3 i) as [Y4 Y5].
        destruct u0 as [[a es]|]; [|nn]. destruct (c_unit c) as [[b fs]|] eqn:Ec; [|nn]. destruct u as [[vu ve]|]; [|nn].
        assert (L : length es = length fs) by (rewrite (proper_len lims plims a es P0), (proper_len lims plims b fs P1); reflexivity). destruct P1 as [Pb _].
        destruct Hop as [-> | ->]; cbn [bop_unit] in E1; first [rewrite div_some in E1|rewrite mul_some in E1]; destruct (in_limits _ _); try discriminate E1; injection E1 as <-;
          cbn [exponent pdivides ptimes fst snd map sumZ fold_right] in *; (rewrite nth_cw in Y4 by (auto; lia)); rewrite Ec; cbn [exponent fst snd].
        + split; [unfold sumZ in *; cbn [fold_right map]; lia|]. rewrite Y5. unfold Rdiv. rewrite Rinv_mult. ring.
        + split; [unfold sumZ in *; cbn [fold_right map]; lia|]. rewrite Y5. ring. }
    destruct (S _ _ _ _ F Hu Div u0 u (or_introl eq_refl) P0 N0 UD) as (Pu & Nu & S1). destruct (S _ _ _ _ F Hu Mul u v (or_intror eq_refl) Pu Nu UM) as (Pv & Nv & S2).
    destruct u0 as [[a0 e0]|]; [|nn]. destruct u as [[a e]|]; [|nn]. destruct v as [[av ev]|]; [|nn]. f_equal. apply punit_ext.
    + cbn [fst]. destruct (S1 0%nat) as [_ T1], (S2 0%nat) as [_ T2]. rewrite T2, T1. field. clear - Hu. induction Hu as [|c cl (P & N & _) Hu IH]; cbn [map fold_right]; [lra|]. destruct (c_unit c) as [[b fs]|]; [|nn]. destruct P as [Pb _]. apply Rmult_integral_contrapositive. split; [lra|exact IH].
    + cbn [snd]. rewrite (proper_len lims plims _ _ P0), (proper_len lims plims _ _ Pv). reflexivity.
    + intros i. cbn [snd]. destruct (S1 i) as [T1 _], (S2 i) as [T2 _]. cbn [exponent] in T1, T2. lia.
  - intros p Hp. destruct (Vy p Hp) as [A1 _], (Vz p Hp) as [A2 _]. rewrite A2, A1. field. exact Hp.
Qed.

(** One dimension: back always succeeds and gives the counts. *)
Theorem C51_round_trip_one (m : memory) new new' cs x d c (m1 : memory) y : coords_for cs (d_shape x) [d] [c] -> units_ok lims [c] -> exponent (c_unit c) 8 = 0%Z ->
  fst (m (d_obj x)) = counts -> new <> d_obj x -> new' <> new ->
  convert_da (to_density lims) m new cs x [d] = (m1, Ok y) ->
  exists m2 z, convert_da (from_density lims) m1 new' cs y [d] = (m2, Ok z) /\ fst (m2 new') = counts /\ forall p, width c d p <> 0 -> snd (m2 new') p = snd (m (d_obj x)) p.
Proof.
  intros Hc Hu Z0 Cn Nn Nn' Q1. pose proof Q1 as Q1'. unfold convert_da in Q1. destruct (bin_widths_ok cs (d_shape x) [d] [c] lims Hc Hu) as (ws & W & F). rewrite W in Q1.
  set (y0 := mkdata new (d_shape x) false false) in *. set (m0 := set_mem m new (m (d_obj x))) in *.
  assert (E0 : m0 (d_obj y0) = m (d_obj x)) by apply set_mem_same. unfold to_density in Q1. rewrite E0, (proj2 (is_counts_iff _) Cn) in Q1.
  destruct (in_place_all_ok lims Div y0 eq_refl eq_refl ws m0 (widths_includes _ _ _ _ F)) as (m' & Q & O & V). rewrite Q, E0, Cn in *.
  destruct (unit_fold lims Div counts ws) as [u|e|] eqn:Eu; cbn [bind] in Q1; try discriminate Q1. injection Q1 as -> <-.
  inversion Hu as [|? ? (P1 & N1 & M1) _]; subst. inversion F as [|? ? ? ? w ws' (A & B & C) F']; subst. inversion F'; subst. cbn [unit_fold bop_unit] in Eu. rewrite A in Eu.
  destruct (unit_div lims counts (c_unit c)) as [u'| |] eqn:Ed; try discriminate Eu. cbn [bind] in Eu. injection Eu as <-. destruct (V u' eq_refl) as [V1 _].
  assert (Nu : u' <> counts).
  { intros ->. apply M1. pose proof (div_mul lims plims counts (c_unit c) counts pcounts P1 Ed) as Em. destruct (c_unit c) as [[b fs]|]; [|nn]. unfold counts in Em, Ed. rewrite mul_some in Em. destruct (in_limits _ _); [|discriminate].
    pose proof (f_equal (fun r => match r with Ok (Some p) => p | _ => (b, fs) end) Em) as E. cbv beta iota in E. clear Em Ed.
    f_equal. apply punit_ext; cbn [fst snd].
    - pose proof (f_equal fst E) as E1. unfold ptimes in E1. cbn [fst] in E1. lra.
    - rewrite (proper_len lims plims b fs P1). reflexivity.
    - intros i. pose proof (f_equal (fun q => nth i (snd q) 0%Z) E) as E3. unfold ptimes in E3. cbv beta in E3. cbn [snd] in E3.
      rewrite nth_cw in E3 by (try reflexivity; cbn [snd]; rewrite (proper_len lims plims b fs P1); reflexivity). rewrite zero_nth. lia. }
  assert (Nf : fst (m1 new) <> counts) by (intros X; apply Nu; exact (eq_trans (eq_sym V1) X)).
  assert (Ef : exists m2 z, convert_da (from_density lims) m1 new' cs y0 [d] = (m2, Ok z)).
  { unfold convert_da. rewrite W. cbn [y0 d_shape d_obj]. set (z0 := mkdata new' (d_shape x) false false). set (m3 := set_mem m1 new' (m1 new)).
    assert (E3 : m3 (d_obj z0) = m1 new) by apply set_mem_same. unfold from_density. rewrite E3. destruct (is_counts _) eqn:X; [exfalso; apply Nf, is_counts_iff; exact X|]. clear X.
    destruct (is_count_density _); [|eexists; eexists; reflexivity].
    destruct (in_place_all_ok lims Mul z0 eq_refl eq_refl [w] m3) as (m' & Q' & O' & V'); [intros w' [<-|[]]; exact C|]. rewrite Q', E3. cbn [unit_fold bop_unit]. change (m1 new) with (m1 (d_obj y0)). rewrite V1, A, (div_mul lims plims counts (c_unit c) u' pcounts P1 Ed). cbn [bind]. eauto. }
  destruct Ef as (m2 & z & Ef). exists m2, z. split; [exact Ef|].
  destruct (C51_round_trip m new new' cs x [d] [c] m1 y0 m2 z Hc Hu ltac:(intros c' [<-|[]]; exact Z0) Cn Nn Nn' Q1' Nf Ef) as [R1 R2]. split; [exact R1|].
  intros p Hp. apply R2. cbn [volume]. lra.
Qed.
(** Bin edges are needed: with a coord of the same length as the data (for one dimension), without a coord, and with a dimensionless
    coord there is an error. *)
Theorem C51_no_edges (m : memory) new cs x d c : NoDup (map fst cs) -> NoDup (map fst (c_shape c)) -> NoDup (map fst (d_shape x)) -> In (d, c) cs -> fst (m (d_obj x)) = counts ->
  (c_unit c = one -> snd (convert_da (to_density lims) m new cs x [d]) = Throw RuntimeError) /\
  (forall n, c_unit c <> one -> In (d, n) (d_shape x) -> In (d, n) (c_shape c) -> (1 <= n)%Z -> snd (convert_da (to_density lims) m new cs x [d]) = Throw DimensionError).
Proof.
  intros Nc Nk Ns I Cn. unfold convert_da, bin_widths, bin_width. rewrite (find_coord_In _ _ _ Nc I). split.
  - intros ->. rewrite unit_eqb_refl. reflexivity.
  - intros n U Is Ic Hn. destruct (unit_eqb (c_unit c) one) eqn:E; [apply unit_eqb_iff in E; contradiction|]. rewrite (extent_In _ _ _ Nk Ic). replace (n <? 1)%Z with false by (symmetry; apply Z.ltb_ge; lia).
    unfold unit_same. rewrite unit_eqb_refl. cbn [bind]. unfold to_density. cbn [d_obj]. rewrite set_mem_same, (proj2 (is_counts_iff _) Cn). cbn [in_place_all]. unfold in_place. cbn [d_shape c_shape].
    replace (includes (d_shape x) (resized (c_shape c) d (n - 1))) with false; [reflexivity|]. symmetry. destruct (includes _ _) eqn:Q; [|reflexivity]. exfalso. unfold includes in Q. rewrite forallb_forall in Q.
    assert (Id : In (d, (n - 1)%Z) (resized (c_shape c) d (n - 1))) by (unfold resized; apply in_map_iff; exists (d, n); cbn [fst]; rewrite Z.eqb_refl; split; [reflexivity|exact Ic]).
    specialize (Q _ Id). cbn [fst snd] in Q. rewrite (extent_In _ _ _ Ns Is) in Q. apply Z.eqb_eq in Q. lia.
Qed.
Theorem C51_no_coord f (m : memory) new cs x d : ~ In d (map fst cs) -> convert_da f m new cs x [d] = (m, Throw NotFoundError).
Proof.
  intros N. unfold convert_da, bin_widths, bin_width. replace (find_coord cs d) with (@None coord); [reflexivity|]. induction cs as [|[k c] cs IH]; [reflexivity|]. cbn [find_coord]. destruct (k =? d)%Z eqn:E; [exfalso; apply N; left; apply Z.eqb_eq in E; exact E|]. apply IH. intros I. apply N. now right.
Qed.

(** Datasets: every item with counts is divided, the others stay. But the items of the input themselves are changed: the result shares
    them. *)
Theorem C51_dataset (m : memory) cs xs ds cl s : coords_for cs s ds cl -> units_ok lims cl ->
  Forall (fun x => d_shape x = s /\ d_partial x = false /\ d_readonly x = false) xs -> NoDup (map d_obj xs) ->
  exists m' r, convert_ds (to_density lims) m cs xs ds = (m', r) /\ (forall o, ~ In o (map d_obj xs) -> m' o = m o) /\
    ((exists ys, r = Ok ys) <-> forall x, In x xs -> (fst (m (d_obj x)) = counts -> divisible lims (exponent counts) (map c_unit cl)) /\ (fst (m (d_obj x)) = counts \/ exponent (fst (m (d_obj x))) 8 = 0%Z)) /\
    forall ys, r = Ok ys -> ys = xs /\ forall x, In x xs ->
      (fst (m (d_obj x)) = counts -> forall p, snd (m' (d_obj x)) p = snd (m (d_obj x)) p / volume cl ds p) /\ (fst (m (d_obj x)) <> counts -> m' (d_obj x) = m (d_obj x)).
Proof.
  intros Hc Hu. destruct (bin_widths_ok cs s ds cl lims Hc Hu) as (ws & W & F). unfold convert_ds. rewrite W.
  assert (Fu : Forall (fun u => proper_unit lims u /\ u <> None) (map c_unit cl)) by (apply Forall_map, units_weak, Hu).
  pose proof (fold_div_units lims plims (map c_unit cl) counts ws (widths_units _ _ _ _ F) Fu pcounts ltac:(discriminate)) as D.
  enough (G : forall xs m, Forall (fun x => d_shape x = s /\ d_partial x = false /\ d_readonly x = false) xs -> NoDup (map d_obj xs) ->
    exists m' r, convert_items (to_density lims) m xs ws = (m', r) /\ (forall o, ~ In o (map d_obj xs) -> m' o = m o) /\
    (r = Ok tt <-> forall x, In x xs -> (fst (m (d_obj x)) = counts -> divisible lims (exponent counts) (map c_unit cl)) /\ (fst (m (d_obj x)) = counts \/ exponent (fst (m (d_obj x))) 8 = 0%Z)) /\
    (r = Ok tt -> forall x, In x xs ->
      (fst (m (d_obj x)) = counts -> forall p, snd (m' (d_obj x)) p = snd (m (d_obj x)) p / volume cl ds p) /\ (fst (m (d_obj x)) <> counts -> m' (d_obj x) = m (d_obj x)))).
  { intros Fx Nx. destruct (G xs m Fx Nx) as (m' & r & Q & O & S & V). rewrite Q. exists m', (do _ <- r; Ok xs). split; [reflexivity|]. split; [exact O|]. split.
    - rewrite <- S. destruct r as [[]| |]; cbn [bind]; split; intros X; try discriminate X; eauto; destruct X as [? X]; discriminate X.
    - intros ys E. destruct r as [[]| |]; try discriminate E. cbn [bind] in E. injection E as <-. split; [reflexivity|exact (V eq_refl)]. }
  clear xs m. induction xs as [|x xs IH]; intros m Fx Nx.
  - exists m, (Ok tt). split; [reflexivity|]. split; [reflexivity|]. split; [split; [intros _ x []|reflexivity]|intros _ x []].
  - inversion Fx as [|? ? (S1 & S2 & S3) Fx']; subst. cbn [map] in Nx. inversion Nx as [|? ? Nx1 Nx2]; subst. cbn [convert_items]. unfold to_density at 1.
    assert (Oth : forall x', In x' xs -> d_obj x' <> d_obj x) by (intros x' I E; apply Nx1; rewrite <- E; now apply in_map).
    destruct (is_counts (fst (m (d_obj x)))) eqn:Ic.
    + apply is_counts_iff in Ic. destruct (in_place_all_ok lims Div x S2 S3 ws m (widths_includes _ _ _ _ F)) as (m1 & Q & O & V). rewrite Q, Ic in *.
      destruct (unit_fold lims Div counts ws) as [u|e|] eqn:Eu.
      * destruct (IH m1 Fx' Nx2) as (m' & r & Q' & O' & S' & V'). exists m', r. split; [exact Q'|]. split; [intros o No; rewrite O' by (intros X; apply No; now right); apply O; intros E; apply No; left; now symmetry|]. split.
        { rewrite S'. split.
          - intros A x' [<-|I]; [split; [intros _; apply D; eauto|left; exact Ic]|]. specialize (A x' I). rewrite (O _ (Oth x' I)) in A. exact A.
          - intros A x' I. rewrite (O _ (Oth x' I)). exact (A x' (or_intror I)). }
        intros E x' [<-|I].
        { split; [|intros N; contradiction]. intros _ p. rewrite (O' _ Nx1), (proj2 (V u eq_refl) p). exact (fold_div _ _ _ _ p F _). }
        { specialize (V' E x' I). rewrite (O _ (Oth x' I)) in V'. exact V'. }
      * exists m1, (Throw e). split; [reflexivity|]. split; [intros o No; apply O; intros X; apply No; left; now symmetry|]. split; [|discriminate]. split; [discriminate|]. intros A. exfalso.
        destruct (proj2 D (proj1 (A x (or_introl eq_refl)) Ic)) as [v X]. discriminate X.
      * exists m1, Ub. split; [reflexivity|]. split; [intros o No; apply O; intros X; apply No; left; now symmetry|]. split; [|discriminate]. split; [discriminate|]. intros A. exfalso.
        destruct (proj2 D (proj1 (A x (or_introl eq_refl)) Ic)) as [v X]. discriminate X.
    + assert (Nc : fst (m (d_obj x)) <> counts) by (intros E; rewrite (proj2 (is_counts_iff _) E) in Ic; discriminate).
      destruct (is_count_density (fst (m (d_obj x)))) eqn:Id.
      * apply is_density_iff in Id. exists m, (Throw RuntimeError). split; [reflexivity|]. split; [reflexivity|]. split; [|discriminate]. split; [discriminate|]. intros A. exfalso. destruct (A x (or_introl eq_refl)) as [_ [E|E]]; [contradiction|]. apply (proj2 Id). exact E.
      * destruct (IH m Fx' Nx2) as (m' & r & Q' & O' & S' & V'). exists m', r. split; [exact Q'|]. split; [intros o No; apply O'; intros X; apply No; now right|]. split.
        { rewrite S'. split; [|intros A x' I; exact (A x' (or_intror I))]. intros A x' [<-|I]; [|exact (A x' I)]. split; [intros E; contradiction|]. right. destruct (Z.eq_dec (exponent (fst (m (d_obj x))) 8) 0) as [E|E]; [exact E|]. exfalso.
          pose proof (proj2 (is_density_iff _) (conj Nc E)) as X. unfold uunit, punit in *. congruence. }
        intros E x' [<-|I]; [|exact (V' E x' I)]. split; [intros X; contradiction|]. intros _. exact (O' _ Nx1).
Qed.
End Props.

(** ** Cases and counterexamples *)
From Verif Require Import Units_Props.
Lemma counts_proper : proper_unit Units_Props.widths counts. Proof. proper_tac. Qed.
(** Two bins with the edges 0, 1, 4 m; six counts in each bin. *)
Definition c_case : coord := mkcoord [(1, 3)]%Z (meters 1) (fun p => IZR (p 1%Z * p 1%Z)).
Definition x_case (o : nat) : data := mkdata o [(1, 2)]%Z false false.
Definition m_case : memory := fun o => match o with 0%nat => (counts, fun _ => 6) | _ => (Some (1, [-1; 0; 0; 0; 0; 0; 0; 0; 1; 0]%Z), fun _ => 6) end.
Lemma meters_ne_one : meters 1 <> one. Proof. discriminate. Qed.
Lemma case_coords : coords_for [(1%Z, c_case)] [(1, 2)]%Z [1%Z] [c_case] /\ units_ok Units_Props.widths [c_case].
Proof.
  split.
  - split; [repeat constructor; intros []|]. split; [repeat constructor; intros []|]. constructor; [|constructor]. split; [now left|]. split; [repeat constructor; intros []|]. split; [exists 2%Z; split; [now left|]; split; [lia|now left]|].
    intros k n [[= <- <-]|[]] N. exfalso. now apply N.
  - constructor; [|constructor]. split; [exact (meters_proper 1 ltac:(lia))|]. split; discriminate.
Qed.
Example C51_case : coords_for [(1%Z, c_case)] (d_shape (x_case 0)) [1%Z] [c_case] /\ units_ok Units_Props.widths [c_case] /\ fst (m_case 0%nat) = counts /\
  divisible Units_Props.widths (exponent counts) (map c_unit [c_case]) /\ exponent (c_unit c_case) 8 = 0%Z /\ volume [c_case] [1%Z] (fun _ => 1%Z) = 3.
Proof.
  destruct case_coords as [A B]. split; [exact A|]. split; [exact B|]. split; [reflexivity|]. split.
  { split; [|exact I]. intros i l E. do 10 (destruct i as [|i]; [injection E as <-; cbn; lia|]). destruct i; discriminate E. }
  split; [reflexivity|]. cbn [volume]. unfold width, c_case, c_val. cbn. lra.
Qed.
(** A dataset is changed by converting it: the function takes it as constant and returns the result. *)
Theorem C51_dataset_input_refuted : ~ (forall lims (m m' : memory) cs xs ds ys, proper_limits lims -> convert_ds (to_density lims) m cs xs ds = (m', Ok ys) -> forall x, In x xs -> m' (d_obj x) = m (d_obj x)).
Proof.
  intros A. destruct case_coords as [Hc Hu].
  destruct (C51_dataset Units_Props.widths widths_proper counts_proper m_case [(1%Z, c_case)] [x_case 0] [1%Z] [c_case] [(1, 2)]%Z Hc Hu) as (m' & r & Q & _ & S & V); [repeat constructor|repeat constructor; intros []|].
  assert (E : exists ys, r = Ok ys).
  { apply S. intros x [<-|[]]. split; [intros _; apply C51_case|left; reflexivity]. }
  destruct E as [ys ->]. destruct (V ys eq_refl) as [_ V']. specialize (A _ _ _ _ _ _ _ widths_proper Q (x_case 0) (or_introl eq_refl)). destruct (V' (x_case 0) (or_introl eq_refl)) as [V1 _]. specialize (V1 eq_refl (fun _ => 1%Z)). rewrite A in V1.
  replace (volume [c_case] [1%Z] (fun _ => 1%Z)) with 3 in V1 by (symmetry; apply C51_case). cbn in V1. lra.
Qed.
(** Not all or nothing: the first item is converted, the second is a density already, which is an error. *)
Theorem C51_dataset_atomic_refuted : exists m' e, convert_ds (to_density Units_Props.widths) m_case [(1%Z, c_case)] [x_case 0; x_case 1] [1%Z] = (m', Throw e) /\ m' 0%nat <> m_case 0%nat.
Proof.
  destruct case_coords as [Hc Hu]. destruct (bin_widths_ok _ _ _ _ Units_Props.widths Hc Hu) as (ws & W & F). unfold convert_ds. rewrite W. cbn [convert_items]. unfold to_density at 1. cbn [x_case d_obj m_case fst]. rewrite (proj2 (is_counts_iff counts) eq_refl).
  destruct (in_place_all_ok Units_Props.widths Div (x_case 0) eq_refl eq_refl ws m_case (widths_includes _ _ _ _ F)) as (m1 & Q & O & V). change (mkdata 0 [(1, 2)]%Z false false) with (x_case 0). rewrite Q. cbn [x_case d_obj m_case fst] in *.
  assert (E : exists u, unit_fold Units_Props.widths Div counts ws = Ok u).
  { apply (fold_div_units Units_Props.widths widths_proper (map c_unit [c_case]) counts ws (widths_units _ _ _ _ F)); [|exact counts_proper|discriminate|apply C51_case]. constructor; [|constructor]. split; [exact (meters_proper 1 ltac:(lia))|discriminate]. }
  destruct E as [u E]. rewrite E. unfold to_density. change (d_obj (x_case 1)) with 1%nat. cbn [d_obj]. rewrite (O 1%nat) by discriminate. cbn [m_case fst].
  rewrite (is_counts_no (Some (1, [-1; 0; 0; 0; 0; 0; 0; 0; 1; 0]%Z))) by discriminate.
  rewrite (proj2 (is_density_iff (Some (1, [-1; 0; 0; 0; 0; 0; 0; 0; 1; 0]%Z)))) by (split; discriminate).
  exists m1, RuntimeError. split; [reflexivity|]. intros X. destruct (V u E) as [_ V2]. specialize (V2 (fun _ => 1%Z)). rewrite (fold_div _ _ _ _ _ F) in V2. change (snd (m1 0%nat) (fun _ => 1%Z) = 6 / volume [c_case] [1%Z] (fun _ => 1%Z)) in V2.
  replace (volume [c_case] [1%Z] (fun _ => 1%Z)) with 3 in V2 by (symmetry; apply C51_case). rewrite X in V2. cbn in V2. lra.
Qed.
(** The round trip fails if a coord counts things: the density has no counts in its unit, and is not converted back. *)
Definition c_counts : coord := mkcoord [(1, 3)]%Z counts (fun p => IZR (p 1%Z * p 1%Z)).
Lemma counts_coords : coords_for [(1%Z, c_counts)] [(1, 2)]%Z [1%Z] [c_counts] /\ units_ok Units_Props.widths [c_counts].
Proof.
  split.
  - split; [repeat constructor; intros []|]. split; [repeat constructor; intros []|]. constructor; [|constructor]. split; [now left|]. split; [repeat constructor; intros []|]. split; [exists 2%Z; split; [now left|]; split; [lia|now left]|].
    intros k n [[= <- <-]|[]] N. exfalso. now apply N.
  - constructor; [|constructor]. split; [exact counts_proper|]. split; discriminate.
Qed.
Theorem C51_round_trip_refuted : exists m1 y, convert_da (to_density Units_Props.widths) m_case 2 [(1%Z, c_counts)] (x_case 0) [1%Z] = (m1, Ok y) /\
  exists m2 z, convert_da (from_density Units_Props.widths) m1 3 [(1%Z, c_counts)] y [1%Z] = (m2, Ok z) /\ fst (m2 3%nat) <> counts /\ snd (m2 3%nat) (fun _ => 1%Z) = 2 /\ snd (m_case 0%nat) (fun _ => 1%Z) = 6.
Proof.
  destruct counts_coords as [Hc Hu].
  destruct (C51_to_density Units_Props.widths widths_proper counts_proper m_case 2 [(1%Z, c_counts)] (x_case 0) [1%Z] [c_counts] Hc Hu eq_refl ltac:(discriminate)) as (m1 & r & Q & _ & S & V).
  assert (E : exists y, r = Ok y).
  { apply S. split; [|exact I]. intros i l E. do 10 (destruct i as [|i]; [injection E as <-; cbn; lia|]). destruct i; discriminate E. }
  destruct E as [y ->]. exists m1, y. split; [exact Q|]. destruct (V y eq_refl) as (Ey & Sy & Vy). 
  assert (Vol : volume [c_counts] [1%Z] (fun _ => 1%Z) = 3) by (cbn [volume]; unfold width, c_counts, c_val; cbn; lra).
  destruct (Vy (fun _ => 1%Z) ltac:(rewrite Vol; lra)) as [V1 V2]. rewrite Vol in V1. change (snd (m_case (d_obj (x_case 0))) (fun _ => 1%Z)) with 6 in V1.
  assert (E8 : exponent (fst (m1 (d_obj y))) 8 = 0%Z).
  { unfold value in V2. cbn [cell c_counts c_unit meaning fst snd] in V2. unfold counts in V2. cbn [meaning fst snd m_case x_case d_obj] in V2. unfold counts in V2. cbn [fst snd] in V2.
    rewrite Ey in *. destruct (fst (m1 2%nat)) as [[a es]|]; [|reflexivity]. cbn [qmul lift same] in V2. destruct V2 as [_ V2]. specialize (V2 8%nat). cbn [nth] in V2. cbn [exponent]. lia. }
  destruct (C51_unchanged Units_Props.widths m1 3 [(1%Z, c_counts)] y [1%Z] [c_counts] ltac:(rewrite Sy; exact Hc) Hu ltac:(rewrite Ey; discriminate)) as (_ & U & _).
  eexists _, _. split; [apply U; left; exact E8|]. rewrite set_mem_same, Ey. split; [|split; [rewrite V1; lra|reflexivity]]. intros X. rewrite Ey, X in E8. discriminate E8.
Qed.
(** It also fails if the units of two coords cancel: the density is taken for counts. *)
Definition c_inverse : coord := mkcoord [(2, 3)]%Z (meters (-1)) (fun p => IZR (p 2%Z * p 2%Z)).
Definition x_two : data := mkdata 0 [(1, 2); (2, 2)]%Z false false.
Theorem C51_cancel_refuted : exists m1 y, convert_da (to_density Units_Props.widths) m_case 2 [(1%Z, c_case); (2%Z, c_inverse)] x_two [1%Z; 2%Z] = (m1, Ok y) /\
  exists m2 z, convert_da (from_density Units_Props.widths) m1 3 [(1%Z, c_case); (2%Z, c_inverse)] y [1%Z; 2%Z] = (m2, Ok z) /\
    fst (m2 3%nat) = counts /\ snd (m2 3%nat) (fun _ => 1%Z) = 6 / 9 /\ snd (m_case 0%nat) (fun _ => 1%Z) = 6.
Proof.
  assert (Hc : coords_for [(1%Z, c_case); (2%Z, c_inverse)] (d_shape x_two) [1%Z; 2%Z] [c_case; c_inverse]).
  { split; [repeat constructor; cbn; intuition discriminate|]. split; [repeat constructor; cbn; intuition discriminate|]. constructor; [|constructor; [|constructor]].
    - split; [now left|]. split; [repeat constructor; intros []|]. split; [exists 2%Z; split; [now left|]; split; [lia|now left]|]. intros k n [[= <- <-]|[]] N. exfalso. now apply N.
    - split; [right; now left|]. split; [repeat constructor; intros []|]. split; [exists 2%Z; split; [right; now left|]; split; [lia|now left]|]. intros k n [[= <- <-]|[]] N. exfalso. now apply N. }
  assert (Hu : units_ok Units_Props.widths [c_case; c_inverse]).
  { constructor; [|constructor; [|constructor]]; (split; [apply meters_proper; lia|split; discriminate]). }
  destruct (C51_to_density Units_Props.widths widths_proper counts_proper m_case 2 _ x_two _ _ Hc Hu eq_refl ltac:(discriminate)) as (m1 & r & Q & _ & S & V).
  assert (E : exists y, r = Ok y).
  { apply S. split; [|split; [|exact I]]; intros i l E; do 10 (destruct i as [|i]; [injection E as <-; cbn; lia|]); destruct i; discriminate E. }
  destruct E as [y ->]. exists m1, y. split; [exact Q|]. destruct (V y eq_refl) as (Ey & Sy & Vy).
  assert (Vol : volume [c_case; c_inverse] [1%Z; 2%Z] (fun _ => 1%Z) = 9) by (cbn [volume]; unfold width, c_case, c_inverse, c_val; cbn; lra).
  destruct (Vy (fun _ => 1%Z) ltac:(rewrite Vol; lra)) as [V1 _]. rewrite Vol in V1. change (snd (m_case (d_obj x_two)) (fun _ => 1%Z)) with 6 in V1.
  assert (Ec : fst (m1 2%nat) = counts).
  { destruct (bin_widths_ok _ _ _ _ Units_Props.widths Hc Hu) as (ws & W & F). unfold convert_da in Q. rewrite W in Q. set (y0 := mkdata 2 (d_shape x_two) false false) in *. set (m0 := set_mem m_case 2 (m_case (d_obj x_two))) in *.
    assert (E0 : m0 (d_obj y0) = (counts, fun _ => 6)) by apply set_mem_same. unfold to_density in Q. rewrite E0 in Q. cbn [fst] in Q. rewrite (proj2 (is_counts_iff counts) eq_refl) in Q.
    destruct (in_place_all_ok Units_Props.widths Div y0 eq_refl eq_refl ws m0 (widths_includes _ _ _ _ F)) as (m' & Q' & O & V'). rewrite Q', E0 in *. cbn [fst] in *.
    destruct (unit_fold Units_Props.widths Div counts ws) as [u|e|] eqn:Eu; cbn [bind] in Q; try discriminate Q. injection Q as -> _. refine (eq_trans (proj1 (V' u eq_refl)) _). clear - Eu F.
    inversion F as [|? ? ? ? w ws' (A & _) F']; subst. inversion F' as [|? ? ? ? w' ws'' (A' & _) F'']; subst. inversion F''; subst. cbn [unit_fold bop_unit] in Eu. rewrite A, A' in Eu. unfold counts, c_case, c_inverse, meters, c_unit in Eu. rewrite div_some in Eu.
    match type of Eu with context [if ?b then _ else _] => replace b with true in Eu by reflexivity end. cbn [bind] in Eu. cbn [unit_fold bop_unit] in Eu. rewrite div_some in Eu.
    match type of Eu with context [if ?b then _ else _] => replace b with true in Eu by reflexivity end. cbn [bind] in Eu. injection Eu as <-. unfold counts, pdivides. cbn. do 2 f_equal. lra. }
  destruct (C51_unchanged Units_Props.widths m1 3 _ y _ _ ltac:(rewrite Sy; exact Hc) Hu ltac:(rewrite Ey; discriminate)) as (_ & U & _).
  eexists _, _. split; [apply U; right; rewrite Ey; exact Ec|]. rewrite set_mem_same, Ey. split; [exact Ec|split; [exact V1|reflexivity]].
Qed.
Print Assumptions C51_to_density.
Print Assumptions C51_from_density.
Print Assumptions C51_unchanged.
Print Assumptions C51_round_trip.
Print Assumptions C51_round_trip_one.
Print Assumptions C51_no_edges.
Print Assumptions C51_no_coord.
Print Assumptions C51_dataset.
Print Assumptions C51_dataset_input_refuted.
Print Assumptions C51_dataset_atomic_refuted.
Print Assumptions C51_round_trip_refuted.
Print Assumptions C51_cancel_refuted.
