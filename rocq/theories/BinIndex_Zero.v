(** Proofs about iteration over binned data: arrays without bins, and validation. *)
From Verif Require Import Base Dims_Model Dims_Spec Dims_Proofs Index_Model Index_Spec Index_Proofs BinIndex_Model BinIndex_Spec BinIndex_Proofs BinIndex_Make.

(** ** No bins at all *)
Definition same_bins (m m' : mindex) : Prop :=
  mi_data m = mi_data m' /\ mi_coord m = mi_coord m' /\ mi_stride m = mi_stride m' /\ mi_ndim m = mi_ndim m' /\
  map (Z.max 1) (mi_shape m) = map (Z.max 1) (mi_shape m').

Lemma at_end_max c s s' : Z.max 1 s = Z.max 1 s' -> at_end_dim c s = at_end_dim c s'.
Proof. intros E. unfold at_end_dim. rewrite !(Z.max_comm _ 1). rewrite E. reflexivity. Qed.

Lemma carry_max sh : forall sh' d c st, map (Z.max 1) sh = map (Z.max 1) sh' -> carry d c sh st = carry d c sh' st.
Proof.
  induction sh as [|s sh IH]; intros [|s' sh'] d c st E; try discriminate; [reflexivity|].
  cbn [map] in E. injection E as E1 E2. destruct c as [|c [|c1 cs]]; try reflexivity.
  destruct st as [|v [|v1 st]]; try reflexivity. rewrite !carry_eq. rewrite (at_end_max c s s' E1). rewrite (IH sh' _ _ _ E2). reflexivity.
Qed.

Lemma same_increment m m' : same_bins m m' -> same_bins (mi_increment m) (mi_increment m').
Proof.
  destruct m as [d c sh st n], m' as [d' c' sh' st' n']. intros (E1 & E2 & E3 & E4 & E5). cbn [mi_data mi_coord mi_stride mi_ndim mi_shape] in *. subst.
  unfold mi_increment. rewrite !mi_increment_eq. cbn [mi_data mi_coord mi_stride mi_ndim mi_shape].
  rewrite (carry_max sh sh') by assumption. repeat split. exact E5.
Qed.

Lemma last_map {A B} (f : A -> B) l d : last (map f l) (f d) = f (last l d).
Proof. induction l as [|x [|y l] IH]; [reflexivity|reflexivity|]. exact IH. Qed.

Lemma same_at_end m m' : same_bins m m' -> last_at_end m = last_at_end m'.
Proof.
  intros (_ & E2 & _ & _ & E5). unfold last_at_end. rewrite E2. apply at_end_max. rewrite <- (last_map (Z.max 1) (mi_shape m) 0), <- (last_map (Z.max 1) (mi_shape m') 0), E5. reflexivity.
Qed.

Definition no_memory (p : bparam) : Prop := match p with Dense => True | Binned None => True | Binned (Some _) => False end.

Lemma nth_put i l : nth i (put_nth i 0 l) 0 = 0.
Proof.
  unfold put_nth. revert l. induction i as [|i IH]; intros l; [reflexivity|]. destruct l as [|x l]; [destruct i; reflexivity|]. apply IH.
Qed.

Lemma load_none s : Forall no_memory (bs_par s) -> existsb is_binned (bs_par s) = true -> bs_at_end s = false ->
  exists s', load_bins s = Ok s' /\ bs_bins s' = bs_bins s /\ bs_par s' = bs_par s /\ mi_coord (bs_in s') = mi_coord (bs_in s) /\ bin_is_empty s' = true.
Proof.
  intros HF Hb Hae. unfold load_bins.
  assert (forall ps j data sh, Forall no_memory ps -> nth (bs_nest s) sh 0 = 0 \/ existsb is_binned ps = true ->
     exists d sh', load_loop s j ps data sh = Ok (d, sh') /\ nth (bs_nest s) sh' 0 = 0) as HL.
  { induction ps as [|p ps IH]; intros j data sh HF' Hc.
    - exists [], sh. split; [reflexivity|]. destruct Hc as [Hc|Hc]; [assumption|discriminate].
    - apply Forall_cons_iff in HF' as [Hp HF']. cbn [load_loop]. destruct p as [|[ix|]]; [| contradiction|].
      + cbn [bind fst snd]. destruct (IH (S j) (tl data) sh HF' Hc) as (d & sh' & Ed & Hn). rewrite Ed. cbn [bind fst snd]. eauto.
      + rewrite Hae. cbn [bind fst snd]. 
        destruct (IH (S j) (tl data) (put_nth (bs_nest s) 0 sh) HF' (or_introl (nth_put _ _))) as (d & sh' & Ed & Hn). rewrite Ed. cbn [bind fst snd]. eauto. }
  destruct (HL (bs_par s) O (mi_data (bs_in s)) (mi_shape (bs_in s)) HF (or_intror Hb)) as (d & sh' & Ed & Hn). rewrite Ed. cbn [bind].
  eexists. split; [reflexivity|]. cbn [bs_bins bs_par bs_in mi_coord]. split; [reflexivity|]. split; [reflexivity|]. split; [reflexivity|].
  unfold bin_is_empty. cbn [bs_in bs_nest mi_shape snd]. rewrite Hn. reflexivity.
Qed.

Lemma seek_none n es' fuel : es_ok n es' -> forall s k, 0 <= k < evol es' -> same_bins (bs_bins s) (mi_state n es' k) ->
  Forall no_memory (bs_par s) -> existsb is_binned (bs_par s) = true -> evol es' - k <= Z.of_nat fuel ->
  exists s', seek_loop fuel s = Ok s' /\ same_bins (bs_bins s') (mi_state n es' (evol es')) /\ bs_par s' = bs_par s /\
             mi_coord (bs_in s') = repeat 0 (length (mi_coord (bs_in s))).
Proof.
  intros Hok. induction fuel as [|fuel IH]; intros s k Hk HS HF Hb Hf; [lia|]. cbn [seek_loop]. unfold increment_bins.
  set (s1 := mkbs _ _ _ _). apply same_increment in HS. rewrite mi_increment_1 in HS by (assumption || lia).
  assert (bs_at_end s1 = (k + 1 =? evol es')) as Hae.
  { unfold bs_at_end, s1. cbn [bs_bins]. rewrite (same_at_end _ _ HS). apply last_at_end_state; [assumption|lia]. }
  destruct (Z.eqb_spec (k + 1) (evol es')) as [E|E].
  - rewrite Hae. cbn [bind]. rewrite Hae, andb_false_r. exists s1. split; [reflexivity|]. split; [|split; reflexivity].
    rewrite <- E. exact HS.
  - rewrite Hae. destruct (load_none s1) as (s2 & E2 & B2 & P2 & C2 & M2); [assumption|assumption|assumption|].
    rewrite E2. cbn [bind]. rewrite M2. unfold bs_at_end at 1. rewrite B2. fold (bs_at_end s1). rewrite Hae. cbn [andb negb].
    destruct (IH s2 (k + 1)) as (s' & E' & S' & P' & C'); [lia|rewrite B2; exact HS|rewrite P2; assumption|rewrite P2; assumption|lia|].
    exists s'. split; [assumption|]. split; [assumption|]. split; [rewrite P', P2; reflexivity|].
    rewrite C', C2. unfold s1. cbn [bs_in zero_coords mi_coord]. rewrite repeat_length. reflexivity.
Qed.

Definition emax (e : mentry) : mentry := mkmentry (Z.max 1 (me_size e)) (me_strides e).
Lemma sizes_emax es : sizes_of (map emax es) = map (Z.max 1) (sizes_of es).
Proof. unfold sizes_of. rewrite !map_map. reflexivity. Qed.
Lemma strides_emax es : strides_of_e (map emax es) = strides_of_e es.
Proof. unfold strides_of_e. rewrite !map_map. reflexivity. Qed.
Lemma emax_ok n es : lens n (strides_of_e es) -> es_ok n (map emax es).
Proof.
  intros Hl. split; [|rewrite strides_emax; assumption]. rewrite sizes_emax. apply Forall_map, Forall_forall. intros x _. cbv beta. lia.
Qed.
Lemma max_idem l : map (Z.max 1) (map (Z.max 1) l) = map (Z.max 1) l.
Proof. rewrite map_map. apply map_ext. intros. lia. Qed.

Lemma seek_bin_none n es : lens n (strides_of_e es) -> forall s, same_bins (bs_bins s) (mi_state n (map emax es) 0) ->
  Forall no_memory (bs_par s) -> existsb is_binned (bs_par s) = true ->
  exists s', seek_bin s = Ok s' /\ same_bins (bs_bins s') (mi_state n (map emax es) (evol (map emax es))) /\ bs_par s' = bs_par s /\
             mi_coord (bs_in s') = repeat 0 (length (mi_coord (bs_in s))).
Proof.
  intros Hl s HS HF Hb. pose proof (emax_ok n es Hl) as Hok. pose proof (V_pos n _ Hok) as HV.
  eapply seek_none; try eassumption; [lia|]. unfold seek_fuel. destruct HS as (_ & _ & _ & _ & ->).
  rewrite fold_mul_vol. destruct es as [|e es]; [cbn; lia|].
  rewrite mi_state_ne by discriminate. cbn [mi_shape]. rewrite sizes_emax, max_idem, <- sizes_emax. fold (evol (map emax (e :: es))). lia.
Qed.

Lemma same_of_entries n es : same_bins (mi_of_entries n es) (mi_of_entries n (map emax es)).
Proof.
  destruct es as [|e es]; [repeat split|]. unfold same_bins, mi_of_entries. cbn [map mi_data mi_coord mi_stride mi_ndim mi_shape].
  split; [reflexivity|]. split; [cbn [length]; rewrite map_length; reflexivity|]. split; [rewrite map_map; reflexivity|].
  split; [cbn [length]; rewrite map_length; reflexivity|]. f_equal; [cbn [emax me_size]; lia|].
  rewrite !map_map. apply map_ext. intros a. cbn [emax me_size]. lia.
Qed.

Lemma extract_cons2 k m m' sh : extract_indices k (m :: m' :: sh) =
  if m =? 0 then 0 :: extract_indices k (m' :: sh) else (k - Z.quot k m * m) :: extract_indices (Z.quot k m) (m' :: sh).
Proof. reflexivity. Qed.
Lemma extract_zero sh : extract_indices 0 sh = repeat 0 (Nat.max 1 (length sh)).
Proof.
  induction sh as [|m [|m' sh] IH]; [reflexivity|reflexivity|]. rewrite extract_cons2. destruct (Z.eqb_spec m 0) as [E|E].
  - rewrite IH. reflexivity.
  - rewrite Z.quot_0_l by assumption. rewrite IH. reflexivity.
Qed.

Lemma set_zero n es k m : lens n (strides_of_e es) -> same_bins m (mi_state n (map emax es) k) ->
  same_bins (mi_set_index m 0) (mi_state n (map emax es) 0).
Proof.
  intros Hl (E1 & E2 & E3 & E4 & E5). pose proof (emax_ok n es Hl) as Hok. unfold mi_set_index.
  assert (length (mi_shape m) = length (mi_shape (mi_state n (map emax es) k))) as L by (apply (f_equal (@length Z)) in E5; rewrite !map_length in E5; assumption).
  pose proof (mi_set_of n (map emax es) 0 k Hok ltac:(lia)) as HS. unfold mi_set_index in HS. rewrite <- HS. clear HS.
  unfold same_bins. cbn [mi_data mi_coord mi_stride mi_ndim mi_shape].
  rewrite !extract_zero. rewrite E1, E3, E4, !firstn_length, L.
  split; [reflexivity|]. split; [reflexivity|]. split; [reflexivity|]. split; [reflexivity|]. assumption.
Qed.

Lemma iter_lens sh ops : lens (length ops) (strides_of_e (rev (iter_entries sh (map op_strides ops)))).
Proof.
  unfold lens, strides_of_e. apply Forall_map, Forall_rev. rewrite iter_entries_eq. apply Forall_map, Forall_forall. intros i _.
  cbn [ent me_strides]. rewrite !map_length. reflexivity.
Qed.

Lemma zero_bins inner idx sh ops ei eb : (exists o, In o ops /\ op_bins o <> None) -> vol sh = 0 -> starts inner idx sh ops ei eb ->
  exists s, bi_make inner idx sh ops = Ok s /\ forall fuel, bi_block fuel s 0 0 = Ok [] /\ bi_serial fuel s 0 = Ok [].
Proof.
  intros Hbin Hv HST. rewrite (starts_make _ _ _ _ _ _ HST). destruct HST as (_ & _ & Fb & _). set (n := length ops) in *.
  rewrite Hv.
  assert (lens n (strides_of_e eb)) as Hl by (eapply flatten_lens; [exact Fb|constructor|apply iter_lens]).
  assert (Forall no_memory (map (bin_param 0) ops)) as HF.
  { apply Forall_map, Forall_forall. intros o _. unfold bin_param. destruct (op_bins o) as [[st ix]|]; exact I. }
  assert (existsb is_binned (map (bin_param 0) ops) = true) as Hb.
  { destruct Hbin as (o & Ho & Hne). apply existsb_exists. exists (bin_param 0 o). split; [apply in_map; assumption|].
    unfold bin_param. destruct (op_bins o) as [[st ix]|]; [reflexivity|congruence]. }
  pose proof (emax_ok n eb Hl) as Hok. pose proof (V_pos n _ Hok) as HV.
  assert (forall s0, same_bins (bs_bins s0) (mi_state n (map emax eb) 0) -> bs_at_end s0 = false) as Hae.
  { intros s0 HS. unfold bs_at_end. rewrite (same_at_end _ _ HS), last_at_end_state by (assumption || lia). lia. }
  set (s0 := mkbs _ _ _ _).
  assert (same_bins (bs_bins s0) (mi_state n (map emax eb) 0)) as HS0.
  { cbn [bs_bins s0]. rewrite <- mi_begin by assumption. apply same_of_entries. }
  destruct (load_none s0 HF Hb (Hae s0 HS0)) as (s1 & E1 & B1 & P1 & C1 & M1). rewrite E1. cbn [bind]. rewrite M1. cbn [orb].
  destruct (seek_bin_none n eb Hl s1) as (s' & Es & S' & P' & C'); [rewrite B1; assumption|rewrite P1; assumption|rewrite P1; assumption|].
  rename s' into s. exists s. split; [assumption|]. intros fuel. rewrite P1 in P'. rewrite C1 in C'.
  (* jumping to the first bin *)
  assert (exists s2, bi_set_index s 0 = Ok s2 /\ bi_eqb s s2 = true) as (s2 & E2 & Q2).
  { unfold bi_set_index. replace (match mi_ndim (bs_bins s) with O => _ | S _ => _ end) with (mi_set_index (bs_bins s) 0)
      by (destruct (mi_ndim (bs_bins s)); reflexivity).
    set (s3 := mkbs _ _ _ _).
    assert (same_bins (bs_bins s3) (mi_state n (map emax eb) 0)) as HS3 by (cbn [bs_bins s3]; eapply set_zero; eassumption).
    destruct (load_none s3) as (s4 & E4 & B4 & P4 & C4 & M4); [cbn [s3 bs_par]; rewrite P'; assumption|cbn [s3 bs_par]; rewrite P'; assumption|apply Hae; assumption|].
    rewrite E4. cbn [bind]. rewrite M4, Hae by (rewrite B4; assumption). cbn [andb negb].
    destruct (seek_bin_none n eb Hl s4) as (s5 & E5 & S5 & P5 & C5);
      [rewrite B4; assumption|rewrite P4; cbn [s3 bs_par]; rewrite P'; assumption|rewrite P4; cbn [s3 bs_par]; rewrite P'; assumption|].
    exists s5. split; [assumption|]. unfold bi_eqb, bi_coord. apply list_eqb_spec.
    destruct S' as (_ & -> & _). destruct S5 as (_ & -> & _). f_equal. rewrite C', C5, C4. cbn [s3 bs_in zero_coords mi_coord].
    rewrite repeat_length, C', repeat_length. reflexivity. }
  assert (forall a b, bi_eqb a b = true -> bi_run fuel a b = Ok []) as Hrun.
  { intros a b Hab. destruct fuel; cbn [bi_run]; rewrite Hab; reflexivity. }
  unfold bi_block, bi_serial. rewrite E2. cbn [bind]. split; apply Hrun; [|assumption].
  unfold bi_eqb. apply list_eqb_refl.
Qed.

(** ** Validation *)
Lemma same_sizes_run n es sh st0 st1 ix0 ix1 sz0 sz1 :
  es_ok n es -> (forall k, 0 <= k -> mi_data (mi_state n es k) = addresses sh [st0; st1] k) ->
  (forall k, 0 <= k < vol sh -> exists b, ix0 (address sh st0 k) = Some (b, b + sz0 k)) ->
  (forall k, 0 <= k < vol sh -> exists b, ix1 (address sh st1 k) = Some (b, b + sz1 k)) ->
  forall fuel k, 0 <= k -> k + Z.of_nat fuel = vol sh ->
  (same_sizes_loop fuel (mi_state n es k) ix0 ix1 = Ok tt /\ forall i, k <= i < vol sh -> sz0 i = sz1 i) \/
  (same_sizes_loop fuel (mi_state n es k) ix0 ix1 = Throw BinnedDataError /\ exists i, k <= i < vol sh /\ sz0 i <> sz1 i).
Proof.
  intros Hok Hd H0' H1'. induction fuel as [|fuel IH]; intros k Hk Hf; cbn [same_sizes_loop].
  - left. split; [reflexivity|]. intros; lia.
  - rewrite Hd by assumption. unfold addresses. cbn [map nth].
    destruct (H0' k ltac:(lia)) as (b0 & ->). destruct (H1' k ltac:(lia)) as (b1 & ->).
    replace (b0 + sz0 k - b0) with (sz0 k) by lia. replace (b1 + sz1 k - b1) with (sz1 k) by lia.
    destruct (Z.eqb_spec (sz0 k) (sz1 k)) as [E|E].
    + rewrite mi_increment_1 by assumption. destruct (IH (k + 1) ltac:(lia) ltac:(lia)) as [[R HA]|[R (i & Hi & Hne)]].
      * left. split; [assumption|]. intros i Hi. destruct (Z.eq_dec i k) as [->|]; [assumption|apply HA; lia].
      * right. split; [assumption|]. exists i. split; [lia|assumption].
    + right. split; [reflexivity|]. exists k. split; [lia|assumption].
Qed.

Lemma same_sizes_ok sh st0 st1 ix0 ix1 sz0 sz1 : nonneg sh -> (length sh <= NDIM_OP_MAX)%nat ->
  length st0 = length sh -> length st1 = length sh -> flattening_safe sh [st0; st1] ->
  (forall k, 0 <= k < vol sh -> exists b, ix0 (address sh st0 k) = Some (b, b + sz0 k)) ->
  (forall k, 0 <= k < vol sh -> exists b, ix1 (address sh st1 k) = Some (b, b + sz1 k)) ->
  (same_sizes sh st0 ix0 st1 ix1 = Ok tt /\ forall i, 0 <= i < vol sh -> sz0 i = sz1 i) \/
  (same_sizes sh st0 ix0 st1 ix1 = Throw BinnedDataError /\ exists i, 0 <= i < vol sh /\ sz0 i <> sz1 i).
Proof.
  intros Hn Hl L0 L1 Hs H0' H1'. unfold same_sizes. destruct (mi_make_total sh [st0; st1] Hl) as (m & Em). rewrite Em. cbn [bind].
  rewrite fold_mul_vol. assert (0 <= vol sh) as Hv by (apply vol_nonneg; assumption).
  destruct (Z.eq_dec (vol sh) 0) as [E0|E0].
  - left. rewrite E0. split; [reflexivity|intros; lia].
  - assert (pos sh) as Hp by (apply vol_pos_all; assumption || lia).
    destruct (mi_make_good sh [st0; st1] m Hp ltac:(repeat constructor; assumption) Em Hs) as (es & -> & Hok & Hve & Hd).
    apply same_sizes_run with (sh := sh) (st0 := st0) (st1 := st1); try assumption; lia.
Qed.

Definition sizes_agree (sh : list Z) (sz : operand -> Z -> Z) (o o' : operand) : Prop :=
  op_bins o <> None -> op_bins o' <> None -> forall k, 0 <= k < vol sh -> sz o k = sz o' k.

Lemma validate_ok sh sz : nonneg sh -> (length sh <= NDIM_OP_MAX)%nat -> forall ps p0,
  Forall (fun o => length (op_strides o) = length sh /\ has_sizes sh (sz o) o) (p0 :: ps) ->
  (forall o o', In o (p0 :: ps) -> In o' (p0 :: ps) -> flattening_safe sh [op_strides o; op_strides o']) ->
  (validate_bins sh p0 ps = Ok tt /\ forall o o', In o (p0 :: ps) -> In o' (p0 :: ps) -> sizes_agree sh sz o o') \/
  (validate_bins sh p0 ps = Throw BinnedDataError /\ exists o o' k, In o (p0 :: ps) /\ In o' (p0 :: ps) /\
     op_bins o <> None /\ op_bins o' <> None /\ 0 <= k < vol sh /\ sz o k <> sz o' k).
Proof.
  intros Hn Hl. induction ps as [|p1 ps IH]; intros p0 HF Hs; cbn [validate_bins].
  - left. split; [reflexivity|]. intros o o' [<-|[]] [<-|[]]. intros _ _ k _. reflexivity.
  - rewrite Forall_forall in HF.
    destruct (HF p0 (or_introl eq_refl)) as [L0 S0]. destruct (HF p1 (or_intror (or_introl eq_refl))) as [L1 S1].
    unfold has_sizes in S0, S1.
    assert (forall q, In q [p0; p1] ->
      (validate_bins sh q ps = Ok tt /\ forall o o', In o (q :: ps) -> In o' (q :: ps) -> sizes_agree sh sz o o') \/
      (validate_bins sh q ps = Throw BinnedDataError /\ exists o o' k, In o (p0 :: p1 :: ps) /\ In o' (p0 :: p1 :: ps) /\
         op_bins o <> None /\ op_bins o' <> None /\ 0 <= k < vol sh /\ sz o k <> sz o' k)) as HQ.
    { intros q Hq. assert (forall o, In o (q :: ps) -> In o (p0 :: p1 :: ps)) as Hsub by (intros o [<-|Ho]; [destruct Hq as [<-|[<-|[]]]; cbn; auto|cbn; auto]).
      destruct (IH q) as [[R HA]|[R (o & o' & k & Ho & Ho' & HX)]].
      - apply Forall_forall. intros o Ho. apply HF, Hsub, Ho.
      - intros o o' Ho Ho'. apply Hs; apply Hsub; assumption.
      - left. auto.
      - right. split; [assumption|]. exists o, o', k. split; [apply Hsub; assumption|]. split; [apply Hsub; assumption|]. exact HX. }
    destruct (op_bins p0) as [[i0 ix0]|] eqn:B0; [destruct (op_bins p1) as [[i1 ix1]|] eqn:B1|].
    + destruct (same_sizes_ok sh (op_strides p0) (op_strides p1) ix0 ix1 (sz p0) (sz p1) Hn Hl L0 L1) as [[R HA]|[R (i & Hi & Hne)]].
      * apply Hs; cbn; auto.
      * eapply S0; reflexivity.
      * eapply S1; reflexivity.
      * rewrite R. cbn [bind]. destruct (HQ p0) as [[R' HA']|[R' HX]]; [cbn; auto| |right; split; assumption].
        left. split; [assumption|]. intros o o' Ho Ho'.
        assert (forall o, In o (p0 :: p1 :: ps) -> op_bins o <> None -> forall k, 0 <= k < vol sh -> sz o k = sz p0 k) as HP.
        { intros x [<-|[<-|Hx]] Hbx k Hk; [reflexivity|symmetry; apply HA; assumption|].
          apply (HA' x p0); [right; assumption|left; reflexivity|assumption|congruence|assumption]. }
        intros Hb Hb' k Hk. rewrite (HP o), (HP o') by assumption. reflexivity.
      * rewrite R. cbn [bind]. right. split; [reflexivity|]. exists p0, p1, i. cbn [In]. repeat (split; [auto; congruence|]). assumption.
    + cbn [bind]. destruct (HQ p0) as [[R' HA']|[R' HX]]; [cbn; auto| |right; split; assumption].
      left. split; [assumption|]. intros o o' Ho Ho' Hb Hb'. 
      assert (forall x, In x (p0 :: p1 :: ps) -> op_bins x <> None -> In x (p0 :: ps)) as Hin by (intros x [<-|[<-|Hx]] Hbx; [left; reflexivity|congruence|right; assumption]).
      apply (HA' o o'); auto.
    + cbn [bind]. destruct (HQ p1) as [[R' HA']|[R' HX]]; [cbn; auto| |right; split; assumption].
      left. split; [assumption|]. intros o o' Ho Ho' Hb Hb'.
      assert (forall x, In x (p0 :: p1 :: ps) -> op_bins x <> None -> In x (p1 :: ps)) as Hin by (intros x [<-|Hx] Hbx; [congruence|assumption]).
      apply (HA' o o'); auto.
Qed.

Lemma flatten_short inner idx ops : exists ei,
  flatten_dims (length inner) (Z.of_nat idx) (vzero (length ops)) (zlen inner - 1) (rev (iter_entries inner (map inner_strides ops))) [] = Ok ei /\
  (length ei <= length inner)%nat.
Proof.
  destruct (flatten_len_ok (length inner) (Z.of_nat idx) (rev (iter_entries inner (map inner_strides ops))) (vzero (length ops)) (zlen inner - 1) []) as (ei & E).
  - rewrite rev_length, iter_entries_eq, map_length, seq_length. cbn [length]. lia.
  - exists ei. split; [assumption|]. apply flatten_cap_ok in E. cbn [length] in E. lia.
Qed.

Lemma starts_fits inner idx sh ops : fits inner sh -> match ops with p0 :: ps => validate_bins sh p0 ps | [] => Ok tt end = Ok tt ->
  exists ei eb, starts inner idx sh ops ei eb.
Proof.
  intros [Hf1 Hf2] HV. destruct (flatten_short inner idx ops) as (ei & Ei & Li).
  destruct (flatten_len_ok (NDIM_OP_MAX - length ei) 0 (rev (iter_entries sh (map op_strides ops))) (vzero (length ops)) (zlen sh - 1) []) as (eb & Eb).
  - rewrite rev_length, iter_entries_eq, map_length, seq_length. cbn [length]. lia.
  - exists ei, eb. split; [assumption|]. split; [eapply flatten_mono; [|exact Ei]; lia|]. split; [assumption|].
    destruct (Nat.leb_spec NDIM_OP_MAX (length ei)); [lia|reflexivity].
Qed.

(** ** All cases *)
Lemma events_none inner idx sh ops size b : events_of inner idx sh ops size b b = [].
Proof. unfold events_of. rewrite Z.sub_diag. reflexivity. Qed.

Lemma bi_blocks inner idx sh ops size s : layout_ok inner idx sh ops -> layout_safe inner idx sh ops ->
  (forall k, 0 <= k < vol sh -> 0 <= size k) -> Forall (has_sizes sh size) ops -> bi_make inner idx sh ops = Ok s ->
  (forall b e fuel, 0 <= b <= e -> e <= vol sh -> (length (events_of inner idx sh ops size b e) <= fuel)%nat ->
     bi_block fuel s b e = Ok (events_of inner idx sh ops size b e)) /\
  (forall e fuel, 0 <= e <= vol sh -> (length (events_of inner idx sh ops size 0 e) <= fuel)%nat ->
     bi_serial fuel s e = Ok (events_of inner idx sh ops size 0 e)).
Proof.
  intros HL HS Hsz Hhs HM. pose proof HL as (_ & _ & Hnn & _ & Hbin). pose proof (vol_nonneg _ Hnn) as Hv.
  destruct (Z.eq_dec (vol sh) 0) as [E0|E0].
  - destruct (make_starts _ _ _ _ _ HM) as (ei & eb & HST). destruct (zero_bins _ _ _ _ _ _ Hbin E0 HST) as (s' & Es & HR).
    assert (s' = s) as -> by congruence. split.
    + intros b e fuel Hb He Hf. assert (b = 0) as -> by lia. assert (e = 0) as -> by lia. rewrite events_none. apply HR.
    + intros e fuel He Hf. assert (e = 0) as -> by lia. rewrite events_none. apply HR.
  - destruct (made_use _ _ _ _ _ _ (made _ _ _ _ _ _ HL HS Hsz Hhs ltac:(lia) HM)) as (H1' & H2' & _). split; intros; [apply H1'|apply H2']; assumption.
Qed.

Lemma bi_accept inner idx sh ops size : layout_ok inner idx sh ops -> layout_safe inner idx sh ops -> fits inner sh ->
  (forall o o', In o ops -> In o' ops -> flattening_safe sh [op_strides o; op_strides o']) ->
  (forall k, 0 <= k < vol sh -> 0 <= size k) -> Forall (has_sizes sh size) ops -> exists s, bi_make inner idx sh ops = Ok s.
Proof.
  intros HL HS HF Hsafe Hsz Hhs. pose proof HL as (_ & _ & Hnn & Hops & Hbin). pose proof (vol_nonneg _ Hnn) as Hv.
  assert (match ops with p0 :: ps => validate_bins sh p0 ps | [] => Ok tt end = Ok tt) as HV.
  { destruct ops as [|p0 ps]; [reflexivity|].
    destruct (validate_ok sh (fun _ => size) Hnn ltac:(destruct HF; lia) ps p0) as [[R _]|[_ (o & o' & k & _ & _ & _ & _ & _ & Hne)]].
    - rewrite Forall_forall in *. intros o Ho. split; [apply Hops; assumption|apply Hhs; assumption].
    - assumption.
    - assumption.
    - congruence. }
  destruct (starts_fits inner idx sh ops HF HV) as (ei & eb & HST). 
  destruct (Z.eq_dec (vol sh) 0) as [E0|E0].
  - destruct (zero_bins _ _ _ _ _ _ Hbin E0 HST) as (s & Es & _). eauto.
  - destruct (made_from _ _ _ _ _ _ _ HL HS Hsz Hhs ltac:(lia) HST) as (s & Es & _). eauto.
Qed.

Lemma bi_reject inner idx sh ops sz : nonneg sh -> (length sh <= NDIM_OP_MAX)%nat ->
  Forall (fun o => length (op_strides o) = length sh /\ has_sizes sh (sz o) o) ops ->
  (forall o o', In o ops -> In o' ops -> flattening_safe sh [op_strides o; op_strides o']) ->
  forall o o' k, In o ops -> In o' ops -> op_bins o <> None -> op_bins o' <> None -> 0 <= k < vol sh -> sz o k <> sz o' k ->
  bi_make inner idx sh ops = Throw BinnedDataError.
Proof.
  intros Hnn Hl HF Hsafe o o' k Ho Ho' Hb Hb' Hk Hne. destruct ops as [|p0 ps]; [contradiction|].
  destruct (validate_ok sh sz Hnn Hl ps p0 HF Hsafe) as [[_ HA]|[R _]].
  - exfalso. apply Hne. apply (HA o o'); assumption.
  - unfold bi_make. rewrite R. reflexivity.
Qed.
