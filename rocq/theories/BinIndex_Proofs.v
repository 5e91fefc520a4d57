(** Proofs about iteration over binned data. *)
From Verif Require Import Base Dims_Model Dims_Spec Dims_Proofs Index_Model Index_Spec Index_Proofs BinIndex_Model BinIndex_Spec.

(** ** Shifting all positions by a constant *)
Definition shift (base : list Z) (m : mindex) : mindex :=
  mkmindex (vadd base (mi_data m)) (mi_coord m) (mi_shape m) (mi_stride m) (mi_ndim m).

Lemma carry_snd sh : forall d d' c st, snd (carry d c sh st) = snd (carry d' c sh st).
Proof.
  induction sh as [|s ss IH]; intros d d' c st; destruct c as [|c [|c1 cs]]; try reflexivity.
  destruct st as [|v [|v1 st]]; try reflexivity. rewrite !carry_eq. destruct (at_end_dim c s); [|reflexivity].
  specialize (IH (vadd d (vadd v1 (vscale (- c) v))) (vadd d' (vadd v1 (vscale (- c) v))) (c1 + 1 :: cs) (v1 :: st)).
  destruct (carry (vadd d _) _ _ _), (carry (vadd d' _) _ _ _). cbn [snd] in *. congruence.
Qed.

Lemma vadd_assoc a b c : length b = length a -> length c = length a -> vadd (vadd a b) c = vadd a (vadd b c).
Proof.
  intros Hb Hc. assert (length (vadd a b) = length a) as L1 by (apply vadd_length; assumption).
  assert (length (vadd b c) = length b) as L2 by (apply vadd_length; congruence).
  apply veq; [rewrite !vadd_length; congruence|]. intros j.
  rewrite !vadd_nth by congruence. lia.
Qed.

Lemma shift_increment n base m d : length base = n -> length (mi_data m) = n -> lens n (mi_stride m) -> mi_stride m <> [] ->
  mi_increment_by (shift base m) d = shift base (mi_increment_by m d).
Proof.
  intros Hb Hm Hl Hne. rewrite !mi_increment_eq. unfold shift. cbn [mi_data mi_coord mi_shape mi_stride mi_ndim].
  assert (length (hd [] (mi_stride m)) = n) as Lh by (destruct Hl; [congruence|assumption]).
  rewrite vadd_assoc by (rewrite ?vscale_length; congruence).
  set (x := vadd (mi_data m) (vscale d (hd [] (mi_stride m)))).
  assert (length x = n) as Lx by (unfold x; rewrite vadd_length; rewrite ?vscale_length; congruence).
  assert (length (vadd base x) = n) as Lbx by (rewrite vadd_length; congruence).
  destruct (carry_data (mi_shape m) n (vadd base x) (bump d (mi_coord m)) (mi_stride m) Lbx Hl) as [L1 N1].
  destruct (carry_data (mi_shape m) n x (bump d (mi_coord m)) (mi_stride m) Lx Hl) as [L2 N2].
  rewrite (carry_snd _ (vadd base x) x) in N1 |- *. f_equal. apply veq; [rewrite vadd_length; congruence|].
  intros j. rewrite N1, !vadd_nth, N2 by congruence. lia.
Qed.

(** ** The last dimension *)
Lemma last_digit_end sh : forall k, sh <> [] -> pos sh -> 0 <= k <= vol sh ->
  (last (digits sh k) 0 = last sh 0 <-> k = vol sh).
Proof.
  induction sh as [|n [|m sh] IH]; intros k Hne Hp Hk; [congruence|cbn [digits last vol]; lia|].
  rewrite digits_cons. destruct (digits_ne m sh (k / n)) as (c & cs & E).
  change (last (n :: m :: sh) 0) with (last (m :: sh) 0). rewrite E.
  change (last (k mod n :: c :: cs) 0) with (last (c :: cs) 0). rewrite <- E.
  apply Forall_cons_iff in Hp as [Hn Hp]. change (vol (n :: m :: sh)) with (n * vol (m :: sh)) in *.
  pose proof (Z.div_mod k n ltac:(lia)). pose proof (Z.mod_pos_bound k n Hn).
  rewrite IH; [|discriminate|assumption|split; [apply Z.div_pos; lia|apply Z.div_le_upper_bound; lia]].
  split; intros Hx; [nia|]. rewrite Hx, Z.mul_comm. apply Z.div_mul. lia.
Qed.

Lemma mi_state_ne n es k : es <> [] -> mi_state n es k =
  mkmindex (flat_indices n (digits (sizes_of es) k) (strides_of_e es)) (digits (sizes_of es) k)
           (sizes_of es) (strides_of_e es) (length es).
Proof. destruct es; [congruence|reflexivity]. Qed.

Lemma pos_last sh : sh <> [] -> pos sh -> 0 < last sh 0.
Proof. induction sh as [|n [|m sh] IH]; intros Hne Hp; [congruence|inversion Hp; assumption|]. apply IH; [discriminate|]. inversion Hp; assumption. Qed.

Lemma last_at_end_state n es k : es_ok n es -> 0 <= k <= evol es -> last_at_end (mi_state n es k) = (k =? evol es).
Proof.
  intros [Hp _] Hk. unfold last_at_end. destruct es as [|e es].
  - reflexivity.
  - rewrite mi_state_ne by discriminate. cbn [mi_coord mi_shape].
    assert (sizes_of (e :: es) <> []) as Hne by discriminate.
    rewrite at_end_pos by (apply pos_last; assumption).
    apply eq_true_iff_eq. rewrite !Z.eqb_eq. apply last_digit_end; assumption.
Qed.

Lemma zmod0 n : 0 mod n = 0. Proof. destruct (Z.eq_dec n 0) as [->|]; [reflexivity|apply Z.mod_0_l; assumption]. Qed.
Lemma zdiv0 n : 0 / n = 0. Proof. destruct (Z.eq_dec n 0) as [->|]; [reflexivity|apply Z.div_0_l; assumption]. Qed.
Lemma digits_zero sh : digits sh 0 = repeat 0 (length sh).
Proof.
  induction sh as [|n [|m sh] IH]; [reflexivity|reflexivity|]. rewrite digits_cons, zmod0, zdiv0, IH. reflexivity.
Qed.
Lemma flat_zero n c st : lens n st -> flat_indices n (repeat 0 c) st = vzero n.
Proof.
  intros Hl. destruct (flat_indices_ok n (repeat 0 c) st Hl) as [L N]. apply veq; [rewrite vzero_length; assumption|].
  intros j. rewrite N, dot_zero, vzero_nth. reflexivity.
Qed.
Lemma vadd_zero_r a n : length a = n -> vadd a (vzero n) = a.
Proof.
  intros L. apply veq; [apply vadd_length; rewrite vzero_length; congruence|]. intros j.
  rewrite vadd_nth, vzero_nth by (rewrite vzero_length; congruence). lia.
Qed.

Lemma fold_mul_vol l : fold_left Z.mul l 1 = vol l.
Proof.
  assert (forall l a, fold_left Z.mul l a = a * vol l) as E.
  { induction l0 as [|x l0 IH]; intros a; cbn [fold_left vol]; [lia|]. rewrite IH. ring. }
  rewrite E. lia.
Qed.
Lemma map_max_pos l : pos l -> map (Z.max 1) l = l.
Proof. induction 1 as [|x l Hx Hl IH]; [reflexivity|]. cbn [map]. rewrite IH. f_equal. lia. Qed.

(** ** Runtime states *)
Section Run.
Context (n : nat) (PI QO : list mentry) (stn : list Z) (par : list bparam) (eb : list mentry) (size : Z -> Z) (base : Z -> list Z).
Definition Ei (x : Z) : list mentry := PI ++ mkmentry x stn :: QO.
Notation V := (evol eb).
Definition iv (k : Z) : Z := evol (Ei (size k)).

Definition par_ok (j : nat) (p : bparam) : Prop :=
  match p with
  | Dense => forall k, 0 <= k < V -> nth j (base k) 0 = nth j (mi_data (mi_state n eb k)) 0
  | Binned (Some ix) => forall k, 0 <= k < V ->
             exists b, ix (nth j (mi_data (mi_state n eb k)) 0) = Some (b, b + size k) /\ nth j (base k) 0 = nth j stn 0 * b
  | Binned None => False
  end.

Context (HE : forall x, 0 < x -> es_ok n (Ei x)) (Heb : es_ok n eb) (Hsize : forall k, 0 <= k < V -> 0 <= size k)
        (Hbase : forall k, 0 <= k < V -> length (base k) = n)
        (Hpar : length par = n /\ forall j, (j < n)%nat -> par_ok j (nth j par Dense))
        (Hbin : exists j, (j < n)%nat /\ nth j par Dense <> Dense).

Lemma Ei_ne x : Ei x <> []. Proof. unfold Ei. destruct PI; discriminate. Qed.
Lemma Ei_len x : length (Ei x) = length (Ei 0). Proof. unfold Ei. rewrite !app_length. reflexivity. Qed.
Lemma Ei_strides x : strides_of_e (Ei x) = strides_of_e (Ei 0).
Proof. unfold Ei, strides_of_e. rewrite !map_app. reflexivity. Qed.
Lemma Ei_lens x : lens n (strides_of_e (Ei x)).
Proof. rewrite Ei_strides, <- (Ei_strides 1). apply HE. lia. Qed.
Lemma Ei_sizes x : sizes_of (Ei x) = sizes_of PI ++ x :: sizes_of QO.
Proof. unfold Ei. rewrite sizes_app. reflexivity. Qed.
Lemma Ei_put x y : put_nth (length PI) y (sizes_of (Ei x)) = sizes_of (Ei y).
Proof.
  rewrite !Ei_sizes. unfold put_nth. assert (length PI = length (sizes_of PI)) as -> by (unfold sizes_of; rewrite map_length; reflexivity).
  rewrite firstn_app, firstn_all, Nat.sub_diag, app_nil_r. f_equal. f_equal.
  rewrite skipn_app, skipn_all2 by lia. replace (S (length (sizes_of PI)) - length (sizes_of PI))%nat with 1%nat by lia. reflexivity.
Qed.
Lemma Ei_nest x : nth (length PI) (sizes_of (Ei x)) 0 = x.
Proof.
  rewrite Ei_sizes. rewrite app_nth2; unfold sizes_of; rewrite map_length; [|lia]. rewrite Nat.sub_diag. reflexivity.
Qed.
Lemma Ei_nest_stride x : nth (length PI) (strides_of_e (Ei x)) [] = stn.
Proof.
  unfold Ei. rewrite strides_app. rewrite app_nth2; unfold strides_of_e; rewrite map_length; [|lia]. rewrite Nat.sub_diag. reflexivity.
Qed.
Lemma Ei_vol x : evol (Ei x) = vol (sizes_of PI) * (x * vol (sizes_of QO)).
Proof. unfold evol. rewrite Ei_sizes, vol_app. reflexivity. Qed.
Lemma iv_zero k : size k = 0 -> iv k = 0.
Proof. intros E. unfold iv. rewrite Ei_vol, E. lia. Qed.
Lemma iv_pos k : 0 < size k -> 0 < iv k.
Proof. intros E. apply pos_vol. apply HE. assumption. Qed.

Definition St (k q : Z) : bstate := mkbs (shift (base k) (mi_state n (Ei (size k)) q)) (mi_state n eb k) (length PI) par.

(** A state at bin [k] whose inner part is not yet set up. *)
Record Mid (s : bstate) (k : Z) : Prop := {
  M_bins : bs_bins s = mi_state n eb k;
  M_coord : length (mi_coord (bs_in s)) = length (Ei 0);
  M_shape : exists x, mi_shape (bs_in s) = sizes_of (Ei x);
  M_stride : mi_stride (bs_in s) = strides_of_e (Ei 0);
  M_data : length (mi_data (bs_in s)) = n;
  M_ndim : mi_ndim (bs_in s) = length (Ei 0);
  M_nest : bs_nest s = length PI;
  M_par : bs_par s = par }.

Lemma St_data_len k q : 0 <= k < V -> length (mi_data (bs_in (St k q))) = n.
Proof.
  intros Hk. unfold St, shift. cbn [bs_in mi_data]. rewrite vadd_length; [apply Hbase; assumption|].
  rewrite mi_state_ne by apply Ei_ne. cbn [mi_data]. rewrite (proj1 (flat_indices_ok n _ _ (Ei_lens _))). symmetry. apply Hbase. assumption.
Qed.

Lemma St_Mid k q : 0 <= k < V -> Mid (St k q) k.
Proof.
  intros Hk. constructor; try (unfold St, shift; cbn [bs_in bs_bins bs_nest bs_par mi_data mi_coord mi_shape mi_stride mi_ndim]; rewrite ?mi_state_ne by apply Ei_ne;
    cbn [bs_in bs_bins bs_nest bs_par mi_data mi_coord mi_shape mi_stride mi_ndim]); try reflexivity.
  - rewrite digits_length. unfold sizes_of. rewrite map_length. apply Ei_len.
  - eauto.
  - apply Ei_strides.
  - rewrite vadd_length; [apply Hbase; assumption|]. rewrite (proj1 (flat_indices_ok n _ _ (Ei_lens _))). symmetry. apply Hbase. assumption.
  - apply Ei_len.
Qed.

Definition is_binned (p : bparam) : bool := match p with Dense => false | _ => true end.

Lemma load_loop_ok s k x : 0 <= k < V -> Mid s k -> mi_coord (bs_in s) = repeat 0 (length (Ei 0)) ->
  forall ps p0 data, par = p0 ++ ps ->
  load_loop s (length p0) ps data (sizes_of (Ei x)) =
  Ok (skipn (length p0) (base k), sizes_of (Ei (if existsb is_binned ps then size k else x))).
Proof.
  intros Hk HM Hz. destruct HM as [Mb Mc Ms Mst Md Mn Mne Mp]. destruct Hpar as [Lp Hp].
  assert (bs_at_end s = false) as Hae.
  { unfold bs_at_end. rewrite Mb, last_at_end_state by (assumption || lia). lia. }
  intros ps. revert x. induction ps as [|p ps IH]; intros x p0 data Epar.
  - cbn [load_loop existsb]. rewrite app_nil_r in Epar. rewrite skipn_all2; [reflexivity|]. rewrite Hbase by assumption. subst p0. lia.
  - assert (length p0 < n)%nat as Lj by (rewrite <- Lp, Epar, app_length; cbn [length]; lia).
    assert (nth (length p0) par Dense = p) as Ep by (rewrite Epar, app_nth2, Nat.sub_diag by lia; reflexivity).
    specialize (Hp _ Lj). rewrite Ep in Hp.
    assert (skipn (length p0) (base k) = nth (length p0) (base k) 0 :: skipn (S (length p0)) (base k)) as Esk.
    { assert (length p0 < length (base k))%nat as L by (rewrite Hbase; assumption). clear -L. revert L. generalize (base k).
      induction (length p0) as [|m IHm]; intros [|y l] L; cbn in L; try lia; [reflexivity|]. cbn [skipn nth]. apply IHm. lia. }
    assert (forall r, (do rest <- load_loop s (S (length p0)) ps (tl data) (snd r); Ok (fst r :: fst rest, snd rest)) = 
       (do rest <- load_loop s (length (p0 ++ [p])) ps (tl data) (snd r); Ok (fst r :: fst rest, snd rest))) as Ecat
      by (intros; rewrite app_length, Nat.add_1_r; reflexivity).
    assert (length (p0 ++ [p]) = S (length p0)) as Lcat by (rewrite app_length; cbn; lia).
    assert (par = (p0 ++ [p]) ++ ps) as Epar' by (rewrite <- app_assoc; exact Epar).
    cbn [load_loop]. rewrite Esk. destruct p as [|[ix|]]; cbn [par_ok] in Hp; [| |contradiction].
    + cbn [bind]. rewrite Ecat. cbn [snd fst]. rewrite (IH x (p0 ++ [Dense]) _ Epar'). cbn [bind fst snd existsb is_binned orb].
      rewrite Lcat. do 3 f_equal. rewrite Md, Mst, Mb, Hz.
      rewrite Hp by assumption.
      rewrite flat_zero by apply Ei_lens. rewrite vzero_nth, Z.add_0_l.
      destruct eb as [|e eb']; [|reflexivity]. cbn [mi_state mi_coord mi_stride mi_data flat_indices].
      rewrite vadd_zero_r by (rewrite vscale_length; apply vzero_length). rewrite vscale_nth, vzero_nth. lia.
    + rewrite Hae. destruct (Hp k Hk) as (b & Eb & Enb). rewrite Mb, Eb. cbn [bind]. rewrite Ecat. cbn [snd fst].
      rewrite Mne, Ei_put. rewrite (IH (b + size k - b) (p0 ++ [Binned (Some ix)]) _ Epar'). cbn [bind fst snd existsb is_binned orb].
      rewrite Lcat. rewrite Mst, Ei_nest_stride, Enb. replace (b + size k - b) with (size k) by lia.
      destruct (existsb is_binned ps); reflexivity.
Qed.

Lemma some_binned : existsb is_binned par = true.
Proof.
  destruct Hbin as (j & Hj & Hne). destruct Hpar as [L _]. apply existsb_exists. exists (nth j par Dense).
  split; [apply nth_In; lia|]. destruct (nth j par Dense); [congruence|reflexivity].
Qed.

Lemma load_ok s k : 0 <= k < V -> Mid s k -> mi_coord (bs_in s) = repeat 0 (length (Ei 0)) -> load_bins s = Ok (St k 0).
Proof.
  intros Hk HM Hz. pose proof HM as [Mb Mc [x Ms] Mst Md Mn Mne Mp]. unfold load_bins. rewrite Mp, Ms.
  pose proof (load_loop_ok s k x Hk HM Hz par [] (mi_data (bs_in s)) eq_refl) as HL. cbn [length skipn] in HL. rewrite HL.
  cbn [bind fst snd]. rewrite some_binned. unfold St, shift. rewrite (mi_state_ne n (Ei (size k))) by apply Ei_ne.
  cbn [mi_data mi_coord mi_shape mi_stride mi_ndim]. rewrite Mb, Mst, Mn, Mne, Hz, (Ei_strides (size k)), (Ei_len (size k)).
  rewrite digits_zero, flat_zero by apply Ei_lens. rewrite vadd_zero_r by (apply Hbase; assumption).
  assert (length (sizes_of (Ei (size k))) = length (Ei 0)) as -> by (unfold sizes_of; rewrite map_length; apply Ei_len). reflexivity.
Qed.

(** At the end nothing is loaded, but dense operands are still assigned. *)
Lemma load_end s : Mid s V -> exists data, length data = n /\
  load_bins s = Ok (mkbs (mkmindex data (mi_coord (bs_in s)) (mi_shape (bs_in s)) (mi_stride (bs_in s)) (mi_ndim (bs_in s)))
                         (bs_bins s) (bs_nest s) (bs_par s)).
Proof.
  intros HM. pose proof HM as [Mb Mc Ms Mst Md Mn Mne Mp]. destruct Hpar as [Lp _].
  assert (bs_at_end s = true) as Hae.
  { unfold bs_at_end. rewrite Mb, last_at_end_state; [apply Z.eqb_refl|assumption|].
    destruct Heb as [Hp _]. apply pos_vol in Hp. unfold evol. lia. }
  assert (forall ps j data sh, exists d, length d = length ps /\ load_loop s j ps data sh = Ok (d, sh)) as HL.
  { induction ps as [|p ps IH]; intros j data sh; [exists []; auto|]. cbn [load_loop].
    destruct p as [|ixs].
    - destruct (IH (S j) (tl data) sh) as (d & Ld & Ed). cbn [bind snd fst]. rewrite Ed. cbn [bind fst snd]. eexists. split; [|reflexivity]. cbn. congruence.
    - rewrite Hae. destruct (IH (S j) (tl data) sh) as (d & Ld & Ed). cbn [bind snd fst]. rewrite Ed. cbn [bind fst snd]. eexists. split; [|reflexivity]. cbn. congruence. }
  destruct (HL (bs_par s) O (mi_data (bs_in s)) (mi_shape (bs_in s))) as (d & Ld & Ed).
  exists d. split; [congruence|]. unfold load_bins. rewrite Ed. reflexivity.
Qed.

Record EndS (s : bstate) : Prop := { E_mid : Mid s V; E_coord : mi_coord (bs_in s) = repeat 0 (length (Ei 0)) }.

Lemma V_pos : 0 < V. Proof. apply pos_vol. apply Heb. Qed.

Lemma zero_Mid s k j : Mid s k -> Mid (mkbs (zero_coords (bs_in s)) (mi_state n eb j) (bs_nest s) (bs_par s)) j.
Proof.
  intros [Mb Mc Ms Mst Md Mn Mne Mp]. constructor; cbn [bs_in bs_bins bs_nest bs_par zero_coords mi_data mi_coord mi_shape mi_stride mi_ndim]; try assumption; try reflexivity.
  rewrite repeat_length. assumption.
Qed.

Lemma increment_bins_ok s k : 0 <= k < V -> Mid s k ->
  exists s', increment_bins s = Ok s' /\ (if k + 1 =? V then EndS s' else s' = St (k + 1) 0).
Proof.
  intros Hk HM. pose proof (zero_Mid s k (k + 1) HM) as HM'. pose proof HM as [Mb Mc Ms Mst Md Mn Mne Mp].
  unfold increment_bins. rewrite Mb, mi_increment_1 by (assumption || lia).
  set (s' := mkbs _ _ _ _) in *.
  assert (bs_at_end s' = (k + 1 =? V)) as -> by (unfold bs_at_end, s'; cbn [bs_bins]; apply last_at_end_state; [assumption|lia]).
  assert (mi_coord (bs_in s') = repeat 0 (length (Ei 0))) as Ez by (unfold s'; cbn [bs_in zero_coords mi_coord]; rewrite Mc; reflexivity).
  destruct (Z.eqb_spec (k + 1) V) as [E|E].
  - exists s'. split; [reflexivity|]. constructor; [|assumption]. rewrite <- E. assumption.
  - exists (St (k + 1) 0). split; [|reflexivity]. apply load_ok; [lia|assumption|assumption].
Qed.

(** The first non-empty bin from [k] on, or the end. *)
Definition Norm (k : Z) (s : bstate) : Prop :=
  (exists k', k <= k' < V /\ (forall i, k <= i < k' -> size i = 0) /\ 0 < size k' /\ s = St k' 0) \/
  ((forall i, k <= i < V -> size i = 0) /\ EndS s).

Lemma Norm_skip k s : 0 <= k < V -> size k = 0 -> Norm (k + 1) s -> Norm k s.
Proof.
  intros Hk E [(k' & Hk' & Hz & Hs & ->)|[Hz He]].
  - left. exists k'. split; [lia|]. split; [|auto]. intros i Hi. destruct (Z.eq_dec i k) as [->|]; [assumption|apply Hz; lia].
  - right. split; [|assumption]. intros i Hi. destruct (Z.eq_dec i k) as [->|]; [assumption|apply Hz; lia].
Qed.

Lemma empty_St k q : bin_is_empty (St k q) = (size k =? 0).
Proof.
  unfold bin_is_empty, St, shift. rewrite mi_state_ne by apply Ei_ne. cbn [bs_in bs_nest mi_shape]. rewrite Ei_nest. reflexivity.
Qed.
Lemma at_end_St k q : 0 <= k < V -> bs_at_end (St k q) = false.
Proof. intros Hk. unfold bs_at_end, St. cbn [bs_bins]. rewrite last_at_end_state by (assumption || lia). lia. Qed.
Lemma at_end_End s : EndS s -> bs_at_end s = true.
Proof. intros [[Mb] _]. unfold bs_at_end. rewrite Mb, last_at_end_state; [apply Z.eqb_refl|assumption|pose proof V_pos; lia]. Qed.

Lemma seek_loop_ok fuel : forall s k, 0 <= k < V -> Mid s k -> V - k <= Z.of_nat fuel ->
  exists s', seek_loop fuel s = Ok s' /\ Norm (k + 1) s'.
Proof.
  induction fuel as [|fuel IH]; intros s k Hk HM Hf; [lia|]. cbn [seek_loop].
  destruct (increment_bins_ok s k Hk HM) as (s' & Es & Hs'). rewrite Es. cbn [bind].
  destruct (Z.eqb_spec (k + 1) V) as [E|E].
  - rewrite (at_end_End _ Hs'), andb_false_r. exists s'. split; [reflexivity|]. right. split; [intros; lia|assumption].
  - subst s'. rewrite empty_St, at_end_St by lia. rewrite andb_true_r. destruct (Z.eqb_spec (size (k + 1)) 0) as [E0|E0].
    + destruct (IH (St (k + 1) 0) (k + 1) ltac:(lia) (St_Mid (k + 1) 0 ltac:(lia)) ltac:(lia)) as (s2 & E2 & N2).
      exists s2. split; [assumption|]. apply Norm_skip; [lia|assumption|assumption].
    + exists (St (k + 1) 0). split; [reflexivity|]. left. exists (k + 1). split; [lia|]. split; [intros; lia|].
      split; [|reflexivity]. pose proof (Hsize (k + 1) ltac:(lia)). lia.
Qed.

Lemma seek_bin_ok s k : 0 <= k < V -> Mid s k -> exists s', seek_bin s = Ok s' /\ Norm (k + 1) s'.
Proof.
  intros Hk HM. apply seek_loop_ok; [assumption|assumption|]. unfold seek_fuel. destruct HM as [Mb _ _ _ _ _ _ _]. rewrite Mb.
  destruct eb as [|e eb'] eqn:Eeb.
  - unfold evol. cbn [sizes_of map vol]. lia.
  - rewrite <- Eeb in *. rewrite mi_state_ne by congruence. cbn [mi_shape]. rewrite map_max_pos by apply Heb.
    rewrite fold_mul_vol. fold V. unfold evol in *. lia.
Qed.

(** ** Jumps *)
Lemma set_index_ok s j k : Mid s j -> 0 <= j -> 0 <= k <= V -> exists s', bi_set_index s k = Ok s' /\ Norm k s'.
Proof.
  intros HM Hj Hk. pose proof HM as [Mb Mc Ms Mst Md Mn Mne Mp]. unfold bi_set_index.
  set (bins := match mi_ndim (bs_bins s) with O => _ | S _ => _ end).
  assert (bins = mi_state n eb k) as ->.
  { unfold bins. rewrite Mb. destruct eb as [|e eb'] eqn:Eeb.
    - unfold evol in Hk. cbn [sizes_of map vol] in Hk. cbn [mi_state mi_ndim mi_data mi_shape mi_stride].
      destruct (Z.eqb_spec k 0) as [->|E].
      + apply (mi_set_of n [] 0 j); [assumption|lia].
      + rewrite vzero_length. replace k with 1 by lia. reflexivity.
    - rewrite <- Eeb in *. rewrite mi_set_of by (assumption || lia). rewrite mi_state_ne by congruence. cbn [mi_ndim].
      rewrite Eeb. reflexivity. }
  pose proof (zero_Mid s j k HM) as HM'. set (s1 := mkbs _ _ _ _) in *.
  assert (mi_coord (bs_in s1) = repeat 0 (length (Ei 0))) as Ez by (unfold s1; cbn [bs_in zero_coords mi_coord]; rewrite Mc; reflexivity).
  destruct (Z.eq_dec k V) as [E|E].
  - rewrite E in HM'. destruct (load_end s1 HM') as (d & Ld & Ed). rewrite Ed. cbn [bind].
    set (s2 := mkbs _ _ _ _).
    assert (EndS s2) as He.
    { constructor; [|exact Ez]. destruct HM' as [Mb' Mc' Ms' Mst' Md' Mn' Mne' Mp']. constructor; cbn [s2 bs_in bs_bins bs_nest bs_par mi_data mi_coord mi_shape mi_stride mi_ndim]; assumption. }
    rewrite (at_end_End _ He), andb_false_r. exists s2. split; [reflexivity|]. right. split; [intros; lia|assumption].
  - rewrite (load_ok s1 k) by (assumption || lia). cbn [bind]. rewrite empty_St, at_end_St by lia. rewrite andb_true_r.
    destruct (Z.eqb_spec (size k) 0) as [E0|E0].
    + destruct (seek_bin_ok (St k 0) k ltac:(lia) (St_Mid k 0 ltac:(lia))) as (s2 & E2 & N2).
      exists s2. split; [assumption|]. apply Norm_skip; [lia|assumption|assumption].
    + exists (St k 0). split; [reflexivity|]. left. exists k. split; [lia|]. split; [intros; lia|]. split; [|reflexivity].
      pose proof (Hsize k ltac:(lia)). lia.
Qed.

(** ** Steps inside a bin *)
Lemma St_increment k q d : 0 <= k < V -> 0 < size k -> 0 <= q -> 0 < d -> in_row (sizes_of (Ei (size k))) q d -> q + d <= iv k ->
  exists s', bi_increment_by (St k q) d = Ok s' /\ (if q + d =? iv k then Norm (k + 1) s' else s' = St k (q + d)).
Proof.
  intros Hk Hs Hq Hd Hr Hle. pose proof (HE _ Hs) as Hok. unfold bi_increment_by. 
  assert (bs_in (St k q) = shift (base k) (mi_state n (Ei (size k)) q)) as Ein by reflexivity. rewrite Ein.
  rewrite (shift_increment n); [|apply Hbase; assumption|apply mi_data_length; assumption| |].
  2: { rewrite mi_state_ne by apply Ei_ne. apply Hok. }
  2: { rewrite mi_state_ne by apply Ei_ne. cbn [mi_stride]. intros E0. apply (Ei_ne (size k)). destruct (Ei (size k)); [reflexivity|discriminate E0]. }
  rewrite mi_inc_state by assumption.
  change (mkbs (shift (base k) (mi_state n (Ei (size k)) (q + d))) (bs_bins (St k q)) (bs_nest (St k q)) (bs_par (St k q))) with (St k (q + d)).
  assert (last_at_end (shift (base k) (mi_state n (Ei (size k)) (q + d))) = (q + d =? iv k)) as ->.
  { change (last_at_end (shift (base k) (mi_state n (Ei (size k)) (q + d)))) with (last_at_end (mi_state n (Ei (size k)) (q + d))).
    apply last_at_end_state; [assumption|]. fold (iv k). lia. }
  destruct (Z.eqb_spec (q + d) (iv k)) as [E|E].
  - assert (at_end_dim (hd 0 (mi_coord (shift (base k) (mi_state n (Ei (size k)) q))) + d)
       (hd 0 (mi_shape (shift (base k) (mi_state n (Ei (size k)) q)))) = true) as ->.
    { unfold shift. rewrite mi_state_ne by apply Ei_ne. cbn [mi_coord mi_shape]. unfold iv, evol in E.
      destruct Hok as [Hp _]. destruct (sizes_of (Ei (size k))) as [|m [|m' sh]] eqn:Es.
      - apply (f_equal (@length Z)) in Es. unfold sizes_of in Es. rewrite map_length in Es. destruct (Ei (size k)) eqn:E2; [exfalso; apply (Ei_ne _ E2)|discriminate].
      - cbn [digits hd]. rewrite at_end_pos by (inversion Hp; assumption). cbn [vol] in E. lia.
      - rewrite digits_cons. cbn [hd]. apply Forall_cons_iff in Hp as [Hm Hp]. rewrite at_end_pos by assumption.
        cbn [in_row] in Hr. change (vol (m :: m' :: sh)) with (m * vol (m' :: sh)) in E.
        pose proof (Z.mod_pos_bound q m Hm). destruct (add_divmod q d m) as [(E1 & E2 & E3)|(E1 & E2 & E3)]; try lia.
        exfalso. rewrite E in E2. rewrite Z.mul_comm, Z.mod_mul in E2 by lia. lia. }
    cbn [andb]. apply seek_bin_ok; [assumption|apply St_Mid; assumption].
  - rewrite andb_false_r. eauto.
Qed.

(** ** The block loop *)
Definition bpos (k i : Z) : list Z := mi_data (bs_in (St k i)).
Definition evb (k : Z) : list (list Z) := map (bpos k) (zseq 0 (Z.to_nat (iv k))).
Definition evbs (b e : Z) : list (list Z) := flat_map evb (zseq b (Z.to_nat (e - b))).

Lemma evb_len k : 0 <= iv k -> Z.of_nat (length (evb k)) = iv k.
Proof. intros. unfold evb, zseq. rewrite !map_length, seq_length. lia. Qed.
Lemma iv_nonneg k : 0 <= k < V -> 0 <= iv k.
Proof. intros Hk. pose proof (Hsize k Hk). destruct (Z.eq_dec (size k) 0) as [E|E]; [rewrite iv_zero by assumption; lia|]. pose proof (iv_pos k). lia. Qed.

Lemma evbs_split b m e : b <= m <= e -> evbs b e = evbs b m ++ evbs m e.
Proof.
  intros Hm. unfold evbs. rewrite <- flat_map_app. f_equal.
  replace (Z.to_nat (e - b)) with (Z.to_nat (m - b) + Z.to_nat (e - m))%nat by lia. rewrite zseq_app. repeat f_equal. lia.
Qed.
Lemma evbs_one k : evbs k (k + 1) = evb k.
Proof. unfold evbs. replace (Z.to_nat (k + 1 - k)) with 1%nat by lia. unfold zseq. cbn [seq map flat_map]. rewrite app_nil_r. f_equal. lia. Qed.
Lemma evb_empty k : size k = 0 -> evb k = [].
Proof. intros E. unfold evb. rewrite iv_zero by assumption. reflexivity. Qed.
Lemma evbs_empty b e : (forall i, b <= i < e -> size i = 0) -> evbs b e = [].
Proof.
  intros Hz. unfold evbs. assert (forall l, (forall i, In i l -> size i = 0) -> flat_map evb l = []) as HL.
  { induction l as [|x l IH]; intros HI; [reflexivity|]. cbn [flat_map]. rewrite evb_empty, IH; [reflexivity|intros; apply HI; right; assumption|apply HI; left; reflexivity]. }
  apply HL. intros i Hi. apply zseq_In in Hi. apply Hz. lia.
Qed.

Lemma St_coord k q : bi_coord (St k q) = digits (sizes_of (Ei (size k))) q ++ mi_coord (mi_state n eb k).
Proof. unfold bi_coord, St, shift. rewrite mi_state_ne by apply Ei_ne. reflexivity. Qed.

Lemma app_inj_l {A} (a a' b b' : list A) : length a = length a' -> a ++ b = a' ++ b' -> a = a' /\ b = b'.
Proof.
  revert a'. induction a as [|x a IH]; intros [|y a'] L E; try discriminate; [auto|]. cbn in E. injection E as <- E.
  injection L as L. destruct (IH a' L E) as [-> ->]. auto.
Qed.

Lemma bins_coord_inj j k : 0 <= j -> 0 <= k -> mi_coord (mi_state n eb j) = mi_coord (mi_state n eb k) -> j = k.
Proof.
  intros Hj Hk E. pose proof (mi_eqb_state n eb j k Heb Hj Hk) as HX. unfold mi_eqb in HX. rewrite E, list_eqb_refl in HX.
  symmetry in HX. apply Z.eqb_eq in HX. assumption.
Qed.

Lemma coord_len k q : length (digits (sizes_of (Ei (size k))) q) = length (Ei 0).
Proof. rewrite digits_length. unfold sizes_of. rewrite map_length. apply Ei_len. Qed.

(** Where the block ends: at a bin [m] not before [e], or at the end. *)
Lemma Norm_coord e s : 0 <= e <= V -> Norm e s -> exists m c, e <= m <= V /\ bi_coord s = c ++ mi_coord (mi_state n eb m) /\ length c = length (Ei 0).
Proof.
  intros He [(k' & Hk' & Hz & Hs & ->)|[Hz [HM Hc]]].
  - exists k', (digits (sizes_of (Ei (size k'))) 0). split; [lia|]. split; [apply St_coord|apply coord_len].
  - exists V, (repeat 0 (length (Ei 0))). split; [lia|]. split; [unfold bi_coord; rewrite Hc; destruct HM as [Mb]; rewrite Mb; reflexivity|].
    apply repeat_length.
Qed.

Lemma not_reached k q e s : 0 <= k < e -> e <= V -> Norm e s -> bi_eqb (St k q) s = false /\ bi_same_chunk (St k q) s = false.
Proof.
  intros Hk He HN. destruct (Norm_coord e s ltac:(lia) HN) as (m & c & Hm & Ec & Lc).
  assert (bi_coord (St k q) <> bi_coord s) as N1.
  { rewrite St_coord, Ec. intros E. apply app_inj_l in E; [|rewrite coord_len; congruence]. destruct E as [_ E].
    apply bins_coord_inj in E; lia. }
  assert (tl (bi_coord (St k q)) <> tl (bi_coord s)) as N2.
  { rewrite St_coord, Ec. pose proof (coord_len k q) as Lq. destruct (digits _ q) as [|x dd]; [exfalso; cbn in Lq; pose proof (Ei_ne 0); destruct (Ei 0); [congruence|discriminate]|].
    destruct c as [|y cc]; [exfalso; cbn in Lc; pose proof (Ei_ne 0); destruct (Ei 0); [congruence|discriminate]|].
    cbn [app tl]. intros E. apply app_inj_l in E; [|cbn in Lq, Lc; lia]. destruct E as [_ E]. apply bins_coord_inj in E; lia. }
  unfold bi_eqb, bi_same_chunk. split; apply not_true_is_false; rewrite list_eqb_spec; assumption.
Qed.

Lemma Norm_unique k s s' : Norm k s -> Norm k s' -> bi_eqb s s' = true /\ (bs_at_end s = false -> s = s').
Proof.
  intros [(k1 & H1 & Z1 & S1 & ->)|[Z1 E1]] [(k2 & H2 & Z2 & S2 & ->)|[Z2 E2]].
  - assert (k1 = k2) as ->.
    { destruct (Z.lt_trichotomy k1 k2) as [Hl|[Hl|Hl]]; [|assumption|]; [specialize (Z2 k1 ltac:(lia))|specialize (Z1 k2 ltac:(lia))]; lia. }
    unfold bi_eqb. rewrite list_eqb_refl. auto.
  - exfalso. specialize (Z2 k1 ltac:(lia)). lia.
  - exfalso. specialize (Z1 k2 ltac:(lia)). lia.
  - split; [|intros E; rewrite (at_end_End _ E1) in E; discriminate]. destruct E1 as [M1 C1], E2 as [M2 C2]. unfold bi_eqb, bi_coord. rewrite C1, C2.
    destruct M1 as [B1], M2 as [B2]. rewrite B1, B2. apply list_eqb_refl.
Qed.

Lemma bpos_row k q i : 0 <= k < V -> 0 < size k -> 0 <= q -> 0 <= i ->
  match sizes_of (Ei (size k)) with m :: _ :: _ => q mod m + i < m | _ => True end ->
  vadd (bpos k q) (vscale i (hd [] (mi_stride (bs_in (St k q))))) = bpos k (q + i).
Proof.
  intros Hk Hs Hq Hi Hr. pose proof (HE _ Hs) as Hok. unfold bpos, St, shift. cbn [bs_in mi_data mi_stride].
  assert (length (mi_data (mi_state n (Ei (size k)) q)) = n) as L1 by (apply mi_data_length; assumption).
  assert (length (hd [] (mi_stride (mi_state n (Ei (size k)) q))) = n) as L2.
  { rewrite mi_state_ne by apply Ei_ne. cbn [mi_stride]. destruct Hok as [_ Hl]. pose proof (Ei_ne (size k)). destruct (Ei (size k)); [congruence|]. inversion Hl; assumption. }
  pose proof (Hbase k Hk) as Hbk.
  rewrite vadd_assoc by (rewrite ?vscale_length; congruence). f_equal. apply data_in_row; assumption.
Qed.

Lemma inner_bpos k q d : 0 <= k < V -> 0 < size k -> 0 <= q -> 0 <= d -> in_row (sizes_of (Ei (size k))) q d ->
  inner_positions (mi_data (bs_in (St k q))) (hd [] (mi_stride (bs_in (St k q)))) d = map (bpos k) (zseq q (Z.to_nat d)).
Proof.
  intros Hk Hs Hq Hd Hr. unfold inner_positions. rewrite (zseq_shift q), map_map. apply map_ext_in. intros i Hi. apply zseq_In in Hi.
  apply bpos_row; try assumption; [lia|]. destruct (sizes_of _) as [|m [|m' sh]]; [exact I|exact I|]. cbn in Hr. lia.
Qed.

Lemma row_rest k q : 0 < size k -> 0 <= q < iv k ->
  let d := mi_dist_end (bs_in (St k q)) in 0 < d /\ q + d <= iv k /\ in_row (sizes_of (Ei (size k))) q d.
Proof.
  intros Hs Hq d. pose proof (HE _ Hs) as [Hp _]. unfold d, mi_dist_end, St, shift. cbn [bs_in mi_shape mi_coord].
  rewrite mi_state_ne by apply Ei_ne. cbn [mi_shape mi_coord]. unfold iv, evol in *.
  destruct (sizes_of (Ei (size k))) as [|m [|m' sh]] eqn:Es.
  - apply (f_equal (@length Z)) in Es. unfold sizes_of in Es. rewrite map_length in Es. destruct (Ei (size k)) eqn:E2; [exfalso; apply (Ei_ne _ E2)|discriminate].
  - cbn [digits hd in_row vol] in *. lia.
  - rewrite digits_cons. cbn [hd in_row]. apply Forall_cons_iff in Hp as [Hm Hp]. pose proof (Z.mod_pos_bound q m Hm) as Hb.
    pose proof (Z.div_mod q m ltac:(lia)) as Hdm. change (vol (m :: m' :: sh)) with (m * vol (m' :: sh)) in *.
    assert (q / m < vol (m' :: sh)) by (apply Z.div_lt_upper_bound; lia). split; [lia|]. split; [nia|lia].
Qed.

Lemma bi_run_ok fuel : forall k q e s2, 0 <= k < e -> e <= V -> 0 < size k -> 0 <= q < iv k -> Norm e s2 ->
  iv k - q + Z.of_nat (length (evbs (k + 1) e)) <= Z.of_nat fuel ->
  bi_run fuel (St k q) s2 = Ok (map (bpos k) (zseq q (Z.to_nat (iv k - q))) ++ evbs (k + 1) e).
Proof.
  induction fuel as [|fuel IH]; intros k q e s2 Hk He Hs Hq HN Hf; [lia|]. cbn [bi_run].
  destruct (not_reached k q e s2 Hk He HN) as [-> ->].
  destruct (row_rest k q Hs Hq) as (Hd & Hle & Hr). set (d := mi_dist_end (bs_in (St k q))) in *.
  assert (d =? 0 = false) as -> by lia.
  destruct (St_increment k q d ltac:(lia) Hs ltac:(lia) Hd Hr Hle) as (s' & Es & Hs'). rewrite Es. cbn [bind].
  rewrite inner_bpos by (assumption || lia).
  destruct (Z.eqb_spec (q + d) (iv k)) as [E|E].
  - replace (Z.to_nat (iv k - q)) with (Z.to_nat d) by lia.
    assert (bi_run fuel s' s2 = Ok (evbs (k + 1) e)) as ->; [|reflexivity].
    assert (Norm e s' -> evbs (k + 1) e = [] -> bi_run fuel s' s2 = Ok (evbs (k + 1) e)) as Hdone.
    { intros HN' E0. rewrite E0. destruct (Norm_unique e s' s2 HN' HN) as [E1 _]. destruct fuel; cbn [bi_run]; rewrite E1; reflexivity. }
    destruct Hs' as [(k' & Hk' & Hz & Sk' & ->)|[Hz HE']].
    + destruct (Z.lt_ge_cases k' e) as [Hlt|Hge].
      * assert (evbs (k + 1) e = evb k' ++ evbs (k' + 1) e) as Eev.
        { rewrite (evbs_split (k + 1) k' e) by lia. rewrite (evbs_empty (k + 1) k') by assumption. cbn [app].
          rewrite (evbs_split k' (k' + 1) e) by lia. rewrite evbs_one. reflexivity. }
        pose proof (iv_pos k' Sk') as Hivp.
        rewrite Eev in *. rewrite app_length, Nat2Z.inj_add, evb_len in Hf by lia.
        rewrite (IH k' 0 e s2); [|lia|assumption|assumption|lia|assumption|lia].
        rewrite Z.sub_0_r. reflexivity.
      * apply Hdone.
        -- left. exists k'. split; [lia|]. split; [intros; apply Hz; lia|auto].
        -- apply evbs_empty. intros; apply Hz; lia.
    + apply Hdone; [|apply evbs_empty; intros; apply Hz; lia]. right. split; [intros; apply Hz; lia|assumption].
  - subst s'. rewrite (IH k (q + d) e s2); [|assumption|assumption|assumption|lia|assumption|lia].
    cbn [bind]. rewrite app_assoc. rewrite <- map_app. do 4 f_equal.
    replace (Z.to_nat (iv k - q)) with (Z.to_nat d + Z.to_nat (iv k - (q + d)))%nat by lia. rewrite zseq_app. repeat f_equal. lia.
Qed.

Lemma bi_run_norm fuel b e s1 s2 : 0 <= b <= e -> e <= V -> Norm b s1 -> Norm e s2 ->
  Z.of_nat (length (evbs b e)) <= Z.of_nat fuel -> bi_run fuel s1 s2 = Ok (evbs b e).
Proof.
  intros Hb He N1 N2 Hf.
  assert (Norm e s1 -> evbs b e = [] -> bi_run fuel s1 s2 = Ok (evbs b e)) as Hdone.
  { intros HN' E0. rewrite E0. destruct (Norm_unique e s1 s2 HN' N2) as [E1 _]. destruct fuel; cbn [bi_run]; rewrite E1; reflexivity. }
  destruct N1 as [(k' & Hk' & Hz & Sk' & E1)|[Hz HE']].
  - destruct (Z.lt_ge_cases k' e) as [Hlt|Hge].
    + assert (evbs b e = evb k' ++ evbs (k' + 1) e) as Eev.
      { rewrite (evbs_split b k' e) by lia. rewrite (evbs_empty b k') by assumption. cbn [app].
        rewrite (evbs_split k' (k' + 1) e) by lia. rewrite evbs_one. reflexivity. }
      pose proof (iv_pos k' Sk') as Hivp. rewrite Eev in *. rewrite app_length, Nat2Z.inj_add, evb_len in Hf by lia.
      subst s1. rewrite (bi_run_ok fuel k' 0 e s2); [|lia|assumption|assumption|lia|assumption|lia].
      rewrite Z.sub_0_r. reflexivity.
    + apply Hdone.
      * left. exists k'. split; [lia|]. split; [intros; apply Hz; lia|auto].
      * apply evbs_empty. intros; apply Hz; lia.
  - apply Hdone; [|apply evbs_empty; intros; apply Hz; lia]. right. split; [intros; apply Hz; lia|assumption].
Qed.

Lemma bi_block_norm fuel j s b e : Mid s j -> 0 <= j -> 0 <= b <= e -> e <= V ->
  Z.of_nat (length (evbs b e)) <= Z.of_nat fuel -> bi_block fuel s b e = Ok (evbs b e).
Proof.
  intros HM Hj Hb He Hf. unfold bi_block.
  destruct (set_index_ok s j b HM Hj ltac:(lia)) as (s1 & E1 & N1). destruct (set_index_ok s j e HM Hj ltac:(lia)) as (s2 & E2 & N2).
  rewrite E1, E2. cbn [bind]. apply bi_run_norm; assumption.
Qed.

(** ** Single increments *)
Definition At (b : Z) (p : Z) (s : bstate) : Prop :=
  (exists k q, b <= k < V /\ 0 < size k /\ 0 <= q < iv k /\ s = St k q /\ p = Z.of_nat (length (evbs b k)) + q) \/
  (p = Z.of_nat (length (evbs b V)) /\ EndS s).

Lemma Norm_At b e s : 0 <= b <= e -> e <= V -> Norm e s -> At b (Z.of_nat (length (evbs b e))) s.
Proof.
  intros Hb He [(k' & Hk' & Hz & Sk' & ->)|[Hz HE']].
  - left. exists k', 0. split; [lia|]. split; [assumption|]. split; [pose proof (iv_pos k' Sk'); lia|]. split; [reflexivity|].
    rewrite (evbs_split b e k') by lia. rewrite (evbs_empty e k') by assumption. rewrite app_nil_r. lia.
  - right. split; [|assumption]. rewrite (evbs_split b e V) by lia. rewrite (evbs_empty e V) by assumption. rewrite app_nil_r. reflexivity.
Qed.

Lemma in_row_1 k q : 0 < size k -> 0 <= q -> in_row (sizes_of (Ei (size k))) q 1.
Proof.
  intros Hs Hq. pose proof (HE _ Hs) as [Hp _]. destruct (sizes_of _) as [|m [|m' sh]]; [exact I|exact I|]. cbn.
  apply Forall_cons_iff in Hp as [Hm _]. pose proof (Z.mod_pos_bound q m Hm). lia.
Qed.

Lemma evbs_len_lt b k : 0 <= b <= k -> k < V -> Z.of_nat (length (evbs b V)) = Z.of_nat (length (evbs b k)) + iv k + Z.of_nat (length (evbs (k + 1) V)).
Proof.
  intros Hb Hk. rewrite (evbs_split b k V) by lia. rewrite (evbs_split k (k + 1) V) by lia. rewrite evbs_one, !app_length.
  rewrite !Nat2Z.inj_add, evb_len by (apply iv_nonneg; lia). lia.
Qed.

Lemma At_step b p s : 0 <= b -> p < Z.of_nat (length (evbs b V)) -> At b p s -> exists s', bi_increment s = Ok s' /\ At b (p + 1) s'.
Proof.
  intros Hb Hp [(k & q & Hk & Hs & Hq & -> & Ep)|[Ep _]]; [|lia].
  destruct (St_increment k q 1 ltac:(lia) Hs ltac:(lia) ltac:(lia) (in_row_1 k q Hs ltac:(lia)) ltac:(lia)) as (s' & Es & Hs').
  exists s'. split; [exact Es|]. destruct (Z.eqb_spec (q + 1) (iv k)) as [E|E].
  - assert (p + 1 = Z.of_nat (length (evbs b (k + 1)))) as ->.
    { rewrite (evbs_split b k (k + 1)) by lia. rewrite evbs_one, app_length, Nat2Z.inj_add, evb_len by lia. lia. }
    apply Norm_At; [lia|lia|assumption].
  - left. exists k, (q + 1). split; [lia|]. split; [assumption|]. split; [lia|]. split; [assumption|lia].
Qed.

Lemma At_increments b m : forall p s, 0 <= b -> p + Z.of_nat m <= Z.of_nat (length (evbs b V)) -> At b p s ->
  exists s', increments m s = Ok s' /\ At b (p + Z.of_nat m) s'.
Proof.
  induction m as [|m IH]; intros p s Hb Hp HA; cbn [increments]; [exists s; split; [reflexivity|replace (p + Z.of_nat 0) with p by lia; assumption]|].
  destruct (At_step b p s Hb ltac:(lia) HA) as (s1 & E1 & A1). rewrite E1. cbn [bind].
  destruct (IH (p + 1) s1 Hb ltac:(lia) A1) as (s2 & E2 & A2). exists s2. split; [assumption|].
  replace (p + Z.of_nat (S m)) with (p + 1 + Z.of_nat m) by lia. assumption.
Qed.

Lemma At_data b p s : 0 <= b <= V -> At b p s -> p < Z.of_nat (length (evbs b V)) -> mi_data (bs_in s) = nth (Z.to_nat p) (evbs b V) [].
Proof.
  intros Hb [(k & q & Hk & Hs & Hq & -> & Ep)|[Ep _]] Hp; [|lia].
  rewrite (evbs_split b k V) by lia. rewrite (evbs_split k (k + 1) V) by lia. rewrite evbs_one.
  rewrite app_nth2 by lia. replace (Z.to_nat p - length (evbs b k))%nat with (Z.to_nat q) by lia.
  assert (length (evb k) = Z.to_nat (iv k)) as Lk by (unfold evb, zseq; rewrite !map_length, seq_length; reflexivity).
  rewrite app_nth1 by lia. unfold evb, zseq. rewrite map_map.
  rewrite (nth_indep _ _ (bpos k (0 + Z.of_nat 0))) by (rewrite map_length, seq_length; lia).
  rewrite (map_nth (fun x => bpos k (0 + Z.of_nat x))), seq_nth by lia. unfold bpos. repeat f_equal. lia.
Qed.

Lemma At_unique b p s s' : 0 <= b -> At b p s -> At b p s' -> bi_eqb s s' = true /\ (bs_at_end s = false -> s = s').
Proof.
  intros Hb [(k & q & Hk & Hs & Hq & -> & Ep)|[Ep E1]] [(k' & q' & Hk' & Hs' & Hq' & -> & Ep')|[Ep' E1']].
  - assert (k = k') as <-.
    { destruct (Z.lt_trichotomy k k') as [Hl|[Hl|Hl]]; [|assumption|].
      - rewrite (evbs_split b (k + 1) k') in Ep' by lia. rewrite (evbs_split b k (k + 1)), evbs_one, !app_length in Ep' by lia.
        rewrite !Nat2Z.inj_add, evb_len in Ep' by lia. lia.
      - rewrite (evbs_split b (k' + 1) k) in Ep by lia. rewrite (evbs_split b k' (k' + 1)), evbs_one, !app_length in Ep by lia.
        rewrite !Nat2Z.inj_add, evb_len in Ep by lia. lia. }
    assert (q = q') as <- by lia. unfold bi_eqb. rewrite list_eqb_refl. auto.
  - rewrite (evbs_len_lt b k) in Ep' by lia. lia.
  - rewrite (evbs_len_lt b k') in Ep by lia. lia.
  - split; [|intros E; rewrite (at_end_End _ E1) in E; discriminate]. destruct E1 as [M1 C1], E1' as [M2 C2]. unfold bi_eqb, bi_coord. rewrite C1, C2.
    destruct M1 as [B1], M2 as [B2]. rewrite B1, B2. apply list_eqb_refl.
Qed.
End Run.

(** ** Construction: flattening *)
Lemma flatten_shift cap nf l : forall sfc d acc, flatten_dims cap nf sfc d l acc = flatten_dims cap 0 sfc (d - nf) l acc.
Proof.
  induction l as [|e l IH]; intros sfc d acc; [reflexivity|]. cbn [flatten_dims].
  assert ((d >? nf) = (d - nf >? 0)) as -> by lia. replace (d - nf - 1) with (d - 1 - nf) by lia.
  destruct (cap <=? length acc)%nat; [reflexivity|].
  match goal with |- (let (_, _) := ?c in _) = _ => destruct c as [flat sfc'] end.
  destruct flat; destruct acc; rewrite IH; reflexivity.
Qed.

Lemma flatten_raw cap nf l : forall sfc d acc, d <= nf -> (length acc + length l <= cap)%nat ->
  flatten_dims cap nf sfc d l acc = Ok (rev acc ++ l).
Proof.
  induction l as [|e l IH]; intros sfc d acc Hd Hc; cbn [flatten_dims].
  - rewrite app_nil_r. reflexivity.
  - cbn [length] in Hc. destruct (Nat.leb_spec cap (length acc)); [lia|].
    assert (d >? nf = false) as -> by lia. cbn [andb].
    destruct acc; rewrite IH by (cbn [length] in *; lia); cbn [rev]; rewrite <- ?app_assoc; reflexivity.
Qed.

Lemma flatten_cap_ok cap nf l : forall sfc d acc es, flatten_dims cap nf sfc d l acc = Ok es ->
  (length es <= Nat.max cap (length acc))%nat.
Proof.
  induction l as [|e l IH]; intros sfc d acc es HE; cbn [flatten_dims] in HE.
  - injection HE as <-. rewrite rev_length. lia.
  - destruct (Nat.leb_spec cap (length acc)); [discriminate|].
    match type of HE with (let (_, _) := ?c in _) = _ => destruct c as [flat sfc'] end.
    destruct flat; destruct acc; apply IH in HE; cbn [length] in *; lia.
Qed.

Lemma flatten_app cap nf l2 l1 : forall sfc d acc es, d - zlen l1 <= nf ->
  flatten_dims cap nf sfc d (l1 ++ l2) acc = Ok es ->
  exists es1, flatten_dims cap nf sfc d l1 acc = Ok es1 /\ es = es1 ++ l2 /\ (l2 <> [] -> length es1 + length l2 <= cap)%nat.
Proof.
  induction l1 as [|e l1 IH]; intros sfc d acc es Hd HE.
  - cbn [app] in HE. exists (rev acc). cbn [flatten_dims]. split; [reflexivity|].
    pose proof HE as HE'. apply flatten_stop in HE'; [|unfold zlen in Hd; cbn in Hd; lia]. subst es. split; [reflexivity|].
    intros Hne. apply flatten_cap_ok in HE. rewrite app_length, rev_length in *. destruct l2; [congruence|]. cbn [length] in *. lia.
  - cbn [app] in HE. cbn [flatten_dims] in *. destruct (cap <=? length acc)%nat; [discriminate|].
    match type of HE with (let (_, _) := ?c in _) = _ => destruct c as [flat sfc'] end.
    unfold zlen in Hd. cbn [length] in Hd.
    destruct flat; destruct acc; apply IH in HE; try exact HE; unfold zlen; lia.
Qed.

Lemma flatten_app_rev cap nf l2 l1 : forall sfc d acc es1, d - zlen l1 <= nf ->
  flatten_dims cap nf sfc d l1 acc = Ok es1 -> (length es1 + length l2 <= cap)%nat ->
  flatten_dims cap nf sfc d (l1 ++ l2) acc = Ok (es1 ++ l2).
Proof.
  induction l1 as [|e l1 IH]; intros sfc d acc es1 Hd HE Hc.
  - cbn [flatten_dims] in HE. injection HE as <-. cbn [app]. apply flatten_raw; [unfold zlen in Hd; cbn in Hd; lia|]. rewrite rev_length in Hc. assumption.
  - cbn [app flatten_dims] in *. destruct (cap <=? length acc)%nat; [discriminate|].
    match type of HE with (let (_, _) := ?c in _) = _ => destruct c as [flat sfc'] end.
    unfold zlen in Hd. cbn [length] in Hd.
    destruct flat; destruct acc; (apply IH; [unfold zlen; lia|assumption|assumption]).
Qed.

Lemma flatten_mono cap cap' nf l : (cap <= cap')%nat -> forall sfc d acc es,
  flatten_dims cap nf sfc d l acc = Ok es -> flatten_dims cap' nf sfc d l acc = Ok es.
Proof.
  intros Hc. induction l as [|e l IH]; intros sfc d acc es HE; cbn [flatten_dims] in *; [assumption|].
  destruct (Nat.leb_spec cap (length acc)); [discriminate|]. destruct (Nat.leb_spec cap' (length acc)); [lia|].
  match type of HE with (let (_, _) := ?c in _) = _ => destruct c as [flat sfc'] end.
  destruct flat; destruct acc; apply IH; assumption.
Qed.

Lemma flatten_lens n cap nf l : forall sfc d acc es, flatten_dims cap nf sfc d l acc = Ok es ->
  lens n (strides_of_e acc) -> lens n (strides_of_e l) -> lens n (strides_of_e es).
Proof.
  induction l as [|e l IH]; intros sfc d acc es HE Ha Hl; cbn [flatten_dims] in HE.
  - injection HE as <-. unfold strides_of_e. rewrite map_rev. apply Forall_rev. assumption.
  - apply Forall_cons_iff in Hl as [He Hl']. destruct (cap <=? length acc)%nat; [discriminate|].
    match type of HE with (let (_, _) := ?c in _) = _ => destruct c as [flat sfc'] end.
    destruct acc as [|a acc]; [destruct flat; eapply IH; try eassumption; constructor; (assumption || constructor)|].
    destruct flat; eapply IH; try eassumption; try (constructor; assumption).
Qed.

Lemma mod_mul_div q n m : 0 < n -> 0 < m -> (q mod (n * m)) mod n = q mod n /\ (q mod (n * m)) / n = (q / n) mod m.
Proof.
  intros Hn Hm. rewrite Z.rem_mul_r by lia. split.
  - rewrite Z.mul_comm, Z.mod_add, Z.mod_mod by lia. reflexivity.
  - rewrite Z.mul_comm, Z.div_add by lia. rewrite (Z.div_small (q mod n)) by (apply Z.mod_pos_bound; assumption). lia.
Qed.

Lemma evs_app stA shA : forall stR shR k, length stA = length shA -> pos shA -> shA <> [] -> shR <> [] -> 
  evs (stA ++ stR) (shA ++ shR) k = evs stA shA (k mod vol shA) + evs stR shR (k / vol shA).
Proof.
  revert stA. induction shA as [|n shA IH]; intros stA stR shR k Hl Hp Hne HR; [congruence|].
  destruct stA as [|s stA]; [discriminate|]. injection Hl as Hl. apply Forall_cons_iff in Hp as [Hn Hp].
  cbn [app]. rewrite evs_cons by (destruct shA; [assumption|discriminate]).
  destruct shA as [|m shA].
  - destruct stA; [|discriminate]. cbn [app]. rewrite evs_one. cbn [vol]. rewrite Z.mul_1_r. reflexivity.
  - rewrite IH by (assumption || discriminate).
    rewrite (evs_cons s stA n (m :: shA)) by discriminate.
    change (vol (n :: m :: shA)) with (n * vol (m :: shA)).
    destruct (mod_mul_div k n (vol (m :: shA)) Hn (pos_vol _ Hp)) as [E1 E2]. rewrite E1, E2.
    rewrite Z.div_div by (pose proof (pos_vol _ Hp); lia). lia.
Qed.

Lemma evj_app n j A B R : es_ok n A -> es_ok n B -> A <> [] -> B <> [] -> evol A = evol B ->
  (forall k, 0 <= k -> evj j A k = evj j B k) -> forall k, 0 <= k -> evj j (A ++ R) k = evj j (B ++ R) k.
Proof.
  intros [HpA HlA] [HpB HlB] NA NB EV HE k Hk. destruct R as [|r R]; [rewrite !app_nil_r; auto|].
  unfold evj in *. rewrite !sizes_app, !strides_app. unfold colj in *. rewrite !map_app.
  assert (forall es : list mentry, es <> [] -> sizes_of es <> []) as Hne by (intros [|] Hx; [congruence|discriminate]).
  rewrite !evs_app; try assumption; try (apply Hne; assumption); try discriminate.
  - fold (evol A) (evol B). rewrite EV. f_equal. apply HE. apply Z.mod_pos_bound. apply pos_vol. assumption.
  - unfold strides_of_e, sizes_of. rewrite !map_length. reflexivity.
  - unfold strides_of_e, sizes_of. rewrite !map_length. reflexivity.
Qed.

(** ** Construction: the dimensions inside the bins *)
Lemma event_nth inner idx x i : (idx < length inner)%nat -> nth i (event_shape inner idx x) 0 = if (i =? idx)%nat then x else nth i inner 0.
Proof.
  intros Hi. unfold event_shape. assert (length (firstn idx inner) = idx) as L by (rewrite firstn_length; lia).
  destruct (Nat.lt_trichotomy i idx) as [Hlt|[->|Hgt]].
  - rewrite app_nth1 by lia. destruct (Nat.eqb_spec i idx); [lia|]. 
    rewrite <- (firstn_skipn idx inner) at 2. rewrite app_nth1 by lia. reflexivity.
  - rewrite app_nth2, L, Nat.sub_diag, Nat.eqb_refl by lia. reflexivity.
  - rewrite app_nth2, L by lia. destruct (Nat.eqb_spec i idx); [lia|].
    rewrite <- (firstn_skipn (S idx) inner) at 2. rewrite app_nth2; rewrite firstn_length; [|lia].
    replace (i - idx)%nat with (S (i - S idx)) by lia. cbn [nth]. f_equal. lia.
Qed.
Lemma event_len inner idx x : (idx < length inner)%nat -> length (event_shape inner idx x) = length inner.
Proof. intros Hi. unfold event_shape. rewrite app_length, firstn_length. cbn [length]. rewrite skipn_length. lia. Qed.
Lemma event_pos_shape inner idx x : 0 < x -> pos (event_shape inner idx 1) -> pos (event_shape inner idx x).
Proof.
  unfold event_shape, pos. rewrite !Forall_app, !Forall_cons_iff. tauto.
Qed.

Lemma seq_add s n : seq s n = map (fun i => (s + i)%nat) (seq 0 n).
Proof.
  revert s. induction n as [|n IH]; intros s; [reflexivity|]. cbn [seq map]. rewrite Nat.add_0_r. f_equal.
  rewrite (IH (S s)), (IH 1%nat), map_map. apply map_ext. intros. lia.
Qed.
Lemma nth_skipn_z (l : list Z) d i : nth i (skipn d l) 0 = nth (d + i) l 0.
Proof. revert l. induction d as [|d IH]; intros [|x l]; [reflexivity|reflexivity|destruct i; reflexivity|]. cbn [skipn plus nth]. apply IH. Qed.

Lemma rev_entries_split sh sts idx : (idx <= length sh)%nat ->
  rev (iter_entries sh sts) = rev (iter_entries (skipn idx sh) (map (skipn idx) sts)) ++ map (ent sh sts) (rev (seq 0 idx)).
Proof.
  intros Hi. rewrite !iter_entries_eq, map_rev, <- rev_app_distr. f_equal.
  rewrite skipn_length. replace (length sh) with (idx + (length sh - idx))%nat at 1 by lia. rewrite seq_app, map_app. f_equal.
  cbn [plus]. rewrite (seq_add idx), map_map. apply map_ext. intros i. unfold ent. rewrite nth_skipn_z. f_equal.
  rewrite map_map. apply map_ext. intros st. unfold stride_at. symmetry. apply nth_skipn_z.
Qed.

Lemma entries_cons s sh sts : rev (iter_entries (s :: sh) sts) =
  map (fun i => mkmentry (nth i sh 0) (map (stride_at (S i)) sts)) (rev (seq 0 (length sh))) ++ [mkmentry s (map (stride_at 0) sts)].
Proof.
  rewrite iter_entries_eq. cbn [length seq map rev]. f_equal. rewrite <- seq_shift, map_map, <- map_rev. apply map_ext. intros i. reflexivity.
Qed.

Lemma skipn_event inner idx x : (idx < length inner)%nat -> skipn idx (event_shape inner idx x) = x :: skipn (S idx) inner.
Proof.
  intros Hi. unfold event_shape. rewrite skipn_app, skipn_all2 by (rewrite firstn_length; lia).
  rewrite firstn_length. replace (idx - Nat.min idx (length inner))%nat with 0%nat by lia. reflexivity.
Qed.

Lemma flattening_head x y sh sts : flattening_safe (x :: sh) sts -> flattening_safe (y :: sh) sts.
Proof.
  unfold flattening_safe. cbn [length]. intros [Hs|Hs]; [left; assumption|right]. intros d Hd Hz. specialize (Hs d Hd Hz).
  destruct d; [lia|exact Hs].
Qed.

Lemma inner_make inner idx sts ei : (idx < length inner)%nat -> pos (event_shape inner idx 1) ->
  Forall (fun st => length st = length inner) sts ->
  flattening_safe (skipn idx inner) (map (skipn idx) sts) ->
  flatten_dims NDIM_OP_MAX (Z.of_nat idx) (vzero (length sts)) (zlen inner - 1) (rev (iter_entries inner sts)) [] = Ok ei ->
  exists PI QO, ei = Ei PI QO (map (stride_at idx) sts) (nth idx inner 0) /\ length QO = idx /\
    forall x, 0 < x -> es_ok (length sts) (Ei PI QO (map (stride_at idx) sts) x) /\
      evol (Ei PI QO (map (stride_at idx) sts) x) = vol (event_shape inner idx x) /\
      forall j i, (j < length sts)%nat -> 0 <= i ->
        evj j (Ei PI QO (map (stride_at idx) sts) x) i = address (event_shape inner idx x) (nth j sts []) i.
Proof.
  intros Hi Hp Hl Hs HF. set (n := length sts) in *.
  rewrite (rev_entries_split inner sts idx) in HF by lia. set (QO := map (ent inner sts) (rev (seq 0 idx))) in *.
  assert (skipn idx inner = nth idx inner 0 :: skipn (S idx) inner) as Esk.
  { clear -Hi. revert inner Hi. induction idx as [|idx IH]; intros [|a inner] Hi; cbn in Hi; try lia; [reflexivity|]. cbn [skipn nth]. apply IH. lia. }
  set (sub := skipn (S idx) inner) in *. set (ssts := map (skipn idx) sts) in *.
  assert (map (stride_at 0) ssts = map (stride_at idx) sts) as Est.
  { unfold ssts. rewrite map_map. apply map_ext. intros st. unfold stride_at. rewrite nth_skipn_z. f_equal. lia. }
  set (A := map (fun i => mkmentry (nth i sub 0) (map (stride_at (S i)) ssts)) (rev (seq 0 (length sub)))).
  assert (forall x, rev (iter_entries (x :: sub) ssts) = A ++ [mkmentry x (map (stride_at idx) sts)]) as EA.
  { intros x. rewrite entries_cons, Est. reflexivity. }
  rewrite Esk, EA in HF. rewrite <- app_assoc in HF. cbn [app] in HF.
  assert (zlen A = zlen inner - 1 - Z.of_nat idx) as LA.
  { unfold A, zlen. rewrite map_length, rev_length, seq_length. unfold sub. rewrite skipn_length. lia. }
  rewrite flatten_shift in HF. apply flatten_app in HF; [|lia]. destruct HF as (PI & HPI & -> & Hcap).
  specialize (Hcap ltac:(discriminate)). cbn [length] in Hcap.
  exists PI, QO. split; [reflexivity|]. split; [unfold QO; rewrite map_length, rev_length, seq_length; reflexivity|].
  intros x Hx. pose proof (event_pos_shape inner idx x Hx Hp) as Hpx.
  assert (pos (x :: sub)) as Hps.
  { unfold event_shape, pos in Hpx. apply Forall_app in Hpx as [_ Hpx]. exact Hpx. }
  assert (length ssts = n) as Lss by (unfold ssts; apply map_length).
  (* the innermost dimensions, as if they were alone *)
  assert (mi_make (x :: sub) ssts = Ok (mi_of_entries n (PI ++ [mkmentry x (map (stride_at idx) sts)]))) as Hmk.
  { unfold mi_make. rewrite EA, Lss. 
    assert (zlen (x :: sub) - 1 = zlen inner - 1 - Z.of_nat idx) as -> by (rewrite <- LA; unfold A, zlen; rewrite map_length, rev_length, seq_length; cbn [length]; lia).
    rewrite (flatten_app_rev _ _ [mkmentry x (map (stride_at idx) sts)] A _ _ _ PI); [reflexivity|lia|exact HPI|cbn [length]; lia]. }
  assert (Forall (fun st => length st = length (x :: sub)) ssts) as Hls.
  { unfold ssts. apply Forall_map, Forall_forall. intros st Hst. rewrite Forall_forall in Hl. rewrite skipn_length, (Hl st Hst).
    unfold sub. cbn [length]. rewrite skipn_length. lia. }
  assert (flattening_safe (x :: sub) ssts) as Hsx by (rewrite Esk in Hs; eapply flattening_head; exact Hs).
  destruct (mi_make_good _ _ _ Hps Hls Hmk Hsx) as (es & Ees & Hok & Hv & Hd). rewrite Lss in *.
  assert (es = PI ++ [mkmentry x (map (stride_at idx) sts)]) as ->.
  { set (e0 := PI ++ _) in *. assert (e0 <> []) as N0 by (unfold e0; destruct PI; discriminate).
    assert (es_ok n e0) as Hok0.
    { apply (flatten_es_ok n NDIM_OP_MAX 0 (A ++ [mkmentry x (map (stride_at idx) sts)]) (vzero n) (zlen inner - 1 - Z.of_nat idx) []).
      - apply flatten_app_rev; [lia|exact HPI|cbn [length]; lia].
      - split; constructor.
      - rewrite <- EA. rewrite <- Lss. apply es_ok_rev, entries_ok. assumption. }
    rewrite mi_begin in Ees by assumption. rewrite mi_state_ne in Ees by assumption.
    destruct es as [|e es]; [apply (f_equal mi_ndim) in Ees; cbn in Ees; destruct e0; [congruence|discriminate]|]. rewrite mi_state_ne in Ees by discriminate.
    injection Ees as _ _ E1 E2 _. clear -E1 E2. revert e es E1 E2.
    assert (forall a b : list mentry, sizes_of a = sizes_of b -> strides_of_e a = strides_of_e b -> a = b) as HX.
    { induction a as [|[s t] a IH]; intros [|[s' t'] b] Ea Eb; try discriminate; [reflexivity|].
      cbn in Ea, Eb. injection Ea as -> Ea. injection Eb as -> Eb. f_equal. apply IH; assumption. }
    intros e es E1 E2. symmetry. apply HX; [exact E1|exact E2]. }
  assert (es_ok n QO) as HQ.
  { assert (es_ok n (rev (iter_entries (event_shape inner idx x) sts))) as H0 by (apply es_ok_rev, entries_ok; assumption).
    rewrite (rev_entries_split _ sts idx) in H0 by (rewrite event_len; lia). apply es_ok_app in H0 as [_ H0].
    assert (QO = map (ent (event_shape inner idx x) sts) (rev (seq 0 idx))) as ->; [|exact H0].
    unfold QO. apply map_ext_in. intros i Hin. apply in_rev, in_seq in Hin. unfold ent. rewrite event_nth by assumption.
    destruct (Nat.eqb_spec i idx); [lia|reflexivity]. }
  assert (Ei PI QO (map (stride_at idx) sts) x = (PI ++ [mkmentry x (map (stride_at idx) sts)]) ++ QO) as EE.
  { unfold Ei. rewrite <- app_assoc. reflexivity. }
  rewrite EE.
  assert (rev (iter_entries (event_shape inner idx x) sts) = rev (iter_entries (x :: sub) ssts) ++ QO) as Efull.
  { rewrite (rev_entries_split _ sts idx) by (rewrite event_len; lia). rewrite skipn_event by assumption. f_equal.
    unfold QO. apply map_ext_in. intros i Hin. apply in_rev, in_seq in Hin. unfold ent. rewrite event_nth by assumption.
    destruct (Nat.eqb_spec i idx); [lia|reflexivity]. }
  split; [apply es_ok_app; auto|]. split.
  - unfold evol in *. rewrite sizes_app, vol_app, Hv.
    unfold event_shape. rewrite vol_app. rewrite Z.mul_comm. f_equal.
    unfold QO, sizes_of. rewrite map_map. cbn [ent me_size]. rewrite map_rev, vol_rev. f_equal.
    rewrite <- (nth_seq_self (firstn idx inner)). rewrite firstn_length. replace (Nat.min idx (length inner)) with idx by lia.
    apply map_ext_in. intros i Hin. apply in_seq in Hin. rewrite <- (firstn_skipn idx inner) at 1. rewrite app_nth1 by (rewrite firstn_length; lia). reflexivity.
  - intros j i Hj Hii. rewrite <- entries_evj; [|assumption| |assumption|assumption].
    2:{ rewrite event_len by assumption. assumption. }
    rewrite Efull. apply (evj_app n); try assumption.
    + rewrite <- Lss. apply es_ok_rev, entries_ok. assumption.
    + destruct PI; discriminate.
    + rewrite EA. destruct A; discriminate.
    + rewrite Hv. unfold evol, sizes_of. rewrite map_rev, vol_rev, iter_entries_eq, map_map. cbn [ent me_size]. rewrite nth_seq_self. reflexivity.
    + intros k Hk. rewrite <- (mi_data_evj n) by assumption. rewrite Hd by assumption.
      rewrite nth_addresses by (rewrite Lss; assumption). symmetry. apply entries_evj; [assumption|assumption|assumption|rewrite Lss; assumption].
Qed.
