(** Proofs for the assignment to slices. *)
From Verif Require Import Base Map_Model Map_Spec Dims_Model Dims_Spec Dims_Proofs Index_Model Index_Spec Index_Proofs
  View_Model View_Spec View_Proofs Transform_Model Transform_Spec Machine_Proofs Transform_Proofs Sharing_Proofs DsArith_Proofs SizedDict_Model SizedDict_Spec SizedDict_Proofs
  Equality_Model Equality_Spec Equality_Proofs Union_Model Union_Spec Union_Proofs Dataset_Model Dataset_Spec Dataset_Proofs
  SetSlice_Model SetSlice_Spec.

(** ** Coords *)
Lemma superset_dec st a (lb : list (Z * item)) : dict_comparable a -> (forall k j, In (k, j) lb -> comparable j) ->
  let ok := forall k j, In (k, j) lb -> i_aligned j = true -> exists i, In (k, i) (sd_list a) /\ (i_aligned i = true -> var_same false st i j) in ok \/ ~ ok.
Proof.
  intros Ha. induction lb as [|[k x] lb IH]; intros Hc ok; [left; intros ? ? []|].
  destruct IH as [Y|N]; [intros k' j J; apply (Hc k'); right; exact J| |right; intros O; apply N; intros k' j J; apply O; right; exact J].
  assert (D : (i_aligned x = true -> exists i, In (k, i) (sd_list a) /\ (i_aligned i = true -> var_same false st i x)) \/
             ~ (i_aligned x = true -> exists i, In (k, i) (sd_list a) /\ (i_aligned i = true -> var_same false st i x))).
  { destruct (i_aligned x); [|left; discriminate]. destruct (lookup a k Ha) as [[_ No]|(i & _ & _ & Hi & Ci & U)].
    - right. intros Q. destruct (Q eq_refl) as (i & I & _). exact (No i I).
    - destruct (i_aligned i) eqn:Ei; [|left; intros _; exists i; split; [exact Hi|congruence]].
      destruct (var_same_dec st false i x Ci (Hc k x (or_introl eq_refl))) as [S|S]; [left; intros _; exists i; auto|].
      right. intros Q. destruct (Q eq_refl) as (i' & I & P). rewrite (U i' I) in P. exact (S (P Ei)). }
  destruct D as [D|D]; [left|right].
  - intros k' j [[= <- <-]|J]; [exact D|apply Y; exact J].
  - intros O. apply D. apply O. left. reflexivity.
Qed.

(** ** Slices of variables *)
Lemma slice_valid v s v' : var_slice v s = Ok v' -> valid_slice (v_dims v) s = Ok tt.
Proof. unfold var_slice. destruct (valid_slice (v_dims v) s) as [[]| |]; [reflexivity|discriminate|discriminate]. Qed.
Lemma slice_invalid kind x s y e : var_slice (i_var x) s = Throw e -> exists e', validate_var kind x s y = Throw e' \/ validate_var kind x s y = Ok tt.
Proof.
  unfold var_slice, validate_var. change (v_dims (i_var x)) with (i_dims x). destruct (valid_slice (i_dims x) s) as [[]|e1|]; cbn [bind]; [|eauto|discriminate]. intros _.
  destruct (negb _); [eauto|]. destruct (negb _); [eauto|]. destruct (negb _); eauto. Unshelve. exact SliceError.
Qed.
Lemma slice_dims_length p s p' : slice_dims p s = Some p' -> (length p' <= length p)%nat.
Proof.
  unfold slice_dims. destruct (slice_eqb _ _); [intros [= <-]; lia|]. destruct (extent p (s_dim s)); [|discriminate].
  destruct (_ =? _).
  - destruct (_ <? _); [|discriminate]. intros [= <-]. clear. induction p as [|e p IH]; cbn [filter length]; [lia|]. destruct (negb _); cbn [length]; lia.
  - destruct (_ <=? _); [|discriminate]. intros [= <-]. rewrite map_length. lia.
Qed.
Lemma slice_inj p s p' ix ix' : lwf p -> slice_ok s -> slice_dims p s = Some p' -> valid_at p' ix -> valid_at p' ix' ->
  same_at p (pull p (VwSlice s) ix) (pull p (VwSlice s) ix') -> same_at p' ix ix'.
Proof.
  intros Hp Sl E V V'. pose proof (view_step_ok p (VwSlice s) Hp Sl (fun _ => 0) 0 false 0 (fun _ _ => Z.le_refl 0)) as St.
  cbn [view_dims] in St. rewrite E in St. destruct St as (_ & _ & I & _). apply I; auto.
Qed.

Section Proofs.
Variable kind : Z -> info.
Variable blocks : sizes -> list (Z * Z).
Variable tmp : nat.
Hypothesis Hb : forall d, wf d -> tiles 0 (volume d) (blocks d).
Notation set_var := (SetSlice_Model.set_var kind blocks tmp).
Notation heap := (Transform_Model.heap element).

Definition only (s : slice) (x : item) (h h' : heap) : Prop := forall c, fst c <> tmp -> ~ slice_cell s x c -> h' c = h c.
Definition set_good (s : slice) (x y : item) : Prop :=
  comparable x /\ comparable y /\ (v_readonly (i_var x) = false -> distinct_elements (arr_of x)) /\ i_buf x <> tmp /\ i_buf y <> tmp.

Lemma set_var_ok s x y : slice_ok s -> set_good s x y ->
  (fits_slice kind s x y /\ (forall h, exists h', set_var h x s y (Ok tt) h') /\
     forall h r h', set_var h x s y r h' -> r = Ok tt /\ gets h h' s x y /\ only s x h h') \/
  (~ fits_slice kind s x y /\ exists e, forall h r h', set_var h x s y r h' <-> r = Throw e /\ h' = h).
Proof.
  intros Sl ((Wx & Rx) & (Wy & Ry) & Dx & Tx & Ty).
  assert (No : forall e, (forall h, (do _ <- validate_var kind x s y; do v <- var_slice (i_var x) s; transform_in_place assign h (mkarr (i_buf x) v) [arr_of y] tmp blocks) = Throw e) ->
    exists e, forall h r h', set_var h x s y r h' <-> r = Throw e /\ h' = h).
  { intros e Q. exists e. intros h r h'. unfold SetSlice_Model.set_var. rewrite Q. reflexivity. }
  pose proof (slice_accept (i_var x) s Wx Sl) as Acc. change (pairs (v_dims (i_var x))) with (ishape x) in Acc.
  destruct (slice_dims (ishape x) s) as [p'|] eqn:Sd.
  2:{ right. split; [intros (_ & _ & p & Q & _); congruence|]. destruct (slice_invalid kind x s y _ Acc) as [e [E|E]]; [apply (No e)|apply (No SliceError)]; intros h; rewrite E; [reflexivity|].
      cbn [bind]. rewrite Acc. reflexivity. }
  destruct Acc as (v & Ev & Pv & Wv & Rov & _ & Av). pose proof (slice_valid _ _ _ Ev) as Vs. change (v_dims (i_var x)) with (i_dims x) in Vs.
  assert (Vk : validate_var kind x s y = Ok tt /\ kind (i_obj x) = kind (i_obj y) \/ (exists e, validate_var kind x s y = Throw e) /\ kind (i_obj x) <> kind (i_obj y)).
  { unfold validate_var. rewrite Vs. cbn [bind]. destruct (kind (i_obj x)) as [t u w], (kind (i_obj y)) as [t' u' w']. cbn [n_type n_unit n_vars].
    destruct (Bool.eqb w' w) eqn:E1; cbn [negb]; [apply Bool.eqb_prop in E1|right; split; [eauto|intros [= _ _ ->]; rewrite eqb_reflx in E1; discriminate]].
    destruct (Z.eqb_spec u' u) as [E2|E2]; cbn [negb]; [|right; split; [eauto|congruence]].
    destruct (Z.eqb_spec t' t) as [E3|E3]; cbn [negb]; [|right; split; [eauto|congruence]]. left. split; congruence. }
  destruct Vk as [[Vk Kk]|[[e Vk] Kk]].
  2:{ right. split; [intros (_ & Q & _); contradiction|]. apply (No e). intros h. rewrite Vk. reflexivity. }
  set (out := mkarr (i_buf x) v) in *.
  assert (Fo : Forall (fun a => wfv (a_var a)) (out :: [arr_of y])) by (constructor; [exact Wv|constructor; [exact Wy|constructor]]).
  destruct (includes_ok (v_dims v) (i_dims y)) as (inc & _ & Inc).
  { destruct Wv as (W & _). destruct W as (? & ? & _). split; assumption. }
  { destruct Wy as (W & _). destruct W as (? & ? & _). split; assumption. }
  assert (Inc' : inc = true <-> forall k n, In (k, n) (ishape y) -> In (k, n) p') by (rewrite Inc; unfold has; rewrite Pv; reflexivity).
  destruct inc.
  2:{ right. assert (N : ~ forall k n, In (k, n) (ishape y) -> In (k, n) p') by (intros Q; apply Inc' in Q; discriminate).
      split; [intros (_ & _ & p & Q & I); apply N; rewrite Sd in Q; injection Q as <-; exact I|]. apply (No DimensionError). intros h. rewrite Vk. cbn [bind]. rewrite Ev. cbn [bind].
      apply (in_place_reject assign h out [arr_of y] tmp blocks Fo). intros Q. apply N. intros k n Hk. pose proof (Q _ (or_introl eq_refl) k n Hk) as I. unfold has, a_dims in I. cbn [a_var out] in I. rewrite Pv in I. exact I. }
  pose proof (proj1 Inc' eq_refl) as I.
  assert (Ib : forall b, In b [arr_of y] -> forall k n, has (a_dims b) k n -> has (a_dims out) k n).
  { intros b [<-|[]] k n Hk. unfold has, a_dims. cbn [a_var out]. rewrite Pv. apply I. exact Hk. }
  destruct (v_readonly (i_var x)) eqn:Ro.
  { right. split; [intros (Q & _); congruence|]. apply (No ReadonlyError). intros h. rewrite Vk. cbn [bind]. rewrite Ev. cbn [bind].
    apply (in_place_reject assign h out [arr_of y] tmp blocks Fo); [exact Ib|]. cbn [a_var out]. exact Rov. }
  left. split; [split; [exact Ro|]; split; [exact Kk|]; exists p'; auto|].
  assert (Lp : lwf (ishape x)) by (destruct (wfv_SV _ Wx) as (_ & Hp & _); exact Hp).
  assert (Ds : distinct_elements out).
  { intros ix ix' V V' Q. unfold inside, a_dims in *. cbn [a_var out] in *. rewrite Pv in *.
    destruct (Av ix V) as [B A]. destruct (Av ix' V') as [B' A']. apply (slice_inj (ishape x) s p' ix ix' Lp Sl Sd V V').
    apply (Dx eq_refl); [exact B|exact B'|]. change (vaddr (i_var x) (pull (ishape x) (VwSlice s) ix) = vaddr (i_var x) (pull (ishape x) (VwSlice s) ix')). congruence. }
  split.
  - intros h. destruct (in_place_total assign h out [arr_of y] tmp blocks Fo Ds) as (h1 & ps & h' & Q & M).
    + exact Rov.
    + change (a_dims out) with (v_dims v). rewrite labels_keys by apply Wv. rewrite Pv. unfold keys. rewrite map_length. pose proof (slice_dims_length _ _ _ Sd). lia.
    + exact Hb.
    + left. cbn. lia.
    + exact Ib.
    + exists h'. unfold SetSlice_Model.set_var. rewrite Vk. cbn [bind]. rewrite Ev. cbn [bind]. fold out. rewrite Q. auto.
  - intros h r h' St. unfold SetSlice_Model.set_var in St. rewrite Vk in St. cbn [bind] in St. rewrite Ev in St. cbn [bind] in St.
    destruct (in_place_total assign h out [arr_of y] tmp blocks Fo Ds) as (h1 & ps & h2 & Q & _).
    + exact Rov.
    + change (a_dims out) with (v_dims v). rewrite labels_keys by apply Wv. rewrite Pv. unfold keys. rewrite map_length. pose proof (slice_dims_length _ _ _ Sd). lia.
    + exact Hb.
    + left. cbn. lia.
    + exact Ib.
    + fold out in St. rewrite Q in St. destruct St as [-> M]. split; [reflexivity|].
      destruct (in_place_effect assign h out (arr_of y) tmp blocks h1 ps h' Wv Wy Ds Tx Ty Hb Q M) as (_ & _ & Un & Va). split.
      * intros p ix Sd' V. rewrite Sd in Sd'. injection Sd' as <-. destruct (Av ix V) as [B A].
        assert (Vi : inside (a_dims out) ix) by (unfold inside, a_dims; cbn [a_var out]; rewrite Pv; exact V).
        specialize (Va (or_introl (fun _ _ _ => eq_refl)) ix Vi). cbn [assign] in Va. rewrite <- Va. unfold value_at. cbn [a_buf a_var out arr_of]. rewrite A. reflexivity.
      * intros c T N. apply Un; [|exact T]. intros (ix & V & ->). unfold inside, a_dims in V. cbn [a_var out a_buf] in *. rewrite Pv in V. destruct (Av ix V) as [B A].
        apply N. exists p', ix. split; [exact Sd|]. split; [exact V|]. rewrite A. reflexivity.
Qed.

(** ** A list of assignments *)
Fixpoint assign_all (h : heap) (s : slice) (l : list (item * item)) (r : res unit) (h' : heap) : Prop :=
  match l with
  | [] => r = Ok tt /\ h' = h
  | (x, y) :: l' => exists r1 h1, set_var h x s y r1 h1 /\ match r1 with Ok _ => assign_all h1 s l' r h' | e => r = e /\ h' = h1 end
  end.
Lemma assign_all_app s l1 l2 : forall h r h', assign_all h s (l1 ++ l2) r h' <->
  exists r1 h1, assign_all h s l1 r1 h1 /\ match r1 with Ok _ => assign_all h1 s l2 r h' | e => r = e /\ h' = h1 end.
Proof.
  induction l1 as [|[x y] l1 IH]; intros h r h'; cbn [app assign_all].
  - split; [intros A; exists (Ok tt), h; auto|]. intros (r1 & h1 & [-> ->] & A). exact A.
  - split.
    + intros (r1 & h1 & S & A). destruct r1 as [u|e|].
      * apply IH in A as (r2 & h2 & A1 & A2). exists r2, h2. split; [exists (Ok u), h1; auto|exact A2].
      * destruct A as [-> ->]. exists (Throw e), h1. split; [exists (Throw e), h1|]; auto.
      * destruct A as [-> ->]. exists Ub, h1. split; [exists Ub, h1|]; auto.
    + intros (r2 & h2 & (r1 & h1 & S & A1) & A2). destruct r1 as [u|e|].
      * exists (Ok u), h1. split; [exact S|]. apply IH. exists r2, h2. auto.
      * destruct A1 as [-> ->]. exists (Throw e), h1. auto.
      * destruct A1 as [-> ->]. exists Ub, h1. auto.
Qed.

Definition apart (p q : item * item) : Prop := i_buf (fst q) <> i_buf (fst p) /\ i_buf (snd q) <> i_buf (fst p).
Lemma only_buf s x h h' z : only s x h h' -> i_buf z <> tmp -> i_buf z <> i_buf x -> forall i, h' (i_buf z, i) = h (i_buf z, i).
Proof. intros O T N i. apply O; [exact T|]. intros (p & ix & _ & _ & [= E _]). exact (N E). Qed.

Definition changed_in (h h' : heap) (s : slice) (l : list (item * item)) : Prop :=
  forall c, fst c <> tmp -> (forall x y, In (x, y) l -> ~ slice_cell s x c) -> h' c = h c.
Lemma assign_all_ok s l : slice_ok s -> (forall x y, In (x, y) l -> set_good s x y) -> ForallOrdPairs apart l -> forall h,
  (exists r h', assign_all h s l r h') /\
  forall r h', assign_all h s l r h' ->
    (r = Ok tt /\ (forall x y, In (x, y) l -> fits_slice kind s x y /\ gets h h' s x y) \/
     (exists e, r = Throw e) /\ exists x y, In (x, y) l /\ ~ fits_slice kind s x y) /\ changed_in h h' s l.
Proof.
  intros Sl. induction l as [|[x y] l IH]; intros G F h; cbn [assign_all].
  - split; [exists (Ok tt), h; auto|]. intros r h' [-> ->]. split; [left; split; [reflexivity|intros ? ? []]|intros c _ _; reflexivity].
  - inversion F as [|? ? F1 F2]; subst. specialize (IH (fun x' y' I => G x' y' (or_intror I)) F2).
    pose proof (G x y (or_introl eq_refl)) as Gx. destruct (set_var_ok s x y Sl Gx) as [(Fi & Ex & Al)|(Nf & e & Al)].
    + split.
      * destruct (Ex h) as [h1 S]. destruct (IH h1) as [(r & h' & A) _]. exists r, h', (Ok tt), h1. auto.
      * intros r h' (r1 & h1 & S & A). destruct (Al _ _ _ S) as (-> & Ge & On). destruct (IH h1) as [_ Q]. destruct (Q _ _ A) as [C Ch]. split.
        -- destruct C as [[-> C]|[E (x' & y' & I & N)]].
           ++ left. split; [reflexivity|]. intros x' y' [[= <- <-]|I].
              ** split; [exact Fi|]. intros p ix Sd V. rewrite <- (Ge p ix Sd V). apply Ch; [apply Gx|].
                 intros x'' y'' I (p' & ix' & _ & _ & [= E _]). rewrite Forall_forall in F1. destruct (F1 _ I) as [B _]. cbn [fst] in B. cbn [arr_of a_buf] in E. congruence.
              ** destruct (C x' y' I) as [C1 C2]. split; [exact C1|]. intros p ix Sd V. rewrite (C2 p ix Sd V). rewrite Forall_forall in F1. destruct (F1 _ I) as [_ B].
                 exact (only_buf s x h h1 y' On (proj2 (proj2 (proj2 (proj2 (G x' y' (or_intror I)))))) B _).
           ++ right. split; [exact E|]. exists x', y'. split; [right; exact I|exact N].
        -- intros c T N. rewrite (Ch c T) by (intros x' y' I; apply (N x' y'); right; exact I). apply On; [exact T|]. apply (N x y). left. reflexivity.
    + split; [exists (Throw e), h, (Throw e), h; split; [apply Al; auto|auto]|].
      intros r h' (r1 & h1 & S & A). apply Al in S as [-> ->]. destruct A as [-> ->]. split; [right; split; [eauto|exists x, y; split; [left; reflexivity|exact Nf]]|intros c _ _; reflexivity].
Qed.

(** ** Masks *)
Fixpoint mask_writes (d : sdict) (s : slice) (l : list (Z * item)) : list (item * item) :=
  match l with
  | [] => []
  | (k, y) :: l' => match sd_at d k with
                    | Ok x => if negb (v_readonly (i_var x)) && dcontains (i_dims x) (s_dim s) then (x, y) :: mask_writes d s l' else mask_writes d s l'
                    | _ => mask_writes d s l'
                    end
  end.
Lemma at_absent d k : dict_comparable d -> sd_contains d k = false -> forall i, sd_at d k <> Ok i.
Proof.
  intros C N i E. destruct (lookup d k C) as [[_ Hn]|(i' & Q & _)]; [|congruence].
  unfold sd_at in E. rewrite (proj1 (dict_cases d C)) in E. unfold sd_contains in N. rewrite (proj1 (dict_cases d C)) in N.
  unfold mat, Map_Model.mindex, Map_Model.mcontains in *. destruct (find_index Z.eqb k (m_keys (mkd (sd_list d)))); [discriminate|discriminate].
Qed.
Lemma write_masks_assign d s l : dict_comparable d -> forall h r h', write_masks kind blocks tmp h d s l r h' <-> assign_all h s (mask_writes d s l) r h'.
Proof.
  intros C. induction l as [|[k y] l IH]; intros h r h'; cbn [write_masks mask_writes assign_all]; [reflexivity|].
  destruct (lookup d k C) as [[N _]|(x & Y & A & _)].
  - rewrite N. pose proof (at_absent d k C N) as Na. destruct (sd_at d k) as [i| |]; [exfalso; exact (Na i eq_refl)|apply IH|apply IH].
  - rewrite Y, A. cbn [bind]. destruct (negb _ && _); [|apply IH]. cbn [assign_all]. split; intros (r1 & h1 & S & R); exists r1, h1; (split; [exact S|]); destruct r1; try exact R; apply IH; exact R.
Qed.
Lemma mask_writes_In d s l x y : dict_comparable d ->
  In (x, y) (mask_writes d s l) <-> exists k, In (k, y) l /\ In (k, x) (sd_list d) /\ v_readonly (i_var x) = false /\ dcontains (i_dims x) (s_dim s) = true.
Proof.
  intros C. induction l as [|[k y'] l IH]; cbn [mask_writes]; [split; [intros []|intros (? & [] & _)]|].
  destruct (lookup d k C) as [[N Nn]|(x' & Y & A & I & _ & U)].
  - pose proof (at_absent d k C N) as Na. assert (G : In (x, y) (mask_writes d s l) <-> exists k0, In (k0, y) ((k, y') :: l) /\ In (k0, x) (sd_list d) /\ v_readonly (i_var x) = false /\ dcontains (i_dims x) (s_dim s) = true).
    { rewrite IH. split; intros (k0 & J & R); exists k0; (split; [|exact R]).
      - right. exact J.
      - destruct J as [[= <- <-]|J]; [exfalso; exact (Nn x (proj1 R))|exact J]. }
    destruct (sd_at d k) as [i| |]; [exfalso; exact (Na i eq_refl)|exact G|exact G].
  - rewrite A. destruct (negb (v_readonly (i_var x')) && dcontains (i_dims x') (s_dim s)) eqn:E.
    + apply andb_true_iff in E as [E1 E2]. apply negb_true_iff in E1. cbn [In]. rewrite IH. split.
      * intros [[= <- <-]|(k0 & J & R)]; [exists k; auto|exists k0; auto].
      * intros (k0 & [[= <- <-]|J] & R); [left; f_equal; symmetry; apply U, R|right; exists k0; auto].
    + rewrite IH. split; intros (k0 & J & R); exists k0; (split; [|exact R]); [right; exact J|]. destruct J as [[= <- <-]|J]; [|exact J].
      exfalso. destruct R as (R1 & R2 & R3). rewrite (U x R1) in *. rewrite R2, R3 in E. discriminate.
Qed.

Definition da_writes (s : slice) (a b : darray) : list (item * item) := mask_writes (da_masks a) s (sd_list (da_masks b)) ++ [(da_data a, da_data b)].
Lemma dcontains_keys it d : comparable it -> dcontains (i_dims it) d = true <-> In d (keys (ishape it)).
Proof.
  intros [W _]. destruct (wf_mk_pairs _ (proj1 W)) as [E _]. change (v_dims (i_var it)) with (i_dims it) in E. rewrite E. rewrite dcontains_mk. rewrite mem_In. reflexivity.
Qed.
Lemma da_writes_In s a b x y : da_comparable a -> In (x, y) (da_writes s a b) <-> exists o, writes s a b o x y.
Proof.
  intros (_ & _ & Cm & _). unfold da_writes. rewrite in_app_iff, (mask_writes_In _ _ _ _ _ Cm). split.
  - intros [(k & Iy & Ix & Ro & D)|[[= <- <-]|[]]].
    + exists (Some k). split; [exact Ix|]. split; [exact Iy|]. intros _. split; [exact Ro|]. apply (dcontains_keys x _ (proj2 (proj2 Cm) k x Ix)). exact D.
    + exists None. split; [reflexivity|]. split; [reflexivity|]. intros Q. exfalso. exact (Q eq_refl).
  - intros ([k|] & Ix & Iy & R).
    + left. exists k. destruct R as [R1 R2]; [discriminate|]. split; [exact Iy|]. split; [exact Ix|]. split; [exact R1|]. apply (dcontains_keys x _ (proj2 (proj2 Cm) k x Ix)). exact R2.
    + right. left. cbn in Ix, Iy. congruence.
Qed.
Lemma set_da_assign h a s b : da_comparable a -> validate_da kind h a s b = Ok tt ->
  forall r h', set_da kind blocks tmp h a s b r h' <-> assign_all h s (da_writes s a b) r h'.
Proof.
  intros (_ & _ & Cm & _) V r h'. unfold validate_da in V. unfold set_da, da_writes. destruct (validate_start kind h a s b) as [[]| |]; cbn [bind] in V; try discriminate.
  unfold set_masks. rewrite V. rewrite assign_all_app. change (ditems (sd_items (da_masks b))) with (sd_list (da_masks b)).
  split; intros (r1 & h1 & W & R); exists r1, h1; (split; [apply (write_masks_assign _ _ _ Cm); exact W|]); destruct r1 as [u|e|]; try exact R; cbn [assign_all] in *.
  - exists r, h'. split; [exact R|]. destruct r as [[]| |]; auto.
  - destruct R as (r2 & h2 & S & R). destruct r2 as [[]| |]; destruct R as [-> ->]; exact S.
Qed.

(** ** Validation *)
Definition agree (h h' : heap) (z : item) : Prop := forall i, h' (i_buf z, i) = h (i_buf z, i).
Lemma store_same h h' o : (forall i, h' (Z.to_nat o, i) = h (Z.to_nat o, i)) -> same_buffer (store_of kind h o) (store_of kind h' o).
Proof.
  intros E. unfold same_buffer, store_of. cbn [b_unit b_dtype b_val b_var]. split; [reflexivity|]. split; [reflexivity|]. split; [intros i; rewrite E; reflexivity|].
  destruct (n_vars (kind o)); [|exact I]. intros i. rewrite E. reflexivity.
Qed.
Lemma validate_masks_frame h h' d s l : dict_comparable d ->
  (forall k x y, In (k, x) (sd_list d) -> In (k, y) l -> ~ (v_readonly (i_var x) = false /\ In (s_dim s) (keys (ishape x))) -> agree h h' x /\ agree h h' y) ->
  validate_masks kind h d s l = validate_masks kind h' d s l.
Proof.
  intros C. induction l as [|[k y] l IH]; intros A; cbn [validate_masks]; [reflexivity|]. rewrite IH by (intros k' x' y' I J; apply (A k' x' y' I); right; exact J).
  destruct (lookup d k C) as [[N _]|(x & Y & E & I & Cx & _)]; [rewrite N; reflexivity|]. rewrite Y, E. cbn [negb bind].
  destruct (v_readonly (i_var x) || negb (dcontains (i_dims x) (s_dim s))) eqn:B; [|reflexivity].
  destruct (A k x y I (or_introl eq_refl)) as [Ax Ay].
  { intros [R K]. apply (dcontains_keys x _ Cx) in K. rewrite R, K in B. discriminate. }
  destruct (if dcontains (i_dims x) (s_dim s) then var_slice (i_var x) s else Ok (i_var x)) as [v| |]; cbn [bind]; try reflexivity.
  rewrite (compare_ext (store_of kind h) (store_of kind h') false (with_var x v) y); [reflexivity|apply store_same; exact Ax|apply store_same; exact Ay].
Qed.
Lemma coords_sliced_objs p s l l' k z : coords_sliced p s l l' -> In (k, z) l' -> exists z0, In (k, z0) l /\ i_obj z = i_obj z0.
Proof.
  intros F I. destruct (Forall2_In_r _ _ _ _ F I) as ([k0 z0] & I0 & E & S & _). cbn [fst snd] in *. subst k0. exists z0. split; [exact I0|]. apply S.
Qed.

Lemma same_part h x y v f : (forall ix, valid_at (pairs (v_dims v)) ix -> vaddr v ix = vaddr (i_var x) (f ix)) ->
  var_same false (store_of kind h) (with_var x v) y <->
  kind (i_obj x) = kind (i_obj y) /\ pairs (v_dims v) = ishape y /\ forall ix, valid_at (ishape y) ix ->
    elem_same false (fst (value_at h (arr_of x) (f ix))) (fst (value_at h (arr_of y) ix)) /\
    (n_vars (kind (i_obj x)) = true -> elem_same false (snd (value_at h (arr_of x) (f ix))) (snd (value_at h (arr_of y) ix))).
Proof.
  intros A. unfold var_same, same_content, unit_of, dtype_of, has_variances, value, variance, store_of. cbn [i_obj with_var i_var b_unit b_dtype b_var b_val].
  change (ishape (with_var x v)) with (pairs (v_dims v)). unfold value_at, arr_of, i_buf. cbn [a_buf a_var].
  destruct (kind (i_obj x)) as [t u w], (kind (i_obj y)) as [t' u' w']. cbn [n_type n_unit n_vars]. split.
  - intros [[Q _]|(-> & -> & Es & Ev & Hx & Hv)]; [discriminate|].
    assert (w = w') as <- by (destruct w, w'; try reflexivity; exfalso; [apply (proj1 Ev)|apply (proj2 Ev)]; congruence).
    split; [reflexivity|]. split; [exact Es|]. intros ix V. rewrite <- Es in V. rewrite <- (A ix V). split; [apply Hx; exact V|].
    intros ->. apply (Hv ix); [exact V|reflexivity|reflexivity].
  - intros ([= -> -> ->] & Es & Q). right. do 2 (split; [reflexivity|]). split; [exact Es|]. split; [destruct w'; split; congruence|]. split.
    + intros ix V. rewrite (A ix V). apply Q. rewrite <- Es. exact V.
    + intros ix a b V Ea Eb. destruct w'; [|discriminate]. injection Ea as <-. injection Eb as <-. rewrite (A ix V). apply Q; [rewrite <- Es; exact V|reflexivity].
Qed.
Definition mask_accepted (h : heap) (d : sdict) (s : slice) (l : list (Z * item)) : Prop :=
  forall k y, In (k, y) l -> exists x, In (k, x) (sd_list d) /\ ((v_readonly (i_var x) = false /\ In (s_dim s) (keys (ishape x))) \/ equal_part kind h s x y).
Lemma validate_masks_ok h d s l : slice_ok s -> dict_comparable d -> (forall k y, In (k, y) l -> comparable y) ->
  (mask_accepted h d s l /\ validate_masks kind h d s l = Ok tt) \/ (~ mask_accepted h d s l /\ exists e, validate_masks kind h d s l = Throw e).
Proof.
  intros Sl C. induction l as [|[k y] l IH]; intros Cl; cbn [validate_masks]; [left; split; [intros ? ? []|reflexivity]|].
  destruct (lookup d k C) as [[N Nn]|(x & Y & E & I & Cx & U)].
  { rewrite N. right. split; [|cbn [negb]; eauto]. intros M. destruct (M k y (or_introl eq_refl)) as (x & I & _). exact (Nn x I). }
  rewrite Y, E. cbn [negb bind]. pose proof (Cl k y (or_introl eq_refl)) as Cy.
  specialize (IH (fun k' y' J => Cl k' y' (or_intror J))).
  assert (Step : forall P : res unit, (P = Ok tt /\ ((v_readonly (i_var x) = false /\ In (s_dim s) (keys (ishape x))) \/ equal_part kind h s x y)) \/
     ((exists e, P = Throw e) /\ ~ ((v_readonly (i_var x) = false /\ In (s_dim s) (keys (ishape x))) \/ equal_part kind h s x y)) ->
    (mask_accepted h d s ((k, y) :: l) /\ (do _ <- P; validate_masks kind h d s l) = Ok tt) \/
    (~ mask_accepted h d s ((k, y) :: l) /\ exists e, (do _ <- P; validate_masks kind h d s l) = Throw e)).
  { intros P [[-> Q]|[[e ->] Q]]; cbn [bind].
    - destruct IH as [[M IH]|[M [e IH]]]; rewrite IH; [left|right].
      + split; [|reflexivity]. intros k' y' [[= <- <-]|J]; [exists x; auto|apply M; exact J].
      + split; [|eauto]. intros M'. apply M. intros k' y' J. apply M'. right. exact J.
    - right. split; [|eauto]. intros M. destruct (M k y (or_introl eq_refl)) as (x' & I' & Q'). rewrite (U x' I') in Q'. contradiction. }
  apply Step. clear Step IH. pose proof (dcontains_keys x (s_dim s) Cx) as Dk.
  destruct (v_readonly (i_var x) || negb (dcontains (i_dims x) (s_dim s))) eqn:B.
  2:{ left. split; [reflexivity|]. left. apply orb_false_iff in B as [B1 B2]. apply negb_false_iff in B2. split; [exact B1|apply Dk; exact B2]. }
  assert (Nw : ~ (v_readonly (i_var x) = false /\ In (s_dim s) (keys (ishape x)))) by (intros [R K]; apply Dk in K; rewrite R, K in B; discriminate).
  assert (Cmp : forall v f, comparable (with_var x v) -> (forall ix, valid_at (pairs (v_dims v)) ix -> vaddr v ix = vaddr (i_var x) (f ix)) ->
    (var_same false (store_of kind h) (with_var x v) y <-> equal_part kind h s x y) ->
    (do eq <- compare (store_of kind h) false (with_var x v) y; if negb eq then Throw DimensionError else Ok tt) = Ok tt /\ equal_part kind h s x y \/
    (exists e, (do eq <- compare (store_of kind h) false (with_var x v) y; if negb eq then Throw DimensionError else Ok tt) = Throw e) /\ ~ equal_part kind h s x y).
  { intros v f Cv A Q. destruct (compare_ok (store_of kind h) false _ _ Cv Cy) as (r & -> & Hr). cbn [bind]. destruct r; cbn [negb].
    - left. split; [reflexivity|]. apply Q, Hr. reflexivity.
    - right. split; [eauto|]. intros P. apply Q, Hr in P. discriminate. }
  destruct (dcontains (i_dims x) (s_dim s)) eqn:Dc.
  - pose proof (proj1 Dk eq_refl) as K. pose proof (slice_accept (i_var x) s (proj1 Cx) Sl) as Acc. change (pairs (v_dims (i_var x))) with (ishape x) in Acc.
    destruct (slice_dims (ishape x) s) as [p'|] eqn:Sd.
    2:{ rewrite Acc. right. split; [cbn [bind]; eauto|]. intros [Q|(_ & f & Q & _)]; [exact (Nw Q)|]. destruct (Q K) as [Q' _]. congruence. }
    destruct Acc as (v & Ev & Pv & Wv & _ & _ & Av). rewrite Ev. cbn [bind].
    assert (Cv : comparable (with_var x v)).
    { split; [exact Wv|]. change (ishape (with_var x v)) with (pairs (v_dims v)). rewrite Pv. pose proof (slice_dims_length _ _ _ Sd). destruct Cx. lia. }
    assert (A : forall ix, valid_at (pairs (v_dims v)) ix -> vaddr v ix = vaddr (i_var x) (pull (ishape x) (VwSlice s) ix)) by (intros ix V; rewrite Pv in V; apply Av; exact V).
    assert (G : var_same false (store_of kind h) (with_var x v) y <-> equal_part kind h s x y).
    { rewrite (same_part h x y v _ A). rewrite Pv. split.
      - intros (E1 & E2 & E3). split; [exact E1|]. exists (pull (ishape x) (VwSlice s)). split; [intros _; split; [congruence|reflexivity]|]. split; [intros Q; contradiction|exact E3].
      - intros (E1 & f & E2 & _ & E3). destruct (E2 K) as [E4 ->]. split; [exact E1|]. split; [congruence|exact E3]. }
    destruct (Cmp v _ Cv A G) as [[P1 P2]|[P1 P2]]; [left|right]; (split; [exact P1|tauto]).
  - assert (K : ~ In (s_dim s) (keys (ishape x))) by (intros K; apply Dk in K; discriminate). cbn [bind].
    assert (G : var_same false (store_of kind h) (with_var x (i_var x)) y <-> equal_part kind h s x y).
    { rewrite (same_part h x y (i_var x) (fun ix => ix) (fun _ _ => eq_refl)). change (pairs (v_dims (i_var x))) with (ishape x). split.
      - intros (E1 & E2 & E3). split; [exact E1|]. exists (fun ix => ix). split; [intros Q; contradiction|]. split; [intros _; split; [exact E2|reflexivity]|exact E3].
      - intros (E1 & f & _ & E2 & E3). destruct (E2 K) as [E4 ->]. split; [exact E1|]. split; [exact E4|exact E3]. }
    assert (Cv : comparable (with_var x (i_var x))) by exact Cx.
    destruct (Cmp (i_var x) (fun ix => ix) Cv (fun _ _ => eq_refl) G) as [[P1 P2]|[P1 P2]]; [left|right]; (split; [exact P1|tauto]).
Qed.

Lemma edges_ex_dec p d (l : list (Z * item)) : (exists k it, In (k, it) l /\ edges_along p d it) \/ ~ (exists k it, In (k, it) l /\ edges_along p d it).
Proof.
  induction l as [|[k it] l [(k1 & it1 & I & E)|N]]; [right; intros (? & ? & [] & _)|left; exists k1, it1; split; [right; exact I|exact E]|].
  destruct (edges_dec p d it) as [Y|Y]; [left; exists k, it; split; [left; reflexivity|exact Y]|].
  right. intros (k1 & it1 & [[= <- <-]|I] & E); [exact (Y E)|apply N; eauto].
Qed.
Lemma da_slice_cases a s : da_ok a -> da_comparable a -> slice_ok s -> slice_eqb s slice_default = false ->
  (exists a', da_slice a s = Ok a' /\ dict_comparable (da_coords a') /\ coords_sliced (da_shape a) s (sd_list (da_coords a)) (sd_list (da_coords a')) /\
     exists p, slice_dims (ishape (da_data a)) s = Some p) \/
  exists e, da_slice a s = Throw e.
Proof.
  intros Ha Ca Sl Nd. pose proof (da_slice_ok a s Ha Sl Nd) as D. unfold da_shape in *. destruct (slice_dims (ishape (da_data a)) s) as [p'|] eqn:Sd; [|right; eauto]. destruct D as [D1 D2].
  assert (Q : (exists k it, In (k, it) (da_items a) /\ edges_along (ishape (da_data a)) (s_dim s) it) /\ s_stride s <> 1 \/ (forall k it, In (k, it) (da_items a) -> edges_along (ishape (da_data a)) (s_dim s) it -> s_stride s = 1)).
  { destruct (Z.eq_dec (s_stride s) 1) as [E|E]; [right; auto|]. destruct (edges_ex_dec (ishape (da_data a)) (s_dim s) (da_items a)) as [Y|N]; [left; auto|]. right. intros k it I Ed. exfalso. apply N. eauto. }
  destruct Q as [[Q1 Q2]|Q]; [right; eauto|]. destruct (D2 Q) as (a' & E & Ok' & _ & _ & _ & Cs & _). left. exists a'. split; [exact E|]. split; [|split; [exact Cs|eauto]].
  refine (sliced_dict_comparable _ (ishape (da_data a)) s _ _ _ Cs (proj1 (proj2 Ca)) _); [intros x y (F1 & F2 & _); auto|]. apply Ok'.
Qed.
Lemma validate_var_cases x s y : comparable x -> slice_ok s -> (exists p, slice_dims (ishape x) s = Some p) ->
  (kind (i_obj x) = kind (i_obj y) /\ validate_var kind x s y = Ok tt) \/ (kind (i_obj x) <> kind (i_obj y) /\ exists e, validate_var kind x s y = Throw e).
Proof.
  intros [W _] Sl [p Sd]. pose proof (slice_accept (i_var x) s W Sl) as Acc. change (pairs (v_dims (i_var x))) with (ishape x) in Acc. rewrite Sd in Acc.
  destruct Acc as (v & Ev & _). pose proof (slice_valid _ _ _ Ev) as Vs. change (v_dims (i_var x)) with (i_dims x) in Vs.
  unfold validate_var. rewrite Vs. cbn [bind]. destruct (kind (i_obj x)) as [t u w], (kind (i_obj y)) as [t' u' w']. cbn [n_type n_unit n_vars].
  destruct (Bool.eqb w' w) eqn:E1; cbn [negb]; [apply Bool.eqb_prop in E1|right; split; [intros [= _ _ ->]; rewrite eqb_reflx in E1; discriminate|eauto]].
  destruct (Z.eqb_spec u' u) as [E2|E2]; cbn [negb]; [|right; split; [congruence|eauto]].
  destruct (Z.eqb_spec t' t) as [E3|E3]; cbn [negb]; [|right; split; [congruence|eauto]]. left. split; congruence.
Qed.
Lemma validate_da_ok h a s b : da_ok a -> da_comparable a -> da_comparable b -> slice_ok s -> slice_eqb s slice_default = false ->
  (accepted kind h s a b /\ validate_da kind h a s b = Ok tt) \/ (~ accepted kind h s a b /\ exists e, validate_da kind h a s b = Throw e).
Proof.
  intros Ha Ca Cb Sl Nd. unfold validate_da, validate_start.
  destruct (da_slice_cases a s Ha Ca Sl Nd) as [(a' & E & Cc & Cs & Sd)|[e E]]; rewrite E; cbn [bind].
  2:{ right. split; [|eauto]. intros ((a' & Q & _) & _). congruence. }
  destruct (superset_ok (store_of kind h) (da_coords a') (sd_list (da_coords b)) Cc (proj2 (proj2 (proj1 (proj2 Cb))))) as [S1 S2].
  set (P := forall k j, In (k, j) (sd_list (da_coords b)) -> i_aligned j = true -> exists i, In (k, i) (sd_list (da_coords a')) /\ (i_aligned i = true -> var_same false (store_of kind h) i j)) in *.
  unfold coords_are_superset. change (ditems (sd_items (da_coords b))) with (sd_list (da_coords b)).
  assert (Pd : P \/ ~ P) by (apply superset_dec; [exact Cc|exact (proj2 (proj2 (proj1 (proj2 Cb))))]).
  destruct Pd as [Py|Pn].
  2:{ rewrite (S2 Pn). cbn [bind]. right. split; [|eauto]. intros ((a2 & Q & Sp) & _). rewrite E in Q. injection Q as <-. exact (Pn Sp). }
  rewrite (S1 Py). cbn [bind]. destruct (validate_var_cases (da_data a) s (da_data b) (proj1 Ca) Sl Sd) as [[K V]|[K [e V]]]; rewrite V; cbn [bind].
  2:{ right. split; [|eauto]. intros (_ & Q & _). exact (K Q). }
  change (ditems (sd_items (da_masks b))) with (sd_list (da_masks b)).
  destruct (validate_masks_ok h (da_masks a) s (sd_list (da_masks b)) Sl (proj1 (proj2 (proj2 Ca))) (proj2 (proj2 (proj1 (proj2 (proj2 Cb)))))) as [[M R]|[M R]]; [left|right]; (split; [|exact R]).
  - split; [exists a'; split; [exact E|exact Py]|]. split; [exact K|]. intros k y I. destruct (M k y I) as (x & J & Q). exists x. split; [exact J|]. destruct Q as [Q|Q]; [left|right; exact Q].
    split; [exact J|]. split; [exact I|]. intros _. exact Q.
  - intros (_ & _ & Q). apply M. intros k y I. destruct (Q k y I) as (x & J & W). exists x. split; [exact J|]. destruct W as [(_ & _ & W)|W]; [left; apply W; discriminate|right; exact W].
Qed.
Lemma validate_da_frame h h' a s b : da_ok a -> da_comparable a -> slice_ok s -> slice_eqb s slice_default = false ->
  (forall k z, In (k, z) (sd_list (da_coords a)) \/ In (k, z) (sd_list (da_coords b)) -> agree h h' z) ->
  (forall k x y, In (k, x) (sd_list (da_masks a)) -> In (k, y) (sd_list (da_masks b)) -> ~ writes s a b (Some k) x y -> agree h h' x /\ agree h h' y) ->
  validate_da kind h a s b = validate_da kind h' a s b.
Proof.
  intros Ha Ca Sl Nd Ac Am. unfold validate_da, validate_start. change (ditems (sd_items (da_masks b))) with (sd_list (da_masks b)).
  rewrite (validate_masks_frame h h' (da_masks a) s (sd_list (da_masks b)) (proj1 (proj2 (proj2 Ca)))).
  - destruct (da_slice_cases a s Ha Ca Sl Nd) as [(a' & E & Cc & Cs & Sd)|[e E]]; rewrite E; cbn [bind]; [|reflexivity].
    rewrite (superset_ext (store_of kind h) (store_of kind h') (da_coords a') (da_coords b)); [reflexivity|..].
    + intros k i I. destruct (coords_sliced_objs _ _ _ _ _ _ Cs I) as (z0 & I0 & Eo). apply store_same. rewrite Eo. apply (Ac k z0). left. exact I0.
    + intros k i I. apply store_same. apply (Ac k i). right. exact I.
  - intros k x y I J N. apply (Am k x y I J). intros (_ & _ & W). apply N, W. discriminate.
Qed.

(** ** Data arrays one after the other *)
Lemma separate_tail s ab l : separate tmp s (ab :: l) -> separate tmp s l.
Proof.
  intros [S1 S2]. split; [intros a b I; apply (S1 a b); right; exact I|]. intros i a b o x y E W i' a' b' E'.
  destruct (S2 (S i) a b o x y E W (S i') a' b' E') as [P Q]. split; [|exact Q]. intros o' z Iz Ne. apply (P o' z Iz). congruence.
Qed.
Lemma operands_tail s ab l : operands_ok s (ab :: l) -> operands_ok s l.
Proof. intros (A & B & C). split; [exact A|]. split; [exact B|]. intros a b I. apply C. right. exact I. Qed.
Lemma writes_good s a b o x y l : operands_ok s l -> separate tmp s l -> In (a, b) l -> writes s a b o x y -> set_good s x y.
Proof.
  intros (_ & _ & O) [S1 _] I W. destruct (O a b I) as (_ & Ca & _ & Cb & D). pose proof W as (Ix & Iy & _).
  assert (Cx : comparable x) by (destruct o as [k|]; cbn in Ix; [apply (proj2 (proj2 (proj1 (proj2 (proj2 Ca)))) k x Ix)|subst x; apply Ca]).
  assert (Cy : comparable y) by (destruct o as [k|]; cbn in Iy; [apply (proj2 (proj2 (proj1 (proj2 (proj2 Cb)))) k y Iy)|subst y; apply Cb]).
  split; [exact Cx|]. split; [exact Cy|]. split; [exact (D o x y W)|]. split; apply (S1 a b I); left; exists o; [left|right]; assumption.
Qed.
Lemma FOP_app {A} (R : A -> A -> Prop) l1 l2 : ForallOrdPairs R l1 -> ForallOrdPairs R l2 -> (forall p q, In p l1 -> In q l2 -> R p q) -> ForallOrdPairs R (l1 ++ l2).
Proof.
  induction 1 as [|p l F _ IH]; intros F2 C; cbn [app]; [exact F2|]. constructor; [|apply IH; [exact F2|intros; apply C; [right|]; assumption]].
  apply Forall_app. split; [exact F|]. apply Forall_forall. intros q Q. apply C; [left; reflexivity|exact Q].
Qed.
Lemma da_writes_apart s a b l : da_comparable a -> da_comparable b -> separate tmp s ((a, b) :: l) -> ForallOrdPairs apart (da_writes s a b).
Proof.
  intros Ca Cb [_ S2]. pose proof (proj1 (proj2 (proj2 Ca))) as Cm. destruct (dict_cases _ (proj1 (proj2 (proj2 Cb)))) as [_ Nd].
  assert (Ap : forall o x y o' x' y', writes s a b o x y -> writes s a b o' x' y' -> o <> o' -> apart (x, y) (x', y')).
  { intros o x y o' x' y' W (W1 & W2 & _) Ne. destruct (S2 0%nat a b o x y eq_refl W 0%nat a b eq_refl) as [P _]. split; cbn [fst snd]; apply (P o'); auto; congruence. }
  assert (Wk : forall k x y, In (k, y) (sd_list (da_masks b)) -> In (k, x) (sd_list (da_masks a)) -> v_readonly (i_var x) = false -> dcontains (i_dims x) (s_dim s) = true -> writes s a b (Some k) x y).
  { intros k x y Iy Ix R D. split; [exact Ix|]. split; [exact Iy|]. intros _. split; [exact R|]. apply (dcontains_keys x _ (proj2 (proj2 Cm) k x Ix)). exact D. }
  assert (Wd : writes s a b None (da_data a) (da_data b)) by (split; [reflexivity|]; split; [reflexivity|]; intros Q; exfalso; exact (Q eq_refl)).
  unfold da_writes. apply FOP_app.
  - revert Nd Wk. clear Wd. induction (sd_list (da_masks b)) as [|[k y] lb IH]; intros Nd Wk; cbn [mask_writes]; [constructor|]. cbn [map fst] in Nd. apply NoDup_cons_iff in Nd as [Nk Nd].
    specialize (IH Nd (fun k' x' y' J => Wk k' x' y' (or_intror J))).
    destruct (lookup (da_masks a) k Cm) as [[N _]|(x & Y & A & I & _ & U)].
    + pose proof (at_absent _ k Cm N) as Na. destruct (sd_at (da_masks a) k) as [i| |]; [exfalso; exact (Na i eq_refl)|exact IH|exact IH].
    + rewrite A. destruct (negb (v_readonly (i_var x)) && dcontains (i_dims x) (s_dim s)) eqn:E; [|exact IH]. apply andb_true_iff in E as [E1 E2]. apply negb_true_iff in E1.
      constructor; [|exact IH]. apply Forall_forall. intros [x' y'] J. apply (mask_writes_In _ _ _ _ _ Cm) in J as (k' & J1 & J2 & J3 & J4).
      apply (Ap (Some k) x y (Some k') x' y'); [apply Wk; auto; left; reflexivity|apply Wk; auto; right; exact J1|]. intros [= <-]. apply Nk, in_map_iff. exists (k, y'). auto.
  - constructor; constructor.
  - intros [x y] q J [<-|[]]. apply (mask_writes_In _ _ _ _ _ Cm) in J as (k & J1 & J2 & J3 & J4). apply (Ap (Some k) x y None); [apply Wk; assumption|exact Wd|discriminate].
Qed.

Definition all_writes (s : slice) (l : list (darray * darray)) : list (item * item) := flat_map (fun ab => da_writes s (fst ab) (snd ab)) l.
Lemma all_writes_In s l x y : operands_ok s l -> In (x, y) (all_writes s l) <-> exists a b o, In (a, b) l /\ writes s a b o x y.
Proof.
  intros (_ & _ & O). unfold all_writes. rewrite in_flat_map. split.
  - intros ([a b] & I & J). cbn [fst snd] in J. apply (da_writes_In s a b x y (proj1 (proj2 (O a b I)))) in J as [o W]. eauto.
  - intros (a & b & o & I & W). exists (a, b). split; [exact I|]. cbn [fst snd]. apply (da_writes_In s a b x y (proj1 (proj2 (O a b I)))). eauto.
Qed.
Lemma all_writes_apart s l : operands_ok s l -> separate tmp s l -> ForallOrdPairs apart (all_writes s l).
Proof.
  induction l as [|[a b] l IH]; intros O Se; [constructor|]. unfold all_writes. cbn [flat_map fst snd]. destruct (proj2 (proj2 O) a b (or_introl eq_refl)) as (_ & Ca & _ & Cb & _). apply FOP_app.
  - exact (da_writes_apart s a b l Ca Cb Se).
  - apply IH; [exact (operands_tail _ _ _ O)|exact (separate_tail _ _ _ Se)].
  - intros [x y] [x' y'] I J. apply (da_writes_In s a b x y Ca) in I as [o W]. apply (all_writes_In s l x' y' (operands_tail _ _ _ O)) in J as (a' & b' & o' & J & W').
    apply In_nth_error in J as [i J]. destruct Se as [_ S2]. destruct (S2 0%nat a b o x y eq_refl W (S i) a' b' J) as [P _]. destruct W' as (W1 & W2 & _). split; cbn [fst snd]; apply (P o'); auto; discriminate.
Qed.

Lemma all_writes_good s l x y : operands_ok s l -> separate tmp s l -> In (x, y) (all_writes s l) -> set_good s x y.
Proof. intros O Se I. apply (all_writes_In s l x y O) in I as (a & b & o & I & W). exact (writes_good s a b o x y l O Se I W). Qed.
Lemma changed_spec h h' s l : operands_ok s l -> changed_in h h' s (all_writes s l) <-> only_slices tmp h h' s l.
Proof.
  intros O. split; intros C c T N; apply C; auto; [intros x y I; apply (all_writes_In s l x y O) in I as (a & b & o & I & W); eauto|].
  intros a b o x y I W. apply (N x y). apply (all_writes_In s l x y O). eauto.
Qed.

Lemma set_all_assign s l : operands_ok s l -> separate tmp s l -> forall h, (forall a b, In (a, b) l -> validate_da kind h a s b = Ok tt) ->
  forall r h', set_all kind blocks tmp h s l r h' <-> assign_all h s (all_writes s l) r h'.
Proof.
  induction l as [|[a b] l IH]; intros O Se h V r h'; [reflexivity|]. unfold all_writes. cbn [set_all flat_map fst snd]. rewrite assign_all_app.
  pose proof O as (Sl & Nd & Op). destruct (Op a b (or_introl eq_refl)) as (Ha & Ca & _ & Cb & _). pose proof (set_da_assign h a s b Ca (V a b (or_introl eq_refl))) as Q.
  assert (Nx : forall u h1, assign_all h s (da_writes s a b) (Ok u) h1 -> forall a' b', In (a', b') l -> validate_da kind h1 a' s b' = Ok tt).
  { intros u h1 A a' b' I. rewrite <- (V a' b' (or_intror I)). symmetry. destruct (Op a' b' (or_intror I)) as (Ha' & Ca' & _).
    destruct (assign_all_ok s (da_writes s a b) Sl) with (h := h) as [_ Fr].
    { intros x y J. apply (da_writes_In s a b x y Ca) in J as [o W]. exact (writes_good s a b o x y _ O Se (or_introl eq_refl) W). }
    { exact (da_writes_apart s a b l Ca Cb Se). }
    destruct (Fr _ _ A) as [_ Ch]. apply In_nth_error in I as [i I].
    assert (Ag : forall z, i_buf z <> tmp -> (forall o x y, writes s a b o x y -> i_buf z <> i_buf x) -> agree h h1 z).
    { intros z T N j. apply Ch; [exact T|]. intros x y J (p & ix & _ & _ & [= E _]). apply (da_writes_In s a b x y Ca) in J as [o W]. exact (N o x y W E). }
    destruct Se as [S1 S2]. pose proof (nth_error_In l i I) as I'. apply validate_da_frame; auto.
    - intros k z Iz. apply Ag; [apply (S1 a' b' (or_intror I')); right; exists k; exact Iz|]. intros o x y W. destruct (S2 0%nat a b o x y eq_refl W (S i) a' b' I) as [_ P]. exact (P k z Iz).
    - intros k x' y' Ix Iy _. split; (apply Ag; [apply (S1 a' b' (or_intror I')); left; exists (Some k); auto|]); intros o x y W; destruct (S2 0%nat a b o x y eq_refl W (S i) a' b' I) as [P _]; (apply (P (Some k)); [auto|discriminate]). }
  split; intros (r1 & h1 & S & R); exists r1, h1.
  - apply Q in S. split; [exact S|]. destruct r1 as [u|e|]; [|exact R|exact R]. apply (IH (operands_tail _ _ _ O) (separate_tail _ _ _ Se) h1 (Nx u h1 S)). exact R.
  - split; [apply Q; exact S|]. destruct r1 as [u|e|]; [|exact R|exact R]. apply (IH (operands_tail _ _ _ O) (separate_tail _ _ _ Se) h1 (Nx u h1 S)). exact R.
Qed.

(** After validation. *)
Lemma set_all_ok s l h : operands_ok s l -> separate tmp s l -> (forall a b, In (a, b) l -> validate_da kind h a s b = Ok tt) ->
  (exists r h', set_all kind blocks tmp h s l r h') /\
  forall r h', set_all kind blocks tmp h s l r h' ->
    (r = Ok tt /\ all_fit kind s l /\ assigned h h' s l \/ (exists e, r = Throw e) /\ ~ all_fit kind s l) /\ only_slices tmp h h' s l.
Proof.
  intros O Se V. destruct (assign_all_ok s (all_writes s l) (proj1 O) (fun x y => all_writes_good s l x y O Se) (all_writes_apart s l O Se) h) as [(r0 & h0 & A0) Al].
  split; [exists r0, h0; apply (set_all_assign s l O Se h V); exact A0|]. intros r h' S. apply (set_all_assign s l O Se h V) in S. destruct (Al r h' S) as [C Ch].
  split; [|apply (changed_spec h h' s l O); exact Ch]. destruct C as [[-> C]|[E (x & y & I & N)]]; [left|right].
  - split; [reflexivity|]. split; intros a b o x y I W; (destruct (C x y) as [C1 C2]; [apply (all_writes_In s l x y O); eauto|]); assumption.
  - split; [exact E|]. intros F. apply (all_writes_In s l x y O) in I as (a & b & o & I & W). exact (N (F a b o x y I W)).
Qed.

(** ** Data arrays *)
Lemma set_da_no h a s b e : validate_da kind h a s b = Throw e -> forall r h', set_da kind blocks tmp h a s b r h' <-> r = Throw e /\ h' = h.
Proof.
  unfold validate_da, set_da, set_masks. destruct (validate_start kind h a s b) as [[]|e1|]; cbn [bind]; [|intros [= ->]; reflexivity|discriminate].
  intros ->. intros r h'. split.
  - intros (r1 & h1 & [-> ->] & R). exact R.
  - intros R. exists (Throw e), h. auto.
Qed.
Lemma set_all_one h a s b r h' : set_all kind blocks tmp h s [(a, b)] r h' <-> set_da kind blocks tmp h a s b r h'.
Proof.
  cbn [set_all]. split.
  - intros (r1 & h1 & S & R). destruct r1 as [[]| |]; destruct R as [-> ->]; exact S.
  - intros S. exists r, h'. split; [exact S|]. destruct r as [[]| |]; auto.
Qed.

(** ** Datasets *)
Lemma any_edges_dec d dim : any_edges d dim \/ ~ any_edges d dim.
Proof using .
  clear kind blocks tmp Hb. unfold any_edges. destruct (edges_ex_dec (ds_shape d) dim (sd_list (ds_coords d))) as [Y|N]; [left; left; exact Y|].
  assert (D : (exists name a k it, In (name, a) (ds_list d) /\ In (k, it) (sd_list (da_masks a) ++ sd_list (da_attrs a)) /\ edges_along (da_shape a) dim it) \/
    ~ exists name a k it, In (name, a) (ds_list d) /\ In (k, it) (sd_list (da_masks a) ++ sd_list (da_attrs a)) /\ edges_along (da_shape a) dim it).
  { clear N. induction (ds_list d) as [|[n a] l [(n1 & a1 & k & it & I & E)|N]]; [right; intros (? & ? & ? & ? & [] & _)|left; exists n1, a1, k, it; split; [right; exact I|exact E]|].
    destruct (edges_ex_dec (da_shape a) dim (sd_list (da_masks a) ++ sd_list (da_attrs a))) as [(k & it & I & E)|Y]; [left; exists n, a, k, it; split; [left; reflexivity|auto]|].
    right. intros (n1 & a1 & k & it & [[= <- <-]|I] & E); [apply Y; eauto|apply N; eauto 8]. }
  tauto.
Qed.
Lemma ds_slice_cases st d s : ds_ok d -> slice_ok s -> slice_eqb s slice_default = false ->
  (exists d', ds_slice st d s = Ok d' /\ dict_comparable (ds_coords d')) \/ exists e, ds_slice st d s = Throw e.
Proof.
  intros Hd Sl Nd. pose proof (ds_slice_ok st d s Hd Sl Nd) as D. destruct (slice_dims (ds_shape d) s); [|right; eauto]. destruct D as [D1 D2].
  assert (Q : any_edges d (s_dim s) /\ s_stride s <> 1 \/ (any_edges d (s_dim s) -> s_stride s = 1)).
  { destruct (Z.eq_dec (s_stride s) 1) as [E|E]; [right; auto|]. destruct (any_edges_dec d (s_dim s)) as [Y|N]; [left; auto|right; intros Y; contradiction]. }
  destruct Q as [[Q1 Q2]|Q]; [right; eauto|]. destruct (D2 Q) as (d' & E & Hd' & _). left. exists d'. split; [exact E|]. apply Hd'.
Qed.
Lemma superset_cases st a b : dict_comparable a -> dict_comparable b ->
  (superset st a b /\ coords_are_superset st a b = Ok tt) \/ (~ superset st a b /\ exists e, coords_are_superset st a b = Throw e).
Proof.
  intros Ca Cb. destruct (superset_ok st a (sd_list b) Ca (proj2 (proj2 Cb))) as [S1 S2]. destruct (superset_dec st a (sd_list b) Ca (proj2 (proj2 Cb))) as [Y|N]; [left|right].
  - split; [exact Y|exact (S1 Y)].
  - split; [exact N|]. eexists. exact (S2 N).
Qed.
Definition good_operands (l : list (darray * darray)) : Prop := forall a b, In (a, b) l -> da_ok a /\ da_comparable a /\ da_comparable b.
Lemma validate_all_ok h s l : slice_ok s -> slice_eqb s slice_default = false -> good_operands l ->
  ((forall a b, In (a, b) l -> accepted kind h s a b) /\ validate_all kind h s l = Ok tt) \/
  (~ (forall a b, In (a, b) l -> accepted kind h s a b) /\ exists e, validate_all kind h s l = Throw e).
Proof.
  intros Sl Nd. induction l as [|[a b] l IH]; intros G; cbn [validate_all]; [left; split; [intros ? ? []|reflexivity]|].
  destruct (G a b (or_introl eq_refl)) as (Ha & Ca & Cb). specialize (IH (fun a' b' I => G a' b' (or_intror I))).
  destruct (validate_da_ok h a s b Ha Ca Cb Sl Nd) as [[A V]|[A [e V]]]; rewrite V; cbn [bind].
  - destruct IH as [[B R]|[B R]]; [left|right]; (split; [|exact R]).
    + intros a' b' [[= <- <-]|I]; [exact A|apply B; exact I].
    + intros Q. apply B. intros a' b' I. apply Q. right. exact I.
  - right. split; [|eauto]. intros Q. apply A, Q. left. reflexivity.
Qed.
Lemma validate_named_all h s (m : list (Z * darray)) e l : ds_ok e -> Forall2 (fun na ab => fst ab = snd na /\ In (fst na, snd ab) (ds_list e)) m l ->
  validate_named kind h s m e = validate_all kind h s l /\ named m e = l.
Proof.
  intros He. destruct (ds_items e He) as [Ee Ne]. induction 1 as [|[n a0] [a b] m l [E I] _ IH]; [split; reflexivity|]. cbn [fst snd] in *. subst a0.
  destruct IH as [IH1 IH2]. cbn [validate_named validate_all named]. rewrite Ee. rewrite (at_In (ds_list e) n b NotFoundError Ne I). cbn [bind]. rewrite IH1. split; [reflexivity|]. f_equal. exact IH2.
Qed.

(** Common to both assignments of validated data: *)
Lemma validated_ok h s d cs l : operands_ok s l -> separate tmp s l -> ds_ok d -> dict_comparable cs ->
  let check := (do d' <- ds_slice (store_of kind h) d s; do _ <- coords_are_superset (store_of kind h) (ds_coords d') cs; validate_all kind h s l) in
  (exists r h', validated kind blocks tmp h s check l r h') /\
  forall r h', validated kind blocks tmp h s check l r h' ->
    (r = Ok tt <-> ds_accepted kind h s d cs l /\ all_fit kind s l) /\ r <> Ub /\ (r = Ok tt -> assigned h h' s l) /\
    (~ ds_accepted kind h s d cs l -> h' = h) /\ only_slices tmp h h' s l.
Proof.
  intros O Se Hd Cc check. pose proof O as (Sl & Nd & Op).
  assert (Q : (ds_accepted kind h s d cs l /\ check = Ok tt) \/ (~ ds_accepted kind h s d cs l /\ exists e, check = Throw e)).
  { unfold check, ds_accepted. destruct (ds_slice_cases (store_of kind h) d s Hd Sl Nd) as [(d' & E & Cd)|[e E]]; rewrite E; cbn [bind].
    2:{ right. split; [|eauto]. intros ((d' & Q & _) & _). congruence. }
    destruct (superset_cases (store_of kind h) (ds_coords d') cs Cd Cc) as [[S1 S2]|[S1 [e S2]]]; rewrite S2; cbn [bind].
    2:{ right. split; [|eauto]. intros ((d2 & Q & S) & _). injection Q as <-. exact (S1 S). }
    destruct (validate_all_ok h s l Sl Nd) as [[V R]|[V R]]; [intros a b I; destruct (Op a b I) as (? & ? & _ & ? & _); auto|left|right]; (split; [|exact R]).
    - split; [eauto|exact V].
    - intros (_ & Q). exact (V Q). }
  unfold validated. destruct Q as [[A ->]|[A [e ->]]].
  - destruct (set_all_ok s l h O Se) as [Ex Al].
    { intros a b I. destruct (Op a b I) as (Ha & Ca & _ & Cb & _). destruct (validate_da_ok h a s b Ha Ca Cb Sl Nd) as [[_ V]|[N _]]; [exact V|]. exfalso. apply N, A, I. }
    split; [exact Ex|]. intros r h' S. destruct (Al r h' S) as [C On]. destruct C as [(-> & F & As)|[[e ->] F]].
    + split; [split; [auto|reflexivity]|]. split; [discriminate|]. split; [auto|]. split; [contradiction|exact On].
    + split; [split; [discriminate|intros [_ Q]; contradiction]|]. split; [discriminate|]. split; [discriminate|]. split; [contradiction|exact On].
  - split; [exists (Throw e), h; auto|]. intros r h' [-> ->]. split; [split; [discriminate|intros [Q _]; contradiction]|]. split; [discriminate|]. split; [discriminate|]. split; [auto|].
    intros c _ _. reflexivity.
Qed.

(** ** A variable for all items *)
Lemma set_vars_assign s l y : forall h r h', set_vars kind blocks tmp h s l y r h' <-> assign_all h s (map (fun a => (da_data a, y)) l) r h'.
Proof.
  induction l as [|a l IH]; intros h r h'; cbn [set_vars map assign_all]; [reflexivity|].
  split; intros (r1 & h1 & S & R); exists r1, h1; (split; [exact S|]); destruct r1; try exact R; apply IH; exact R.
Qed.
End Proofs.
