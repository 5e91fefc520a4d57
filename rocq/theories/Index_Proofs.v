From Verif Require Import Base Map_Model Dims_Model Dims_Spec Dims_Proofs Index_Model Index_Spec.

(** ** Mixed-radix evaluation, innermost dimension first *)
Definition pos (l : list Z) : Prop := Forall (fun n => 0 < n) l.
Definition evs (st sh : list Z) (k : Z) : Z := dot st (digits sh k).

Lemma digits_cons n m sh k : digits (n :: m :: sh) k = (k mod n) :: digits (m :: sh) (k / n).
Proof. reflexivity. Qed.

Lemma digits_length sh k : length (digits sh k) = length sh.
Proof.
  revert k. induction sh as [|n [|m sh] IH]; intros k; [reflexivity|reflexivity|].
  rewrite digits_cons. cbn [length]. f_equal. apply IH.
Qed.

Lemma evs_cons s st n sh k : sh <> [] -> evs (s :: st) (n :: sh) k = s * (k mod n) + evs st sh (k / n).
Proof. destruct sh; [congruence|reflexivity]. Qed.
Lemma evs_one s st n k : evs (s :: st) [n] k = s * k.
Proof. unfold evs. cbn [digits dot]. destruct st; cbn [dot]; lia. Qed.

Lemma evs_merge s st n1 n2 sh k : 0 < n1 -> 0 < n2 -> 0 <= k ->
  evs (s :: n1 * s :: st) (n1 :: n2 :: sh) k = evs (s :: st) (n1 * n2 :: sh) k.
Proof.
  intros. rewrite evs_cons by discriminate. destruct sh as [|n3 sh].
  - rewrite !evs_one. rewrite (Z.div_mod k n1) at 3 by lia. ring.
  - rewrite !evs_cons by discriminate. rewrite Z.rem_mul_r, Z.div_div by lia. ring.
Qed.

Lemma evs_prefix s1 st1 sh1 s2 st2 sh2 : sh1 <> [] -> sh2 <> [] -> s1 = s2 ->
  (forall k, 0 <= k -> evs st1 sh1 k = evs st2 sh2 k) ->
  forall n k, 0 < n -> 0 <= k -> evs (s1 :: st1) (n :: sh1) k = evs (s2 :: st2) (n :: sh2) k.
Proof. intros. subst. rewrite !evs_cons by assumption. rewrite H2; [reflexivity|apply Z.div_pos; lia]. Qed.

Lemma dot_app a a' b b' : length a = length b -> dot (a ++ a') (b ++ b') = dot a b + dot a' b'.
Proof.
  revert b. induction a as [|x a IH]; intros [|y b] Hl; try discriminate; [reflexivity|].
  cbn [app dot]. rewrite IH by (injection Hl; auto). ring.
Qed.
Lemma dot_rev a b : length a = length b -> dot (rev a) (rev b) = dot a b.
Proof.
  revert b. induction a as [|x a IH]; intros [|y b] Hl; try discriminate; [reflexivity|].
  injection Hl as Hl. cbn [rev]. rewrite dot_app by (rewrite !rev_length; assumption).
  rewrite IH by assumption. cbn. lia.
Qed.

Lemma rev_nil_iff {A} (l : list A) : rev l = [] -> l = [].
Proof. intros E. rewrite <- (rev_involutive l), E. reflexivity. Qed.

Lemma index_at_length sh : forall k, length (index_at sh k) = length sh.
Proof. induction sh; intros; cbn; auto. Qed.

Lemma evs_address sh st k : pos sh -> length st = length sh -> 0 <= k ->
  evs (rev st) (rev sh) k = address sh st k.
Proof.
  intros Hp Hl Hk. destruct sh as [|n sh]; [destruct st; [reflexivity|discriminate]|].
  unfold evs, address. rewrite <- (digits_rev_index_at (n :: sh)); [|assumption|assumption|discriminate].
  rewrite <- (dot_rev st (rev (digits (rev (n :: sh)) k))).
  - rewrite rev_involutive. reflexivity.
  - rewrite rev_length, digits_length, rev_length. assumption.
Qed.

Lemma pos_vol sh : pos sh -> 0 < vol sh.
Proof. apply vol_pos. Qed.
Lemma pos_rev sh : pos sh -> pos (rev sh).
Proof. apply Forall_rev. Qed.

(** ** ViewIndex: flattening *)
Fixpoint deltas_ok (rewind : Z) (es : list ventry) : Prop :=
  match es with
  | [] => True
  | e :: r => ve_delta e = ve_stride e - rewind /\ deltas_ok (ve_shape e * ve_stride e) r
  end.

Lemma vi_flatten_ok l : forall rewind cur es, vi_flatten rewind cur l = Ok es ->
  pos (map fst l) -> (match cur with Some e => 0 < ve_shape e /\ rewind = ve_shape e * ve_stride e | None => rewind = 0 end) ->
  let c := match cur with Some e => [e] | None => [] end in
  pos (map ve_shape es) /\
  vol (map ve_shape es) = vol (map ve_shape c) * vol (map fst l) /\
  (forall k, 0 <= k -> evs (map ve_stride es) (map ve_shape es) k =
                       evs (map ve_stride c ++ map snd l) (map ve_shape c ++ map fst l) k) /\
  match cur with
  | Some e => exists n r, es = mkventry n (ve_delta e) (ve_stride e) :: r /\ deltas_ok (n * ve_stride e) r
  | None => deltas_ok rewind es
  end.
Proof.
  induction l as [|[n s] l IH]; intros rewind cur es HE Hp Hc; cbn [vi_flatten] in HE.
  - injection HE as <-. cbv zeta. destruct cur as [e|]; cbn.
    + repeat split; try lia. { repeat constructor; tauto. }
      exists (ve_shape e), []. destruct e; split; [reflexivity|exact I].
    + repeat split; try lia. constructor.
  - cbn [map fst snd] in Hp. inversion Hp as [|? ? Hn Hp']; subst.
    destruct (negb (s - rewind =? 0) || (s =? 0)) eqn:Ecase.
    + cbv zeta in HE. destruct (vi_flatten _ _ l) as [r| |] eqn:Er; cbn [bind] in HE; try discriminate.
      injection HE as <-. specialize (IH _ _ _ Er Hp'). cbn [ve_shape ve_stride ve_delta map] in IH.
      destruct IH as (IHp & IHv & IHe & IHd); [split; [lia|reflexivity]|].
      destruct IHd as (n' & r' & -> & IHd).
      destruct cur as [e|]; cbv zeta; cbn [map app ve_shape ve_stride ve_delta fst snd].
      * destruct Hc as [Hse Hrw].
        repeat split.
        -- constructor; assumption.
        -- cbn [map vol app ve_shape fst] in *. rewrite IHv. ring.
        -- intros k Hk. apply evs_prefix; try discriminate; auto.
        -- exists (ve_shape e), (mkventry n' (s - rewind) s :: r'). destruct e; cbn in *. subst. auto.
      * subst rewind. repeat split.
        -- assumption.
        -- cbn [map vol app ve_shape fst] in *. rewrite IHv. ring.
        -- intros k Hk. apply IHe. assumption.
        -- cbn. assumption.
    + destruct cur as [e|]; [|discriminate]. destruct Hc as [Hse Hrw].
      cbn [ve_shape ve_stride ve_delta] in *.
      specialize (IH _ _ _ HE Hp'). cbn [ve_shape ve_stride ve_delta map] in IH.
      assert (s = ve_shape e * ve_stride e) as Es by lia.
      destruct IH as (IHp & IHv & IHe & IHd); [split; [nia|rewrite Es; ring]|].
      cbv zeta. cbn [map app ve_shape ve_stride ve_delta fst snd] in *. repeat split.
      -- assumption.
      -- rewrite IHv. cbn [vol]. ring.
      -- intros k Hk. rewrite IHe by assumption. rewrite Es. symmetry. apply evs_merge; assumption.
      -- assumption.
Qed.

(** ** ViewIndex: stepping *)
Definition bump (d : Z) (l : list Z) : list Z := match l with c :: cs => c + d :: cs | [] => [] end.

Lemma succ_divmod q n : 0 < n -> 0 <= q ->
  (q mod n + 1 = n /\ (q + 1) mod n = 0 /\ (q + 1) / n = q / n + 1) \/
  (q mod n + 1 <> n /\ (q + 1) mod n = q mod n + 1 /\ (q + 1) / n = q / n).
Proof.
  intros Hn Hq. pose proof (Z.div_mod q n ltac:(lia)). pose proof (Z.mod_pos_bound q n Hn).
  destruct (Z.eq_dec (q mod n + 1) n) as [E|E].
  - left. split; [assumption|]. replace (q + 1) with ((q / n + 1) * n) by nia. rewrite Z.mod_mul, Z.div_mul by lia. auto.
  - right. split; [assumption|].
    split; [symmetry; apply (Z.mod_unique _ _ (q / n)); nia|symmetry; apply (Z.div_unique _ _ _ (q mod n + 1)); nia].
Qed.

Lemma digits_0 sh : pos sh -> digits sh 0 = repeat 0 (length sh).
Proof.
  induction sh as [|n [|m sh] IH]; intros Hp; [reflexivity|reflexivity|].
  inversion Hp; subst. rewrite digits_cons, Z.mod_0_l, Z.div_0_l by lia. cbn [length repeat]. f_equal. apply IH. assumption.
Qed.

Lemma digits_nonneg sh : pos sh -> forall k, 0 <= k -> nonneg (digits sh k).
Proof.
  induction sh as [|n [|m sh] IH]; intros Hp k Hk; [constructor|repeat constructor; assumption|].
  inversion Hp; subst. rewrite digits_cons. constructor; [apply Z.mod_pos_bound; lia|].
  apply IH; [assumption|apply Z.div_pos; lia].
Qed.

Lemma vi_outer_eq mem c c1 cs s ss d d1 ds : vi_increment_outer mem (c :: c1 :: cs) (s :: ss) (d :: d1 :: ds) =
  if c =? s then let (m, r) := vi_increment_outer (mem + d1) (c1 + 1 :: cs) ss (d1 :: ds) in (m, 0 :: r)
  else (mem, c :: c1 :: cs).
Proof. reflexivity. Qed.

Lemma vi_outer_ok es : forall q rw mem junk z z', pos (map ve_shape es) -> deltas_ok rw es -> es <> [] ->
  0 <= q -> q + 1 < vol (map ve_shape es) ->
  vi_increment_outer mem (bump 1 (digits (map ve_shape es) q) ++ junk) (map ve_shape es ++ z) (map ve_delta es ++ z') =
  (mem + (evs (map ve_stride es) (map ve_shape es) (q + 1) - dot (map ve_stride es) (bump 1 (digits (map ve_shape es) q))),
   digits (map ve_shape es) (q + 1) ++ junk).
Proof.
  induction es as [|e es IH]; intros q rw mem junk z z' Hp Hd Hne Hq Hlt; [congruence|].
  cbn [map] in *. inversion Hp as [|? ? Hn Hp']; subst. destruct Hd as [Hd1 Hd2].
  destruct es as [|e2 es].
  - cbn [map digits bump app vi_increment_outer vol] in *.
    assert (q + 1 =? ve_shape e = false) as E by lia.
    assert (forall X : Z * list Z, X = (mem, q + 1 :: junk) ->
      X = (mem + (evs [ve_stride e] [ve_shape e] (q + 1) - dot [ve_stride e] [q + 1]), q + 1 :: junk)) as HX.
    { intros X ->. f_equal. unfold evs. cbn. lia. }
    apply HX. destruct junk; [reflexivity|]. destruct z'; [reflexivity|]. rewrite E. reflexivity.
  - cbn [map] in *. rewrite digits_cons. cbn [bump app].
    assert (0 < vol (map ve_shape (e2 :: es))) by (apply pos_vol; assumption). cbn [map] in *.
    assert (exists c cs, digits (ve_shape e2 :: map ve_shape es) (q / ve_shape e) = c :: cs) as (c & cs & Ec).
    { destruct (digits (ve_shape e2 :: map ve_shape es) (q / ve_shape e)) eqn:E; [|eauto].
      apply (f_equal (@length Z)) in E. rewrite digits_length in E. discriminate. }
    rewrite Ec. cbn [app]. rewrite vi_outer_eq.
    destruct (succ_divmod q (ve_shape e)) as [(E1 & E2 & E3)|(E1 & E2 & E3)]; [lia..| |].
    + rewrite (proj2 (Z.eqb_eq _ _) E1).
      specialize (IH (q / ve_shape e) (ve_shape e * ve_stride e) (mem + ve_delta e2) junk z z').
      rewrite Ec in IH. cbn [bump app] in IH.
      rewrite IH; clear IH; try assumption; [| discriminate | apply Z.div_pos; lia | rewrite <- E3; apply Z.div_lt_upper_bound; [lia|exact Hlt]].
      rewrite digits_cons, E2, E3. f_equal. rewrite (evs_cons (ve_stride e)) by discriminate.
      rewrite E2, E3. cbn [dot]. destruct Hd2 as [Hd2 _]. lia.
    + rewrite (proj2 (Z.eqb_neq _ _) E1). rewrite digits_cons, E2, E3, Ec. f_equal.
      rewrite (evs_cons (ve_stride e)) by discriminate. rewrite E2, E3. unfold evs. rewrite Ec. cbn [dot]. lia.
Qed.

Lemma vi_outer_shape sh : forall mem coord dl, nonneg coord ->
  nonneg (snd (vi_increment_outer mem coord sh dl)) /\ length (snd (vi_increment_outer mem coord sh dl)) = length coord.
Proof.
  induction sh as [|s ss IH]; intros mem coord dl Hn; destruct coord as [|c [|c1 cs]]; try (split; [exact Hn|reflexivity]).
  destruct dl as [|d [|d1 ds]]; try (split; [exact Hn|reflexivity]).
  rewrite vi_outer_eq. destruct (c =? s); [|split; [exact Hn|reflexivity]].
  inversion Hn as [|? ? Hc Hn']; subst. inversion Hn' as [|? ? Hc1 Hn'']; subst.
  specialize (IH (mem + d1) (c1 + 1 :: cs) (d1 :: ds)).
  destruct (vi_increment_outer (mem + d1) (c1 + 1 :: cs) ss (d1 :: ds)) as [m r]. cbn [snd] in *.
  destruct IH as [IH1 IH2]; [constructor; [lia|assumption]|].
  split; [constructor; [lia|assumption]|]. cbn [length] in *. lia.
Qed.

(** Padding with zeros. *)
Lemma firstn_pad l n m : firstn (length l) (pad l n ++ m) = l.
Proof. unfold pad. rewrite <- app_assoc, firstn_app, Nat.sub_diag, firstn_all, firstn_O, app_nil_r. reflexivity. Qed.
Lemma firstn_pad' l n : firstn (length l) (pad l n) = l.
Proof. rewrite <- (app_nil_r (pad l n)). apply firstn_pad. Qed.

Record VInv (es : list ventry) (v : vindex) (p : Z) : Prop := {
  V_shape : vi_shape v = pad (map ve_shape es) NDIM_OP_MAX;
  V_delta : vi_delta v = pad (map ve_delta es) NDIM_OP_MAX;
  V_strides : vi_strides v = pad (map ve_stride es) NDIM_OP_MAX;
  V_ndim : vi_ndim v = length es;
  V_len : length (vi_coord v) = NDIM_OP_MAX;
  V_nn : nonneg (vi_coord v);
  V_pos : vi_pos v = p;
  V_mem : p < vol (map ve_shape es) -> vi_mem v = evs (map ve_stride es) (map ve_shape es) p /\
            (es <> [] -> exists junk, vi_coord v = digits (map ve_shape es) p ++ junk) }.

Lemma nonneg_bump d l : 0 <= d -> nonneg l -> nonneg (bump d l).
Proof. intros Hd Hn. destruct Hn; constructor; [lia|assumption]. Qed.

Lemma vi_increment_eq v : length (vi_coord v) = NDIM_OP_MAX -> length (vi_shape v) = NDIM_OP_MAX -> 
  length (vi_delta v) = NDIM_OP_MAX ->
  let r := vi_increment_outer (vi_mem v + hd 0 (vi_delta v)) (bump 1 (vi_coord v)) (vi_shape v) (vi_delta v) in
  vi_increment v = mkvindex (fst r) (vi_pos v + 1) (snd r) (vi_shape v) (vi_delta v) (vi_strides v) (vi_ndim v).
Proof.
  intros L1 L2 L3. unfold vi_increment. destruct (vi_coord v) as [|c [|c1 cs]]; try discriminate L1.
  destruct (vi_shape v) as [|s ss] eqn:Es; try discriminate L2. destruct (vi_delta v) as [|d [|d1 ds]]; try discriminate L3.
  cbn [bump hd]. rewrite vi_outer_eq. destruct (c + 1 =? s) eqn:E.
  - destruct (vi_increment_outer _ _ _ _) as [m r]. reflexivity.
  - reflexivity.
Qed.

Lemma pad_length l n : (length l <= n)%nat -> length (pad l n) = n.
Proof. unfold pad. rewrite app_length, repeat_length. lia. Qed.

Lemma VInv_inc es v p : pos (map ve_shape es) -> deltas_ok 0 es -> (length es <= NDIM_OP_MAX)%nat ->
  VInv es v p -> 0 <= p < vol (map ve_shape es) -> VInv es (vi_increment v) (p + 1).
Proof.
  intros Hp Hd Hl Hv Hlt. destruct (V_mem _ _ _ Hv) as [Hm Hc]; [lia|].
  assert (length (vi_shape v) = NDIM_OP_MAX) as Ls by (rewrite (V_shape _ _ _ Hv); apply pad_length; rewrite map_length; assumption).
  assert (length (vi_delta v) = NDIM_OP_MAX) as Ld by (rewrite (V_delta _ _ _ Hv); apply pad_length; rewrite map_length; assumption).
  pose proof (vi_increment_eq v (V_len _ _ _ Hv) Ls Ld) as HE. cbv zeta in HE.
  set (r := vi_increment_outer _ _ _ _) in *. rewrite HE.
  assert (nonneg (snd r) /\ length (snd r) = NDIM_OP_MAX) as [Hn1 Hn2].
  { destruct (vi_outer_shape (vi_shape v) (vi_mem v + hd 0 (vi_delta v)) (bump 1 (vi_coord v)) (vi_delta v)) as [A B].
    - apply nonneg_bump; [lia|apply (V_nn _ _ _ Hv)].
    - split; [exact A|]. unfold r. rewrite B. rewrite <- (V_len _ _ _ Hv). destruct (vi_coord v); reflexivity. }
  split; cbn [vi_shape vi_delta vi_strides vi_ndim vi_coord vi_pos vi_mem]; try apply Hv; try assumption.
  { rewrite (V_pos _ _ _ Hv). reflexivity. }
  intros Hlt1. destruct es as [|e es].
  - cbn in Hlt1. lia.
  - destruct Hc as [junk Hc]; [discriminate|].
    assert (r = (vi_mem v + hd 0 (vi_delta v) + (evs (map ve_stride (e :: es)) (map ve_shape (e :: es)) (p + 1) -
                 dot (map ve_stride (e :: es)) (bump 1 (digits (map ve_shape (e :: es)) p))),
                 digits (map ve_shape (e :: es)) (p + 1) ++ junk)) as Er.
    { unfold r. rewrite Hc, (V_shape _ _ _ Hv), (V_delta _ _ _ Hv). unfold pad.
      rewrite <- vi_outer_ok with (rw := 0) (z := repeat 0 (NDIM_OP_MAX - length (map ve_shape (e :: es))))
        (z' := repeat 0 (NDIM_OP_MAX - length (map ve_delta (e :: es)))); try assumption; try lia; [|discriminate].
      f_equal. destruct (digits (map ve_shape (e :: es)) p) eqn:E; [|reflexivity].
      apply (f_equal (@length Z)) in E. rewrite digits_length in E. discriminate. }
    rewrite Er. cbn [fst snd]. split; [|eauto].
    rewrite Hm, (V_delta _ _ _ Hv). unfold pad. cbn [map app hd]. destruct Hd as [Hd _]. rewrite Hd.
    unfold evs at 1. cbn [map].
    destruct (digits (ve_shape e :: map ve_shape es) p) as [|c cs] eqn:E.
    { apply (f_equal (@length Z)) in E. rewrite digits_length in E. discriminate. }
    cbn [bump dot]. lia.
Qed.

Lemma VInv_set es v p k : pos (map ve_shape es) -> (length es <= NDIM_OP_MAX)%nat ->
  VInv es v p -> 0 <= k <= vol (map ve_shape es) -> VInv es (vi_set_index v k) k.
Proof.
  intros Hp Hl Hv Hk. unfold vi_set_index. rewrite (V_ndim _ _ _ Hv), (V_shape _ _ _ Hv), (V_strides _ _ _ Hv).
  rewrite <- (map_length ve_shape es), firstn_pad', (map_length ve_shape es), <- (map_length ve_stride es), firstn_pad'.
  set (d := extract_indices k (map ve_shape es)).
  assert (nonneg d /\ (length d <= NDIM_OP_MAX)%nat) as [Hd1 Hd2].
  { unfold d. destruct es as [|e es].
    - cbn. split; [repeat constructor; lia|unfold NDIM_OP_MAX; lia].
    - rewrite extract_digits; [|discriminate|assumption|lia].
      split; [apply digits_nonneg; [assumption|lia]|rewrite digits_length, map_length; assumption]. }
  split; cbn [vi_shape vi_delta vi_strides vi_ndim vi_coord vi_pos vi_mem]; try reflexivity; try apply Hv.
  - rewrite map_length. reflexivity.
  - rewrite app_length, skipn_length, (V_len _ _ _ Hv). lia.
  - apply Forall_app. split; [assumption|].
    apply Forall_forall. intros x Hx. pose proof (V_nn _ _ _ Hv) as Hn. unfold nonneg in Hn. rewrite Forall_forall in Hn.
    apply Hn. rewrite <- (firstn_skipn (length d)). apply in_or_app. auto.
  - intros Hlt. rewrite flat_index_dot. destruct es as [|e es].
    + split; [reflexivity|congruence].
    + unfold d. rewrite extract_digits; [|discriminate|assumption|lia]. split; [|eauto].
      unfold evs. rewrite <- (app_nil_r (map ve_stride (e :: es))), dot_app by (rewrite digits_length, !map_length; reflexivity).
      rewrite app_nil_r. cbn [dot]. lia.
Qed.

Lemma vi_flatten_nil_len l : forall rw cur es, vi_flatten rw cur l = Ok es ->
  (length es <= length l + match cur with Some _ => 1 | None => 0 end)%nat.
Proof.
  induction l as [|[n s] l IH]; intros rw cur es HE; cbn [vi_flatten] in HE.
  - injection HE as <-. destruct cur; cbn; lia.
  - cbv zeta in HE. destruct (negb (s - rw =? 0) || (s =? 0)).
    + destruct (vi_flatten _ _ l) as [r| |] eqn:Er; cbn [bind] in HE; try discriminate. injection HE as <-.
      apply IH in Er. destruct cur; cbn [length] in *; lia.
    + destruct cur as [e|]; [|discriminate]. apply IH in HE. cbn [length]. lia.
Qed.

Lemma vi_flatten_total l : forall rw cur, (cur = None -> rw = 0) -> exists es, vi_flatten rw cur l = Ok es.
Proof.
  induction l as [|[n s] l IH]; intros rw cur Hc; cbn [vi_flatten]; [eauto|].
  cbv zeta. destruct (negb (s - rw =? 0) || (s =? 0)) eqn:E.
  - destruct (IH (n * s) (Some (mkventry n (s - rw) s))) as [es ->]; [discriminate|]. cbn. eauto.
  - destruct cur as [e|]; [apply IH; discriminate|]. rewrite Hc in E by reflexivity. lia.
Qed.

Lemma map_fst_combine {A B} (l : list A) (l' : list B) : length l' = length l -> map fst (combine l l') = l.
Proof. revert l'. induction l as [|x l IH]; intros [|y l'] Hl; try discriminate; [reflexivity|]. cbn. f_equal. apply IH. auto. Qed.
Lemma map_snd_combine {A B} (l : list A) (l' : list B) : length l' = length l -> map snd (combine l l') = l'.
Proof. revert l'. induction l as [|x l IH]; intros [|y l'] Hl; try discriminate; [reflexivity|]. cbn. f_equal. apply IH. auto. Qed.

Lemma dot_zero st : forall n, dot st (repeat 0 n) = 0.
Proof. induction st as [|s st IH]; intros [|n]; cbn [repeat dot]; try reflexivity. rewrite IH. lia. Qed.

Lemma vi_history sh st v os : nonneg sh -> length st = length sh -> vi_make sh st = Ok v ->
  vallowed (vol sh) 0 os ->
  let v' := fold_left vstep os v in
  let p := fold_left vpos os 0 in
  vi_pos v' = p /\ 0 <= p <= vol sh /\ (p < vol sh -> vi_mem v' = address sh st p).
Proof.
  intros Hnn Hl Hmk Hal. unfold vi_make in Hmk.
  destruct (vi_flatten 0 None (rev (combine sh st))) as [es| |] eqn:Ef; cbn [bind] in Hmk; try discriminate.
  destruct (NDIM_OP_MAX <? length es)%nat eqn:El; [discriminate|]. injection Hmk as <-.
  apply Nat.ltb_ge in El.
  pose proof (vol_nonneg _ Hnn) as Hv0.
  destruct (Z.eq_dec (vol sh) 0) as [Ez|Ez].
  { (* nothing to iterate *)
    assert (forall os p v, vallowed 0 p os -> 0 <= p <= 0 -> vi_pos v = p ->
      vi_pos (fold_left vstep os v) = fold_left vpos os p /\ 0 <= fold_left vpos os p <= 0) as HX.
    { clear. induction os as [|o os IH]; intros p v Ha Hp Hv; [auto|]. inversion Ha; subst; [lia|].
      cbn [fold_left vstep vpos]. apply IH; auto. }
    rewrite Ez in *. cbv zeta. edestruct HX as [A B]; [exact Hal|lia| |split; [exact A|split; [exact B|lia]]]. reflexivity. }
  assert (pos sh) as Hp by (apply vol_pos_all; [assumption|lia]).
  destruct (vi_flatten_ok _ _ _ _ Ef) as (Hpe & Hve & Hev & Hde); [|reflexivity|].
  { rewrite map_rev, map_fst_combine by assumption. apply pos_rev. assumption. }
  cbn [map app] in *. rewrite map_rev, map_fst_combine, vol_rev in Hve by assumption. cbn [vol] in Hve.
  rewrite Z.mul_1_l in Hve.
  assert (forall k, 0 <= k -> evs (map ve_stride es) (map ve_shape es) k = address sh st k) as Had.
  { intros k Hk. rewrite Hev by assumption. rewrite !map_rev, map_fst_combine, map_snd_combine by assumption.
    apply evs_address; assumption. }
  clear Hev.
  assert (forall os p v, vallowed (vol sh) p os -> 0 <= p <= vol sh -> VInv es v p ->
     VInv es (fold_left vstep os v) (fold_left vpos os p) /\ 0 <= fold_left vpos os p <= vol sh) as HX.
  { clear Hal os. induction os as [|o os IH]; intros p v Ha Hpp Hv; [auto|]. inversion Ha; subst; cbn [fold_left vstep vpos].
    - apply IH; [assumption|lia|]. apply VInv_inc; try assumption. rewrite Hve. lia.
    - apply IH; [assumption|lia|]. eapply VInv_set; try eassumption. rewrite Hve. lia. }
  cbv zeta. edestruct HX as [A B]; [exact Hal|lia| |].
  2:{ split; [apply A|]. split; [exact B|]. intros Hlt. rewrite <- Had by lia. apply A. rewrite Hve. assumption. }
  split; cbn; try reflexivity.
  - repeat constructor; lia.
  - intros _. split.
    + unfold evs. rewrite digits_0 by assumption. symmetry. apply dot_zero.
    + intros _. rewrite digits_0 by assumption. exists (repeat 0 (NDIM_OP_MAX - length es)).
      rewrite map_length, <- repeat_app. replace (length es + (NDIM_OP_MAX - length es))%nat with NDIM_OP_MAX by lia. reflexivity.
Qed.

Lemma vi_make_ok sh st : (length sh <= NDIM_OP_MAX)%nat -> length st = length sh -> exists v, vi_make sh st = Ok v.
Proof.
  intros Hl Hs. unfold vi_make. destruct (vi_flatten_total (rev (combine sh st)) 0 None) as [es E]; [reflexivity|].
  rewrite E. cbn [bind]. pose proof (vi_flatten_nil_len _ _ _ _ E) as L. rewrite rev_length, combine_length in L.
  destruct (Nat.ltb_spec NDIM_OP_MAX (length es)); [lia|]. eauto.
Qed.

(** ** MultiIndex: vectors of positions *)
Definition colj (j : nat) (st : list (list Z)) : list Z := map (fun v => nth j v 0) st.
Definition lens (n : nat) (st : list (list Z)) : Prop := Forall (fun v => length v = n) st.

Lemma vadd_length a b : length b = length a -> length (vadd a b) = length a.
Proof. intros E. unfold vadd. rewrite map_length, combine_length, E. apply Nat.min_id. Qed.
Lemma vadd_nth a : forall b j, length b = length a -> nth j (vadd a b) 0 = nth j a 0 + nth j b 0.
Proof.
  induction a as [|x a IH]; intros [|y b] j E; try discriminate; [destruct j; reflexivity|].
  destruct j; [reflexivity|]. cbn. apply IH. injection E; auto.
Qed.
Lemma vscale_length c a : length (vscale c a) = length a.
Proof. apply map_length. Qed.
Lemma vscale_nth c a : forall j, nth j (vscale c a) 0 = c * nth j a 0.
Proof. induction a as [|x a IH]; intros [|j]; cbn [vscale map nth]; try lia. apply IH. Qed.
Lemma vzero_nth n j : nth j (vzero n) 0 = 0.
Proof. revert j. induction n; intros [|j]; cbn; auto. Qed.
Lemma vzero_length n : length (vzero n) = n.
Proof. apply repeat_length. Qed.

Lemma flat_indices_ok n coord : forall st, lens n st ->
  length (flat_indices n coord st) = n /\ forall j, nth j (flat_indices n coord st) 0 = dot (colj j st) coord.
Proof.
  induction coord as [|c coord IH]; intros st Hl.
  - split; [apply vzero_length|]. intros j. cbn [flat_indices]. rewrite vzero_nth. destruct st; reflexivity.
  - destruct Hl as [|v st Hv Hl].
    + split; [apply vzero_length|]. intros j. cbn [flat_indices colj map dot]. apply vzero_nth.
    + cbn [flat_indices]. destruct (IH st Hl) as [IH1 IH2].
      assert (length (flat_indices n coord st) = length (vscale c v)) as E by (rewrite vscale_length; congruence).
      split; [rewrite vadd_length, vscale_length by exact E; exact Hv|].
      intros j. rewrite vadd_nth, vscale_nth, IH2 by exact E. cbn [colj map dot]. unfold colj. lia.
Qed.

Lemma veq a b : length a = length b -> (forall j, nth j a 0 = nth j b 0) -> a = b.
Proof. intros. apply (nth_ext a b 0 0); auto. Qed.

Lemma carry_eq data c c1 cs s ss st st1 sts : carry data (c :: c1 :: cs) (s :: ss) (st :: st1 :: sts) =
  if at_end_dim c s
  then let (d, r) := carry (vadd data (vadd st1 (vscale (- c) st))) (c1 + 1 :: cs) ss (st1 :: sts) in (d, 0 :: r)
  else (data, c :: c1 :: cs).
Proof. reflexivity. Qed.

Lemma carry_data sh : forall n data coord st, length data = n -> lens n st ->
  length (fst (carry data coord sh st)) = n /\
  forall j, nth j (fst (carry data coord sh st)) 0 =
            nth j data 0 + dot (colj j st) (snd (carry data coord sh st)) - dot (colj j st) coord.
Proof.
  induction sh as [|s ss IH]; intros n data coord st Hd Hl;
    destruct coord as [|c [|c1 cs]]; try (split; [exact Hd|intros; cbn [carry fst snd]; lia]).
  destruct Hl as [|v st Hv Hl]; try (split; [exact Hd|intros; cbn [carry fst snd]; lia]).
  destruct Hl as [|v1 st Hv1 Hl]; try (split; [exact Hd|intros; cbn [carry fst snd]; lia]).
  rewrite carry_eq. destruct (at_end_dim c s); [|split; [exact Hd|intros; cbn [fst snd]; lia]].
  assert (length (vadd v1 (vscale (- c) v)) = n) as L
    by (rewrite vadd_length by (rewrite vscale_length; congruence); exact Hv1).
  specialize (IH n (vadd data (vadd v1 (vscale (- c) v))) (c1 + 1 :: cs) (v1 :: st)).
  destruct (carry (vadd data (vadd v1 (vscale (- c) v))) (c1 + 1 :: cs) ss (v1 :: st)) as [dd rr]. cbn [fst snd] in *.
  destruct IH as [IH1 IH2]; [rewrite vadd_length; congruence|constructor; assumption|].
  split; [exact IH1|]. intros j. rewrite IH2.
  rewrite !vadd_nth, vscale_nth by (rewrite ?vscale_length; congruence).
  cbn [colj map dot]. lia.
Qed.

Lemma add_divmod q d n : 0 < n -> 0 <= q -> 0 <= d -> q mod n + d <= n ->
  (q mod n + d = n /\ (q + d) mod n = 0 /\ (q + d) / n = q / n + 1) \/
  (q mod n + d <> n /\ (q + d) mod n = q mod n + d /\ (q + d) / n = q / n).
Proof.
  intros Hn Hq Hd Hle. pose proof (Z.div_mod q n ltac:(lia)). pose proof (Z.mod_pos_bound q n Hn).
  destruct (Z.eq_dec (q mod n + d) n) as [E|E].
  - left. split; [assumption|]. replace (q + d) with ((q / n + 1) * n) by nia. rewrite Z.mod_mul, Z.div_mul by lia. auto.
  - right. split; [assumption|].
    split; [symmetry; apply (Z.mod_unique _ _ (q / n)); nia|symmetry; apply (Z.div_unique _ _ _ (q mod n + d)); nia].
Qed.

Lemma at_end_pos c n : 0 < n -> at_end_dim c n = (c =? n).
Proof. intros. unfold at_end_dim. f_equal. lia. Qed.

(** [d] more steps stay within the current innermost row (or end it). *)
Definition in_row (sh : list Z) (q d : Z) : Prop := match sh with n :: _ :: _ => q mod n + d <= n | _ => True end.

Lemma digits_ne n sh k : exists c cs, digits (n :: sh) k = c :: cs.
Proof. destruct sh; [exists k, []; reflexivity|]. rewrite digits_cons. eauto. Qed.

Lemma carry_digits sh : forall q d data st, sh <> [] -> pos sh -> length st = length sh -> 0 <= q -> 0 <= d ->
  in_row sh q d -> snd (carry data (bump d (digits sh q)) sh st) = digits sh (q + d).
Proof.
  induction sh as [|n sh IH]; intros q d data st Hne Hp Hl Hq Hd Hr; [congruence|].
  destruct sh as [|m sh].
  - cbn [digits bump]. destruct st as [|v [|]]; try discriminate. reflexivity.
  - destruct st as [|v [|v1 st]]; try discriminate. inversion Hp as [|? ? Hn Hp']; subst.
    rewrite !digits_cons. cbn [bump]. destruct (digits_ne m sh (q / n)) as (c & cs & E).
    rewrite E, carry_eq, at_end_pos by assumption. cbn [in_row] in Hr.
    destruct (add_divmod q d n) as [(E1 & E2 & E3)|(E1 & E2 & E3)]; try assumption.
    + rewrite (proj2 (Z.eqb_eq _ _) E1).
      specialize (IH (q / n) 1 (vadd data (vadd v1 (vscale (- (q mod n + d)) v))) (v1 :: st)).
      rewrite E in IH. cbn [bump] in IH.
      destruct (carry _ (c + 1 :: cs) _ _) as [dd rr]. cbn [snd] in *. rewrite E2, E3. f_equal.
      apply IH; [discriminate|assumption|injection Hl; intros; cbn; congruence|apply Z.div_pos; lia|lia|].
      destruct sh; [exact I|]. cbn. inversion Hp'; subst. pose proof (Z.mod_pos_bound (q / n) m). lia.
    + rewrite (proj2 (Z.eqb_neq _ _) E1). cbn [snd]. rewrite E2, E3, E. reflexivity.
Qed.

Lemma digits_bump sh q d : pos sh -> 0 <= q -> 0 <= d ->
  match sh with n :: _ :: _ => q mod n + d < n | _ => True end ->
  digits sh (q + d) = bump d (digits sh q).
Proof.
  intros Hp Hq Hd Hr. destruct sh as [|n [|m sh]]; [reflexivity|reflexivity|].
  inversion Hp; subst. rewrite !digits_cons. cbn [bump].
  destruct (add_divmod q d n) as [(E1 & E2 & E3)|(E1 & E2 & E3)]; try lia. rewrite E2, E3. reflexivity.
Qed.

Lemma list_eqb_spec a : forall b, list_eqb a b = true <-> a = b.
Proof.
  induction a as [|x a IH]; intros [|y b]; cbn; try (split; congruence).
  rewrite andb_true_iff, IH, Z.eqb_eq. split; [intros [-> ->]; reflexivity|intros [= -> ->]; auto].
Qed.

Lemma digits_inj sh j k : sh <> [] -> pos sh -> 0 <= j -> 0 <= k -> digits sh j = digits sh k -> j = k.
Proof.
  revert j k. induction sh as [|n [|m sh] IH]; intros j k Hne Hp Hj Hk E; [congruence|cbn in E; congruence|].
  rewrite !digits_cons in E. injection E as E1 E2. inversion Hp; subst.
  apply IH in E2; [|discriminate|assumption|apply Z.div_pos; lia..].
  rewrite (Z.div_mod j n), (Z.div_mod k n) by lia. congruence.
Qed.

(** ** States at a position *)
Definition sizes_of (es : list mentry) : list Z := map me_size es.
Definition strides_of_e (es : list mentry) : list (list Z) := map me_strides es.

Definition mi_state (n : nat) (es : list mentry) (k : Z) : mindex :=
  match es with
  | [] => mkmindex (vzero n) [k] [0] [vzero n] 0
  | _ => mkmindex (flat_indices n (digits (sizes_of es) k) (strides_of_e es)) (digits (sizes_of es) k)
                  (sizes_of es) (strides_of_e es) (length es)
  end.

Definition es_ok (n : nat) (es : list mentry) : Prop := pos (sizes_of es) /\ lens n (strides_of_e es).

Lemma mi_set_of n es k j : es_ok n es -> 0 <= k -> mi_set_index (mi_state n es j) k = mi_state n es k.
Proof.
  intros [Hp Hl] Hk. destruct es as [|e es].
  - unfold mi_set_index, mi_state. cbn [mi_data mi_ndim mi_shape mi_stride firstn extract_indices flat_indices].
    rewrite vzero_length. reflexivity.
  - unfold mi_set_index, mi_state. cbn [mi_data mi_ndim mi_shape mi_stride].
    rewrite (proj1 (flat_indices_ok n _ _ Hl)).
    assert (length (e :: es) = length (sizes_of (e :: es))) as E1 by (unfold sizes_of; rewrite map_length; reflexivity).
    assert (length (e :: es) = length (strides_of_e (e :: es))) as E2 by (unfold strides_of_e; rewrite map_length; reflexivity).
    rewrite E1 at 1. rewrite firstn_all. rewrite E2 at 1. rewrite firstn_all.
    rewrite extract_digits; [|discriminate|assumption|assumption]. f_equal.
    f_equal. rewrite E1. rewrite firstn_all. rewrite extract_digits; [reflexivity|discriminate|assumption|assumption].
Qed.

Lemma mi_begin n es : es_ok n es -> mi_of_entries n es = mi_state n es 0.
Proof.
  intros [Hp Hl]. destruct es as [|e es]; [reflexivity|]. unfold mi_of_entries, mi_state.
  rewrite digits_0 by assumption. f_equal.
  - destruct (flat_indices_ok n (repeat 0 (length (sizes_of (e :: es)))) _ Hl) as [L N].
    apply veq; [rewrite L; apply vzero_length|]. intros j. rewrite N, dot_zero. apply vzero_nth.
  - unfold sizes_of. rewrite map_length. reflexivity.
Qed.

Definition evol (es : list mentry) : Z := vol (sizes_of es).

Lemma mi_increment_eq m d :
  let r := carry (vadd (mi_data m) (vscale d (hd [] (mi_stride m)))) (bump d (mi_coord m)) (mi_shape m) (mi_stride m) in
  mi_increment_by m d = mkmindex (fst r) (snd r) (mi_shape m) (mi_stride m) (mi_ndim m).
Proof.
  unfold mi_increment_by. cbv zeta. set (data := vadd _ _).
  change (match mi_coord m with | [] => [] | c :: cs => c + d :: cs end) with (bump d (mi_coord m)).
  set (coord := bump d (mi_coord m)).
  destruct (at_end_dim (hd 0 coord) (hd 0 (mi_shape m))) eqn:Ea.
  - destruct (carry _ _ _ _); reflexivity.
  - destruct (mi_shape m) as [|s ss]; [destruct coord as [|c [|c1 cs]]; reflexivity|].
    destruct coord as [|c [|c1 cs]]; [reflexivity|reflexivity|].
    destruct (mi_stride m) as [|v [|v1 sts]]; [reflexivity|reflexivity|].
    rewrite carry_eq. cbn [hd] in Ea. rewrite Ea. reflexivity.
Qed.

Lemma mi_inc_state n es k d : es_ok n es -> 0 <= k -> 0 < d -> in_row (sizes_of es) k d ->
  mi_increment_by (mi_state n es k) d = mi_state n es (k + d).
Proof.
  intros [Hp Hl] Hk Hd Hr. destruct es as [|e es].
  - unfold mi_increment_by, mi_state. cbn [mi_data mi_coord mi_shape mi_stride mi_ndim hd].
    assert (vadd (vzero n) (vscale d (vzero n)) = vzero n) as E.
    { apply veq; [rewrite vadd_length; [reflexivity|apply vscale_length]|]. intros j.
      rewrite vadd_nth, vscale_nth, vzero_nth by apply vscale_length. lia. }
    rewrite E. destruct (at_end_dim (k + d) 0); reflexivity.
  - rewrite mi_increment_eq. unfold mi_state at 1 2 3 4 5 6 7 8 9 10 11. cbn [mi_data mi_coord mi_shape mi_stride mi_ndim].
    set (sh := sizes_of (e :: es)) in *. set (st := strides_of_e (e :: es)) in *.
    destruct (flat_indices_ok n (digits sh k) st Hl) as [L N].
    set (data := vadd _ _).
    assert (length data = n /\ forall j, nth j data 0 = dot (colj j st) (bump d (digits sh k))) as [Ld Nd].
    { unfold data. assert (length (hd [] st) = n) as Lh by (inversion Hl; assumption).
      split; [rewrite vadd_length by (rewrite vscale_length; congruence); congruence|].
      intros j. rewrite vadd_nth, vscale_nth, N by (rewrite vscale_length; congruence).
      unfold sh, sizes_of. cbn [map]. destruct (digits_ne (me_size e) (map me_size es) k) as (c & cs & E).
      rewrite E. unfold st, strides_of_e. cbn [map colj hd bump dot]. lia. }
    assert (length st = length sh) as Lst by (unfold st, sh, strides_of_e, sizes_of; rewrite !map_length; reflexivity).
    assert (sh <> []) as Hne by discriminate.
    pose proof (carry_digits sh k d data st Hne Hp Lst Hk ltac:(lia) Hr) as Hcd.
    destruct (carry_data sh n data (bump d (digits sh k)) st Ld Hl) as [Lc Nc].
    destruct (carry data (bump d (digits sh k)) sh st) as [d' c'] eqn:Ec. cbn [fst snd] in *. subst c'.
    destruct (flat_indices_ok n (digits sh (k + d)) st Hl) as [L' N'].
    unfold mi_state. fold sh st. f_equal. apply veq; [congruence|]. intros j. rewrite Nc, N', Nd. lia.
Qed.

(** ** The block loop of transform *)
Lemma mi_eqb_state n es j k : es_ok n es -> 0 <= j -> 0 <= k -> mi_eqb (mi_state n es j) (mi_state n es k) = (j =? k).
Proof.
  intros [Hp _] Hj Hk. apply eq_true_iff_eq. unfold mi_eqb. rewrite list_eqb_spec, Z.eqb_eq.
  destruct es as [|e es]; cbn [mi_state mi_coord].
  - split; congruence.
  - split; [apply digits_inj; (discriminate || assumption)|congruence].
Qed.

Lemma zseq_app a n m : zseq a (n + m) = zseq a n ++ zseq (a + Z.of_nat n) m.
Proof.
  unfold zseq. rewrite seq_app, map_app. f_equal. cbn [plus].
  rewrite <- (map_id (seq 0 m)) at 1.
  assert (forall l k, map (fun x => a + Z.of_nat x) (map (fun i => (k + i)%nat) l) = map (fun x => a + Z.of_nat k + Z.of_nat x) l) as E.
  { intros l k. rewrite map_map. apply map_ext. intros. lia. }
  rewrite <- E. f_equal. rewrite map_id.
  clear. revert n. induction m as [|m IH]; intros n; [reflexivity|]. cbn [seq map]. rewrite Nat.add_0_r. f_equal.
  rewrite IH. rewrite <- seq_shift, map_map. apply map_ext. intros. lia.
Qed.
Lemma zseq_In a n x : In x (zseq a n) <-> a <= x < a + Z.of_nat n.
Proof.
  unfold zseq. rewrite in_map_iff. split.
  - intros (k & <- & Hk). apply in_seq in Hk. lia.
  - intros Hx. exists (Z.to_nat (x - a)). rewrite in_seq. lia.
Qed.
Lemma zseq_shift a n : zseq a n = map (fun i => a + i) (zseq 0 n).
Proof. unfold zseq. rewrite map_map. apply map_ext. intros. lia. Qed.

Lemma data_in_row n es b i : es_ok n es -> 0 <= b -> 0 <= i ->
  match sizes_of es with m :: _ :: _ => b mod m + i < m | _ => True end ->
  vadd (mi_data (mi_state n es b)) (vscale i (hd [] (mi_stride (mi_state n es b)))) = mi_data (mi_state n es (b + i)).
Proof.
  intros [Hp Hl] Hb Hi Hr. destruct es as [|e es].
  - cbn [mi_state mi_data mi_stride hd]. apply veq; [rewrite vadd_length; [reflexivity|apply vscale_length]|].
    intros j. rewrite vadd_nth, vscale_nth, vzero_nth by apply vscale_length. lia.
  - unfold mi_state. cbn [mi_data mi_stride].
    set (sh := sizes_of (e :: es)) in *. set (st := strides_of_e (e :: es)) in *.
    destruct (flat_indices_ok n (digits sh b) st Hl) as [L N].
    destruct (flat_indices_ok n (digits sh (b + i)) st Hl) as [L' N'].
    assert (length (hd [] st) = n) as Lh by (inversion Hl; assumption).
    apply veq; [rewrite vadd_length by (rewrite vscale_length; congruence); congruence|].
    intros j. rewrite vadd_nth, vscale_nth, N, N' by (rewrite vscale_length; congruence).
    rewrite digits_bump by assumption. unfold sh, sizes_of. cbn [map].
    destruct (digits_ne (me_size e) (map me_size es) b) as (c & cs & E). rewrite E.
    unfold st, strides_of_e. cbn [map colj hd bump dot]. lia.
Qed.

Lemma inner_positions_ok n es b d : es_ok n es -> 0 <= b -> 0 <= d -> in_row (sizes_of es) b d ->
  inner_positions (mi_data (mi_state n es b)) (hd [] (mi_stride (mi_state n es b))) d =
  map (fun k => mi_data (mi_state n es k)) (zseq b (Z.to_nat d)).
Proof.
  intros Hok Hb Hd Hr. unfold inner_positions. rewrite (zseq_shift b), map_map. apply map_ext_in.
  intros i Hi. apply zseq_In in Hi. apply data_in_row; [assumption|assumption|lia|].
  destruct (sizes_of es) as [|m [|m' sh]]; [exact I|exact I|]. cbn in Hr. lia.
Qed.

Lemma mi_run_state n es : es_ok n es -> forall fuel b e, 0 <= b <= e -> e <= evol es -> e - b <= Z.of_nat fuel ->
  mi_run fuel (mi_state n es b) (mi_state n es e) =
  Ok (map (fun k => mi_data (mi_state n es k)) (zseq b (Z.to_nat (e - b)))).
Proof.
  intros Hok. induction fuel as [|fuel IH]; intros b e Hbe He Hf; cbn [mi_run]; rewrite mi_eqb_state by (assumption || lia).
  - assert (b = e) as -> by lia. rewrite Z.eqb_refl, Z.sub_diag. reflexivity.
  - destruct (Z.eqb_spec b e) as [->|Hne]; [rewrite Z.sub_diag; reflexivity|].
    set (d := if mi_same_chunk _ _ then _ else _).
    assert (0 < d <= e - b /\ in_row (sizes_of es) b d) as [Hd Hr].
    { unfold d, mi_same_chunk, mi_dist, mi_dist_end. destruct Hok as [Hp Hl].
      destruct es as [|x [|y es]].
      - cbn. lia.
      - cbn. lia.
      - unfold mi_state. cbn [mi_coord mi_shape]. unfold sizes_of in *. cbn [map] in *. rewrite !digits_cons.
        cbn [tl hd in_row]. inversion Hp as [|? ? Hx Hp']; subst.
        pose proof (Z.mod_pos_bound b (me_size x) Hx) as Hmb. pose proof (Z.div_mod b (me_size x) ltac:(lia)) as Hdb.
        pose proof (Z.mod_pos_bound e (me_size x) Hx) as Hme. pose proof (Z.div_mod e (me_size x) ltac:(lia)) as Hde.
        assert (b / me_size x <= e / me_size x) as Hle by (apply Z.div_le_mono; lia).
        destruct (list_eqb _ _) eqn:El.
        + apply list_eqb_spec, digits_inj in El; [|discriminate|assumption|apply Z.div_pos; lia..].
          split; [nia|]. nia.
        + assert (b / me_size x <> e / me_size x) by (intros E; rewrite E, (proj2 (list_eqb_spec _ _) eq_refl) in El; discriminate).
          split; [nia|]. lia. }
    assert (d =? 0 = false) as E0 by lia. rewrite E0.
    rewrite mi_inc_state by (assumption || lia).
    rewrite IH by lia. cbn [bind]. rewrite inner_positions_ok by (assumption || lia).
    rewrite <- map_app. f_equal. f_equal.
    replace (Z.to_nat (e - b)) with (Z.to_nat d + Z.to_nat (e - (b + d)))%nat by lia.
    rewrite zseq_app. repeat f_equal; lia.
Qed.

(** ** Flattening of iteration dimensions *)
Definition evj (j : nat) (es : list mentry) (k : Z) : Z := evs (colj j (strides_of_e es)) (sizes_of es) k.

Lemma evj_prefix j P : forall A B, pos (sizes_of P) -> A <> [] -> B <> [] ->
  (forall k, 0 <= k -> evj j A k = evj j B k) -> forall k, 0 <= k -> evj j (P ++ A) k = evj j (P ++ B) k.
Proof.
  induction P as [|p P IH]; intros A B Hp HA HB HE k Hk; [apply HE; assumption|].
  inversion Hp; subst. unfold evj, sizes_of, strides_of_e, colj in *. cbn [app map].
  apply evs_prefix; try assumption; try reflexivity.
  - destruct P, A; discriminate || congruence.
  - destruct P, B; discriminate || congruence.
  - apply IH; assumption.
Qed.

Lemma sizes_app a b : sizes_of (a ++ b) = sizes_of a ++ sizes_of b. Proof. apply map_app. Qed.
Lemma strides_app a b : strides_of_e (a ++ b) = strides_of_e a ++ strides_of_e b. Proof. apply map_app. Qed.
Lemma es_ok_app n a b : es_ok n (a ++ b) <-> es_ok n a /\ es_ok n b.
Proof.
  unfold es_ok, pos, lens. rewrite sizes_app, strides_app, !Forall_app. tauto.
Qed.
Lemma es_ok_cons n a b : es_ok n (a :: b) <-> (0 < me_size a /\ length (me_strides a) = n) /\ es_ok n b.
Proof.
  unfold es_ok, pos, lens, sizes_of, strides_of_e. cbn [map]. rewrite !Forall_cons_iff. tauto.
Qed.

Lemma flatten_stop cap nf l : forall sfc d acc es, d <= nf -> flatten_dims cap nf sfc d l acc = Ok es -> es = rev acc ++ l.
Proof.
  induction l as [|e l IH]; intros sfc d acc es Hd HE; cbn [flatten_dims] in HE.
  - injection HE as <-. rewrite app_nil_r. reflexivity.
  - destruct (cap <=? length acc)%nat; [discriminate|].
    assert (d >? nf = false) as E by lia. rewrite E in HE. cbn [andb] in HE.
    destruct acc; apply IH in HE; try lia; rewrite HE; cbn [rev]; rewrite <- ?app_assoc; reflexivity.
Qed.

Lemma flatten_ok cap nf n l : forall d a acc es,
  flatten_dims cap nf (vscale (me_size a) (me_strides a)) d l (a :: acc) = Ok es ->
  es_ok n (rev (a :: acc) ++ l) ->
  es_ok n es /\ evol es = evol (rev (a :: acc) ++ l) /\ es <> [] /\
  forall j k, 0 <= k -> evj j es k = evj j (rev (a :: acc) ++ l) k.
Proof.
  induction l as [|e l IH]; intros d a acc es HE Hok.
  - cbn [flatten_dims] in HE. injection HE as <-. rewrite app_nil_r in *.
    repeat split; try apply Hok. cbn [rev]. destruct (rev acc); discriminate.
  - destruct (Z.leb_spec d nf) as [Hd|Hd].
    { apply flatten_stop in HE; [|assumption]. subst es. repeat split; try apply Hok. cbn [rev]. destruct (rev acc); discriminate. }
    cbn [flatten_dims] in HE. destruct (cap <=? length (a :: acc))%nat; [discriminate|].
    assert (d >? nf = true) as Eg by lia. rewrite Eg in HE. cbn [andb negb] in HE. unfold can_be_flattened in HE.
    assert (rev (e :: a :: acc) ++ l = rev (a :: acc) ++ e :: l) as Erev.
    { change (rev (e :: a :: acc)) with (rev (a :: acc) ++ [e]). rewrite <- app_assoc. reflexivity. }
    destruct (list_eqb (me_strides e) (vscale (me_size a) (me_strides a))) eqn:El.
    + apply list_eqb_spec in El.
      cbn [rev] in Hok. rewrite <- app_assoc in Hok. cbn [app] in Hok.
      apply es_ok_app in Hok as [Hok1 Hok2]. rewrite !es_ok_cons in Hok2. destruct Hok2 as ([Ha La] & [He Le] & Hl).
      assert (map (Z.mul (me_size e)) (me_strides e) = vscale (me_size a * me_size e) (me_strides a)) as Es.
      { rewrite El. unfold vscale. rewrite map_map. apply map_ext. intros. ring. }
      rewrite Es in HE. 
      specialize (IH (d - 1) (mkmentry (me_size a * me_size e) (me_strides a)) acc es HE).
      cbn [rev] in *. rewrite <- !app_assoc in *. cbn [app] in *.
      destruct IH as (I1 & I2 & I3 & I4).
      { apply es_ok_app. split; [assumption|]. apply es_ok_cons. cbn. repeat split; [nia|assumption|apply Hl..]. }
      repeat split; try apply I1; try assumption.
      * rewrite I2. unfold evol. rewrite !sizes_app, !vol_app. unfold sizes_of. cbn [map vol me_size]. ring.
      * intros j k Hk. rewrite I4 by assumption. symmetry.
        apply evj_prefix; [apply Hok1|discriminate|discriminate| |assumption].
        intros k' Hk'. unfold evj, sizes_of, strides_of_e, colj. cbn [map me_size me_strides].
        rewrite El, vscale_nth. apply evs_merge; assumption.
    + specialize (IH (d - 1) e (a :: acc) es HE). rewrite Erev in IH. apply IH. assumption.
Qed.

Definition zeros (l : list Z) : Prop := Forall (fun x => x = 0) l.

Lemma zeros_vzero l : zeros l <-> l = vzero (length l).
Proof.
  unfold zeros, vzero. induction l as [|x l IH]; [split; [reflexivity|constructor]|].
  cbn [length repeat]. rewrite Forall_cons_iff, IH. split; [intros [-> <-]; reflexivity|intros E; injection E as -> E; auto].
Qed.
Lemma zeros_nth l j : zeros l -> nth j l 0 = 0.
Proof. intros Hz. apply zeros_vzero in Hz. rewrite Hz. apply vzero_nth. Qed.
Lemma zeros_dec l : zeros l \/ exists j, nth j l 0 <> 0.
Proof.
  induction l as [|x l IH]; [left; constructor|]. destruct (Z.eq_dec x 0) as [->|E]; [|right; exists O; assumption].
  destruct IH as [IH|[j IH]]; [left; constructor; auto|right; exists (S j); assumption].
Qed.

(** The dimensions between innermost and outermost, innermost first; the last element is the outermost. *)
Fixpoint safe_mid (l : list mentry) : Prop :=
  match l with
  | e :: ((_ :: _) as l') => zeros (me_strides e) -> me_size e = 1 /\ safe_mid l'
  | _ => True
  end.
Fixpoint unsafe_mid (l : list mentry) : Prop :=
  match l with
  | e :: ((_ :: _) as l') => zeros (me_strides e) /\ (me_size e <> 1 \/ unsafe_mid l')
  | _ => False
  end.
Lemma safe_or_unsafe l : safe_mid l \/ unsafe_mid l.
Proof.
  induction l as [|e [|e2 l] IH]; [left; exact I|left; exact I|].
  destruct (zeros_dec (me_strides e)) as [Hz|[j Hj]].
  - destruct (Z.eq_dec (me_size e) 1) as [E|E]; [|right; split; auto].
    destruct IH as [IH|IH]; [left; intros _; auto|right; split; auto].
  - left. intros Hz. rewrite (zeros_nth _ _ Hz) in Hj. congruence.
Qed.
Lemma safe_not_unsafe l : safe_mid l -> unsafe_mid l -> False.
Proof.
  induction l as [|e [|e2 l] IH]; [tauto|tauto|]. intros Hs [Hz Hu]. destruct (Hs Hz) as [E Hs']. destruct Hu; [congruence|auto].
Qed.

Lemma flatten_step_zero cap e l a n : (1 < cap)%nat -> l <> [] -> length (me_strides e) = n -> zeros (me_strides e) ->
  flatten_dims cap 0 (vzero n) (zlen (e :: l) - 1) (e :: l) [a] =
  flatten_dims cap 0 (vzero n) (zlen l - 1) l [mkmentry (me_size a * me_size e) (me_strides a)].
Proof.
  intros Hc Hl Hn Hz. cbn [flatten_dims length]. destruct (Nat.leb_spec cap 1); [lia|].
  assert (zlen (e :: l) - 1 >? 0 = true) as E by (unfold zlen; destruct l; [congruence|cbn [length]; lia]).
  rewrite E. cbn [andb negb]. unfold can_be_flattened.
  apply zeros_vzero in Hz. rewrite Hn in Hz. rewrite Hz, (proj2 (list_eqb_spec _ _) eq_refl).
  replace (map (Z.mul (me_size e)) (vzero n)) with (vzero n).
  - f_equal. unfold zlen. cbn [length]. lia.
  - apply veq; [rewrite map_length; reflexivity|]. intros j.
    change (map (Z.mul (me_size e)) (vzero n)) with (vscale (me_size e) (vzero n)). rewrite vscale_nth, vzero_nth. lia.
Qed.

Lemma flatten_cap1 cap e l a sfc d nf es : flatten_dims cap nf sfc d (e :: l) [a] = Ok es -> (1 < cap)%nat.
Proof. cbn [flatten_dims length]. destruct (Nat.leb_spec cap 1); [discriminate|auto]. Qed.

Lemma phase1_safe cap n l : forall a es,
  flatten_dims cap 0 (vzero n) (zlen l - 1) l [a] = Ok es -> es_ok n (a :: l) -> safe_mid l ->
  es_ok n es /\ evol es = evol (a :: l) /\ es <> [] /\ forall j k, 0 <= k -> evj j es k = evj j (a :: l) k.
Proof.
  induction l as [|e l IH]; intros a es HE Hok Hs.
  { cbn [flatten_dims rev app] in HE. injection HE as <-. repeat split; try apply Hok. discriminate. }
  destruct l as [|e2 l].
  { apply flatten_stop in HE; [|unfold zlen; cbn; lia]. cbn [rev app] in HE. subst es. repeat split; try apply Hok. discriminate. }
  pose proof (flatten_cap1 _ _ _ _ _ _ _ _ HE) as Hcap.
  pose proof Hok as Hok'. rewrite !es_ok_cons in Hok'. destruct Hok' as ([Ha La] & [He Le] & [H2 L2] & Hl).
  destruct (zeros_dec (me_strides e)) as [Hz|[j Hj]].
  - rewrite flatten_step_zero in HE by (assumption || discriminate).
    destruct (Hs Hz) as [E1 Hs']. apply IH in HE; [|rewrite !es_ok_cons; cbn; repeat split; try assumption; try apply Hl; nia|assumption].
    destruct HE as (I1 & I2 & I3 & I4). repeat split; try apply I1; try assumption.
    + rewrite I2. unfold evol, sizes_of. cbn [map vol me_size]. ring.
    + intros j k Hk. rewrite I4 by assumption. unfold evj, sizes_of, strides_of_e, colj. cbn [map me_size me_strides].
      rewrite E1, (zeros_nth _ j Hz). rewrite !Z.mul_1_r.
      rewrite (evs_cons _ _ (me_size a)) by discriminate. rewrite (evs_cons _ _ (me_size a)) by discriminate.
      rewrite (evs_cons 0) by discriminate. rewrite Z.div_1_r. ring.
  - cbn [flatten_dims length] in HE. destruct (Nat.leb_spec cap 1); [lia|].
    assert (zlen (e :: e2 :: l) - 1 >? 0 = true) as E by (unfold zlen; cbn [length]; lia).
    rewrite E in HE. cbn [andb negb] in HE. unfold can_be_flattened in HE.
    destruct (list_eqb (me_strides e) (vzero n)) eqn:El.
    { exfalso. apply list_eqb_spec in El. rewrite El, vzero_nth in Hj. congruence. }
    change (map (Z.mul (me_size e)) (me_strides e)) with (vscale (me_size e) (me_strides e)) in HE.
    change (if (cap <=? 2)%nat then _ else _) with
      (flatten_dims cap 0 (vscale (me_size e) (me_strides e)) (zlen (e :: e2 :: l) - 1 - 1) (e2 :: l) [e; a]) in HE.
    apply (flatten_ok cap 0 n) in HE; assumption.
Qed.

Lemma flatten_head cap nf l : forall sfc d acc es, flatten_dims cap nf sfc d l acc = Ok es -> acc <> [] ->
  pos (sizes_of acc) -> pos (sizes_of l) ->
  exists N es', es = mkmentry N (me_strides (last acc (mkmentry 0 []))) :: es' /\
                me_size (last acc (mkmentry 0 [])) <= N /\ pos (sizes_of es').
Proof.
  induction l as [|e l IH]; intros sfc d acc es HE Hne Hp Hl; cbn [flatten_dims] in HE.
  - injection HE as <-. destruct (exists_last Hne) as (r & a & ->). rewrite last_last, rev_app_distr. cbn [rev app].
    exists (me_size a), (rev r). destruct a; cbn. repeat split; [lia|].
    unfold pos, sizes_of in *. rewrite map_app in Hp. apply Forall_app in Hp as [Hp _]. rewrite map_rev. apply Forall_rev. assumption.
  - inversion Hl as [|? ? He Hl']; subst. destruct (cap <=? length acc)%nat; [discriminate|].
    destruct acc as [|a acc]; [congruence|]. inversion Hp as [|? ? Ha Hp']; subst.
    destruct ((d >? nf) && negb false).
    + cbn [can_be_flattened] in HE. destruct (list_eqb _ _).
      * apply IH in HE; [|discriminate|constructor; cbn; [nia|assumption]|assumption].
        destruct HE as (N & es' & HE & HN & Hpe). destruct acc as [|a2 acc].
        -- cbn [last me_strides me_size] in *. exists N, es'. repeat split; [assumption|nia|assumption].
        -- exists N, es'. repeat split; assumption.
      * apply IH in HE; [|discriminate|constructor; assumption|assumption]. exact HE.
    + apply IH in HE; [|discriminate|constructor; assumption|assumption]. exact HE.
Qed.

Lemma flatten_es_ok n cap nf l : forall sfc d acc es, flatten_dims cap nf sfc d l acc = Ok es -> es_ok n acc -> es_ok n l -> es_ok n es.
Proof.
  induction l as [|e l IH]; intros sfc d acc es HE Ha Hl; cbn [flatten_dims] in HE.
  - injection HE as <-. destruct Ha as [A B]. split; [unfold sizes_of; rewrite map_rev|unfold strides_of_e; rewrite map_rev];
      apply Forall_rev; assumption.
  - apply es_ok_cons in Hl as [He Hl]. destruct (cap <=? length acc)%nat; [discriminate|].
    assert (es_ok n (e :: acc)) as Hea by (apply es_ok_cons; auto).
    match type of HE with (let (_, _) := ?c in _) = _ => destruct c as [flat sfc'] end. destruct acc as [|a acc]; [destruct flat; eapply IH; eassumption|].
    destruct flat; eapply IH; try eassumption. apply es_ok_cons in Ha as [Ha Ha']. apply es_ok_cons. cbn. split; [split; [nia|tauto]|assumption].
Qed.

Lemma phase1_unsafe cap n l : forall a es,
  flatten_dims cap 0 (vzero n) (zlen l - 1) l [a] = Ok es -> es_ok n (a :: l) -> unsafe_mid l ->
  exists N es', es = mkmentry N (me_strides a) :: es' /\ me_size a < N /\ pos (sizes_of es').
Proof.
  induction l as [|e l IH]; intros a es HE Hok Hs; [destruct Hs|]. destruct l as [|e2 l]; [destruct Hs|].
  pose proof (flatten_cap1 _ _ _ _ _ _ _ _ HE) as Hcap.
  pose proof Hok as Hok'. rewrite !es_ok_cons in Hok'. destruct Hok' as ([Ha La] & [He Le] & [H2 L2] & Hl).
  destruct Hs as [Hz Hs]. rewrite flatten_step_zero in HE by (assumption || discriminate).
  destruct (Z.eq_dec (me_size e) 1) as [E1|E1].
  - destruct Hs as [Hs|Hs]; [congruence|]. apply IH in HE; [| |assumption].
    + cbn [me_size me_strides] in HE. rewrite E1, Z.mul_1_r in HE. exact HE.
    + rewrite !es_ok_cons. cbn. repeat split; try assumption; try apply Hl; nia.
  - apply flatten_head in HE; [|discriminate|repeat constructor; cbn; nia|constructor; [assumption|apply Hl]].
    cbn [last me_size me_strides] in HE. destruct HE as (N & es' & -> & HN & Hp). exists N, es'. repeat split; [nia|assumption].
Qed.

Lemma unsafe_address l : unsafe_mid l -> pos (sizes_of l) -> forall j, evj j l 1 = 0 /\ 1 < evol l.
Proof.
  induction l as [|e l IH]; intros Hu Hp j; [destruct Hu|]. destruct l as [|e2 l]; [destruct Hu|].
  destruct Hu as [Hz Hu]. inversion Hp as [|? ? He Hp']; subst.
  assert (0 < evol (e2 :: l)) as Hv by (apply pos_vol; assumption).
  destruct (Z.eq_dec (me_size e) 1) as [E1|E1].
  - destruct Hu as [Hu|Hu]; [congruence|]. destruct (IH Hu Hp' j) as [I1 I2].
    unfold evj, evol, sizes_of, strides_of_e, colj in *. cbn [map] in *. rewrite E1, (zeros_nth _ j Hz), (evs_cons 0) by discriminate.
    rewrite Z.div_1_r, I1. split; [lia|]. cbn [vol] in *. lia.
  - unfold evj, evol, sizes_of, strides_of_e, colj in *. cbn [map] in *. rewrite (zeros_nth _ j Hz), (evs_cons 0) by discriminate.
    rewrite (Z.div_small 1) by lia. split; [|cbn [vol] in *; nia].
    unfold evs. rewrite digits_0 by assumption. rewrite dot_zero. lia.
Qed.

(** ** Connection to the iteration shape *)
Definition ent (sh : list Z) (sts : list (list Z)) (i : nat) : mentry := mkmentry (nth i sh 0) (map (stride_at i) sts).
Lemma iter_entries_eq sh sts : iter_entries sh sts = map (ent sh sts) (seq 0 (length sh)).
Proof. reflexivity. Qed.
Lemma zeros_ent sh sts i : zeros (me_strides (ent sh sts i)) <-> all_zero sts i.
Proof.
  unfold zeros, all_zero, ent. cbn [me_strides]. rewrite Forall_map, Forall_forall. unfold stride_at. reflexivity.
Qed.
Lemma rev_seq_S m : rev (seq 0 (S m)) = m :: rev (seq 0 m).
Proof. rewrite seq_S, rev_app_distr. reflexivity. Qed.

Lemma safe_mid_spec sh sts m : safe_mid (map (ent sh sts) (rev (seq 0 m))) <->
  forall d, (0 < d < m)%nat -> (forall i, (d <= i < m)%nat -> all_zero sts i) -> nth d sh 0 = 1.
Proof.
  induction m as [|m IH]; [split; [intros; lia|intros; exact I]|].
  rewrite rev_seq_S. cbn [map]. destruct m as [|m]; [split; [intros; lia|intros; exact I]|].
  rewrite rev_seq_S in *. cbn [map] in *.
  change (safe_mid (ent sh sts (S m) :: ent sh sts m :: map (ent sh sts) (rev (seq 0 m)))) with
    (zeros (me_strides (ent sh sts (S m))) -> me_size (ent sh sts (S m)) = 1 /\ safe_mid (ent sh sts m :: map (ent sh sts) (rev (seq 0 m)))).
  rewrite zeros_ent, IH. split.
  - intros Hs d Hd Hz. destruct Hs as [H1 H2]; [apply Hz; lia|].
    destruct (Nat.eq_dec d (S m)) as [->|Hne]; [assumption|]. apply H2; [lia|]. intros i Hi. apply Hz. lia.
  - intros Hs Hz. split.
    + apply Hs; [lia|]. intros i Hi. assert (i = S m) as -> by lia. assumption.
    + intros d Hd Hz'. apply Hs; [lia|]. intros i Hi. destruct (Nat.eq_dec i (S m)) as [->|]; [assumption|]. apply Hz'. lia.
Qed.

Lemma nth_seq_self (l : list Z) : map (fun i => nth i l 0) (seq 0 (length l)) = l.
Proof.
  induction l as [|x l IH]; [reflexivity|]. cbn [length seq map nth]. f_equal. rewrite <- seq_shift, map_map. exact IH.
Qed.

Lemma entries_ok sh sts : pos sh -> es_ok (length sts) (iter_entries sh sts).
Proof.
  intros Hp. split.
  - unfold sizes_of. rewrite iter_entries_eq, map_map. cbn [ent me_size]. rewrite nth_seq_self. assumption.
  - unfold strides_of_e, lens. rewrite iter_entries_eq, map_map. apply Forall_map, Forall_forall. intros i _. cbn. apply map_length.
Qed.
Lemma es_ok_rev n es : es_ok n es -> es_ok n (rev es).
Proof. intros [A B]. split; [unfold sizes_of; rewrite map_rev|unfold strides_of_e; rewrite map_rev]; apply Forall_rev; assumption. Qed.

Lemma entries_evj sh sts k j : pos sh -> Forall (fun st => length st = length sh) sts -> 0 <= k -> (j < length sts)%nat ->
  evj j (rev (iter_entries sh sts)) k = address sh (nth j sts []) k.
Proof.
  intros Hp Hl Hk Hj. rewrite <- evs_address; [|assumption| |assumption].
  2:{ rewrite Forall_forall in Hl. apply Hl. apply nth_In. assumption. }
  unfold evj, sizes_of, strides_of_e, colj. rewrite !map_rev, iter_entries_eq, !map_map.
  cbn [ent me_size me_strides]. rewrite nth_seq_self. f_equal. f_equal.
  rewrite <- (nth_seq_self (nth j sts [])). rewrite Forall_forall in Hl. rewrite (Hl (nth j sts [])) by (apply nth_In; assumption).
  apply map_ext. intros i. change (nth j (map (stride_at i) sts) 0) with (nth j (map (stride_at i) sts) 0).
  rewrite (nth_indep _ 0 (stride_at i [])) by (rewrite map_length; assumption). apply map_nth.
Qed.

Lemma nth_addresses sh sts k j : (j < length sts)%nat -> nth j (addresses sh sts k) 0 = address sh (nth j sts []) k.
Proof.
  intros Hj. unfold addresses. rewrite (nth_indep _ 0 (address sh [] k)) by (rewrite map_length; assumption).
  apply (map_nth (fun st => address sh st k)).
Qed.

(** What is known about the entries after construction. *)
Definition mi_good (sh : list Z) (sts : list (list Z)) (es : list mentry) : Prop :=
  es_ok (length sts) es /\ evol es = vol sh /\
  forall k, 0 <= k -> mi_data (mi_state (length sts) es k) = addresses sh sts k.

Lemma mi_data_evj n es k j : es_ok n es -> nth j (mi_data (mi_state n es k)) 0 = evj j es k.
Proof.
  intros [Hp Hl]. destruct es as [|e es]; [apply vzero_nth|]. unfold mi_state. cbn [mi_data].
  apply flat_indices_ok. assumption.
Qed.
Lemma mi_data_length n es k : es_ok n es -> length (mi_data (mi_state n es k)) = n.
Proof. intros [Hp Hl]. destruct es as [|e es]; [apply vzero_length|]. unfold mi_state. cbn [mi_data]. apply flat_indices_ok. assumption. Qed.

Lemma mi_make_good sh sts m : pos sh -> Forall (fun st => length st = length sh) sts ->
  mi_make sh sts = Ok m -> flattening_safe sh sts -> exists es, m = mi_state (length sts) es 0 /\ mi_good sh sts es.
Proof.
  intros Hp Hl Hmk Hs. unfold mi_make in Hmk. set (n := length sts) in *.
  destruct (flatten_dims _ _ _ _ _ _) as [es| |] eqn:Ef; cbn [bind] in Hmk; try discriminate. injection Hmk as <-.
  pose proof (es_ok_rev _ _ (entries_ok sh sts Hp)) as Hok. fold n in Hok.
  assert (es_ok n es /\ evol es = evol (rev (iter_entries sh sts)) /\
          forall j k, 0 <= k -> evj j es k = evj j (rev (iter_entries sh sts)) k) as (H1 & H2 & H3).
  { rewrite iter_entries_eq in *. rewrite <- map_rev in *.
    destruct (length sh) as [|m] eqn:Em.
    - cbn in Ef. injection Ef as <-. repeat split; constructor.
    - rewrite rev_seq_S in *. cbn [map] in *. set (a := ent sh sts m) in *. set (l := map (ent sh sts) (rev (seq 0 m))) in *.
      assert (zlen sh - 1 = zlen l) as Ez.
      { unfold l, zlen. rewrite map_length, rev_length, seq_length, Em. lia. }
      rewrite Ez in Ef. cbn [flatten_dims length] in Ef.
      change (NDIM_OP_MAX <=? 0)%nat with false in Ef. cbn [negb andb] in Ef. rewrite andb_false_r in Ef.
      destruct Hs as [Hs|Hs].
      + assert (vzero n = vscale (me_size a) (me_strides a)) as Esfc.
        { replace (length sh - 1)%nat with m in Hs by lia. apply (zeros_ent sh sts), zeros_vzero in Hs. fold a in Hs.
          assert (length (me_strides a) = n) as La by (apply es_ok_cons in Hok; apply Hok).
          rewrite La in Hs. rewrite Hs. apply veq; [rewrite vscale_length; reflexivity|].
          intros j. rewrite vscale_nth, vzero_nth. lia. }
        rewrite Esfc in Ef. apply (flatten_ok _ _ n) in Ef; [|exact Hok].
        destruct Ef as (I1 & I2 & I3 & I4). repeat split; try apply I1; assumption.
      + apply (phase1_safe _ n) in Ef; [|exact Hok|].
        * destruct Ef as (I1 & I2 & I3 & I4). repeat split; try apply I1; assumption.
        * apply safe_mid_spec. replace (length sh - 1)%nat with m in Hs by lia. exact Hs. }
  exists es. split; [apply mi_begin; assumption|]. split; [assumption|]. split.
  - rewrite H2. unfold evol, sizes_of. rewrite iter_entries_eq, map_rev, map_map. cbn [ent me_size]. rewrite nth_seq_self. apply vol_rev.
  - intros k Hk. apply (nth_ext _ _ 0 0).
    + rewrite mi_data_length by assumption. unfold addresses. rewrite map_length. reflexivity.
    + intros j Hj. rewrite mi_data_length in Hj by assumption.
      rewrite mi_data_evj, H3, nth_addresses by assumption. apply entries_evj; assumption.
Qed.

Lemma mi_make_bad sh sts m : pos sh -> Forall (fun st => length st = length sh) sts ->
  mi_make sh sts = Ok m -> ~ flattening_safe sh sts ->
  exists k, 0 <= k < vol sh /\ mi_data (mi_set_index m k) <> addresses sh sts k.
Proof.
  intros Hp Hl Hmk Hs. unfold mi_make in Hmk. set (n := length sts) in *.
  destruct (flatten_dims _ _ _ _ _ _) as [es| |] eqn:Ef; cbn [bind] in Hmk; try discriminate. injection Hmk as <-.
  pose proof (es_ok_rev _ _ (entries_ok sh sts Hp)) as Hok. fold n in Hok.
  assert (evol (rev (iter_entries sh sts)) = vol sh) as Hvol.
  { unfold evol, sizes_of. rewrite iter_entries_eq, map_rev, map_map. cbn [ent me_size]. rewrite nth_seq_self. apply vol_rev. }
  pose proof (fun j k => entries_evj sh sts k j Hp Hl) as Had. 
  rewrite iter_entries_eq in *. rewrite <- map_rev in *.
  destruct (length sh) as [|mm] eqn:Em.
  { exfalso. apply Hs. right. intros d Hd. rewrite Em in Hd. lia. }
  rewrite rev_seq_S in *. cbn [map] in *. set (a := ent sh sts mm) in *. set (l := map (ent sh sts) (rev (seq 0 mm))) in *.
  assert (zlen sh - 1 = zlen l) as Ez.
  { unfold l, zlen. rewrite map_length, rev_length, seq_length, Em. lia. }
  rewrite Ez in Ef. cbn [flatten_dims length] in Ef.
  change (NDIM_OP_MAX <=? 0)%nat with false in Ef. cbn [negb andb] in Ef. rewrite andb_false_r in Ef.
  assert (exists j, nth j (me_strides a) 0 <> 0) as [j Hj].
  { destruct (zeros_dec (me_strides a)) as [Hz|]; [|assumption]. exfalso. apply Hs. left.
    apply (zeros_ent sh sts). rewrite Em. replace (S mm - 1)%nat with mm by lia. exact Hz. }
  assert (unsafe_mid l) as Hu.
  { destruct (safe_or_unsafe l) as [Hsm|]; [|assumption]. exfalso. apply Hs. right.
    rewrite Em. replace (S mm - 1)%nat with mm by lia. apply safe_mid_spec. exact Hsm. }
  assert (length (me_strides a) = n /\ 0 < me_size a /\ es_ok n l) as (La & Hsa & Hokl) by (apply es_ok_cons in Hok; tauto).
  assert (j < n)%nat as Hjn by (rewrite <- La; apply Nat.nle_gt; intros C; apply Hj, nth_overflow; exact C).
  assert (es_ok n es) as Hes.
  { apply (flatten_es_ok n) in Ef; [assumption| |assumption]. apply es_ok_cons. repeat split; try assumption; constructor. }
  apply (phase1_unsafe _ n) in Ef; [|exact Hok|exact Hu].
  destruct (unsafe_address l Hu (proj1 Hokl) j) as [Hu1 Hu2].
  assert (l <> []) as Hlne by (intros E; rewrite E in Hu; destruct Hu).
  destruct Ef as (N & es' & -> & HN & Hpe).
  exists (me_size a). assert (0 <= me_size a < vol sh) as Hk.
  { rewrite <- Hvol. unfold evol, sizes_of in *. cbn [map vol]. nia. }
  split; [exact Hk|]. intros E. rewrite mi_begin, mi_set_of in E by (assumption || lia).
  apply (f_equal (fun v => nth j v 0)) in E. rewrite nth_addresses in E by assumption.
  rewrite <- Had in E by (assumption || lia). rewrite mi_data_evj in E by assumption.
  assert (evj j (a :: l) (me_size a) = 0) as E1.
  { unfold evj, sizes_of, strides_of_e, colj in *. cbn [map] in *.
    rewrite evs_cons by (destruct l; [congruence|discriminate]). rewrite Z.mod_same, Z.div_same, Hu1 by lia. lia. }
  assert (evj j (mkmentry N (me_strides a) :: es') (me_size a) = nth j (me_strides a) 0 * me_size a) as E2.
  { unfold evj, sizes_of, strides_of_e, colj in *. cbn [map me_size me_strides] in *.
    destruct es' as [|e' es']; [apply evs_one|]. rewrite evs_cons by discriminate.
    rewrite Z.mod_small, Z.div_small by lia. unfold evs. rewrite digits_0 by exact Hpe. rewrite dot_zero. lia. }
  rewrite E1, E2 in E. apply Z.mul_eq_0 in E. destruct E; [congruence|lia].
Qed.

(** ** Statements for the property file *)
Lemma mi_increment_1 n es k : es_ok n es -> 0 <= k -> mi_increment (mi_state n es k) = mi_state n es (k + 1).
Proof.
  intros Hok Hk. apply mi_inc_state; [assumption|assumption|lia|]. destruct Hok as [Hp _].
  destruct (sizes_of es) as [|x [|y l]]; [exact I|exact I|]. cbn. inversion Hp; subst. pose proof (Z.mod_pos_bound k x). lia.
Qed.

Lemma digits_vol sh : sh <> [] -> pos sh -> digits sh (vol sh) = repeat 0 (length sh - 1) ++ [last sh 0].
Proof.
  intros Hne. induction sh as [|n [|m sh] IH]; intros Hp; [congruence| |].
  - cbn. f_equal. lia.
  - inversion Hp; subst. rewrite digits_cons. change (vol (n :: m :: sh)) with (n * vol (m :: sh)).
    rewrite Z.mul_comm, Z.mod_mul, Z.div_mul by lia. rewrite IH by (discriminate || assumption).
    cbn [length]. replace (S (S (length sh)) - 1)%nat with (S (S (length sh) - 1)) by lia. reflexivity.
Qed.

Lemma mi_end_state n es k : es_ok n es -> mi_coord (mi_set_to_end (mi_state n es k)) = mi_coord (mi_state n es (evol es)).
Proof.
  intros [Hp Hl]. destruct es as [|e es]; [reflexivity|]. unfold mi_set_to_end, mi_state. cbn [mi_coord mi_ndim length mi_shape].
  unfold evol. rewrite digits_vol by (discriminate || assumption). unfold sizes_of. rewrite map_length. cbn [length].
  replace (S (length es) - 1)%nat with (length es) by lia. reflexivity.
Qed.

Lemma mi_history sh sts m os : pos sh -> Forall (fun st => length st = length sh) sts -> mi_make sh sts = Ok m ->
  flattening_safe sh sts -> vallowed (vol sh) 0 os ->
  let m' := fold_left mstep os m in
  let p := fold_left vpos os 0 in
  0 <= p <= vol sh /\ (p < vol sh -> mi_data m' = addresses sh sts p) /\ mi_eqb m' (mi_set_to_end m) = (p =? vol sh).
Proof.
  intros Hp Hl Hmk Hs Hal. destruct (mi_make_good sh sts m Hp Hl Hmk Hs) as (es & -> & Hok & Hv & Hd).
  set (n := length sts) in *. pose proof (pos_vol _ Hp) as Hv0.
  assert (forall os p, vallowed (vol sh) p os -> 0 <= p <= vol sh ->
     fold_left mstep os (mi_state n es p) = mi_state n es (fold_left vpos os p) /\ 0 <= fold_left vpos os p <= vol sh) as HX.
  { clear Hal os. induction os as [|o os IH]; intros p Ha Hpp; [auto|]. inversion Ha; subst; cbn [fold_left mstep vpos].
    - rewrite mi_increment_1 by (assumption || lia). apply IH; [assumption|lia].
    - rewrite mi_set_of by (assumption || lia). apply IH; assumption. }
  destruct (HX os 0 Hal) as [A B]; [lia|]. cbv zeta. rewrite A. split; [exact B|]. split.
  - intros _. apply Hd. lia.
  - unfold mi_eqb. rewrite mi_end_state by assumption. rewrite Hv.
    change (mi_eqb (mi_state n es (fold_left vpos os 0)) (mi_state n es (vol sh)) = (fold_left vpos os 0 =? vol sh)).
    apply mi_eqb_state; [assumption|lia|lia].
Qed.

Lemma list_eqb_refl l : list_eqb l l = true.
Proof. apply list_eqb_spec. reflexivity. Qed.

Lemma mi_block_ok sh sts m b e : nonneg sh -> Forall (fun st => length st = length sh) sts -> mi_make sh sts = Ok m ->
  flattening_safe sh sts -> 0 <= b <= e -> e <= vol sh ->
  mi_block m b e = Ok (map (addresses sh sts) (zseq b (Z.to_nat (e - b)))).
Proof.
  intros Hnn Hl Hmk Hs Hbe He. destruct (Z.eq_dec b e) as [->|Hne].
  { unfold mi_block. rewrite Z.sub_diag. cbn [mi_run Z.to_nat]. unfold mi_eqb. rewrite list_eqb_refl. reflexivity. }
  assert (pos sh) as Hp by (apply vol_pos_all; [assumption|lia]).
  destruct (mi_make_good sh sts m Hp Hl Hmk Hs) as (es & -> & Hok & Hv & Hd).
  unfold mi_block. rewrite !mi_set_of by (assumption || lia). rewrite mi_run_state; [|assumption|assumption|lia|lia].
  f_equal. apply map_ext_in. intros k Hk. apply zseq_In in Hk. apply Hd. lia.
Qed.

Lemma flatten_len_ok cap nf l : forall sfc d acc, (length acc + length l <= cap)%nat -> exists es, flatten_dims cap nf sfc d l acc = Ok es.
Proof.
  induction l as [|e l IH]; intros sfc d acc Hc; cbn [flatten_dims]; [eauto|]. cbn [length] in Hc.
  destruct (Nat.leb_spec cap (length acc)); [lia|].
  match goal with |- exists es, (let (_, _) := ?c in _) = _ => destruct c as [flat sfc'] end.
  destruct flat; destruct acc as [|a acc]; apply IH; cbn [length] in *; lia.
Qed.
Lemma mi_make_total sh sts : (length sh <= NDIM_OP_MAX)%nat -> exists m, mi_make sh sts = Ok m.
Proof.
  intros Hl. unfold mi_make. 
  destruct (flatten_len_ok NDIM_OP_MAX 0 (rev (iter_entries sh sts)) (vzero (length sts)) (zlen sh - 1) []) as [es E].
  - rewrite rev_length, iter_entries_eq, map_length, seq_length. exact Hl.
  - rewrite E. cbn. eauto.
Qed.

Lemma mi_positions_iff sh sts m : pos sh -> Forall (fun st => length st = length sh) sts -> mi_make sh sts = Ok m ->
  ((forall k, 0 <= k < vol sh -> mi_data (mi_set_index m k) = addresses sh sts k) <-> flattening_safe sh sts).
Proof.
  intros Hp Hl Hmk. split.
  - intros Hall. 
    assert (flattening_safe sh sts \/ ~ flattening_safe sh sts) as [|Hn]; [|assumption|].
    { unfold flattening_safe. destruct (zeros_dec (me_strides (ent sh sts (length sh - 1)))) as [Hz|[j Hj]].
      - left. left. apply (zeros_ent sh). exact Hz.
      - destruct (safe_or_unsafe (map (ent sh sts) (rev (seq 0 (length sh - 1))))) as [Hsm|Hu].
        + left. right. apply safe_mid_spec. exact Hsm.
        + right. intros [Hz|Hm].
          * apply (zeros_ent sh) in Hz. rewrite (zeros_nth _ _ Hz) in Hj. congruence.
          * apply safe_mid_spec in Hm. exact (safe_not_unsafe _ Hm Hu). }
    destruct (mi_make_bad sh sts m Hp Hl Hmk Hn) as (k & Hk & Hbad). exfalso. apply Hbad, Hall, Hk.
  - intros Hs k Hk. destruct (mi_make_good sh sts m Hp Hl Hmk Hs) as (es & -> & Hok & Hv & Hd).
    rewrite mi_set_of by (assumption || lia). apply Hd. lia.
Qed.

Lemma vallowed_incs total n : forall p os, p + Z.of_nat n <= total -> vallowed total (p + Z.of_nat n) os ->
  vallowed total p (repeat VInc n ++ os).
Proof.
  induction n as [|n IH]; intros p os Hle Ha; cbn [repeat app].
  - replace (p + Z.of_nat 0) with p in Ha by lia. assumption.
  - constructor; [lia|]. apply IH; [lia|]. replace (p + 1 + Z.of_nat n) with (p + Z.of_nat (S n)) by lia. assumption.
Qed.

Lemma fold_vpos_incs n : forall p, fold_left vpos (repeat VInc n) p = p + Z.of_nat n.
Proof. induction n as [|n IH]; intros p; cbn [repeat fold_left vpos]; [lia|]. rewrite IH. lia. Qed.

Lemma vi_walk_ok sh st v : nonneg sh -> length st = length sh -> vi_make sh st = Ok v ->
  vi_walk (Z.to_nat (vol sh)) v (vol sh) = Ok (map (address sh st) (zseq 0 (Z.to_nat (vol sh)))).
Proof.
  intros Hnn Hl Hmk. pose proof (vol_nonneg _ Hnn) as Hv.
  assert (forall n k, 0 <= k -> k + Z.of_nat n = vol sh ->
    vi_walk n (fold_left vstep (repeat VInc (Z.to_nat k)) v) (vol sh) = Ok (map (address sh st) (zseq k n))) as HX.
  { induction n as [|n IH]; intros k Hk He;
      destruct (vi_history sh st v (repeat VInc (Z.to_nat k)) Hnn Hl Hmk) as (A & B & C);
      [rewrite <- app_nil_r; apply vallowed_incs; [lia|constructor]| |rewrite <- app_nil_r; apply vallowed_incs; [lia|constructor]|];
      rewrite fold_vpos_incs, Z2Nat.id, Z.add_0_l in * by lia; cbn [vi_walk]; rewrite A.
    - assert (k =? vol sh = true) as E by lia. rewrite E. reflexivity.
    - assert (k =? vol sh = false) as E by lia. rewrite E.
      specialize (IH (k + 1) ltac:(lia) ltac:(lia)).
      replace (Z.to_nat (k + 1)) with (Z.to_nat k + 1)%nat in IH by lia.
      rewrite repeat_app, fold_left_app in IH. cbn [repeat fold_left vstep] in IH.
      rewrite IH. cbn [bind]. rewrite C by lia. f_equal.
      change (S n) with (1 + n)%nat. rewrite zseq_app. cbn. rewrite Z.add_0_r. reflexivity. }
  rewrite <- HX with (k := 0); [reflexivity|lia|lia].
Qed.

Lemma vi_begin_end sh st v : vi_make sh st = Ok v -> vi_pos v = 0 /\ forall k, vi_pos (vi_set_index v k) = k.
Proof.
  unfold vi_make. destruct (vi_flatten _ _ _); cbn [bind]; try discriminate. destruct (_ <? _)%nat; [discriminate|].
  intros [= <-]. split; reflexivity.
Qed.
