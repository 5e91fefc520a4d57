(** C55: iterating over a dict that changes meanwhile. *)
From Verif Require Import Base Map_Model DictIter_Model DictIter_Spec DictIter_Proofs.

Section Props.
Context {K V : Type} (eqb : K -> K -> bool).
Variables (alloc grow : Z -> Z).

(** An iterator over items made at any time, pointing to any item, used after any history of operations
    on any dicts, throws, or gives the item that is then at its position. *)
Theorem C55_item : no_reuse alloc -> grows grow ->
  forall n (os : list (op K V)) w i d p os' w',
    steps eqb alloc grow (start n) os = Ok w -> getd w i = Ok d -> 0 <= p < zlen (keys_of w i) ->
    steps eqb alloc grow w os' = Ok w' ->
    deref w' (iter_at i d p) = Throw RuntimeError \/
    exists kv, deref w' (iter_at i d p) = Ok kv /\ item_at w' i (Z.to_nat p) kv.
Proof.
  intros Ha Hg n os w i d p os' w' Q G P Q'.
  pose proof (steps_inv eqb alloc grow Hg _ _ _ (start_inv _ _) Q) as W.
  pose proof (steps_inv eqb alloc grow Hg _ _ _ W Q') as W'.
  destruct (getd_keep w w' i d (steps_len _ _ _ _ _ _ Q') G) as [d' G'].
  rewrite (getd_keys _ _ _ G) in P.
  eapply (deref_ok eqb alloc); eauto using getd_inv.
Qed.

(** Iterators over keys or over values need no assumption about the allocator. *)
Theorem C55_keys_values : forall (w0 : world K V) i d p os' w',
  getd w0 i = Ok d -> steps eqb alloc grow w0 os' = Ok w' ->
  (0 <= p < zlen (keys_of w0 i) ->
   deref_key w' (key_at i d p) = Throw RuntimeError \/
   exists k, deref_key w' (key_at i d p) = Ok k /\ nth_error (keys_of w' i) (Z.to_nat p) = Some k) /\
  (0 <= p < zlen (values_of w0 i) ->
   deref_value w' (value_at i d p) = Throw RuntimeError \/
   exists v, deref_value w' (value_at i d p) = Ok v /\ nth_error (values_of w' i) (Z.to_nat p) = Some v).
Proof.
  intros w i d p os' w' G Q'.
  destruct (getd_keep w w' i d (steps_len _ _ _ _ _ _ Q') G) as [d' G'].
  rewrite (getd_keys _ _ _ G), (getd_values _ _ _ G).
  split; intros P; [eapply (deref_key_ok alloc)|eapply (deref_value_ok alloc)]; eauto.
Qed.

(** Whatever happened: if the size is not the one at the time the iterator was made, using it throws. *)
Theorem C55_changed_size : forall (w0 w : world K V) i d p e,
  getd w0 i = Ok d -> (i < length (w_dicts w))%nat -> zlen (keys_of w i) <> zlen (keys_of w0 i) ->
  deref w (iter_at i d p) = Throw RuntimeError /\
  incr w (iter_at i d p) = Throw RuntimeError /\
  ieq w (iter_at i d p) e = Throw RuntimeError /\
  deref_key w (key_at i d p) = Throw RuntimeError.
Proof.
  intros w0 w i d p e G L S. rewrite (getd_keys _ _ _ G) in S.
  destruct (nth_error (w_dicts w) i) as [d'|] eqn:X; [|apply nth_error_None in X; lia].
  apply getd_some in X. rewrite (getd_keys _ _ _ X) in S.
  assert (U : unchanged (d_keys d') (v_base (d_keys d)) (vsize (d_keys d)) = Throw RuntimeError).
  { unfold unchanged. replace (vsize (d_keys d') =? vsize (d_keys d)) with false by (unfold vsize; lia).
    rewrite orb_true_r. reflexivity. }
  unfold deref, incr, ieq, deref_key. cbn. rewrite X. cbn [bind]. rewrite U. repeat split; reflexivity.
Qed.

(** [find] gives the item of the key, or [end()]. *)
Theorem C55_find : grows grow -> forall n (os : list (op K V)) w i d k,
  steps eqb alloc grow (start n) os = Ok w -> getd w i = Ok d ->
  (exists p kv, ifind eqb i d k = iter_at i d (Z.of_nat p) /\ deref w (ifind eqb i d k) = Ok kv /\
                item_at w i p kv /\ eqb (fst kv) k = true /\ ieq w (ifind eqb i d k) (iter_end i d) = Ok false) \/
  ((forall k', In k' (keys_of w i) -> eqb k' k = false) /\ ifind eqb i d k = iter_end i d).
Proof.
  intros Hg n os w i d k Q G.
  pose proof (steps_inv eqb alloc grow Hg _ _ _ (start_inv _ _) Q) as W.
  pose proof (getd_inv _ _ _ _ W G) as D.
  unfold ifind. rewrite (getd_keys _ _ _ G).
  destruct (find_index eqb k (v_elems (d_keys d))) as [p|] eqn:F.
  - left. pose proof (find_index_lt _ _ _ _ F) as L.
    assert (FK : exists k', nth_error (v_elems (d_keys d)) p = Some k' /\ eqb k' k = true).
    { clear - F. revert p F. induction (v_elems (d_keys d)) as [|a l IH]; cbn [find_index]; [discriminate|].
      intros p. destruct (eqb a k) eqn:E.
      - intros X; injection X as <-. exists a; auto.
      - destruct (find_index eqb k l) as [q|]; cbn; [|discriminate].
        intros X; injection X as <-. apply (IH q eq_refl). }
    destruct FK as (k' & N & E).
    assert (LZ : 0 <= Z.of_nat p < vsize (d_keys d)) by (unfold vsize, zlen; lia).
    destruct (load_at alloc (d_keys d) (Z.of_nat p) LZ) as (x & Lx & Nx).
    destruct (load_at alloc (d_values d) (Z.of_nat p)) as (v & Lv & Nv); [rewrite (vsize_eq alloc); auto|].
    rewrite Nat2Z.id in Nx, Nv.
    exists p, (x, v). split; [reflexivity|]. split; [|split; [|split]].
    + unfold deref. cbn [iter_at it_dict it_base it_size it_key it_val]. rewrite G. cbn [bind].
      rewrite unchanged_eq by auto. cbn [bind]. rewrite Lx. cbn [bind]. rewrite Lv. reflexivity.
    + split; [rewrite (getd_keys _ _ _ G)|rewrite (getd_values _ _ _ G)]; auto.
    + cbn [fst]. congruence.
    + unfold ieq. cbn [iter_at it_dict it_base it_size it_key it_val iter_end]. rewrite G. cbn [bind].
      rewrite unchanged_eq by auto. cbn [bind]. f_equal. lia.
  - right. split; [|reflexivity]. clear - F. revert F.
    induction (v_elems (d_keys d)) as [|a l IH]; cbn [find_index]; [contradiction|].
    destruct (eqb a k) eqn:E; [discriminate|].
    destruct (find_index eqb k l); [discriminate|]. intros _ k' [<-|I]; auto.
Qed.

(** A loop over a dict, whatever its body does to whichever dicts: it ends after at most as many rounds
    as the dict had items, never touches memory it must not touch, and if it ends without an exception,
    the dict has as many items as there were at the beginning and it took that number of rounds. *)
Theorem C55_loop : no_reuse alloc -> grows grow ->
  forall n (os : list (op K V)) w i body fuel, (i < n)%nat ->
    steps eqb alloc grow (start n) os = Ok w -> (length (keys_of w i) < fuel)%nat ->
    exists r, loop eqb alloc grow fuel body i w = Some r /\
      match r with
      | Ok (l, w') => length l = length (keys_of w i) /\ length (keys_of w' i) = length (keys_of w i)
      | Throw _ => True
      | Ub => False
      end.
Proof.
  intros Ha Hg n os w i body fuel I Q F.
  pose proof (steps_inv eqb alloc grow Hg _ _ _ (start_inv _ _) Q) as W.
  assert (L : length (w_dicts w) = n)
    by (rewrite (steps_len _ _ _ _ _ _ Q); cbn; apply repeat_length).
  destruct (nth_error (w_dicts w) i) as [d|] eqn:G; [|apply nth_error_None in G; lia].
  apply getd_some in G. unfold loop. rewrite G. rewrite (getd_keys _ _ _ G) in *.
  destruct (each_ok eqb alloc grow Hg Ha body i d (iter_end i d) (getd_inv _ _ _ _ W G) eq_refl
              fuel w 0 []) as (r & E & R); auto; try (unfold vsize, zlen; cbn; lia).
  exists r. split; [exact E|]. destruct r as [[l w']| |]; auto.
  destruct R as (R1 & _ & R2). unfold vsize, zlen in *. lia.
Qed.

(** If the body keeps the keys of the dict (it may assign to the items), the loop visits every key once,
    in order, unless the body throws. *)
Theorem C55_visits : no_reuse alloc -> grows grow ->
  forall n (os : list (op K V)) w i d body fuel,
    steps eqb alloc grow (start n) os = Ok w -> getd w i = Ok d -> (length (keys_of w i) < fuel)%nat ->
    (forall x seen w1 d1 w2, getd w1 i = Ok d1 -> item_at w1 i (length seen) x ->
       steps eqb alloc grow w1 (body (x :: seen) w1) = Ok w2 ->
       exists d2, getd w2 i = Ok d2 /\ d_keys d2 = d_keys d1) ->
    exists r, loop eqb alloc grow fuel body i w = Some r /\
      match r with
      | Ok (l, _) => map fst l = keys_of w i
      | Throw x => exists seen w', steps eqb alloc grow w' (body seen w') = Throw x
      | Ub => False
      end.
Proof.
  intros Ha Hg n os w i d body fuel Q G F HB.
  pose proof (steps_inv eqb alloc grow Hg _ _ _ (start_inv _ _) Q) as W.
  unfold loop. rewrite G. rewrite (getd_keys _ _ _ G) in *.
  destruct (each_visits eqb alloc grow Hg Ha body i d (iter_end i d)
              (fun w1 => exists d1, getd w1 i = Ok d1 /\ d_keys d1 = d_keys d)
              (fun m x => nth_error (v_elems (d_keys d)) m = Some (fst x))
              (getd_inv _ _ _ _ W G) eq_refl) with (fuel := fuel) (w := w) (p := 0) (seen := @nil (K * V))
    as (r & E & R); auto; try (unfold vsize, zlen; cbn; lia).
  - intros w1 (d1 & G1 & E1). exists d1. rewrite E1. auto.
  - intros w1 m x (d1 & G1 & E1) [I1 _]. rewrite (getd_keys _ _ _ G1), E1 in I1. exact I1.
  - intros x seen w1 w2 (d1 & G1 & E1) IT Y. destruct (HB _ _ _ _ _ G1 IT Y) as (d2 & G2 & E2).
    exists d2. rewrite E2. auto.
  - eauto.
  - intros m x X. destruct m; discriminate.
  - exists r. split; [exact E|]. destruct r as [[l w']| |]; auto.
    destruct R as (R1 & _ & R2). unfold vsize, zlen in R1.
    apply nth_ext_error. intros m. rewrite nth_error_map.
    destruct (nth_error l m) as [x|] eqn:N; cbn [option_map].
    + symmetry; apply R2; auto.
    + symmetry. apply nth_error_None. apply nth_error_None in N. lia.
Qed.

(** If the body leaves the dict alone, the loop visits its items. *)
Theorem C55_visits_items : no_reuse alloc -> grows grow ->
  forall n (os : list (op K V)) w i d body fuel,
    steps eqb alloc grow (start n) os = Ok w -> getd w i = Ok d -> (length (keys_of w i) < fuel)%nat ->
    (forall x seen w1 w2, steps eqb alloc grow w1 (body (x :: seen) w1) = Ok w2 -> getd w2 i = getd w1 i) ->
    exists r, loop eqb alloc grow fuel body i w = Some r /\
      match r with
      | Ok (l, _) => l = combine (keys_of w i) (values_of w i)
      | Throw x => exists seen w', steps eqb alloc grow w' (body seen w') = Throw x
      | Ub => False
      end.
Proof.
  intros Ha Hg n os w i d body fuel Q G F HB.
  pose proof (steps_inv eqb alloc grow Hg _ _ _ (start_inv _ _) Q) as W.
  pose proof (getd_inv _ _ _ _ W G) as D.
  unfold loop. rewrite G. rewrite (getd_keys _ _ _ G), (getd_values _ _ _ G) in *.
  destruct (each_visits eqb alloc grow Hg Ha body i d (iter_end i d)
              (fun w1 => getd w1 i = Ok d)
              (fun m x => nth_error (v_elems (d_keys d)) m = Some (fst x) /\
                          nth_error (v_elems (d_values d)) m = Some (snd x))
              D eq_refl) with (fuel := fuel) (w := w) (p := 0) (seen := @nil (K * V))
    as (r & E & R); auto; try (unfold vsize, zlen; cbn; lia).
  - intros w1 G1. exists d. auto.
  - intros w1 m x G1 [I1 I2]. rewrite (getd_keys _ _ _ G1) in I1. rewrite (getd_values _ _ _ G1) in I2. auto.
  - intros x seen w1 w2 G1 IT Y. rewrite (HB _ _ _ _ Y); auto.
  - intros m x X. destruct m; discriminate.
  - exists r. split; [exact E|]. destruct r as [[l w']| |]; auto.
    destruct R as (R1 & _ & R2). unfold vsize, zlen in R1. destruct D as (LN & _).
    clear - R1 R2 LN. assert (R1' : length l = length (v_elems (d_keys d))) by lia. clear R1.
    revert R1' R2 LN. generalize (v_elems (d_keys d)) (v_elems (d_values d)).
    induction l as [|[k v] l IH]; intros ks vs R1 R2 LN.
    + destruct ks; [reflexivity|discriminate].
    + destruct ks as [|k' ks]; [discriminate|]. destruct vs as [|v' vs]; [discriminate|].
      destruct (R2 O (k, v) eq_refl) as [X Y]. cbn in X, Y. injection X as ->. injection Y as ->.
      cbn [combine]. f_equal. apply IH.
      * cbn in R1; lia.
      * intros m x N. apply (R2 (S m) x N).
      * cbn in LN; lia.
Qed.

(** Loops over const dicts, whose [end()] has the wrong value pointer, do the same. *)
Theorem C55_const : forall fuel body i (w : world K V),
  const_loop eqb alloc grow fuel body i w = loop eqb alloc grow fuel body i w.
Proof.
  intros fuel body i w. unfold const_loop, loop. destruct (getd w i) as [d| |]; auto.
  generalize (iter_at i d 0), (@nil (K * V)), w.
  induction fuel as [|f IH]; intros it seen w1; cbn [each]; [reflexivity|].
  replace (ieq w1 it (iter_cend i d)) with (ieq w1 it (iter_end i d)) by reflexivity.
  destruct (ieq w1 it (iter_end i d)) as [[]| |]; auto.
  destruct (do x <- deref w1 it; _) as [[[x w2] it2]| |]; auto.
Qed.

(** Without the addresses this is the dict of [Map_Model]. *)
Definition contents (d : dict K V) : vmap K V := mkmap (v_elems (d_keys d)) (v_elems (d_values d)).

Theorem C55_contents : forall n (d : dict K V) k v,
  (do r <- dset eqb alloc grow n d k v; Ok (contents (fst r))) = dinsert_or_assign eqb (contents d) k v /\
  (do r <- DictIter_Model.derase eqb d k; Ok (contents r)) = Map_Model.derase eqb (contents d) k /\
  contents (dclear d) = mclear (contents d).
Proof.
  intros n d k v. split; [|split; [|reflexivity]].
  - unfold dset, dinsert_or_assign. cbn [contents m_keys m_values].
    destruct (find_index eqb k (v_elems (d_keys d))) as [p|].
    + destruct (vset _ _ v); reflexivity.
    + unfold push_back. destruct (vsize (d_keys d) =? _), (vsize (d_values d) =? _); reflexivity.
  - unfold DictIter_Model.derase, Map_Model.derase, dextract, mindex. cbn [contents m_keys m_values].
    destruct (find_index eqb k (v_elems (d_keys d))) as [p|]; [|reflexivity]. cbn [bind].
    destruct (verase (v_elems (d_keys d)) (Z.of_nat p)); try reflexivity. cbn [bind].
    destruct (vget (v_elems (d_values d)) (Z.of_nat p)); try reflexivity. cbn [bind].
    destruct (verase (v_elems (d_values d)) (Z.of_nat p)); reflexivity.
Qed.

(** Histories seen without addresses: every operation does to the contents what its name says and
    leaves the other dicts alone. *)
Definition cstep (ms : list (vmap K V)) (o : op K V) : res (list (vmap K V)) :=
  let at_ i := match nth_error ms i with Some m => Ok m | None => Throw OutOfRange end in
  match o with
  | OSet i k v => do m <- at_ i; do m' <- dinsert_or_assign eqb m k v; Ok (upd ms i m')
  | OErase i k => do m <- at_ i; do m' <- Map_Model.derase eqb m k; Ok (upd ms i m')
  | OClear i => do _ <- at_ i; Ok (upd ms i (mkmap [] []))
  | OReserve i _ => do _ <- at_ i; Ok ms
  | OCopy i j => do _ <- at_ i; do m <- at_ j; Ok (upd ms i m)
  | OMove i j => do _ <- at_ i; do m <- at_ j; Ok (upd (upd ms i m) j (mkmap [] []))
  end.

Fixpoint csteps (ms : list (vmap K V)) (os : list (op K V)) : res (list (vmap K V)) :=
  match os with [] => Ok ms | o :: os' => do ms' <- cstep ms o; csteps ms' os' end.

Lemma map_upd {A B} (f : A -> B) l i x : map f (upd l i x) = upd (map f l) i (f x).
Proof. revert i; induction l as [|a l IH]; intros [|i]; cbn [upd map]; congruence. Qed.

Lemma upd_same {A} (l : list A) i x : nth_error l i = Some x -> upd l i x = l.
Proof.
  revert i; induction l as [|a l IH]; intros [|i] Q; cbn [upd nth_error] in *; try discriminate.
  - congruence.
  - f_equal; auto.
Qed.

Lemma cstep_ok (w : world K V) o :
  (do w' <- step eqb alloc grow w o; Ok (map contents (w_dicts w'))) =
  cstep (map contents (w_dicts w)) o.
Proof.
  assert (G : forall i, match nth_error (map contents (w_dicts w)) i with
                        | Some m => Ok m | None => Throw OutOfRange end
                        = (do d <- getd w i; Ok (contents d))).
  { intros i. rewrite nth_error_map. unfold getd. destruct (nth_error _ i); reflexivity. }
  assert (E : forall i d, getd w i = Ok d -> upd (map contents (w_dicts w)) i (contents d) = map contents (w_dicts w)).
  { intros i d Q. apply upd_same. rewrite nth_error_map. apply getd_some in Q. rewrite Q; reflexivity. }
  destruct o as [i k v|i k|i|i c|i j|i j]; cbn [step cstep]; rewrite !G;
    destruct (getd w i) as [d| |] eqn:Gi; try reflexivity; cbn [bind].
  - destruct (C55_contents (w_next w) d k v) as (Q & _ & _). rewrite <- Q.
    destruct (dset _ _ _ _ _ _ _) as [r| |]; try reflexivity. cbn. rewrite map_upd; reflexivity.
  - assert (Q : (do r <- DictIter_Model.derase eqb d k; Ok (contents r)) = Map_Model.derase eqb (contents d) k).
    { unfold DictIter_Model.derase, Map_Model.derase, dextract, mindex. cbn [contents m_keys m_values].
      destruct (find_index eqb k (v_elems (d_keys d))) as [p|]; [|reflexivity]. cbn [bind].
      destruct (verase (v_elems (d_keys d)) (Z.of_nat p)); try reflexivity. cbn [bind].
      destruct (vget (v_elems (d_values d)) (Z.of_nat p)); try reflexivity. cbn [bind].
      destruct (verase (v_elems (d_values d)) (Z.of_nat p)); reflexivity. }
    rewrite <- Q. destruct (DictIter_Model.derase eqb d k) as [r| |]; try reflexivity.
    cbn. rewrite map_upd; reflexivity.
  - cbn. rewrite map_upd. reflexivity.
  - unfold dreserve, reserve.
    destruct (v_cap (d_keys d) <? c), (v_cap (d_values d) <? c); cbn [bind w_dicts setd];
      rewrite map_upd; unfold contents at 2; cbn [d_keys d_values v_elems];
      (f_equal; apply (E i d Gi)).
  - destruct (getd w j) as [s| |]; try reflexivity. cbn [bind]. unfold dcopy, copy_assign.
    destruct (v_cap (d_keys d) <? _), (v_cap (d_values d) <? _); cbn [bind w_dicts setd];
      rewrite map_upd; reflexivity.
  - destruct (getd w j) as [s| |]; try reflexivity. cbn. rewrite !map_upd. reflexivity.
Qed.

Theorem C55_history : forall (os : list (op K V)) w,
  (do w' <- steps eqb alloc grow w os; Ok (map contents (w_dicts w'))) =
  csteps (map contents (w_dicts w)) os.
Proof.
  induction os as [|o os IH]; intros w; cbn [steps csteps]; [reflexivity|].
  rewrite <- cstep_ok. destruct (step eqb alloc grow w o) as [w1| |]; cbn [bind]; auto.
Qed.
End Props.

(** Concrete cases: allocator without reuse, doubling capacities. *)
Definition bump (n : Z) : Z := 100 * (n + 1).
Definition twice (n : Z) : Z := 2 * n + 1.

Lemma bump_ok : no_reuse bump.
Proof. unfold no_reuse, bump; split; intros; lia. Qed.
Lemma twice_ok : grows twice.
Proof. unfold grows, twice; intros; lia. Qed.

Definition three : list (op Z Z) := [OReserve 0 4; OSet 0 1 10; OSet 0 2 20; OSet 0 3 30].

(** The first item is replaced by another one: the dict has the same size, the iterator notices nothing
    and the loop skips item 2. *)
Definition replace_first (seen : list (Z * Z)) (_ : world Z Z) : list (op Z Z) :=
  match seen with [_] => [OErase 0 1; OSet 0 4 40] | _ => [] end.

Theorem C55_replaced_refuted :
  exists w w', steps Z.eqb bump twice (start 2) three = Ok w /\
    loop Z.eqb bump twice 10 replace_first 0 w = Some (Ok ([(1, 10); (3, 30); (4, 40)], w')) /\
    keys_of w' 0 = [2; 3; 4].
Proof. eexists. eexists. split; [vm_compute; reflexivity|]. split; vm_compute; reflexivity. Qed.

(** Growth during the loop is noticed. *)
Definition add_always (seen : list (Z * Z)) (_ : world Z Z) : list (op Z Z) :=
  [OSet 0 (zlen seen + 10) 0].
Example C55_grow_case :
  exists w, steps Z.eqb bump twice (start 2) three = Ok w /\
    loop Z.eqb bump twice 10 add_always 0 w = Some (Throw RuntimeError).
Proof. eexists. split; [vm_compute; reflexivity|]. vm_compute; reflexivity. Qed.

(** A body that assigns to the visited item meets the hypothesis of [C55_visits]. *)
Definition negate (seen : list (Z * Z)) (_ : world Z Z) : list (op Z Z) :=
  match seen with (k, v) :: _ => [OSet 0 k (- v)] | [] => [] end.

Example C55_visits_case : forall x seen (w1 : world Z Z) d1 w2, getd w1 0 = Ok d1 ->
  item_at w1 0 (length seen) x -> steps Z.eqb bump twice w1 (negate (x :: seen) w1) = Ok w2 ->
  exists d2, getd w2 0 = Ok d2 /\ d_keys d2 = d_keys d1.
Proof.
  intros [k v] seen w1 d1 w2 G [I _]. rewrite (getd_keys _ _ _ G) in I. cbn [fst] in I.
  cbn [negate steps step]. rewrite G. cbn [bind]. unfold dset.
  assert (F : exists p, find_index Z.eqb k (v_elems (d_keys d1)) = Some p).
  { apply nth_error_In in I. clear - I. induction (v_elems (d_keys d1)) as [|a l IH]; [destruct I|].
    cbn [find_index]. destruct (a =? k) eqn:E; [eauto|].
    destruct I as [->|I]; [lia|]. destruct (IH I) as [p ->]. cbn; eauto. }
  destruct F as [p ->]. destruct (vset _ _ _) as [l| |]; cbn [bind]; try discriminate.
  intros X; injection X as <-. apply getd_some in G.
  eexists. split; [apply getd_some; cbn|].
  - destruct (w_dicts w1); [discriminate|]. cbn. reflexivity.
  - reflexivity.
Qed.

Example C55_history_case :
  (do w <- steps Z.eqb bump twice (start 3) (three ++ [OCopy 1 0; OErase 1 2; OReserve 1 9; OMove 2 0]);
   Ok (map contents (w_dicts w))) =
  Ok [mkmap [] []; mkmap [1; 3] [10; 30]; mkmap [1; 2; 3] [10; 20; 30]].
Proof. vm_compute; reflexivity. Qed.

Example C55_visits_run :
  exists w w', steps Z.eqb bump twice (start 2) three = Ok w /\
    loop Z.eqb bump twice 10 negate 0 w = Some (Ok ([(1, 10); (2, 20); (3, 30)], w')) /\
    values_of w' 0 = [-10; -20; -30].
Proof. eexists. eexists. split; [vm_compute; reflexivity|]. split; vm_compute; reflexivity. Qed.

(** An allocator that hands out memory again once it is free. During the loop the dict grows twice and
    shrinks back: the keys are then where they were at the beginning, so the check passes, but the values
    are elsewhere, and the iterator reads memory that was given back. The allocations are correct: none
    overlaps with memory in use. *)
Definition reuse (n : Z) : Z :=
  nth (Z.to_nat n) [100; 200; 300; 400; 100; 500] (bump (n + 10)).

Definition grow_and_shrink : list (op Z Z) :=
  [OSet 0 3 30; OSet 0 4 40; OSet 0 5 50; OSet 0 6 60; OErase 0 3; OErase 0 4; OErase 0 5; OErase 0 6].

Fixpoint all_fresh (w : world Z Z) (os : list (op Z Z)) : bool :=
  match os with
  | [] => true
  | o :: os' => match step Z.eqb reuse twice w o with
                | Ok w' => fresh_blocks w w' && all_fresh w' os'
                | _ => false
                end
  end.

Theorem C55_reuse_refuted :
  let os := [OReserve 0 2; OSet 0 1 10; OSet 0 2 20] in
  exists w, steps Z.eqb reuse twice (start 1) os = Ok w /\
    all_fresh (start 1) (os ++ grow_and_shrink) = true /\
    loop Z.eqb reuse twice 10 (fun seen _ => match seen with [_] => grow_and_shrink | _ => [] end) 0 w =
      Some Ub.
Proof. eexists. split; [vm_compute; reflexivity|]. split; vm_compute; reflexivity. Qed.

Print Assumptions C55_item.
Print Assumptions C55_keys_values.
Print Assumptions C55_changed_size.
Print Assumptions C55_find.
Print Assumptions C55_loop.
Print Assumptions C55_visits.
Print Assumptions C55_visits_items.
Print Assumptions C55_const.
Print Assumptions C55_contents.
Print Assumptions C55_replaced_refuted.
Print Assumptions C55_reuse_refuted.
