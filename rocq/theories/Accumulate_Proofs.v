(** Proofs for [do_accumulate]. *)
From Coq Require Import Permutation.
From Verif Require Import Base Map_Model Dims_Model Dims_Spec Dims_Proofs Index_Proofs View_Spec View_Proofs
  Transform_Model Transform_Spec Transform_Proofs Accumulate_Spec Reduce_Proofs Accumulate_Model.

(** ** Folds *)
Section Fold.
Context {A : Type} (f : A -> A -> A).
Hypothesis fcomm : forall x y, f x y = f y x.
Hypothesis fassoc : forall x y z, f x (f y z) = f (f x y) z.
Lemma fold_shift l : forall x a, fold_left f l (f x a) = f x (fold_left f l a).
Proof. induction l as [|y l IH]; intros x a; [reflexivity|]. cbn. rewrite <- fassoc. apply IH. Qed.
Lemma fold_perm l l' : Permutation l l' -> forall a, fold_left f l a = fold_left f l' a.
Proof.
  induction 1 as [|x l l' _ IH|x y l|l l' l'' _ IH1 _ IH2]; intros a; cbn; auto.
  - f_equal. rewrite <- !fassoc. f_equal. apply fcomm.
  - rewrite IH1. apply IH2.
Qed.
Lemma fold_chunks a Ls : forall b, f b a = b -> fold_left f (map (fun L => fold_left f L a) Ls) b = fold_left f (concat Ls) b.
Proof.
  induction Ls as [|L Ls IH]; intros b Hb; [reflexivity|]. cbn [map fold_left concat]. rewrite fold_left_app.
  rewrite <- fold_shift, Hb. apply IH. rewrite fcomm, <- fold_shift, (fcomm a b), Hb. reflexivity.
Qed.
End Fold.

(** ** Enumerations of indices *)
Definition coords (ls : list Z) (js : list (Z -> Z)) : list (list Z) := map (fun jx => map jx ls) js.
Definition enum (P : (Z -> Z) -> Prop) (ls : list Z) (js : list (Z -> Z)) : Prop :=
  NoDup (coords ls js) /\ (forall jx, In jx js -> P jx) /\ forall jx, P jx -> In (map jx ls) (coords ls js).

Lemma map_eq_in {A B} (g h : A -> B) l : map g l = map h l -> forall x, In x l -> g x = h x.
Proof. induction l as [|y l IH]; intros E x Hx; [destruct Hx|]. injection E as E0 E. destruct Hx as [<-|Hx]; auto. Qed.

Lemma enum_perm {A} (P Q : (Z -> Z) -> Prop) ls js js' (g : (Z -> Z) -> A) : NoDup ls ->
  (forall jx jx', (forall l, In l ls -> jx l = jx' l) -> g jx = g jx') ->
  (forall jx, P jx <-> Q jx) -> enum P ls js -> enum Q ls js' -> Permutation (map g js) (map g js').
Proof.
  intros Hnd Hg HPQ (Hn1 & H1 & H1') (Hn2 & H2 & H2').
  assert (Hv : forall js0, map g js0 = map (fun c => g (puts (fun _ => 0) ls c)) (coords ls js0)).
  { intros js0. unfold coords. rewrite map_map. apply map_ext. intros jx. apply Hg.
    assert (E := puts_map ls (fun _ => 0) (map jx ls) Hnd (map_length _ _)). intros l Hl. symmetry. apply (map_eq_in _ _ _ E). assumption. }
  rewrite !Hv. apply Permutation_map, NoDup_Permutation; try assumption. intros c. split.
  - intros Hc. apply in_map_iff in Hc as (jx & <- & Hj). apply H2', HPQ, H1. assumption.
  - intros Hc. apply in_map_iff in Hc as (jx & <- & Hj). apply H1', HPQ, H2. assumption.
Qed.

Definition same_labels (m : sizes) (ls : list Z) : Prop := NoDup ls /\ forall l, In l ls <-> In l (labels m).
Lemma self_labels m : wf m -> same_labels m (labels m).
Proof. intros Hm. split; [apply Hm|tauto]. Qed.

Definition matches (m d : sizes) (ix jx : Z -> Z) : Prop := inside m jx /\ forall l, In l (labels d) -> jx l = ix l.

Lemma NoDup_map_inj {A B} (u : A -> B) l : NoDup l -> (forall x y, In x l -> In y l -> u x = u y -> x = y) -> NoDup (map u l).
Proof.
  induction 1 as [|x l Hni Hnd IH]; intros Hinj; [constructor|]. cbn. constructor.
  - intros Hin. apply in_map_iff in Hin as (y & E & Hy). apply Hni. rewrite (Hinj x y); cbn; auto.
  - apply IH. intros; apply Hinj; cbn; auto.
Qed.

Lemma agreeing_enum m d ix ls : wf m -> same_labels m ls -> incl (labels d) (labels m) -> enum (matches m d ix) ls (agreeing m d ix).
Proof.
  intros Hm [Hnd Hls] Hd. unfold agreeing, indices, coords. rewrite filter_map.
  set (ks := filter _ (zseq 0 (Z.to_nat (volume m)))).
  assert (Hks : forall k, In k ks <-> 0 <= k < volume m /\ forall l, In l (labels d) -> index_of m k l = ix l).
  { intros k. unfold ks. rewrite filter_In, zseq_In, forallb_forall. split.
    - intros [Hk Hall]. split; [lia|]. intros l Hl. apply Z.eqb_eq, Hall. assumption.
    - intros [Hk Hall]. split; [lia|]. intros l Hl. apply Z.eqb_eq, Hall. assumption. }
  split; [|split].
  - unfold coords. rewrite map_map. apply NoDup_map_inj; [apply NoDup_filter, zseq_NoDup|]. intros j k Hj Hk E.
    apply Hks in Hj as [Hj _], Hk as [Hk _]. apply (index_of_inj m); try assumption. intros l Hl. apply (map_eq_in _ _ _ E).
    apply Hls. rewrite labels_keys by assumption. assumption.
  - intros jx Hj. apply in_map_iff in Hj as (k & <- & Hk). apply Hks in Hk as [Hk Hall]. split; [apply inside_index_of; assumption|assumption].
  - intros jx [Hin Hall]. destruct (index_of_inside m jx Hm Hin) as (k & Hk & Hs). unfold coords. rewrite map_map.
    apply in_map_iff. exists k. split.
    + apply map_ext_in. intros l Hl. apply Hs. rewrite <- labels_keys by assumption. apply Hls. assumption.
    + apply Hks. split; [assumption|]. intros l Hl. rewrite <- Hall by assumption. apply Hs. rewrite <- labels_keys by assumption. apply Hd. assumption.
Qed.

(** ** Shapes *)
Lemma has_incl a b : wf a -> wf b -> (forall k n, has a k n -> has b k n) -> incl (labels a) (labels b).
Proof.
  intros Ha Hb Hi l Hl. rewrite labels_keys in Hl |- * by assumption. apply In_keys in Hl as [n Hn]. apply In_keys. exists n. apply Hi. assumption.
Qed.
Lemma has_unique' d k n n' : wf d -> has d k n -> has d k n' -> n = n'.
Proof. apply has_unique. Qed.
Lemma sub_noconf a b : wf b -> (forall k n, has a k n -> has b k n) -> ~ conflict a b.
Proof. intros Hb Hi (k & m & n & Hm & Hn & Hne). apply Hne. apply (has_unique b k); auto. Qed.
Lemma dat_has d k n : wf d -> has d k n -> dat d k = Ok n.
Proof.
  intros Hd Hh. pose proof (proj1 (wf_lwf _) Hd) as [L Hl]. rewrite <- (mk_pairs d Hl). rewrite dat_mk by apply L.
  rewrite (proj2 (extent_In _ _ _ (proj1 L)) Hh). reflexivity.
Qed.
Lemma inside_has m jx : wf m -> (inside m jx <-> forall k n, has m k n -> 0 <= jx k < n).
Proof. intros _. reflexivity. Qed.

Lemma slice_range_dims m d n b e : wf m -> has m d n -> 0 <= b <= e -> e <= n ->
  exists m', (do s <- slice_range d b e 1; sizes_slice m s) = Ok m' /\ wf m' /\ labels m' = labels m /\
    (forall k x, has m' k x <-> (k = d /\ x = e - b) \/ (k <> d /\ has m k x)).
Proof.
  intros Hm Hh Hb He. pose proof (proj1 (wf_lwf _) Hm) as [L Hl].
  pose proof (proj2 (extent_In _ _ _ (proj1 L)) Hh) as Ex. destruct (extent_split _ _ _ Ex) as (p1 & p2 & Ep & Hk1).
  pose proof L as (Hnd & Hf & Hi). rewrite Ep in Hnd. destruct (NoDup_split_not _ _ _ _ Hnd) as [_ Hk2].
  assert (Em : m = mk (p1 ++ (d, n) :: p2)) by (rewrite <- Ep, mk_pairs by assumption; reflexivity).
  exists (mk (p1 ++ (d, e - b) :: p2)). 
  assert (Hkeys : keys (p1 ++ (d, e - b) :: p2) = keys (p1 ++ (d, n) :: p2)) by (rewrite !keys_app; reflexivity).
  split; [|split; [|split]].
  - unfold slice_range. replace (b <? 0) with false by lia. replace (b >? e) with false by lia. rewrite andb_false_r.
    change (1 =? 0) with false. change (1 <? 0) with false. cbn [bind].
    unfold sizes_slice, valid_slice. rewrite not_default_begin by lia. rewrite Em. cbn [s_dim s_begin s_end s_stride].
    rewrite dcontains_sp, dat_sp by assumption. cbn [negb bind]. replace (e <? 0) with false by lia. replace (e >? n) with false by lia. cbn [bind].
    unfold is_range. cbn [s_end]. replace (e =? -1) with false by lia. cbn [negb]. change (1 =? 0) with false. cbv iota.
    rewrite Z.rem_1_r, Z.quot_1_r. change (0 =? 0) with true. cbv iota.
    rewrite resize_sp by (try assumption; lia). do 3 f_equal. f_equal. f_equal. lia.
  - apply wf_lwf. rewrite pairs_mk. split.
    + split; [rewrite Hkeys; assumption|]. split; [|rewrite Hkeys, <- Ep; assumption].
      rewrite Ep in Hf. unfold extents in *. rewrite map_app in *. cbn [map snd] in *. apply Forall_app in Hf as [Hf1 Hf2].
      apply Forall_cons_iff in Hf2 as [_ Hf2]. apply Forall_app. split; [assumption|]. constructor; [lia|assumption].
    + unfold mk; cbn. unfold keys, extents. rewrite !map_length. reflexivity.
  - rewrite Em. unfold labels, mk; cbn. assumption.
  - intros k x. unfold has at 1. rewrite pairs_mk. unfold has. rewrite Ep. rewrite !in_app_iff. cbn [In]. split.
    + intros [Hin|[E|Hin]].
      * right. split; [|auto]. intros ->. apply Hk1. apply In_keys. eauto.
      * injection E as <- <-. left. auto.
      * right. split; [|auto]. intros ->. apply Hk2. apply In_keys. eauto.
    + intros [[-> ->]|[Hne [Hin|[E|Hin]]]]; auto. injection E as <- <-. contradiction.
Qed.

(** ** Properties of arrays *)
Section Acc.
Context {A : Type}.
Definition dproper (a : darr A) : Prop := forall jx jx', (forall l, In l (labels (dd a)) -> jx l = jx' l) -> dv a jx = dv a jx'.
Definition dok (a : darr A) : Prop := wf (dd a) /\ dproper a.

Variable f : A -> A -> A.

Lemma agreeing_ext m d ix ix' : (forall l, In l (labels d) -> ix l = ix' l) -> agreeing m d ix = agreeing m d ix'.
Proof.
  intros Hl. unfold agreeing. apply filter_ext. intros jx. apply eq_true_iff_eq. rewrite !forallb_forall. split; intros Hall l Hin.
  - rewrite <- Hl by assumption. auto.
  - rewrite Hl by assumption. auto.
Qed.

Lemma reduce_ok out other : dok out -> dok other -> (forall k n, has (dd out) k n -> has (dd other) k n) ->
  exists r, reduce_data f out other = Ok r /\ dd r = dd out /\ dok r /\
    forall ix, exists js, enum (matches (dd other) (dd out) ix) (labels (dd other)) js /\
      dv r ix = fold_left f (map (dv other) js) (dv out ix).
Proof.
  intros [Ho Hpo] [Hb Hpb] Hi. unfold reduce_data.
  destruct (merge_ok _ _ Ho Hb (sub_noconf _ _ Hb Hi)) as (m & -> & Hm & Hhas & _). cbn [bind].
  assert (Hh : forall k n, has m k n <-> has (dd other) k n) by (intros k n; rewrite Hhas; split; [intros [Hx|Hx]; auto|auto]).
  eexists. split; [reflexivity|]. cbn [dd dv]. split; [reflexivity|].
  assert (Hl1 : incl (labels (dd other)) (labels m)) by (apply has_incl; try assumption; intros; apply Hh; assumption).
  assert (Hl2 : incl (labels m) (labels (dd other))) by (apply has_incl; try assumption; intros; apply Hh; assumption).
  split.
  - split; [assumption|]. intros jx jx' Hj. cbn [dd dv] in *. rewrite (agreeing_ext m (dd out) jx jx' Hj). f_equal. apply Hpo. assumption.
  - intros ix. exists (agreeing m (dd out) ix). split.
    + destruct (agreeing_enum m (dd out) ix (labels (dd other))) as (E1 & E2 & E3); try assumption.
      * split; [apply Hb|]. intros l. split; [apply Hl1|apply Hl2].
      * intros l Hl. apply Hl1. revert l Hl. apply has_incl; assumption.
      * split; [assumption|]. split.
        -- intros jx Hj. destruct (E2 jx Hj) as [Hin Hall]. split; [|assumption]. intros k n Hk. apply Hin. apply Hh. assumption.
        -- intros jx [Hin Hall]. apply E3. split; [|assumption]. intros k n Hk. apply Hin. apply Hh. assumption.
    + rewrite fold_left_map. reflexivity.
Qed.

Hypothesis fcomm : forall x y, f x y = f y x.
Hypothesis fassoc : forall x y z, f x (f y z) = f (f x y) z.

Definition reduced (var other : darr A) (ix : Z -> Z) : A :=
  fold_left f (map (dv other) (agreeing (dd other) (dd var) ix)) (dv var ix).

Lemma fold_enum (other : darr A) P Q js js' a : dok other -> enum P (labels (dd other)) js -> enum Q (labels (dd other)) js' ->
  (forall jx, P jx <-> Q jx) -> fold_left f (map (dv other) js) a = fold_left f (map (dv other) js') a.
Proof.
  intros [Hw Hp] E1 E2 HPQ. apply fold_perm; try assumption. apply (enum_perm P Q (labels (dd other))); try assumption. apply Hw.
Qed.

Lemma self_enum (var other : darr A) ix : dok other -> dok var -> (forall k n, has (dd var) k n -> has (dd other) k n) ->
  enum (matches (dd other) (dd var) ix) (labels (dd other)) (agreeing (dd other) (dd var) ix).
Proof.
  intros [Hw _] [Hv _] Hi. apply agreeing_enum; [assumption|apply self_labels; assumption|]. apply has_incl; assumption.
Qed.

Lemma serial_reduced var other r : dok var -> dok other -> (forall k n, has (dd var) k n -> has (dd other) k n) ->
  reduce_data f var other = Ok r -> dd r = dd var /\ forall ix, dv r ix = reduced var other ix.
Proof.
  intros Hv Ho Hi E. destruct (reduce_ok var other Hv Ho Hi) as (r' & E' & Hd & _ & Hval). rewrite E in E'. injection E' as <-.
  split; [assumption|]. intros ix. destruct (Hval ix) as (js & Hjs & ->). unfold reduced.
  apply (fold_enum other (matches (dd other) (dd var) ix) (matches (dd other) (dd var) ix)); try assumption; [|tauto].
  apply self_enum; assumption.
Qed.

(** ** Slices *)
Lemma bump_same d b ix : bump d b ix d = ix d + b.
Proof. unfold bump. rewrite Z.eqb_refl. reflexivity. Qed.
Lemma bump_other d b ix l : l <> d -> bump d b ix l = ix l.
Proof. intros Hn. unfold bump. destruct (Z.eqb_spec l d); [contradiction|reflexivity]. Qed.
Lemma bump_bump d b ix l : bump d b (bump d (- b) ix) l = ix l.
Proof. unfold bump. destruct (l =? d); lia. Qed.

Lemma dslice_ok a d n b e : dok a -> has (dd a) d n -> 0 <= b <= e -> e <= n ->
  exists s, dslice a d b e = Ok s /\ dok s /\ labels (dd s) = labels (dd a) /\
    (forall k x, has (dd s) k x <-> (k = d /\ x = e - b) \/ (k <> d /\ has (dd a) k x)) /\
    (forall ix, dv s ix = dv a (bump d b ix)).
Proof.
  intros [Hw Hp] Hh Hb He. unfold dslice. destruct (slice_range_dims (dd a) d n b e Hw Hh Hb He) as (m' & E & Hm & Hl & Hhas).
  destruct (slice_range d b e 1) as [s| |]; cbn [bind] in *; try discriminate. rewrite E. cbn [bind].
  eexists. split; [reflexivity|]. cbn [dd dv]. split; [|auto]. split; [assumption|]. intros jx jx' Hj. cbn [dd dv] in *.
  apply Hp. intros l Hin. unfold bump. rewrite Hj by (rewrite Hl; assumption). reflexivity.
Qed.

(** Enumerating a slice enumerates the part of the array. *)
Lemma slice_enum a s d n b e D D' ix ix' js : dok a -> dok s -> has (dd a) d n -> 0 <= b <= e -> e <= n ->
  labels (dd s) = labels (dd a) ->
  (forall k x, has (dd s) k x <-> (k = d /\ x = e - b) \/ (k <> d /\ has (dd a) k x)) ->
  (forall jx, b <= jx d < e -> ((forall l, In l (labels D) -> bump d (-b) jx l = ix l) <-> (forall l, In l (labels D') -> jx l = ix' l))) ->
  enum (matches (dd s) D ix) (labels (dd s)) js ->
  enum (fun jx => matches (dd a) D' ix' jx /\ b <= jx d < e) (labels (dd a)) (map (bump d b) js).
Proof.
  intros [Hwa _] [Hws _] Hd Hb He Hl Hhas Hag (E1 & E2 & E3). rewrite Hl in *.
  assert (Hin' : forall jx, inside (dd s) jx <-> inside (dd a) (bump d b jx) /\ b <= bump d b jx d < e).
  { intros jx. rewrite bump_same. split.
    - intros Hin. pose proof (Hin d (e - b) (proj2 (Hhas _ _) (or_introl (conj eq_refl eq_refl)))) as Hd'. split; [|lia].
      intros k x Hk. destruct (Z.eq_dec k d) as [->|Hne].
      + rewrite bump_same. rewrite (has_unique (dd a) d x n Hwa Hk Hd). lia.
      + rewrite bump_other by assumption. apply Hin. apply Hhas. right. auto.
    - intros [Hin Hdd] k x Hk. apply Hhas in Hk as [[-> ->]|[Hne Hk]]; [lia|]. rewrite <- (bump_other d b jx k Hne). apply Hin. assumption. }
  assert (Hag' : forall jx, b <= bump d b jx d < e -> ((forall l, In l (labels D) -> jx l = ix l) <-> (forall l, In l (labels D') -> bump d b jx l = ix' l))).
  { intros jx Hj. rewrite <- (Hag (bump d b jx) Hj). split; intros Hall l Hin.
    - rewrite <- Hall by assumption. unfold bump. destruct (l =? d); lia.
    - rewrite <- Hall by assumption. unfold bump. destruct (l =? d); lia. }
  split; [|split].
  - unfold coords in *. rewrite map_map. clear E2 E3. induction js as [|jx js IH]; cbn in *; [constructor|].
    inversion E1 as [|? ? Hni Hnd]; subst. constructor; [|apply IH; assumption]. intros Hin. apply Hni.
    apply in_map_iff in Hin as (jy & E & Hy). apply in_map_iff. exists jy. split; [|assumption]. apply map_ext_in.
    intros l Hlin. pose proof (map_eq_in _ _ _ E l Hlin) as El. cbn in El. unfold bump in El. destruct (l =? d); lia.
  - intros jy Hy. apply in_map_iff in Hy as (jx & <- & Hx). destruct (E2 jx Hx) as [Hi Hall]. apply Hin' in Hi as [Hi Hbd].
    split; [|assumption]. split; [assumption|]. apply Hag'; assumption.
  - intros jy [[Hi Hall] Hbd]. specialize (E3 (bump d (- b) jy)).
    assert (Hx : In (map (bump d (- b) jy) (labels (dd a))) (coords (labels (dd a)) js)).
    { apply E3. split.
      - apply Hin'. split.
        + intros k x Hk. rewrite bump_bump. apply Hi. assumption.
        + rewrite bump_bump. assumption.
      - apply Hag; assumption. }
    unfold coords in *. rewrite map_map. apply in_map_iff in Hx as (jx & E & Hx). apply in_map_iff. exists jx. split; [|assumption].
    apply map_ext_in. intros l Hlin. pose proof (map_eq_in _ _ _ E l Hlin) as El. cbn in El. rewrite <- (bump_bump d b jy l).
    unfold bump in *. destruct (l =? d); lia.
Qed.

(** Enumerations of the parts of a tiling. *)
Lemma tiles_enum ls d P bs : forall b e jss, In d ls -> tiles b e bs ->
  Forall2 (fun x js => enum (fun jx => P jx /\ fst x <= jx d < snd x) ls js) bs jss ->
  enum (fun jx => P jx /\ b <= jx d < e) ls (concat jss).
Proof.
  induction bs as [|[b0 m0] bs IH]; intros b e jss Hdl Ht HF.
  - inversion HF; subst. inversion Ht; subst. cbn. split; [constructor|]. split; [intros ? []|]. intros jx [_ Hj]. lia.
  - inversion HF as [|x js ? jss' Hx HF']; subst. inversion Ht as [|? ? ? ? Hbm Ht']; subst. cbn [fst snd concat] in *.
    destruct (tiles_concat _ _ _ Ht') as [Hme _]. destruct Hx as (N1 & I1 & C1), (IH m0 e jss' Hdl Ht' HF') as (N2 & I2 & C2).
    split; [|split].
    + unfold coords in *. rewrite map_app. apply NoDup_app_intro; try assumption. intros c Hc1 Hc2.
      apply in_map_iff in Hc1 as (jx & <- & Hj), Hc2 as (jy & E & Hy).
      pose proof (proj2 (I1 jx Hj)). pose proof (proj2 (I2 jy Hy)). pose proof (map_eq_in _ _ _ E d Hdl) as Ed. cbn in Ed. lia.
    + intros jx Hj. apply in_app_or in Hj as [Hj|Hj]; [destruct (I1 jx Hj)|destruct (I2 jx Hj)]; split; try assumption; lia.
    + intros jx [HP Hj]. unfold coords in *. rewrite map_app. apply in_or_app.
      destruct (Z.lt_ge_cases (jx d) m0); [left; apply C1|right; apply C2]; split; try assumption; lia.
Qed.

(** ** Chunks *)
Lemma chunks_tile size cs : 0 <= size -> 0 <= cs -> forall n i, 0 <= i ->
  tiles (Z.min (i * cs) size) (Z.min ((i + Z.of_nat n) * cs) size) (map (chunk size cs) (zseq i n)).
Proof.
  intros Hs Hc. induction n as [|n IH]; intros i Hi; [rewrite Z.add_0_r; constructor|].
  replace (zseq i (S n)) with (i :: zseq (i + 1) n).
  - cbn [map]. apply tiles_cons; [nia|]. replace (i + Z.of_nat (S n)) with (i + 1 + Z.of_nat n) by lia. apply IH. lia.
  - unfold zseq. cbn [seq map]. f_equal; [lia|]. rewrite <- seq_shift, map_map. apply map_ext. intros; lia.
Qed.
Lemma chunks_cover size cs : 0 < size -> chunk_size size = Ok cs ->
  tiles 0 size (map (chunk size cs) (zseq 0 (Z.to_nat (chunk_count size)))) /\ 0 < cs.
Proof.
  intros Hs. unfold chunk_size. set (n := chunk_count size). assert (Hn : 0 < n <= size) by (unfold n, chunk_count; lia).
  replace (n =? 0) with false by lia. intros E. injection E as <-. rewrite Z.quot_div_nonneg by lia.
  set (cs := (size + n - 1) / n). assert (Hc : size <= n * cs /\ 0 < cs).
  { pose proof (Z.div_mod (size + n - 1) n ltac:(lia)) as Hd. pose proof (Z.mod_pos_bound (size + n - 1) n ltac:(lia)). fold cs in Hd. nia. }
  split; [|lia]. pose proof (chunks_tile size cs ltac:(lia) ltac:(lia) (Z.to_nat n) 0 ltac:(lia)) as Ht.
  replace (Z.min (0 * cs) size) with 0 in Ht by lia. replace (Z.min ((0 + Z.of_nat (Z.to_nat n)) * cs) size) with size in Ht by lia. exact Ht.
Qed.

Lemma run_chunks other outer size cs (var : darr A) : forall order v, NoDup order ->
  (forall i, In i order -> v i = var) ->
  (forall i, In i order -> exists s r, dslice other outer (fst (chunk size cs i)) (snd (chunk size cs i)) = Ok s /\ reduce_data f var s = Ok r) ->
  exists v', run_tasks (chunk_task f other outer size cs) v order = Ok v' /\
    (forall i, ~ In i order -> v' i = v i) /\
    (forall i, In i order -> exists s, dslice other outer (fst (chunk size cs i)) (snd (chunk size cs i)) = Ok s /\ reduce_data f var s = Ok (v' i)).
Proof.
  induction order as [|i order IH]; intros v Hnd Hv Hex; cbn [run_tasks].
  - exists v. split; [reflexivity|]. split; [reflexivity|intros ? []].
  - inversion Hnd as [|? ? Hni Hnd']; subst. destruct (Hex i (or_introl eq_refl)) as (s & r & Es & Er).
    unfold chunk_task at 1. rewrite Es. cbn [bind]. rewrite (Hv i (or_introl eq_refl)), Er. cbn [bind].
    destruct (IH (fun j => if j =? i then r else v j) Hnd') as (v' & E & Hout & Hin).
    + intros j Hj. destruct (Z.eqb_spec j i) as [->|]; [contradiction|]. apply Hv. right. assumption.
    + intros j Hj. apply Hex. right. assumption.
    + exists v'. split; [exact E|]. split.
      * intros j Hj. rewrite Hout by (intros Hx; apply Hj; right; assumption). destruct (Z.eqb_spec j i) as [->|]; [|reflexivity].
        exfalso. apply Hj. left. reflexivity.
      * intros j [<-|Hj]; [|apply Hin; assumption]. rewrite Hout by assumption. rewrite Z.eqb_refl. eauto.
Qed.

Variable eqb : A -> A -> bool.
Hypothesis eqb_sound : forall x y, eqb x y = true -> x = y.

Lemma zseq_nat_NoDup n : NoDup (zseq 0 n).
Proof. apply zseq_NoDup. Qed.

Lemma chunks_ok internal var other order : dok var -> dok other ->
  (forall k n, has (dd var) k n -> has (dd other) k n) -> 1 < volume (dd other) ->
  ~ In internal (labels (dd var)) -> internal <> InvalidDim ->
  (forall outer ls, labels (dd other) = outer :: ls -> ~ In outer (labels (dd var))) ->
  (forall n, Permutation (order n) (zseq 0 (Z.to_nat n))) ->
  exists r, accumulate_chunks f eqb internal var other order = Ok r /\ dd r = dd var /\ dok r /\
    forall ix, inside (dd var) ix -> dv r ix = reduced var other ix.
Proof.
  intros Hvar Hoth Hi Hvol Hint Hinv Hout Hord. unfold accumulate_chunks.
  pose proof (proj1 Hoth) as Hwo. pose proof (proj1 Hvar) as Hwv.
  destruct (labels (dd other)) as [|outer ls] eqn:El.
  { exfalso. rewrite volume_vol in Hvol. destruct Hwo as (_ & Hlen & _). unfold labels in El. rewrite El in Hlen. unfold shape in Hvol.
    destruct (m_values (dd other)); [cbn in Hvol; lia|discriminate]. }
  specialize (Hout outer ls eq_refl).
  assert (Hlo : In outer (labels (dd other))) by (rewrite El; left; reflexivity).
  assert (exists size, has (dd other) outer size) as [size Hsize].
  { pose proof Hlo as Hx. rewrite labels_keys in Hx by assumption. apply In_keys in Hx. assumption. }
  rewrite (dat_has _ _ _ Hwo Hsize). cbn [bind].
  assert (Hpos : 0 < size).
  { assert (Hall : Forall (fun n => 0 < n) (shape (dd other))) by (apply vol_pos_all; [apply Hwo|rewrite <- volume_vol; lia]).
    rewrite shape_extents in Hall by assumption. rewrite Forall_forall in Hall. apply Hall. unfold extents. change size with (snd (outer, size)).
    apply in_map. assumption. }
  destruct (chunk_size size) as [cs| |] eqn:Ecs.
  2,3: unfold chunk_size, chunk_count in Ecs; replace (Z.min 24 size =? 0) with false in Ecs by lia; discriminate.
  cbn [bind]. destruct (chunks_cover size cs Hpos Ecs) as [Htile Hcs]. set (n := chunk_count size) in *.
  destruct (reduce_ok var var Hvar Hvar (fun _ _ X => X)) as (v0 & E0 & Hd0 & _ & Hv0). rewrite E0. cbn [bind].
  destruct (same_values eqb var v0) eqn:Esame; cbn [negb].
  2:{ destruct (reduce_ok var other Hvar Hoth Hi) as (r & Er & _ & Hok & _). exists r. split; [assumption|].
      destruct (serial_reduced var other r Hvar Hoth Hi Er) as [Hd Hval]. split; [assumption|]. split; [exact Hok|]. intros; apply Hval. }
  (* the initial value absorbs itself *)
  assert (Habs : forall ix, inside (dd var) ix -> f (dv var ix) (dv var ix) = dv var ix).
  { intros ix Hix. unfold same_values in Esame. rewrite forallb_forall in Esame.
    destruct (index_of_inside _ ix Hwv Hix) as (k & Hk & Hs).
    assert (Hik : In (index_of (dd var) k) (indices (dd var))) by (apply in_map, zseq_In; lia).
    specialize (Esame _ Hik). apply eqb_sound in Esame. destruct (Hv0 (index_of (dd var) k)) as (js & Hjs & Ev).
    assert (Hone : Permutation (map (dv var) js) [dv var (index_of (dd var) k)]).
    { apply (enum_perm (matches (dd var) (dd var) (index_of (dd var) k)) (matches (dd var) (dd var) (index_of (dd var) k)) (labels (dd var)) js [index_of (dd var) k] (dv var)); try tauto.
      - apply Hwv.
      - apply Hvar.
      - split; [repeat constructor; intros []|]. split.
        + intros jx [<-|[]]. split; [apply inside_index_of; assumption|reflexivity].
        + intros jx [_ Hall]. left. apply map_ext_in. intros l Hl. symmetry. apply Hall. assumption. }
    rewrite (fold_perm f fcomm fassoc _ _ Hone) in Ev. cbn [fold_left] in Ev. rewrite Ev in Esame.
    assert (Eix : dv var (index_of (dd var) k) = dv var ix).
    { apply (proj2 Hvar). intros l Hl. apply Hs. rewrite <- labels_keys by assumption. assumption. }
    rewrite Eix in Esame. congruence. }
  (* the array of partial results *)
  assert (Hwi : wf (mkmap [internal] [n])).
  { split; [|split; [|split]]; cbn; [repeat constructor; intros []|reflexivity|constructor; [unfold n, chunk_count; lia|constructor]|].
    intros [Hx|[]]. congruence. }
  assert (Hnc : ~ conflict (mkmap [internal] [n]) (dd var)).
  { intros (k & x & y & Hk & Hy & _). unfold has, pairs in Hk. cbn in Hk. destruct Hk as [Hk|[]]. injection Hk as <- <-. apply Hint.
    rewrite labels_keys by assumption. apply In_keys. eauto. }
  destruct (merge_ok _ _ Hwi Hwv Hnc) as (m & -> & Hm & Hhasm & _). cbn [bind].
  (* the tasks *)
  assert (Hslices : forall i, 0 <= i < n -> exists s r, dslice other outer (fst (chunk size cs i)) (snd (chunk size cs i)) = Ok s /\ reduce_data f var s = Ok r /\
      dok r /\ dd r = dd var /\ forall ix, exists js, enum (fun jx => matches (dd other) (dd var) ix jx /\ fst (chunk size cs i) <= jx outer < snd (chunk size cs i)) (labels (dd other)) js /\
        dv r ix = fold_left f (map (dv other) js) (dv var ix)).
  { intros i Hin. assert (Hb : 0 <= fst (chunk size cs i) <= snd (chunk size cs i)) by (unfold chunk; cbn [fst snd]; nia).
    assert (He : snd (chunk size cs i) <= size) by (unfold chunk; cbn [snd]; lia).
    destruct (dslice_ok other outer size _ _ Hoth Hsize Hb He) as (s & Es & Hs & Hls & Hhs & Hvs).
    assert (Hin' : forall k x, has (dd var) k x -> has (dd s) k x).
    { intros k x Hk. apply Hhs. right. split; [|auto]. intros ->. apply Hout. rewrite labels_keys by assumption. apply In_keys. eauto. }
    destruct (reduce_ok var s Hvar Hs Hin') as (r & Er & Hdr & Hr & Hval). exists s, r. split; [assumption|]. split; [assumption|]. split; [assumption|].
    split; [assumption|]. intros ix. destruct (Hval ix) as (js & Hjs & Ev). exists (map (bump outer (fst (chunk size cs i))) js). split.
    - apply (slice_enum other s outer size _ _ (dd var) (dd var) ix ix js); try assumption.
      intros jx _. split; intros Hall l Hl; rewrite <- Hall by assumption; [|]; unfold bump; destruct (Z.eqb_spec l outer) as [->|]; try contradiction; reflexivity.
    - rewrite Ev, map_map. f_equal. apply map_ext. intros jx. apply Hvs. }
  destruct (run_chunks other outer size cs var (order n) (fun _ => var)) as (v' & Erun & Hrest & Hdone).
  - apply (Permutation_NoDup (Permutation_sym (Hord n))). apply zseq_NoDup.
  - reflexivity.
  - intros i Hin. apply (Permutation_in _ (Hord n)), zseq_In in Hin. destruct (Hslices i ltac:(lia)) as (s & r & Es & Er & _). eauto.
  - rewrite Erun. cbn [bind].
    assert (Hv' : forall i, 0 <= i < n -> dok (v' i) /\ dd (v' i) = dd var /\ forall ix, exists js, enum (fun jx => matches (dd other) (dd var) ix jx /\ fst (chunk size cs i) <= jx outer < snd (chunk size cs i)) (labels (dd other)) js /\
        dv (v' i) ix = fold_left f (map (dv other) js) (dv var ix)).
    { intros i Hin. destruct (Hslices i Hin) as (s & r & Es & Er & Hr). destruct (Hdone i) as (s' & Es' & Er').
      - apply (Permutation_in _ (Permutation_sym (Hord n))), zseq_In. lia.
      - rewrite Es in Es'. injection Es' as <-. rewrite Er in Er'. injection Er' as <-. exact Hr. }
    assert (Hlm : forall l, In l (labels m) <-> l = internal \/ In l (labels (dd var))).
    { intros l. rewrite !labels_keys by assumption. rewrite !In_keys. split.
      - intros [x Hx]. apply Hhasm in Hx as [Hx|Hx]; [|right; exists x; assumption]. unfold has, pairs in Hx. cbn in Hx. destruct Hx as [Hx|[]]. left. congruence.
      - intros [->|[x Hx]]; [exists n|exists x]; apply Hhasm; [left; left; reflexivity|right; assumption]. }
    assert (Hin_n : has m internal n) by (apply Hhasm; left; left; reflexivity).
    set (V := stack internal m v').
    (* only the part inside the shape is used *)
    assert (HokV : dok (stack internal m (fun i => if (0 <=? i) && (i <? n) then v' i else var))).
    { split; [exact Hm|]. intros jx jx' Hj. cbn [dd dv stack] in *. rewrite (Hj internal) by (apply Hlm; auto).
      destruct ((0 <=? jx' internal) && (jx' internal <? n)) eqn:Eb.
      - destruct (Hv' (jx' internal) ltac:(lia)) as ([_ Hpr] & Hdd & _). apply Hpr. rewrite Hdd. intros l Hl. apply Hj. apply Hlm. auto.
      - apply (proj2 Hvar). intros l Hl. apply Hj, Hlm. auto. }
    set (V2 := stack internal m (fun i => if (0 <=? i) && (i <? n) then v' i else var)) in *.
    destruct (reduce_ok var V2 Hvar HokV) as (r & Er & Hdr & Hokr & Hval).
    { intros k x Hk. cbn. apply Hhasm. right. assumption. }
    assert (Hiss : exists r', reduce_data f var V = Ok r' /\ dd r' = dd r /\ forall ix, dv r' ix = dv r ix).
    { unfold reduce_data in *. change (dd V) with m. change (dd V2) with m in Er.
      destruct (dims_merge (dd var) m) as [mm| |] eqn:Emm; cbn [bind] in *; try discriminate. injection Er as <-. eexists. split; [reflexivity|]. cbn [dd dv]. split; [reflexivity|].
      intros ix. assert (Hmm : forall jx, In jx (agreeing mm (dd var) ix) -> 0 <= jx internal < n).
      { assert (Hncf : ~ conflict (dd var) m) by (apply sub_noconf; [assumption|]; intros; apply Hhasm; auto).
        destruct (merge_ok _ _ Hwv Hm Hncf) as (mm' & Emm' & Hwmm & Hhmm & _). rewrite Emm in Emm'. injection Emm' as <-.
        intros jx Hj. unfold agreeing in Hj. apply filter_In in Hj as [Hj _]. apply in_map_iff in Hj as (k & <- & Hk). apply zseq_In in Hk.
        apply (inside_index_of mm k Hwmm ltac:(lia)). apply Hhmm. right. assumption. }
      revert Hmm. generalize (agreeing mm (dd var) ix) as js, (dv var ix) as a. induction js as [|jx js IH]; intros a Hj; [reflexivity|].
      cbn [fold_left]. rewrite IH by (intros; apply Hj; right; assumption). do 2 f_equal. unfold V2, V, stack. cbn [dv].
      specialize (Hj jx (or_introl eq_refl)). replace ((0 <=? jx internal) && (jx internal <? n)) with true by lia. reflexivity. }
    destruct Hiss as (r' & Er' & Hdr' & Hvr'). exists r'. split; [assumption|]. split; [congruence|]. split; [split; [rewrite Hdr'; apply Hokr|]; intros jx jx' Hj; rewrite !Hvr'; apply Hokr; rewrite <- Hdr'; exact Hj|].
    intros ix Hix. rewrite Hvr'.
    destruct (Hval ix) as (js & (Hnd & Hjs & Hcov) & ->). change (dd V2) with m in *.
    (* partial results of the chunks *)
    assert (Hparts : Permutation (map (dv V2) js) (map (fun i => dv (v' i) ix) (zseq 0 (Z.to_nat n)))).
    { assert (E : map (dv V2) js = map (fun i => dv (v' i) ix) (map (fun jx => jx internal) js)).
      { rewrite map_map. apply map_ext_in. intros jx Hj. destruct (Hjs jx Hj) as [Hin Hall]. specialize (Hin internal n Hin_n).
        unfold V2, stack. cbn [dv]. replace ((0 <=? jx internal) && (jx internal <? n)) with true by lia.
        destruct (Hv' (jx internal) Hin) as ([_ Hpr] & Hdd & _). apply Hpr. rewrite Hdd. assumption. }
      rewrite E. apply Permutation_map, NoDup_Permutation; [|apply zseq_NoDup|].
      - assert (Hinj : forall jx jy, In jx js -> In jy js -> jx internal = jy internal -> map jx (labels m) = map jy (labels m)).
        { intros jx jy Hx Hy Exy. apply map_ext_in. intros l Hl. apply Hlm in Hl as [->|Hl]; [assumption|].
          rewrite (proj2 (Hjs jx Hx) l Hl), (proj2 (Hjs jy Hy) l Hl). reflexivity. }
        clear - Hnd Hinj. induction js as [|jx js IH]; cbn in *; [constructor|]. inversion Hnd as [|? ? Hni Hnd']; subst. constructor.
        + intros Hin. apply in_map_iff in Hin as (jy & E & Hy). apply Hni. apply in_map_iff. exists jy. split; [|assumption]. apply Hinj; auto.
        + apply IH; [assumption|]. intros; apply Hinj; auto.
      - intros i. split.
        + intros Hin. apply in_map_iff in Hin as (jx & <- & Hj). apply zseq_In. destruct (Hjs jx Hj) as [Hin _]. specialize (Hin internal n Hin_n). lia.
        + intros Hin. apply zseq_In in Hin. specialize (Hcov (fun l => if l =? internal then i else ix l)).
          assert (Hmt : matches m (dd var) ix (fun l => if l =? internal then i else ix l)).
          { split.
            - intros k x Hk. destruct (Z.eqb_spec k internal) as [->|Hne].
              + rewrite (has_unique m internal x n Hm Hk Hin_n). lia.
              + apply Hix. apply Hhasm in Hk as [Hk|Hk]; [|assumption]. unfold has, pairs in Hk. cbn in Hk. destruct Hk as [Hk|[]]. congruence.
            - intros l Hl. destruct (Z.eqb_spec l internal) as [->|]; [contradiction|reflexivity]. }
          specialize (Hcov Hmt). unfold coords in Hcov. apply in_map_iff in Hcov as (jx & E1 & Hj). apply in_map_iff. exists jx. split; [|assumption].
          assert (Hl : In internal (labels m)) by (apply Hlm; auto). pose proof (map_eq_in _ _ _ E1 internal Hl) as E2. cbn in E2. rewrite Z.eqb_refl in E2. assumption. }
    rewrite (fold_perm f fcomm fassoc _ _ Hparts).
    assert (Hjss : exists jss, Forall2 (fun x js => enum (fun jx => matches (dd other) (dd var) ix jx /\ fst x <= jx outer < snd x) (labels (dd other)) js)
        (map (chunk size cs) (zseq 0 (Z.to_nat n))) jss /\
        map (fun i => dv (v' i) ix) (zseq 0 (Z.to_nat n)) = map (fun L => fold_left f L (dv var ix)) (map (map (dv other)) jss)).
    { assert (Hall : forall i, In i (zseq 0 (Z.to_nat n)) -> 0 <= i < n) by (intros i Hin; apply zseq_In in Hin; lia).
      revert Hall. generalize (zseq 0 (Z.to_nat n)) as is_. induction is_ as [|i is_ IH]; intros Hall.
      - exists []. split; [constructor|reflexivity].
      - destruct IH as (jss & HF & E); [intros; apply Hall; right; assumption|].
        destruct (Hv' i (Hall i (or_introl eq_refl))) as (_ & _ & Hx). destruct (Hx ix) as (js0 & Hjs0 & Ev).
        exists (js0 :: jss). cbn [map]. split; [constructor; assumption|]. rewrite E, Ev. reflexivity. }
    destruct Hjss as (jss & HF & ->). rewrite fold_chunks by (try assumption; apply Habs; assumption).
    rewrite <- concat_map. unfold reduced.
    pose proof (tiles_enum (labels (dd other)) outer (matches (dd other) (dd var) ix) _ 0 size jss Hlo Htile HF) as Hen.
    apply (fold_enum other _ _ _ _ _ Hoth Hen (self_enum var other ix Hoth Hvar Hi)).
    intros jx. split; [intros [Hx _]; assumption|]. intros Hx. split; [assumption|]. apply (proj1 Hx outer size). assumption.
Qed.

(** ** Blocks of the output *)
Lemma dwrite_ok a d b e x : dok a -> In d (labels (dd a)) -> dproper x -> labels (dd x) = labels (dd a) -> dok (dwrite a d b e x).
Proof.
  intros [Hw Hp] Hd Hx Hl. split; [exact Hw|]. intros jx jx' Hj. cbn [dwrite dd dv] in *. rewrite (Hj d Hd).
  destruct ((b <=? jx' d) && (jx' d <? e)); [|apply Hp; assumption]. apply Hx. rewrite Hl. intros l Hin. unfold bump. rewrite (Hj l Hin). reflexivity.
Qed.

Definition covered (bs : list (Z * Z)) (x : Z) : Prop := exists b, In b bs /\ fst b <= x < snd b.
Lemma covered_In bs x : covered bs x <-> In x (concat (ks_of bs)).
Proof.
  rewrite in_concat. unfold covered, ks_of. split.
  - intros (b & Hb & Hx). exists (zseq (fst b) (Z.to_nat (snd b - fst b))). split; [apply in_map_iff; eauto|]. apply zseq_In. lia.
  - intros (ks & Hks & Hx). apply in_map_iff in Hks as (b & <- & Hb). exists b. split; [assumption|]. apply zseq_In in Hx. lia.
Qed.

Lemma block_step var0 var other dim n b e : dok var0 -> dok var -> dok other -> dd var = dd var0 ->
  (forall k n, has (dd var0) k n -> has (dd other) k n) -> has (dd var0) dim n -> 0 <= b <= e -> e <= n ->
  (forall ix, inside (dd var0) ix -> b <= ix dim < e -> dv var ix = dv var0 ix) ->
  exists var', block_task f other dim var (b, e) = Ok var' /\ dok var' /\ dd var' = dd var0 /\
    (forall ix, inside (dd var0) ix -> b <= ix dim < e -> dv var' ix = reduced var0 other ix) /\
    (forall ix, ~ (b <= ix dim < e) -> dv var' ix = dv var ix).
Proof.
  intros Hv0 Hv Hoth Hdd Hi Hdim Hb He Hval. unfold block_task. cbn [fst snd].
  assert (Hdv : has (dd var) dim n) by (rewrite Hdd; assumption).
  destruct (dslice_ok var dim n b e Hv Hdv Hb He) as (x & -> & Hx & Hlx & Hhx & Hvx). cbn [bind].
  destruct (dslice_ok other dim n b e Hoth (Hi _ _ Hdim) Hb He) as (s & -> & Hs & Hls & Hhs & Hvs). cbn [bind].
  assert (Hxs : forall k y, has (dd x) k y -> has (dd s) k y).
  { intros k y Hk. apply Hhs. apply Hhx in Hk as [Hk|[Hne Hk]]; [auto|]. right. split; [assumption|]. apply Hi. rewrite <- Hdd. assumption. }
  destruct (reduce_ok x s Hx Hs Hxs) as (r & -> & Hdr & Hr & Hrv). cbn [bind].
  assert (Hlr : labels (dd r) = labels (dd var)) by (rewrite Hdr; assumption).
  assert (Hdl : In dim (labels (dd var))) by (rewrite labels_keys by apply Hv; apply In_keys; eauto).
  eexists. split; [reflexivity|]. split; [apply dwrite_ok; try assumption; apply Hr|]. split; [cbn; assumption|]. split.
  - intros ix Hix Hbd. cbn [dwrite dv]. replace ((b <=? ix dim) && (ix dim <? e)) with true by lia.
    destruct (Hrv (bump dim (- b) ix)) as (js & Hjs & ->). rewrite Hvx.
    assert (E0 : dv var (bump dim b (bump dim (- b) ix)) = dv var0 ix).
    { rewrite <- (Hval ix Hix Hbd). apply (proj2 Hv). intros l _. apply bump_bump. }
    rewrite E0. unfold reduced. rewrite (map_ext (dv s) (fun jx => dv other (bump dim b jx)) Hvs), <- (map_map (bump dim b) (dv other)).
    apply (fold_enum other (fun jx => matches (dd other) (dd var0) ix jx /\ b <= jx dim < e) (matches (dd other) (dd var0) ix)); try assumption.
    + apply (slice_enum other s dim n b e (dd x) (dd var0) (bump dim (- b) ix) ix js); try assumption; [apply Hi; assumption|].
      intros jx _. rewrite Hlx, Hdd. split; intros Hall l Hl; specialize (Hall l Hl); unfold bump in *; destruct (l =? dim); lia.
    + apply self_enum; assumption.
    + intros jx. split; [tauto|]. intros Hm. split; [assumption|]. rewrite (proj2 Hm dim) by (rewrite <- Hdd; assumption). assumption.
  - intros ix Hn. cbn [dwrite dv]. replace ((b <=? ix dim) && (ix dim <? e)) with false by lia. reflexivity.
Qed.

Lemma blocks_run var0 other dim n : dok var0 -> dok other ->
  (forall k n, has (dd var0) k n -> has (dd other) k n) -> has (dd var0) dim n -> forall bs var,
  dok var -> dd var = dd var0 -> (forall b, In b bs -> 0 <= fst b <= snd b /\ snd b <= n) -> NoDup (concat (ks_of bs)) ->
  (forall ix, inside (dd var0) ix -> covered bs (ix dim) -> dv var ix = dv var0 ix) ->
  exists var', run_tasks (block_task f other dim) var bs = Ok var' /\ dd var' = dd var0 /\ dok var' /\
    (forall ix, inside (dd var0) ix -> covered bs (ix dim) -> dv var' ix = reduced var0 other ix) /\
    (forall ix, inside (dd var0) ix -> ~ covered bs (ix dim) -> dv var' ix = dv var ix).
Proof.
  intros Hv0 Hoth Hi Hdim. induction bs as [|[b e] bs IH]; intros var Hv Hdd Hbs Hnd Hval; cbn [run_tasks].
  - exists var. split; [reflexivity|]. split; [assumption|]. split; [assumption|]. split; [|auto]. intros ix _ (x & [] & _).
  - destruct (Hbs (b, e) (or_introl eq_refl)) as [Hbe Hen]. cbn [fst snd] in *.
    destruct (block_step var0 var other dim n b e Hv0 Hv Hoth Hdd Hi Hdim Hbe Hen) as (v1 & -> & Hv1 & Hd1 & Hin1 & Hout1).
    { intros ix Hix Hx. apply Hval; [assumption|]. exists (b, e). split; [left; reflexivity|assumption]. }
    cbn [bind]. cbn [ks_of map concat fst snd] in Hnd. fold (ks_of bs) in Hnd.
    assert (Hsep : forall x, b <= x < e -> ~ covered bs x).
    { intros x Hx Hc. apply covered_In in Hc. apply (in_split x) in Hc as (l1 & l2 & El). rewrite El in Hnd.
      apply NoDup_remove_2 with (l := zseq b (Z.to_nat (e - b)) ++ l1) (l' := l2) (a := x); [rewrite <- app_assoc; exact Hnd|].
      apply in_or_app. left. apply in_or_app. left. apply zseq_In. lia. }
    assert (Hndr : NoDup (concat (ks_of bs))) by (clear - Hnd; induction (zseq b (Z.to_nat (e - b))) as [|y l IHl]; [assumption|apply IHl; inversion Hnd; assumption]).
    destruct (IH v1 Hv1 Hd1) as (v2 & Er & Hd2 & Hok2 & Hin2 & Hout2); try assumption.
    { intros x Hx. apply Hbs. right. assumption. }
    { intros ix Hix Hc. rewrite Hout1 by (intros Hx; apply (Hsep _ Hx Hc)). apply Hval; [assumption|]. destruct Hc as (x & Hx & Hc). exists x. split; [right|]; assumption. }
    exists v2. split; [exact Er|]. split; [assumption|]. split; [exact Hok2|]. split.
    + intros ix Hix (x & [<-|Hx] & Hc); cbn [fst snd] in *.
      * rewrite Hout2; [apply Hin1; assumption|assumption|apply Hsep; assumption].
      * apply Hin2; [assumption|]. exists x. auto.
    + intros ix Hix Hn. rewrite Hout2; [apply Hout1|assumption|].
      * intros Hx. apply Hn. exists (b, e). split; [left; reflexivity|assumption].
      * intros (x & Hx & Hc). apply Hn. exists x. split; [right|]; assumption.
Qed.

Lemma parallel_ok var other blocks : dok var -> dok other -> labels (dd var) <> [] ->
  (forall k n, has (dd var) k n -> has (dd other) k n) ->
  (forall n, 0 <= n -> exists bs, tiles 0 n bs /\ Permutation (blocks n) bs) ->
  exists r, accumulate_parallel f var other blocks = Ok r /\ dd r = dd var /\ dok r /\
    forall ix, inside (dd var) ix -> dv r ix = reduced var other ix.
Proof.
  intros Hv Hoth Hne Hi Hbl. unfold accumulate_parallel. destruct (labels (dd var)) as [|dim ls] eqn:El; [contradiction|].
  assert (exists n, has (dd var) dim n) as [n Hn].
  { assert (Hx : In dim (labels (dd var))) by (rewrite El; left; reflexivity). rewrite labels_keys in Hx by apply Hv. apply In_keys in Hx. assumption. }
  rewrite (dat_has _ _ _ (proj1 Hv) Hn). cbn [bind].
  assert (Hn0 : 0 <= n).
  { pose proof (proj1 (wf_lwf _) (proj1 Hv)) as [(_ & Hf & _) _]. rewrite Forall_forall in Hf. apply Hf. unfold extents. change n with (snd (dim, n)). apply in_map. assumption. }
  destruct (Hbl n Hn0) as (bs & Ht & Hp). destruct (tiles_concat _ _ _ Ht) as [_ Hc]. rewrite Z.sub_0_r in Hc.
  assert (Hcp : Permutation (concat (ks_of (blocks n))) (zseq 0 (Z.to_nat n))).
  { rewrite <- Hc. unfold ks_of. rewrite <- !flat_map_concat_map. apply Permutation_flat_map. assumption. }
  destruct (blocks_run var other dim n Hv Hoth Hi Hn (blocks n) var Hv eq_refl) as (r & Er & Hd & Hok & Hin & _).
  - intros [b e] Hx. apply (Permutation_in _ Hp) in Hx. destruct (tiles_in _ _ _ _ _ Ht Hx). cbn. lia.
  - apply (Permutation_NoDup (Permutation_sym Hcp)), zseq_NoDup.
  - reflexivity.
  - exists r. split; [exact Er|]. split; [assumption|]. split; [exact Hok|]. intros ix Hix. apply Hin; [assumption|]. apply covered_In.
    apply (Permutation_in _ (Permutation_sym Hcp)), zseq_In. specialize (Hix dim n Hn). lia.
Qed.

Theorem accumulate_ok small internal var other order blocks : dok var -> dok other -> 1 < small ->
  (forall k n, has (dd var) k n -> has (dd other) k n) -> ~ In internal (labels (dd var)) -> internal <> InvalidDim ->
  (forall n, Permutation (order n) (zseq 0 (Z.to_nat n))) ->
  (forall n, 0 <= n -> exists bs, tiles 0 n bs /\ Permutation (blocks n) bs) ->
  exists r, do_accumulate small f eqb internal var other order blocks = Ok r /\ dd r = dd var /\ dok r /\
    forall ix, inside (dd var) ix -> dv r ix = reduced var other ix.
Proof.
  intros Hv Hoth Hsm Hi Hint Hinv Hord Hbl. unfold do_accumulate.
  destruct (includes_ok (dd other) (dd var) (wf_wfm _ (proj1 Hoth)) (wf_wfm _ (proj1 Hv))) as (inc & -> & Hinc). cbn [bind].
  rewrite (proj2 Hinc Hi). cbn [negb orb]. destruct (Z.ltb_spec (volume (dd other)) small) as [Hlt|Hge].
  - destruct (reduce_ok var other Hv Hoth Hi) as (r & Er & _ & Hok & _). exists r. split; [assumption|].
    destruct (serial_reduced var other r Hv Hoth Hi Er) as [Hd Hval]. split; [assumption|]. split; [exact Hok|]. intros; apply Hval.
  - destruct (labels (dd other)) as [|outer lo] eqn:Elo.
    { exfalso. rewrite volume_vol in Hge. destruct (proj1 Hoth) as (_ & Hlen & _). unfold labels in Elo. rewrite Elo in Hlen. unfold shape in Hge.
      destruct (m_values (dd other)); [cbn in Hge; lia|discriminate]. }
    assert (Hpar : labels (dd var) <> [] -> exists r, accumulate_parallel f var other blocks = Ok r /\ dd r = dd var /\ dok r /\
      forall ix, inside (dd var) ix -> dv r ix = reduced var other ix) by (intros Hne; apply parallel_ok; assumption).
    assert (Hchk : ~ In outer (labels (dd var)) -> exists r, accumulate_chunks f eqb internal var other order = Ok r /\ dd r = dd var /\ dok r /\
      forall ix, inside (dd var) ix -> dv r ix = reduced var other ix).
    { intros Hno. apply chunks_ok; try assumption; [lia|]. intros o ls E. rewrite Elo in E. injection E as <- <-. assumption. }
    destruct (labels (dd var)) as [|d0 lv] eqn:Elv; [cbn [bind]; apply Hchk; auto|].
    destruct (dcontains (dd var) outer) eqn:Ec; cbn [bind]; [apply Hpar; discriminate|].
    assert (Hno : ~ In outer (d0 :: lv)).
    { pose proof (proj1 (wf_lwf _) (proj1 Hv)) as [L Hl]. rewrite <- (mk_pairs _ Hl), dcontains_mk in Ec. apply mem_nIn in Ec.
      rewrite <- labels_keys in Ec by apply Hv. rewrite <- Elv. assumption. }
    assert (exists n, has (dd var) d0 n) as [n Hn].
    { assert (Hx : In d0 (labels (dd var))) by (rewrite Elv; left; reflexivity). rewrite labels_keys in Hx by apply Hv. apply In_keys in Hx. assumption. }
    rewrite (dat_has _ _ _ (proj1 Hv) Hn). cbn [bind]. destruct (n <? 65536); [apply Hchk; assumption|apply Hpar; discriminate].
Qed.
End Acc.
