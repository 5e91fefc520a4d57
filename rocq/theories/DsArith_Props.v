(** Properties of in-place arithmetic on datasets (C33). *)
From Coq Require Import Permutation.
From Verif Require Import Base Map_Model Map_Proofs Dims_Model Dims_Spec View_Model View_Spec View_Proofs Index_Model Transform_Model Transform_Spec Transform_Proofs Variance_Model
  SizedDict_Model Equality_Model Union_Model Accumulate_Model Mask_Model DsArith_Model DsArith_Spec DsArith_Proofs.

Lemma admissible_perm kind tmp op s l l' : Permutation l l' -> admissible kind tmp op s l -> admissible kind tmp op s l'.
Proof.
  intros Hp [Av Aa At Ab An Ac Am As]. pose proof (Permutation_sym Hp) as Hp'.
  constructor; try (intros it b Hi; pose proof (Permutation_in _ Hp' Hi) as Hi').
  - apply Av. exact Hi'.
  - apply Aa. exact Hi'.
  - apply At. exact Hi'.
  - apply (Permutation_NoDup (Permutation_map _ Hp) Ab).
  - apply (Permutation_NoDup (Permutation_map _ Hp) An).
  - intros it b n Hi Hc. destruct (Ac it b n (Permutation_in _ Hp' Hi) Hc) as [C1 C2]. split; [exact C1|]. intros Hn. apply C2. apply (Permutation_in _ (Permutation_map _ Hp') Hn).
  - intros it b c m Hi. apply (Am it b c m). apply (Permutation_in _ Hp' Hi).
  - apply As. exact Hi'.
Qed.
Lemma filter_split {A} (p : A -> bool) l : Permutation l (filter (fun x => negb (p x)) l ++ filter p l).
Proof.
  induction l as [|x l IH]; [constructor|]. cbn [filter]. destruct (p x); cbn [negb].
  - apply Permutation_cons_app. exact IH.
  - cbn [app]. constructor. exact IH.
Qed.
Lemma one_common items b : NoDup (map (fun it => a_buf (d_data it)) items) ->
  delayed items b = filter (fun it => have_common_underlying it b) items /\ (length (delayed items b) <= 1)%nat.
Proof.
  intros Hnd. unfold delayed.
  assert (Hlen : (length (filter (fun it => have_common_underlying it b) items) <= 1)%nat).
  { induction items as [|it items IH]; [cbn; lia|]. cbn [map] in Hnd. apply NoDup_cons_iff in Hnd as [Hn Hnd]. specialize (IH Hnd). cbn [filter].
    destruct (have_common_underlying it b) eqn:E; [|exact IH]. cbn [length]. unfold have_common_underlying in E. apply Nat.eqb_eq in E.
    assert (filter (fun it => have_common_underlying it b) items = []) as ->; [|cbn; lia].
    destruct (filter _ items) as [|x r] eqn:Ef; [reflexivity|]. exfalso. assert (Hx : In x (filter (fun it => have_common_underlying it b) items)) by (rewrite Ef; left; reflexivity).
    apply filter_In in Hx as [Hx Ex]. unfold have_common_underlying in Ex. apply Nat.eqb_eq in Ex. apply Hn. apply in_map_iff. exists x. split; [congruence|exact Hx]. }
  destruct (filter (fun it => have_common_underlying it b) items) as [|x [|y r]]; cbn in *; [split; [reflexivity|lia]|split; [reflexivity|lia]|lia].
Qed.

(** ** Dataset and variable or data array *)

(** C33. Whatever the order in which threads run, [dataset op= b] ends, and either every item has been updated with values from
    before the operation (and nothing else has changed), or it has thrown and nothing has changed at all. It throws exactly
    if the dry run does. [b] may be (a part of) an item of the dataset. *)
Theorem C33_delay : forall kind blocks tmp op s items b,
  (forall d, wf d -> tiles 0 (volume d) (blocks d)) -> admissible kind tmp op s (map (fun it => (it, b)) items) ->
  (exists s' r, apply_with_delay kind blocks tmp op s items b s' r) /\
  forall s' r, apply_with_delay kind blocks tmp op s items b s' r ->
    r = dry_runs kind blocks tmp op s (map (fun it => (it, b)) items) /\
    (r = Ok tt -> (forall it, In it items -> updated kind op s s' it b) /\ only_these tmp s s' items) /\
    (r <> Ok tt -> s' = s).
Proof.
  intros kind blocks tmp op s items b Hb Had. unfold apply_with_delay, guarded. set (l := map (fun it => (it, b)) items) in *.
  assert (Hnd : NoDup (map (fun it => a_buf (d_data it)) items)).
  { pose proof (ad_bufs _ _ _ _ _ Had) as Hn. unfold l in Hn. rewrite map_map in Hn. exact Hn. }
  destruct (one_common items b Hnd) as [Ed Hlen]. pose proof (filter_split (fun it => have_common_underlying it b) items) as Hperm. rewrite <- Ed in Hperm.
  set (arr := filter (fun it => negb (have_common_underlying it b)) items ++ delayed items b) in *.
  destruct (dry_runs kind blocks tmp op s l) as [[]|e|] eqn:Edry.
  - assert (Hpl : Permutation l (map (fun it => (it, b)) arr)) by (apply Permutation_map; exact Hperm).
    destruct (item_ops_ok kind blocks tmp Hb op (map (fun it => (it, b)) arr) s) as [H1 H2].
    + apply (admissible_perm _ _ _ _ l); assumption.
    + unfold arr. assert (Hx : forall x, In x (filter (fun it => negb (have_common_underlying it b)) items) -> a_buf (d_data x) <> a_buf (r_data b)).
      { intros x Hx. apply filter_In in Hx as [_ Hx]. unfold have_common_underlying in Hx. destruct (Nat.eqb_spec (a_buf (d_data x)) (a_buf (r_data b))); [discriminate|assumption]. }
      clear - Hx Hlen. rewrite map_app. induction (filter (fun it => negb (have_common_underlying it b)) items) as [|x xs IH]; cbn [map app].
      * destruct (delayed items b) as [|y [|z ys]]; cbn in *; [constructor|repeat constructor|lia].
      * constructor; [|apply IH; intros y Hy; apply Hx; right; exact Hy]. apply Forall_forall. intros p Hp. rewrite <- map_app in Hp. apply in_map_iff in Hp as (y & <- & _).
        cbn [fst snd]. apply Hx. left. reflexivity.
    + intros it b' Hi. apply (proj1 (dry_runs_Ok kind blocks tmp op s l) Edry). apply (Permutation_in _ (Permutation_sym Hpl) Hi).
    + split; [destruct H1 as [s' H1]; eauto|]. intros s' r Hr. destruct (H2 s' r Hr) as (-> & Hu & Ho). split; [reflexivity|]. split; [|congruence]. intros _. split.
      * intros it Hi. apply Hu. apply in_map_iff. exists it. split; [reflexivity|]. apply (Permutation_in _ Hperm Hi).
      * rewrite map_map in Ho. cbn [fst] in Ho. rewrite map_id in Ho. destruct Ho as (O1 & O2 & O3). split; [|split].
        -- intros c Hc. apply O1. intros it Hi. apply Hc. apply (Permutation_in _ (Permutation_sym Hperm) Hi).
        -- intros n Hn. apply O2. intros Hi. apply Hn. apply (Permutation_in _ (Permutation_map _ (Permutation_sym Hperm)) Hi).
        -- intros n Hn. apply O3. intros Hi. apply Hn. apply (Permutation_in _ (Permutation_map _ (Permutation_sym Hperm)) Hi).
  - split; [exists s, (Throw e); auto|]. intros s' r [-> ->]. split; [reflexivity|]. split; [discriminate|reflexivity].
  - split; [exists s, Ub; auto|]. intros s' r [-> ->]. split; [reflexivity|]. split; [discriminate|reflexivity].
Qed.
Print Assumptions C33_delay.

(** ** Dataset and dataset *)
Lemma dry_apply_Ok kind blocks tmp op s items b : dry_apply kind blocks tmp op s items b = Ok tt ->
  (forall n x, In (n, x) b -> exists it, find_item items n = Ok it) /\ forall it x, In (it, x) (partners items b) -> dry_run_op kind blocks tmp op s it x = Ok tt.
Proof.
  induction b as [|[n x] b IH]; cbn [dry_apply partners]; [intros _; split; [intros n x []|intros it x []]|].
  destruct (find_item items n) as [it|e|] eqn:Ef; cbn [bind]; try discriminate. destruct (dry_run_op kind blocks tmp op s it x) as [[]|e|] eqn:Er; cbn [bind]; try discriminate.
  intros Hd. destruct (IH Hd) as [I1 I2]. split.
  - intros n' x' [E|Hi]; [injection E as <- <-; eauto|eapply I1; exact Hi].
  - intros it' x' [E|Hi]; [injection E as <- <-; exact Er|apply I2; exact Hi].
Qed.

(** C33. [dataset op= dataset]: likewise for the items of the dataset that have a partner (every item of the right operand must
    be one), if no item of the right operand shares memory with the data of an item updated before its turn. *)
Theorem C33_apply : forall kind blocks tmp op s items b,
  (forall d, wf d -> tiles 0 (volume d) (blocks d)) -> admissible kind tmp op s (partners items b) -> in_order (partners items b) ->
  (exists s' r, apply kind blocks tmp op s items b s' r) /\
  forall s' r, apply kind blocks tmp op s items b s' r ->
    r = dry_apply kind blocks tmp op s items b /\
    (r = Ok tt -> (forall n x, In (n, x) b -> exists it, find_item items n = Ok it /\ updated kind op s s' it x) /\
       only_these tmp s s' (map fst (partners items b))) /\
    (r <> Ok tt -> s' = s).
Proof.
  intros kind blocks tmp op s items b Hb Had Hord. unfold apply, guarded. destruct (dry_apply kind blocks tmp op s items b) as [[]|e|] eqn:Edry.
  - destruct (dry_apply_Ok _ _ _ _ _ _ _ Edry) as [Hf Hd]. destruct (item_ops_ok kind blocks tmp Hb op (partners items b) s Had Hord Hd) as [H1 H2].
    split; [destruct H1 as [s' H1]; eauto|]. intros s' r Hr. destruct (H2 s' r Hr) as (-> & Hu & Ho). split; [reflexivity|]. split; [|congruence]. intros _. split; [|exact Ho].
    intros n x Hi. destruct (Hf n x Hi) as [it Ei]. exists it. split; [exact Ei|]. apply Hu. clear - Hi Ei. induction b as [|[n' x'] b IH]; [destruct Hi|]. cbn [partners].
    destruct Hi as [E|Hi]; [injection E as -> ->; rewrite Ei; left; reflexivity|]. destruct (find_item items n'); [right|..]; apply IH; exact Hi.
  - split; [exists s, (Throw e); auto|]. intros s' r [-> ->]. split; [reflexivity|]. split; [discriminate|reflexivity].
  - split; [exists s, Ub; auto|]. intros s' r [-> ->]. split; [reflexivity|]. split; [discriminate|reflexivity].
Qed.
Print Assumptions C33_apply.

(** The dry run fails if an item of the right operand is missing on the left. *)
Theorem C33_apply_missing : forall kind blocks tmp op s items b, (exists n x, In (n, x) b /\ forall it, In it items -> d_name it <> n) ->
  forall s' r, apply kind blocks tmp op s items b s' r -> s' = s /\ r <> Ok tt.
Proof.
  intros kind blocks tmp op s items b (n & x & Hi & Hn) s' r. unfold apply, guarded. destruct (dry_apply kind blocks tmp op s items b) as [[]|e|] eqn:Edry.
  - exfalso. destruct (dry_apply_Ok _ _ _ _ _ _ _ Edry) as [Hf _]. destruct (Hf n x Hi) as [it Ei]. clear - Ei Hn. induction items as [|i items IH]; [discriminate|]. cbn [find_item] in Ei.
    destruct (Z.eqb_spec (d_name i) n) as [E|E]; [apply (Hn i (or_introl eq_refl) E)|]. apply IH; [|exact Ei]. intros j Hj. apply Hn. right. exact Hj.
  - intros [-> ->]. split; [reflexivity|discriminate].
  - intros [-> ->]. split; [reflexivity|discriminate].
Qed.
Print Assumptions C33_apply_missing.

(** ** Concrete cases *)
Definition x2 : sizes := mkmap [5] [2].
(** two elements from [off] of a buffer of [n] *)
Definition part (buf : nat) (off n : Z) : arr := mkarr buf (mkvar x2 [1] off false n).
Definition at_ (k : Z) : Dim -> Z := fun _ => k.
Definition one_block (d : sizes) : list (Z * Z) := [(0, volume d)].
Definition num (k : Z) : element := (ENum k, ENum 0).
Definition val (e : element) : Z := match fst e with ENum k => k | _ => 0 end.
Definition no_coords : sdict := mksd x2 mempty false.
Definition no_masks : masks := mkmasks x2 mempty false.
Definition two (f : Z -> Z -> Z) (l : list element) : element := match l with [a; b] => num (f (val a) (val b)) | _ => num 0 end.
Definition k_add : kernel := mkkernel (two Z.add) (fun a => num (2 * val a)) bunit_add (fun u => bunit_mul u (factor_unit u)) (fun _ _ => true).
Definition k_mul : kernel := mkkernel (two Z.mul) (fun a => num (val a * val a)) bunit_mul (fun u => pow_unit u (factor_unit u) 2) (fun _ _ => true).
Definition doubles (vars : bool) : nat -> bufkind := fun _ => mkbk 0 vars.
(** buffer b holds 10 b, 10 b + 1, ... *)
Definition h_10 : heap element := fun c => num (10 * Z.of_nat (fst c) + snd c).
Definition st_10 (u : bunit) : dstate := mkst h_10 (fun _ => u) (fun _ => no_masks).

Lemma one_block_tiles d : wf d -> tiles 0 (volume d) (one_block d).
Proof.
  intros Hd. assert (0 <= volume d) by (rewrite Dims_Proofs.volume_vol; apply Dims_Proofs.vol_nonneg, Hd).
  apply tiles_cons; [lia|constructor].
Qed.
Lemma x2_inside ix : inside x2 ix <-> 0 <= ix 5 < 2.
Proof. unfold inside. split; [intros Hx; apply (Hx 5 2); left; reflexivity|]. intros Hx k n [E|[]]. injection E as <- <-. exact Hx. Qed.
Lemma x2_at k : 0 <= k < 2 -> inside x2 (at_ k).
Proof. intros Hk. apply x2_inside. exact Hk. Qed.
Lemma part_wf b o n : wfv (a_var (part b o n)).
Proof. repeat constructor; cbn; intuition (discriminate || lia). Qed.
Lemma part_addr b o n ix : vaddr (a_var (part b o n)) ix = o + ix 5.
Proof. change (o + (1 * ix 5 + 0) = o + ix 5). lia. Qed.
Lemma part_value {A} (h : heap A) b o n k : value_at h (part b o n) (at_ k) = h (b, o + k).
Proof. unfold value_at. rewrite part_addr. reflexivity. Qed.
Lemma part_cell b o n c : cell_of (part b o n) c -> fst c = b /\ o <= snd c < o + 2.
Proof. intros (ix & Hix & ->). pose proof (proj1 (x2_inside ix) Hix) as Hi5. rewrite part_addr. cbn [fst snd part a_buf]. split; [reflexivity|]. lia. Qed.
Lemma part_distinct b o n : distinct_elements (part b o n).
Proof. intros ix ix' _ _. rewrite !part_addr. intros E k Hk. assert (k = 5) as -> by (destruct Hk as [<-|[]]; reflexivity). lia. Qed.
Lemma part_alias a b o n : ~ hidden_alias a (part b o n).
Proof. intros (_ & _ & Hs & _). cbn in Hs. inversion Hs. discriminate. Qed.

Lemma parts_admissible kind op s l :
  (forall it b, In (it, b) l -> exists n1 o1 m1 n2 o2 m2, d_data it = part n1 o1 m1 /\ r_data b = part n2 o2 m2 /\ n1 <> 99%nat /\ n2 <> 99%nat) ->
  NoDup (map (fun p => a_buf (d_data (fst p))) l) -> NoDup (map (fun p => d_name (fst p)) l) ->
  (forall it b n, In (it, b) l -> coord_buf (d_coords it) n \/ meta_coord_buf b n -> n <> 99%nat /\ ~ In n (map (fun p => a_buf (d_data (fst p))) l)) ->
  (forall it b c m, In (it, b) l -> r_meta b = Some (c, m) -> exists d, union_or_in_place (s_masks s (d_name it)) m = (d, Ok tt)) ->
  (forall it b, In (it, b) l -> correlated kind (d_data it) (r_data b) = true ->
    let u := s_unit s (a_buf (d_data it)) in e_self_unit op u = e_unit op u u) ->
  admissible kind 99 op s l.
Proof.
  intros Hl. constructor; try assumption.
  - intros it b Hi. destruct (Hl it b Hi) as (n1 & o1 & m1 & n2 & o2 & m2 & -> & -> & _). split; [apply part_wf|]. split; [apply part_wf|]. split; [apply part_distinct|cbn; unfold NDIM_OP_MAX; lia].
  - intros it b Hi. destruct (Hl it b Hi) as (n1 & o1 & m1 & n2 & o2 & m2 & -> & -> & _). apply part_alias.
  - intros it b Hi. destruct (Hl it b Hi) as (n1 & o1 & m1 & n2 & o2 & m2 & -> & -> & A1 & A2). split; assumption.
Qed.
(** One step, for items and operands without coords and masks *)
Lemma plain_step kind op s it b n1 o1 m1 n2 o2 m2 : d_data it = part n1 o1 m1 -> r_data b = part n2 o2 m2 -> n1 <> 99%nat -> n2 <> 99%nat ->
  d_coords it = no_coords -> r_meta b = None ->
  (correlated kind (d_data it) (r_data b) = true -> let u := s_unit s (a_buf (d_data it)) in e_self_unit op u = e_unit op u u) ->
  dry_run_op kind one_block 99 op s it b = Ok tt ->
  exists s', item_op kind one_block 99 op s it b s' (Ok tt) /\ updated kind op s s' it b /\ only_these 99 s s' [it].
Proof.
  intros E1 E2 N1 N2 Ec Em Hs Hdry. destruct (item_op_ok kind one_block 99 one_block_tiles op s it b []) as [[s' I1] I2].
  - apply parts_admissible.
    + intros it' b' [E|[]]. injection E as <- <-. exists n1, o1, m1, n2, o2, m2. auto.
    + repeat constructor. cbn. tauto.
    + repeat constructor. cbn. tauto.
    + intros it' b' n [E|[]]. injection E as <- <-. rewrite Ec. intros [(k & i & [] & _)|(c & m & E & _)]. congruence.
    + intros it' b' c m [E|[]]. injection E as <- <-. congruence.
    + intros it' b' [E|[]]. injection E as <- <-. exact Hs.
  - exact Hdry.
  - exists s'. split; [exact I1|]. apply (I2 s' _ I1).
Qed.
Lemma item_value kind op s s' it b n1 o1 m1 k : updated kind op s s' it b -> d_data it = part n1 o1 m1 -> o1 <= k < o1 + 2 -> s_heap s' (n1, k) = expected kind op s it b (at_ (k - o1)).
Proof. intros (U & _) E Hk. rewrite <- (U (at_ (k - o1))); rewrite E; [rewrite part_value; do 2 f_equal; lia|apply x2_at; lia]. Qed.

(** [ds += ds['a']] where a = (10, 11) and c = (20, 21): a becomes (20, 22) and c (30, 32), although a is first. *)
Definition plain (n : Z) (d : arr) : ditem := mkdi n d no_coords.
Definition variable (d : arr) : rhs := mkrhs d None.
Example C33_delay_case : exists s',
  apply_with_delay (doubles false) one_block 99 k_add (st_10 (Some 1)) [plain 1 (part 1 0 2); plain 3 (part 2 0 2)] (variable (part 1 0 2)) s' (Ok tt) /\
  map (fun c => val (s_heap s' c)) [(1%nat, 0); (1%nat, 1); (2%nat, 0); (2%nat, 1)] = [20; 22; 30; 32].
Proof.
  set (items := [plain 1 (part 1 0 2); plain 3 (part 2 0 2)]). set (b := variable (part 1 0 2)).
  destruct (C33_delay (doubles false) one_block 99 k_add (st_10 (Some 1)) items b one_block_tiles) as [(s' & r & Ha) Hall].
  - apply parts_admissible.
    + intros it b' [E|[E|[]]]; injection E as <- <-; do 6 eexists; (split; [reflexivity|]); (split; [reflexivity|]); split; discriminate.
    + repeat constructor; cbn; intuition discriminate.
    + repeat constructor; cbn; intuition discriminate.
    + intros it b' n [E|[E|[]]]; injection E as <- <-; intros [(k & i & [] & _)|(c & m & E & _)]; discriminate.
    + intros it b' c m [E|[E|[]]]; injection E as <- <-; discriminate.
    + intros it b' [E|[E|[]]]; injection E as <- <-; discriminate.
  - destruct (Hall s' r Ha) as (Er & Hok & _). assert (Ed : r = Ok tt) by (rewrite Er; vm_compute; reflexivity). destruct (Hok Ed) as [U _]. exists s'. split; [rewrite <- Ed; exact Ha|].
    assert (U1 := U (plain 1 (part 1 0 2)) (or_introl eq_refl)). assert (U2 := U (plain 3 (part 2 0 2)) (or_intror (or_introl eq_refl))).
    cbn [map]. rewrite (item_value _ _ _ _ _ _ 1 0 2 0 U1 eq_refl ltac:(lia)), (item_value _ _ _ _ _ _ 1 0 2 1 U1 eq_refl ltac:(lia)),
      (item_value _ _ _ _ _ _ 2 0 2 0 U2 eq_refl ltac:(lia)), (item_value _ _ _ _ _ _ 2 0 2 1 U2 eq_refl ltac:(lia)). vm_compute. reflexivity.
Qed.

(** With coords and masks: [ds += array], where the array has a mask that item c lacks, and c's coord x = (50, 51) equals that of
    the array, (50, 51) in other memory. The masks are combined. *)
Definition x_coord (buf off : Z) : sdict := mksd x2 (mkmap [5] [mkitem buf (mkvar x2 [1] off false 4) true false]) false.
Definition first_masked : mask := mkmask (mkd x2 (fun ix => ix 5 =? 0)) true true false.
Definition h_coord : heap element := fun c => if (fst c =? 6)%nat then num (50 + snd c) else h_10 c.
Definition array_ : rhs := mkrhs (part 4 0 2) (Some (x_coord 6 0, mkmap [8] [first_masked])).
Example C33_delay_meta_case : exists s' m,
  apply_with_delay (doubles false) one_block 99 k_add (mkst h_coord (fun _ => Some 1) (fun _ => no_masks))
    [mkdi 1 (part 1 0 2) (x_coord 5 0); mkdi 3 (part 2 0 2) (x_coord 5 0)] array_ s' (Ok tt) /\
  map (fun c => val (s_heap s' c)) [(1%nat, 0); (1%nat, 1); (2%nat, 0); (2%nat, 1)] = [50; 52; 60; 62] /\
  ms_items (s_masks s' 3) = mkmap [8] [m] /\ map (fun k => dv (k_arr m) (at_ k)) [0; 1] = [true; false].
Proof.
  set (i1 := mkdi 1 (part 1 0 2) (x_coord 5 0)). set (i3 := mkdi 3 (part 2 0 2) (x_coord 5 0)).
  destruct (C33_delay (doubles false) one_block 99 k_add (mkst h_coord (fun _ => Some 1) (fun _ => no_masks)) [i1; i3] array_ one_block_tiles) as [(s' & r & Ha) Hall].
  - apply parts_admissible.
    + intros it b' [E|[E|[]]]; injection E as <- <-; do 6 eexists; (split; [reflexivity|]); (split; [reflexivity|]); split; discriminate.
    + repeat constructor; cbn; intuition discriminate.
    + repeat constructor; cbn; intuition discriminate.
    + intros it b' n [E|[E|[]]]; injection E as <- <-; intros [(k & i & [E|[]] & <-)|(c & m & E & (k & i & Hi & <-))]; try (injection E as <- <-; cbn; split; intuition discriminate).
      all: injection E as <- <-; destruct Hi as [E|[]]; injection E as <- <-; cbn; split; intuition discriminate.
    + intros it b' c m [E|[E|[]]]; injection E as <- <-; intros E; injection E as <- <-; eexists; cbn; reflexivity.
    + intros it b' [E|[E|[]]]; injection E as <- <-; discriminate.
  - destruct (Hall s' r Ha) as (Er & Hok & _). assert (Ed : r = Ok tt) by (rewrite Er; vm_compute; reflexivity). destruct (Hok Ed) as [U _].
    assert (U1 := U i1 (or_introl eq_refl)). assert (U2 := U i3 (or_intror (or_introl eq_refl))).
    exists s', (mask_copy first_masked). split; [rewrite <- Ed; exact Ha|]. split; [|split].
    + cbn [map]. rewrite (item_value _ _ _ _ _ _ 1 0 2 0 U1 eq_refl ltac:(lia)), (item_value _ _ _ _ _ _ 1 0 2 1 U1 eq_refl ltac:(lia)),
        (item_value _ _ _ _ _ _ 2 0 2 0 U2 eq_refl ltac:(lia)), (item_value _ _ _ _ _ _ 2 0 2 1 U2 eq_refl ltac:(lia)). vm_compute. reflexivity.
    + destruct U2 as (_ & _ & Um). cbn in Um. injection Um as <-. reflexivity.
    + reflexivity.
Qed.

(** [ds += other] for two items each, given in another order. *)
Example C33_apply_case : exists s',
  apply (doubles false) one_block 99 k_add (st_10 (Some 1)) [plain 1 (part 1 0 2); plain 3 (part 2 0 2)] [(3, variable (part 5 0 2)); (1, variable (part 6 0 2))] s' (Ok tt) /\
  map (fun c => val (s_heap s' c)) [(1%nat, 0); (1%nat, 1); (2%nat, 0); (2%nat, 1)] = [70; 72; 70; 72].
Proof.
  set (items := [plain 1 (part 1 0 2); plain 3 (part 2 0 2)]). set (b := [(3, variable (part 5 0 2)); (1, variable (part 6 0 2))]).
  destruct (C33_apply (doubles false) one_block 99 k_add (st_10 (Some 1)) items b one_block_tiles) as [(s' & r & Ha) Hall].
  - apply parts_admissible.
    + intros it b' [E|[E|[]]]; injection E as <- <-; do 6 eexists; (split; [reflexivity|]); (split; [reflexivity|]); split; discriminate.
    + repeat constructor; cbn; intuition discriminate.
    + repeat constructor; cbn; intuition discriminate.
    + intros it b' n [E|[E|[]]]; injection E as <- <-; intros [(k & i & [] & _)|(c & m & E & _)]; discriminate.
    + intros it b' c m [E|[E|[]]]; injection E as <- <-; discriminate.
    + intros it b' [E|[E|[]]]; injection E as <- <-; discriminate.
  - repeat constructor; cbn; discriminate.
  - destruct (Hall s' r Ha) as (Er & Hok & _). assert (Ed : r = Ok tt) by (rewrite Er; vm_compute; reflexivity). destruct (Hok Ed) as [U _]. exists s'. split; [rewrite <- Ed; exact Ha|].
    destruct (U 3 _ (or_introl eq_refl)) as (it & E2 & U2). injection E2 as <-. destruct (U 1 _ (or_intror (or_introl eq_refl))) as (it & E1 & U1). injection E1 as <-.
    cbn [map]. rewrite (item_value _ _ _ _ _ _ 1 0 2 0 U1 eq_refl ltac:(lia)), (item_value _ _ _ _ _ _ 1 0 2 1 U1 eq_refl ltac:(lia)),
      (item_value _ _ _ _ _ _ 2 0 2 0 U2 eq_refl ltac:(lia)), (item_value _ _ _ _ _ _ 2 0 2 1 U2 eq_refl ltac:(lia)). vm_compute. reflexivity.
Qed.

(** An item of the right operand that is missing on the left: nothing changes. *)
Example C33_apply_missing_case : forall s' r,
  apply (doubles false) one_block 99 k_add (st_10 (Some 1)) [plain 1 (part 1 0 2)] [(1, variable (part 6 0 2)); (2, variable (part 5 0 2))] s' r ->
  s' = st_10 (Some 1) /\ r <> Ok tt.
Proof. apply C33_apply_missing. exists 2, (variable (part 5 0 2)). split; [right; left; reflexivity|]. intros it [<-|[]]; discriminate. Qed.

(** ** What is wrong without the conditions *)

(** Two items that are parts of one buffer, v[0:2] and v[2:4], and [ds += v[0:2]]: the call succeeds, but the first item keeps
    its values, since only one item is postponed. *)
Theorem C33_shared_operand_refuted : exists kind op s items b s' it,
  apply_with_delay kind one_block 99 op s items b s' (Ok tt) /\ In it items /\
  map (fun k => val (value_at (s_heap s) (d_data it) (at_ k))) [0; 1] = [10; 11] /\
  map (fun k => val (expected kind op s it b (at_ k))) [0; 1] = [20; 22] /\
  map (fun k => val (value_at (s_heap s') (d_data it) (at_ k))) [0; 1] = [10; 11].
Proof.
  set (i1 := plain 1 (part 1 0 4)). set (i2 := plain 2 (part 1 2 4)). set (b := variable (part 1 0 4)). set (s := st_10 (Some 1)).
  destruct (plain_step (doubles false) k_add s i2 b 1 2 4 1 0 4) as (s' & I1 & _ & O); try reflexivity; try discriminate.
  exists (doubles false), k_add, s, [i1; i2], b, s', i1. split; [|split; [left; reflexivity|]].
  - unfold apply_with_delay, guarded. replace (dry_runs _ _ _ _ _ _) with (Ok tt) by (vm_compute; reflexivity).
    change (item_ops (doubles false) one_block 99 k_add s [(i2, b)] s' (Ok tt)). eapply ops_cons; [exact I1|constructor].
  - split; [vm_compute; reflexivity|]. split; [vm_compute; reflexivity|]. destruct O as (O & _).
    cbn [map]. unfold i1 at 1 2. cbn [d_data plain]. rewrite !part_value. rewrite !O; [vm_compute; reflexivity|..]; try (cbn; discriminate).
    all: intros it [<-|[]] Hc; apply part_cell in Hc; cbn in Hc; lia.
Qed.
Print Assumptions C33_shared_operand_refuted.

(** Two items with the same data, and [ds += w]: the operation is applied twice. *)
Theorem C33_shared_items_refuted : exists kind op s items b s' it,
  apply_with_delay kind one_block 99 op s items b s' (Ok tt) /\ In it items /\
  map (fun k => val (expected kind op s it b (at_ k))) [0; 1] = [30; 32] /\
  map (fun k => val (value_at (s_heap s') (d_data it) (at_ k))) [0; 1] = [50; 53].
Proof.
  set (i1 := plain 1 (part 1 0 2)). set (i2 := plain 2 (part 1 0 2)). set (b := variable (part 2 0 2)). set (s := st_10 (Some 1)).
  destruct (plain_step (doubles false) k_add s i1 b 1 0 2 2 0 2) as (s1 & I1 & U1 & O1); try reflexivity; try discriminate.
  destruct U1 as (V1 & Eu1 & _). destruct O1 as (H1 & Hu1 & _). change (Ok (Some 1) = Ok (s_unit s1 1%nat)) in Eu1. injection Eu1 as Eu1.
  assert (E2 : s_unit s1 2%nat = Some 1) by (apply Hu1; cbn; intuition discriminate).
  destruct (plain_step (doubles false) k_add s1 i2 b 1 0 2 2 0 2) as (s2 & I2 & U2 & _); try reflexivity; try discriminate.
  { unfold dry_run_op, dry_run_data, checks. cbn [variable r_meta r_data b i2 plain d_data d_coords bind part a_buf]. rewrite <- Eu1, E2. vm_compute. reflexivity. }
  exists (doubles false), k_add, s, [i1; i2], b, s2, i1. split; [|split; [left; reflexivity|]].
  - unfold apply_with_delay, guarded. replace (dry_runs _ _ _ _ _ _) with (Ok tt) by (vm_compute; reflexivity).
    change (item_ops (doubles false) one_block 99 k_add s [(i1, b); (i2, b)] s2 (Ok tt)). eapply ops_cons; [exact I1|]. eapply ops_cons; [exact I2|constructor].
  - split; [vm_compute; reflexivity|]. destruct U2 as (V2 & _).
    assert (Hb : forall k, 0 <= k < 2 -> s_heap s1 (2%nat, k) = num (20 + k)).
    { intros k Hk. rewrite H1; [reflexivity| |cbn; discriminate]. intros it [<-|[]] Hc. apply part_cell in Hc. cbn in Hc. lia. }
    assert (Hx : forall k, 0 <= k < 2 -> val (value_at (s_heap s2) (d_data i1) (at_ k)) = 50 + 3 * k).
    { intros k Hk. change (d_data i1) with (d_data i2). rewrite (V2 (at_ k) (x2_at k Hk)). unfold expected. change (correlated _ _ _) with false. cbv iota.
      change (d_data i2) with (d_data i1). rewrite (V1 (at_ k) (x2_at k Hk)). change (r_data b) with (part 2 0 2). rewrite (part_value (s_heap s1) 2 0 2 k), (Hb (0 + k)) by lia.
      unfold expected. change (correlated _ _ _) with false. cbv iota. change (d_data i1) with (part 1 0 2). change (r_data b) with (part 2 0 2). rewrite !part_value.
      change (10 + (0 + k) + (20 + (0 + k)) + (20 + (0 + k)) = 50 + 3 * k). lia. }
    cbn [map]. rewrite !Hx by lia. reflexivity.
Qed.
Print Assumptions C33_shared_items_refuted.

(** [a += b] where [b] has the items of [a] exchanged: the second item gets the sum of an updated value. *)
Theorem C33_exchanged_refuted : exists kind op s items b s' it x,
  apply kind one_block 99 op s items b s' (Ok tt) /\ find_item items 2 = Ok it /\ In (2, x) b /\
  map (fun k => val (expected kind op s it x (at_ k))) [0; 1] = [30; 32] /\
  map (fun k => val (value_at (s_heap s') (d_data it) (at_ k))) [0; 1] = [50; 53].
Proof.
  set (i1 := plain 1 (part 1 0 2)). set (i2 := plain 2 (part 2 0 2)). set (b1 := variable (part 2 0 2)). set (b2 := variable (part 1 0 2)). set (s := st_10 (Some 1)).
  destruct (plain_step (doubles false) k_add s i1 b1 1 0 2 2 0 2) as (s1 & I1 & U1 & O1); try reflexivity; try discriminate.
  destruct U1 as (V1 & Eu1 & _). destruct O1 as (H1 & Hu1 & _). change (Ok (Some 1) = Ok (s_unit s1 1%nat)) in Eu1. injection Eu1 as Eu1.
  assert (E2 : s_unit s1 2%nat = Some 1) by (apply Hu1; cbn; intuition discriminate).
  destruct (plain_step (doubles false) k_add s1 i2 b2 2 0 2 1 0 2) as (s2 & I2 & U2 & _); try reflexivity; try discriminate.
  { unfold dry_run_op, dry_run_data, checks. cbn [variable r_meta r_data b2 i2 plain d_data d_coords bind part a_buf]. rewrite <- Eu1, E2. vm_compute. reflexivity. }
  exists (doubles false), k_add, s, [i1; i2], [(1, b1); (2, b2)], s2, i2, b2. split; [|split; [reflexivity|split; [right; left; reflexivity|]]].
  - unfold apply, guarded. replace (dry_apply _ _ _ _ _ _ _) with (Ok tt) by (vm_compute; reflexivity).
    change (item_ops (doubles false) one_block 99 k_add s [(i1, b1); (i2, b2)] s2 (Ok tt)). eapply ops_cons; [exact I1|]. eapply ops_cons; [exact I2|constructor].
  - split; [vm_compute; reflexivity|]. destruct U2 as (V2 & _).
    assert (Hb : forall k, 0 <= k < 2 -> s_heap s1 (2%nat, k) = num (20 + k)).
    { intros k Hk. rewrite H1; [reflexivity| |cbn; discriminate]. intros it [<-|[]] Hc. apply part_cell in Hc. cbn in Hc. lia. }
    assert (Hx : forall k, 0 <= k < 2 -> val (value_at (s_heap s2) (d_data i2) (at_ k)) = 50 + 3 * k).
    { intros k Hk. rewrite (V2 (at_ k) (x2_at k Hk)). unfold expected. change (correlated _ _ _) with false. cbv iota.
      change (r_data b2) with (d_data i1). rewrite (V1 (at_ k) (x2_at k Hk)). change (d_data i2) with (part 2 0 2). rewrite (part_value (s_heap s1) 2 0 2 k), (Hb (0 + k)) by lia.
      unfold expected. change (correlated _ _ _) with false. cbv iota. change (d_data i1) with (part 1 0 2). change (r_data b1) with (part 2 0 2). rewrite !part_value.
      change ((20 + (0 + k)) + (10 + (0 + k) + (20 + (0 + k))) = 50 + 3 * k). lia. }
    cbn [map]. rewrite !Hx by lia. reflexivity.
Qed.
Print Assumptions C33_exchanged_refuted.

(** [ds += array] with a mask that cannot be combined with that of the second item (which has a unit): the dry run does not look
    at masks, so the call throws when the first item has been updated. *)
Theorem C33_masks_refuted : exists kind op s items b s' e it,
  apply_with_delay kind one_block 99 op s items b s' (Throw e) /\ In it items /\
  map (fun k => val (value_at (s_heap s) (d_data it) (at_ k))) [0; 1] = [10; 11] /\
  map (fun k => val (value_at (s_heap s') (d_data it) (at_ k))) [0; 1] = [50; 52] /\
  ms_items (s_masks s (d_name it)) = mempty /\ ms_items (s_masks s' (d_name it)) <> mempty.
Proof.
  set (i1 := plain 1 (part 1 0 2)). set (i2 := plain 2 (part 2 0 2)). set (ms := mkmap [8] [first_masked]). set (b := mkrhs (part 4 0 2) (Some (no_coords, ms))).
  set (s := mkst h_10 (fun _ => Some 1) (fun n => if n =? 2 then mkmasks x2 (mkmap [8] [mkmask (mkd x2 (fun _ => false)) true false false]) false else no_masks)).
  destruct (item_op_ok (doubles false) one_block 99 one_block_tiles k_add s i1 b []) as [[s1 I1] I2].
  - apply parts_admissible.
    + intros it' b' [E|[]]. injection E as <- <-. exists 1%nat, 0, 2, 4%nat, 0, 2. repeat split; discriminate.
    + repeat constructor. cbn. tauto.
    + repeat constructor. cbn. tauto.
    + intros it' b' n [E|[]]. injection E as <- <-. intros [(k & i & [] & _)|(c & m & E & (k & i & Hi & _))]. injection E as <- <-. destruct Hi.
    + intros it' b' c m [E|[]]. injection E as <- <-. intros E. injection E as <- <-. eexists. cbn. reflexivity.
    + intros it' b' [E|[]]. injection E as <- <-. discriminate.
  - vm_compute. reflexivity.
  - destruct (I2 s1 _ I1) as (_ & U1 & O1). exists (doubles false), k_add, s, [i1; i2], b, (mkst (s_heap s1) (s_unit s1) (set_masks (s_masks s1) 2 (s_masks s1 2))), UnitError, i1.
    split; [|split; [left; reflexivity|]].
    + unfold apply_with_delay, guarded. replace (dry_runs _ _ _ _ _ _) with (Ok tt) by (vm_compute; reflexivity).
      change (item_ops (doubles false) one_block 99 k_add s [(i1, b); (i2, b)] (mkst (s_heap s1) (s_unit s1) (set_masks (s_masks s1) 2 (s_masks s1 2))) (Throw UnitError)). eapply ops_cons; [exact I1|].
      apply ops_stop; [|discriminate]. refine (item_masks (doubles false) one_block 99 k_add s1 i2 b no_coords ms (s_masks s1 2) (Throw UnitError) _ _ _ _); [reflexivity|reflexivity| |discriminate]. change (d_name i2) with 2.
      destruct O1 as (_ & _ & Om). rewrite (Om 2) by (cbn; intuition discriminate). reflexivity.
    + split; [vm_compute; reflexivity|]. split; [|split; [reflexivity|]].
      * destruct U1 as (V1 & _). cbn [map s_heap]. rewrite !V1 by (apply x2_at; lia). vm_compute. reflexivity.
      * cbn [s_masks]. unfold set_masks. cbn [i1 plain d_name Z.eqb]. destruct U1 as (_ & _ & Um). cbn in Um. injection Um as <-. discriminate.
Qed.
Print Assumptions C33_masks_refuted.

(** [ds *= ds['b']] with variances and no units: the dry run accepts it, but the product of b with itself is calculated as a
    power, which is refused for operands without unit, when item a has already been multiplied. *)
Theorem C33_no_unit_refuted : exists s items b s' e it,
  apply_with_delay (doubles true) one_block 99 k_mul s items b s' (Throw e) /\ In it items /\
  map (fun k => val (value_at (s_heap s) (d_data it) (at_ k))) [0; 1] = [10; 11] /\
  map (fun k => val (value_at (s_heap s') (d_data it) (at_ k))) [0; 1] = [200; 231].
Proof.
  set (i1 := plain 1 (part 1 0 2)). set (i2 := plain 2 (part 2 0 2)). set (b := variable (part 2 0 2)). set (s := st_10 None).
  destruct (plain_step (doubles true) k_mul s i1 b 1 0 2 2 0 2) as (s1 & I1 & U1 & O1); try reflexivity; try discriminate.
  destruct U1 as (V1 & Eu1 & _). destruct O1 as (H1 & Hu1 & _).
  assert (E2 : s_unit s1 2%nat = None) by (apply Hu1; cbn; intuition discriminate).
  exists s, [i1; i2], b, s1, UnitError, i1. split; [|split; [left; reflexivity|]].
  - unfold apply_with_delay, guarded. replace (dry_runs _ _ _ _ _ _) with (Ok tt) by (vm_compute; reflexivity).
    change (item_ops (doubles true) one_block 99 k_mul s [(i1, b); (i2, b)] s1 (Throw UnitError)). eapply ops_cons; [exact I1|].
    apply ops_stop; [|discriminate]. apply item_var; [reflexivity|]. apply data_throw. unfold start_data. replace (correlated _ _ _) with true by reflexivity.
    cbn [i2 plain d_data part a_buf]. rewrite E2. reflexivity.
  - split; [vm_compute; reflexivity|]. cbn [map]. rewrite !V1 by (apply x2_at; lia). vm_compute. reflexivity.
Qed.
Print Assumptions C33_no_unit_refuted.

(** A coord that shares memory with the data of the first item: the check of coords passes in the dry run but not when the
    first item has been updated. *)
Theorem C33_coord_refuted : exists kind op s items b s' e it,
  apply_with_delay kind one_block 99 op s items b s' (Throw e) /\ In it items /\
  map (fun k => val (value_at (s_heap s) (d_data it) (at_ k))) [0; 1] = [10; 11] /\
  map (fun k => val (value_at (s_heap s') (d_data it) (at_ k))) [0; 1] = [50; 52].
Proof.
  set (i1 := mkdi 1 (part 1 0 2) (x_coord 1 0)). set (i2 := mkdi 2 (part 2 0 2) (x_coord 1 0)). set (b := mkrhs (part 4 0 2) (Some (x_coord 6 0, mempty))).
  set (h := fun c : cell => if (fst c =? 6)%nat then num (10 + snd c) else h_10 c). set (s := mkst h (fun _ => Some 1) (fun _ => no_masks)).
  set (s0 := mkst (s_heap s) (s_unit s) (set_masks (s_masks s) 1 no_masks)).
  destruct (data_op_ok (doubles false) one_block 99 one_block_tiles k_add s0 (part 1 0 2) (part 4 0 2) (part_wf 1 0 2) (part_wf 4 0 2) (part_distinct 1 0 2)) as [[s1 D1] D2];
    [cbn; unfold NDIM_OP_MAX; lia|apply part_alias|discriminate|discriminate|discriminate|vm_compute; reflexivity|].
  destruct (D2 s1 _ D1) as (_ & V1 & H1 & _ & Eu & Hu). change (Ok (Some 1) = Ok (s_unit s1 1%nat)) in Eu. injection Eu as Eu.
  assert (Hv : forall k, 0 <= k < 2 -> s_heap s1 (1%nat, k) = num (50 + 2 * k)).
  { intros k Hk. pose proof (V1 (at_ k) (x2_at k Hk)) as E. unfold value_after in E. change (correlated _ _ _) with false in E. cbv iota in E. rewrite !part_value in E. change (0 + k) with k in E.
    rewrite E. change (num ((10 + k) + (40 + k)) = num (50 + 2 * k)). f_equal. lia. }
  exists (doubles false), k_add, s, [i1; i2], b, s1.
  set (s2 := mkst (fun c => if ((fst c =? 1)%nat && (0 <=? snd c) && (snd c <? 2))%bool then num (50 + 2 * snd c) else h c) (fun _ => Some 1) (fun _ => no_masks)).
  assert (Es : coords_are_superset (store_of (doubles false) s1) (x_coord 1 0) (x_coord 6 0) = coords_are_superset (store_of (doubles false) s2) (x_coord 1 0) (x_coord 6 0)).
  { apply superset_ext; intros k i [E|[]]; injection E as <- <-.
    - split; [change (unit_code (s_unit s1 1%nat) = 2); rewrite <- Eu; reflexivity|]. split; [reflexivity|]. split; [|reflexivity]. intros j. cbn [store_of b_val s_heap i_obj fst snd]. f_equal. change (Z.to_nat 1) with 1%nat.
      unfold s2; cbn [s_heap fst snd Nat.eqb andb]. destruct (Z.leb_spec 0 j); destruct (Z.ltb_spec j 2); cbn [andb]; [apply Hv; lia|..].
      all: apply H1; [intros Hc; apply part_cell in Hc; cbn in Hc; lia|discriminate].
    - split; [change (unit_code (s_unit s1 6%nat) = 2); rewrite Hu by discriminate; reflexivity|]. split; [reflexivity|]. split; [|reflexivity]. intros j. cbn [store_of b_val s_heap i_obj fst snd]. f_equal.
      apply H1; [intros Hc; apply part_cell in Hc; cbn in Hc; lia|discriminate]. }
  destruct (coords_are_superset (store_of (doubles false) s2) (x_coord 1 0) (x_coord 6 0)) as [[]|e|] eqn:E2; [vm_compute in E2; discriminate| |vm_compute in E2; discriminate].
  exists e, i1. split; [|split; [left; reflexivity|]].
  - unfold apply_with_delay, guarded. replace (dry_runs _ _ _ _ _ _) with (Ok tt) by (vm_compute; reflexivity).
    change (item_ops (doubles false) one_block 99 k_add s [(i1, b); (i2, b)] s1 (Throw e)). eapply ops_cons.
    + apply (item_data _ _ _ _ _ _ _ (x_coord 6 0) mempty no_masks); [reflexivity|vm_compute; reflexivity|reflexivity|exact D1].
    + apply ops_stop; [|discriminate]. apply (item_coords _ _ _ _ _ _ _ (x_coord 6 0) mempty); [reflexivity|exact Es].
  - split; [vm_compute; reflexivity|]. cbn [map]. change (d_data i1) with (part 1 0 2). rewrite !part_value. change (0 + 0) with 0. change (0 + 1) with 1. rewrite !Hv by lia. reflexivity.
Qed.
Print Assumptions C33_coord_refuted.
