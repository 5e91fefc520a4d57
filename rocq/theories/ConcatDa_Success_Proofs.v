(** When the concatenation of data arrays succeeds. *)
From Verif Require Import Base Map_Model Dims_Model Dims_Spec Dims_Proofs Index_Model View_Model View_Spec View_Proofs SizedDict_Model SizedDict_Spec SizedDict_Proofs
  Transform_Model Transform_Spec Transform_Proofs Concat_Model Concat_Spec Concat_Proofs ConcatDa_Model ConcatDa_Spec ConcatDa_Proofs ConcatDa_Entry_Proofs.

Lemma collect_total {X Y} (f : X -> res Y) l : (forall x, In x l -> exists y, f x = Ok y) -> exists r, collect f l = Ok r.
Proof.
  induction l as [|x l IH]; intros Hf; cbn [collect]; [exists []; reflexivity|]. destruct (Hf x (or_introl eq_refl)) as [y ->]. cbn [bind].
  destruct IH as [r ->]; [intros z Hz; apply Hf; right; exact Hz|]. exists (y :: r). reflexivity.
Qed.
Lemma adjacent_const b l : (forall x, In x l -> x = b) -> adjacent_differ l = false.
Proof.
  induction l as [|x l IH]; intros Hl; [reflexivity|]. destruct l as [|y l]; [reflexivity|]. cbn [adjacent_differ].
  rewrite (Hl x (or_introl eq_refl)), (Hl y (or_intror (or_introl eq_refl))), Bool.eqb_reflx. cbn [negb orb]. rewrite <- (Hl y (or_intror (or_introl eq_refl))). apply IH. intros z Hz. apply Hl. right. exact Hz.
Qed.
Lemma dim_of_total is_mask m key it : sd_ok m -> holds m key it -> exists x, dim_of_key is_mask m key = Ok x.
Proof.
  intros Hm Hh. unfold dim_of_key. destruct is_mask; [rewrite (proj2 (sd_at_holds m key it Hm) Hh); cbn [bind]; eauto|].
  destruct (sizes_mk m Hm) as [Es Hl]. pose proof Hm as Hm'. apply sd_ok_alt in Hm' as (_ & Ei & Hnd & Hio). destruct (Hio key it Hh) as [Hit Hf].
  destruct (dim_of_ok (sd_shape m) (sd_list m) (sd_readonly m) key it Hl Hnd Hh Hit Hf) as (x & Ex & _). exists x. rewrite <- Ex. f_equal. rewrite <- Es, <- Ei. destruct m; reflexivity.
Qed.
Lemma dim_of_one is_mask m key it n dim : sd_ok m -> holds m key it -> ishape it = [(dim, n)] -> dim_of_key is_mask m key = Ok dim.
Proof.
  intros Hm Hh Es. assert (Hio : item_ok it) by (apply Hm with key; exact Hh). destruct (item_mk it Hio) as [Eq _]. rewrite Es in Eq.
  unfold dim_of_key, dim_of. rewrite (proj2 (sd_at_holds m key it Hm) Hh). cbn [bind]. rewrite Eq. destruct is_mask; reflexivity.
Qed.
Lemma item_fits m key it : sd_ok m -> holds m key it -> item_ok it /\ SizedDict_Spec.fits (sd_shape m) (ishape it).
Proof. intros Hm Hh. apply Hm with key. exact Hh. Qed.

Section Success.
Context {A : Type} (default : A) (eqb eqb_nan : A -> A -> bool) (blocks : sizes -> list (Z * Z)).
Hypothesis Hbl : forall d, wf d -> tiles 0 (volume d) (blocks d).

(** The items of a key, one per input. *)
Definition items_of (maps : list sdict) (key : Z) (its : list item) : Prop := Forall2 (fun m it => holds m key it) maps its.
(** A coord for the concatenated dimension: bin edges in all inputs that can be joined, or bin edges in no input. *)
Definition along (w : world (A := A)) (dim : Dim) (maps : list sdict) (key : Z) : Prop :=
  exists its, items_of maps key its /\ (forall it, In it its -> exists n, ishape it = [(dim, n)]) /\
    ((forall m it, In m maps -> holds m key it -> edge_dim (sd_shape m) it dim) /\ joinable eqb w dim (map arr_of its) \/
     (forall m it, In m maps -> holds m key it -> ~ edge_dim (sd_shape m) it dim)).
(** A coord that does not depend on the concatenated dimension and is the same in all inputs. *)
Definition constant (w : world (A := A)) (dim : Dim) (maps : list sdict) (key : Z) : Prop :=
  exists front its, items_of maps key (front :: its) /\ ~ In dim (keys (ishape front)) /\
    forall it, In it (front :: its) -> ishape it = ishape front /\ w_unit w (Z.to_nat (i_obj it)) = w_unit w (Z.to_nat (i_obj front)) /\
      forall ix, valid_at (ishape front) ix -> eqb_nan (value_at (w_heap w) (arr_of it) ix) (value_at (w_heap w) (arr_of front) ix) = true.

(** The shape of the result. *)
Definition entry_fits (dim : Dim) (maps : list sdict) (key : Z) (o : item) : Prop :=
  ishape o = [(dim, sumZ (map (len dim) maps))] \/ ishape o = [(dim, sumZ (map (len dim) maps) + 1)] \/
  exists a it, hd_error maps = Some a /\ holds a key it /\ ~ In dim (keys (ishape it)) /\ ishape o = ishape it.

Lemma F2_sum {X Y} (f : X -> Z) (g : Y -> Z) l r : Forall2 (fun x y => f x = g y) l r -> sumZ (map f l) = sumZ (map g r).
Proof. intros Hf. pose proof (F2_map_sum f g l r Hf (length l)) as E. rewrite firstn_all in E. rewrite (F2_len _ _ _ Hf), firstn_all in E. exact E. Qed.

Lemma entry_succeeds is_mask maps a dim key w u : dim <> InvalidDim -> hd_error maps = Some a -> (forall m, In m maps -> sd_ok m) -> items_in w maps key u ->
  along w dim maps key \/ constant w dim maps key ->
  exists o w', concat_entry default eqb eqb_nan blocks is_mask a maps dim key w (Ok o) w' /\ entry_fits dim maps key o.
Proof.
  intros Hd Hhd Hm Hw Hgood.
  assert (Hne : maps <> []) by (intros ->; discriminate).
  assert (Ha : In a maps) by (destruct maps as [|x l]; [discriminate|injection Hhd as ->; left; reflexivity]).
  assert (Hits : exists its, items_of maps key its) by (destruct Hgood as [(its & Hi & _)|(f & its & Hi & _)]; eauto). destruct Hits as [its Hits].
  assert (Ecol : collect (fun m => sd_at m key) maps = Ok its).
  { apply collect_Ok. apply (F2_imp (fun m it => holds m key it)); [|exact Hits]. intros m it Hmm Hh. apply sd_at_holds; [apply Hm, Hmm|exact Hh]. }
  assert (Huniq : forall its', items_of maps key its' -> its' = its).
  { intros its' Hi'. assert (E' : collect (fun m => sd_at m key) maps = Ok its'); [|congruence].
    apply collect_Ok. apply (F2_imp (fun m it => holds m key it)); [|exact Hi']. intros m it Hmm Hh. apply sd_at_holds; [apply Hm, Hmm|exact Hh]. }
  assert (Hflags : exists fs, edge_flags maps key dim = Ok fs /\ Forall2 (fun m b => forall it, holds m key it -> (b = true <-> edge_dim (sd_shape m) it dim)) maps fs).
  { destruct (collect_total (fun m => do it <- sd_at m key; is_edges (sd_sizes m) (i_dims it) dim) maps) as [fs Efs].
    - intros m Hmm. apply In_nth_error in Hmm as [i Hi]. destruct (F2_nth _ _ _ Hits i m Hi) as (it & _ & Hh). pose proof (Hm m (nth_error_In _ _ Hi)) as Hmk.
      rewrite (proj2 (sd_at_holds m key it Hmk) Hh). cbn [bind]. destruct (sizes_mk m Hmk) as [Es Hl]. destruct (item_fits m key it Hmk Hh) as [Hio Hf].
      destruct (is_edges_ok (sd_shape m) it dim Hl Hio Hf) as (b & Eb & _). rewrite Es, Eb. eauto.
    - exists fs. split; [exact Efs|]. apply collect_Ok in Efs. eapply F2_imp; [|exact Efs]. cbn beta. intros m b Hmm E it Hh. pose proof (Hm m Hmm) as Hmk.
      rewrite (proj2 (sd_at_holds m key it Hmk) Hh) in E. cbn [bind] in E. destruct (sizes_mk m Hmk) as [Es Hl]. destruct (item_fits m key it Hmk Hh) as [Hio Hf].
      destruct (is_edges_ok (sd_shape m) it dim Hl Hio Hf) as (b' & Eb & Hb). rewrite Es, Eb in E. injection E as <-. exact Hb. }
  destruct Hflags as (fs & Efs & Hflags).
  assert (Hfs : forall b, In b fs -> exists m it, In m maps /\ holds m key it /\ (b = true <-> edge_dim (sd_shape m) it dim)).
  { intros b Hb. destruct (F2_In_r _ _ _ Hflags b Hb) as (m & Hmm & Hiff). apply In_nth_error in Hmm as [i Hi]. destruct (F2_nth _ _ _ Hits i m Hi) as (it & _ & Hh).
    exists m, it. split; [apply (nth_error_In _ _ Hi)|]. split; [exact Hh|apply Hiff, Hh]. }
  assert (Hnth : exists front its', its = front :: its' /\ holds a key front).
  { destruct maps as [|x l]; [discriminate|]. injection Hhd as ->. inversion Hits as [|? front ? its' Hf Hr]; subst. eauto. }
  destruct Hnth as (front & its' & Eit & Hfront).
  assert (Hwits : forall it, In it its -> exists m, In m maps /\ holds m key it /\ item_ok it /\ in_world w u it /\ (length (ishape it) < NDIM_OP_MAX)%nat).
  { intros it Hit. destruct (F2_In_r _ _ _ Hits it Hit) as (m & Hmm & Hh). exists m. split; [exact Hmm|]. split; [exact Hh|]. split; [apply (item_fits m key it (Hm m Hmm) Hh)|]. apply (Hw m it Hmm Hh). }
  unfold concat_entry. rewrite Ecol. cbn [bind].
  destruct Hgood as [(its0 & Hi0 & Hone & Hcase)|(f0 & its0 & Hi0 & Hnd & Hsame)].
  - rewrite (Huniq its0 Hi0) in Hone, Hcase. clear its0 Hi0.
    destruct (Hone front) as [nf Ef]; [rewrite Eit; left; reflexivity|].
    rewrite (dim_of_one is_mask a key front nf dim (Hm a Ha) Hfront Ef), Efs. cbn [bind]. rewrite Z.eqb_refl.
    set (L := map arr_of its).
    assert (HLne : L <> []) by (unfold L; rewrite Eit; discriminate).
    assert (HL : forall x, In x L -> wfv (a_var x) /\ In dim (keys (ashape x)) /\ (a_buf x < w_next w)%nat /\ (length (ashape x) <= NDIM_OP_MAX)%nat /\ w_unit w (a_buf x) = u /\ exists n, ashape x = [(dim, n)]).
    { intros x Hx. apply in_map_iff in Hx as (it & <- & Hit). destruct (Hwits it Hit) as (m & Hmm & Hh & Hio & (_ & Hlt & Hu) & Hr). destruct (Hone it Hit) as [n En].
      change (ashape (arr_of it)) with (ishape it). split; [apply Hio|]. split; [rewrite En; left; reflexivity|]. split; [exact Hlt|]. split; [lia|]. split; [exact Hu|]. eauto. }
    destruct Hcase as [[Hedge Hj]|Hnoe].
    + assert (Hft : forall b, In b fs -> b = true) by (intros b Hb; destruct (Hfs b Hb) as (m & it & Hmm & Hh & Hiff); apply Hiff, (Hedge m it Hmm Hh)).
      rewrite (adjacent_const true fs Hft). assert (Eall : forallb (fun b => b) fs = true) by (apply forallb_forall; exact Hft). rewrite Eall. cbn [negb].
      destruct (proj1 (join_ok default eqb blocks w dim Hbl L HLne Hd ltac:(intros x Hx; destruct (HL x Hx) as (? & ? & ? & ? & _); auto)) Hj) as [(r & w' & Hr) Hall].
      destruct (Hall r w' Hr) as (o & -> & _ & _ & _ & _ & Hfr & _). exists (item_of o), w'. split; [exists (Ok o); split; [exact Hr|reflexivity]|].
      right. left. destruct (Hfr (arr_of front)) as [_ Es]; [unfold L; rewrite Eit; reflexivity|]. change (ishape (item_of o)) with (ashape o). rewrite Es. change (ashape (arr_of front)) with (ishape front). rewrite Ef. cbn [map fst]. rewrite Z.eqb_refl.
      unfold bins_before. rewrite firstn_all. do 3 f_equal. symmetry. apply F2_sum. unfold L. apply F2_map_r. apply (F2_imp (fun m it => holds m key it)); [|exact Hits]. intros m it Hmm Hh. cbn beta.
      destruct (part_edge dim m it (Hm m Hmm) (proj1 (item_fits m key it (Hm m Hmm) Hh)) (Hedge m it Hmm Hh)) as [-> _]. lia.
    + assert (Hft : forall b, In b fs -> b = false) by (intros b Hb; destruct (Hfs b Hb) as (m & it & Hmm & Hh & Hiff); destruct b; [exfalso; apply (Hnoe m it Hmm Hh), Hiff; reflexivity|reflexivity]).
      rewrite (adjacent_const false fs Hft). assert (Eall : forallb (fun b => b) fs = false).
      { destruct fs as [|b fs']; [inversion Hflags; subst; contradiction|]. cbn [forallb]. rewrite (Hft b (or_introl eq_refl)). reflexivity. }
      rewrite Eall. cbn [negb].
      assert (Ecs : concat_shape dim L = [(dim, total dim L)]).
      { unfold concat_shape. assert (Ecb : concat_base dim L = Some (ishape front)). { unfold L. rewrite Eit. cbn [map concat_base]. change (ashape (arr_of front)) with (ishape front). rewrite Ef. cbn [keys map fst mem existsb]. rewrite Z.eqb_refl. reflexivity. }
        rewrite Ecb, Ef. cbn [map fst]. rewrite Z.eqb_refl. reflexivity. }
      assert (Hin : input_ok w dim L).
      { split; [exact HLne|]. split; [exact Hd|]. split; [intros x Hx; destruct (HL x Hx) as (? & ? & ? & _); auto|]. rewrite Ecs. cbn [length]. unfold NDIM_OP_MAX. lia. }
      assert (Hfit : forall x, In x L -> fits_in dim L x). { intros x Hx k n Hk Hkd. destruct (HL x Hx) as (_ & _ & _ & _ & _ & n' & En). rewrite En in Hk. destruct Hk as [[= <- _]|[]]. congruence. }
      destruct (cat_ok default blocks Hbl w dim L u Hin ltac:(intros x Hx; apply (HL x Hx)) Hfit) as [(r & w' & Hr) Hall]. destruct (Hall r w' Hr) as (o & -> & _ & _ & _ & _ & _ & Es & _).
      exists (item_of o), w'. split; [exists (Ok o); split; [exact Hr|reflexivity]|]. left. change (ishape (item_of o)) with (ashape o). rewrite Es, Ecs. do 2 f_equal. unfold total. symmetry.
      apply F2_sum. unfold L. apply F2_map_r. apply (F2_imp (fun m it => In it its /\ holds m key it)).
      * intros m it Hmm [Hit Hh]. symmetry. apply (part_len dim m key it (Hm m Hmm) Hh (Hnoe m it Hmm Hh)). left. destruct (Hone it Hit) as [n En]. rewrite En. left. reflexivity.
      * clear - Hits. unfold items_of in Hits. induction Hits as [|m it maps its Hh Hits IH]; constructor; [split; [left; reflexivity|exact Hh]|]. apply (F2_imp (fun m it => In it its /\ holds m key it)); [|exact IH]. intros x y _ [Hy Hxy]. split; [right; exact Hy|exact Hxy].
  - pose proof (Huniq _ Hi0) as E0. rewrite Eit in E0. injection E0 as -> ->. rewrite <- Eit in Hsame.
    destruct (dim_of_total is_mask a key front (Hm a Ha) Hfront) as [d Ed]. rewrite Ed, Efs. cbn [bind].
    destruct (Z.eqb_spec d dim) as [->|Hdd]; [exfalso; apply Hnd, (dim_of_in is_mask a key front dim (Hm a Ha) Hfront Ed Hd)|].
    assert (Eex : existsb (fun it => dcontains (i_dims it) dim || negb (equals_nan eqb_nan w (arr_of it) (arr_of front))) its = false).
    { destruct (existsb _ its) eqn:E; [|reflexivity]. exfalso. apply existsb_exists in E as (it & Hit & E). destruct (Hsame it Hit) as (Es & Eu & Ev). destruct (Hwits it Hit) as (m & Hmm & Hh & Hio & _).
      destruct (item_mk it Hio) as [Eq _]. rewrite Eq, dcontains_mk, Es in E. rewrite (proj2 (mem_nIn dim _) Hnd) in E. cbn [orb] in E. apply negb_true_iff in E.
      assert (X : compare eqb_nan w (arr_of it) (arr_of front) = true).
      { apply compare_iff; [apply Hio|apply (item_fits a key front (Hm a Ha) Hfront)|]. split; [exact Eu|]. split; [exact Es|]. intros ix Hix. apply Ev. rewrite <- Es. exact Hix. }
      unfold equals_nan in E. rewrite X, orb_true_r in E. discriminate. }
    assert (Hfits : forall o, ishape o = ishape front -> entry_fits dim maps key o) by (intros o Eo; right; right; exists a, front; auto).
    destruct is_mask.
    + exists (mkitem (Z.of_nat (w_next w)) (var_fresh (i_dims front)) (i_aligned front) (i_bins front)), (snd (copy_new w (arr_of front))). split; [rewrite Eit in *; rewrite Eex; split; reflexivity|]. apply Hfits. reflexivity.
    + exists front, w. split; [rewrite Eit in *; rewrite Eex; split; reflexivity|]. apply Hfits. reflexivity.
Qed.

(** The conditions remain when other buffers are added. *)
Lemma joinable_keeps (w w' : world (A := A)) dim l : keeps w w' -> (forall x, In x l -> (a_buf x < w_next w)%nat) -> joinable eqb w dim l -> joinable eqb w' dim l.
Proof.
  intros K Hb (J1 & J2 & J3). split; [exact J1|]. split; [|exact J3]. intros i a b Ha Hb'. destruct (J2 i a b Ha Hb') as (M1 & M2 & M3). pose proof (Hb a (nth_error_In _ _ Ha)) as Ba. pose proof (Hb b (nth_error_In _ _ Hb')) as Bb.
  split; [destruct K as (_ & _ & U); rewrite !U by assumption; exact M1|]. split; [exact M2|]. intros ix Hix. rewrite !(value_keeps w w') by assumption. apply M3, Hix.
Qed.
Lemma good_keeps w w' dim maps key u : keeps w w' -> items_in w maps key u -> along w dim maps key \/ constant w dim maps key -> along w' dim maps key \/ constant w' dim maps key.
Proof.
  intros K Hi [(its & Hits & Hone & Hc)|(front & its & Hits & Hnd & Hs)].
  - left. exists its. split; [exact Hits|]. split; [exact Hone|]. destruct Hc as [[He Hj]|Hn]; [left|right; exact Hn]. split; [exact He|]. apply (joinable_keeps w w' dim _ K); [|exact Hj].
    intros x Hx. apply in_map_iff in Hx as (it & <- & Hit). destruct (F2_In_r _ _ _ Hits it Hit) as (m & Hmm & Hh). apply (Hi m it Hmm Hh).
  - right. exists front, its. split; [exact Hits|]. split; [exact Hnd|].
    assert (Hlt : forall it, In it (front :: its) -> (Z.to_nat (i_obj it) < w_next w)%nat) by (intros it Hit; destruct (F2_In_r _ _ _ Hits it Hit) as (m & Hmm & Hh); apply (Hi m it Hmm Hh)).
    intros it Hit. destruct (Hs it Hit) as (E1 & E2 & E3). split; [exact E1|]. split; [destruct K as (_ & _ & U); rewrite !U by (apply Hlt; (exact Hit || (left; reflexivity))); exact E2|].
    intros ix Hix. rewrite !(value_keeps w w') by (exact K || (apply Hlt; (exact Hit || (left; reflexivity)))). apply E3, Hix.
Qed.

Lemma entries_succeed is_mask maps a dim us ks : dim <> InvalidDim -> hd_error maps = Some a -> (forall m, In m maps -> sd_ok m) ->
  forall w, (forall key, In key ks -> items_in w maps key (us key) /\ all_depend dim maps key /\ (along w dim maps key \/ constant w dim maps key)) ->
  exists l w', concat_entries default eqb eqb_nan blocks is_mask a maps dim ks w (Ok l) w' /\ forall key o, In (key, o) l -> entry_fits dim maps key o.
Proof.
  intros Hd Hhd Hm. induction ks as [|k ks IH]; intros w Hk.
  - exists [], w. split; [split; reflexivity|]. intros key o [].
  - destruct (Hk k (or_introl eq_refl)) as (Hi & Hdep & Hg). destruct (entry_succeeds is_mask maps a dim k w (us k) Hd Hhd Hm Hi Hg) as (o & w1 & He & Hf).
    destruct (entry_ok default eqb eqb_nan blocks Hbl is_mask maps a dim k w (us k) o w1 Hd Hhd Hm Hi Hdep He) as [_ (K & _)].
    destruct (IH w1) as (l & w' & Hl & Hlf).
    { intros key Hkey. destruct (Hk key (or_intror Hkey)) as (X & Y & Zg). split; [exact (items_in_keeps _ _ _ _ _ K X)|]. split; [exact Y|exact (good_keeps w w1 dim maps key _ K X Zg)]. }
    exists ((k, o) :: l), w'. split.
    + cbn [concat_entries]. exists (Ok o), w1. split; [exact He|]. exists (Ok l). split; [exact Hl|reflexivity].
    + intros key x [[= <- <-]|Hx]; [exact Hf|exact (Hlf key x Hx)].
Qed.
End Success.
