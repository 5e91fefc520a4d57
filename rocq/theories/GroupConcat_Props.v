(** C57: concatenation of groups of bins. *)
From Coq Require Import Permutation.
From Flocq Require Import Core IEEE754.BinarySingleNaN.
From Verif Require Import Float.
From Verif Require Import Arr Lookup_Model Lookup_Proofs Lookup_Props Mapper_Model Mapper_Proofs Mapper_Proofs3 Mapper_Props TargetBins_Model TargetBins_Proofs TargetBins_Proofs2 TargetBins_Props
  GroupBy_Model GroupBy_Spec.
From Verif Require Transform_Proofs GroupBy_Props Accumulate_Model Accumulate_Spec Mask_Model Mask_Spec.
From Verif Require Import Base Map_Model Map_Spec Map_Proofs Dims_Model Dims_Spec Dims_Proofs View_Model View_Spec View_Proofs
  SizedDict_Model SizedDict_Spec SizedDict_Proofs BinMeta_Model BinMeta_Spec BinMeta_Proofs BinMeta_Props GroupConcat_Model GroupConcat_Spec GroupConcat_Proofs.

(** ** Dimensions and metadata *)
Theorem C57_metadata fresh joined array u key edges groups rdim :
  let P := da_shape array in let cl := sd_list (da_coords array) in let ml := sd_list (da_masks array) in let al := sd_list (da_attrs array) in
  let O := concat_shape P (al ++ cl) key edges rdim in let bd := u_dim u in let old := concat_outdated P (al ++ cl) key rdim bd in
  let new := opt edges ++ joined_coords P (al ++ cl) joined rdim ++ opt groups in
  let evc := ditems (u_coords u) in let evm := ditems (u_masks u) in let eva := ditems (u_attrs u) in
  da_ok array -> dict_ok (u_coords u) -> dict_ok (u_masks u) -> dict_ok (u_attrs u) -> rdim <> InvalidDim ->
  (forall d, In d (keys P) -> item_ok (joined d) /\ ishape (joined d) = [(d, 2)]) -> key_item key edges groups -> NoDup (map fst (al ++ cl)) ->
  distinct_axes P (al ++ cl) key rdim ->
  (forall k it, In (k, it) (evc ++ evm ++ eva) -> ~ of_events bd it -> SizedDict_Spec.fits O (ishape it)) ->
  exists r, groupby_concat_bins fresh joined array u edges groups rdim = Ok r /\ da_ok r /\ da_shape r = O /\
    (forall k it, In (k, it) (sd_list (da_coords r)) <-> coord_entry new evc cl bd old k it) /\
    (forall k it, In (k, it) (sd_list (da_masks r)) <-> meta_entry (fun _ => False) evm ml bd old k it) /\
    (forall k it, In (k, it) (sd_list (da_attrs r)) <-> meta_entry (fun k => In k (map fst (sd_list (da_coords r)))) eva al bd old k it).
Proof.
  cbv zeta. intros Hda Uc Um Ua Hr Hj Hkey Hmeta Hdis Hev. exact (groupby_concat_bins_ok fresh joined array u key edges groups rdim Hda Hr Hj Hkey Hmeta Uc Um Ua Hdis Hev).
Qed.
Print Assumptions C57_metadata.

(** If two axes have the same name the call fails. *)
Theorem C57_conflict fresh joined array u key edges groups rdim :
  let P := da_shape array in let meta := sd_list (da_attrs array) ++ sd_list (da_coords array) in
  da_ok array -> rdim <> InvalidDim -> (forall d, In d (keys P) -> item_ok (joined d) /\ ishape (joined d) = [(d, 2)]) -> key_item key edges groups -> NoDup (map fst meta) ->
  ~ distinct_axes P meta key rdim -> groupby_concat_bins fresh joined array u edges groups rdim = Throw DimensionError.
Proof. cbv zeta. intros Hda Hr Hj Hkey Hmeta Hdis. exact (groupby_concat_bins_conflict fresh joined array u key edges groups rdim Hda Hr Hj Hkey Hmeta Hdis). Qed.
Print Assumptions C57_conflict.

(** [GroupBy::concat] tells labels from edges by the number of groups. *)
Theorem C57_concat fresh joined array u key ngroups rdim : item_ok key -> length (ishape key) = 1%nat ->
  (ngroups = snd (inner key) -> groupby_concat fresh joined array u key ngroups rdim = groupby_concat_bins fresh joined array u None (Some key) rdim) /\
  (ngroups = snd (inner key) - 1 -> groupby_concat fresh joined array u key ngroups rdim = groupby_concat_bins fresh joined array u (Some key) None rdim).
Proof.
  intros Hi L. unfold groupby_concat. destruct (item_mk key Hi) as [Ek _]. destruct (ishape key) as [|[d n] [|? ?]] eqn:Es; cbn [length] in L; try lia.
  assert (Ev : Dims_Model.volume (i_dims key) = n). { rewrite Ek. unfold Dims_Model.volume, shape. cbn. destruct n; reflexivity. } assert (En : snd (inner key) = n) by (unfold inner; rewrite Es; reflexivity).
  rewrite Ev, En. split; intros ->; [rewrite Z.eqb_refl; reflexivity|]. destruct (Z.eqb_spec n (n - 1)); [lia|reflexivity].
Qed.
Print Assumptions C57_concat.

(** ** Events *)
Lemma group_of_ok groups x : forall i, 0 <= i -> (group_of i groups x = -1 /\ forall g, In g groups -> ~ In x (positions g)) \/
  (exists j g, group_of i groups x = i + Z.of_nat j /\ nth_error groups j = Some g /\ In x (positions g)).
Proof.
  induction groups as [|g gs IH]; intros i Hi; cbn [group_of]; [left; split; [reflexivity|intros g []]|].
  destruct (mem x (positions g)) eqn:M.
  - right. exists O, g. split; [lia|]. split; [reflexivity|apply mem_In; exact M].
  - apply mem_nIn in M. destruct (IH (i + 1) ltac:(lia)) as [[E N]|(j & g' & E & En & Hx)].
    + left. split; [exact E|]. intros g' [<-|Hg]; [exact M|exact (N g' Hg)].
    + right. exists (S j), g'. split; [lia|]. split; assumption.
Qed.
Definition other_ok (sh : list Z) (o : option Z) : Prop := match o with Some d => okdim sh d | None => True end.
Lemma target_others {E} sh others p (e : E) : forall i t, target (map (other_action sh) others) p e i t -> valid sh p -> Forall (other_ok sh) others -> -1 <= i -> t = concat_index sh others i p.
Proof.
  unfold concat_index. induction others as [|o others IH]; intros i t Ht Hp Ho Hi; cbn [map target fold_left] in *; [destruct (Z.eqb_spec i (-1)); congruence|]. destruct Ht as (j & Hs & Ht). apply Forall_cons_iff in Ho. destruct Ho as [Ho Hos].
  assert (Ej : exists n, asize (@other_action E sh o) = n /\ 0 <= j /\ 0 <= n /\ (i = -1 \/ i * n + j = match o with Some d => i * znth 0 sh d + znth 0 p d | None => i end)).
  { destruct o as [d|]; cbn [other_action slot asize other_ok] in *.
    - destruct Hp as [_ N]. specialize (N d Ho ltac:(intros [])). exists (znth 0 sh d). repeat split; try lia.
    - exists 1. repeat split; lia. }
  destruct Ej as (n & En & Hj & Hn & Hx). rewrite En in Ht. unfold place in Ht. destruct (Z.eqb_spec i (-1)) as [->|Hne]; cbn [orb] in Ht.
  - exact (IH (-1) t Ht Hp Hos ltac:(lia)).
  - destruct (Z.eqb_spec j (-1)); [lia|]. specialize (IH _ t Ht Hp Hos ltac:(nia)). destruct (Z.eqb_spec (i * n + j) (-1)); [nia|]. destruct Hx as [|Hx]; [contradiction|]. rewrite Hx in IH. exact IH.
Qed.

(** What is common to labels and edges: the first axis puts all events of a bin in the same place. *)
Lemma concat_events {E} bits sh (a : action E) (place_of : pos -> Z) others (events : pos -> list E) strat :
  Forall (fun n => 0 <= n) sh -> action_ok bits sh a -> (forall p e, valid sh p -> event_ok sh a p e) -> (match a with Group _ _ | Bin _ _ None => True | _ => False end) ->
  (forall p e i, valid sh p -> slot a p e i -> i = place_of p /\ -1 <= i) -> Forall (other_ok sh) others -> Forall (okdim sh) strat -> NoDup strat ->
  exists st, build bits sh (a :: map (other_action sh) others) = Ok st /\
  let ev := targets st events in let V := TargetBins_Model.volume (a :: map (other_action sh) others) in
  exists sizes total, bin_sizes sh strat ev (s_off st) (s_nb st) V = Ok sizes /\ total_size sh strat ev (s_off st) (s_nb st) = Ok total /\
  forall W buf, (forall e, In e W <-> exists p w, valid sh p /\ writes sh strat ev (s_off st) (s_nb st) p = Ok w /\ In e w) -> zlen buf = total ->
    exists out, apply_writes buf W = Ok out /\
      bins_of_sizes out sizes = flat_map (fun q => map (fun b => flat_map (fun p => if concat_index sh others (place_of p) p =? b then events p else [])
                                                                         (loops sh (rev strat) q)) (zseq 0 (Z.to_nat V))) (rows strat 0 sh).
Proof.
  intros Hsh Ha Hev Hkind Hslot Ho Hst Hnd. set (acts := a :: map (other_action sh) others).
  destruct (C23_rebin bits sh acts events strat) as (st & T & Est & HT & sizes & total & E1 & E2 & _ & HW); try assumption.
  - constructor; [exact Ha|]. apply Forall_map. eapply Forall_impl; [|exact Ho]. intros [d|] Hd; cbn [other_action action_ok other_ok] in *; [split; [exact Hd|reflexivity]|exact I].
  - intros a' p e [<-|Hi] Hp He; [apply Hev; exact Hp|]. apply in_map_iff in Hi. destruct Hi as (o & <- & _). destruct o; exact I.
  - intros pre key edges d c post Ee _. exfalso. assert (Hb : In (Bin key edges (Some (d, c))) acts) by (rewrite Ee; apply in_or_app; right; left; reflexivity).
    destruct Hb as [Eb|Hb]; [rewrite Eb in Hkind; exact Hkind|]. apply in_map_iff in Hb. destruct Hb as (o & Eo & _). destruct o; discriminate.
  - exists st. split; [exact Est|]. cbv zeta. exists sizes, total. split; [exact E1|]. split; [exact E2|]. intros W buf HWW Hl. destruct (HW W buf HWW Hl) as (out & Eo & Eb). exists out. split; [exact Eo|]. rewrite Eb.
    apply flat_map_ext_in. intros q Hq. apply map_ext_in. intros b _. apply flat_map_ext_in. intros p Hp.
    assert (Hvp : valid sh p). { apply (loops_valid sh (rev strat)) with (q := q); [apply Forall_rev; exact Hst| |exact Hp]. apply (row_ok sh strat). exact Hq. }
    assert (HTp : forall e, In e (events p) -> T p e = concat_index sh others (place_of p) p).
    { intros e He. destruct (HT p e Hvp He) as [(i & Hi & Ht) _]. destruct (Hslot p e i Hvp Hi) as [-> Hb]. unfold place in Ht. cbn [Z.eqb orb] in Ht. apply (target_others sh others p e _ _) in Ht; [|exact Hvp|exact Ho|destruct (Z.eqb_spec (place_of p) (-1)); lia].
      rewrite Ht. destruct (Z.eqb_spec (place_of p) (-1)) as [->|]; [reflexivity|]. f_equal; lia. }
    clear - HTp. induction (events p) as [|e l IH]; cbn [filter]; [destruct (concat_index sh others (place_of p) p =? b); reflexivity|].
    rewrite HTp by (left; reflexivity). rewrite IH by (intros x Hx; apply HTp; right; exact Hx). destruct (concat_index sh others (place_of p) p =? b); reflexivity.
Qed.

(** The values of the key at the input bins: those of the coord with the name of the groups, along dimension number [k]. *)
Definition along_key (sh : list Z) (k : Z) (c : list Z) : Prop := okdim sh k /\ zlen c = znth 0 sh k.

(** Grouping by value: the events of every bin are appended to the group that contains the position of the bin. All positions are in a
    group (C34_partition), so no events are lost. *)
Theorem C57_values {E} bits sh meta name k c ks hash groups others (events : pos -> list E) strat :
  Forall (fun n => 0 <= n) sh -> concat_coord meta name = Ok (k, c) -> along_key sh k c -> zlen c < 2 ^ 63 ->
  may_group Z.eqb hash Z.ltb c ks groups -> Forall (other_ok sh) others -> Forall (okdim sh) strat -> NoDup strat ->
  exists st, concat_targets bits sh meta name (Values ks) others = Ok st /\
  let ev := targets st events in let V := zlen groups * prodZ (map (fun o => match o with Some d => znth 0 sh d | None => 1 end) others) in
  exists sizes total, bin_sizes sh strat ev (s_off st) (s_nb st) V = Ok sizes /\ total_size sh strat ev (s_off st) (s_nb st) = Ok total /\
  forall W buf, (forall e, In e W <-> exists p w, valid sh p /\ writes sh strat ev (s_off st) (s_nb st) p = Ok w /\ In e w) -> zlen buf = total ->
    exists out, apply_writes buf W = Ok out /\
      bins_of_sizes out sizes = flat_map (fun q => map (fun b => flat_map (fun p => if concat_index sh others (group_of 0 groups (znth 0 p k)) p =? b then events p else [])
                                                                         (loops sh (rev strat) q)) (zseq 0 (Z.to_nat V))) (rows strat 0 sh).
Proof.
  intros Hsh Hcoord [Hk Lc] Hfit Hm Ho Hst Hnd.
  assert (Hhash : forall a b : Z, (a =? b) = true -> hash a = hash b) by (intros a b Hab; apply Z.eqb_eq in Hab; congruence).
  destruct (GroupBy_Props.C34_groups Z Z.eqb hash Z.ltb c ks groups GroupBy_Props.C34_order_integer Hhash Hm) as (G1 & G2 & G3 & G4 & G5).
  assert (Nks : NoDup ks).
  { apply NoDup_nth_error. intros i j Hi Eij. destruct (nth_error ks i) as [x|] eqn:Ei; [|apply nth_error_None in Ei; lia]. symmetry in Eij. destruct (Nat.lt_total i j) as [Hlt|[|Hlt]]; [|assumption|].
    - specialize (G1 i j x x Hlt Ei Eij). lia.
    - specialize (G1 j i x x Hlt Eij Ei). lia. }
  assert (Hlen : zlen ks <= zlen c). { unfold zlen. apply inj_le. apply NoDup_incl_length; [exact Nks|]. intros x Hx. exact (G2 x Hx). }
  assert (Hcp : forall p, valid sh p -> In (znth 0 c (znth 0 p k)) ks).
  { intros p [_ N]. specialize (N k Hk ltac:(intros [])). rewrite <- Lc in N. destruct (G3 _ (znth_In 0 c _ N)) as (x & Hx & E0). apply Z.eqb_eq in E0. rewrite E0. exact Hx. }
  set (a := @key_action E (k, c) (Values ks)).
  destruct (concat_events bits sh a (fun p => group_of 0 groups (znth 0 p k)) others events strat Hsh) as (st & Est & sizes & total & E1 & E2 & HW); try assumption.
  - intros p e Hp. cbn [a key_action event_ok fst snd]. intros Hcon. destruct (isarange_NoDup ks Nks Hcon) as (a0 & Ep).
    assert (Hz : forall i, 0 <= i < zlen ks -> znth 0 ks i = a0 + i).
    { intros i Hi. pose proof (vget_progression a0 1 (length ks) i Hi) as X. rewrite <- Ep in X. rewrite (vget_znth 0) in X by exact Hi. injection X as X. rewrite X. apply f_equal. apply Z.mul_1_l. }
    pose proof (Hcp p Hp) as Hi. apply (In_znth 0) in Hi. destruct Hi as (i & Hi & Ei). rewrite <- Ei, !Hz by lia. unfold in_range. apply andb_true_intro. split; lia.
  - exact I.
  - intros p e i Hp Hi. cbn [a key_action slot fst snd] in Hi. destruct Hi as [[-> Hn]|[Hi Ei]]; [exfalso; exact (Hn (Hcp p Hp))|]. split; [|lia].
    destruct Hp as [_ N]. specialize (N k Hk ltac:(intros [])). set (x := znth 0 p k) in *.
    assert (Hin : forall j g, nth_error groups j = Some g -> In x (positions g) <-> nth_error ks j = Some (znth 0 c x)).
    { intros j g Hj. destruct (nth_error ks j) as [kj|] eqn:Ekj; [|exfalso; apply nth_error_None in Ekj; assert (j < length groups)%nat by (apply nth_error_Some; congruence); lia].
      destruct (G5 j kj g Ekj Hj) as [Epos _]. rewrite Epos. unfold where_key. rewrite filter_In, In_zseq. unfold key_at.
      assert (Enx : nth_error c (Z.to_nat x) = Some (znth 0 c x)). { unfold znth. destruct (Z.ltb_spec x 0); [lia|]. apply nth_error_nth'. unfold zlen in Lc. lia. }
      rewrite Enx. unfold zlen in Lc. split; [intros [_ E0]; apply Z.eqb_eq in E0; congruence|]. intros E0. injection E0 as ->. split; [lia|apply Z.eqb_refl]. }
    assert (Ei' : nth_error ks (Z.to_nat i) = Some (znth 0 c x)). { rewrite <- Ei. unfold znth. destruct (Z.ltb_spec i 0); [lia|]. apply nth_error_nth'. unfold zlen in Hi. lia. }
    destruct (group_of_ok groups x 0 ltac:(lia)) as [[_ Nn]|(j & g & -> & Ej & Hx)].
    + exfalso. destruct (nth_error groups (Z.to_nat i)) as [g|] eqn:Eg; [|apply nth_error_None in Eg; unfold zlen in Hi; lia]. apply (Nn g (nth_error_In _ _ Eg)). apply (Hin _ g Eg). exact Ei'.
    + apply (Hin j g Ej) in Hx. assert (Z.to_nat i = j); [|lia]. apply (proj1 (NoDup_nth_error ks) Nks); [unfold zlen in Hi; lia|congruence].
  - unfold concat_targets. rewrite Hcoord. cbn [bind]. fold a. exists st. split; [exact Est|]. cbv zeta.
    assert (EV : TargetBins_Model.volume (a :: map (other_action sh) others) = zlen groups * prodZ (map (fun o => match o with Some d => znth 0 sh d | None => 1 end) others)).
    { rewrite volume_cons. cbn [a key_action asize]. unfold zlen at 1 2. rewrite G4. f_equal. unfold TargetBins_Model.volume. rewrite map_map. f_equal. apply map_ext. intros [d|]; reflexivity. }
    rewrite <- EV. exists sizes, total. split; [exact E1|]. split; [exact E2|]. exact HW.
Qed.
Print Assumptions C57_values.

(** Grouping by bins: the same; positions with values outside of the edges are in no group. *)
Lemma int_edge_order : edge_order (fun _ => true) Z.ltb Z.leb.
Proof. split; intros; try lia; try discriminate. Qed.
Lemma is_sorted_ascending l : is_sorted Z.ltb l = true -> ascending l.
Proof.
  intros Hs. apply strong_ascending, sortedb_strong. induction l as [|x [|y l] IH]; try reflexivity. change (negb (y <? x) && is_sorted Z.ltb (y :: l) = true) in Hs. apply andb_prop in Hs. destruct Hs as [X1 X2].
  rewrite sortedb_cons, IH by exact X2. lia.
Qed.
Theorem C57_bins {E} bits sh meta name k c edges groups others (events : pos -> list E) strat :
  Forall (fun n => 0 <= n) sh -> concat_coord meta name = Ok (k, c) -> along_key sh k c -> 2 <= zlen edges -> bin_fits bits edges ->
  make_bin_groups Z.ltb Z.leb true c edges = Ok groups -> Forall (other_ok sh) others -> Forall (okdim sh) strat -> NoDup strat ->
  exists st, concat_targets bits sh meta name (Edges edges) others = Ok st /\
  let ev := targets st events in let V := zlen groups * prodZ (map (fun o => match o with Some d => znth 0 sh d | None => 1 end) others) in
  exists sizes total, bin_sizes sh strat ev (s_off st) (s_nb st) V = Ok sizes /\ total_size sh strat ev (s_off st) (s_nb st) = Ok total /\
  forall W buf, (forall e, In e W <-> exists p w, valid sh p /\ writes sh strat ev (s_off st) (s_nb st) p = Ok w /\ In e w) -> zlen buf = total ->
    exists out, apply_writes buf W = Ok out /\
      bins_of_sizes out sizes = flat_map (fun q => map (fun b => flat_map (fun p => if concat_index sh others (group_of 0 groups (znth 0 p k)) p =? b then events p else [])
                                                                         (loops sh (rev strat) q)) (zseq 0 (Z.to_nat V))) (rows strat 0 sh).
Proof.
  intros Hsh Hcoord [Hk Lc] Hlen Hfit Hm Ho Hst Hnd.
  assert (Hs : is_sorted Z.ltb edges = true). { unfold make_bin_groups in Hm. cbn [negb] in Hm. destruct (is_sorted Z.ltb edges); [reflexivity|discriminate]. }
  destruct (GroupBy_Props.C34_bins Z (fun _ => true) Z.ltb Z.leb edges c int_edge_order) as (groups' & Eg & Lg & G).
  { apply Forall_forall. reflexivity. } { intros ->. cbn in Hlen. lia. } { exact Hs. }
  rewrite Hm in Eg. injection Eg as <-.
  set (a := @key_action E (k, c) (Edges edges)).
  destruct (concat_events bits sh a (fun p => group_of 0 groups (znth 0 p k)) others events strat Hsh) as (st & Est & sizes & total & E1 & E2 & HW); try assumption.
  - split; [apply is_sorted_ascending; exact Hs|]. split; [exact Hlen|]. split; [exact Hfit|exact I].
  - intros p e Hp. exact I.
  - exact I.
  - intros p e i Hp Hi. cbn [a key_action slot fst snd] in Hi. destruct Hi as [Hlow Hi]. split; [|exact Hlow].
    destruct Hp as [_ N]. specialize (N k Hk ltac:(intros [])). set (x := znth 0 p k) in *.
    assert (Hin : forall j g, nth_error groups j = Some g -> In x (positions g) <-> i = Z.of_nat j).
    { intros j g Hj. destruct (G j g Hj) as [Epos _]. rewrite Epos. unfold where_key. rewrite filter_In, In_zseq. unfold key_at.
      assert (Enx : nth_error c (Z.to_nat x) = Some (znth 0 c x)). { unfold znth. destruct (Z.ltb_spec x 0); [lia|]. apply nth_error_nth'. unfold zlen in Lc. lia. }
      rewrite Enx. rewrite (Hi (Z.of_nat j) ltac:(lia)). unfold in_bin, int_inside, vget. destruct (Z.ltb_spec (Z.of_nat j) 0); [lia|]. destruct (Z.ltb_spec (Z.of_nat j + 1) 0); [lia|].
      rewrite Nat2Z.id. replace (Z.to_nat (Z.of_nat j + 1)) with (S j) by lia. unfold zlen in Lc.
      destruct (nth_error edges j) as [l|]; [destruct (nth_error edges (S j)) as [r|]|].
      - split; [intros [_ X]; exists l, r; repeat split; lia|]. intros (l' & r' & X1 & X2 & X3). injection X1 as <-. injection X2 as <-. split; lia.
      - split; [intros [_ X]; discriminate|intros (l' & r' & _ & X2 & _); discriminate].
      - split; [intros [_ X]; discriminate|intros (l' & r' & X2 & _); discriminate]. }
    destruct (group_of_ok groups x 0 ltac:(lia)) as [[-> Nn]|(j & g & -> & Ej & Hx)].
    + destruct (Z.eq_dec i (-1)) as [|Hne]; [assumption|exfalso]. destruct (proj1 (Hi i ltac:(lia)) eq_refl) as (l & r & X1 & X2 & _). apply (vget_Ok 0) in X2. destruct X2 as [X2 _].
      destruct (nth_error groups (Z.to_nat i)) as [g|] eqn:Eg; [|apply nth_error_None in Eg; unfold zlen in *; lia]. apply (Nn g (nth_error_In _ _ Eg)). apply (Hin _ g Eg). lia.
    + apply (Hin j g Ej) in Hx. lia.
  - unfold concat_targets. rewrite Hcoord. cbn [bind]. fold a. exists st. split; [exact Est|]. cbv zeta.
    assert (EV : TargetBins_Model.volume (a :: map (other_action sh) others) = zlen groups * prodZ (map (fun o => match o with Some d => znth 0 sh d | None => 1 end) others)).
    { rewrite volume_cons. cbn [a key_action asize]. rewrite Lg. f_equal. unfold TargetBins_Model.volume. rewrite map_map. f_equal. apply map_ext. intros [d|]; reflexivity. }
    rewrite <- EV. exists sizes, total. split; [exact E1|]. split; [exact E2|]. exact HW.
Qed.
Print Assumptions C57_bins.

(** With masks: the bins of the output consist of the events of the bins that are not hidden by a mask that depends on an axis. *)
Theorem C57_masked {E} bits sh meta name k c ks hash groups others (buf : list E) (ix : pos -> Dim -> Z) (i : Accumulate_Model.darr (Z * Z)) (l : list (Z * Mask_Model.mask)) dims strat :
  Mask_Spec.well_formed i -> (forall k m, In (k, m) l -> Mask_Spec.well_formed (Mask_Model.k_arr m)) -> (forall d, In d dims -> Mask_Spec.applicable l d i) ->
  Forall (fun n => 0 <= n) sh -> concat_coord meta name = Ok (k, c) -> along_key sh k c -> zlen c < 2 ^ 63 ->
  may_group Z.eqb hash Z.ltb c ks groups -> Forall (other_ok sh) others -> Forall (okdim sh) strat -> NoDup strat ->
  exists j st, hide_masked i l dims = Ok j /\ concat_targets bits sh meta name (Values ks) others = Ok st /\
  let ev := targets st (fun p => rows_of buf (Accumulate_Model.dv j (ix p))) in let V := zlen groups * prodZ (map (fun o => match o with Some d => znth 0 sh d | None => 1 end) others) in
  exists sizes total, bin_sizes sh strat ev (s_off st) (s_nb st) V = Ok sizes /\ total_size sh strat ev (s_off st) (s_nb st) = Ok total /\
  forall W out0, (forall e, In e W <-> exists p w, valid sh p /\ writes sh strat ev (s_off st) (s_nb st) p = Ok w /\ In e w) -> zlen out0 = total ->
    exists out, apply_writes out0 W = Ok out /\
      bins_of_sizes out sizes = flat_map (fun q => map (fun b => flat_map (fun p =>
          if hidden l dims (ix p) then [] else if concat_index sh others (group_of 0 groups (znth 0 p k)) p =? b then rows_of buf (Accumulate_Model.dv i (ix p)) else [])
        (loops sh (rev strat) q)) (zseq 0 (Z.to_nat V))) (rows strat 0 sh).
Proof.
  intros Hi Hw Happ Hsh Hcoord Hk Hfit Hm Ho Hst Hnd. destruct (C56_hide buf i l dims Hi Hw Happ) as (j & Ej & _ & _ & Hrow).
  destruct (C57_values bits sh meta name k c ks hash groups others (fun p => rows_of buf (Accumulate_Model.dv j (ix p))) strat Hsh Hcoord Hk Hfit Hm Ho Hst Hnd) as (st & Est & sizes & total & E1 & E2 & HW).
  exists j, st. split; [exact Ej|]. split; [exact Est|]. cbv zeta. exists sizes, total. split; [exact E1|]. split; [exact E2|]. intros W out0 HWW Hl. destruct (HW W out0 HWW Hl) as (out & Eo & Eb). exists out. split; [exact Eo|]. rewrite Eb.
  apply flat_map_ext. intros q. apply map_ext. intros b. apply flat_map_ext. intros p. rewrite Hrow. destruct (hidden l dims (ix p)); [|reflexivity]. destruct (concat_index sh others (group_of 0 groups (znth 0 p k)) p =? b); reflexivity.
Qed.
Print Assumptions C57_masked.

(** ** Cases *)
(** Dimensions 10 x, 11 y, 12 z; 21 label; 30 events. x has edges that depend on y, z has no coord; the label is a coord along y. *)
Definition gc_p : list (Dim * Z) := [(11, 3); (10, 2); (12, 4)].
Lemma gc_lwf : lwf gc_p.
Proof. split; [|split]; cbn; [repeat constructor; cbn; intuition congruence|repeat constructor; cbn; lia|intuition (discriminate || congruence)]. Qed.
Definition gc_array : darray := mkda (mkitem 0 (var_fresh (mk gc_p)) true true)
  (sdm gc_p [(21, vr 1 [(11, 3)]); (10, vr 2 [(11, 3); (10, 3)])]) (sdm gc_p [(100, vr 3 [(11, 3)]); (101, vr 4 [(12, 4)])]) (sdm gc_p [(102, vr 5 [(10, 2)])]) false.
Definition gc_buffer : buffer := mkbuf 30 (mkd [(20, vr 6 [(30, 9)])]) (mkd []) (mkd []).
Definition gc_joined (d : Dim) : item := vr (60 + d) [(d, 2)].
Lemma gc_joined_ok d : d <> InvalidDim -> item_ok (gc_joined d) /\ ishape (gc_joined d) = [(d, 2)].
Proof. intros Hd. apply vr1; [exact Hd|lia]. Qed.
Lemma lwf2 d n d' n' : d <> InvalidDim -> d' <> InvalidDim -> d <> d' -> 0 <= n -> 0 <= n' -> lwf [(d, n); (d', n')].
Proof. intros. split; [|split]; cbn; [repeat constructor; cbn; intuition congruence|repeat constructor; assumption|intuition congruence]. Qed.
Lemma gc_ok : da_ok gc_array.
Proof.
  unfold da_ok, gc_array. cbn [da_data da_coords da_masks da_attrs i_var i_dims]. split; [apply Transform_Proofs.fresh_wfv; apply mk_wf; exact gc_lwf|]. repeat (split; [reflexivity|]).
  split; [|split]; (apply sdm_ok; [exact gc_lwf|cbn; repeat constructor; cbn; intuition congruence|]).
  - intros k it [E|[E|[]]]; injection E as <- <-.
    + destruct (vr1 1 11 3 ltac:(discriminate) ltac:(lia)) as [V1 V2]. split; [exact V1|]. rewrite V2. unfold gc_p. fitv.
    + destruct (vr_ok 2 [(11, 3); (10, 3)]) as [V1 V2]; [apply lwf2; (discriminate || lia)|]. split; [exact V1|]. rewrite V2. right. exists 10, 3. split; [right; left; reflexivity|]. split; [|left; cbn; tauto]. intros k n [E|[E|[]]] Hx; injection E as <- <-; [cbn; tauto|congruence].
  - intros k it [E|[E|[]]]; injection E as <- <-; match goal with |- item_ok (vr ?k [(?d, ?n)]) /\ _ => destruct (vr1 k d n ltac:(discriminate) ltac:(lia)) as [V1 V2] end; (split; [exact V1|]); rewrite V2; unfold gc_p; fitv.
  - intros k it [E|[]]; injection E as <- <-. destruct (vr1 5 10 2 ltac:(discriminate) ltac:(lia)) as [V1 V2]. split; [exact V1|]. rewrite V2. unfold gc_p. fitv.
Qed.
Theorem C57_metadata_case : let key := vr 9 [(21, 2)] in let meta := sd_list (da_attrs gc_array) ++ sd_list (da_coords gc_array) in
  da_ok gc_array /\ key_item key None (Some key) /\ distinct_axes (da_shape gc_array) meta key 11 /\
  exists r, groupby_concat 50 gc_joined gc_array gc_buffer key 2 11 = Ok r /\ da_shape r = [(12, 4); (21, 2); (10, 1)] /\
  map (fun e => (fst e, ishape (snd e))) (sd_list (da_coords r)) = [(10, [(10, 2)]); (21, [(21, 2)])] /\ map fst (sd_list (da_masks r)) = [101] /\ sd_list (da_attrs r) = [].
Proof.
  cbv zeta. split; [exact gc_ok|]. split; [constructor; [|reflexivity]; split; [apply (vr1 9 21 2); (discriminate || lia)|split; [discriminate|cbn; lia]]|]. split.
  - split; [discriminate|]. split; [intros [[E|[E|[E|[]]]] _]; discriminate|]. intros (_ & x & Hx & _). destruct Hx as [E|[E|[E|[]]]]; discriminate.
  - eexists. split; [vm_compute; reflexivity|]. repeat split.
Qed.
(** Labels 7, 5, 7 along dimension 0: groups 5 and 7; dimension 1 is kept. *)
Theorem C57_values_case : exists groups st, may_group Z.eqb (fun x => x) Z.ltb [7; 5; 7] [5; 7] groups /\ along_key [3; 2] 0 [7; 5; 7] /\
  concat_coord [(21, (0, [7; 5; 7]))] 21 = Ok (0, [7; 5; 7]) /\ @concat_targets nat 64 [3; 2] [(21, (0, [7; 5; 7]))] 21 (Values [5; 7]) [Some 1] = Ok st /\
  map (fun p => concat_index [3; 2] [Some 1] (group_of 0 groups (znth 0 p 0)) p) [[0; 0]; [0; 1]; [1; 0]; [1; 1]; [2; 0]; [2; 1]] = [2; 3; 0; 1; 2; 3] /\
  s_index st [2; 1] 0%nat = Ok 3.
Proof.
  eexists _, _. split; [|split; [|split; [reflexivity|split; [vm_compute; reflexivity|]]]].
  - eexists. split; [vm_compute; reflexivity|]. split; [apply perm_swap|]. split; [|vm_compute; reflexivity]. intros [|[|[|i]]] [|[|[|j]]] a b Hij Ha Hb; cbn in Ha, Hb; try lia; try discriminate. injection Ha as <-. injection Hb as <-. reflexivity.
  - split; [unfold okdim, zlen; cbn; lia|reflexivity].
  - split; vm_compute; reflexivity.
Qed.
Theorem C57_bins_case : exists groups st, make_bin_groups Z.ltb Z.leb true [7; 5; 2] [4; 6; 8] = Ok groups /\ bin_fits 64 [4; 6; 8] /\
  @concat_targets nat 64 [3; 2] [(21, (0, [7; 5; 2]))] 21 (Edges [4; 6; 8]) [Some 1; None] = Ok st /\
  map (fun p => concat_index [3; 2] [Some 1; None] (group_of 0 groups (znth 0 p 0)) p) [[0; 0]; [0; 1]; [1; 0]; [1; 1]; [2; 0]; [2; 1]] = [2; 3; 0; 1; -1; -1].
Proof.
  eexists _, _. split; [vm_compute; reflexivity|]. split; [intros _; vm_compute; repeat split; discriminate|]. split; [reflexivity|]. vm_compute. reflexivity.
Qed.

(** ** What does not hold *)
(** [groupby(array, key, bins)] makes the groups from [key], but [concat] looks up a coord with the name of the dimension of [bins]: events end
    up in other groups, or the call fails although the key was given. *)
Theorem C57_explicit_key_refuted : exists sh meta name key edges groups st,
  make_bin_groups Z.ltb Z.leb true key edges = Ok groups /\ along_key sh 0 key /\ bin_fits 64 edges /\
  @concat_targets unit 64 sh meta name (Edges edges) [] = Ok st /\ group_of 0 groups 0 = 0 /\ s_off st [0] = 0 /\ s_index st [0] tt = Ok 1 /\
  @concat_targets unit 64 sh [] name (Edges edges) [] = Throw OutOfRange.
Proof.
  exists [2], [(21, (0, [7; 5]))], 21, [5; 7], [4; 6; 8]. eexists _, _. split; [vm_compute; reflexivity|]. split; [split; [unfold okdim, zlen; cbn; lia|reflexivity]|]. split; [intros _; vm_compute; repeat split; discriminate|].
  split; [reflexivity|]. split; [reflexivity|]. split; [reflexivity|]. split; [vm_compute; reflexivity|reflexivity].
Qed.
Print Assumptions C57_explicit_key_refuted.

(** Data cannot be grouped by the coord of the reduced dimension itself, nor if that coord depends on another dimension: the label of the
    axis is added twice. The reductions of dense data accept both. *)
Definition gd_p : list (Dim * Z) := [(10, 2); (11, 3)].
Definition gd_array (c : item) : darray := mkda (mkitem 0 (var_fresh (mk gd_p)) true true) (sdm gd_p [(21, vr 1 [(11, 3)]); (11, c)]) (sdm gd_p []) (sdm gd_p []) false.
Theorem C57_dimension_coord_refuted : exists array u key, da_ok array /\ key_item key None (Some key) /\ In (idim key) (map fst (sd_list (da_coords array))) /\
  (exists d, GroupBy_Model.output_dims (i_dims (da_data array)) 11 (idim key) 2 = Ok d) /\ groupby_concat 50 gc_joined array u key 2 11 = Throw DimensionError.
Proof.
  exists (gd_array (vr 2 [(11, 3)])), gc_buffer, (vr 9 [(11, 2)]). split.
  - assert (Hl : lwf gd_p) by (apply lwf2; (discriminate || lia)). unfold da_ok, gd_array. cbn [da_data da_coords da_masks da_attrs i_var i_dims]. split; [apply Transform_Proofs.fresh_wfv; apply mk_wf; exact Hl|]. repeat (split; [reflexivity|]).
    split; [|split]; (apply sdm_ok; [exact Hl|cbn; repeat constructor; cbn; intuition congruence|]); try (intros k it Hin; destruct Hin; fail).
    intros k it [E|Hin]; [injection E as <- <-; (destruct (vr1 1 11 3 ltac:(discriminate) ltac:(lia)) as [V1 V2]; split; [exact V1|]; rewrite V2; unfold gd_p; fitv)|].
    destruct Hin as [E|[]]; injection E as <- <-. destruct (vr1 2 11 3 ltac:(discriminate) ltac:(lia)) as [V1 V2]; split; [exact V1|]; rewrite V2; unfold gd_p; fitv.
  - split; [constructor; [|reflexivity]; split; [apply (vr1 9 11 2); (discriminate || lia)|split; [discriminate|cbn; lia]]|]. split; [right; left; reflexivity|]. split; [eexists; vm_compute; reflexivity|reflexivity].
Qed.
Print Assumptions C57_dimension_coord_refuted.
Theorem C57_unaligned_coord_refuted : exists array u key, da_ok array /\ key_item key None (Some key) /\ ~ In (idim key) (keys (da_shape array)) /\
  (exists d, GroupBy_Model.output_dims (i_dims (da_data array)) 11 (idim key) 2 = Ok d) /\ groupby_concat 50 gc_joined array u key 2 11 = Throw DimensionError.
Proof.
  exists (gd_array (vr 2 [(10, 2); (11, 4)])), gc_buffer, (vr 9 [(21, 2)]). split.
  - assert (Hl : lwf gd_p) by (apply lwf2; (discriminate || lia)). unfold da_ok, gd_array. cbn [da_data da_coords da_masks da_attrs i_var i_dims]. split; [apply Transform_Proofs.fresh_wfv; apply mk_wf; exact Hl|]. repeat (split; [reflexivity|]).
    split; [|split]; (apply sdm_ok; [exact Hl|cbn; repeat constructor; cbn; intuition congruence|]); try (intros k it Hin; destruct Hin; fail).
    intros k it [E|Hin]; [injection E as <- <-; (destruct (vr1 1 11 3 ltac:(discriminate) ltac:(lia)) as [V1 V2]; split; [exact V1|]; rewrite V2; unfold gd_p; fitv)|].
    destruct Hin as [E|[]]; injection E as <- <-. destruct (vr_ok 2 [(10, 2); (11, 4)]) as [V1 V2]; [apply lwf2; (discriminate || lia)|]. split; [exact V1|]. rewrite V2. right. exists 11, 4. split; [right; left; reflexivity|]. split; [|left; cbn; tauto]. intros k n [E|[E|[]]] Hx; injection E as <- <-; [cbn; tauto|congruence].
  - split; [constructor; [|reflexivity]; split; [apply (vr1 9 21 2); (discriminate || lia)|split; [discriminate|cbn; lia]]|]. split; [intros [E|[E|[]]]; discriminate|]. split; [eexists; vm_compute; reflexivity|reflexivity].
Qed.
Print Assumptions C57_unaligned_coord_refuted.

(** A dimension that does not exist can be reduced: the result keeps all dimensions. *)
Theorem C57_unknown_dim_refuted : exists r, groupby_concat 50 gc_joined (gd_array (vr 2 [(11, 4)])) gc_buffer (vr 9 [(21, 2)]) 2 99 = Ok r /\ da_shape r = [(10, 2); (21, 2); (11, 3)] /\
  GroupBy_Model.output_dims (mk gd_p) 99 21 2 = Throw DimensionError.
Proof. eexists. split; [vm_compute; reflexivity|]. split; reflexivity. Qed.
Print Assumptions C57_unknown_dim_refuted.

(** The order of the dimensions is not that of the reductions, and it depends on the coords. *)
Theorem C57_order_refuted : exists r r', groupby_concat 50 gc_joined (gd_array (vr 2 [(11, 4)])) gc_buffer (vr 9 [(21, 2)]) 2 10 = Ok r /\ da_shape r = [(21, 2); (11, 3)] /\
  groupby_concat 50 gc_joined (mkda (mkitem 0 (var_fresh (mk gd_p)) true true) (sdm gd_p [(21, vr 1 [(11, 3)])]) (sdm gd_p []) (sdm gd_p []) false) gc_buffer (vr 9 [(21, 2)]) 2 10 = Ok r' /\ da_shape r' = [(11, 3); (21, 2)].
Proof. eexists _, _. split; [vm_compute; reflexivity|]. split; [reflexivity|]. split; [vm_compute; reflexivity|reflexivity]. Qed.
Print Assumptions C57_order_refuted.

(** Groups by value include one for NaN, but [concat] does not find it: its events are lost. *)
Theorem C57_nan_refuted : exists (key ks : list f64) groups, may_group GroupBy_Props.nan_equal (fun _ => 0) GroupBy_Props.nan_less key ks groups /\
  (forall i, 0 <= i < zlen key -> group_of 0 groups i <> -1) /\ map (fun x => map_find Beqb x 0 ks (-1)) key = [0; -1; 0].
Proof.
  exists [B754_zero false; B754_nan; B754_zero false], [B754_zero false; B754_nan]. eexists. split.
  - eexists. split; [vm_compute; reflexivity|]. split; [apply Permutation_refl|]. split; [|vm_compute; reflexivity]. intros [|[|[|i]]] [|[|[|j]]] a b Hij Ha Hb; cbn [nth_error] in Ha, Hb; try lia; try discriminate. injection Ha as <-. injection Hb as <-. vm_compute. reflexivity.
  - split; [|vm_compute; reflexivity]. intros i Hi. unfold zlen in Hi. cbn [length] in Hi. assert (Hc : i = 0 \/ i = 1 \/ i = 2) by lia. destruct Hc as [->|[->| ->]]; vm_compute; discriminate.
Qed.
Print Assumptions C57_nan_refuted.
