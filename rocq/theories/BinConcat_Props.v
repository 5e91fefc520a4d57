(** Bin-wise concatenation (C27). *)
From Coq Require Import Sorted.
From Verif Require Import Base Arr Mapper_Model Mapper_Proofs Mapper_Proofs2 Mapper_Props Index_Proofs Cumsum_Model Cumsum_Props TargetBins_Model TargetBins_Proofs TargetBins_Props Bins_Model Bins_Props.

Definition bin_at (indices : list (Z * Z)) (i : Z) : Z * Z := znth (0, 0) indices i.
Definition after (a b : Z * Z) : Prop := snd a <= fst b.

Section Copy.
Context {A : Type}.
Variable d : A.
Lemma copy_range_ok n : forall (src dst : list A) sb db, 0 <= sb -> sb + Z.of_nat n <= zlen src -> 0 <= db -> db + Z.of_nat n <= zlen dst ->
  exists dst', copy_range src dst sb db n = Ok dst' /\ zlen dst' = zlen dst /\ forall p, znth d dst' p = if (db <=? p) && (p <? db + Z.of_nat n) then znth d src (sb + (p - db)) else znth d dst p.
Proof.
  induction n as [|n IH]; intros src dst sb db H1 H2 H3 H4.
  - exists dst. split; [reflexivity|]. split; [reflexivity|]. intros p. replace ((db <=? p) && (p <? db + Z.of_nat 0)) with false by lia. reflexivity.
  - cbn [copy_range]. rewrite (vget_znth d) by lia. cbn [bind]. rewrite vset_zupd by lia. cbn [bind]. destruct (IH src (zupd dst db (znth d src sb)) (sb + 1) (db + 1)) as (dst' & E & L & V); try lia; [rewrite zlen_zupd; lia|].
    exists dst'. split; [exact E|]. rewrite zlen_zupd in L. split; [exact L|]. intros p. rewrite V. rewrite znth_zupd by lia. destruct (Z.eqb_spec p db) as [->|].
    + replace ((db + 1 <=? db) && (db <? db + 1 + Z.of_nat n)) with false by lia. replace ((db <=? db) && (db <? db + Z.of_nat (S n))) with true by lia. f_equal. lia.
    + replace ((db + 1 <=? p) && (p <? db + 1 + Z.of_nat n)) with ((db <=? p) && (p <? db + Z.of_nat (S n))) by lia. destruct ((db <=? p) && (p <? db + Z.of_nat (S n))); [f_equal; lia|reflexivity].
Qed.
(** Destinations in ascending order: every bin is copied and nothing else is changed. *)
Lemma copy_slices_ok (src : list A) sidx : forall didx dst, length sidx = length didx -> Forall (inside (zlen src)) sidx -> Forall (inside (zlen dst)) didx ->
  (forall i, 0 <= i < zlen sidx -> bin_size (bin_at sidx i) = bin_size (bin_at didx i)) -> StronglySorted after didx ->
  exists dst', copy_slices src dst sidx didx = Ok dst' /\ zlen dst' = zlen dst /\
    (forall i k, 0 <= i < zlen sidx -> 0 <= k < bin_size (bin_at sidx i) -> znth d dst' (fst (bin_at didx i) + k) = znth d src (fst (bin_at sidx i) + k)) /\
    (forall p, (forall x, In x didx -> ~ fst x <= p < snd x) -> znth d dst' p = znth d dst p).
Proof.
  induction sidx as [|[sb se] sidx IH]; intros [|[db de] didx] dst Hlen Hs Hd Hsize Ho; try discriminate.
  - exists dst. split; [reflexivity|]. split; [reflexivity|]. split; [intros i k Hi; change (zlen (@nil (Z * Z))) with 0 in Hi; lia|reflexivity].
  - pose proof (Hsize 0 ltac:(rewrite zlen_cons; pose proof (zlen_nonneg sidx); lia)) as H0. unfold bin_at, bin_size in H0. rewrite !znth_0 in H0. cbn [fst snd] in H0. apply Forall_cons_iff in Hs as [Hs0 Hs]. apply Forall_cons_iff in Hd as [Hd0 Hd]. unfold inside in Hs0, Hd0. cbn [fst snd] in Hs0, Hd0. apply StronglySorted_inv in Ho as [Ho Hx]. cbn [copy_slices]. destruct (Z.eqb_spec (se - sb) (de - db)); [|lia].
    destruct (copy_range_ok (Z.to_nat (se - sb)) src dst sb db) as (dst1 & E1 & L1 & V1); try lia. rewrite E1. cbn [bind].
    destruct (IH didx dst1) as (dst' & E2 & L2 & V2 & U2); [cbn [length] in Hlen; lia|exact Hs|rewrite L1; exact Hd| |exact Ho|].
    { intros i Hi. specialize (Hsize (i + 1) ltac:(rewrite zlen_cons; lia)). unfold bin_at in *. rewrite !znth_S in Hsize by lia. replace (i + 1 - 1) with i in Hsize by lia. exact Hsize. }
    exists dst'. split; [exact E2|]. split; [congruence|]. split.
    + intros i k Hi Hk. unfold bin_at in *. destruct (Z.eq_dec i 0) as [->|Hi0].
      * rewrite !znth_0 in *. unfold bin_size in Hk. cbn [fst snd] in *. rewrite U2, V1.
        -- replace ((db <=? db + k) && (db + k <? db + Z.of_nat (Z.to_nat (se - sb)))) with true by lia. f_equal. lia.
        -- intros x Hin. rewrite Forall_forall in Hx. specialize (Hx x Hin). unfold after in Hx. cbn [snd] in Hx. lia.
      * rewrite zlen_cons in Hi. rewrite !(znth_S _ _ _ i) in * by lia. apply V2; [lia|exact Hk].
    + intros p Hp. rewrite U2 by (intros x Hin; apply Hp; right; exact Hin). rewrite V1. specialize (Hp (db, de) (or_introl eq_refl)). cbn [fst snd] in Hp. replace ((db <=? p) && (p <? db + Z.of_nat (Z.to_nat (se - sb)))) with false by lia. reflexivity.
Qed.
Lemma slice_range_len (l : list A) x : inside (zlen l) x -> zlen (slice_range l x) = bin_size x.
Proof. intros Hx. unfold inside in Hx. unfold slice_range, bin_size. rewrite zlen_firstn; [reflexivity|]. rewrite zlen_skipn by lia. lia. Qed.
Lemma znth_slice_range (l : list A) x k : inside (zlen l) x -> 0 <= k < bin_size x -> znth d (slice_range l x) k = znth d l (fst x + k).
Proof. intros Hx Hk. unfold inside in Hx. unfold bin_size in Hk. unfold slice_range. rewrite znth_firstn, znth_skipn by lia. reflexivity. Qed.
End Copy.

(** ** the layout of the result *)
Lemma zlen_combine {X Y} (l : list X) (m : list Y) : zlen l = zlen m -> zlen (combine l m) = zlen l.
Proof. unfold zlen. intros E. rewrite combine_length. lia. Qed.
Lemma znth_combine {X Y} (x : X) (y : Y) l m i : zlen l = zlen m -> znth (x, y) (combine l m) i = (znth x l i, znth y m i).
Proof. unfold zlen, znth. intros E. destruct (i <? 0); [reflexivity|]. apply combine_nth. lia. Qed.
Section Layout.
Variable idx0 idx1 : list (Z * Z).
Hypothesis Hlen : zlen idx0 = zlen idx1.
Hypothesis H0 : forall i, 0 <= i < zlen idx0 -> 0 <= bin_size (bin_at idx0 i).
Hypothesis H1 : forall i, 0 <= i < zlen idx0 -> 0 <= bin_size (bin_at idx1 i).
Let size (i : Z) : Z := bin_size (bin_at idx0 i) + bin_size (bin_at idx1 i).
(** number of events before bin [i] *)
Definition start (i : Z) : Z := sumZ (map size (zseq 0 (Z.to_nat i))).
Lemma start_0 : start 0 = 0. Proof. reflexivity. Qed.
Lemma start_S i : 0 <= i -> start (i + 1) = start i + size i.
Proof. clear H0 H1 Hlen. intros Hi. unfold start. replace (Z.to_nat (i + 1)) with (S (Z.to_nat i)) by lia. rewrite zseq_app_end, map_app, sumZ_app. cbn [map]. rewrite sumZ_cons. change (sumZ []) with 0. replace (0 + Z.of_nat (Z.to_nat i)) with i by lia. lia. Qed.
Lemma start_mono i j : 0 <= i <= j -> j <= zlen idx0 -> start i <= start j.
Proof.
  intros Hij Hj. replace j with (i + Z.of_nat (Z.to_nat (j - i))) in * by lia. revert Hj. generalize (Z.to_nat (j - i)). intros n. induction n as [|n IH]; intros Hj; [rewrite Z.add_0_r; lia|]. rewrite Nat2Z.inj_succ, <- Z.add_1_r, Z.add_assoc in *. rewrite start_S by lia. specialize (IH ltac:(lia)). unfold size. pose proof (H0 (i + Z.of_nat n) ltac:(lia)). pose proof (H1 (i + Z.of_nat n) ltac:(lia)). lia.
Qed.
Definition sizes0 := map bin_size idx0.
Definition sizes1 := map bin_size idx1.
Definition sizes := map (fun x : Z * Z => fst x + snd x) (combine sizes0 sizes1).
Lemma sizes_len : zlen sizes = zlen idx0.
Proof. clear H0 H1. unfold sizes, sizes0, sizes1. rewrite zlen_map, zlen_combine; rewrite !zlen_map; [reflexivity|exact Hlen]. Qed.
Lemma sizes_nth i : 0 <= i < zlen idx0 -> znth 0 sizes i = size i.
Proof.
  clear H0 H1. intros Hi. unfold sizes, sizes0, sizes1. rewrite (znth_map _ (0, 0)) by (rewrite zlen_combine; rewrite !zlen_map; [lia|exact Hlen]). rewrite znth_combine by (rewrite !zlen_map; exact Hlen). cbn [fst snd]. rewrite !(znth_map _ (0, 0)) by lia. reflexivity.
Qed.
Lemma end_ok : exists end_, cumsum Z.add Z.sub (fun x => x) 0 true sizes = Ok end_ /\ zlen end_ = zlen idx0 /\ forall i, 0 <= i < zlen idx0 -> znth 0 end_ i = start (i + 1).
Proof.
  clear H0 H1. destruct (C37_cumsum Z.add Z.sub (fun x => x) 0 0 true sizes) as (e & E & L & V). rewrite sizes_len in *. exists e. split; [exact E|]. split; [exact L|]. intros i Hi. rewrite V by exact Hi. unfold scan_result. rewrite prefix_sum_Z. rewrite sizes_nth by exact Hi. rewrite start_S by lia. f_equal. unfold start. f_equal. apply map_ext_in. intros j Hj. apply In_zseq in Hj. apply sizes_nth. lia.
Qed.
End Layout.

Lemma last_znth (l : list Z) : l <> [] -> last l 0 = znth 0 l (zlen l - 1).
Proof.
  induction l as [|a l IH]; intros Hn; [contradiction|]. destruct l as [|b l]; [reflexivity|]. change (last (a :: b :: l) 0) with (last (b :: l) 0). rewrite IH by discriminate. rewrite (zlen_cons a). rewrite (znth_S _ a) by (rewrite zlen_cons; pose proof (zlen_nonneg l); lia). f_equal. lia.
Qed.
Lemma sorted_znth (P : Z * Z -> Z * Z -> Prop) l : (forall i j, 0 <= i < j -> j < zlen l -> P (bin_at l i) (bin_at l j)) -> StronglySorted P l.
Proof.
  unfold bin_at. induction l as [|x l IH]; intros Hp; [constructor|]. constructor.
  - apply IH. intros i j Hij Hj. specialize (Hp (i + 1) (j + 1) ltac:(lia) ltac:(rewrite zlen_cons; lia)). rewrite !znth_S in Hp by lia. replace (i + 1 - 1) with i in Hp by lia. replace (j + 1 - 1) with j in Hp by lia. exact Hp.
  - apply Forall_forall. intros y Hy. apply (In_znth (0, 0)) in Hy as (j & Hj & <-). specialize (Hp 0 (j + 1) ltac:(lia) ltac:(rewrite zlen_cons; lia)). rewrite znth_0, znth_S in Hp by lia. replace (j + 1 - 1) with j in Hp by lia. exact Hp.
Qed.
Lemma Forall_znth (P : Z * Z -> Prop) l : (forall i, 0 <= i < zlen l -> P (bin_at l i)) -> Forall P l.
Proof. intros Hp. apply Forall_forall. intros x Hx. apply (In_znth (0, 0)) in Hx as (i & Hi & <-). apply Hp. exact Hi. Qed.

(** ** specification *)
Definition good_column {A} (n : Z) (c : column A) : Prop := match c with Events l => zlen l = n | Fixed _ => True end.
(** buffers with [n] events in every column, and bins inside *)
Definition good_buffer {A} (indices : list (Z * Z)) (b : buffer A) : Prop :=
  Forall (inside (zlen (b_data b))) indices /\ NoDup (map fst (b_items b)) /\ Forall (fun x => good_column (zlen (b_data b)) (snd x)) (b_items b).
(** columns of the same name that can be concatenated *)
Definition compatible {A} (eqb : A -> A -> bool) (c0 c1 : column A) : Prop :=
  match c0, c1 with Events _, Events _ => True | Fixed x, Fixed y => eqb x x = true /\ eqb y x = true | _, _ => False end.
Definition compatible_items {A} (eqb : A -> A -> bool) (l0 l1 : list (Z * column A)) : Prop :=
  (forall k, In k (map fst l0) <-> In k (map fst l1)) /\ forall k c0 c1, item k l0 = Some c0 -> item k l1 = Some c1 -> compatible eqb c0 c1.
(** the events of bin [i] of a column *)
Definition joined {A} (idx0 idx1 idx : list (Z * Z)) (l0 l1 l : list A) : Prop :=
  forall i, 0 <= i < zlen idx -> slice_range l (bin_at idx i) = slice_range l0 (bin_at idx0 i) ++ slice_range l1 (bin_at idx1 i).
Definition joined_column {A} (idx0 idx1 idx : list (Z * Z)) (c0 c1 c : column A) : Prop :=
  match c0, c1, c with Events l0, Events l1, Events l => joined idx0 idx1 idx l0 l1 l | Fixed x, Fixed _, Fixed z => z = x | _, _, _ => False end.
(** consecutive bins from [b] to [n] *)
Fixpoint consecutive (b n : Z) (l : list (Z * Z)) : Prop := match l with [] => b = n | x :: l' => fst x = b /\ consecutive (snd x) n l' end.

Section Items.
Context {A : Type}.
Lemma item_None k (l : list (Z * A)) : item k l = None <-> ~ In k (map fst l).
Proof.
  induction l as [|[k' x] l IH]; [split; auto|]. cbn [item map fst In]. destruct (Z.eqb_spec k' k) as [->|]; [split; [discriminate|intros Hn; destruct Hn; left; reflexivity]|]. rewrite IH. tauto.
Qed.
Lemma item_In k x (l : list (Z * A)) : item k l = Some x -> In (k, x) l.
Proof. induction l as [|[k' y] l IH]; [discriminate|]. cbn [item]. destruct (Z.eqb_spec k' k) as [->|]; [intros E; injection E as <-; left; reflexivity|]. intros E. right. apply IH. exact E. Qed.
Lemma item_some k (l : list (Z * A)) : In k (map fst l) -> exists x, item k l = Some x.
Proof. intros Hk. destruct (item k l) as [x|] eqn:E; [exists x; reflexivity|]. apply item_None in E. contradiction. Qed.
Lemma set_item_keys k c (l : list (Z * A)) : map fst (set_item k c l) = map fst l.
Proof. induction l as [|[k' x] l IH]; [reflexivity|]. cbn [set_item]. destruct (k' =? k); cbn [map fst]; [reflexivity|rewrite IH; reflexivity]. Qed.
Lemma item_set k c (l : list (Z * A)) k' : In k (map fst l) -> item k' (set_item k c l) = if k =? k' then Some c else item k' l.
Proof.
  induction l as [|[k1 x] l IH]; intros Hk; [destruct Hk|]. cbn [set_item]. destruct (Z.eqb_spec k1 k) as [->|Hne].
  - cbn [item]. destruct (k =? k'); reflexivity.
  - cbn [map fst] in Hk. destruct Hk as [Hk|Hk]; [contradiction|]. cbn [item]. rewrite IH by exact Hk. destruct (Z.eqb_spec k1 k') as [->|]; [|reflexivity]. destruct (Z.eqb_spec k k'); [congruence|reflexivity].
Qed.
Lemma item_map {B} (f : A -> B) k (l : list (Z * A)) : item k (map (fun x => (fst x, f (snd x))) l) = option_map f (item k l).
Proof. induction l as [|[k' x] l IH]; [reflexivity|]. cbn [map fst snd item]. destruct (k' =? k); [reflexivity|apply IH]. Qed.
End Items.

Lemma matching_keys_ok {A} (a b : list (Z * column A)) : (forall k, In k (map fst a) <-> In k (map fst b)) -> matching_keys a b = true.
Proof.
  intros Hk. unfold matching_keys. apply andb_true_intro. split; apply forallb_forall; intros x Hx; unfold contains.
  - destruct (item_some (fst x) b) as (y & ->); [|reflexivity]. apply Hk. apply in_map. exact Hx.
  - destruct (item_some (fst x) a) as (y & ->); [|reflexivity]. apply Hk. apply in_map. exact Hx.
Qed.
(** every item is copied *)
Lemma copy_items_ok {A} (eqb : A -> A -> bool) sidx didx (R : column A -> column A -> column A -> Prop) : forall src dst, NoDup (map fst src) -> (forall k, In k (map fst src) -> In k (map fst dst)) ->
  (forall k c c', item k src = Some c -> item k dst = Some c' -> exists r, copy_or_match eqb c c' sidx didx = Ok r /\ R c c' r) ->
  exists out, copy_items eqb src dst sidx didx = Ok out /\ map fst out = map fst dst /\ (forall k c c', item k src = Some c -> item k dst = Some c' -> exists r, item k out = Some r /\ R c c' r) /\ (forall k, ~ In k (map fst src) -> item k out = item k dst).
Proof.
  induction src as [|[k c] src IH]; intros dst Hnd Hin Hok.
  - exists dst. split; [reflexivity|]. split; [reflexivity|]. split; [discriminate|reflexivity].
  - cbn [map fst] in Hnd, Hin. apply NoDup_cons_iff in Hnd as [Hk Hnd]. cbn [copy_items]. destruct (item_some k dst (Hin k (or_introl eq_refl))) as (c' & Ec'). rewrite Ec'. destruct (Hok k c c') as (r & Er & Rr); [cbn [item]; rewrite Z.eqb_refl; reflexivity|exact Ec'|]. rewrite Er. cbn [bind].
    destruct (IH (set_item k r dst) Hnd) as (out & Eo & Ko & Vo & Uo).
    + intros k' Hk'. rewrite set_item_keys. apply Hin. right. exact Hk'.
    + intros k' c1 c2 E1 E2. rewrite item_set in E2 by (apply Hin; left; reflexivity). destruct (Z.eqb_spec k k') as [->|]; [exfalso; apply Hk; apply item_In in E1; apply (in_map fst) in E1; exact E1|]. apply (Hok k' c1 c2); [cbn [item]; destruct (Z.eqb_spec k k'); [contradiction|exact E1]|exact E2].
    + exists out. split; [exact Eo|]. rewrite set_item_keys in Ko. split; [exact Ko|]. split.
      * intros k' c1 c2 E1 E2. cbn [item] in E1. destruct (Z.eqb_spec k k') as [<-|Hne].
        -- injection E1 as <-. rewrite Ec' in E2. injection E2 as <-. exists r. split; [|exact Rr]. rewrite Uo by exact Hk. rewrite item_set by (apply Hin; left; reflexivity). rewrite Z.eqb_refl. reflexivity.
        -- apply (Vo k' c1 c2); [exact E1|]. rewrite item_set by (apply Hin; left; reflexivity). destruct (Z.eqb_spec k k'); [contradiction|exact E2].
      * intros k' Hk'. rewrite Uo by (intros Hx; apply Hk'; right; exact Hx). rewrite item_set by (apply Hin; left; reflexivity). destruct (Z.eqb_spec k k') as [->|]; [destruct Hk'; left; reflexivity|reflexivity].
Qed.

Section Main.
Context {A : Type}.
Variable junk : A.
Variable idx0 idx1 : list (Z * Z).
Hypothesis Hlen : zlen idx0 = zlen idx1.
Hypothesis H0 : forall i, 0 <= i < zlen idx0 -> 0 <= bin_size (bin_at idx0 i).
Hypothesis H1 : forall i, 0 <= i < zlen idx0 -> 0 <= bin_size (bin_at idx1 i).
Let st := start idx0 idx1.
Let n := zlen idx0.
Variable D1 D2 D : list (Z * Z).
Hypothesis D1_len : zlen D1 = n.
Hypothesis D2_len : zlen D2 = n.
Hypothesis D_len : zlen D = n.
Hypothesis D1_nth : forall i, 0 <= i < n -> bin_at D1 i = (st i, st i + bin_size (bin_at idx0 i)).
Hypothesis D2_nth : forall i, 0 <= i < n -> bin_at D2 i = (st i + bin_size (bin_at idx0 i), st (i + 1)).
Hypothesis D_nth : forall i, 0 <= i < n -> bin_at D i = (st i, st (i + 1)).
Lemma step_size i : 0 <= i -> st (i + 1) = st i + bin_size (bin_at idx0 i) + bin_size (bin_at idx1 i).
Proof. intros Hi. unfold st. rewrite start_S by exact Hi. lia. Qed.
Lemma st_mono i j : 0 <= i <= j -> j <= n -> st i <= st j.
Proof. intros Hij Hj. apply start_mono; assumption. Qed.
Lemma st_pos i : 0 <= i <= n -> 0 <= st i.
Proof. intros Hi. change 0 with (st 0) at 1. apply st_mono; lia. Qed.
Lemma copy_first (src : list A) : Forall (inside (zlen src)) idx0 -> exists l, copy_slices src (repeat junk (Z.to_nat (st n))) idx0 D1 = Ok l /\ zlen l = st n /\
  forall i k, 0 <= i < n -> 0 <= k < bin_size (bin_at idx0 i) -> znth junk l (st i + k) = znth junk src (fst (bin_at idx0 i) + k).
Proof.
  intros Hs. pose proof (st_pos n ltac:(pose proof (zlen_nonneg idx0); unfold n; lia)) as Hpos. destruct (copy_slices_ok junk src idx0 D1 (repeat junk (Z.to_nat (st n)))) as (l & E & L & V & _).
  - unfold n, zlen in *. lia.
  - exact Hs.
  - apply Forall_znth. rewrite D1_len. intros i Hi. rewrite D1_nth by exact Hi. unfold inside. rewrite zlen_repeat. cbn [fst snd]. pose proof (st_pos i ltac:(lia)). pose proof (H0 i Hi). pose proof (H1 i Hi). pose proof (step_size i ltac:(lia)). pose proof (st_mono (i + 1) n ltac:(lia) ltac:(lia)). lia.
  - intros i Hi. rewrite D1_nth by exact Hi. unfold bin_size at 2. cbn [fst snd]. lia.
  - apply sorted_znth. rewrite D1_len. intros i j Hij Hj. rewrite !D1_nth by lia. unfold after. cbn [fst snd]. pose proof (H1 i ltac:(unfold n in *; lia)). pose proof (step_size i ltac:(lia)). pose proof (st_mono (i + 1) j ltac:(lia) ltac:(lia)). lia.
  - exists l. split; [exact E|]. split; [rewrite L, zlen_repeat; lia|]. intros i k Hi Hk. rewrite <- (V i k Hi Hk). rewrite D1_nth by exact Hi. reflexivity.
Qed.
Lemma copy_second (src0 src1 l : list A) : Forall (inside (zlen src0)) idx0 -> Forall (inside (zlen src1)) idx1 -> copy_slices src0 (repeat junk (Z.to_nat (st n))) idx0 D1 = Ok l ->
  exists l', copy_slices src1 l idx1 D2 = Ok l' /\ zlen l' = st n /\ joined idx0 idx1 D src0 src1 l'.
Proof.
  intros Hs0 Hs1 El. pose proof (st_pos n ltac:(pose proof (zlen_nonneg idx0); unfold n; lia)) as Hpos. destruct (copy_first src0 Hs0) as (l0 & E0 & L0 & V0). rewrite El in E0. injection E0 as <-.
  destruct (copy_slices_ok junk src1 idx1 D2 l) as (l' & E & L & V & U).
  - unfold n, zlen in *. lia.
  - exact Hs1.
  - apply Forall_znth. rewrite D2_len. intros i Hi. rewrite D2_nth by exact Hi. unfold inside. rewrite L0. cbn [fst snd]. pose proof (st_pos i ltac:(lia)). pose proof (H0 i Hi). pose proof (H1 i Hi). pose proof (step_size i ltac:(lia)). pose proof (st_mono (i + 1) n ltac:(lia) ltac:(lia)). lia.
  - intros i Hi. rewrite D2_nth by (unfold n; lia). unfold bin_size at 2. cbn [fst snd]. pose proof (step_size i ltac:(lia)). lia.
  - apply sorted_znth. rewrite D2_len. intros i j Hij Hj. rewrite !D2_nth by lia. unfold after. cbn [fst snd]. pose proof (H0 j ltac:(unfold n in *; lia)). pose proof (st_mono (i + 1) j ltac:(lia) ltac:(lia)). lia.
  - exists l'. split; [exact E|]. split; [congruence|]. intros i Hi. rewrite D_len in Hi. rewrite D_nth by exact Hi. pose proof (step_size i ltac:(lia)) as Hst. pose proof (H0 i Hi) as P0. pose proof (H1 i Hi) as P1. pose proof (st_mono (i + 1) n ltac:(lia) ltac:(lia)) as Hm. pose proof (st_pos i ltac:(lia)) as Hp.
    assert (In0 : inside (zlen src0) (bin_at idx0 i)) by (rewrite Forall_forall in Hs0; apply Hs0; apply znth_In; unfold n in Hi; lia). assert (In1 : inside (zlen src1) (bin_at idx1 i)) by (rewrite Forall_forall in Hs1; apply Hs1; apply znth_In; unfold n in Hi; lia).
    assert (Ind : inside (zlen l') (st i, st (i + 1))) by (unfold inside; cbn [fst snd]; lia).
    apply (znth_ext junk).
    + rewrite zlen_app. rewrite !slice_range_len by assumption. unfold bin_size at 1. cbn [fst snd]. lia.
    + intros k Hk. rewrite slice_range_len in Hk by assumption. unfold bin_size in Hk. cbn [fst snd] in Hk. rewrite znth_slice_range by (try assumption; unfold bin_size; cbn [fst snd]; lia). cbn [fst]. rewrite znth_app, slice_range_len by assumption. destruct (Z.ltb_spec k (bin_size (bin_at idx0 i))).
      * rewrite U. -- rewrite V0 by (try assumption; lia). rewrite znth_slice_range by (try assumption; lia). reflexivity.
        -- intros x Hx. apply (In_znth (0, 0)) in Hx as (j & Hj & <-). fold (bin_at D2 j). rewrite D2_len in Hj. rewrite D2_nth by exact Hj. cbn [fst snd]. pose proof (H0 j Hj). pose proof (H1 j Hj). pose proof (step_size j ltac:(lia)). destruct (Z_lt_ge_dec j i); [pose proof (st_mono (j + 1) i ltac:(lia) ltac:(lia)); lia|]. destruct (Z.eq_dec j i) as [->|]; [lia|]. pose proof (st_mono (i + 1) j ltac:(lia) ltac:(lia)). lia.
      * rewrite znth_slice_range by (try assumption; lia). rewrite <- (V i (k - bin_size (bin_at idx0 i)) ltac:(unfold n in Hi; lia) ltac:(lia)). rewrite D2_nth by exact Hi. cbn [fst]. f_equal. lia.
Qed.
End Main.

Lemma consecutive_ok l : forall b m, 0 <= zlen l -> (forall i, 0 <= i < zlen l -> snd (bin_at l i) = (if i =? zlen l - 1 then m else fst (bin_at l (i + 1)))) -> (if zlen l =? 0 then b = m else fst (bin_at l 0) = b) -> consecutive b m l.
Proof.
  induction l as [|x l IH]; intros b m Hz Hs Hb; [exact Hb|]. pose proof (zlen_nonneg l). rewrite zlen_cons in *. destruct (Z.eqb_spec (zlen l + 1) 0); [lia|]. cbn [consecutive]. split; [exact Hb|]. apply IH; [lia| |].
  - intros i Hi. specialize (Hs (i + 1) ltac:(lia)). unfold bin_at in *. rewrite !znth_S in Hs by lia. replace (i + 1 - 1) with i in Hs by lia. replace (i + 1 + 1 - 1) with (i + 1) in Hs by lia. rewrite Hs. destruct (Z.eqb_spec (i + 1) (zlen l + 1 - 1)), (Z.eqb_spec i (zlen l - 1)); try lia; reflexivity.
  - specialize (Hs 0 ltac:(lia)). unfold bin_at in *. rewrite znth_0 in Hs. destruct (Z.eqb_spec (zlen l) 0) as [E|E].
    + rewrite Hs. destruct (Z.eqb_spec 0 (zlen l + 1 - 1)); [reflexivity|lia].
    + rewrite Hs. destruct (Z.eqb_spec 0 (zlen l + 1 - 1)); [lia|]. rewrite znth_S by lia. reflexivity.
Qed.

(** Every bin of the result has the events of the first and then those of the second input, in all columns; the bins of the
    result are consecutive and use the whole buffer. Nothing uninitialized is left: the result does not depend on [junk]. *)
Theorem C27_concatenate {A} (eqb : A -> A -> bool) (junk : A) idx0 (buf0 : buffer A) idx1 buf1 :
  zlen idx0 = zlen idx1 -> good_buffer idx0 buf0 -> good_buffer idx1 buf1 -> compatible_items eqb (b_items buf0) (b_items buf1) ->
  exists idx buf, combine_bins eqb junk idx0 buf0 idx1 buf1 = Ok (idx, buf) /\ zlen idx = zlen idx0 /\ consecutive 0 (zlen (b_data buf)) idx /\
    joined idx0 idx1 idx (b_data buf0) (b_data buf1) (b_data buf) /\ map fst (b_items buf) = map fst (b_items buf0) /\
    forall k c0 c1, item k (b_items buf0) = Some c0 -> item k (b_items buf1) = Some c1 -> exists c, item k (b_items buf) = Some c /\ joined_column idx0 idx1 idx c0 c1 c.
Proof.
  intros Hlen (G0 & N0 & C0) (G1 & N1 & C1) (Kk & Kc). unfold combine_bins. destruct (Z.eqb_spec (zlen idx0) (zlen idx1)) as [_|]; [|contradiction]. cbn [negb].
  assert (S0 : forall i, 0 <= i < zlen idx0 -> 0 <= bin_size (bin_at idx0 i)). { intros i Hi. rewrite Forall_forall in G0. specialize (G0 _ (znth_In (0, 0) idx0 i Hi)). unfold inside in G0. unfold bin_size, bin_at. lia. }
  assert (S1 : forall i, 0 <= i < zlen idx0 -> 0 <= bin_size (bin_at idx1 i)). { intros i Hi. rewrite Hlen in Hi. rewrite Forall_forall in G1. specialize (G1 _ (znth_In (0, 0) idx1 i Hi)). unfold inside in G1. unfold bin_size, bin_at. lia. }
  destruct (end_ok idx0 idx1 Hlen) as (e & Ee & Le & Ve). unfold sizes, sizes0, sizes1 in Ee. rewrite Ee. cbn [bind]. set (st := start idx0 idx1) in *. set (n := zlen idx0) in *.
  fold (sizes0 idx0) (sizes1 idx1). fold (sizes idx0 idx1). set (begin := map (fun x : Z * Z => fst x - snd x) (combine e (sizes idx0 idx1))).
  assert (Lb : zlen begin = n). { unfold begin. rewrite zlen_map, zlen_combine by (rewrite sizes_len by exact Hlen; exact Le). exact Le. }
  assert (Vb : forall i, 0 <= i < n -> znth 0 begin i = st i). { intros i Hi. unfold begin. rewrite (znth_map _ (0, 0)) by (rewrite zlen_combine by (rewrite sizes_len by exact Hlen; exact Le); lia). rewrite znth_combine by (rewrite sizes_len by exact Hlen; exact Le). cbn [fst snd]. rewrite Ve, sizes_nth by (try exact Hlen; exact Hi). unfold st. rewrite start_S by lia. lia. }
  clearbody begin. assert (Ls0 : zlen (sizes0 idx0) = n) by (unfold sizes0; rewrite zlen_map; reflexivity). assert (Ls1 : zlen (sizes1 idx1) = n) by (unfold sizes1; rewrite zlen_map; unfold n; symmetry; exact Hlen).
  set (D1 := combine begin (map (fun x : Z * Z => fst x - snd x) (combine e (sizes1 idx1)))). set (D2 := combine (map (fun x : Z * Z => fst x + snd x) (combine begin (sizes0 idx0))) e). set (D := combine begin e).
  assert (LD1 : zlen D1 = n). { unfold D1. rewrite zlen_combine; [exact Lb|]. rewrite zlen_map, zlen_combine; congruence. }
  assert (LD2 : zlen D2 = n). { unfold D2. rewrite zlen_combine; rewrite zlen_map, zlen_combine; congruence. }
  assert (LD : zlen D = n) by (unfold D; rewrite zlen_combine; congruence).
  assert (VD1 : forall i, 0 <= i < n -> bin_at D1 i = (st i, st i + bin_size (bin_at idx0 i))).
  { intros i Hi. unfold bin_at at 1, D1. rewrite znth_combine by (rewrite zlen_map, zlen_combine; congruence). rewrite Vb by exact Hi. rewrite (znth_map _ (0, 0)) by (rewrite zlen_combine by congruence; lia). rewrite znth_combine by congruence. cbn [fst snd]. rewrite Ve by exact Hi. unfold st. rewrite start_S by lia. unfold sizes1. rewrite (znth_map _ (0, 0)) by (rewrite <- Hlen; exact Hi). f_equal. unfold bin_at. lia. }
  assert (VD2 : forall i, 0 <= i < n -> bin_at D2 i = (st i + bin_size (bin_at idx0 i), st (i + 1))).
  { intros i Hi. unfold bin_at at 1, D2. rewrite znth_combine by (rewrite zlen_map, zlen_combine; congruence). rewrite Ve by exact Hi. rewrite (znth_map _ (0, 0)) by (rewrite zlen_combine by congruence; lia). rewrite znth_combine by congruence. cbn [fst snd]. rewrite Vb by exact Hi. unfold sizes0. rewrite (znth_map _ (0, 0)) by exact Hi. reflexivity. }
  assert (VD : forall i, 0 <= i < n -> bin_at D i = (st i, st (i + 1))). { intros i Hi. unfold bin_at, D. rewrite znth_combine by congruence. rewrite Vb, Ve by exact Hi. reflexivity. }
  assert (Et : match e with [] => 0 | _ :: _ => last e 0 end = st n).
  { destruct e as [|e0 e]; [change (zlen (@nil Z)) with 0 in Le; rewrite <- Le; reflexivity|]. rewrite last_znth by discriminate. rewrite Le. pose proof (zlen_nonneg e). rewrite zlen_cons in Le. rewrite Ve by lia. f_equal. lia. }
  rewrite Et. clear Et. clearbody D1 D2 D.
  pose proof (fun src => copy_first junk idx0 idx1 S0 S1 D1 D2 D LD1 VD1 VD2 VD src) as F1. pose proof (fun s0 s1 l => copy_second junk idx0 idx1 Hlen S0 S1 D1 D2 D LD1 LD2 LD VD1 VD2 VD s0 s1 l) as F2. fold st n in F1, F2.
  unfold copy_buffer. cbn [resize_default_init b_data b_items].
  destruct (F1 (b_data buf0) G0) as (l0 & El0 & Ll0 & _). rewrite El0. cbn [bind].
  set (items := map (fun x => (fst x, resize_column junk (st n) (snd x))) (b_items buf0)). assert (Ki : map fst items = map fst (b_items buf0)) by (unfold items; rewrite map_map; reflexivity).
  rewrite matching_keys_ok by (intros k; rewrite Ki; tauto).
  destruct (copy_items_ok eqb idx0 D1 (fun c c' r => match c, r with Events s, Events l => copy_slices s (repeat junk (Z.to_nat (st n))) idx0 D1 = Ok l | Fixed x, Fixed z => z = x | _, _ => False end) (b_items buf0) items N0) as (i1 & Ei1 & Ki1 & Vi1 & _).
  - intros k Hk. rewrite Ki. exact Hk.
  - intros k c c' E1 E2. unfold items in E2. rewrite item_map, E1 in E2. injection E2 as <-. assert (Hk1 : In k (map fst (b_items buf1))) by (apply Kk; apply item_In in E1; apply (in_map fst) in E1; exact E1). destruct (item_some _ _ Hk1) as (c1 & E3). specialize (Kc k c c1 E1 E3). destruct c as [s|x]; cbn [resize_column copy_or_match].
    + rewrite Forall_forall in C0. pose proof (C0 _ (item_In _ _ _ E1)) as Hg. cbn [snd good_column] in Hg. destruct (F1 s ltac:(rewrite Hg; exact G0)) as (l & El & _). rewrite El. exists (Events l). split; reflexivity.
    + destruct c1 as [s|y]; [destruct Kc|]. destruct Kc as [Kx _]. rewrite Kx. exists (Fixed x). split; reflexivity.
  - rewrite Ei1. cbn [bind b_data b_items]. destruct (F2 (b_data buf0) (b_data buf1) l0 G0 G1 El0) as (l1 & El1 & Ll1 & J1). rewrite El1. cbn [bind]. rewrite Ki in Ki1.
    rewrite matching_keys_ok by (intros k; rewrite Ki1; symmetry; apply Kk).
    destruct (copy_items_ok eqb idx1 D2 (fun c c' r => match c, c', r with Events s, Events l, Events l' => copy_slices s l idx1 D2 = Ok l' | Fixed _, Fixed x, Fixed z => z = x | _, _, _ => False end) (b_items buf1) i1 N1) as (i2 & Ei2 & Ki2 & Vi2 & _).
    + intros k Hk. rewrite Ki1. apply Kk. exact Hk.
    + intros k c1 c' E1 E2. assert (Hk0 : In k (map fst (b_items buf0))) by (apply Kk; apply item_In in E1; apply (in_map fst) in E1; exact E1). destruct (item_some _ _ Hk0) as (c0 & E0). specialize (Kc k c0 c1 E0 E1). destruct (Vi1 k c0 (resize_column junk (st n) c0) E0) as (r & Er & Hr); [unfold items; rewrite item_map, E0; reflexivity|]. rewrite Er in E2. injection E2 as <-.
      destruct c0 as [s0|x], c1 as [s1|y]; cbn [compatible] in Kc; try contradiction; destruct r as [r|r]; try contradiction; cbn [copy_or_match].
      * rewrite Forall_forall in C0, C1. pose proof (C0 _ (item_In _ _ _ E0)) as Hg0. pose proof (C1 _ (item_In _ _ _ E1)) as Hg1. cbn [snd good_column] in Hg0, Hg1. destruct (F2 s0 s1 r ltac:(rewrite Hg0; exact G0) ltac:(rewrite Hg1; exact G1) Hr) as (l & El & _). rewrite El. exists (Events l). split; reflexivity.
      * subst r. destruct Kc as [_ Ky]. rewrite Ky. exists (Fixed x). split; reflexivity.
    + rewrite Ei2. cbn [bind]. exists D, (mkbuf l1 i2). split; [reflexivity|]. split; [exact LD|]. cbn [b_data b_items]. split; [|split; [exact J1|split; [congruence|]]].
      * rewrite Ll1. apply consecutive_ok; [apply zlen_nonneg| |].
        -- intros i Hi. rewrite LD in *. rewrite VD by exact Hi. destruct (Z.eqb_spec i (n - 1)); [cbn [snd]; f_equal; lia|]. rewrite VD by lia. reflexivity.
        -- rewrite LD. destruct (Z.eqb_spec n 0) as [->|]; [reflexivity|]. rewrite VD by (pose proof (zlen_nonneg idx0); unfold n in *; lia). reflexivity.
      * intros k c0 c1 E0 E1. specialize (Kc k c0 c1 E0 E1). destruct (Vi1 k c0 (resize_column junk (st n) c0) E0) as (r & Er & Hr); [unfold items; rewrite item_map, E0; reflexivity|]. destruct (Vi2 k c1 r E1 Er) as (z & Ez & Hz). exists z. split; [exact Ez|].
        destruct c0 as [s0|x], c1 as [s1|y]; cbn [compatible] in Kc; try contradiction; destruct r as [r|r]; try contradiction; destruct z as [z|z]; try contradiction; cbn [joined_column].
        -- rewrite Forall_forall in C0, C1. pose proof (C0 _ (item_In _ _ _ E0)) as Hg0. pose proof (C1 _ (item_In _ _ _ E1)) as Hg1. cbn [snd good_column] in Hg0, Hg1. destruct (F2 s0 s1 r ltac:(rewrite Hg0; exact G0) ltac:(rewrite Hg1; exact G1) Hr) as (l & El & _ & J). rewrite El in Hz. injection Hz as <-. exact J.
        -- congruence.
Qed.
Print Assumptions C27_concatenate.
Definition case_buf0 : buffer Z := mkbuf [1; 2; 3; 4] [(0, Events [10; 20; 30; 40]); (1, Fixed 7)].
Definition case_buf1 : buffer Z := mkbuf [5; 6] [(1, Fixed 7); (0, Events [50; 60])].
Example C27_case : combine_bins Z.eqb 0 [(2, 4); (0, 1)] case_buf0 [(0, 1); (1, 2)] case_buf1 = Ok ([(0, 3); (3, 5)], mkbuf [3; 4; 5; 1; 6] [(0, Events [30; 40; 50; 10; 60]); (1, Fixed 7)]) /\
  good_buffer [(2, 4); (0, 1)] case_buf0 /\ good_buffer [(0, 1); (1, 2)] case_buf1 /\ compatible_items Z.eqb (b_items case_buf0) (b_items case_buf1).
Proof.
  split; [vm_compute; reflexivity|]. unfold good_buffer, inside. split; [|split].
  - split; [repeat apply Forall_cons; try apply Forall_nil; cbn; unfold zlen; cbn; lia|]. split; [repeat constructor; cbn; intuition discriminate|repeat apply Forall_cons; try apply Forall_nil; cbn; trivial].
  - split; [repeat apply Forall_cons; try apply Forall_nil; cbn; unfold zlen; cbn; lia|]. split; [repeat constructor; cbn; intuition discriminate|repeat apply Forall_cons; try apply Forall_nil; cbn; trivial].
  - split; [intros k; cbn; tauto|]. intros k c0 c1. cbn [item case_buf0 case_buf1 b_items]. destruct (Z.eqb_spec 0 k) as [<-|]; [|destruct (Z.eqb_spec 1 k)]; cbn; intros E0 E1; try discriminate; injection E0 as <-; injection E1 as <-; cbn; auto.
Qed.
(** A scalar coordinate that is NaN, i.e., not equal to itself, makes every concatenation fail. *)
Theorem C27_nan_refuted : exists (eqb : Z -> Z -> bool) idx buf, good_buffer idx buf /\ (forall x y, eqb x y = true -> x = y) /\ combine_bins eqb 0 idx buf idx buf = Throw RuntimeError.
Proof.
  exists (fun x y => (x =? y) && negb (x =? 13)), [(0, 1)], (mkbuf [5] [(0, Fixed 13)]). split; [|split; [intros x y; lia|vm_compute; reflexivity]].
  unfold good_buffer, inside. split; [repeat apply Forall_cons; try apply Forall_nil; cbn; unfold zlen; cbn; lia|]. split; [repeat constructor; cbn; tauto|repeat apply Forall_cons; try apply Forall_nil; cbn; trivial].
Qed.
Print Assumptions C27_nan_refuted.

Lemma concat_map_singleton {X Y} (f : X -> Y) l : concat (map (fun x => [f x]) l) = map f l.
Proof. induction l as [|x l IH]; [reflexivity|]. cbn [map concat app]. rewrite IH. reflexivity. Qed.
(** ** concatenating along a dimension *)
From Verif Require Import Float Numeric_Model Lookup_Props BinKernel_Model Mapper_Model Mapper_Proofs Mapper_Proofs2 Mapper_Proofs3 Mapper_Props TargetBins_Proofs2 TargetBins_Props.
(** lib/dataset/bins.cpp 286-299, lib/dataset/bin.cpp 527-542: binning with [erase] of one dimension [d] and no new dimensions,
    all writes in any order: the output bin at the position [q] of the other dimensions holds the events of all input bins along
    [d], in the order of the bins. *)
Theorem C27_along_dim {E} bits sh (events : Mapper_Model.pos -> list E) dim : Forall (fun n => 0 <= n) sh -> okdim sh dim ->
  exists st, build bits sh [Join] = Ok st /\
  let ev := targets st events in
  exists sizes total, Mapper_Model.bin_sizes sh [dim] ev (s_off st) (s_nb st) 1 = Ok sizes /\ total_size sh [dim] ev (s_off st) (s_nb st) = Ok total /\
  (forall p, valid sh p -> exists w, writes sh [dim] ev (s_off st) (s_nb st) p = Ok w) /\
  (forall W buf, (forall e, In e W <-> exists p w, valid sh p /\ writes sh [dim] ev (s_off st) (s_nb st) p = Ok w /\ In e w) -> zlen buf = total ->
    exists out, apply_writes buf W = Ok out /\
      bins_of_sizes out sizes = map (fun q => flat_map (fun k => events (zupd q dim k)) (zseq 0 (Z.to_nat (znth 0 sh dim)))) (rows [dim] 0 sh)).
Proof.
  intros Hsh Hd. destruct (C23_rebin bits sh [@Join E] events [dim] Hsh) as (st & T & Eb & HT & Hrest).
  - constructor; [exact I|constructor].
  - intros a p e [<-|[]] _ _. exact I.
  - intros pre key edges d c post E0. destruct pre as [|a pre]; [discriminate|]. destruct pre; discriminate.
  - constructor; [exact Hd|constructor].
  - constructor; [intros []|constructor].
  - exists st. split; [exact Eb|]. cbv zeta in Hrest |- *. change (volume [@Join E]) with 1 in *. destruct Hrest as (sizes & total & E1 & E2 & Hw & Ho). exists sizes, total. split; [exact E1|]. split; [exact E2|]. split; [exact Hw|]. intros W buf HW Hl. destruct (Ho W buf HW Hl) as (out & Eo & Hb). exists out. split; [exact Eo|]. rewrite Hb.
    change (zseq 0 (Z.to_nat 1)) with [0]. rewrite flat_map_concat_map. cbn [rev app]. rewrite <- (concat_map_singleton (fun q => flat_map (fun k => events (zupd q dim k)) (zseq 0 (Z.to_nat (znth 0 sh dim)))) (rows [dim] 0 sh)). f_equal. apply map_ext_in. intros q Hq. cbn [map]. f_equal. cbn [loops]. rewrite flat_map_flat_map. apply flat_map_ext_in. intros k Hk. apply In_zseq in Hk. cbn [flat_map]. rewrite app_nil_r.
    assert (Hv : valid sh (zupd q dim k)). { apply (loops_valid sh [dim]) with (q := q); [constructor; [exact Hd|constructor]|apply (row_ok sh [dim]); exact Hq|]. cbn [loops]. apply in_flat_map. exists k. split; [apply In_zseq; lia|left; reflexivity]. }
    apply filter_all'. intros e He. destruct (HT _ e Hv He) as ((i & Hi & HT') & _). cbn [slot] in Hi. subst i. cbn [target] in HT'. rewrite HT'. reflexivity.
Qed.
Print Assumptions C27_along_dim.
Definition case_bins (p : list Z) : list Z := match p with [0; 0] => [1; 2] | [0; 1] => [3] | [1; 0] => [] | [1; 1] => [4; 5] | _ => [] end.
Example C27_along_case : match build 32 [2; 2] [Join] with
  | Ok st => let ev := targets st case_bins in
      match Mapper_Model.bin_sizes [2; 2] [0] ev (s_off st) (s_nb st) 1, total_size [2; 2] [0] ev (s_off st) (s_nb st), writes [2; 2] [0] ev (s_off st) (s_nb st) [0; 1], writes [2; 2] [0] ev (s_off st) (s_nb st) [1; 1] with
      | Ok sizes, Ok total, Ok w, Ok w' => sizes = [2; 3] /\ total = 5 /\ w = [(2, 3)] /\ w' = [(3, 4); (4, 5)] | _, _, _, _ => False end
  | _ => False end /\ map (fun q => flat_map (fun k => case_bins (zupd q 0 k)) (zseq 0 2)) (rows [0] 0 [2; 2]) = [[1; 2]; [3; 4; 5]].
Proof. vm_compute. repeat split. Qed.
