From Coq Require Import Permutation Zquot.
From Verif Require Import Base Map_Model Map_Spec Dims_Model Dims_Spec Dims_Proofs Index_Model Index_Spec Index_Proofs
  View_Model View_Spec View_Proofs Transform_Model Transform_Spec Machine_Proofs.

Lemma NoDup_app_intro {A} (a b : list A) : NoDup a -> NoDup b -> (forall x, In x a -> ~ In x b) -> NoDup (a ++ b).
Proof.
  induction 1 as [|x a Hni Hnd IH]; intros Hb Hd; [assumption|]. cbn. constructor.
  - rewrite in_app_iff. intros [Hin|Hin]; [contradiction|]. apply (Hd x); [left; reflexivity|assumption].
  - apply IH; [assumption|]. intros y Hy. apply Hd. right. assumption.
Qed.
Lemma Forall_eq_repeat_len {A} (x : A) l n : length l = n -> (forall y, In y l -> y = x) -> l = repeat x n.
Proof.
  intros <-. induction l as [|y l IH]; intros Hl; [reflexivity|]. cbn. rewrite (Hl y) by (left; reflexivity). f_equal.
  apply IH. intros z Hz. apply Hl. right. assumption.
Qed.

(** ** Merging dimensions *)
Lemma has_unique d k n n' : wf d -> has d k n -> has d k n' -> n = n'.
Proof.
  intros Hw Ha Hb. apply wf_lwf in Hw as [[Hnd _] _]. unfold has in *. apply extent_In in Ha, Hb; try assumption. congruence.
Qed.

Lemma merge_all_ok ds : forall d m, wf d -> Forall wf ds -> merge_all d ds = Ok m ->
  wf m /\ union_of (d :: ds) m /\ (ds = [] -> m = d).
Proof.
  induction ds as [|e ds IH]; intros d m Hd Hds Hm; cbn [merge_all] in Hm.
  - injection Hm as <-. split; [assumption|]. split; [|auto]. intros k n. split.
    + intros Hh. exists d. split; [left; reflexivity|assumption].
    + intros (e & [<-|[]] & Hh). assumption.
  - inversion Hds as [|? ? He Hds']; subst. destruct (dims_merge d e) as [de| |] eqn:E; cbn [bind] in Hm; try discriminate.
    destruct (merge_ok d e Hd He (merge_Ok_noconf d e de Hd He E)) as (m' & E' & Hw & Hhas & _).
    rewrite E in E'. injection E' as <-. destruct (IH de m Hw Hds' Hm) as (Hwm & Hu & _).
    split; [assumption|]. split; [|discriminate]. intros k n. rewrite (Hu k n). split.
    + intros (x & [<-|Hx] & Hh).
      * apply Hhas in Hh as [Hh|Hh]; [exists d|exists e]; cbn; auto.
      * exists x. cbn. auto.
    + intros (x & [<-|[<-|Hx]] & Hh).
      * exists de. split; [left; reflexivity|]. apply Hhas. auto.
      * exists de. split; [left; reflexivity|]. apply Hhas. auto.
      * exists x. split; [right; assumption|assumption].
Qed.

Lemma merge_all_compatible ds : forall d, wf d -> Forall wf ds -> compatible (d :: ds) -> exists m, merge_all d ds = Ok m.
Proof.
  induction ds as [|e ds IH]; intros d Hd Hds Hc; cbn [merge_all]; [eauto|].
  inversion Hds as [|? ? He Hds']; subst.
  destruct (merge_ok d e Hd He (Hc d e (or_introl eq_refl) (or_intror (or_introl eq_refl)))) as (de & -> & Hw & Hhas & _).
  cbn [bind]. apply IH; try assumption. intros a b Ha Hb (k & m & n & Hm & Hn & Hne).
  assert (Hex : forall x y, In x (de :: ds) -> has x k y -> exists x', In x' (d :: e :: ds) /\ has x' k y).
  { intros x y [<-|Hx] Hh; [apply Hhas in Hh as [Hh|Hh]; [exists d|exists e]|exists x]; cbn; auto. }
  destruct (Hex a m Ha Hm) as (a' & Ha' & Hm'). destruct (Hex b n Hb Hn) as (b' & Hb' & Hn').
  apply (Hc a' b' Ha' Hb'). exists k, m, n. auto.
Qed.

Lemma merge_all_incompatible ds : forall d, wf d -> Forall wf ds -> ~ compatible (d :: ds) ->
  merge_all d ds = Throw DimensionError.
Proof.
  induction ds as [|e ds IH]; intros d Hd Hds Hc; cbn [merge_all].
  - exfalso. apply Hc. intros a b [<-|[]] [<-|[]] (k & m & n & Hm & Hn & Hne). apply Hne.
    apply (has_unique d k); assumption.
  - inversion Hds as [|? ? He Hds']; subst. destruct (conflict_dec d e Hd He) as [Hcf|Hncf].
    { rewrite merge_conflict by assumption. reflexivity. }
    destruct (merge_ok d e Hd He Hncf) as (de & -> & Hw & Hhas & _). cbn [bind]. apply IH; try assumption.
    intros Hc'. apply Hc. intros a b Ha Hb (k & m & n & Hm & Hn & Hne).
    assert (Hex : forall x y, In x (d :: e :: ds) -> has x k y -> exists x', In x' (de :: ds) /\ has x' k y).
    { intros x y [<-|[<-|Hx]] Hh; [exists de|exists de|exists x]; (split; [cbn; auto|]); try (apply Hhas; auto); assumption. }
    destruct (Hex a m Ha Hm) as (a' & Ha' & Hm'). destruct (Hex b n Hb Hn) as (b' & Hb' & Hn').
    apply (Hc' a' b' Ha' Hb'). exists k, m, n. auto.
Qed.

Lemma merge_all_included ds : forall d, wf d -> Forall wf ds -> (forall e, In e ds -> forall k n, has e k n -> has d k n) ->
  merge_all d ds = Ok d.
Proof.
  induction ds as [|e ds IH]; intros d Hd Hds Hi; cbn [merge_all]; [reflexivity|].
  inversion Hds as [|? ? He Hds']; subst. rewrite merge_includes; try assumption.
  - cbn [bind]. apply IH; try assumption. intros x Hx. apply Hi. right. assumption.
  - apply Hi. left. reflexivity.
Qed.

(** ** Operands *)
Definition fits (d : sizes) (a : arr) : Prop := wfv (a_var a) /\ forall k n, has (a_dims a) k n -> has d k n.

Lemma labels_keys d : wf d -> labels d = keys (pairs d).
Proof. intros Hw. apply wf_lwf in Hw as [_ Hlen]. unfold labels. rewrite <- (mk_pairs d Hlen) at 1. reflexivity. Qed.
Lemma shape_extents d : wf d -> shape d = extents (pairs d).
Proof. intros Hw. apply wf_lwf in Hw as [_ Hlen]. unfold shape. rewrite <- (mk_pairs d Hlen) at 1. reflexivity. Qed.

Lemma check_smaller_ok a d ls : wf a -> wf d -> (forall k n, has a k n -> has d k n) -> incl ls (labels d) ->
  check_smaller a d ls = Ok tt.
Proof.
  intros Ha Hd Hi. induction ls as [|l ls IH]; intros Hinc; cbn [check_smaller]; [reflexivity|].
  rewrite IH by (intros x Hx; apply Hinc; right; assumption).
  pose proof (proj1 (wf_lwf _) Ha) as [La Hla]. pose proof (proj1 (wf_lwf _) Hd) as [Ld Hld].
  rewrite <- (mk_pairs a Hla), <- (mk_pairs d Hld).
  rewrite dcontains_mk. destruct (mem l (keys (pairs a))) eqn:E; [|reflexivity].
  apply mem_In, In_keys in E as [n Hn]. rewrite !dat_mk by (apply La || apply Ld).
  rewrite (proj2 (extent_In _ _ _ (proj1 La)) Hn). cbn [bind].
  rewrite (proj2 (extent_In (pairs d) l n (proj1 Ld)) (Hi _ _ Hn)). cbn [bind].
  rewrite Z.ltb_irrefl. reflexivity.
Qed.

(** Strides of the operand for iteration dimensions [d], by label. *)
Definition fstride (a : arr) (l : Z) : Z :=
  if mem l (labels (a_dims a)) then puts (fun _ => 0) (labels (a_dims a)) (v_strides (a_var a)) l else 0.

Lemma wfv_strides a : wfv (a_var a) -> v_strides (a_var a) = map (fstride a) (labels (a_dims a)).
Proof.
  intros (Hw & Hl & _). unfold fstride. rewrite <- (puts_map (labels (a_dims a)) (fun _ => 0) (v_strides (a_var a))) at 1;
    [|apply Hw|assumption].
  apply map_ext_in. intros k Hk. apply mem_In in Hk. unfold a_dims in *. rewrite Hk. reflexivity.
Qed.
Lemma fstride_nonneg a l : wfv (a_var a) -> 0 <= fstride a l.
Proof.
  intros Hw. pose proof (wfv_strides a Hw) as E. destruct Hw as (Hw & Hl & Hnn).
  destruct (mem l (labels (a_dims a))) eqn:Em; [|unfold fstride; rewrite Em; lia]. apply mem_In in Em.
  rewrite Forall_forall in Hnn. apply Hnn. rewrite E. apply in_map. assumption.
Qed.

Lemma redim_ok d a : wf d -> fits d a -> redim d a = Ok (map (fstride a) (labels d)).
Proof.
  intros Hd [Hw Hi]. unfold redim, expect_can_broadcast. pose proof Hw as (Hwd & Hl & _).
  replace (if dims_eqb (a_dims a) d then Ok tt else check_smaller (a_dims a) d (labels d)) with (Ok tt : res unit).
  2:{ destruct (dims_eqb _ _); [reflexivity|]. symmetry. apply check_smaller_ok; try assumption. apply incl_refl. }
  cbn [bind]. pose proof (proj1 (wf_lwf _) Hwd) as [La Hla].
  rewrite (wfv_strides a Hw). unfold a_dims. rewrite (labels_keys _ Hwd), <- (mk_pairs _ Hla) at 1.
  rewrite broadcast_strides_ok by apply La. f_equal. apply map_ext. intros l. unfold fstride, a_dims.
  rewrite (labels_keys _ Hwd). destruct (mem l (keys (pairs (v_dims (a_var a))))); reflexivity.
Qed.

Lemma redims_ok d ops : wf d -> Forall (fits d) ops ->
  mapM (redim d) ops = Ok (map (fun a => map (fstride a) (labels d)) ops).
Proof.
  intros Hd. induction 1 as [|a ops Ha _ IH]; cbn [mapM map]; [reflexivity|].
  rewrite redim_ok by assumption. cbn [bind]. rewrite IH. reflexivity.
Qed.

(** ** Elements *)
Lemma index_of_labels d k : wf d -> map (index_of d k) (labels d) = index_at (shape d) k.
Proof.
  intros Hw. unfold index_of. apply puts_map; [apply Hw|]. rewrite index_at_length. destruct Hw as (_ & Hl & _). exact Hl.
Qed.

Lemma vaddr_sum a ix : wfv (a_var a) -> vaddr (a_var a) ix = v_offset (a_var a) + lsum (fun l => fstride a l * ix l) (labels (a_dims a)).
Proof. intros Hw. unfold vaddr. rewrite (wfv_strides a Hw), dot_lsum. reflexivity. Qed.

Lemma sub_sum (ls ls' : list Z) (g : Z -> Z) : NoDup ls -> NoDup ls' -> incl ls ls' -> (forall k, ~ In k ls -> g k = 0) ->
  lsum g ls = lsum g ls'.
Proof.
  intros Hn Hn' Hi Hz.
  assert (Hp : Permutation ls' (ls ++ filter (fun k => negb (mem k ls)) ls')).
  { apply NoDup_Permutation; [assumption| |].
    - apply NoDup_app_intro; [assumption|apply NoDup_filter; assumption|].
      intros x Hx Hf. apply filter_In in Hf as [_ Hf]. apply negb_true_iff, mem_nIn in Hf. contradiction.
    - intros x. rewrite in_app_iff, filter_In, negb_true_iff, mem_nIn. split.
      + intros Hx. destruct (in_dec Z.eq_dec x ls); auto.
      + intros [Hx|[Hx _]]; auto. }
  rewrite (lsum_perm g _ _ Hp), lsum_app, (lsum_zero g (filter _ _)); [lia|].
  intros k Hk. apply filter_In in Hk as [_ Hk]. apply negb_true_iff, mem_nIn in Hk. auto.
Qed.

Lemma fits_incl d a : wf d -> fits d a -> incl (labels (a_dims a)) (labels d).
Proof.
  intros Hd [Hw Hi] l Hl. destruct Hw as (Hwd & _). rewrite labels_keys in Hl |- * by assumption.
  apply In_keys in Hl as [n Hn]. apply In_keys. exists n. apply Hi. assumption.
Qed.

Lemma vaddr_fits d a ix : wf d -> fits d a ->
  vaddr (a_var a) ix = v_offset (a_var a) + dot (map (fstride a) (labels d)) (map ix (labels d)).
Proof.
  intros Hd Hf. pose proof (fits_incl d a Hd Hf) as Hinc. destruct Hf as [Hw Hi]. rewrite vaddr_sum by assumption.
  rewrite dot_lsum. f_equal. apply sub_sum; [apply Hw|apply Hd|assumption|].
  intros k Hk. unfold fstride. apply mem_nIn in Hk. rewrite Hk. reflexivity.
Qed.

Lemma address_fits d a k : wf d -> fits d a ->
  v_offset (a_var a) + address (shape d) (map (fstride a) (labels d)) k = vaddr (a_var a) (index_of d k).
Proof. intros Hd Hf. rewrite (vaddr_fits d) by assumption. rewrite index_of_labels by assumption. reflexivity. Qed.

Definition opcell (d : sizes) (k : Z) (a : arr) : cell := (a_buf a, vaddr (a_var a) (index_of d k)).

Lemma cells_ok d ops k : wf d -> Forall (fits d) ops ->
  cells ops (addresses (shape d) (map (fun a => map (fstride a) (labels d)) ops) k) = map (opcell d k) ops.
Proof.
  intros Hd. unfold cells, addresses. induction 1 as [|a ops Ha _ IH]; [reflexivity|].
  cbn [map combine fst snd]. rewrite IH. unfold opcell at 2. rewrite <- (address_fits d a k) by assumption. reflexivity.
Qed.

Lemma inside_index_of d k : wf d -> 0 <= k < volume d -> inside d (index_of d k).
Proof.
  intros Hd Hk. unfold inside. apply valid_at_idx. rewrite <- labels_keys, <- shape_extents by assumption.
  rewrite index_of_labels by assumption. rewrite volume_vol in Hk. apply position_index_at; [apply Hd|assumption].
Qed.
Lemma index_of_inside d ix : wf d -> inside d ix -> exists k, 0 <= k < volume d /\ same_at (pairs d) (index_of d k) ix.
Proof.
  intros Hd Hin. unfold inside in Hin. exists (position (extents (pairs d)) (map ix (keys (pairs d)))). split.
  - rewrite volume_vol, shape_extents by assumption. apply position_bound, valid_at_idx. assumption.
  - pose proof (proj1 (wf_lwf _) Hd) as [L Hl]. pose proof (index_of_position _ _ L Hin) as Hs.
    rewrite (mk_pairs d Hl) in Hs. assumption.
Qed.
Lemma index_of_inj d j k : wf d -> 0 <= j < volume d -> 0 <= k < volume d ->
  same_at (pairs d) (index_of d j) (index_of d k) -> j = k.
Proof.
  intros Hd Hj Hk Hs. rewrite volume_vol in *.
  destruct (position_index_at (shape d) j (proj1 (proj2 (proj2 Hd))) Hj) as [_ Ej].
  destruct (position_index_at (shape d) k (proj1 (proj2 (proj2 Hd))) Hk) as [_ Ek].
  rewrite <- Ej, <- Ek. f_equal. rewrite <- !index_of_labels by assumption. apply map_ext_in.
  intros l Hl. apply Hs. rewrite <- labels_keys by assumption. assumption.
Qed.

Lemma vaddr_same d a ix ix' : wf d -> fits d a -> same_at (pairs d) ix ix' -> vaddr (a_var a) ix = vaddr (a_var a) ix'.
Proof.
  intros Hd Hf Hs. rewrite !(vaddr_fits d) by assumption. do 2 f_equal. apply map_ext_in.
  intros l Hl. apply Hs. rewrite <- labels_keys by assumption. assumption.
Qed.

(** ** Blocks *)
Lemma zseq_split a m e : a <= m <= e -> zseq a (Z.to_nat (e - a)) = zseq a (Z.to_nat (m - a)) ++ zseq m (Z.to_nat (e - m)).
Proof.
  intros Hm. replace (Z.to_nat (e - a)) with (Z.to_nat (m - a) + Z.to_nat (e - m))%nat by lia.
  rewrite zseq_app. do 2 f_equal. lia.
Qed.
Definition ks_of (bs : list (Z * Z)) : list (list Z) := map (fun b => zseq (fst b) (Z.to_nat (snd b - fst b))) bs.
Lemma tiles_concat b e bs : tiles b e bs -> b <= e /\ concat (ks_of bs) = zseq b (Z.to_nat (e - b)).
Proof.
  induction 1 as [b|b m e bs Hbm Ht IH]; [rewrite Z.sub_diag; split; [lia|reflexivity]|].
  destruct IH as [Hme IH]. split; [lia|]. cbn [ks_of map concat fst snd]. fold (ks_of bs). rewrite IH. symmetry.
  apply zseq_split. lia.
Qed.
Lemma tiles_in b e bs x y : tiles b e bs -> In (x, y) bs -> b <= x <= y /\ y <= e.
Proof.
  induction 1 as [b|b m e bs Hbm Ht IH]; intros Hin; [destruct Hin|]. pose proof (tiles_concat _ _ _ Ht) as [Hme _].
  destruct Hin as [E|Hin]; [injection E as <- <-; lia|]. specialize (IH Hin). lia.
Qed.

Lemma mapM_ok {A B} (f : A -> res B) g l : (forall a, In a l -> f a = Ok (g a)) -> mapM f l = Ok (map g l).
Proof.
  induction l as [|a l IH]; intros Hf; cbn [mapM map]; [reflexivity|]. rewrite Hf by (left; reflexivity). cbn [bind].
  rewrite IH by (intros; apply Hf; right; assumption). reflexivity.
Qed.

Lemma block_programs_ok {A} (c : list cell -> list (instr A)) d ops m bs :
  wf d -> Forall (fits d) ops -> mi_make (shape d) (map (fun a => map (fstride a) (labels d)) ops) = Ok m ->
  (0 < volume d -> flattening_safe (shape d) (map (fun a => map (fstride a) (labels d)) ops)) ->
  tiles 0 (volume d) bs ->
  block_programs c ops m bs = Ok (map (fun ks => flat_map (fun k => c (map (opcell d k) ops)) ks) (ks_of bs)).
Proof.
  intros Hd Hops Hm Hs Ht. unfold block_programs, ks_of. rewrite map_map. apply mapM_ok. intros [b e] Hin.
  destruct (tiles_in _ _ _ _ _ Ht Hin) as [Hbe He]. cbn [fst snd].
  set (sts := map _ ops) in *.
  assert (Hblk : mi_block m b e = Ok (map (addresses (shape d) sts) (zseq b (Z.to_nat (e - b))))).
  { destruct (Z.eq_dec b e) as [->|Hne].
    { unfold mi_block. rewrite Z.sub_diag. cbn [mi_run Z.to_nat]. unfold mi_eqb. rewrite list_eqb_refl. reflexivity. }
    apply mi_block_ok; try assumption.
    - apply Hd.
    - apply Forall_forall. intros st Hst. apply in_map_iff in Hst as (a & <- & _). rewrite map_length.
      destruct Hd as (_ & Hl & _). unfold shape, labels. lia.
    - apply Hs. lia.
    - rewrite <- volume_vol. assumption. }
  rewrite Hblk. cbn [bind]. f_equal. unfold program.
  rewrite !flat_map_concat_map, map_map. f_equal. apply map_ext. intros k. f_equal. apply cells_ok; assumption.
Qed.

Lemma extract_zero sh : forall x, In x (extract_indices 0 sh) -> x = 0.
Proof.
  induction sh as [|n [|n' sh] IH]; cbn [extract_indices]; intros x Hx; try (destruct Hx as [<-|[]]; reflexivity).
  cbn [extract_indices] in IH. destruct (n =? 0).
  - destruct Hx as [<-|Hx]; [reflexivity|]. apply IH. assumption.
  - rewrite Zquot.Zquot_0_l in Hx. destruct Hx as [<-|Hx]; [reflexivity|]. apply IH. assumption.
Qed.
Lemma extract_length sh : forall k, length (extract_indices k sh) = Nat.max 1 (length sh).
Proof.
  induction sh as [|n [|n' sh] IH]; intros k; try reflexivity. cbn [extract_indices] in *.
  destruct (n =? 0); cbn [length]; rewrite IH; cbn [length]; lia.
Qed.
Lemma mi_set_zero n es : mi_eqb (mi_of_entries n es) (mi_set_index (mi_of_entries n es) 0) = true.
Proof.
  unfold mi_eqb. apply list_eqb_spec. destruct es as [|e es]; [reflexivity|]. unfold mi_set_index, mi_of_entries.
  cbn [mi_coord mi_ndim mi_shape mi_data]. rewrite firstn_all2 by (rewrite map_length; lia).
  symmetry. apply Forall_eq_repeat_len.
  - rewrite extract_length, map_length. cbn [length]. lia.
  - apply extract_zero.
Qed.

Lemma serial_ok {A} (c : list cell -> list (instr A)) d ops m :
  wf d -> Forall (fits d) ops -> mi_make (shape d) (map (fun a => map (fstride a) (labels d)) ops) = Ok m ->
  (0 < volume d -> flattening_safe (shape d) (map (fun a => map (fstride a) (labels d)) ops)) ->
  (do ps <- mi_run (Z.to_nat (volume d)) m (mi_set_index m (volume d)); Ok [program c ops ps]) =
  Ok (map (fun ks => flat_map (fun k => c (map (opcell d k) ops)) ks) [zseq 0 (Z.to_nat (volume d))]).
Proof.
  intros Hd Hops Hm Hs. set (sts := map _ ops) in *.
  assert (Hnn : nonneg (shape d)) by apply Hd.
  assert (Hv0 : 0 <= volume d) by (rewrite volume_vol; apply vol_nonneg, Hd).
  assert (Hrun : mi_run (Z.to_nat (volume d)) m (mi_set_index m (volume d)) =
                 Ok (map (addresses (shape d) sts) (zseq 0 (Z.to_nat (volume d))))).
  { destruct (Z.eq_dec (volume d) 0) as [E0|Hne].
    - rewrite E0. unfold mi_make in Hm. destruct (flatten_dims _ _ _ _ _ _) as [es| |]; cbn [bind] in Hm; try discriminate.
      injection Hm as <-. cbn [Z.to_nat mi_run]. rewrite mi_set_zero. reflexivity.
    - assert (Hl : Forall (fun st => length st = length (shape d)) sts).
      { apply Forall_forall. intros st Hst. apply in_map_iff in Hst as (a & <- & _). rewrite map_length.
        destruct Hd as (_ & Hl & _). unfold shape, labels. lia. }
      assert (Hp : pos (shape d)) by (apply vol_pos_all; [assumption|rewrite <- volume_vol; lia]).
      destruct (mi_make_good _ _ _ Hp Hl Hm) as (es & -> & Hok & Hv & Hdata); [apply Hs; lia|].
      rewrite mi_set_of by (assumption || lia). rewrite (mi_run_state _ _ Hok) by (rewrite ?Hv, ?volume_vol; lia || (rewrite <- volume_vol; lia)).
      rewrite Z.sub_0_r. f_equal. apply map_ext_in. intros k Hk. apply zseq_In in Hk. apply Hdata. lia. }
  rewrite Hrun. cbn [bind map]. do 2 f_equal. unfold program. rewrite !flat_map_concat_map, map_map. f_equal.
  apply map_ext. intros k. f_equal. apply cells_ok; assumption.
Qed.

(** ** The output determines that the dimensions may be flattened *)
Definition one_cell_each (d : sizes) (o : arr) : Prop :=
  forall ix ix', inside d ix -> inside d ix' -> vaddr (a_var o) ix = vaddr (a_var o) ix' -> same_at (pairs d) ix ix'.

Lemma stride_nonzero d o p1 k n p2 : wf d -> fits d o -> one_cell_each d o -> 0 < volume d -> pairs d = p1 ++ (k, n) :: p2 ->
  fstride o k = 0 -> n = 1.
Proof.
  intros Hd Hf Hone Hv Hp Hz. 
  assert (Hpos : Forall (fun n => 0 < n) (extents (pairs d))).
  { rewrite <- shape_extents by assumption. apply vol_pos_all; [apply Hd|rewrite <- volume_vol; assumption]. }
  assert (Hall : forall j m, In (j, m) (pairs d) -> 0 < m).
  { intros j m Hin. rewrite Forall_forall in Hpos. apply Hpos. unfold extents. change m with (snd (j, m)). apply in_map. assumption. }
  assert (Hin : In (k, n) (pairs d)) by (rewrite Hp; apply in_or_app; right; left; reflexivity).
  pose proof (Hall k n Hin) as Hn. destruct (Z.eq_dec n 1) as [|Hn1]; [assumption|exfalso].
  assert (Hnd : NoDup (keys (pairs d))) by (apply wf_lwf in Hd as [[? _] _]; assumption).
  assert (Hs : same_at (pairs d) (fun _ => 0) (put (fun _ => 0) k 1)).
  { apply Hone.
    - intros j m Hj. specialize (Hall j m Hj). lia.
    - intros j m Hj. pose proof (Hall j m Hj). unfold put. destruct (Z.eqb_spec j k) as [->|]; [|lia].
      assert (m = n) by (apply (has_unique d k); assumption). lia.
    - rewrite !(vaddr_fits d) by assumption. f_equal. rewrite !dot_lsum. apply lsum_ext. intros j Hj.
      unfold put. destruct (Z.eqb_spec j k) as [->|]; lia. }
  specialize (Hs k). rewrite put_same in Hs. specialize (Hs ltac:(apply In_keys; eauto)). lia.
Qed.

Lemma one_cell_safe d o ins : wf d -> fits d o -> one_cell_each d o -> 0 < volume d ->
  flattening_safe (shape d) (map (fun a => map (fstride a) (labels d)) (o :: ins)).
Proof.
  intros Hd Hf Hone Hv. right. intros i Hi Hz.
  assert (Hlen : length (shape d) = length (labels d)) by (destruct Hd as (_ & Hl & _); exact Hl).
  assert (Hz0 : nth i (map (fstride o) (labels d)) 0 = 0).
  { apply (Hz i); [lia|]. left. reflexivity. }
  rewrite shape_extents by assumption.
  assert (Hip : (i < length (pairs d))%nat).
  { assert (length (pairs d) = length (labels d)) by (rewrite labels_keys by assumption; unfold keys; rewrite map_length; reflexivity). lia. }
  destruct (nth_split (pairs d) (0, 0) Hip) as (p1 & p2 & Hp & Hlp).
  destruct (nth i (pairs d) (0, 0)) as [k n] eqn:En.
  unfold extents. change 0 with (snd (0, 0)). rewrite map_nth, En. cbn [snd].
  apply (stride_nonzero d o p1 k n p2); try assumption.
  rewrite labels_keys in Hz0 by assumption. unfold keys in Hz0.
  rewrite nth_indep with (d' := fstride o 0) in Hz0 by (rewrite !map_length; assumption).
  rewrite map_nth in Hz0. change 0 with (fst (0, 0)) in Hz0 at 1. rewrite map_nth, En in Hz0. exact Hz0.
Qed.

Lemma outs_NoDup d o ks : wf d -> one_cell_each d o -> NoDup ks -> (forall k, In k ks -> 0 <= k < volume d) ->
  NoDup (map (fun k => opcell d k o) ks).
Proof.
  intros Hd Hone. induction 1 as [|k ks Hni Hnd IH]; intros Hb; cbn [map]; constructor.
  - intros Hin. apply in_map_iff in Hin as (j & E & Hj). unfold opcell in E. injection E as E.
    apply Hni. replace k with j; [assumption|]. apply (index_of_inj d); try assumption.
    + apply Hb. right. assumption.
    + apply Hb. left. reflexivity.
    + apply Hone; try (apply inside_index_of; [assumption|]; apply Hb; cbn; auto). assumption.
  - apply IH. intros j Hj. apply Hb. right. assumption.
Qed.
Lemma zseq_NoDup b n : NoDup (zseq b n).
Proof. unfold zseq. apply FinFun.Injective_map_NoDup; [intros x y E; lia|apply seq_NoDup]. Qed.

(** ** New variables *)
Lemma var_fresh_SV d : wf d -> lwf (pairs d) /\ var_fresh d = SV (pairs d) (sfc (pairs d)) 0 false (vol (extents (pairs d))).
Proof.
  intros Hd. pose proof (proj1 (wf_lwf _) Hd) as [Hp Hlen]. split; [assumption|].
  rewrite <- (mk_pairs d Hlen) at 1. apply fresh_SV, Hp.
Qed.
Lemma fresh_wfv d : wf d -> wfv (var_fresh d).
Proof. intros Hd. destruct (var_fresh_SV d Hd) as [Hp ->]. apply SV_wfv; [assumption|]. apply sfc_nonneg. assumption. Qed.
Lemma fresh_fits d b : wf d -> fits d (mkarr b (var_fresh d)).
Proof. intros Hd. split; [apply fresh_wfv; assumption|]. auto. Qed.
Lemma fresh_one d b : wf d -> one_cell_each d (mkarr b (var_fresh d)).
Proof.
  intros Hd. unfold one_cell_each. cbn [a_var]. destruct (var_fresh_SV d Hd) as [Hp ->]. apply fresh_state. assumption.
Qed.
Lemma fresh_vaddr d ix : wf d -> inside d ix -> vaddr (var_fresh d) ix = position (shape d) (map ix (labels d)).
Proof.
  intros Hd Hin. rewrite labels_keys, shape_extents by assumption. destruct (var_fresh_SV d Hd) as [Hp ->].
  rewrite vaddr_SV. rewrite asum_sfc by assumption. reflexivity.
Qed.

Lemma value_same {A} d (h : heap A) a ix ix' : wf d -> fits d a -> same_at (pairs d) ix ix' -> value_at h a ix = value_at h a ix'.
Proof. intros Hd Hf Hs. unfold value_at. rewrite (vaddr_same d a ix ix') by assumption. reflexivity. Qed.

Lemma map_map_cells {A} (h : heap A) d k ops : map h (map (opcell d k) ops) = map (fun a => value_at h a (index_of d k)) ops.
Proof. rewrite map_map. reflexivity. Qed.

(** The threads of one operation: [ks] is divided into blocks, every block has one thread. *)
Lemma elementwise {A} (f : list A -> A) d o (ops : list arr) kss (h h' : heap A) :
  wf d -> fits d o -> Forall (fits d) ops -> one_cell_each d o -> concat kss = zseq 0 (Z.to_nat (volume d)) ->
  (forall j k a, 0 <= j < volume d -> 0 <= k < volume d -> In a ops -> opcell d j o = opcell d k a ->
     opcell d j o = opcell d k o) ->
  may_end h (map (fun ks => flat_map (fun k => map Ld (map (opcell d k) ops) ++ [St (opcell d k o) f]) ks) kss) h' ->
  (forall ix, inside d ix -> value_at h' o ix = f (map (fun a => value_at h a ix) ops)) /\
  (forall c, (forall ix, inside d ix -> c <> (a_buf o, vaddr (a_var o) ix)) -> h' c = h c).
Proof.
  intros Hd Ho Hops Hone Hk Hal (sched & Hfin & Hh').
  assert (Hb : forall k, In k (concat kss) -> 0 <= k < volume d).
  { intros k Hin. rewrite Hk in Hin. apply zseq_In in Hin. lia. }
  assert (Hnd : NoDup (map (fun k => opcell d k o) (concat kss))).
  { apply outs_NoDup; try assumption. rewrite Hk. apply zseq_NoDup. }
  destruct (calls_par f (fun k => opcell d k o) (fun k => map (opcell d k) ops) h kss sched Hnd) as [Hv Hu].
  - intros j k Hj Hk' Hin. apply in_map_iff in Hin as (a & E & Ha). apply (Hal j k a); auto.
  - exact Hfin.
  - unfold kcall in Hv, Hu. rewrite Hh' in Hv, Hu. split.
    + intros ix Hix. destruct (index_of_inside d ix Hd Hix) as (k & Hkr & Hs).
      rewrite <- (value_same d h' o _ _ Hd Ho Hs).
      rewrite (map_ext_in _ (fun a => value_at h a (index_of d k))).
      * rewrite <- map_map_cells. apply Hv. rewrite Hk. apply zseq_In. lia.
      * intros a Ha. symmetry. rewrite Forall_forall in Hops. apply (value_same d); auto.
    + intros c Hc. apply Hu. intros Hin. apply in_map_iff in Hin as (k & <- & Hkin).
      apply (Hc (index_of d k)); [apply inside_index_of; auto|reflexivity].
Qed.

(** ** transform *)
Lemma Forall_fits ds d ops : (forall k n, has d k n <-> exists e, In e ds /\ has e k n) ->
  (forall a, In a ops -> In (a_dims a) ds) -> Forall (fun a => wfv (a_var a)) ops -> Forall (fits d) ops.
Proof.
  intros Hu Hin Hw. rewrite Forall_forall in *. intros a Ha. split; [auto|]. intros k n Hh. apply Hu. exists (a_dims a). auto.
Qed.
Lemma Forall_wf ops : Forall (fun a => wfv (a_var a)) ops -> Forall wf (map a_dims ops).
Proof. intros Hw. rewrite Forall_forall in *. intros d Hd. apply in_map_iff in Hd as (a & <- & Ha). apply Hw. assumption. Qed.

Lemma call_shape {A} (f : list A -> A) d o ops k :
  call f (map (opcell d k) (o :: ops)) = map Ld (map (opcell d k) ops) ++ [St (opcell d k o) f].
Proof. reflexivity. Qed.
Lemma call_in_place_shape {A} (f : list A -> A) d o ops k :
  call_in_place f (map (opcell d k) (o :: ops)) = map Ld (map (opcell d k) (o :: ops)) ++ [St (opcell d k o) f].
Proof. reflexivity. Qed.

Lemma fresh_strides d b : wf d -> v_strides (var_fresh d) = map (fstride (mkarr b (var_fresh d))) (labels d).
Proof. intros Hd. exact (wfv_strides (mkarr b (var_fresh d)) (fresh_wfv d Hd)). Qed.

Lemma transform_ok {A} (f : list A -> A) ins out blocks o ps :
  Forall (fun a => wfv (a_var a)) ins -> (forall d, wf d -> tiles 0 (volume d) (blocks d)) ->
  transform f ins out blocks = Ok (o, ps) ->
  o = mkarr out (var_fresh (a_dims o)) /\ wf (a_dims o) /\ union_of (map a_dims ins) (a_dims o) /\
  ps = map (fun ks => flat_map (fun k => call f (map (opcell (a_dims o) k) (o :: ins))) ks) (ks_of (blocks (a_dims o))).
Proof.
  intros Hw Hb Ht. destruct ins as [|a ins]; [discriminate|]. cbn [transform] in Ht.
  destruct (merge_all (a_dims a) (map a_dims ins)) as [d| |] eqn:Em; cbn [bind] in Ht; try discriminate.
  pose proof (Forall_wf _ Hw) as Hwd. cbn [map] in Hwd. inversion Hwd as [|? ? Hwa Hwi]; subst.
  destruct (merge_all_ok _ _ _ Hwa Hwi Em) as (Hd & Hu & _).
  assert (Hfits : Forall (fits d) (a :: ins)).
  { apply (Forall_fits (a_dims a :: map a_dims ins)); [exact Hu| |assumption].
    intros x Hx. change (a_dims a :: map a_dims ins) with (map a_dims (a :: ins)). apply in_map. assumption. }
  rewrite redims_ok in Ht by assumption. cbn [bind] in Ht. cbn [a_var] in Ht.
  rewrite (fresh_strides d out Hd) in Ht.
  change (map (fstride (mkarr out (var_fresh d))) (labels d) :: map (fun a => map (fstride a) (labels d)) (a :: ins))
    with (map (fun a => map (fstride a) (labels d)) (mkarr out (var_fresh d) :: a :: ins)) in Ht.
  destruct (mi_make _ _) as [m| |] eqn:Emi; cbn [bind] in Ht; try discriminate.
  rewrite (block_programs_ok _ d) in Ht; try assumption.
  - cbn [bind] in Ht. injection Ht as <- <-. cbn [a_dims a_var var_fresh v_dims].
    split; [reflexivity|]. split; [assumption|]. split; [exact Hu|reflexivity].
  - constructor; [apply fresh_fits; assumption|assumption].
  - intros Hv. apply one_cell_safe; try assumption; [apply fresh_fits|apply fresh_one]; assumption.
  - apply Hb. assumption.
Qed.

Theorem transform_correct {A} (f : list A -> A) ins out blocks o ps (h h' : heap A) :
  Forall (fun a => wfv (a_var a)) ins -> (forall a, In a ins -> a_buf a <> out) ->
  (forall d, wf d -> tiles 0 (volume d) (blocks d)) ->
  transform f ins out blocks = Ok (o, ps) -> may_end h ps h' ->
  o = mkarr out (var_fresh (a_dims o)) /\ wf (a_dims o) /\ union_of (map a_dims ins) (a_dims o) /\
  (forall ix, inside (a_dims o) ix -> value_at h' o ix = f (map (fun a => value_at h a ix) ins)) /\
  (forall c, ~ cell_of o c -> h' c = h c).
Proof.
  intros Hw Hfresh Hb Ht Hend. destruct (transform_ok f ins out blocks o ps Hw Hb Ht) as (Ho & Hd & Hu & ->).
  set (d := a_dims o) in *. destruct (tiles_concat _ _ _ (Hb d Hd)) as [_ Hc]. rewrite Z.sub_0_r in Hc.
  assert (Hfits : Forall (fits d) ins).
  { apply (Forall_fits (map a_dims ins)); [exact Hu| |assumption]. intros x Hx. apply in_map. assumption. }
  destruct (elementwise f d o ins (ks_of (blocks d)) h h') as [Hv Hun]; try assumption.
  - rewrite Ho. apply fresh_fits. assumption.
  - rewrite Ho. apply fresh_one. assumption.
  - intros j k a _ _ Ha E. exfalso. apply (Hfresh a Ha). unfold opcell in E. injection E as E _. rewrite Ho in E.
    cbn [a_buf] in E. congruence.
  - split; [assumption|]. split; [assumption|]. split; [assumption|]. split; [assumption|].
    intros c Hc'. apply Hun. intros ix Hix Ec. apply Hc'. exists ix. auto.
Qed.

Theorem transform_total {A} (f : list A -> A) ins out blocks (h : heap A) :
  ins <> [] -> Forall (fun a => wfv (a_var a)) ins -> (forall d, wf d -> tiles 0 (volume d) (blocks d)) ->
  (compatible (map a_dims ins) ->
   (forall d, union_of (map a_dims ins) d -> wf d -> (length (labels d) <= NDIM_OP_MAX)%nat) ->
   exists o ps h', transform f ins out blocks = Ok (o, ps) /\ may_end h ps h') /\
  (~ compatible (map a_dims ins) -> transform f ins out blocks = Throw DimensionError).
Proof.
  intros Hne Hw Hb. destruct ins as [|a ins]; [contradiction|].
  pose proof (Forall_wf _ Hw) as Hwd. cbn [map] in *. inversion Hwd as [|? ? Hwa Hwi]; subst.
  split; [|intros Hc; cbn [transform]; rewrite merge_all_incompatible by assumption; reflexivity].
  intros Hc Hlen. destruct (merge_all_compatible _ _ Hwa Hwi Hc) as [d Em].
  destruct (merge_all_ok _ _ _ Hwa Hwi Em) as (Hd & Hu & _).
  assert (Hfits : Forall (fits d) (a :: ins)).
  { apply (Forall_fits (a_dims a :: map a_dims ins)); [exact Hu| |assumption].
    intros x Hx. change (a_dims a :: map a_dims ins) with (map a_dims (a :: ins)). apply in_map. assumption. }
  assert (Hex : exists o ps, transform f (a :: ins) out blocks = Ok (o, ps)).
  { cbn [transform]. rewrite Em. cbn [bind]. rewrite redims_ok by assumption. cbn [bind a_var].
    rewrite (fresh_strides d out Hd).
    change (map (fstride (mkarr out (var_fresh d))) (labels d) :: map (fun a => map (fstride a) (labels d)) (a :: ins))
      with (map (fun a => map (fstride a) (labels d)) (mkarr out (var_fresh d) :: a :: ins)).
    destruct (mi_make_total (shape d) (map (fun a => map (fstride a) (labels d)) (mkarr out (var_fresh d) :: a :: ins))) as [m Emi].
    { specialize (Hlen d Hu Hd). destruct Hd as (_ & Hl & _). unfold shape. unfold labels in Hlen. lia. }
    rewrite Emi. cbn [bind]. rewrite (block_programs_ok _ d); try assumption; [cbn [bind]; eauto| | |].
    - constructor; [apply fresh_fits; assumption|assumption].
    - intros Hv. apply one_cell_safe; try assumption; [apply fresh_fits|apply fresh_one]; assumption.
    - apply Hb. assumption. }
  destruct Hex as (o & ps & E). exists o, ps. destruct (can_finish h ps) as [sched Hs].
  eexists. split; [exact E|]. exists sched. split; [exact Hs|reflexivity].
Qed.

(** ** transform_in_place *)
Lemma memory_bounds_sum sh : forall st b e, length st = length sh -> Forall (fun s => 0 <= s) st ->
  memory_bounds_loop sh st b e = (b, e + sumZ (map (fun p => fst p * snd p) (combine sh st))).
Proof.
  induction sh as [|n sh IH]; intros [|s st] b e Hl Hn; try discriminate; cbn [memory_bounds_loop combine map sumZ fold_right];
    [f_equal; lia|]. apply Forall_cons_iff in Hn as [Hs Hn]. replace (s <? 0) with false by lia.
  rewrite IH by (auto || (cbn in Hl; lia)). f_equal. cbn [fst snd]. unfold sumZ. lia.
Qed.
Lemma sum_zero_strides sh : forall st, length st = length sh -> Forall (fun n => 0 < n) sh -> Forall (fun s => 0 <= s) st ->
  sumZ (map (fun p => fst p * snd p) (combine sh st)) <= 0 -> Forall (fun s => s = 0) st.
Proof.
  assert (Hge : forall sh st, Forall (fun n => 0 < n) sh -> Forall (fun s => 0 <= s) st -> 0 <= sumZ (map (fun p => fst p * snd p) (combine sh st))).
  { induction sh0 as [|n sh0 IH]; intros [|s st] Hp Hn; cbn; try lia. apply Forall_cons_iff in Hn as [? Hn], Hp as [? Hp].
    specialize (IH st Hp Hn). unfold sumZ in IH. nia. }
  induction sh as [|n sh IH]; intros [|s st] Hl Hp Hn Hz; try discriminate; [constructor|].
  apply Forall_cons_iff in Hn as [? Hn], Hp as [? Hp]. cbn [combine map sumZ fold_right fst snd] in Hz.
  pose proof (Hge sh st Hp Hn) as Hg. unfold sumZ in *. constructor; [nia|]. apply IH; auto. nia.
Qed.

Lemma dot_zeros st : forall is_, Forall (fun s => s = 0) st -> dot st is_ = 0.
Proof.
  induction st as [|s st IH]; intros [|i is_] Hz; try reflexivity. apply Forall_cons_iff in Hz as [-> Hz]. cbn [dot].
  rewrite IH by assumption. lia.
Qed.
Lemma vaddr_zeros v ix : Forall (fun s => s = 0) (v_strides v) -> vaddr v ix = v_offset v.
Proof. intros Hz. unfold vaddr. rewrite dot_zeros by assumption. lia. Qed.

(** What it means if the overlap check finds nothing although both use the same buffer. *)
Lemma no_overlap_cases out b : wfv (a_var out) -> wfv (a_var b) -> a_buf out = a_buf b -> overlaps out b = false ->
  Forall (fun n => 0 < n) (shape (a_dims out)) -> Forall (fun n => 0 < n) (shape (a_dims b)) ->
  (forall ix, vaddr (a_var out) ix = vaddr (a_var b) ix) \/
  Forall (fun s => s = 0) (v_strides (a_var out)) \/
  (a_dims b <> mempty /\ Forall (fun s => s = 0) (v_strides (a_var b))).
Proof.
  intros (Hwo & Hlo & Hno) (Hwb & Hlb & Hnb) Hbuf Hov Hpo Hpb. unfold overlaps in Hov. rewrite Hbuf, Nat.eqb_refl in Hov.
  cbn [andb] in Hov. unfold params_overlap in Hov. unfold a_dims in *.
  destruct ((v_offset (a_var out) =? v_offset (a_var b)) && dims_eqb (v_dims (a_var out)) (v_dims (a_var b)) &&
            list_eqb (v_strides (a_var out)) (v_strides (a_var b))) eqn:Eq.
  - left. apply andb_true_iff in Eq as [Eq Est]. apply andb_true_iff in Eq as [Eo Ed]. apply list_eqb_spec in Est.
    apply Z.eqb_eq in Eo. unfold dims_eqb in Ed. apply andb_true_iff in Ed as [_ El]. apply list_eqb_spec in El.
    intros ix. unfold vaddr. rewrite Eo, El, Est. reflexivity.
  - right. clear Eq. unfold memory_bounds in Hov.
    assert (Hlen : forall v, wf (v_dims v) -> length (v_strides v) = length (labels (v_dims v)) -> length (v_strides v) = length (shape (v_dims v))).
    { intros v (_ & Hl & _) E. unfold shape. unfold labels in E. lia. }
    specialize (Hlen _ Hwo Hlo) as Hlo'. specialize (Hlen _ Hwb Hlb) as Hlb'.
    destruct (shape (v_dims (a_var out))) as [|no sho] eqn:Eso, (shape (v_dims (a_var b))) as [|nb shb] eqn:Esb; cbn [shape] in Hov.
    + cbn in Hov. discriminate.
    + rewrite <- Esb in *. rewrite memory_bounds_sum in Hov by assumption. right. split.
      * intros E. rewrite E in Esb. discriminate.
      * apply (sum_zero_strides (shape (v_dims (a_var b)))); try assumption. 
        destruct (Z.ltb_spec 0 (0 + sumZ (map (fun p => fst p * snd p) (combine (shape (v_dims (a_var b))) (v_strides (a_var b)))))) as [Hlt|Hge];
          [cbn in Hov; discriminate|lia].
    + rewrite <- Eso in *. rewrite memory_bounds_sum in Hov by assumption. left.
      apply (sum_zero_strides (shape (v_dims (a_var out)))); try assumption.
      cbn [andb] in Hov. replace (0 <? 1) with true in Hov by reflexivity. cbn [andb] in Hov. lia.
    + rewrite <- Eso, <- Esb in *. rewrite !memory_bounds_sum in Hov by assumption. apply andb_false_iff in Hov as [Hov|Hov].
      * right. split; [intros E; rewrite E in Esb; discriminate|].
        apply (sum_zero_strides (shape (v_dims (a_var b)))); try assumption. lia.
      * left. apply (sum_zero_strides (shape (v_dims (a_var out)))); try assumption. lia.
Qed.

Lemma fits_pos d a : wf d -> fits d a -> 0 < volume d -> Forall (fun n => 0 < n) (shape (a_dims a)).
Proof.
  intros Hd [Hw Hi] Hv. destruct Hw as (Hwa & _).
  assert (Hp : Forall (fun n => 0 < n) (shape d)) by (apply vol_pos_all; [apply Hd|rewrite <- volume_vol; assumption]).
  rewrite shape_extents in Hp |- * by assumption. rewrite Forall_forall in *. intros n Hn. unfold extents in *.
  apply in_map_iff in Hn as ([k n'] & <- & Hin). apply Hp. apply in_map_iff. exists (k, n'). split; [reflexivity|].
  apply Hi. assumption.
Qed.

Lemma no_overlap_ok d out b : wf d -> d = a_dims out -> fits d out -> fits d b -> one_cell_each d out ->
  overlaps out b = false -> ~ hidden_alias out b ->
  forall j k, 0 <= j < volume d -> 0 <= k < volume d -> opcell d j out = opcell d k b -> opcell d j out = opcell d k out.
Proof.
  intros Hd Ed Ho Hb Hone Hov Hal j k Hj Hk E. unfold opcell in E. injection E as Ebuf Eaddr.
  destruct (no_overlap_cases out b (proj1 Ho) (proj1 Hb) Ebuf Hov) as [Heq|[Hz|[Hne Hz]]].
  - apply (fits_pos d); [assumption|assumption|lia].
  - apply (fits_pos d); [assumption|assumption|lia].
  - unfold opcell. rewrite Eaddr, Heq. reflexivity.
  - unfold opcell. rewrite !vaddr_zeros by assumption. reflexivity.
  - rewrite (vaddr_zeros (a_var b)) in Eaddr by assumption.
    destruct (Z_lt_dec 1 (volume d)) as [Hv|Hv].
    + exfalso. apply Hal. unfold hidden_alias. rewrite <- Ed. repeat (split; [assumption|]).
      exists (index_of d j). rewrite <- Ed. split; [apply inside_index_of; assumption|]. congruence.
    + replace j with k by lia. reflexivity.
Qed.

Lemma clone_value {A} (h : heap A) tmp b ix : wfv (a_var b) -> inside (a_dims b) ix ->
  value_at (clone_to h tmp b) (mkarr tmp (var_fresh (a_dims b))) ix = value_at h b ix.
Proof.
  intros Hw Hin. pose proof Hw as (Hwd & _). fold (a_dims b) in Hwd. unfold value_at at 1. cbn [a_buf a_var].
  rewrite fresh_vaddr by assumption. unfold clone_to. cbn [fst snd]. rewrite Nat.eqb_refl. cbn [andb].
  assert (Hp : 0 <= position (shape (a_dims b)) (map ix (labels (a_dims b))) < volume (a_dims b)).
  { rewrite volume_vol. apply position_bound. rewrite labels_keys, shape_extents by assumption. apply valid_at_idx. assumption. }
  replace (0 <=? _) with true by lia. replace (_ <? volume (a_dims b)) with true by lia. cbn [andb].
  unfold copied. fold (a_dims b).
  change (value_at h b (index_of (a_dims b) (position (shape (a_dims b)) (map ix (labels (a_dims b))))) = value_at h b ix).
  apply (value_same (a_dims b)); [assumption|split; [assumption|auto]|].
  pose proof (proj1 (wf_lwf _) Hwd) as [L Hl]. pose proof (index_of_position _ _ L Hin) as Hs.
  rewrite (mk_pairs _ Hl) in Hs. rewrite labels_keys, shape_extents by assumption. exact Hs.
Qed.
Lemma clone_other {A} (h : heap A) tmp b c : fst c <> tmp -> clone_to h tmp b c = h c.
Proof. intros Hn. unfold clone_to. apply Nat.eqb_neq in Hn. rewrite Hn. reflexivity. Qed.

Lemma in_place_programs_ok {A} (f : list A -> A) d out others m bs ps :
  wf d -> Forall (fits d) (out :: others) ->
  mi_make (shape d) (map (fun a => map (fstride a) (labels d)) (out :: others)) = Ok m ->
  (0 < volume d -> flattening_safe (shape d) (map (fun a => map (fstride a) (labels d)) (out :: others))) ->
  tiles 0 (volume d) bs ->
  in_place_programs f (out :: others) m (volume d) bs = Ok ps ->
  exists kss, concat kss = zseq 0 (Z.to_nat (volume d)) /\
    ps = map (fun ks => flat_map (fun k => call_in_place f (map (opcell d k) (out :: others))) ks) kss.
Proof.
  intros Hd Hf Hm Hs Hb. unfold in_place_programs. destruct (mi_has_stride_zero m).
  - rewrite (serial_ok (call_in_place f) d) by assumption. intros E. injection E as <-.
    exists [zseq 0 (Z.to_nat (volume d))]. split; [cbn; apply app_nil_r|reflexivity].
  - rewrite (block_programs_ok _ d) by assumption. intros E. injection E as <-. exists (ks_of bs).
    destruct (tiles_concat _ _ _ Hb) as [_ Hc]. rewrite Z.sub_0_r in Hc. split; [assumption|reflexivity].
Qed.

Lemma in_place_programs_total {A} (f : list A -> A) d out others m bs :
  wf d -> Forall (fits d) (out :: others) ->
  mi_make (shape d) (map (fun a => map (fstride a) (labels d)) (out :: others)) = Ok m ->
  (0 < volume d -> flattening_safe (shape d) (map (fun a => map (fstride a) (labels d)) (out :: others))) ->
  tiles 0 (volume d) bs ->
  exists ps, in_place_programs f (out :: others) m (volume d) bs = Ok ps.
Proof.
  intros Hd Hf Hm Hs Hb. unfold in_place_programs. destruct (mi_has_stride_zero m).
  - rewrite (serial_ok (call_in_place f) d) by assumption. eauto.
  - rewrite (block_programs_ok _ d) by assumption. eauto.
Qed.

Lemma includes_all_inv out others :
  Forall (fun a => wfv (a_var a)) (out :: others) ->
  (exists u, mapM (fun o => do ok <- includes (a_dims out) (a_dims o); if negb ok then Throw DimensionError else Ok tt) others = Ok u /\
     (forall o, In o others -> forall k n, has (a_dims o) k n -> has (a_dims out) k n)) \/
  (mapM (fun o => do ok <- includes (a_dims out) (a_dims o); if negb ok then Throw DimensionError else Ok tt) others = Throw DimensionError /\
     ~ (forall o, In o others -> forall k n, has (a_dims o) k n -> has (a_dims out) k n)).
Proof.
  intros Hw. apply Forall_cons_iff in Hw as [Hwo Hw]. induction Hw as [|b others Hb _ IH]; cbn [mapM].
  - left. exists []. split; [reflexivity|]. intros o [].
  - destruct (includes_ok (a_dims out) (a_dims b) (wf_wfm _ (proj1 Hwo)) (wf_wfm _ (proj1 Hb))) as (r & -> & Hr). cbn [bind].
    destruct r; cbn [negb bind].
    + destruct IH as [(u & -> & Hin)|[-> Hn]]; cbn [bind].
      * left. eexists. split; [reflexivity|]. intros o [<-|Ho]; [exact (proj1 Hr eq_refl)|exact (Hin o Ho)].
      * right. split; [reflexivity|]. intros Hall. apply Hn. intros o Ho. apply Hall. right. assumption.
    + right. split; [reflexivity|]. intros Hall. assert (false = true) by (apply Hr, Hall; left; reflexivity). discriminate.
Qed.

Theorem in_place_correct {A} (f : list A -> A) h out others tmp blocks h1 ps (h' : heap A) :
  Forall (fun a => wfv (a_var a)) (out :: others) -> distinct_elements out ->
  (forall a, In a (out :: others) -> a_buf a <> tmp) ->
  (forall d, wf d -> tiles 0 (volume d) (blocks d)) ->
  (forall b, In b others -> ~ hidden_alias out b) ->
  transform_in_place f h out others tmp blocks = Ok (h1, ps) -> may_end h1 ps h' ->
  (forall ix, inside (a_dims out) ix -> value_at h' out ix = f (value_at h out ix :: map (fun a => value_at h a ix) others)) /\
  (forall c, ~ cell_of out c -> fst c <> tmp -> h' c = h c).
Proof.
  intros Hw Hdist Htmp Hb Hal Ht Hend. unfold transform_in_place in Ht.
  destruct (includes_all_inv out others Hw) as [(u & Eu & Hinc)|[Eu _]]; rewrite Eu in Ht; cbn [bind] in Ht; [|discriminate].
  apply Forall_cons_iff in Hw as [Hwo Hwb]. pose proof (proj1 Hwo) as Hd. fold (a_dims out) in Hd.
  unfold transform_data in Ht. destruct (expect_writable (a_var out)) as [tt_| |]; cbn [bind] in Ht; try discriminate.
  set (d := a_dims out) in *.
  assert (Hfo : fits d out) by (split; [assumption|auto]).
  assert (Hfb : Forall (fits d) others).
  { rewrite Forall_forall in *. intros b Hin. split; [auto|]. apply Hinc. assumption. }
  assert (Hone : one_cell_each d out) by exact Hdist.
  assert (Hgo : forall others' g, Forall (fits d) others' ->
    (forall b, In b others' -> forall j k, 0 <= j < volume d -> 0 <= k < volume d -> opcell d j out = opcell d k b -> opcell d j out = opcell d k out) ->
    (do dims <- merge_all d (map a_dims others');
     do sts <- mapM (redim dims) (out :: others');
     do m <- mi_make (shape dims) sts;
     do ps <- in_place_programs f (out :: others') m (volume dims) (blocks dims);
     Ok (g, ps)) = Ok (h1, ps) ->
    h1 = g /\ (forall ix, inside d ix -> value_at h' out ix = f (map (fun a => value_at g a ix) (out :: others'))) /\
    (forall c, ~ cell_of out c -> h' c = g c)).
  { intros others' g Hfo' Hnc E. rewrite merge_all_included in E.
    2: assumption.
    2:{ rewrite Forall_forall in *. intros x Hx. apply in_map_iff in Hx as (a & <- & Ha). apply (proj1 (proj1 (Hfo' a Ha))). }
    2:{ intros e He. apply in_map_iff in He as (a & <- & Ha). rewrite Forall_forall in Hfo'. apply Hfo'. assumption. }
    cbn [bind] in E. assert (Hall : Forall (fits d) (out :: others')) by (constructor; assumption).
    rewrite redims_ok in E by assumption. cbn [bind] in E.
    destruct (mi_make _ _) as [m| |] eqn:Emi; cbn [bind] in E; try discriminate.
    destruct (in_place_programs f _ _ _ _) as [ps'| |] eqn:Eps; cbn [bind] in E; try discriminate.
    injection E as Eg Eps'. subst g ps'. split; [reflexivity|].
    destruct (in_place_programs_ok f d out others' m (blocks d) ps Hd Hall Emi) as (kss & Hk & ->); try assumption.
    { intros Hv. apply one_cell_safe; assumption. }
    { apply Hb. assumption. }
    destruct (elementwise f d out (out :: others') kss h1 h') as [Hv Hu]; try assumption.
    - intros j k a Hj Hk' [<-|Ha] Ej; [assumption|]. apply (Hnc a); assumption.
    - split; [assumption|]. intros c Hc. apply Hu. intros ix Hix Ec. apply Hc. exists ix. auto. }
  unfold handle_overlap in Ht. destruct (existsb (overlaps out) others) eqn:Eov.
  - destruct others as [|b [|? ?]]; cbn [bind] in Ht; try discriminate.
    apply Forall_cons_iff in Hfb as [Hfb _]. apply Forall_cons_iff in Hwb as [Hwb _].
    pose proof (proj1 Hwb) as Hwbd. fold (a_dims b) in Hwbd.
    assert (Hfc : fits d (mkarr tmp (var_fresh (a_dims b)))).
    { split; [apply fresh_wfv; assumption|]. exact (proj2 Hfb). }
    destruct (Hgo [mkarr tmp (var_fresh (a_dims b))] (clone_to h tmp b)) as (-> & Hv & Hu).
    + constructor; [assumption|constructor].
    + intros x [<-|[]] j k _ _ E. exfalso. unfold opcell in E. injection E as E _. cbn [a_buf] in E.
      apply (Htmp out); [left; reflexivity|assumption].
    + exact Ht.
    + split.
      * intros ix Hix. rewrite Hv by assumption. cbn [map]. f_equal. f_equal.
        -- unfold value_at. apply clone_other. cbn [fst]. apply Htmp. left. reflexivity.
        -- rewrite clone_value; [reflexivity|assumption|]. intros k n Hkn. apply Hix. apply (proj2 Hfb). assumption.
      * intros c Hc Hct. rewrite Hu by assumption. apply clone_other. assumption.
  - cbn [bind] in Ht. destruct (Hgo others h) as (-> & Hv & Hu); try assumption.
    + intros b Hin j k Hj Hk E. apply (no_overlap_ok d out b); try assumption; try reflexivity.
      * rewrite Forall_forall in Hfb. auto.
      * destruct (overlaps out b) eqn:Eb; [|reflexivity]. rewrite <- Eov. symmetry. apply existsb_exists. exists b. auto.
      * apply Hal. assumption.
    + split; [exact Hv|]. intros c Hc _. apply Hu. assumption.
Qed.

Theorem in_place_total {A} (f : list A -> A) (h : heap A) out others tmp blocks :
  Forall (fun a => wfv (a_var a)) (out :: others) -> distinct_elements out -> v_readonly (a_var out) = false ->
  (length (labels (a_dims out)) <= NDIM_OP_MAX)%nat ->
  (forall d, wf d -> tiles 0 (volume d) (blocks d)) ->
  (length others <= 1 \/ forall b, In b others -> a_buf b <> a_buf out)%nat ->
  (forall b, In b others -> forall k n, has (a_dims b) k n -> has (a_dims out) k n) ->
  exists h1 ps h', transform_in_place f h out others tmp blocks = Ok (h1, ps) /\ may_end h1 ps h'.
Proof.
  intros Hw Hdist Hro Hlen Hb Hov Hinc. unfold transform_in_place.
  destruct (includes_all_inv out others Hw) as [(u & Eu & _)|[_ Hn]]; [|contradiction]. rewrite Eu. cbn [bind].
  apply Forall_cons_iff in Hw as [Hwo Hwb]. pose proof (proj1 Hwo) as Hd. fold (a_dims out) in Hd.
  unfold transform_data, expect_writable. rewrite Hro. cbn [bind].
  set (d := a_dims out) in *.
  assert (Hfo : fits d out) by (split; [assumption|auto]).
  assert (Hfb : Forall (fits d) others).
  { rewrite Forall_forall in *. intros b Hin. split; [auto|]. apply Hinc. assumption. }
  assert (Hone : one_cell_each d out) by exact Hdist.
  assert (Hgo : forall others' g, Forall (fits d) others' -> exists ps,
    (do dims <- merge_all d (map a_dims others');
     do sts <- mapM (redim dims) (out :: others');
     do m <- mi_make (shape dims) sts;
     do ps <- in_place_programs f (out :: others') m (volume dims) (blocks dims);
     Ok (g : heap A, ps)) = Ok (g, ps)).
  { intros others' g Hfo'. rewrite merge_all_included.
    2: assumption.
    2:{ rewrite Forall_forall in *. intros x Hx. apply in_map_iff in Hx as (a & <- & Ha). apply (proj1 (proj1 (Hfo' a Ha))). }
    2:{ intros e He. apply in_map_iff in He as (a & <- & Ha). rewrite Forall_forall in Hfo'. apply Hfo'. assumption. }
    cbn [bind]. assert (Hall : Forall (fits d) (out :: others')) by (constructor; assumption).
    rewrite redims_ok by assumption. cbn [bind].
    destruct (mi_make_total (shape d) (map (fun a => map (fstride a) (labels d)) (out :: others'))) as [m Emi].
    { destruct Hd as (_ & Hl & _). unfold shape. unfold labels in Hlen. lia. }
    rewrite Emi. cbn [bind].
    destruct (in_place_programs_total f d out others' m (blocks d) Hd Hall Emi) as [ps Eps].
    { intros Hv. apply one_cell_safe; assumption. }
    { apply Hb. assumption. }
    rewrite Eps. cbn [bind]. eauto. }
  assert (Hfin : forall g ps, exists h' : heap A, may_end g ps h').
  { intros g ps. destruct (can_finish g ps) as [sched Hs]. eexists. exists sched. split; [exact Hs|reflexivity]. }
  unfold handle_overlap. destruct (existsb (overlaps out) others) eqn:Eov.
  - apply existsb_exists in Eov as (b & Hbin & Eb). destruct Hov as [Hl|Hne].
    + destruct others as [|b' [|? ?]]; cbn in Hl; try lia; [destruct Hbin|]. cbn [bind].
      apply Forall_cons_iff in Hfb as [Hfb _]. apply Forall_cons_iff in Hwb as [Hwb _].
      pose proof (proj1 Hwb) as Hwbd. fold (a_dims b') in Hwbd.
      destruct (Hgo [mkarr tmp (var_fresh (a_dims b'))] (clone_to h tmp b')) as [ps Eps].
      { constructor; [|constructor]. split; [apply fresh_wfv; assumption|]. exact (proj2 Hfb). }
      destruct (Hfin (clone_to h tmp b') ps) as [h' Hh']. exists (clone_to h tmp b'), ps, h'. split; [exact Eps|assumption].
    + exfalso. unfold overlaps in Eb. apply andb_true_iff in Eb as [Eb _]. apply Nat.eqb_eq in Eb.
      apply (Hne b Hbin). congruence.
  - cbn [bind]. destruct (Hgo others h Hfb) as [ps Eps]. destruct (Hfin h ps) as [h' Hh'].
    exists h, ps, h'. split; [exact Eps|assumption].
Qed.

Lemma in_place_reject {A} (f : list A -> A) (h : heap A) out others tmp blocks :
  Forall (fun a => wfv (a_var a)) (out :: others) ->
  (~ (forall b, In b others -> forall k n, has (a_dims b) k n -> has (a_dims out) k n) ->
   transform_in_place f h out others tmp blocks = Throw DimensionError) /\
  ((forall b, In b others -> forall k n, has (a_dims b) k n -> has (a_dims out) k n) -> v_readonly (a_var out) = true ->
   transform_in_place f h out others tmp blocks = Throw ReadonlyError).
Proof.
  intros Hw. unfold transform_in_place. destruct (includes_all_inv out others Hw) as [(u & Eu & Hi)|[Eu Hn]]; rewrite Eu; cbn [bind].
  - split; [contradiction|]. intros _ Hro. unfold transform_data, expect_writable. rewrite Hro. reflexivity.
  - split; [reflexivity|contradiction].
Qed.
