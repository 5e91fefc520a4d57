(** Proofs about the construction of the target bins. *)
From Coq Require Import Sorted Permutation.
From Verif Require Import Base Float Arr Numeric_Model Numeric_Props Lookup_Model Lookup_Proofs Linspace_Proofs Lookup_Props BinKernel_Model BinKernel_Proofs Mapper_Model Mapper_Proofs Mapper_Proofs2 Mapper_Proofs3 Mapper_Props TargetBins_Model.

(** ** sorted lists *)
Definition ascending (l : list Z) : Prop := forall i j, 0 <= i <= j -> j < zlen l -> znth 0 l i <= znth 0 l j.
Lemma sortedb_cons a b l : sortedb (a :: b :: l) = (a <=? b) && sortedb (b :: l). Proof. reflexivity. Qed.
Lemma sortedb_strong l : sortedb l = true -> StronglySorted Z.le l.
Proof.
  induction l as [|a l IH]; intros Hs; [constructor|]. destruct l as [|b l]; [repeat constructor|]. rewrite sortedb_cons in Hs. apply andb_prop in Hs. destruct Hs as [Hab Hs]. specialize (IH Hs). constructor; [exact IH|]. apply Z.leb_le in Hab.
  inversion IH as [|? ? ? Hf]; subst. constructor; [exact Hab|]. eapply Forall_impl; [|exact Hf]. intros; lia.
Qed.
Lemma strong_ascending l : StronglySorted Z.le l -> ascending l.
Proof.
  intros Hs i j Hij Hj. destruct (Z.eq_dec i j) as [->|]; [lia|]. apply (sorted_vget Z.le l Hs i j); [lia| |]; apply vget_znth; lia.
Qed.
Lemma ascending_strong l : ascending l -> StronglySorted Z.le l.
Proof.
  induction l as [|a l IH]; intros Ha; [constructor|]. constructor.
  - apply IH. intros i j Hij Hj. specialize (Ha (i + 1) (j + 1) ltac:(lia) ltac:(rewrite zlen_cons; lia)). rewrite !znth_S in Ha by lia. replace (i + 1 - 1) with i in Ha by lia. replace (j + 1 - 1) with j in Ha by lia. exact Ha.
  - apply Forall_forall. intros x Hx. apply (In_znth 0) in Hx. destruct Hx as (k & Hk & <-). specialize (Ha 0 (k + 1) ltac:(lia) ltac:(rewrite zlen_cons; lia)). rewrite znth_0, znth_S in Ha by lia. replace (k + 1 - 1) with k in Ha by lia. exact Ha.
Qed.

(** ** first and last output bin of an input bin *)
Lemma edge_loop_ok adv edges : forall fuel bin, 0 <= bin -> bin + 2 <= zlen edges -> zlen edges - bin - 1 <= Z.of_nat fuel ->
  exists r, edge_loop adv edges fuel bin = Ok r /\ bin <= r /\ r + 2 <= zlen edges /\ (r = bin \/ adv (znth 0 edges r) = true) /\ (r + 2 = zlen edges \/ adv (znth 0 edges (r + 1)) = false).
Proof.
  induction fuel as [|fuel IH]; intros bin Hb Hn Hf; [lia|]. cbn [edge_loop]. destruct (Z.ltb_spec (bin + 2) (zlen edges)).
  - rewrite (vget_znth 0) by lia. cbn [bind]. destruct (adv (znth 0 edges (bin + 1))) eqn:Ea.
    + destruct (IH (bin + 1)) as (r & E & R1 & R2 & R3 & R4); try lia. exists r. repeat split; try assumption; try lia. destruct R3 as [->|R3]; [right; exact Ea|right; exact R3].
    + exists bin. repeat split; try lia; try (left; lia); try (right; exact Ea).
  - exists bin. repeat split; try lia; left; lia.
Qed.
Definition last_below (adv : Z -> Z -> bool) (edges : list Z) (c r : Z) : Prop :=
  0 <= r /\ r + 2 <= zlen edges /\ (r = 0 \/ adv (znth 0 edges r) c = true) /\ (r + 2 = zlen edges \/ adv (znth 0 edges (r + 1)) c = false).
Lemma edge_scan_ok adv edges : (forall e c c', c <= c' -> adv e c = true -> adv e c' = true) -> 2 <= zlen edges -> forall coords bin, StronglySorted Z.le coords -> 0 <= bin -> bin + 2 <= zlen edges ->
  (bin = 0 \/ Forall (fun c => adv (znth 0 edges bin) c = true) coords) ->
  exists bs, edge_scan adv edges bin coords = Ok bs /\ zlen bs = zlen coords /\ StronglySorted Z.le (bin :: bs) /\ forall k, 0 <= k < zlen coords -> last_below adv edges (znth 0 coords k) (znth 0 bs k).
Proof.
  intros Hm Hn. induction coords as [|c cs IH]; intros bin Hs Hb Hl Hi.
  - exists []. split; [reflexivity|]. split; [reflexivity|]. split; [repeat constructor|]. intros k Hk. change (zlen (@nil Z)) with 0 in Hk. lia.
  - cbn [edge_scan]. destruct (edge_loop_ok (fun e => adv e c) edges (S (length edges)) bin) as (r & E & R1 & R2 & R3 & R4); try lia; [unfold zlen; lia|]. rewrite E. cbn [bind]. inversion Hs as [|? ? Hs' Hf]; subst.
    assert (Hr : r = 0 \/ adv (znth 0 edges r) c = true).
    { destruct R3 as [->|R3]; [|right; exact R3]. destruct Hi as [Hi|Hi]; [left; exact Hi|right]. apply Forall_inv in Hi. exact Hi. }
    destruct (IH r Hs' ltac:(lia) R2) as (bs & Es & Ls & Ss & Ps).
    { destruct Hr as [Hr|Hr]; [left; exact Hr|right]. eapply Forall_impl; [|exact Hf]. intros x Hx. apply (Hm _ c); [exact Hx|exact Hr]. }
    rewrite Es. cbn [bind]. exists (r :: bs). split; [reflexivity|]. split; [rewrite !zlen_cons, Ls; reflexivity|]. split.
    + constructor; [exact Ss|]. inversion Ss as [|? ? ? Hf']; subst. constructor; [lia|]. eapply Forall_impl; [|exact Hf']. intros; lia.
    + intros k Hk. rewrite zlen_cons in Hk. destruct (Z.eq_dec k 0) as [->|]; [rewrite !znth_0; repeat split; try assumption; lia|]. rewrite !znth_S by lia. apply Ps. lia.
Qed.

(** ** lookups *)
Lemma sub_edges_len edges b e : 0 <= b <= e -> e <= zlen edges -> zlen (sub_edges edges b e) = e - b.
Proof. intros Hb He. unfold sub_edges. apply zlen_firstn. rewrite zlen_skipn by lia. lia. Qed.
Lemma sub_edges_nth edges b e i : 0 <= b -> 0 <= i < e - b -> znth 0 (sub_edges edges b e) i = znth 0 edges (b + i).
Proof. intros Hb Hi. unfold sub_edges. rewrite znth_firstn by lia. apply znth_skipn; lia. Qed.
Lemma sub_edges_ascending edges b e : ascending edges -> 0 <= b <= e -> e <= zlen edges -> ascending (sub_edges edges b e).
Proof.
  intros Ha Hb He i j Hij Hj. rewrite sub_edges_len in Hj by lia. rewrite !sub_edges_nth by lia. apply Ha; lia.
Qed.
Lemma sub_edges_all edges : sub_edges edges 0 (zlen edges) = edges.
Proof. unfold sub_edges. rewrite Z.sub_0_r. cbn [Z.to_nat skipn]. unfold zlen. rewrite Nat2Z.id. apply firstn_all. Qed.
Definition bin_fits (bits : Z) (edges : list Z) : Prop :=
  islinspace_int edges = true -> zlen edges <= 2 ^ 40 /\ zlen edges < 2 ^ (bits - 1) /\ znth 0 edges (zlen edges - 1) - znth 0 edges 0 < 2 ^ 63.
Lemma lookup_bin_ok bits edges b e x : ascending edges -> bin_fits bits edges -> 0 <= b -> b + 2 <= e -> e <= zlen edges ->
  exists r, lookup_bin bits (islinspace_int edges) (sub_edges edges b e) x = Ok r /\ is_bin (int_inside x) (sub_edges edges b e) r.
Proof.
  intros Ha Hf Hb He Hn. pose proof (ascending_strong _ (sub_edges_ascending edges b e Ha ltac:(lia) Hn)) as Hs. destruct (C19_sorted_int _ x Hs) as (r & Er & Hr). exists r. split; [|exact Hr].
  unfold lookup_bin. destruct (islinspace_int edges) eqn:El; [|exact Er]. rewrite <- Er. destruct (Hf El) as (F1 & F2 & F3).
  destruct (islinspace_int_sorted _ El (ascending_strong _ Ha)) as (a & d & n & -> & Hd).
  assert (Hzl : zlen (progression a d (S (S n))) = Z.of_nat (S (S n))) by (unfold zlen; rewrite length_progression; reflexivity). rewrite Hzl in *.
  assert (Hz : forall i, 0 <= i < Z.of_nat (S (S n)) -> znth 0 (progression a d (S (S n))) i = a + d * i).
  { intros i Hi. pose proof (vget_progression a d (S (S n)) i Hi) as E1. rewrite (vget_znth 0) in E1 by (rewrite Hzl; exact Hi). congruence. }
  assert (Hsub : sub_edges (progression a d (S (S n))) b e = progression (a + d * b) d (S (Z.to_nat (e - b - 1)))).
  { apply (znth_ext 0).
    - rewrite sub_edges_len by lia. unfold zlen. rewrite length_progression. lia.
    - intros i Hi. rewrite sub_edges_len in Hi by lia. rewrite sub_edges_nth, Hz by lia. pose proof (vget_progression (a + d * b) d (S (Z.to_nat (e - b - 1))) i ltac:(lia)) as E1.
      rewrite (vget_znth 0) in E1 by (unfold zlen; rewrite length_progression; lia). injection E1 as ->. lia. }
  rewrite !Hz in F3 by lia. rewrite Hsub. apply get_bin_int_ok; [lia|exact Hd| |lia]. rewrite Z2Nat.id by lia. nia.
Qed.
Lemma is_bin_bound {E} (P : E -> E -> Prop) edges r : is_bin P edges r -> -1 <= r < zlen edges - 1 \/ (r = -1).
Proof.
  intros [L N]. destruct (Z.eq_dec r (-1)); [right; assumption|]. left. destruct (proj1 (N r ltac:(lia)) eq_refl) as (a & c & _ & Hc & _). unfold vget in Hc. destruct (Z.ltb_spec (r + 1) 0); [lia|]. destruct (nth_error edges (Z.to_nat (r + 1))) eqn:En; [|discriminate]. assert (nth_error edges (Z.to_nat (r + 1)) <> None) as Hne by congruence. apply nth_error_Some in Hne. unfold zlen. lia.
Qed.
Lemma is_bin_znth x edges r i : is_bin (int_inside x) edges r -> 0 <= i -> i + 1 < zlen edges -> (r = i <-> znth 0 edges i <= x < znth 0 edges (i + 1)).
Proof.
  intros [_ N] Hi Hn. rewrite (N i Hi). rewrite !(vget_znth 0) by lia. split.
  - intros (a & c & Ea & Ec & Hin). injection Ea as <-. injection Ec as <-. exact Hin.
  - intros Hin. eexists _, _. split; [reflexivity|]. split; [reflexivity|]. exact Hin.
Qed.
(** the bin in a part of the edges that contains the bin *)
Lemma is_bin_sub x edges b e r r' : 0 <= b -> b + 2 <= e -> e <= zlen edges -> is_bin (int_inside x) edges r -> is_bin (int_inside x) (sub_edges edges b e) r' ->
  (0 <= r -> b <= r < e - 1) -> r' = if r =? -1 then -1 else r - b.
Proof.
  intros Hb He Hn Hr Hr' Hin. pose proof (is_bin_bound _ _ _ Hr) as B. pose proof (is_bin_bound _ _ _ Hr') as B'. rewrite sub_edges_len in B' by lia.
  destruct (Z.eqb_spec r (-1)) as [->|Hne].
  - destruct (Z.eq_dec r' (-1)) as [|Hne']; [assumption|]. exfalso. pose proof (proj1 (is_bin_znth x _ r' r' Hr' ltac:(lia) ltac:(rewrite sub_edges_len; lia)) eq_refl) as Hx. rewrite !sub_edges_nth in Hx by lia.
    rewrite Z.add_assoc in Hx. apply (is_bin_znth x edges (-1) (b + r') Hr) in Hx; lia.
  - specialize (Hin ltac:(lia)). apply (is_bin_znth x (sub_edges edges b e) r' (r - b) Hr'); [lia|rewrite sub_edges_len; lia|]. rewrite !sub_edges_nth by lia. replace (b + (r - b)) with r by lia. replace (b + (r - b + 1)) with (r + 1) by lia. apply (is_bin_znth x edges r r Hr); lia.
Qed.

(** ** groups *)
Definition is_group (groups : list Z) (x i : Z) : Prop := (i = -1 /\ ~ In x groups) \/ (0 <= i < zlen groups /\ znth 0 groups i = x).
Lemma find_last_ok x groups : forall cur found, NoDup groups -> find_last x cur groups found =
  match find_last x cur groups None with Some i => Some i | None => found end /\
  match find_last x cur groups None with Some i => cur <= i < cur + zlen groups /\ znth 0 groups (i - cur) = x | None => ~ In x groups end.
Proof.
  induction groups as [|g gs IH]; intros cur found Hnd; [split; [reflexivity|intros []]|]. inversion Hnd as [|? ? Hg Hnd']; subst. cbn [find_last]. destruct (Z.eqb_spec g x) as [->|Hne].
  - pose proof (proj1 (IH (cur + 1) (Some cur) Hnd')) as E. pose proof (proj2 (IH (cur + 1) None Hnd')) as E2. rewrite E. destruct (find_last x (cur + 1) gs None) as [i|].
    + exfalso. apply Hg. destruct E2 as [E2 <-]. apply znth_In. lia.
    + split; [reflexivity|]. rewrite zlen_cons. pose proof (zlen_nonneg gs). split; [lia|]. rewrite Z.sub_diag. reflexivity.
  - destruct (IH (cur + 1) found Hnd') as [E E2]. split; [exact E|]. destruct (find_last x (cur + 1) gs None) as [i|].
    + rewrite zlen_cons. destruct E2 as [E2 <-]. split; [lia|]. rewrite znth_S by lia. f_equal. lia.
    + intros [E3|E3]; [exact (Hne E3)|exact (E2 E3)].
Qed.
Lemma distinct_NoDup groups : NoDup groups -> distinct groups = zlen groups.
Proof.
  induction groups as [|g gs IH]; intros Hnd; [reflexivity|]. inversion Hnd as [|? ? Hg Hnd']; subst. cbn [distinct]. rewrite zlen_cons, IH by exact Hnd'. destruct (existsb (Z.eqb g) gs) eqn:E; [|lia]. exfalso. apply existsb_exists in E. destruct E as (y & Hy & Ey). apply Z.eqb_eq in Ey. subst. exact (Hg Hy).
Qed.
Lemma distinct_le groups : distinct groups <= zlen groups /\ (distinct groups = zlen groups -> NoDup groups).
Proof.
  induction groups as [|g gs [IH1 IH2]]; [split; [cbn; lia|constructor]|]. cbn [distinct]. rewrite zlen_cons. destruct (existsb (Z.eqb g) gs) eqn:E; [split; lia|]. split; [lia|]. intros Hd. constructor; [|apply IH2; lia]. intros Hin. assert (existsb (Z.eqb g) gs = true) as Et by (apply existsb_exists; exists g; split; [exact Hin|apply Z.eqb_refl]). congruence.
Qed.
(** distinct labels in steps of 1 or -1 go in one direction *)
Lemma zigzag_NoDup s : Z.abs s = 1 -> forall l a b, NoDup (a :: b :: l) -> no_adjacent (fun x y => negb (Z.abs (y - x) =? 1)) (a :: b :: l) = true -> b = a + s -> a :: b :: l = progression a s (S (S (length l))).
Proof.
  intros Hs. induction l as [|c l IH]; intros a b Hnd Hn ->.
  - rewrite !progression_S. reflexivity.
  - change (negb (negb (Z.abs (a + s - a) =? 1)) && no_adjacent (fun x y => negb (Z.abs (y - x) =? 1)) (a + s :: c :: l) = true) in Hn. apply andb_prop in Hn. destruct Hn as [_ Hn]. inversion Hnd as [|? ? Ha Hnd']; subst.
    rewrite progression_S. f_equal. apply IH; [exact Hnd'|exact Hn|].
    change (negb (negb (Z.abs (c - (a + s)) =? 1)) && no_adjacent (fun x y => negb (Z.abs (y - x) =? 1)) (c :: l) = true) in Hn. apply andb_prop in Hn. destruct Hn as [Hc _]. rewrite negb_involutive in Hc. apply Z.eqb_eq in Hc.
    assert (c <> a) by (intros ->; apply Ha; right; left; reflexivity). lia.
Qed.
Lemma isarange_NoDup groups : NoDup groups -> contiguous_groups groups = true -> exists a, groups = progression a 1 (length groups).
Proof.
  intros Hnd Hc. unfold contiguous_groups in Hc. apply andb_prop in Hc. destruct Hc as [_ Hc]. destruct groups as [|a [|b l]]; [exists 0; reflexivity|exists a; cbn [length]; rewrite progression_S; reflexivity|].
  exists a. unfold isarange in Hc. destruct (Z.leb_spec (last (a :: b :: l) a) a) as [|Hl]; [discriminate|].
  pose proof Hc as Hc'. change (negb (negb (Z.abs (b - a) =? 1)) && no_adjacent (fun x y => negb (Z.abs (y - x) =? 1)) (b :: l) = true) in Hc'. apply andb_prop in Hc'. destruct Hc' as [Hab _]. rewrite negb_involutive in Hab. apply Z.eqb_eq in Hab.
  destruct (Z.eq_dec b (a + 1)) as [Eb|Eb]; [exact (zigzag_NoDup 1 eq_refl l a b Hnd Hc Eb)|]. exfalso.
  pose proof (zigzag_NoDup (-1) eq_refl l a b Hnd Hc ltac:(lia)) as Ep. rewrite Ep in Hl. rewrite last_progression in Hl. lia.
Qed.
Definition group_fits (groups : list Z) (x : Z) : Prop := contiguous_groups groups = true -> in_range 64 (x - znth 0 groups 0) = true.
Lemma lookup_group_ok groups x : NoDup groups -> group_fits groups x -> check_groups groups = Ok tt /\ exists i, lookup_group groups x = Ok i /\ is_group groups x i.
Proof.
  intros Hnd Hf. unfold check_groups, lookup_group, group_fits in *. destruct (contiguous_groups groups) eqn:Ec.
  - split; [reflexivity|]. destruct (isarange_NoDup groups Hnd Ec) as (a & Ep). assert (Hne : 0 < zlen groups). { unfold contiguous_groups in Ec. pose proof (zlen_nonneg groups). lia. }
    rewrite (vget_znth 0) by lia. cbn [bind]. unfold int_val. rewrite (Hf eq_refl). cbn [bind]. clear Hf. eexists. split; [reflexivity|].
    assert (Hz : forall i, 0 <= i < zlen groups -> znth 0 groups i = a + i).
    { intros i Hi. pose proof (vget_progression a 1 (length groups) i Hi) as E1. rewrite <- Ep in E1. rewrite (vget_znth 0) in E1 by exact Hi. injection E1 as E1. rewrite E1. apply f_equal. apply Z.mul_1_l. }
    rewrite Hz by lia. destruct (Z.ltb_spec (x - (a + 0)) 0); [|destruct (Z.leb_spec (zlen groups) (x - (a + 0)))]; cbn [orb].
    + left. split; [reflexivity|]. intros Hin. apply (In_znth 0) in Hin. destruct Hin as (i & Hi & E). rewrite Hz in E by exact Hi. lia.
    + left. split; [reflexivity|]. intros Hin. apply (In_znth 0) in Hin. destruct Hin as (i & Hi & E). rewrite Hz in E by exact Hi. lia.
    + right. split; [lia|]. rewrite Hz by lia. lia.
  - rewrite distinct_NoDup by exact Hnd. rewrite Z.eqb_refl. split; [reflexivity|]. eexists. split; [reflexivity|]. pose proof (proj2 (find_last_ok x groups 0 None Hnd)) as F. destruct (find_last x 0 groups None) as [i|].
    + right. rewrite Z.sub_0_r in F. split; [lia|apply F].
    + left. split; [reflexivity|exact F].
Qed.
