(** Cumulative sums (C37). *)
From Flocq Require Import IEEE754.BinarySingleNaN.
From Verif Require Transform_Proofs.
From Verif Require Import Base Float Arr Mapper_Model Mapper_Proofs Index_Proofs Cumsum_Model.

(** ** the loop, for any order and any assignment of sums *)
Section Scan.
Context {S E : Type}.
Variable plus : S -> E -> S.
Variable op : S -> E -> S * E.
Hypothesis op_plus : forall s x, fst (op s x) = plus s x.
Variable ds : S.
Variable d : E.
(** positions with sum [a] *)
Definition users (a : Z) (l : list (Z * Z)) : list Z := map snd (filter (fun x => fst x =? a) l).
Lemma scan_ok order : forall acc out, NoDup (map snd order) -> (forall a p, In (a, p) order -> 0 <= a < zlen acc /\ 0 <= p < zlen out) ->
  exists acc' out', scan op order acc out = Ok (acc', out') /\ zlen out' = zlen out /\ (forall p, ~ In p (map snd order) -> znth d out' p = znth d out p) /\
    forall before a p after, order = before ++ (a, p) :: after -> znth d out' p = snd (op (fold_left plus (map (znth d out) (users a before)) (znth ds acc a)) (znth d out p)).
Proof.
  induction order as [|[a0 p0] order IH]; intros acc out Hn Hr.
  - exists acc, out. split; [reflexivity|]. split; [reflexivity|]. split; [reflexivity|]. intros before a p after Ho. destruct before; discriminate.
  - cbn [map] in Hn. apply NoDup_cons_iff in Hn as [Hp0 Hn]. destruct (Hr a0 p0 (or_introl eq_refl)) as [Ha Hp]. cbn [scan fst snd]. rewrite (vget_znth ds), (vget_znth d) by lia. cbn [bind]. rewrite !vset_zupd by lia. cbn [bind].
    set (s := znth ds acc a0). set (x := znth d out p0). destruct (IH (zupd acc a0 (fst (op s x))) (zupd out p0 (snd (op s x))) Hn) as (acc' & out' & E1 & L' & U' & V').
    { intros a p Hap. rewrite !zlen_zupd. apply Hr. right. exact Hap. }
    exists acc', out'. split; [exact E1|]. split; [rewrite L', zlen_zupd; reflexivity|]. split.
    + intros p Hnot. cbn [map] in Hnot. rewrite U' by (intros Hi; apply Hnot; right; exact Hi). rewrite znth_zupd by lia. destruct (Z.eqb_spec p p0) as [->|]; [destruct Hnot; left; reflexivity|reflexivity].
    + intros [|[b q] before] a p after Ho.
      * injection Ho as <- <- <-. rewrite U' by exact Hp0. rewrite znth_zupd by lia. rewrite Z.eqb_refl. reflexivity.
      * injection Ho as <- <- Ho. rewrite (V' before a p after Ho). assert (Hpp : p <> p0). { intros ->. apply Hp0. rewrite Ho, map_app. apply in_or_app. right. left. reflexivity. }
        assert (Hmap : map (znth d (zupd out p0 (snd (op s x)))) (users a before) = map (znth d out) (users a before)).
        { apply map_ext_in. intros q Hq. rewrite znth_zupd by lia. destruct (Z.eqb_spec q p0) as [->|]; [|reflexivity]. destruct Hp0. rewrite Ho, map_app. apply in_or_app. left. unfold users in Hq. apply in_map_iff in Hq as (y & Ey & Hy). rewrite <- Ey. apply filter_In in Hy as [Hy _]. exact (in_map snd before y Hy). }
        rewrite Hmap. rewrite (znth_zupd d out p0 _ p) by lia. destruct (Z.eqb_spec p p0); [contradiction|]. rewrite znth_zupd by lia. unfold users. cbn [filter fst]. rewrite (Z.eqb_sym a0 a). destruct (Z.eqb_spec a a0) as [->|]; [|reflexivity].
        cbn [map fold_left snd]. fold s. fold x. rewrite op_plus. reflexivity.
Qed.
End Scan.

(** ** specification: the elements of a row, and prefix sums *)
(** element [i] of the dimension, at position [o] of the outer and [r] of the inner dimensions *)
Definition at_pos (n inner o i r : Z) : Z := (o * n + i) * inner + r.
Definition prefix_sum {S E} (plus : S -> E -> S) (zero : S) (x : Z -> E) (i : Z) : S := fold_left plus (map x (zseq 0 (Z.to_nat i))) zero.
Lemma prefix_sum_S {S E} (plus : S -> E -> S) zero x i : 0 <= i -> prefix_sum plus zero x (i + 1) = plus (prefix_sum plus zero x i) (x i).
Proof. intros Hi. unfold prefix_sum. replace (Z.to_nat (i + 1)) with (Z.to_nat i + 1)%nat by lia. rewrite zseq_app, (zseq_S _ 0), map_app, fold_left_app. change (zseq (0 + Z.of_nat (Z.to_nat i) + 1) 0) with (@nil Z). cbn [map fold_left]. do 2 f_equal. lia. Qed.
(** the element written by both kinds of scans *)
Lemma scan_op_plus {S E} (plus minus : S -> E -> S) conv inclusive s x : fst (scan_op plus minus conv inclusive s x) = plus s x.
Proof. destruct inclusive; reflexivity. Qed.
Definition scan_result {S E} (plus minus : S -> E -> S) (conv : S -> E) (inclusive : bool) (sum : S) (x : E) : E :=
  if inclusive then conv (plus sum x) else conv (minus (plus sum x) x).

Lemma div_at a n m o i r : a = at_pos n m o i r -> 0 < n -> 0 < m -> 0 <= i < n -> 0 <= r < m -> a / (n * m) = o /\ a mod m = r.
Proof.
  intros -> Hn Hm Hi Hr. unfold at_pos. split.
  - symmetry. apply (Z.div_unique _ _ _ (i * m + r)); [left; nia|ring].
  - symmetry. apply (Z.mod_unique _ _ (o * n + i)); [left; lia|ring].
Qed.
Definition dim_key (n m k : Z) : Z := k / (n * m) * m + k mod m.
Lemma dim_key_eq n m k o r : 0 < n -> 0 < m -> 0 <= r < m -> dim_key n m k = o * m + r -> k / (n * m) = o /\ k mod m = r.
Proof.
  intros Hn Hm Hr E. unfold dim_key in E. pose proof (Z.mod_pos_bound k m Hm). apply (Z.div_mod_unique m); [left; lia|left; lia|lia].
Qed.
Lemma filter_none {A} (f : A -> bool) l : (forall x, In x l -> f x = false) -> filter f l = [].
Proof. induction l as [|a l IH]; intros Hf; [reflexivity|]. cbn [filter]. rewrite (Hf a (or_introl eq_refl)). apply IH. intros x Hx. apply Hf. right. exact Hx. Qed.
Lemma zseq_app_end a n : zseq a (S n) = zseq a n ++ [a + Z.of_nat n].
Proof. replace (S n) with (n + 1)%nat by lia. rewrite zseq_app, (zseq_S _ 0). reflexivity. Qed.
Lemma before_in_row n m o r : 0 < n -> 0 < m -> 0 <= o -> 0 <= r < m -> forall i : nat, Z.of_nat i < n ->
  filter (fun k => dim_key n m k =? o * m + r) (zseq 0 (Z.to_nat (at_pos n m o (Z.of_nat i) r))) = map (fun j => at_pos n m o j r) (zseq 0 i).
Proof.
  intros Hn Hm Ho Hr. induction i as [|i IH]; intros Hi.
  - cbn [zseq seq map]. apply filter_none. intros k Hk. apply In_zseq in Hk. destruct (Z.eqb_spec (dim_key n m k) (o * m + r)) as [E|]; [|reflexivity]. apply dim_key_eq in E as [E1 E2]; try assumption. exfalso. unfold at_pos in Hk. change (Z.of_nat 0) with 0 in Hk.
    pose proof (Z.div_mod k (n * m) ltac:(nia)) as Ek. rewrite E1 in Ek. pose proof (Z.mod_pos_bound k (n * m) ltac:(nia)) as Bk. set (k' := k mod (n * m)) in *. assert (k' < r) by nia.
    assert (k mod m = k') as Em. { symmetry. apply (Z.mod_unique _ _ (o * n)); [left; lia|rewrite Ek; ring]. } lia.
  - rewrite zseq_app_end. replace (Z.to_nat (at_pos n m o (Z.of_nat (S i)) r)) with (Z.to_nat (at_pos n m o (Z.of_nat i) r) + Z.to_nat m)%nat by (unfold at_pos; assert (0 <= o * n) by nia; rewrite <- Z2Nat.inj_add by nia; f_equal; rewrite Nat2Z.inj_succ; ring).
    rewrite zseq_app, filter_app, IH by lia. rewrite map_app. f_equal. replace (0 + Z.of_nat (Z.to_nat (at_pos n m o (Z.of_nat i) r))) with (at_pos n m o (Z.of_nat i) r) by (assert (0 <= o * n) by nia; assert (0 <= at_pos n m o (Z.of_nat i) r) by (unfold at_pos; nia); lia).
    replace (Z.to_nat m) with (S (Z.to_nat (m - 1))) by lia. rewrite zseq_S. cbn [filter]. destruct (div_at _ n m o (Z.of_nat i) r eq_refl) as [D1 D2]; try lia. unfold dim_key at 1. rewrite D1, D2, Z.eqb_refl. cbn [map]. rewrite Z.add_0_l. f_equal. apply filter_none. intros k Hk. apply In_zseq in Hk.
    destruct (Z.eqb_spec (dim_key n m k) (o * m + r)) as [E|]; [|reflexivity]. apply dim_key_eq in E as [E1 E2]; try assumption. exfalso. pose proof (Z.div_mod k m ltac:(lia)) as Ek. rewrite E2 in Ek. unfold at_pos in Hk. set (q := k / m) in *. set (A := o * n + Z.of_nat i) in *. assert (Hlow : A * m < q * m) by lia. assert (Hup : q * m < (A + 1) * m) by lia. apply Z.mul_lt_mono_pos_r in Hlow, Hup; lia.
Qed.

Lemma users_map (f : Z -> Z) a l : users a (map (fun k => (f k, k)) l) = filter (fun k => f k =? a) l.
Proof. unfold users. induction l as [|k l IH]; [reflexivity|]. cbn [map filter fst]. destruct (f k =? a); cbn [map snd]; rewrite IH; reflexivity. Qed.
Lemma map_snd_pair (f : Z -> Z) l : map snd (map (fun k => (f k, k)) l) = l.
Proof. rewrite map_map. apply map_id. Qed.
Lemma filter_all {A} (l : list A) : filter (fun _ => true) l = l.
Proof. induction l as [|a l IH]; [reflexivity|]. cbn [filter]. rewrite IH. reflexivity. Qed.
Lemma filter_all' {A} (f : A -> bool) l : (forall x, In x l -> f x = true) -> filter f l = l.
Proof. induction l as [|a l IH]; intros Hf; [reflexivity|]. cbn [filter]. rewrite (Hf a (or_introl eq_refl)), IH by (intros x Hx; apply Hf; right; exact Hx). reflexivity. Qed.
Lemma zseq_split n k : 0 <= k < n -> zseq 0 (Z.to_nat n) = zseq 0 (Z.to_nat k) ++ k :: zseq (k + 1) (Z.to_nat (n - k - 1)).
Proof.
  intros Hk. replace (Z.to_nat n) with (Z.to_nat k + S (Z.to_nat (n - k - 1)))%nat by lia. rewrite zseq_app, zseq_S. replace (0 + Z.of_nat (Z.to_nat k)) with k by lia. reflexivity.
Qed.

(** Along a dimension: every element is combined with the sum of the elements before it in its row. *)
Theorem C37_cumsum_dim {S E} (plus minus : S -> E -> S) conv zero d inclusive outer n inner (var : list E) : 0 <= outer -> 0 <= n -> 0 <= inner -> zlen var = outer * n * inner ->
  exists out, cumsum_dim plus minus conv zero inclusive outer n inner var = Ok out /\ zlen out = zlen var /\
    forall o i r, 0 <= o < outer -> 0 <= i < n -> 0 <= r < inner ->
      let x j := znth d var (at_pos n inner o j r) in
      znth d out (at_pos n inner o i r) = scan_result plus minus conv inclusive (prefix_sum plus zero x i) (x i).
Proof.
  intros Ho Hn Hm Hl. unfold cumsum_dim. destruct (Z.eqb_spec n 0) as [->|Hn0]; [exists var; split; [reflexivity|]; split; [reflexivity|]; intros; lia|].
  set (order := dim_order outer n inner).
  destruct (scan_ok plus (scan_op plus minus conv inclusive) (scan_op_plus plus minus conv inclusive) zero d order (repeat zero (Z.to_nat (outer * inner))) var) as (acc' & out & E1 & L1 & _ & V1).
  - unfold order, dim_order. rewrite (map_snd_pair (fun k => k / (n * inner) * inner + k mod inner)). apply Transform_Proofs.zseq_NoDup.
  - intros a p Hap. unfold order, dim_order in Hap. apply in_map_iff in Hap as (k & Ek & Hk). injection Ek as <- <-. apply In_zseq in Hk. rewrite zlen_repeat. split; [|lia].
    assert (0 < inner) by nia. assert (0 < outer) by nia. pose proof (Z.mod_pos_bound k inner ltac:(lia)). assert (0 <= k / (n * inner)) by (apply Z.div_pos; nia). assert (k / (n * inner) < outer) by (apply Z.div_lt_upper_bound; nia). nia.
  - exists out. rewrite E1. split; [reflexivity|]. split; [exact L1|]. cbv zeta. intros o i r Hor Hi Hr. set (x := fun j => znth d var (at_pos n inner o j r)). change (znth d var (at_pos n inner o i r)) with (x i). set (k := at_pos n inner o i r).
    assert (Hk : 0 <= k < outer * n * inner). { unfold k, at_pos. assert (0 <= o * n + i < outer * n) by nia. nia. }
    pose proof (zseq_split (outer * n * inner) k Hk) as Hs. rewrite (V1 (map (fun k => (dim_key n inner k, k)) (zseq 0 (Z.to_nat k))) (o * inner + r) k (map (fun k => (dim_key n inner k, k)) (zseq (k + 1) (Z.to_nat (outer * n * inner - k - 1))))).
    + rewrite users_map. unfold k. pose proof (before_in_row n inner o r ltac:(lia) ltac:(lia) ltac:(lia) Hr (Z.to_nat i) ltac:(lia)) as Hb. rewrite Z2Nat.id in Hb by lia. rewrite Hb. rewrite map_map. rewrite znth_repeat by nia. unfold scan_result, prefix_sum, scan_op. fold x. destruct inclusive; reflexivity.
    + unfold order, dim_order. rewrite Hs, map_app. cbn [map]. f_equal. f_equal. f_equal. destruct (div_at k n inner o i r eq_refl) as [-> ->]; lia.
Qed.
Print Assumptions C37_cumsum_dim.

(** All elements in memory order. *)
Theorem C37_cumsum {S E} (plus minus : S -> E -> S) conv zero d inclusive (var : list E) :
  exists out, cumsum plus minus conv zero inclusive var = Ok out /\ zlen out = zlen var /\
    forall i, 0 <= i < zlen var -> znth d out i = scan_result plus minus conv inclusive (prefix_sum plus zero (znth d var) i) (znth d var i).
Proof.
  unfold cumsum. set (order := map (fun k => (0, k)) (zseq 0 (length var))).
  destruct (scan_ok plus (scan_op plus minus conv inclusive) (scan_op_plus plus minus conv inclusive) zero d order [zero] var) as (acc' & out & E1 & L1 & _ & V1).
  - unfold order. rewrite (map_snd_pair (fun _ => 0)). apply Transform_Proofs.zseq_NoDup.
  - intros a p Hap. unfold order in Hap. apply in_map_iff in Hap as (k & Ek & Hk). injection Ek as <- <-. apply In_zseq in Hk. unfold zlen. cbn. lia.
  - exists out. rewrite E1. split; [reflexivity|]. split; [exact L1|]. intros i Hi. pose proof (zseq_split (zlen var) i Hi) as Hs. replace (Z.to_nat (zlen var)) with (length var) in Hs by (unfold zlen; lia).
    rewrite (V1 (map (fun k => (0, k)) (zseq 0 (Z.to_nat i))) 0 i (map (fun k => (0, k)) (zseq (i + 1) (Z.to_nat (zlen var - i - 1))))).
    + rewrite (users_map (fun _ => 0)). change (fun _ : Z => 0 =? 0) with (fun _ : Z => true). rewrite filter_all. change (znth zero [zero] 0) with zero. unfold scan_result, prefix_sum, scan_op. destruct inclusive; reflexivity.
    + unfold order. rewrite Hs, map_app. reflexivity.
Qed.
Print Assumptions C37_cumsum.

(** Inside of every bin, for bins that do not overlap; elements outside of bins are unchanged. *)
Definition apart (indices : list (Z * Z)) : Prop := forall i j k, 0 <= i < zlen indices -> 0 <= j < zlen indices ->
  fst (znth (0, 0) indices i) <= k < snd (znth (0, 0) indices i) -> fst (znth (0, 0) indices j) <= k < snd (znth (0, 0) indices j) -> i = j.
Definition bin_part (indices : list (Z * Z)) (i : Z) : list (Z * Z) :=
  map (fun p => (i, p)) (zseq (fst (znth (0, 0) indices i)) (Z.to_nat (snd (znth (0, 0) indices i) - fst (znth (0, 0) indices i)))).
Lemma bin_order_eq indices : bin_order indices = flat_map (bin_part indices) (zseq 0 (length indices)).
Proof.
  unfold bin_order. assert (Hg : forall l, (forall i, In i l -> 0 <= i) -> flat_map (fun i => map (fun p => (i, p)) (zseq (fst (nth (Z.to_nat i) indices (0, 0))) (Z.to_nat (snd (nth (Z.to_nat i) indices (0, 0)) - fst (nth (Z.to_nat i) indices (0, 0)))))) l = flat_map (bin_part indices) l).
  { induction l as [|i l IH]; intros Hl; [reflexivity|]. cbn [flat_map]. rewrite IH by (intros j Hj; apply Hl; right; exact Hj). f_equal. unfold bin_part, znth. pose proof (Hl i (or_introl eq_refl)). destruct (Z.ltb_spec i 0); [lia|reflexivity]. }
  apply Hg. intros i Hi. apply In_zseq in Hi. lia.
Qed.
Lemma In_bin_part indices i a p : In (a, p) (bin_part indices i) <-> a = i /\ fst (znth (0, 0) indices i) <= p < snd (znth (0, 0) indices i).
Proof.
  unfold bin_part. rewrite in_map_iff. split.
  - intros (q & Eq & Hq). injection Eq as <- <-. apply In_zseq in Hq. split; [reflexivity|lia].
  - intros [-> Hp]. exists p. split; [reflexivity|]. apply In_zseq. lia.
Qed.
Lemma users_app a l m : users a (l ++ m) = users a l ++ users a m.
Proof. unfold users. rewrite filter_app, map_app. reflexivity. Qed.
Lemma users_none a l : (forall x, In x l -> fst x <> a) -> users a l = [].
Proof. intros Hl. unfold users. rewrite filter_none; [reflexivity|]. intros x Hx. apply Z.eqb_neq. apply Hl. exact Hx. Qed.
Theorem C37_cumsum_bins {S E} (plus minus : S -> E -> S) conv zero d inclusive indices (buffer : list E) :
  (forall i, 0 <= i < zlen indices -> 0 <= fst (znth (0, 0) indices i) /\ snd (znth (0, 0) indices i) <= zlen buffer) -> apart indices ->
  exists out, cumsum_bins plus minus conv zero inclusive indices buffer = Ok out /\ zlen out = zlen buffer /\
    (forall i k, 0 <= i < zlen indices -> let b := fst (znth (0, 0) indices i) in let x j := znth d buffer (b + j) in 0 <= k < snd (znth (0, 0) indices i) - b ->
      znth d out (b + k) = scan_result plus minus conv inclusive (prefix_sum plus zero x k) (x k)) /\
    (forall p, (forall i, 0 <= i < zlen indices -> ~ fst (znth (0, 0) indices i) <= p < snd (znth (0, 0) indices i)) -> znth d out p = znth d buffer p).
Proof.
  intros Hr Hap. unfold cumsum_bins. rewrite bin_order_eq. set (order := flat_map (bin_part indices) (zseq 0 (length indices))).
  assert (Hin : forall a p, In (a, p) order -> 0 <= a < zlen indices /\ fst (znth (0, 0) indices a) <= p < snd (znth (0, 0) indices a)).
  { intros a p Hp. apply in_flat_map in Hp as (i & Hi & Hp). apply In_bin_part in Hp as [-> Hp]. apply In_zseq in Hi. unfold zlen. split; [lia|exact Hp]. }
  destruct (scan_ok plus (scan_op plus minus conv inclusive) (scan_op_plus plus minus conv inclusive) zero d order (repeat zero (length indices)) buffer) as (acc' & out & E1 & L1 & U1 & V1).
  - unfold order. assert (Hb : forall i, In i (zseq 0 (length indices)) -> 0 <= i < zlen indices) by (intros i Hi; apply In_zseq in Hi; unfold zlen; lia). clearbody order. clear order Hin. pose proof (Transform_Proofs.zseq_NoDup 0 (length indices)) as Hnd. revert Hb Hnd. generalize (zseq 0 (length indices)).
    induction l as [|i l IH]; intros Hb Hnd; [constructor|]. cbn [flat_map]. rewrite map_app. apply NoDup_cons_iff in Hnd as [Hi Hnd]. apply Transform_Proofs.NoDup_app_intro.
    + unfold bin_part. rewrite (map_map (fun p => (i, p)) snd). cbn [snd]. rewrite map_id. apply Transform_Proofs.zseq_NoDup.
    + apply IH; [intros j Hj; apply Hb; right; exact Hj|exact Hnd].
    + intros p Hp1 Hp2. apply in_map_iff in Hp1 as ([a p1] & <- & Hp1). apply In_bin_part in Hp1 as [-> Hp1]. cbn [snd] in Hp2. apply in_map_iff in Hp2 as ([a2 p2] & Ep & Hp2). cbn [snd] in Ep. rewrite Ep in Hp2. apply in_flat_map in Hp2 as (j & Hj & Hp2). apply In_bin_part in Hp2 as [_ Hp2].
      apply Hi. rewrite (Hap i j p1); [exact Hj|apply Hb; left; reflexivity|apply Hb; right; exact Hj|exact Hp1|exact Hp2].
  - intros a p Hp. apply Hin in Hp as [Ha Hp]. rewrite zlen_repeat. pose proof (Hr a Ha). unfold zlen in *. lia.
  - exists out. rewrite E1. split; [reflexivity|]. split; [exact L1|]. split.
    + cbv zeta. intros i k Hi Hk. set (b := fst (znth (0, 0) indices i)) in *. set (x := fun j => znth d buffer (b + j)). change (znth d buffer (b + k)) with (x k). pose proof (zseq_split (zlen indices) i Hi) as Hs. replace (Z.to_nat (zlen indices)) with (length indices) in Hs by (unfold zlen; lia).
      set (e := snd (znth (0, 0) indices i)) in *.
      assert (Hp : bin_part indices i = map (fun p => (i, p)) (zseq b (Z.to_nat k)) ++ (i, b + k) :: map (fun p => (i, p)) (zseq (b + k + 1) (Z.to_nat (e - b - k - 1)))).
      { unfold bin_part. fold b e. replace (Z.to_nat (e - b)) with (Z.to_nat k + Datatypes.S (Z.to_nat (e - b - k - 1)))%nat by lia. rewrite zseq_app, zseq_S, map_app. cbn [map]. replace (b + Z.of_nat (Z.to_nat k)) with (b + k) by lia. reflexivity. }
      rewrite (V1 (flat_map (bin_part indices) (zseq 0 (Z.to_nat i)) ++ map (fun p => (i, p)) (zseq b (Z.to_nat k))) i (b + k) (map (fun p => (i, p)) (zseq (b + k + 1) (Z.to_nat (e - b - k - 1))) ++ flat_map (bin_part indices) (zseq (i + 1) (Z.to_nat (zlen indices - i - 1))))).
      * rewrite users_app. rewrite (users_none i (flat_map _ _)). 2:{ intros [a p] Hx. apply in_flat_map in Hx as (j & Hj & Hx). apply In_bin_part in Hx as [-> _]. apply In_zseq in Hj. cbn [fst]. lia. }
        cbn [app]. assert (Hu : users i (map (fun p => (i, p)) (zseq b (Z.to_nat k))) = zseq b (Z.to_nat k)). { unfold users. rewrite filter_all' by (intros y Hy; apply in_map_iff in Hy as (p & <- & _); apply Z.eqb_refl). rewrite map_map. apply map_id. }
        rewrite Hu. rewrite znth_repeat by (unfold zlen in Hi; lia). assert (Hm : map (znth d buffer) (zseq b (Z.to_nat k)) = map x (zseq 0 (Z.to_nat k))). { unfold x, zseq. rewrite !map_map. apply map_ext. intros j. f_equal. }
        rewrite Hm. unfold scan_result, prefix_sum, scan_op. destruct inclusive; reflexivity.
      * unfold order. rewrite Hs, flat_map_app. cbn [flat_map]. rewrite Hp. rewrite <- !app_assoc. reflexivity.
    + intros p Hp. apply U1. intros Hx. apply in_map_iff in Hx as ([a q] & Eq & Hx). cbn [snd] in Eq. rewrite Eq in Hx. apply Hin in Hx as [Ha Hx]. exact (Hp a Ha Hx).
Qed.
Print Assumptions C37_cumsum_bins.

(** ** integers *)
Definition cumsum_Z := cumsum Z.add Z.sub (fun x => x) 0.
Definition cumsum_dim_Z := cumsum_dim Z.add Z.sub (fun x => x) 0.
Lemma prefix_sum_Z x i : prefix_sum Z.add 0 x i = sumZ (map x (zseq 0 (Z.to_nat i))).
Proof.
  unfold prefix_sum. assert (Hg : forall l s, fold_left Z.add l s = s + sumZ l); [|apply Hg]. induction l as [|a l IH]; intros s; [cbn; lia|]. cbn [fold_left]. rewrite IH, sumZ_cons. lia.
Qed.
(** Inclusive: elements up to and including, exclusive: elements before. *)
Theorem C37_integers outer n inner var : 0 <= outer -> 0 <= n -> 0 <= inner -> zlen var = outer * n * inner ->
  exists incl excl, cumsum_dim_Z true outer n inner var = Ok incl /\ cumsum_dim_Z false outer n inner var = Ok excl /\
    forall o i r, 0 <= o < outer -> 0 <= i < n -> 0 <= r < inner ->
      let x j := znth 0 var (at_pos n inner o j r) in
      znth 0 incl (at_pos n inner o i r) = sumZ (map x (zseq 0 (Z.to_nat (i + 1)))) /\ znth 0 excl (at_pos n inner o i r) = sumZ (map x (zseq 0 (Z.to_nat i))).
Proof.
  intros Ho Hn Hm Hl. destruct (C37_cumsum_dim Z.add Z.sub (fun x => x) 0 0 true outer n inner var Ho Hn Hm Hl) as (incl & E1 & _ & V1). destruct (C37_cumsum_dim Z.add Z.sub (fun x => x) 0 0 false outer n inner var Ho Hn Hm Hl) as (excl & E2 & _ & V2).
  exists incl, excl. split; [exact E1|]. split; [exact E2|]. intros o i r Hor Hi Hr x. split.
  - rewrite V1 by assumption. unfold scan_result. rewrite <- prefix_sum_Z, prefix_sum_S by lia. reflexivity.
  - rewrite V2 by assumption. unfold scan_result. rewrite <- prefix_sum_Z. fold x. lia.
Qed.
Print Assumptions C37_integers.
(** Differences of consecutive results restore the input. *)
Theorem C37_differences outer n inner var out : 0 <= outer -> 0 <= n -> 0 <= inner -> zlen var = outer * n * inner -> cumsum_dim_Z true outer n inner var = Ok out ->
  forall o i r, 0 <= o < outer -> 0 <= i < n -> 0 <= r < inner ->
    znth 0 var (at_pos n inner o i r) = znth 0 out (at_pos n inner o i r) - (if i =? 0 then 0 else znth 0 out (at_pos n inner o (i - 1) r)).
Proof.
  intros Ho Hn Hm Hl E. destruct (C37_integers outer n inner var Ho Hn Hm Hl) as (incl & excl & E1 & _ & V). rewrite E1 in E. injection E as <-. intros o i r Hor Hi Hr.
  destruct (V o i r Hor Hi Hr) as [Vi _]. rewrite Vi. destruct (Z.eqb_spec i 0) as [->|].
  - change (zseq 0 (Z.to_nat (0 + 1))) with [0]. cbn [map]. rewrite sumZ_cons. change (sumZ []) with 0. lia.
  - destruct (V o (i - 1) r Hor ltac:(lia) Hr) as [Vj _]. rewrite Vj. replace (i - 1 + 1) with i by lia. replace (Z.to_nat (i + 1)) with (Z.to_nat i + 1)%nat by lia. rewrite zseq_app, map_app, sumZ_app, (zseq_S _ 0). change (zseq (0 + Z.of_nat (Z.to_nat i) + 1) 0) with (@nil Z). cbn [map]. rewrite sumZ_cons. change (sumZ []) with 0. replace (0 + Z.of_nat (Z.to_nat i)) with i by lia. lia.
Qed.
Print Assumptions C37_differences.

(** Sizes to offsets: [end = cumsum(sizes)], [begin = end - sizes] and [cumsum(sizes, exclusive)] describe consecutive bins
    without gaps. *)
Theorem C37_packing sizes : (forall s, In s sizes -> 0 <= s) ->
  exists end_ begin, cumsum_Z true sizes = Ok end_ /\ cumsum_Z false sizes = Ok begin /\ zlen end_ = zlen sizes /\ zlen begin = zlen sizes /\
    (forall i, 0 <= i < zlen sizes -> znth 0 end_ i - znth 0 begin i = znth 0 sizes i) /\
    flat_map (fun i => zseq (znth 0 begin i) (Z.to_nat (znth 0 end_ i - znth 0 begin i))) (zseq 0 (length sizes)) = zseq 0 (Z.to_nat (sumZ sizes)).
Proof.
  intros Hs. destruct (C37_cumsum Z.add Z.sub (fun x => x) 0 0 true sizes) as (end_ & E1 & L1 & V1). destruct (C37_cumsum Z.add Z.sub (fun x => x) 0 0 false sizes) as (begin & E2 & L2 & V2). exists end_, begin.
  split; [exact E1|]. split; [exact E2|]. split; [exact L1|]. split; [exact L2|].
  assert (Hb : forall i, 0 <= i < zlen sizes -> znth 0 begin i = sumZ (firstn (Z.to_nat i) sizes)).
  { intros i Hi. rewrite V2 by exact Hi. unfold scan_result. rewrite prefix_sum_Z. rewrite Z.add_simpl_r. f_equal. apply (znth_ext 0).
    - rewrite zlen_map, zlen_zseq, zlen_firstn by lia. lia.
    - intros j Hj. rewrite zlen_map, zlen_zseq in Hj. rewrite (znth_map _ 0) by (rewrite zlen_zseq; lia). rewrite znth_zseq by lia. rewrite znth_firstn by lia. reflexivity. }
  assert (He : forall i, 0 <= i < zlen sizes -> znth 0 end_ i - znth 0 begin i = znth 0 sizes i). { intros i Hi. rewrite V1, V2 by exact Hi. unfold scan_result. lia. }
  split; [exact He|]. clear E1 E2 V1 V2 L1 L2.
  assert (Hg : forall n, (n <= length sizes)%nat -> flat_map (fun i => zseq (znth 0 begin i) (Z.to_nat (znth 0 end_ i - znth 0 begin i))) (zseq 0 n) = zseq 0 (Z.to_nat (sumZ (firstn n sizes)))).
  { induction n as [|n IH]; intros Hn; [reflexivity|]. rewrite zseq_app_end, flat_map_app, IH by lia. cbn [flat_map]. rewrite app_nil_r. rewrite Z.add_0_l. rewrite He, Hb by (unfold zlen; lia). rewrite Nat2Z.id.
    assert (Ef : firstn (S n) sizes = firstn n sizes ++ [znth 0 sizes (Z.of_nat n)]).
    { apply (znth_ext 0). - rewrite zlen_app. unfold zlen. rewrite !firstn_length. cbn [length]. lia. - intros j Hj. assert (Hj' : 0 <= j < Z.of_nat n + 1) by (unfold zlen in Hj; rewrite firstn_length in Hj; lia). replace (S n) with (Z.to_nat (Z.of_nat n + 1)) by lia. rewrite znth_firstn by lia. rewrite znth_app. assert (El : zlen (firstn n sizes) = Z.of_nat n) by (unfold zlen; rewrite firstn_length; lia). rewrite El. destruct (Z.ltb_spec j (Z.of_nat n)).
      + pose proof (znth_firstn 0 (Z.of_nat n) sizes j ltac:(lia)) as Ej. rewrite Nat2Z.id in Ej. symmetry. exact Ej.
      + replace j with (Z.of_nat n) by lia. rewrite Z.sub_diag. reflexivity. }
    rewrite Ef, sumZ_app, sumZ_cons. change (sumZ []) with 0. assert (0 <= sumZ (firstn n sizes)). { apply sumZ_nonneg. intros x Hx. apply Hs. rewrite <- (firstn_skipn n sizes). apply in_or_app. left. exact Hx. }
    assert (0 <= znth 0 sizes (Z.of_nat n)). { apply Hs. apply znth_In. unfold zlen. lia. } rewrite Z.add_0_r. rewrite Z2Nat.inj_add by lia. rewrite zseq_app. f_equal. f_equal. lia. }
  rewrite Hg by lia. rewrite firstn_all. reflexivity.
Qed.
Print Assumptions C37_packing.

(** ** cases *)
Example C37_case : cumsum_dim_Z true 2 3 1 [1; 2; 3; 10; 20; 30] = Ok [1; 3; 6; 10; 30; 60] /\ cumsum_dim_Z false 1 3 2 [1; 10; 2; 20; 3; 30] = Ok [0; 0; 1; 10; 3; 30] /\
  cumsum_bins Z.add Z.sub (fun x => x) 0 true [(3, 5); (0, 2); (2, 2)] [1; 2; 100; 3; 4] = Ok [1; 3; 100; 3; 7] /\ cumsum_Z false [2; 0; 3] = Ok [0; 2; 2].
Proof. repeat split; reflexivity. Qed.
Example C37_apart_case : apart [(3, 5); (0, 2); (2, 2)].
Proof.
  intros i j k Hi Hj Ha Hb. change (zlen [(3, 5); (0, 2); (2, 2)]) with 3 in *. assert (i = 0 \/ i = 1 \/ i = 2) as [-> | [-> | ->]] by lia; assert (j = 0 \/ j = 1 \/ j = 2) as [-> | [-> | ->]] by lia; cbv [znth Z.ltb Z.compare Z.to_nat Pos.to_nat Pos.iter_op nth Init.Nat.add fst snd] in Ha, Hb; lia.
Qed.

(** Exclusive sums of doubles are not the sums of the elements before: they are computed by subtracting the element from the
    sum including it. For an infinite first element the result is NaN instead of 0; a large element hides the sum before it. *)
Definition cumsum_f64 := cumsum fadd fsub (fun x => x) (f_of_Z 0).
Theorem C37_exclusive_float_refuted :
  (exists x, is_finite x = false /\ is_nan x = false /\ match cumsum_f64 false [x] with Ok [y] => is_nan y | _ => false end = true) /\
  (exists x y, match cumsum_f64 false [x; y] with Ok [_; s] => fltb s x | _ => false end = true).
Proof.
  split.
  - exists (B754_infinity false). split; [reflexivity|]. split; [reflexivity|]. vm_compute. reflexivity.
  - exists (f_of_Z 1), (f_of_Z (2 ^ 60)). vm_compute. reflexivity.
Qed.
Print Assumptions C37_exclusive_float_refuted.
