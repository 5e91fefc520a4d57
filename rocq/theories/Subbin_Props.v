(** Properties of packed sizes (C21). *)
From Verif Require Import Base Arr Subbin_Model.

(** The full, zero-padded list of sizes that a packed one stands for. *)
Definition full (s : subbin) (k : Z) : Z := znth 0 (ss s) (k - so s).
Definition in_window (s : subbin) (k : Z) : Prop := so s <= k < so s + zlen (ss s).

Lemma full_out s k : ~ in_window s k -> full s k = 0.
Proof. intros Hk. apply znth_out. unfold in_window in Hk. lia. Qed.

Lemma add_from_ok op xs : forall out c, 0 <= c -> c + zlen xs <= zlen out -> exists out', add_from op out c xs = Ok out' /\ zlen out' = zlen out /\
  forall k, znth 0 out' k = if (c <=? k) && (k <? c + zlen xs) then op (znth 0 out k) (znth 0 xs (k - c)) else znth 0 out k.
Proof.
  induction xs as [|x xs IH]; intros out c Hc Hl.
  - exists out. split; [reflexivity|]. split; [reflexivity|]. intros k. change (zlen (@nil Z)) with 0. replace ((c <=? k) && (k <? c + 0)) with false by lia. reflexivity.
  - rewrite zlen_cons in *. pose proof (zlen_nonneg xs). cbn [add_from]. rewrite (vget_znth 0) by lia. cbn [bind]. rewrite vset_zupd by lia. cbn [bind].
    destruct (IH (zupd out c (op (znth 0 out c) x)) (c + 1)) as (out' & E & L & N); [lia|rewrite zlen_zupd; lia|]. exists out'. rewrite zlen_zupd in L. split; [exact E|]. split; [exact L|].
    intros k. rewrite N. rewrite !znth_zupd by lia. destruct (Z.eqb_spec k c) as [->|Hk].
    + replace ((c + 1 <=? c) && (c <? c + 1 + zlen xs)) with false by lia. replace ((c <=? c) && (c <? c + (zlen xs + 1))) with true by lia. rewrite Z.sub_diag. reflexivity.
    + destruct ((c + 1 <=? k) && (k <? c + 1 + zlen xs)) eqn:Ek.
      * replace ((c <=? k) && (k <? c + (zlen xs + 1))) with true by lia. rewrite znth_S by lia. do 2 f_equal. lia.
      * replace ((c <=? k) && (k <? c + (zlen xs + 1))) with false by lia. reflexivity.
Qed.

Lemma binary_ok op a b : (forall x, op x 0 = x) -> 0 <= so a -> 0 <= so b -> exists c, sb_binary op a b = Ok c /\ forall k, full c k = op (full a k) (full b k).
Proof.
  intros Hop Ha Hb. unfold sb_binary. remember (Z.min (so a) (so b)) as lo eqn:Elo. remember (Z.max (so a + zlen (ss a)) (so b + zlen (ss b))) as hi eqn:Ehi. pose proof (zlen_nonneg (ss a)). pose proof (zlen_nonneg (ss b)).
  assert (Hlen : zlen (repeat 0 (Z.to_nat (hi - lo))) = hi - lo) by (rewrite zlen_repeat; lia).
  destruct (add_from_ok Z.add (ss a) (repeat 0 (Z.to_nat (hi - lo))) (so a - lo)) as (s1 & E1 & L1 & N1); [lia|lia|]. rewrite E1. cbn [bind].
  destruct (add_from_ok op (ss b) s1 (so b - lo)) as (s2 & E2 & L2 & N2); [lia|lia|]. rewrite E2. cbn [bind]. unfold sb_make. replace (lo <? 0) with false by lia.
  exists (mksub lo s2). split; [reflexivity|]. intros k. unfold full. cbn [so ss]. rewrite N2, N1, znth_repeat_d.
  assert (Ea : (if (so a - lo <=? k - lo) && (k - lo <? so a - lo + zlen (ss a)) then 0 + znth 0 (ss a) (k - lo - (so a - lo)) else 0) = znth 0 (ss a) (k - so a)).
  { destruct ((so a - lo <=? k - lo) && (k - lo <? so a - lo + zlen (ss a))) eqn:Ek; [rewrite Z.add_0_l; f_equal; lia|]. rewrite znth_out by lia. reflexivity. }
  rewrite Ea. destruct ((so b - lo <=? k - lo) && (k - lo <? so b - lo + zlen (ss b))) eqn:Ek; [do 2 f_equal; lia|].
  rewrite (znth_out 0 (ss b)) by lia. rewrite Hop. reflexivity.
Qed.

Theorem C21_plus a b : 0 <= so a -> 0 <= so b ->
  (exists c, sb_plus a b = Ok c /\ forall k, full c k = full a k + full b k) /\ (exists c, sb_minus a b = Ok c /\ forall k, full c k = full a k - full b k).
Proof. intros Ha Hb. split; apply binary_ok; try assumption; intros; lia. Qed.
Print Assumptions C21_plus.

Lemma zlen_vresize l n : 0 <= n -> zlen (vresize l n) = n.
Proof. intros Hn. unfold vresize. rewrite zlen_app, zlen_repeat. unfold zlen. rewrite firstn_length. lia. Qed.
Lemma znth_vresize l n k : k < n -> znth 0 (vresize l n) k = znth 0 l k.
Proof.
  intros Hk. unfold vresize. rewrite znth_app, znth_repeat_d. unfold zlen at 1. rewrite firstn_length. destruct (Z.ltb_spec k (Z.of_nat (Nat.min (Z.to_nat n) (length l)))).
  - apply znth_firstn. exact Hk.
  - symmetry. apply znth_out. unfold zlen. lia.
Qed.

Theorem C21_plus_equals a b : 0 <= so a -> 0 <= so b -> exists c, sb_plus_equals a b = Ok c /\ forall k, full c k = full a k + full b k.
Proof.
  intros Ha Hb. unfold sb_plus_equals. destruct (Z.ltb_spec (so b) (so a)) as [|Hab]; [apply C21_plus; assumption|].
  pose proof (zlen_nonneg (ss a)). pose proof (zlen_nonneg (ss b)). set (l := if so b - so a + zlen (ss b) >? zlen (ss a) then vresize (ss a) (so b - so a + zlen (ss b)) else ss a).
  assert (Hl : so b - so a + zlen (ss b) <= zlen l /\ forall k, znth 0 l k = znth 0 (ss a) k).
  { unfold l. destruct (so b - so a + zlen (ss b) >? zlen (ss a)) eqn:E; [|split; [lia|reflexivity]]. rewrite zlen_vresize by lia. split; [lia|].
    intros k. destruct (Z_lt_dec k (so b - so a + zlen (ss b))); [apply znth_vresize; assumption|]. rewrite !znth_out; [reflexivity|lia|rewrite zlen_vresize; lia]. }
  destruct Hl as [Hl Hn]. destruct (add_from_ok Z.add (ss b) l (so b - so a)) as (l' & E & _ & N); [lia|lia|]. rewrite E. cbn [bind]. eexists. split; [reflexivity|].
  intros k. unfold full. cbn [so ss]. rewrite N, Hn. destruct ((so b - so a <=? k - so a) && (k - so a <? so b - so a + zlen (ss b))) eqn:Ek; [do 2 f_equal; lia|].
  rewrite (znth_out 0 (ss b)) by lia. lia.
Qed.
Print Assumptions C21_plus_equals.
Example C21_plus_case : sb_plus_equals (mksub 2 [1; 2]) (mksub 5 [7]) = Ok (mksub 2 [1; 2; 0; 7]) /\ sb_plus_equals (mksub 5 [7]) (mksub 2 [1; 2]) = Ok (mksub 2 [1; 2; 0; 7]) /\
  sb_minus (mksub 1 [5; 5; 5]) (mksub 2 [1; 2]) = Ok (mksub 1 [5; 4; 3]).
Proof. repeat split. Qed.

(** Sum over any window that covers the packed sizes. *)
Lemma sum_window l : forall lo c n, lo <= c -> c + zlen l <= lo + Z.of_nat n -> sumZ (map (fun k => znth 0 l (k - c)) (zseq lo n)) = sumZ l.
Proof.
  induction l as [|x l IH]; intros lo c n H1 H2.
  - apply sumZ_map_0. intros. apply znth_out. unfold zlen; cbn [length]; lia.
  - rewrite zlen_cons in H2. pose proof (zlen_nonneg l). rewrite sumZ_cons. rewrite <- (IH lo (c + 1) n) by lia.
    rewrite (map_ext (fun k => znth 0 (x :: l) (k - c)) (fun k => (if k =? c then x else 0) + znth 0 l (k - (c + 1)))).
    2:{ intros k. destruct (Z.eqb_spec k c) as [->|Hk]; [rewrite Z.sub_diag, znth_0, (znth_out 0 l) by lia; lia|].
        destruct (Z_lt_dec c k); [rewrite znth_S by lia; cbn; f_equal; lia|]. rewrite !znth_out by (try rewrite zlen_cons; lia). reflexivity. }
    rewrite sumZ_map_add. f_equal. clear IH. assert (Hc : 0 <= c - lo < Z.of_nat n) by lia. clear H1 H2 H. revert lo c Hc.
    induction n as [|n IHn]; intros lo c Hc; [lia|]. unfold zseq in *. cbn [seq map]. rewrite sumZ_cons. rewrite <- seq_shift, !map_map.
    destruct (Z.eqb_spec (lo + Z.of_nat 0) c) as [He|He].
    + rewrite sumZ_map_0; [lia|]. intros k _. destruct (Z.eqb_spec (lo + Z.of_nat (S k)) c); lia.
    + specialize (IHn (lo + 1) c ltac:(lia)). rewrite map_map in IHn. rewrite Z.add_0_l. refine (eq_trans _ IHn). f_equal. apply map_ext. intros k. replace (lo + 1 + Z.of_nat k) with (lo + Z.of_nat (S k)) by lia. reflexivity.
Qed.
Lemma fold_left_sum l : forall a, fold_left Z.add l a = a + sumZ l.
Proof. induction l as [|x l IH]; intros a; cbn [fold_left]; [cbn; lia|]. rewrite IH, sumZ_cons. lia. Qed.

Theorem C21_sum s lo n : lo <= so s -> so s + zlen (ss s) <= lo + Z.of_nat n -> sb_sum s = sumZ (map (full s) (zseq lo n)).
Proof. intros H1 H2. unfold sb_sum, full. rewrite fold_left_sum, sum_window by assumption. reflexivity. Qed.
Print Assumptions C21_sum.

Lemma cumsum_loop_ok l : forall s, zlen (cumsum_loop s l) = zlen l /\ forall k, 0 <= k < zlen l -> znth 0 (cumsum_loop s l) k = s + sumZ (firstn (Z.to_nat k) l).
Proof.
  induction l as [|x l IH]; intros s; [split; [reflexivity|]; unfold zlen; cbn [length]; lia|]. cbn [cumsum_loop]. rewrite !zlen_cons. destruct (IH (s + x)) as [L N]. split; [lia|].
  intros k Hk. destruct (Z.eq_dec k 0) as [->|]; [rewrite znth_0; cbn; lia|]. rewrite znth_S, N by lia. replace (Z.to_nat k) with (S (Z.to_nat (k - 1))) by lia. cbn [firstn]. rewrite sumZ_cons. lia.
Qed.
Lemma sum_firstn l c : forall n : nat, Z.of_nat n <= zlen l -> sumZ (firstn n l) = sumZ (map (fun k => znth 0 l (k - c)) (zseq c n)).
Proof.
  intros n Hn. rewrite <- (sum_window (firstn n l) c c n) by (try lia; unfold zlen; rewrite firstn_length; lia). f_equal. apply map_ext_in. intros k Hk.
  unfold zseq in Hk. apply in_map_iff in Hk. destruct Hk as (j & <- & Hj). apply in_seq in Hj. rewrite <- (Nat2Z.id n). apply znth_firstn. lia.
Qed.

(** Inside the window, the sum of all previous sizes; the window stays. *)
Theorem C21_cumsum_exclusive s : 0 <= so s -> exists c, sb_cumsum_exclusive s = Ok c /\ so c = so s /\ zlen (ss c) = zlen (ss s) /\
  forall k, in_window s k -> full c k = sumZ (map (full s) (zseq (so s) (Z.to_nat (k - so s)))).
Proof.
  intros Hs. unfold sb_cumsum_exclusive, sb_make. replace (so s <? 0) with false by lia. eexists. split; [reflexivity|]. cbn [so ss]. destruct (cumsum_loop_ok (ss s) 0) as [L N].
  split; [reflexivity|]. split; [exact L|]. intros k Hk. unfold in_window in Hk. unfold full. cbn [so ss]. rewrite N by lia. rewrite (sum_firstn _ (so s)) by lia. reflexivity.
Qed.
Print Assumptions C21_cumsum_exclusive.

Lemma intersect_ok other fuel : forall l i j, 0 <= i -> 0 <= j -> 0 < Z.of_nat fuel -> zlen l - i < Z.of_nat fuel -> exists l', intersect_loop l other i j fuel = Ok l' /\ zlen l' = zlen l /\
  forall k, znth 0 l' k = if (i <=? k) && (k <? zlen l) then znth 0 l k + znth 0 other (k - i + j) else znth 0 l k.
Proof.
  induction fuel as [|fuel IH]; intros l i j Hi Hj Hp Hf; [lia|].
  cbn [intersect_loop]. destruct ((j <? zlen other) && (i <? zlen l)) eqn:E.
  - rewrite (vget_znth 0 other) by lia. cbn [bind]. rewrite (vget_znth 0 l) by lia. cbn [bind]. rewrite vset_zupd by lia. cbn [bind].
      destruct (IH (zupd l i (znth 0 l i + znth 0 other j)) (i + 1) (j + 1)) as (l' & E' & L & N); [lia|lia|lia|rewrite zlen_zupd; lia|]. rewrite zlen_zupd in *. exists l'. split; [exact E'|]. split; [exact L|].
      intros k. rewrite N, !znth_zupd by lia. destruct (Z.eqb_spec k i) as [->|].
    + replace ((i + 1 <=? i) && (i <? zlen l)) with false by lia. replace ((i <=? i) && (i <? zlen l)) with true by lia. do 2 f_equal. lia.
    + destruct ((i + 1 <=? k) && (k <? zlen l)) eqn:Ek; [replace ((i <=? k) && (k <? zlen l)) with true by lia; do 2 f_equal; lia|]. replace ((i <=? k) && (k <? zlen l)) with false by lia. reflexivity.
  - exists l. split; [reflexivity|]. split; [reflexivity|]. intros k. destruct ((i <=? k) && (k <? zlen l)) eqn:Ek; [|reflexivity]. rewrite (znth_out 0 other) by lia. lia.
Qed.

(** The window stays, sizes outside of it are ignored. *)
Theorem C21_add_intersection a b : exists c, sb_add_intersection a b = Ok c /\ so c = so a /\ zlen (ss c) = zlen (ss a) /\
  forall k, in_window a k -> full c k = full a k + full b k.
Proof.
  unfold sb_add_intersection. remember (Z.max 0 (so b - so a)) as i eqn:Ei. remember (Z.max 0 (- (so b - so a))) as j eqn:Ej.
  destruct (intersect_ok (ss b) (S (length (ss a))) (ss a) i j) as (l & E & L & N); [lia|lia|lia|unfold zlen; lia|]. rewrite E. cbn [bind]. eexists. split; [reflexivity|]. cbn [so ss].
  split; [reflexivity|]. split; [exact L|]. intros k Hk. unfold in_window in Hk. unfold full. cbn [so ss]. rewrite N. destruct ((i <=? k - so a) && (k - so a <? zlen (ss a))) eqn:Ek.
  - do 2 f_equal. lia.
  - rewrite (znth_out 0 (ss b)); lia.
Qed.
Print Assumptions C21_add_intersection.
Example C21_add_intersection_case : sb_add_intersection (mksub 2 [1; 2; 3]) (mksub 1 [10; 20; 30]) = Ok (mksub 2 [21; 32; 3]) /\
  sb_add_intersection (mksub 2 [1; 2; 3]) (mksub 4 [10; 20; 30]) = Ok (mksub 2 [1; 2; 13]) /\ sb_add_intersection (mksub 2 [1]) (mksub 9 [4]) = Ok (mksub 2 [1]).
Proof. repeat split. Qed.

(** ** scan over a sequence *)
Lemma scan_loop_ok delta osize l0 xl0 fuel : forall l xl i, 0 <= delta -> 0 <= i <= zlen xl0 -> zlen xl0 - i < Z.of_nat fuel ->
  osize = zlen l0 -> zlen xl = zlen xl0 -> zlen l = Z.max osize i ->
  (forall k, znth 0 l k = if (0 <=? k) && (k <? i) then znth 0 l0 (delta + k) + znth 0 xl0 k else znth 0 l0 k) ->
  (forall k, znth 0 xl k = if (0 <=? k) && (k <? i) then znth 0 l0 (delta + k) else znth 0 xl0 k) ->
  exists l' xl', scan_loop delta osize (zlen xl0) l xl i fuel = Ok (l', xl') /\ zlen xl' = zlen xl0 /\
    (forall k, 0 <= k < zlen xl0 -> znth 0 l' k = znth 0 l0 (delta + k) + znth 0 xl0 k) /\
    (forall k, 0 <= k < zlen xl0 -> znth 0 xl' k = znth 0 l0 (delta + k)).
Proof.
  induction fuel as [|fuel IH]; intros l xl i Hd Hi Hf Ho Hx Hl Nl Nx; [lia|]. cbn [scan_loop]. pose proof (zlen_nonneg l0) as Hl0. destruct (Z.ltb_spec i (zlen xl0)) as [Hlt|Hge].
  - assert (Ep : (if delta + i >=? osize then Ok 0 else vget l (delta + i)) = Ok (znth 0 l0 (delta + i))).
    { destruct (delta + i >=? osize) eqn:Eo; [rewrite znth_out by lia; reflexivity|]. rewrite (vget_znth 0) by lia. rewrite Nl. replace ((0 <=? delta + i) && (delta + i <? i)) with false by lia. reflexivity. }
    rewrite Ep. cbn [bind]. rewrite (vget_znth 0) by lia. cbn [bind]. rewrite Nx. replace ((0 <=? i) && (i <? i)) with false by lia.
    set (p := znth 0 l0 (delta + i)). set (x := znth 0 xl0 i).
    assert (El : exists l1, (if i >=? osize then Ok (l ++ [p + x]) else vset l i (p + x)) = Ok l1 /\ zlen l1 = Z.max osize (i + 1) /\ forall k, znth 0 l1 k = if k =? i then p + x else znth 0 l k).
    { destruct (i >=? osize) eqn:Eo.
      - exists (l ++ [p + x]). split; [reflexivity|]. rewrite zlen_app. change (zlen [p + x]) with 1. split; [lia|]. intros k. rewrite znth_app. destruct (Z.ltb_spec k (zlen l)).
        + replace (k =? i) with false by lia. reflexivity.
        + destruct (Z.eqb_spec k i); [replace (k - zlen l) with 0 by lia; reflexivity|]. rewrite !znth_out; [reflexivity|lia|]. change (zlen [p + x]) with 1. lia.
      - exists (zupd l i (p + x)). rewrite vset_zupd by lia. split; [reflexivity|]. rewrite zlen_zupd. split; [lia|]. intros k. apply znth_zupd. lia. }
    destruct El as (l1 & El & L1 & N1). rewrite El. cbn [bind]. rewrite vset_zupd by lia. cbn [bind].
    destruct (IH l1 (zupd xl i p) (i + 1)) as (l' & xl' & E' & R); try assumption; try lia.
    + rewrite zlen_zupd. exact Hx.
    + intros k. rewrite N1. destruct (Z.eqb_spec k i) as [->|]; [replace ((0 <=? i) && (i <? i + 1)) with true by lia; reflexivity|]. rewrite Nl.
      replace ((0 <=? k) && (k <? i + 1)) with ((0 <=? k) && (k <? i)) by lia. reflexivity.
    + intros k. rewrite znth_zupd by lia. destruct (Z.eqb_spec k i) as [->|]; [replace ((0 <=? i) && (i <? i + 1)) with true by lia; reflexivity|]. rewrite Nx.
      replace ((0 <=? k) && (k <? i + 1)) with ((0 <=? k) && (k <? i)) by lia. reflexivity.
    + exists l', xl'. split; [exact E'|exact R].
  - exists l, xl. split; [reflexivity|]. split; [exact Hx|]. split; intros k Hk; [rewrite Nl|rewrite Nx]; replace ((0 <=? k) && (k <? i)) with true by lia; reflexivity.
Qed.
Lemma scan_step_ok acc x : so acc <= so x -> exists acc' x', sb_exclusive_scan acc x = Ok (acc', x') /\
  (so acc' = so x /\ zlen (ss acc') = zlen (ss x) /\ forall k, in_window x k -> full acc' k = full acc k + full x k) /\
  (so x' = so x /\ zlen (ss x') = zlen (ss x) /\ forall k, in_window x k -> full x' k = full acc k).
Proof.
  intros Hle. unfold sb_exclusive_scan. pose proof (zlen_nonneg (ss x)). pose proof (zlen_nonneg (ss acc)).
  destruct (scan_loop_ok (so x - so acc) (zlen (ss acc)) (ss acc) (ss x) (S (length (ss x))) (ss acc) (ss x) 0) as (l' & xl' & E & Lx & N & Nx); try lia.
  - unfold zlen. lia.
  - intros k. replace ((0 <=? k) && (k <? 0)) with false by lia. reflexivity.
  - intros k. replace ((0 <=? k) && (k <? 0)) with false by lia. reflexivity.
  - rewrite E. cbn [bind fst snd]. eexists _, _. split; [reflexivity|]. unfold full. cbn [so ss]. rewrite zlen_vresize by lia. split; (split; [reflexivity|]); (split; [lia|]); intros k Hk; unfold in_window in Hk.
    + rewrite znth_vresize, N by lia. do 2 f_equal. lia.
    + rewrite Nx by lia. f_equal. lia.
Qed.

(** Both ends of the windows shift monotonically. *)
Definition shifts (x y : subbin) : Prop := so x <= so y /\ so x + zlen (ss x) <= so y + zlen (ss y).
Fixpoint shifting (x : subbin) (l : list subbin) : Prop := match l with [] => True | y :: l' => shifts x y /\ shifting y l' end.

Lemma scan_seq_ok l : forall acc (prev : Z -> Z), shifting acc l -> (forall k, so acc <= k -> full acc k = prev k) ->
  exists out, scan_seq acc l = Ok out /\ length out = length l /\ forall i x x', nth_error l i = Some x -> nth_error out i = Some x' ->
    so x' = so x /\ zlen (ss x') = zlen (ss x) /\ forall k, in_window x k -> full x' k = prev k + sumZ (map (fun y => full y k) (firstn i l)).
Proof.
  induction l as [|x l IH]; intros acc prev Hs Hacc.
  - exists []. split; [reflexivity|]. split; [reflexivity|]. intros i x x' E. destruct i; discriminate.
  - destruct Hs as [[Hs1 Hs2] Hs]. cbn [scan_seq]. destruct (scan_step_ok acc x Hs1) as (acc' & x1 & E & (A1 & A2 & A3) & (X1 & X2 & X3)). rewrite E. cbn [bind fst snd].
    destruct (IH acc' (fun k => prev k + full x k)) as (out & Eo & Lo & No).
    + destruct l as [|y l]; [exact I|]. destruct Hs as [[Hy1 Hy2] Hs]. split; [split; lia|exact Hs].
    + intros k Hk. destruct (Z_lt_dec k (so x + zlen (ss x))).
      * rewrite A3 by (unfold in_window; lia). rewrite Hacc by lia. reflexivity.
      * rewrite full_out by (unfold in_window; lia). rewrite <- Hacc by lia. rewrite !full_out by (unfold in_window; lia). reflexivity.
    + rewrite Eo. cbn [bind]. exists (x1 :: out). split; [reflexivity|]. split; [cbn; lia|]. intros [|i] y y' Ey Ey'.
      * cbn in Ey, Ey'. injection Ey as <-. injection Ey' as <-. split; [exact X1|]. split; [exact X2|]. intros k Hk. rewrite X3 by exact Hk. rewrite Hacc by (unfold in_window in Hk; lia). cbn. lia.
      * cbn [nth_error] in Ey, Ey'. destruct (No i y y' Ey Ey') as (Y1 & Y2 & Y3). split; [exact Y1|]. split; [exact Y2|]. intros k Hk. rewrite Y3 by exact Hk. cbn [firstn map]. rewrite sumZ_cons. lia.
Qed.

(** Every entry of an element becomes the sum of all entries of previous elements at the same index. *)
Theorem C21_scan x l : shifting x l -> exists out, sb_cumsum_exclusive_dim (x :: l) = Ok out /\ length out = S (length l) /\
  forall i y y', nth_error (x :: l) i = Some y -> nth_error out i = Some y' -> so y' = so y /\ zlen (ss y') = zlen (ss y) /\
    forall k, in_window y k -> full y' k = sumZ (map (fun z => full z k) (firstn i (x :: l))).
Proof.
  intros Hs. unfold sb_cumsum_exclusive_dim. set (acc := mksub (so x) (map (fun _ => 0) (ss x))).
  destruct (scan_seq_ok (x :: l) acc (fun _ => 0)) as (out & E & L & N).
  - split; [split; cbn; [lia|rewrite zlen_map; lia]|exact Hs].
  - intros k _. unfold full, acc. cbn [so ss]. destruct (Z_lt_dec (k - so x) (zlen (ss x))); [destruct (Z_le_dec 0 (k - so x)); [rewrite (znth_map _ 0) by lia; reflexivity|]|]; apply znth_out; rewrite zlen_map; lia.
  - exists out. split; [exact E|]. split; [exact L|]. intros i y y' Ey Ey'. destruct (N i y y' Ey Ey') as (Y1 & Y2 & Y3). auto.
Qed.
Print Assumptions C21_scan.
Example C21_scan_case : let l := [mksub 0 [1; 2; 3]; mksub 1 [4; 5]; mksub 1 [6; 7; 8; 9]; mksub 4 [1]] in
  shifting (hd (mksub 0 []) l) (tl l) /\ sb_cumsum_exclusive_dim l = Ok [mksub 0 [0; 0; 0]; mksub 1 [2; 3]; mksub 1 [6; 8; 0; 0]; mksub 4 [9]].
Proof. split; [|reflexivity]. cbn. unfold shifts; cbn. lia. Qed.

(** If a window ends earlier than a previous one, counts are forgotten; if it begins earlier, memory in front of the vector is read. *)
Theorem C21_scan_unshifted_refuted : (exists x y z, so x <= so y <= so z /\ sb_cumsum_exclusive_dim [x; y; z] = Ok [mksub 0 [0; 0]; mksub 0 [5]; mksub 0 [6; 0]] /\ full x 1 + full y 1 = 7) /\
  exists x y, 0 <= so x /\ 0 <= so y /\ sb_cumsum_exclusive_dim [x; y] = Ub.
Proof. split; [exists (mksub 0 [5; 7]), (mksub 0 [1]), (mksub 0 [2; 2]); repeat split; cbn; lia|]. exists (mksub 1 [5]), (mksub 0 [3; 4]). repeat split; cbn; lia. Qed.
Print Assumptions C21_scan_unshifted_refuted.

(** ** unpacking *)
Lemma copy_to_ok xs : forall out c, 0 <= c -> c + zlen xs <= zlen out -> exists out', copy_to out c xs = Ok out' /\ zlen out' = zlen out /\
  forall k, znth 0 out' k = if (c <=? k) && (k <? c + zlen xs) then znth 0 xs (k - c) else znth 0 out k.
Proof.
  induction xs as [|x xs IH]; intros out c Hc Hl.
  - exists out. split; [reflexivity|]. split; [reflexivity|]. intros k. change (zlen (@nil Z)) with 0. replace ((c <=? k) && (k <? c + 0)) with false by lia. reflexivity.
  - rewrite zlen_cons in *. pose proof (zlen_nonneg xs). cbn [copy_to]. rewrite vset_zupd by lia. cbn [bind].
    destruct (IH (zupd out c x) (c + 1)) as (out' & E & L & N); [lia|rewrite zlen_zupd; lia|]. exists out'. rewrite zlen_zupd in L. split; [exact E|]. split; [exact L|].
    intros k. rewrite N. rewrite znth_zupd by lia. destruct (Z.eqb_spec k c) as [->|Hk].
    + replace ((c + 1 <=? c) && (c <? c + 1 + zlen xs)) with false by lia. replace ((c <=? c) && (c <? c + (zlen xs + 1))) with true by lia. rewrite Z.sub_diag. reflexivity.
    + destruct ((c + 1 <=? k) && (k <? c + 1 + zlen xs)) eqn:Ek.
      * replace ((c <=? k) && (k <? c + (zlen xs + 1))) with true by lia. rewrite znth_S by lia. f_equal. lia.
      * replace ((c <=? k) && (k <? c + (zlen xs + 1))) with false by lia. reflexivity.
Qed.
Lemma flatten_loop_ok len l : 0 <= len -> forall out row, 0 <= row -> (row + zlen l) * len <= zlen out -> Forall (fun s => 0 <= so s /\ so s + zlen (ss s) <= len) l ->
  (forall k, row * len <= k -> znth 0 out k = 0) ->
  exists out', flatten_loop out row len l = Ok out' /\ zlen out' = zlen out /\ (forall k, k < row * len -> znth 0 out' k = znth 0 out k) /\
  forall i s k, nth_error l i = Some s -> 0 <= k < len -> znth 0 out' ((row + Z.of_nat i) * len + k) = full s k.
Proof.
  intros Hlen. induction l as [|s l IH]; intros out row Hrow Hout Hall Hz.
  - exists out. split; [reflexivity|]. split; [reflexivity|]. split; [reflexivity|]. intros [|i] ? ? E; discriminate.
  - rewrite zlen_cons in Hout. pose proof (zlen_nonneg l). apply Forall_cons_iff in Hall. destruct Hall as [[Hs0 Hs1] Hall]. cbn [flatten_loop].
    pose proof (zlen_nonneg (ss s)).
    destruct (copy_to_ok (ss s) out (row * len + so s)) as (o & E & L & N); [nia|nia|]. rewrite E. cbn [bind].
    destruct (IH o (row + 1)) as (out' & E' & L' & P' & N'); [lia|rewrite L; nia|exact Hall| |].
    { intros k Hk. rewrite N. replace ((row * len + so s <=? k) && (k <? row * len + so s + zlen (ss s))) with false by nia. apply Hz. nia. }
    exists out'. split; [exact E'|]. split; [lia|]. split.
    + intros k Hk. rewrite P' by nia. rewrite N. replace ((row * len + so s <=? k) && (k <? row * len + so s + zlen (ss s))) with false by nia. reflexivity.
    + intros [|i] s' k Es Hk.
      * cbn in Es. injection Es as <-. rewrite P' by nia. rewrite N. unfold full. destruct ((row * len + so s <=? (row + Z.of_nat 0) * len + k) && ((row + Z.of_nat 0) * len + k <? row * len + so s + zlen (ss s))) eqn:Ek.
        -- f_equal. lia.
        -- rewrite Hz by lia. symmetry. apply znth_out. nia.
      * cbn [nth_error] in Es. rewrite <- (N' i s' k Es Hk). f_equal. nia.
Qed.
Theorem C21_flatten len l : 0 <= len -> Forall (fun s => 0 <= so s /\ so s + zlen (ss s) <= len) l ->
  exists out, sb_flatten len l = Ok out /\ zlen out = len * zlen l /\ forall i s k, nth_error l i = Some s -> 0 <= k < len -> znth 0 out (Z.of_nat i * len + k) = full s k.
Proof.
  intros Hlen Hall. unfold sb_flatten. pose proof (zlen_nonneg l).
  destruct (flatten_loop_ok len l Hlen (repeat 0 (Z.to_nat (len * zlen l))) 0) as (out & E & L & _ & N); [lia|rewrite zlen_repeat; nia|exact Hall|intros; apply znth_repeat_d|].
  exists out. split; [exact E|]. split; [rewrite L, zlen_repeat; nia|]. exact N.
Qed.
Print Assumptions C21_flatten.
Example C21_flatten_case : sb_flatten 4 [mksub 1 [5; 6]; mksub 0 [7]; mksub 3 [8]] = Ok [0; 5; 6; 0; 7; 0; 0; 0; 0; 0; 0; 8].
Proof. reflexivity. Qed.
