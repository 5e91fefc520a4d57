(** Proofs about the mapping of events to output bins. *)
From Verif Require Import Base Arr Subbin_Model Subbin_Props BinKernel_Model BinKernel_Proofs Mapper_Model.

(** ** lists *)
Definition zget {A} (l : list A) (i : Z) : option A := if i <? 0 then None else nth_error l (Z.to_nat i).
Lemma zget_app {A} (l m : list A) i : zget (l ++ m) i = if i <? zlen l then zget l i else zget m (i - zlen l).
Proof.
  unfold zget, zlen. destruct (Z.ltb_spec i 0); destruct (Z.ltb_spec i (Z.of_nat (length l))); try lia; try reflexivity.
  - apply nth_error_app1. lia.
  - replace (i - Z.of_nat (length l) <? 0) with false by lia. rewrite nth_error_app2 by lia. f_equal. lia.
Qed.
Lemma zget_Some {A} (l : list A) i a : zget l i = Some a -> 0 <= i < zlen l.
Proof. unfold zget, zlen. destruct (Z.ltb_spec i 0); [discriminate|]. intros E. assert (Z.to_nat i < length l)%nat by (apply nth_error_Some; congruence). lia. Qed.
Lemma zget_znth {A} (d : A) l i : 0 <= i < zlen l -> zget l i = Some (znth d l i).
Proof. unfold zget, znth, zlen. intros Hi. replace (i <? 0) with false by lia. apply nth_error_nth'. lia. Qed.
Lemma mapM_ok {A B} (f : A -> res B) (g : A -> B) l : (forall a, In a l -> f a = Ok (g a)) -> mapM f l = Ok (map g l).
Proof.
  induction l as [|a l IH]; intros Hf; [reflexivity|]. cbn [mapM map]. rewrite Hf by (left; reflexivity). cbn [bind]. rewrite IH by (intros; apply Hf; right; assumption). reflexivity.
Qed.
Lemma zseq_S a n : zseq a (S n) = a :: zseq (a + 1) n.
Proof. unfold zseq. cbn [seq map]. f_equal; [lia|]. rewrite <- seq_shift, map_map. apply map_ext. intros. lia. Qed.
Lemma In_zseq a n x : In x (zseq a n) <-> a <= x < a + Z.of_nat n.
Proof. unfold zseq. rewrite in_map_iff. split; [intros (k & <- & Hk); apply in_seq in Hk; lia|]. intros Hx. exists (Z.to_nat (x - a)). split; [lia|]. apply in_seq. lia. Qed.
Lemma zlen_flat_map {A B} (f : A -> list B) l : zlen (flat_map f l) = sumZ (map (fun a => zlen (f a)) l).
Proof. induction l as [|a l IH]; [reflexivity|]. cbn [flat_map map]. rewrite zlen_app, sumZ_cons, IH. reflexivity. Qed.
(** an element of a concatenation over a range *)
Lemma zget_flat_map {B} (f : Z -> list B) n : forall a k r, a <= k < a + Z.of_nat n -> 0 <= r < zlen (f k) ->
  zget (flat_map f (zseq a n)) (sumZ (map (fun i => zlen (f i)) (zseq a (Z.to_nat (k - a)))) + r) = zget (f k) r.
Proof.
  induction n as [|n IH]; intros a k r Hk Hr; [lia|]. rewrite zseq_S. cbn [flat_map]. rewrite zget_app. destruct (Z.eq_dec k a) as [->|Hne].
  - rewrite Z.sub_diag. cbn [Z.to_nat zseq seq map]. cbn [sumZ]. unfold sumZ. cbn [fold_right]. rewrite Z.add_0_l. replace (r <? zlen (f a)) with true by lia. reflexivity.
  - replace (Z.to_nat (k - a)) with (S (Z.to_nat (k - (a + 1)))) by lia. rewrite zseq_S. cbn [map]. rewrite sumZ_cons.
    assert (0 <= sumZ (map (fun i => zlen (f i)) (zseq (a + 1) (Z.to_nat (k - (a + 1)))))) by (apply sumZ_map_nonneg; intros; apply zlen_nonneg).
    replace (_ <? zlen (f a)) with false by lia. refine (eq_trans _ (IH (a + 1) k r ltac:(lia) Hr)). f_equal. lia.
Qed.
(** partial sums separate the elements *)
Definition psum (g : Z -> Z) (k : Z) : Z := sumZ (map g (zseq 0 (Z.to_nat k))).
Lemma zseq_snoc a n : zseq a (S n) = zseq a n ++ [a + Z.of_nat n].
Proof. unfold zseq. rewrite seq_S, map_app. reflexivity. Qed.
Lemma psum_0 g : psum g 0 = 0. Proof. reflexivity. Qed.
Lemma psum_S g k : 0 <= k -> psum g (k + 1) = psum g k + g k.
Proof. intros Hk. unfold psum. replace (Z.to_nat (k + 1)) with (S (Z.to_nat k)) by lia. rewrite zseq_snoc, map_app, sumZ_app. cbn [map]. rewrite sumZ_cons, Z2Nat.id by lia. cbn. rewrite Z.add_0_r. reflexivity. Qed.
Lemma psum_mono g k k' : (forall i, 0 <= g i) -> 0 <= k <= k' -> psum g k <= psum g k'.
Proof.
  intros Hg [Hk Hle]. replace k' with (k + (k' - k)) by lia. assert (Hn : 0 <= k' - k) by lia. revert Hn. generalize (k' - k). clear Hle k'. intros m Hm. pattern m. apply natlike_ind; [rewrite Z.add_0_r; lia| |exact Hm].
  intros x Hx IH. replace (k + Z.succ x) with (k + x + 1) by lia. rewrite psum_S by lia. specialize (Hg (k + x)). lia.
Qed.
Lemma psum_sep g k k' : (forall i, 0 <= g i) -> 0 <= k < k' -> psum g k + g k <= psum g k'.
Proof. intros Hg Hk. rewrite <- psum_S by lia. apply psum_mono; [exact Hg|lia]. Qed.
Lemma psum_ext g g' k : (forall i, 0 <= i < k -> g i = g' i) -> psum g k = psum g' k.
Proof. intros He. unfold psum. f_equal. apply map_ext_in. intros i Hi. apply In_zseq in Hi. apply He. lia. Qed.
Lemma zget_flat_map0 {B} (f : Z -> list B) n k r : 0 <= k < n -> 0 <= r < zlen (f k) -> zget (flat_map f (zseq 0 (Z.to_nat n))) (psum (fun i => zlen (f i)) k + r) = zget (f k) r.
Proof. intros Hk Hr. unfold psum. replace (Z.to_nat k) with (Z.to_nat (k - 0)) by (f_equal; lia). apply zget_flat_map; lia. Qed.

Lemma zupd_zupd {A} (l : list A) i x y : zupd (zupd l i x) i y = zupd l i y.
Proof. unfold zupd. generalize (Z.to_nat i). intros n. revert n. induction l as [|a l IH]; intros [|n]; cbn [upd]; try reflexivity. f_equal. apply IH. Qed.
Lemma zupd_comm {A} (l : list A) i j x y : 0 <= i -> 0 <= j -> i <> j -> zupd (zupd l i x) j y = zupd (zupd l j y) i x.
Proof.
  intros Hi Hj Hne. unfold zupd. assert (Hn : Z.to_nat i <> Z.to_nat j) by lia. revert Hn. generalize (Z.to_nat i), (Z.to_nat j). clear. intros n. revert l. induction n as [|n IH]; intros [|a l] [|m] Hne; cbn [upd]; try reflexivity; try lia.
  f_equal. apply IH. lia.
Qed.
Lemma zupd_same {A} (d : A) l i : 0 <= i < zlen l -> zupd l i (znth d l i) = l.
Proof. intros Hi. apply (znth_ext d); [apply zlen_zupd|]. intros j Hj. rewrite znth_zupd by exact Hi. destruct (Z.eqb_spec j i) as [->|]; reflexivity. Qed.

Section Valid.
Variable sh : list Z.
Definition okdim (d : Z) : Prop := 0 <= d < zlen sh.
(** valid in all dimensions except maybe [rs] *)
Definition validx (rs : list Z) (p : pos) : Prop := zlen p = zlen sh /\ forall i, okdim i -> ~ In i rs -> 0 <= znth 0 p i < znth 0 sh i.
Definition valid := validx [].

Lemma validx_upd d rs p k : okdim d -> validx (d :: rs) p -> 0 <= k < znth 0 sh d -> validx rs (zupd p d k).
Proof.
  intros Hd [L N] Hk. unfold okdim in Hd. split; [rewrite zlen_zupd; exact L|]. intros i Hi Hn. rewrite znth_zupd by lia. destruct (Z.eqb_spec i d) as [->|Hne]; [exact Hk|]. apply N; [exact Hi|]. intros [E|E]; [lia|contradiction].
Qed.
Lemma validx_weaken rs rs' p : incl rs rs' -> validx rs p -> validx rs' p.
Proof. intros Hi [L N]. split; [exact L|]. intros i Ho Hn. apply N; [exact Ho|]. intros E. apply Hn. apply Hi. exact E. Qed.

End Valid.
Lemma fold_max_ge l : forall m, m <= fold_left Z.max l m.
Proof. induction l as [|x l IH]; intros m; cbn [fold_left]; [lia|]. specialize (IH (Z.max m x)). lia. Qed.
Lemma fold_max_In l x : forall m, In x l -> x <= fold_left Z.max l m.
Proof. induction l as [|y l IH]; intros m Hx; [destruct Hx|]. cbn [fold_left]. destruct Hx as [->|Hx]; [pose proof (fold_max_ge l (Z.max m x)); lia|apply IH; exact Hx]. Qed.
Lemma fold_max_le {B} (f g : B -> Z) l : (forall x, In x l -> f x <= g x) -> forall m, fold_left Z.max (map f l) m <= fold_left Z.max (map g l) m.
Proof.
  intros Hl. assert (Hm : forall m m', m <= m' -> fold_left Z.max (map f l) m <= fold_left Z.max (map g l) m'); [|intros m; apply Hm; lia].
  induction l as [|x l IH]; intros m m' Hm; cbn [map fold_left]; [exact Hm|]. apply IH; [intros; apply Hl; right; assumption|]. specialize (Hl x ltac:(left; reflexivity)). lia.
Qed.

(** ** the contents of the output bins *)
Section Contents.
Context {A : Type}.
Variable sh : list Z.
Variable ev : pos -> list (Z * A).
Variable off nb : pos -> Z.

(** events of the input bin [p] that go to the output bin [b] *)
Definition vals (p : pos) (b : Z) : list A := if (off p <=? b) && (b <? off p + nb p) then vals_of (b - off p) (ev p) else [].
(** events of all input bins along the dimensions [rs] (the first one is the outermost) that go to the output bin [b] *)
Fixpoint contents (rs : list Z) (p : pos) (b : Z) : list A :=
  match rs with
  | [] => vals p b
  | d :: rs' => flat_map (fun k => contents rs' (zupd p d k) b) (zseq 0 (Z.to_nat (znth 0 sh d)))
  end.
(** number of events in the output bin before those of [p] *)
Fixpoint rank (rs : list Z) (p : pos) (b : Z) : Z :=
  match rs with
  | [] => 0
  | d :: rs' => psum (fun k => zlen (contents rs' (zupd p d k) b)) (znth 0 p d) + rank rs' p b
  end.
(** window of the sizes after the sums over [rs] *)
Fixpoint cend (rs : list Z) (p : pos) : Z :=
  match rs with
  | [] => off p + nb p
  | d :: rs' => fold_left Z.max (map (fun k => cend rs' (zupd p d k)) (zseq 0 (Z.to_nat (znth 0 sh d)))) 0
  end.
Definition cbeg (rs : list Z) (p : pos) : Z := match rs with [] => off p | _ => 0 end.

Notation okdim := (okdim sh).
Notation validx := (validx sh).
Notation valid := (valid sh).

Hypothesis Hwin : forall p, valid p -> 0 <= off p /\ 0 <= nb p.
Hypothesis Htb : forall p, valid p -> targets_below (nb p) (ev p).

Lemma cbeg_le rs p : valid p -> 0 <= cbeg rs p <= off p.
Proof. intros Hp. destruct (Hwin p Hp). destruct rs; cbn [cbeg]; lia. Qed.
Lemma cend_ge rs : forall p, Forall okdim rs -> valid p -> off p + nb p <= cend rs p.
Proof.
  induction rs as [|d rs IH]; intros p Hr Hp; cbn [cend]; [lia|]. apply Forall_cons_iff in Hr. destruct Hr as [Hd Hr]. etransitivity; [apply (IH p Hr Hp)|]. apply fold_max_In. apply in_map_iff. exists (znth 0 p d). destruct Hp as [L N]. specialize (N d Hd ltac:(intros [])).
  split; [f_equal; apply zupd_same; rewrite L; exact Hd|]. apply In_zseq. lia.
Qed.
Lemma cend_nonneg rs p : validx rs p -> 0 <= cend rs p.
Proof. destruct rs as [|d rs]; intros Hp; cbn [cend]; [destruct (Hwin p Hp); lia|apply fold_max_ge]. Qed.

(** window ends along [d] *)
Definition ends_grow (d : Z) : Prop := forall p k, valid p -> znth 0 p d <= k < znth 0 sh d -> off p + nb p <= off (zupd p d k) + nb (zupd p d k).
Definition begins_grow (d : Z) : Prop := forall p k, valid p -> znth 0 p d <= k < znth 0 sh d -> off p <= off (zupd p d k).

Lemma cend_mono d rs : okdim d -> ends_grow d -> ~ In d rs -> Forall okdim rs -> forall p k, validx rs p -> znth 0 p d <= k < znth 0 sh d -> cend rs p <= cend rs (zupd p d k).
Proof.
  intros Hd Hg. induction rs as [|e rs IH]; intros Hn Hr p k Hp Hk; cbn [cend]; [apply Hg; assumption|]. apply Forall_cons_iff in Hr. destruct Hr as [He Hr]. unfold okdim in Hd, He. assert (Hne : e <> d) by (intros ->; apply Hn; left; reflexivity).
  apply fold_max_le. intros j Hj. apply In_zseq in Hj. rewrite zupd_comm by lia.
  apply IH; [intros E; apply Hn; right; exact E|exact Hr|apply validx_upd; [exact He|exact Hp|lia]|]. rewrite znth_zupd by (destruct Hp as [L _]; lia). replace (d =? e) with false by lia. exact Hk.
Qed.

(** ** the loop over the strategy *)
Definition sizes_inv (rs : list Z) (sizes : pos -> res subbin) : Prop :=
  forall p, validx rs p -> exists s, sizes p = Ok s /\ so s = cbeg rs p /\ so s + zlen (ss s) = cend rs p /\ forall b, full s b = zlen (contents rs p b).
Definition offs_inv (rs : list Z) (offs : pos -> res subbin) : Prop :=
  forall p, valid p -> exists o, offs p = Ok o /\ so o = off p /\ zlen (ss o) = nb p /\ forall b, off p <= b < off p + nb p -> full o b = rank rs p b.

Lemma sizes0_inv : sizes_inv [] (sizes0 ev off nb).
Proof.
  intros p Hp. destruct (Hwin p Hp) as [Ho Hb]. destruct (count_indices_ok (ev p) (off p) (nb p) Ho Hb (Htb p Hp)) as (s & E & Eo & El & N). exists s. split; [exact E|]. cbn [cbeg cend contents]. split; [exact Eo|]. split; [lia|].
  intros b. unfold full, vals. rewrite Eo. destruct ((off p <=? b) && (b <? off p + nb p)) eqn:Eb; [apply N; lia|]. apply znth_out. lia.
Qed.
Lemma offsets0_inv : offs_inv [] (offsets0 ev off nb).
Proof.
  intros p Hp. destruct (sizes0_inv p Hp) as (s & E & Eo & El & _). unfold offsets0. rewrite E. cbn [bind]. eexists. split; [reflexivity|]. cbn [so ss cbeg cend] in *. rewrite zlen_map. split; [exact Eo|]. split; [lia|].
  intros b Hb. unfold full. cbn [so ss rank]. rewrite (znth_map (fun _ => 0) 0) by lia. reflexivity.
Qed.

Lemma along_ok rs d sizes p : sizes_inv rs sizes -> okdim d -> validx (d :: rs) p -> exists f, along sh d sizes p = Ok (map f (zseq 0 (Z.to_nat (znth 0 sh d)))) /\
  forall k, 0 <= k < znth 0 sh d -> so (f k) = cbeg rs (zupd p d k) /\ so (f k) + zlen (ss (f k)) = cend rs (zupd p d k) /\ forall b, full (f k) b = zlen (contents rs (zupd p d k) b).
Proof.
  intros Hs Hd Hp. exists (fun k => match sizes (zupd p d k) with Ok s => s | _ => mksub 0 [] end). split.
  - apply mapM_ok. intros k Hk. apply In_zseq in Hk. destruct (Hs (zupd p d k)) as (s & E & _); [apply validx_upd; [exact Hd|exact Hp|lia]|]. rewrite E. reflexivity.
  - intros k Hk. destruct (Hs (zupd p d k)) as (s & E & Hr); [apply validx_upd; assumption|]. rewrite E. exact Hr.
Qed.

Lemma shifting_map (f : Z -> subbin) n : forall a, (forall k, a <= k < a + Z.of_nat n -> shifts (f k) (f (k + 1))) -> shifting (f a) (map f (zseq (a + 1) n)).
Proof.
  induction n as [|n IH]; intros a Hf; [exact I|]. rewrite zseq_S. cbn [map shifting]. split; [apply Hf; lia|]. apply IH. intros k Hk. apply Hf. lia.
Qed.

Lemma scan_dim_ok rs d sizes p : sizes_inv rs sizes -> okdim d -> ~ In d rs -> Forall okdim rs -> valid p -> ends_grow d -> (rs = [] -> begins_grow d) ->
  exists c, scan_dim sh d sizes p = Ok c /\ forall b, off p <= b < off p + nb p -> full c b = psum (fun k => zlen (contents rs (zupd p d k) b)) (znth 0 p d).
Proof.
  intros Hs Hd Hn Hr Hp Hend Hbeg. pose proof Hp as [L N]. specialize (N d Hd ltac:(intros [])). unfold okdim in Hd. destruct (along_ok rs d sizes p Hs Hd) as (f & E & F); [eapply validx_weaken; [|exact Hp]; intros x []|]. unfold scan_dim. rewrite E. cbn [bind].
  set (n := znth 0 sh d) in *. replace (Z.to_nat n) with (S (Z.to_nat (n - 1))) in * by lia. rewrite zseq_S. cbn [map]. rewrite Z.add_0_l.
  assert (Hpk : forall k, 0 <= k < n -> valid (zupd p d k)) by (intros k Hk; apply validx_upd; [exact Hd|eapply validx_weaken; [|exact Hp]; intros x []|exact Hk]).
  assert (Hsh : shifting (f 0) (map f (zseq (0 + 1) (Z.to_nat (n - 1))))).
  { apply shifting_map. intros k Hk. destruct (F k ltac:(lia)) as (B1 & E1 & _). destruct (F (k + 1) ltac:(lia)) as (B2 & E2 & _). unfold shifts. rewrite E1, E2, B1, B2.
    replace (zupd p d (k + 1)) with (zupd (zupd p d k) d (k + 1)) by apply zupd_zupd. assert (Hz : znth 0 (zupd p d k) d = k) by (rewrite znth_zupd, Z.eqb_refl by lia; reflexivity). split.
    - destruct rs as [|e rs]; cbn [cbeg]; [|lia]. apply Hbeg; [reflexivity|apply Hpk; lia|rewrite Hz; fold n; lia].
    - apply cend_mono; try assumption; [|rewrite Hz; fold n; lia]. eapply validx_weaken; [|apply Hpk; lia]. intros x []. }
  destruct (C21_scan _ _ Hsh) as (out & Eo & Lo & No). change (f 0 :: map f (zseq (0 + 1) (Z.to_nat (n - 1)))) with (map f (0 :: zseq (0 + 1) (Z.to_nat (n - 1)))) in Eo, No. rewrite <- zseq_S in Eo, No.
  change (f 0 :: map f (zseq 1 (Z.to_nat (n - 1)))) with (map f (0 :: zseq (0 + 1) (Z.to_nat (n - 1)))). rewrite <- zseq_S. rewrite Eo. cbn [bind].
  assert (Hlen : zlen out = n) by (unfold zlen; rewrite Lo, map_length; unfold zseq; rewrite map_length, seq_length; lia).
  set (d0 := mksub 0 []). rewrite (vget_znth d0) by lia. eexists. split; [reflexivity|]. intros b Hb.
  set (j := znth 0 p d) in *. destruct (No (Z.to_nat j) (f j) (znth d0 out j)) as (_ & _ & Hf).
  - rewrite nth_error_map. unfold zseq. rewrite nth_error_map. rewrite (nth_error_nth' _ 0%nat) by (rewrite seq_length; lia). cbn [option_map]. rewrite seq_nth by lia. do 2 f_equal. lia.
  - unfold znth. replace (j <? 0) with false by lia. apply nth_error_nth'. unfold zlen in Hlen. lia.
  - destruct (F j ltac:(lia)) as (B & En & _). assert (Hsame : zupd p d j = p) by (apply zupd_same; lia). rewrite Hsame in B, En.
    rewrite Hf.
    + unfold psum. rewrite firstn_map, map_map. assert (Hfs : firstn (Z.to_nat j) (zseq 0 (S (Z.to_nat (n - 1)))) = zseq 0 (Z.to_nat j)).
      { unfold zseq. rewrite firstn_map. f_equal. replace (S (Z.to_nat (n - 1))) with (Z.to_nat j + (S (Z.to_nat (n - 1)) - Z.to_nat j))%nat by lia. rewrite seq_app. rewrite firstn_app, seq_length, Nat.sub_diag. cbn [firstn]. rewrite app_nil_r. rewrite <- (seq_length (Z.to_nat j) 0) at 1. apply firstn_all. }
      rewrite Hfs. f_equal. apply map_ext_in. intros k Hk. apply In_zseq in Hk. apply F. lia.
    + unfold in_window. rewrite En, B. pose proof (cbeg_le rs p Hp). pose proof (cend_ge rs p Hr Hp). lia.
Qed.

Lemma plus_equals_0 a b : so a = 0 -> 0 <= so b -> exists c, sb_plus_equals a b = Ok c /\ so c = 0 /\ zlen (ss c) = Z.max (zlen (ss a)) (so b + zlen (ss b)) /\ forall k, full c k = full a k + full b k.
Proof.
  intros Ha Hb. destruct (C21_plus_equals a b ltac:(lia) Hb) as (c & E & N). exists c. split; [exact E|]. unfold sb_plus_equals in E. rewrite Ha in E. replace (so b <? 0) with false in E by lia. pose proof (zlen_nonneg (ss b)).
  set (l := if so b - 0 + zlen (ss b) >? zlen (ss a) then vresize (ss a) (so b - 0 + zlen (ss b)) else ss a) in E.
  assert (Hl : zlen l = Z.max (zlen (ss a)) (so b + zlen (ss b))). { unfold l. destruct (so b - 0 + zlen (ss b) >? zlen (ss a)) eqn:E1; [rewrite zlen_vresize by lia; lia|lia]. }
  destruct (add_from_ok Z.add (ss b) l (so b - 0)) as (l' & E' & L' & _); [lia|lia|]. rewrite E' in E. cbn [bind] in E. injection E as <-. cbn [so ss] in *. split; [reflexivity|]. split; [lia|exact N].
Qed.

Lemma sum_fold (f : Z -> subbin) (g : Z -> Z) l : (forall k, In k l -> 0 <= so (f k) /\ so (f k) + zlen (ss (f k)) = g k) -> forall a, so a = 0 ->
  exists c, foldM sb_plus_equals a (map f l) = Ok c /\ so c = 0 /\ zlen (ss c) = fold_left Z.max (map g l) (zlen (ss a)) /\ forall b, full c b = full a b + sumZ (map (fun k => full (f k) b) l).
Proof.
  induction l as [|x l IH]; intros Hf a Ha; cbn [map foldM fold_left].
  - exists a. repeat split; [exact Ha|]. intros b. cbn. lia.
  - destruct (Hf x ltac:(left; reflexivity)) as [H0 Hg]. destruct (plus_equals_0 a (f x) Ha H0) as (c & E & Eo & El & N). rewrite E. cbn [bind].
    destruct (IH ltac:(intros; apply Hf; right; assumption) c Eo) as (c' & E' & Eo' & El' & N'). exists c'. split; [exact E'|]. split; [exact Eo'|]. split; [rewrite El', El, Hg; reflexivity|].
    intros b. rewrite N', N. cbn [map]. rewrite sumZ_cons. lia.
Qed.

Lemma sum_dim_inv rs d sizes : sizes_inv rs sizes -> okdim d -> sizes_inv (d :: rs) (sum_dim sh d sizes).
Proof.
  intros Hs Hd p Hp. destruct (along_ok rs d sizes p Hs Hd Hp) as (f & E & F). unfold sum_dim. rewrite E. cbn [bind].
  destruct (sum_fold f (fun k => cend rs (zupd p d k)) (zseq 0 (Z.to_nat (znth 0 sh d)))) with (a := mksub 0 []) as (c & Ec & Eo & El & N).
  - intros k Hk. apply In_zseq in Hk. destruct (F k ltac:(lia)) as (B & En & _). split; [|exact En]. rewrite B. destruct rs as [|e rs]; cbn [cbeg]; [|lia]. apply Hwin. apply validx_upd; [exact Hd|exact Hp|lia].
  - reflexivity.
  - exists c. split; [exact Ec|]. split; [exact Eo|]. split; [rewrite Eo, El; reflexivity|]. intros b. rewrite N. cbn [contents]. rewrite zlen_flat_map. unfold full at 1. cbn [ss so]. rewrite znth_out by (unfold zlen; cbn; lia). rewrite Z.add_0_l. f_equal. apply map_ext_in. intros k Hk. apply In_zseq in Hk. apply F. lia.
Qed.

Lemma strategy_ok s : forall rs offs sizes, Forall okdim s -> Forall okdim rs -> NoDup (rev s ++ rs) -> (forall d, In d s -> ends_grow d) -> (rs = [] -> match s with d :: _ => begins_grow d | [] => True end) ->
  offs_inv rs offs -> sizes_inv rs sizes ->
  offs_inv (rev s ++ rs) (fst (strategy_loop sh s offs sizes)) /\ sizes_inv (rev s ++ rs) (snd (strategy_loop sh s offs sizes)).
Proof.
  induction s as [|d s IH]; intros rs offs sizes Hs Hr Hnd Hend Hbeg Ho Hz; [split; assumption|]. apply Forall_cons_iff in Hs. destruct Hs as [Hd Hs]. cbn [strategy_loop]. cbn [rev] in Hnd |- *. rewrite <- app_assoc in Hnd |- *. cbn [app] in Hnd |- *.
  assert (Hdn : ~ In d rs) by (apply NoDup_remove_2 in Hnd; intros E; apply Hnd; apply in_or_app; right; exact E).
  apply IH; [exact Hs|constructor; assumption|exact Hnd|intros; apply Hend; right; assumption|discriminate| |apply sum_dim_inv; assumption].
  intros p Hp. destruct (Ho p Hp) as (o & E & Eo & El & N). rewrite E. cbn [bind]. destruct (scan_dim_ok rs d sizes p) as (c & Ec & Nc); try assumption; [apply Hend; left; reflexivity|]. rewrite Ec. cbn [bind].
  destruct (C21_add_intersection o c) as (r & Er & Ero & Erl & Nr). exists r. split; [exact Er|]. split; [lia|]. split; [lia|]. intros b Hb. rewrite Nr by (unfold in_window; lia). rewrite N, Nc by exact Hb. cbn [rank]. lia.
Qed.
End Contents.
