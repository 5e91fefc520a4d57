(** Proofs about the mapping of events to output bins: positions in the output buffer. *)
From Verif Require Import Base Arr Subbin_Model Subbin_Props BinKernel_Model BinKernel_Proofs Mapper_Model Mapper_Proofs.

(** ** concatenations over a list *)
Definition presum {X} (g : X -> Z) (l : list X) (i : Z) : Z := sumZ (map g (firstn (Z.to_nat i) l)).
Lemma presum_0 {X} (g : X -> Z) l : presum g l 0 = 0. Proof. reflexivity. Qed.
Lemma presum_cons {X} (g : X -> Z) x l i : 0 < i -> presum g (x :: l) i = g x + presum g l (i - 1).
Proof. intros Hi. unfold presum. replace (Z.to_nat i) with (S (Z.to_nat (i - 1))) by lia. cbn [firstn map]. apply sumZ_cons. Qed.
Lemma presum_nonneg {X} (g : X -> Z) l i : (forall x, 0 <= g x) -> 0 <= presum g l i.
Proof. intros Hg. apply sumZ_map_nonneg. intros. apply Hg. Qed.
Lemma presum_sep {X} (d : X) (g : X -> Z) l : (forall x, 0 <= g x) -> forall i j, 0 <= i < j -> i < zlen l -> presum g l i + g (znth d l i) <= presum g l j.
Proof.
  intros Hg. induction l as [|x l IH]; intros i j Hij Hi; [unfold zlen in Hi; cbn in Hi; lia|]. rewrite zlen_cons in Hi. rewrite (presum_cons g x l j) by lia. destruct (Z.eq_dec i 0) as [->|].
  - rewrite presum_0, znth_0. pose proof (presum_nonneg g l (j - 1) Hg). lia.
  - rewrite presum_cons, znth_S by lia. specialize (IH (i - 1) (j - 1) ltac:(lia) ltac:(lia)). lia.
Qed.
Lemma presum_zseq (g : Z -> Z) n k : 0 <= k <= n -> presum g (zseq 0 (Z.to_nat n)) k = psum g k.
Proof.
  intros Hk. unfold presum, psum. do 2 f_equal. unfold zseq. rewrite firstn_map. f_equal. replace (Z.to_nat n) with (Z.to_nat k + (Z.to_nat n - Z.to_nat k))%nat by lia. rewrite seq_app, firstn_app, seq_length, Nat.sub_diag. cbn [firstn]. rewrite app_nil_r. rewrite <- (seq_length (Z.to_nat k) 0) at 1. apply firstn_all.
Qed.
Lemma zget_concat {X B} (d : X) (f : X -> list B) l : forall i r, 0 <= i < zlen l -> 0 <= r < zlen (f (znth d l i)) -> zget (flat_map f l) (presum (fun x => zlen (f x)) l i + r) = zget (f (znth d l i)) r.
Proof.
  induction l as [|x l IH]; intros i r Hi Hr; [unfold zlen in Hi; cbn in Hi; lia|]. rewrite zlen_cons in Hi. cbn [flat_map]. rewrite zget_app. destruct (Z.eq_dec i 0) as [->|].
  - rewrite znth_0 in *. rewrite presum_0, Z.add_0_l. replace (r <? zlen (f x)) with true by lia. reflexivity.
  - rewrite presum_cons, znth_S in * by lia. pose proof (presum_nonneg (fun x => zlen (f x)) l (i - 1) (fun x => zlen_nonneg (f x))). replace (_ <? zlen (f x)) with false by lia. refine (eq_trans _ (IH (i - 1) r ltac:(lia) Hr)). f_equal. lia.
Qed.
Lemma concat_split {X B} (d : X) (f : X -> list B) l : forall y, 0 <= y < zlen (flat_map f l) -> exists i r, 0 <= i < zlen l /\ 0 <= r < zlen (f (znth d l i)) /\ y = presum (fun x => zlen (f x)) l i + r.
Proof.
  induction l as [|x l IH]; intros y Hy; [unfold zlen in Hy; cbn in Hy; lia|]. cbn [flat_map] in Hy. rewrite zlen_app in Hy. pose proof (zlen_nonneg l). destruct (Z_lt_dec y (zlen (f x))) as [Hlt|Hge].
  - exists 0, y. rewrite zlen_cons, znth_0, presum_0. lia.
  - destruct (IH (y - zlen (f x)) ltac:(lia)) as (i & r & Hi & Hr & E). exists (i + 1), r. rewrite zlen_cons, znth_S, presum_cons by lia. replace (i + 1 - 1) with i by lia. lia.
Qed.
Lemma presum_total {X} (g : X -> Z) l : presum g l (zlen l) = sumZ (map g l).
Proof. unfold presum, zlen. rewrite Nat2Z.id, firstn_all. reflexivity. Qed.

Lemma zget_ext {X} (l m : list X) : zlen l = zlen m -> (forall i a, zget l i = Some a -> zget m i = Some a) -> l = m.
Proof.
  intros El He. destruct l as [|x l']; [destruct m; [reflexivity|rewrite zlen_cons in El; pose proof (zlen_nonneg m); change (zlen (@nil X)) with 0 in El; lia]|]. set (l := x :: l') in *.
  apply (znth_ext x); [exact El|]. intros i Hi. specialize (He i (znth x l i) (zget_znth x l i Hi)). rewrite (zget_znth x) in He by lia. congruence.
Qed.

(** ** writes into a buffer *)
Lemma apply_writes_ok {X} (T : list X) W : (forall y a, In (y, a) W -> zget T y = Some a) -> forall buf, zlen buf = zlen T -> (forall y, 0 <= y < zlen T -> zget buf y = zget T y \/ exists a, In (y, a) W) -> apply_writes buf W = Ok T.
Proof.
  induction W as [|[x b] W IH]; intros Hw buf Hl Hc; cbn [apply_writes].
  - f_equal. apply zget_ext; [exact Hl|]. intros i a Hi. pose proof (zget_Some _ _ _ Hi). destruct (Hc i ltac:(lia)) as [E|(c & [])]. congruence.
  - pose proof (Hw x b ltac:(left; reflexivity)) as Hx. pose proof (zget_Some _ _ _ Hx). rewrite vset_zupd by lia. cbn [bind]. apply IH; [intros; apply Hw; right; assumption|rewrite zlen_zupd; exact Hl|].
    intros y Hy. destruct (Z.eq_dec y x) as [->|Hne].
    + left. rewrite Hx. rewrite (zget_znth b) by (rewrite zlen_zupd; lia). rewrite znth_zupd, Z.eqb_refl by lia. reflexivity.
    + destruct (Hc y Hy) as [E|(c & [E|E])]; [|exfalso; congruence|right; exists c; exact E]. left. rewrite <- E. rewrite !(zget_znth b) by (rewrite ?zlen_zupd; lia). rewrite znth_zupd by lia. replace (y =? x) with false by lia. reflexivity.
Qed.

Lemma bins_of_sizes_concat {X} (ls : list (list X)) : bins_of_sizes (concat ls) (map zlen ls) = ls.
Proof.
  induction ls as [|l ls IH]; [reflexivity|]. cbn [concat map bins_of_sizes]. replace (Z.to_nat (zlen l)) with (length l) by (unfold zlen; lia). f_equal; [|refine (eq_trans _ IH); f_equal].
  - rewrite firstn_app, Nat.sub_diag. cbn [firstn]. rewrite app_nil_r. apply firstn_all.
  - rewrite skipn_app, Nat.sub_diag, skipn_all. reflexivity.
Qed.

(** ** rows *)
Lemma existsb_In i l : existsb (Z.eqb i) l = true <-> In i l.
Proof. rewrite existsb_exists. split; [intros (x & Hx & E); apply Z.eqb_eq in E; subst; exact Hx|]. intros Hi. exists i. split; [exact Hi|apply Z.eqb_refl]. Qed.
Lemma canon_len strat p : forall i, zlen (canon strat i p) = zlen p.
Proof. induction p as [|k p IH]; intros i; [reflexivity|]. cbn [canon]. rewrite !zlen_cons, IH. reflexivity. Qed.
Lemma canon_nth strat p : forall i j, 0 <= j < zlen p -> znth 0 (canon strat i p) j = if existsb (Z.eqb (i + j)) strat then 0 else znth 0 p j.
Proof.
  induction p as [|k p IH]; intros i j Hj; [unfold zlen in Hj; cbn in Hj; lia|]. rewrite zlen_cons in Hj. cbn [canon]. destruct (Z.eq_dec j 0) as [->|].
  - rewrite !znth_0, Z.add_0_r. reflexivity.
  - rewrite !znth_S, IH by lia. replace (i + 1 + (j - 1)) with (i + j) by lia. reflexivity.
Qed.
Lemma rows_len strat sh : Forall (fun n => 0 <= n) sh -> forall i, zlen (rows strat i sh) = row_volume strat i sh /\ 0 <= row_volume strat i sh.
Proof.
  induction sh as [|n sh IH]; intros Hs i; [split; [reflexivity|cbn; lia]|]. apply Forall_cons_iff in Hs. destruct Hs as [Hn Hs]. cbn [rows row_volume]. destruct (IH Hs (i + 1)) as [E P]. destruct (existsb (Z.eqb i) strat).
  - rewrite zlen_map. split; assumption.
  - split; [|nia]. rewrite zlen_flat_map. rewrite <- E. erewrite map_ext; [|intros k; apply zlen_map]. assert (Hs' : forall m c a, sumZ (map (fun _ => c) (zseq a m)) = Z.of_nat m * c).
    { clear. induction m as [|m IH]; intros c a; [reflexivity|]. rewrite zseq_S. cbn [map]. rewrite sumZ_cons, IH. lia. } rewrite Hs', Z2Nat.id by exact Hn. reflexivity.
Qed.
(** a position is found in the rows at its index *)
Lemma rows_index strat sh : Forall (fun n => 0 <= n) sh -> forall i p, zlen p = zlen sh -> (forall j, 0 <= j < zlen sh -> existsb (Z.eqb (i + j)) strat = false -> 0 <= znth 0 p j < znth 0 sh j) ->
  0 <= row_index strat i sh p < row_volume strat i sh /\ znth [] (rows strat i sh) (row_index strat i sh p) = canon strat i p.
Proof.
  induction sh as [|n sh IH]; intros Hs i p Hl Hv.
  - apply zlen_0_nil in Hl. subst p. split; [cbn; lia|reflexivity].
  - destruct p as [|k p]; [rewrite zlen_cons in Hl; change (zlen (@nil Z)) with 0 in Hl; pose proof (zlen_nonneg sh); lia|]. rewrite !zlen_cons in Hl. apply Forall_cons_iff in Hs. destruct Hs as [Hn Hs].
    destruct (IH Hs (i + 1) p ltac:(lia)) as [Hr Er]. { intros j Hj Ej. specialize (Hv (j + 1)). rewrite zlen_cons, !znth_S in Hv by lia. replace (j + 1 - 1) with j in Hv by lia. apply Hv; [lia|]. rewrite <- Ej. do 2 f_equal. lia. }
    destruct (rows_len strat sh Hs (i + 1)) as [El Ev]. cbn [row_index row_volume rows canon]. specialize (Hv 0). rewrite zlen_cons, Z.add_0_r, !znth_0 in Hv. destruct (existsb (Z.eqb i) strat) eqn:Ex.
    + split; [exact Hr|]. rewrite (znth_map (cons 0) []) by lia. rewrite Er. reflexivity.
    + specialize (Hv ltac:(pose proof (zlen_nonneg sh); lia) eq_refl). split; [nia|]. set (v := row_volume strat (i + 1) sh) in *. set (ri := row_index strat (i + 1) sh p) in *. clear Ex.
      assert (Hf : forall m a x, a <= x < a + Z.of_nat m -> znth [] (flat_map (fun k => map (cons k) (rows strat (i + 1) sh)) (zseq a m)) ((x - a) * v + ri) = x :: canon strat (i + 1) p).
      { clear Hv Hl n Hn k. induction m as [|m IHm]; intros a x Hx; [lia|]. rewrite zseq_S. cbn [flat_map]. rewrite znth_app, zlen_map. rewrite El. destruct (Z.eq_dec x a) as [->|Hne].
        - rewrite Z.sub_diag. replace (0 * v + ri) with ri by lia. replace (ri <? v) with true by lia. rewrite (znth_map (cons a) []) by lia. rewrite Er. reflexivity.
        - replace (_ <? v) with false by nia. refine (eq_trans _ (IHm (a + 1) x ltac:(lia))). f_equal. lia. }
      specialize (Hf (Z.to_nat n) 0 k ltac:(lia)). rewrite Z.sub_0_r in Hf. exact Hf.
Qed.
Lemma rows_valid strat sh : forall i q, In q (rows strat i sh) -> zlen q = zlen sh /\ canon strat i q = q /\ forall j, 0 <= j < zlen sh -> existsb (Z.eqb (i + j)) strat = false -> 0 <= znth 0 q j < znth 0 sh j.
Proof.
  induction sh as [|n sh IH]; intros i q Hq; cbn [rows] in Hq.
  - destruct Hq as [<-|[]]. split; [reflexivity|]. split; [reflexivity|]. intros j Hj. change (zlen (@nil Z)) with 0 in Hj. lia.
  - assert (Hq' : exists k q', q = k :: q' /\ In q' (rows strat (i + 1) sh) /\ (existsb (Z.eqb i) strat = true /\ k = 0 \/ existsb (Z.eqb i) strat = false /\ 0 <= k < n)).
    { destruct (existsb (Z.eqb i) strat); [apply in_map_iff in Hq; destruct Hq as (q' & <- & Hq'); exists 0, q'; auto|]. apply in_flat_map in Hq. destruct Hq as (k & Hk & Hq). apply in_map_iff in Hq. destruct Hq as (q' & <- & Hq'). apply In_zseq in Hk. exists k, q'. split; [reflexivity|]. split; [exact Hq'|]. right. split; [reflexivity|]. lia. }
    destruct Hq' as (k & q' & -> & Hin & Hk). destruct (IH (i + 1) q' Hin) as (L & C & V). rewrite !zlen_cons. split; [lia|]. split.
    + cbn [canon]. rewrite C. destruct Hk as [[-> ->]|[-> _]]; reflexivity.
    + intros j Hj Ej. destruct (Z.eq_dec j 0) as [->|]; [rewrite !znth_0; rewrite Z.add_0_r in Ej; destruct Hk as [[E _]|[_ Hk]]; [congruence|exact Hk]|]. rewrite !znth_S by lia. apply V; [lia|]. rewrite <- Ej. do 2 f_equal. lia.
Qed.

(** ** ranks and contents *)
Section Contents.
Context {A : Type}.
Variable sh : list Z.
Variable ev : pos -> list (Z * A).
Variable off nb : pos -> Z.
Notation contents := (contents sh ev off nb).
Notation rank := (rank sh ev off nb).
Notation vals := (vals ev off nb).
Notation valid := (valid sh).

Lemma contents_upd rs d k : forall p b, okdim sh d -> Forall (okdim sh) rs -> In d rs -> contents rs (zupd p d k) b = contents rs p b.
Proof.
  induction rs as [|e rs IH]; intros p b Hd Hr Hin; [destruct Hin|]. apply Forall_cons_iff in Hr. destruct Hr as [He Hr]. unfold okdim in Hd, He. cbn [Mapper_Proofs.contents]. destruct (Z.eq_dec d e) as [->|Hne].
  - apply flat_map_ext. intros j. rewrite zupd_zupd. reflexivity.
  - destruct Hin as [E|Hin]; [lia|]. apply flat_map_ext. intros j. rewrite zupd_comm by lia. apply IH; assumption.
Qed.
Definition zeros (ds : list Z) (p : pos) : pos := fold_left (fun p d => zupd p d 0) ds p.
Lemma zeros_len ds : forall p, zlen (zeros ds p) = zlen p.
Proof. induction ds as [|d ds IH]; intros p; [reflexivity|]. cbn [zeros fold_left]. fold (zeros ds (zupd p d 0)). rewrite IH. apply zlen_zupd. Qed.
Lemma zeros_nth ds : forall p j, Forall (fun d => 0 <= d < zlen p) ds -> 0 <= j < zlen p -> znth 0 (zeros ds p) j = if existsb (Z.eqb j) ds then 0 else znth 0 p j.
Proof.
  induction ds as [|d ds IH]; intros p j Hd Hj; [reflexivity|]. apply Forall_cons_iff in Hd. destruct Hd as [Hd Hds]. cbn [zeros fold_left existsb]. fold (zeros ds (zupd p d 0)). rewrite IH by (rewrite zlen_zupd; assumption). rewrite znth_zupd by exact Hd. destruct (j =? d); destruct (existsb (Z.eqb j) ds); reflexivity.
Qed.
Lemma canon_zeros strat p : Forall (fun d => 0 <= d < zlen p) strat -> canon strat 0 p = zeros strat p.
Proof. intros Hs. apply (znth_ext 0); [rewrite canon_len, zeros_len; reflexivity|]. intros j Hj. rewrite canon_len in Hj. rewrite canon_nth, zeros_nth by assumption. reflexivity. Qed.
Lemma contents_zeros rs ds : forall p b, Forall (okdim sh) rs -> incl ds rs -> contents rs (zeros ds p) b = contents rs p b.
Proof.
  induction ds as [|d ds IH]; intros p b Hr Hi; [reflexivity|]. cbn [zeros fold_left]. fold (zeros ds (zupd p d 0)). rewrite IH; [|exact Hr|intros x Hx; apply Hi; right; exact Hx]. apply contents_upd; [|exact Hr|apply Hi; left; reflexivity]. rewrite Forall_forall in Hr. apply Hr. apply Hi. left. reflexivity.
Qed.

Lemma rank_nonneg rs : forall p b, 0 <= rank rs p b.
Proof. induction rs as [|d rs IH]; intros p b; cbn [Mapper_Proofs.rank]; [lia|]. specialize (IH p b). assert (0 <= psum (fun k => zlen (contents rs (zupd p d k) b)) (znth 0 p d)) by (apply sumZ_map_nonneg; intros; apply zlen_nonneg). lia. Qed.

Lemma rank_ok rs : forall p b r, Forall (okdim sh) rs -> valid p -> 0 <= r < zlen (vals p b) -> rank rs p b + r < zlen (contents rs p b) /\ zget (contents rs p b) (rank rs p b + r) = zget (vals p b) r.
Proof.
  induction rs as [|d rs IH]; intros p b r Hr Hp Hi; [cbn [Mapper_Proofs.rank Mapper_Proofs.contents]; split; [lia|f_equal; lia]|]. apply Forall_cons_iff in Hr. destruct Hr as [Hd Hr]. destruct (IH p b r Hr Hp Hi) as [Hlt Hz]. pose proof (rank_nonneg rs p b). pose proof Hp as [L N]. specialize (N d Hd ltac:(intros [])). unfold okdim in Hd.
  cbn [Mapper_Proofs.rank Mapper_Proofs.contents]. set (f := fun k => contents rs (zupd p d k) b) in *. assert (Hf : f (znth 0 p d) = contents rs p b) by (unfold f; rewrite zupd_same by lia; reflexivity).
  rewrite <- Z.add_assoc. change (fun k => zlen (contents rs (zupd p d k) b)) with (fun k => zlen (f k)). assert (Hz' := zget_flat_map0 f (znth 0 sh d) (znth 0 p d) (rank rs p b + r) N ltac:(rewrite Hf; lia)). rewrite Hf, Hz in Hz'. split; [|exact Hz'].
  destruct (zget (vals p b) r) as [a|] eqn:E; [apply zget_Some in Hz'; lia|]. exfalso. unfold zget in E. replace (r <? 0) with false in E by lia. apply nth_error_None in E. unfold zlen in Hi. lia.
Qed.

(** every element of an output bin comes from one input bin *)
Lemma rank_cover rs : forall p b y, Forall (okdim sh) rs -> NoDup rs -> validx sh rs p -> 0 <= y < zlen (contents rs p b) ->
  exists p' r, valid p' /\ (forall i, okdim sh i -> ~ In i rs -> znth 0 p' i = znth 0 p i) /\ 0 <= r < zlen (vals p' b) /\ y = rank rs p' b + r.
Proof.
  induction rs as [|d rs IH]; intros p b y Hr Hnd Hp Hy; cbn [Mapper_Proofs.contents Mapper_Proofs.rank] in *.
  - exists p, y. split; [exact Hp|]. split; [reflexivity|]. split; [exact Hy|]. lia.
  - apply Forall_cons_iff in Hr. destruct Hr as [Hd Hr]. apply NoDup_cons_iff in Hnd. destruct Hnd as [Hdn Hnd]. unfold okdim in Hd. destruct (concat_split 0 _ _ y Hy) as (k & y' & Hk & Hy' & E). rewrite zlen_zseq in Hk. rewrite znth_zseq in Hy' by lia. rewrite Z.add_0_l in Hy'. rewrite presum_zseq in E by lia.
    destruct (IH (zupd p d k) b y' Hr Hnd) as (p' & r & Hp' & Ha & Hr' & E'); [apply validx_upd; [exact Hd|exact Hp|lia]|exact Hy'|]. exists p', r. pose proof Hp' as [L' N']. destruct Hp as [L N].
    assert (Hk' : znth 0 p' d = k) by (rewrite Ha, znth_zupd, Z.eqb_refl by (try exact Hd; try exact Hdn; lia); reflexivity). split; [exact Hp'|]. split; [|split; [exact Hr'|]].
    + intros i Hi Hn. rewrite Ha; [|exact Hi|intros X; apply Hn; right; exact X]. rewrite znth_zupd by lia. replace (i =? d) with false; [reflexivity|]. symmetry. apply Z.eqb_neq. intros ->. apply Hn. left. reflexivity.
    + rewrite Hk', E, E'. rewrite Z.add_assoc. do 2 f_equal. apply psum_ext. intros j Hj. f_equal.
      (* contents depends only on the coordinates outside rs and d *)
      assert (Hz : canon rs 0 (zupd p' d j) = canon rs 0 (zupd p d j)).
      { apply (znth_ext 0); [rewrite !canon_len, !zlen_zupd; lia|]. intros i Hi. rewrite canon_len, zlen_zupd in Hi. rewrite !canon_nth by (rewrite zlen_zupd; lia). rewrite Z.add_0_l. destruct (existsb (Z.eqb i) rs) eqn:Ex; [reflexivity|]. rewrite !znth_zupd by lia. destruct (Z.eqb_spec i d) as [->|Hne]; [reflexivity|].
        rewrite Ha; [|unfold okdim; lia|intros X; apply existsb_In in X; congruence]. rewrite znth_zupd by lia. replace (i =? d) with false by lia. reflexivity. }
      assert (Hok : forall q : pos, zlen q = zlen sh -> Forall (fun d => 0 <= d < zlen q) rs) by (intros q Eq; rewrite Eq; exact Hr).
      rewrite <- (contents_zeros rs rs (zupd p' d j)), <- (contents_zeros rs rs (zupd p d j)) by (try exact Hr; apply incl_refl). rewrite <- !canon_zeros by (apply Hok; rewrite zlen_zupd; lia). rewrite Hz. reflexivity.
Qed.

(** the elements of different input bins are different *)
Lemma rank_inj rs : forall p p' b r r', Forall (okdim sh) rs -> valid p -> valid p' -> (forall i, okdim sh i -> ~ In i rs -> znth 0 p i = znth 0 p' i) ->
  0 <= r < zlen (vals p b) -> 0 <= r' < zlen (vals p' b) -> rank rs p b + r = rank rs p' b + r' -> p = p'.
Proof.
  induction rs as [|d rs IH]; intros p p' b r r' Hr Hp Hp' Ha Hi Hi' E.
  - destruct Hp as [L _], Hp' as [L' _]. apply (znth_ext 0); [congruence|]. intros i Hj. apply Ha; [unfold okdim; lia|intros []].
  - pose proof Hr as Hr0. apply Forall_cons_iff in Hr. destruct Hr as [Hd Hr]. unfold okdim in Hd. pose proof Hp as [L N]. pose proof Hp' as [L' N']. specialize (N d Hd ltac:(intros [])). specialize (N' d Hd ltac:(intros [])).
    destruct (rank_ok rs p b r Hr Hp Hi) as [H1 _]. destruct (rank_ok rs p' b r' Hr Hp' Hi') as [H1' _]. cbn [Mapper_Proofs.rank] in E. pose proof (rank_nonneg rs p b). pose proof (rank_nonneg rs p' b).
    assert (Hc : forall j, contents rs (zupd p d j) b = contents rs (zupd p' d j) b).
    { intros j. assert (Hz : canon rs 0 (zupd p d j) = canon rs 0 (zupd p' d j)).
      { apply (znth_ext 0); [rewrite !canon_len, !zlen_zupd; lia|]. intros i Hj. rewrite canon_len, zlen_zupd in Hj. rewrite !canon_nth by (rewrite zlen_zupd; lia). rewrite Z.add_0_l. destruct (existsb (Z.eqb i) rs) eqn:Ex; [reflexivity|]. rewrite !znth_zupd by lia. destruct (Z.eqb_spec i d) as [->|Hne]; [reflexivity|].
        apply Ha; [unfold okdim; lia|]. intros [X|X]; [lia|]. apply existsb_In in X. congruence. }
      assert (Hok : forall q : pos, zlen q = zlen sh -> Forall (fun d => 0 <= d < zlen q) rs) by (intros q Eq; rewrite Eq; exact Hr).
      rewrite <- (contents_zeros rs rs (zupd p d j)), <- (contents_zeros rs rs (zupd p' d j)) by (try exact Hr; apply incl_refl). rewrite <- !canon_zeros by (apply Hok; rewrite zlen_zupd; lia). rewrite Hz. reflexivity. }
    set (g := fun k => zlen (contents rs (zupd p d k) b)) in *. assert (Hg : forall k, 0 <= g k) by (intros; apply zlen_nonneg).
    rewrite (psum_ext (fun k => zlen (contents rs (zupd p' d k) b)) g) in E by (intros; unfold g; rewrite Hc; reflexivity).
    assert (Hgp : g (znth 0 p d) = zlen (contents rs p b)) by (unfold g; rewrite zupd_same by lia; reflexivity). assert (Hgp' : g (znth 0 p' d) = zlen (contents rs p' b)) by (unfold g; rewrite Hc, zupd_same by lia; reflexivity).
    destruct (Z.lt_trichotomy (znth 0 p d) (znth 0 p' d)) as [Hlt|[Heq|Hgt]].
    + pose proof (psum_sep g (znth 0 p d) (znth 0 p' d) Hg ltac:(lia)). lia.
    + apply (IH p p' b r r'); try assumption; [|rewrite Heq in E; lia]. intros i Hio Hn. destruct (Z.eq_dec i d) as [->|Hne]; [exact Heq|]. apply Ha; [exact Hio|]. intros [X|X]; [lia|contradiction].
    + pose proof (psum_sep g (znth 0 p' d) (znth 0 p d) Hg ltac:(lia)). lia.
Qed.
End Contents.
