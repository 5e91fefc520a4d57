(** Proofs about the mapping of events to output bins: the buffer. *)
From Verif Require Import Base Arr Subbin_Model Subbin_Props BinKernel_Model BinKernel_Proofs Mapper_Model Mapper_Proofs Mapper_Proofs2.

Lemma cumsum_inclusive_nth l : forall s i, 0 <= i < zlen l -> znth 0 (cumsum_inclusive s l) i = s + presum (fun x => x) l i + znth 0 l i.
Proof.
  induction l as [|x l IH]; intros s i Hi; [change (zlen (@nil Z)) with 0 in Hi; lia|]. rewrite zlen_cons in Hi. cbn [cumsum_inclusive]. destruct (Z.eq_dec i 0) as [->|].
  - rewrite !znth_0, presum_0. lia.
  - rewrite !znth_S, IH, presum_cons by lia. lia.
Qed.
Lemma cumsum_inclusive_len l : forall s, zlen (cumsum_inclusive s l) = zlen l.
Proof. induction l as [|x l IH]; intros s; [reflexivity|]. cbn [cumsum_inclusive]. rewrite !zlen_cons, IH. reflexivity. Qed.
Lemma cumsum_inclusive_last l : forall s, last (cumsum_inclusive s l) s = s + sumZ l.
Proof.
  induction l as [|x l IH]; intros s; [cbn; lia|]. cbn [cumsum_inclusive]. rewrite sumZ_cons. transitivity (last (cumsum_inclusive (s + x) l) (s + x)); [|rewrite IH; lia].
  destruct (cumsum_inclusive (s + x) l) as [|y m] eqn:E; [reflexivity|]. cbn [last]. clear. revert y. induction m as [|z m IH]; intros y; [reflexivity|]. cbn [last]. apply IH.
Qed.
Lemma presum_map {X} (g : X -> Z) l i : presum (fun x => x) (map g l) i = presum g l i.
Proof. unfold presum. rewrite firstn_map, map_id. reflexivity. Qed.
Lemma psum_ge0 (g : Z -> Z) k : (forall i, 0 <= g i) -> 0 <= psum g k.
Proof. intros Hg. apply sumZ_map_nonneg. intros. apply Hg. Qed.

Lemma row_index_canon strat sh : forall i p, row_index strat i sh (canon strat i p) = row_index strat i sh p.
Proof. induction sh as [|n sh IH]; intros i [|k p]; try reflexivity. cbn [canon row_index]. rewrite IH. destruct (existsb (Z.eqb i) strat); reflexivity. Qed.
Lemma row_index_inv strat sh : Forall (fun n => 0 <= n) sh -> forall i j, 0 <= j < zlen (rows strat i sh) -> row_index strat i sh (znth [] (rows strat i sh) j) = j.
Proof.
  induction sh as [|n sh IH]; intros Hs i j Hj.
  - cbn [rows] in *. unfold zlen in Hj. cbn [length] in Hj. assert (j = 0) as -> by lia. reflexivity.
  - apply Forall_cons_iff in Hs. destruct Hs as [Hn Hs]. cbn [rows row_index] in *. destruct (existsb (Z.eqb i) strat) eqn:Ex.
    + rewrite zlen_map in Hj. rewrite (znth_map (cons 0) []) by exact Hj. apply IH; assumption.
    + destruct (rows_len strat sh Hs (i + 1)) as [El Ev]. set (v := row_volume strat (i + 1) sh) in *.
      assert (Hf : forall m a j, 0 <= j < zlen (flat_map (fun k => map (cons k) (rows strat (i + 1) sh)) (zseq a m)) ->
        match znth [] (flat_map (fun k => map (cons k) (rows strat (i + 1) sh)) (zseq a m)) j with k :: p' => k * v + row_index strat (i + 1) sh p' = j + a * v | [] => False end).
      { clear j Hj. induction m as [|m IHm]; intros a j Hj; [unfold zlen in Hj; cbn in Hj; lia|]. rewrite zseq_S in *. cbn [flat_map] in *. rewrite zlen_app, zlen_map, El in Hj. rewrite znth_app, zlen_map, El. destruct (Z.ltb_spec j v).
        - rewrite (znth_map (cons a) []) by lia. rewrite IH by (try assumption; lia). lia.
        - specialize (IHm (a + 1) (j - v) ltac:(lia)). destruct (znth [] _ (j - v)) as [|k p']; [exact IHm|]. lia. }
      specialize (Hf (Z.to_nat n) 0 j Hj). destruct (znth [] _ j) as [|k p']; [destruct Hf|]. lia.
Qed.

Lemma cend_upd sh off nb rs d k : forall p, okdim sh d -> Forall (okdim sh) rs -> In d rs -> cend sh off nb rs (zupd p d k) = cend sh off nb rs p.
Proof.
  induction rs as [|e rs IH]; intros p Hd Hr Hin; [destruct Hin|]. apply Forall_cons_iff in Hr. destruct Hr as [He Hr]. unfold okdim in Hd, He. cbn [cend]. f_equal. apply map_ext. intros j. destruct (Z.eq_dec d e) as [->|Hne]; [rewrite zupd_zupd; reflexivity|].
  destruct Hin as [E|Hin]; [lia|]. rewrite zupd_comm by lia. apply IH; assumption.
Qed.
Lemma cend_zeros sh off nb rs ds : forall p, Forall (okdim sh) rs -> incl ds rs -> cend sh off nb rs (zeros ds p) = cend sh off nb rs p.
Proof.
  induction ds as [|d ds IH]; intros p Hr Hi; [reflexivity|]. cbn [zeros fold_left]. fold (zeros ds (zupd p d 0)). rewrite IH; [|exact Hr|intros x Hx; apply Hi; right; exact Hx]. apply cend_upd; [|exact Hr|apply Hi; left; reflexivity]. rewrite Forall_forall in Hr. apply Hr. apply Hi. left. reflexivity.
Qed.

Section Run.
Context {A : Type}.
Variable sh strat : list Z.
Variable ev : pos -> list (Z * A).
Variable off nb : pos -> Z.
Variable V : Z.

(** What the builder of the target bins has to deliver. *)
Record mappable : Prop := {
  mp_shape : Forall (fun n => 0 <= n) sh;
  mp_dims : Forall (okdim sh) strat;
  mp_nodup : NoDup strat;
  mp_window : forall p, valid sh p -> 0 <= off p /\ 0 <= nb p /\ off p + nb p <= V;
  mp_targets : forall p, valid sh p -> targets_below (nb p) (ev p);
  mp_ends : forall d, In d strat -> ends_grow sh off nb d;
  mp_begins : match strat with d :: _ => begins_grow sh off d | [] => True end;
  mp_volume : 0 <= V
}.
Hypothesis M : mappable.
Notation rs := (rev strat).
Notation contents := (contents sh ev off nb).
Notation rank := (rank sh ev off nb).
Notation vals := (vals ev off nb).
Notation R := (rows strat 0 sh).

(** the output bins, in order *)
Definition output : list (list A) := flat_map (fun q => map (contents rs q) (zseq 0 (Z.to_nat V))) R.
Definition row_of (q : pos) : list A := flat_map (contents rs q) (zseq 0 (Z.to_nat V)).
Lemma output_rows : concat output = flat_map row_of R.
Proof. unfold output. induction R as [|q l IH]; [reflexivity|]. cbn [flat_map]. rewrite concat_app, IH. f_equal. symmetry. apply flat_map_concat_map. Qed.

Lemma dims_rs : Forall (okdim sh) rs.
Proof. apply Forall_rev. apply M. Qed.
Lemma nodup_rs : NoDup rs.
Proof. apply NoDup_rev. apply M. Qed.

Lemma cend_le rs' : Forall (okdim sh) rs' -> forall p, validx sh rs' p -> cend sh off nb rs' p <= V.
Proof.
  induction rs' as [|d rs' IH]; intros Hr p Hp; cbn [cend]; [apply (mp_window M p Hp)|]. apply Forall_cons_iff in Hr. destruct Hr as [Hd Hr].
  assert (Hf : forall l m, (forall x, In x l -> x <= V) -> m <= V -> fold_left Z.max l m <= V). { clear. induction l as [|x l IH]; intros m Hl Hm; cbn [fold_left]; [exact Hm|]. apply IH; [intros; apply Hl; right; assumption|]. specialize (Hl x ltac:(left; reflexivity)). lia. }
  apply Hf; [|apply M]. intros x Hx. apply in_map_iff in Hx. destruct Hx as (k & <- & Hk). apply In_zseq in Hk. apply IH; [exact Hr|]. apply validx_upd; [exact Hd|exact Hp|lia].
Qed.

Lemma strategy_inv : offs_inv sh ev off nb rs (fst (strategy_loop sh strat (offsets0 ev off nb) (sizes0 ev off nb))) /\ sizes_inv sh ev off nb rs (out_sizes sh strat ev off nb).
Proof.
  assert (Hw : forall p, valid sh p -> 0 <= off p /\ 0 <= nb p) by (intros p Hp; destruct (mp_window M p Hp) as (? & ? & _); split; assumption).
  pose proof (strategy_ok sh ev off nb Hw (mp_targets M) strat [] (offsets0 ev off nb) (sizes0 ev off nb) (mp_dims M) (Forall_nil _)) as Hs. rewrite app_nil_r in Hs. apply Hs.
  - apply nodup_rs.
  - apply M.
  - intros _. apply M.
  - apply offsets0_inv; [exact Hw|apply M].
  - apply sizes0_inv; [exact Hw|apply M].
Qed.

Lemma row_ok q : In q R -> validx sh rs q /\ canon strat 0 q = q.
Proof.
  intros Hq. destruct (rows_valid strat sh 0 q Hq) as (L & C & N). split; [|exact C]. split; [exact L|]. intros i Hi Hn. apply N; [exact Hi|]. rewrite Z.add_0_l. destruct (existsb (Z.eqb i) strat) eqn:E; [|reflexivity]. apply existsb_In in E. exfalso. apply Hn. apply in_rev. rewrite rev_involutive. exact E.
Qed.
Lemma canon_ok p : valid sh p -> validx sh rs (canon strat 0 p).
Proof.
  intros [L N]. split; [rewrite canon_len; exact L|]. intros i Hi Hn. unfold okdim in Hi. rewrite canon_nth by lia. rewrite Z.add_0_l. destruct (existsb (Z.eqb i) strat) eqn:E; [|apply N; [exact Hi|intros []]]. exfalso. apply Hn. apply in_rev. rewrite rev_involutive. apply existsb_In. exact E.
Qed.
Lemma contents_canon p b : zlen p = zlen sh -> contents rs (canon strat 0 p) b = contents rs p b.
Proof. intros L. rewrite canon_zeros by (rewrite L; apply M). apply contents_zeros; [apply dims_rs|]. intros x Hx. apply -> in_rev. exact Hx. Qed.

Lemma psum_window s q b : so s = cbeg off rs q -> 0 <= so s -> so s <= b -> (forall b, full s b = zlen (contents rs q b)) -> sumZ (map (full s) (zseq (so s) (Z.to_nat (b - so s)))) = psum (fun b => zlen (contents rs q b)) b.
Proof.
  intros Eo H0 Hb F. unfold psum. replace (Z.to_nat b) with (Z.to_nat (so s) + Z.to_nat (b - so s))%nat by lia. assert (Hz : forall a n m, zseq a (n + m) = zseq a n ++ zseq (a + Z.of_nat n) m).
  { clear. intros a n m. revert a. induction n as [|n IH]; intros a; [cbn [Nat.add]; rewrite Z.add_0_r; reflexivity|]. cbn [Nat.add]. rewrite !zseq_S, IH. cbn [app]. do 3 f_equal. lia. }
  rewrite Hz, map_app, sumZ_app, Z2Nat.id, Z.add_0_l by lia. rewrite (sumZ_map_0 _ (zseq 0 (Z.to_nat (so s)))).
  - rewrite Z.add_0_l. f_equal. apply map_ext. exact F.
  - intros k Hk. apply In_zseq in Hk. rewrite <- F. apply full_out. unfold in_window. lia.
Qed.

Lemma row_size q s : validx sh rs q -> so s = cbeg off rs q -> so s + zlen (ss s) = cend sh off nb rs q -> 0 <= so s -> (forall b, full s b = zlen (contents rs q b)) -> sb_sum s = zlen (row_of q).
Proof.
  intros Hq Eo El H0 F. rewrite (C21_sum s 0 (Z.to_nat V)) by (try lia; pose proof (cend_le rs dims_rs q Hq); pose proof (mp_volume M); lia). unfold row_of. rewrite zlen_flat_map. f_equal. apply map_ext. exact F.
Qed.
Lemma cbeg_nonneg q : validx sh rs q -> 0 <= cbeg off rs q.
Proof. intros Hq. destruct rs; cbn [cbeg]; [apply (mp_window M q Hq)|lia]. Qed.

Lemma filtered_ok : filtered sh strat ev off nb = Ok (map (fun q => zlen (row_of q)) R).
Proof.
  unfold filtered. apply mapM_ok. intros q Hq. apply row_ok in Hq. destruct Hq as [Hq _]. destruct (proj2 strategy_inv q Hq) as (s & E & Eo & El & F). rewrite E. cbn [bind]. f_equal. apply row_size; try assumption. rewrite Eo. apply cbeg_nonneg. exact Hq.
Qed.
Lemma total_ok : total_size sh strat ev off nb = Ok (zlen (concat output)).
Proof. unfold total_size. rewrite filtered_ok. cbn [bind]. rewrite cumsum_inclusive_last, Z.add_0_l, output_rows, zlen_flat_map. reflexivity. Qed.

Lemma row_index_ok p : valid sh p -> 0 <= row_index strat 0 sh p < zlen R /\ znth [] R (row_index strat 0 sh p) = canon strat 0 p.
Proof.
  intros [L N]. rewrite (proj1 (rows_len strat sh (mp_shape M) 0)). apply rows_index; [apply M|exact L|]. intros j Hj _. apply N; [exact Hj|intros []].
Qed.
Lemma range_ok p : valid sh p -> range_begin sh strat ev off nb p = Ok (presum (fun q => zlen (row_of q)) R (row_index strat 0 sh p)).
Proof.
  intros Hp. destruct (row_index_ok p Hp) as [Hi _]. unfold range_begin. rewrite filtered_ok. cbn [bind]. rewrite (vget_znth 0) by (rewrite cumsum_inclusive_len, zlen_map; exact Hi). cbn [bind]. rewrite (vget_znth 0) by (rewrite zlen_map; exact Hi). cbn [bind]. rewrite cumsum_inclusive_nth by (rewrite zlen_map; exact Hi). rewrite presum_map. f_equal. lia.
Qed.

(** position of the first event of [p] in the output bin [b] *)
Definition start (p : pos) (b : Z) : Z := presum (fun q => zlen (row_of q)) R (row_index strat 0 sh p) + psum (fun b => zlen (contents rs (canon strat 0 p) b)) b + rank rs p b.

Lemma offsets_ok p : valid sh p -> exists o, offsets sh strat ev off nb p = Ok o /\ so o = off p /\ zlen (ss o) = nb p /\ forall b, off p <= b < off p + nb p -> full o b = psum (fun b => zlen (contents rs (canon strat 0 p) b)) b + rank rs p b.
Proof.
  intros Hp. destruct (proj1 strategy_inv p Hp) as (o & E & Eo & El & F). pose proof (canon_ok p Hp) as Hq. destruct (proj2 strategy_inv _ Hq) as (s & Es & Eso & Esl & Fs). unfold offsets. rewrite E. cbn [bind]. rewrite Es. cbn [bind].
  assert (H0 : 0 <= so s) by (rewrite Eso; apply cbeg_nonneg; exact Hq). destruct (C21_cumsum_exclusive s H0) as (c & Ec & Eco & Ecl & Fc). rewrite Ec. cbn [bind]. destruct (C21_add_intersection o c) as (r & Er & Ero & Erl & Fr). exists r. split; [exact Er|]. split; [lia|]. split; [lia|].
  intros b Hb. rewrite Fr by (unfold in_window; lia). rewrite F by exact Hb.
  assert (Hwb : in_window s b).
  { unfold in_window. rewrite Esl, Eso. assert (Hcb : cbeg off rs (canon strat 0 p) <= off p /\ off p + nb p <= cend sh off nb rs (canon strat 0 p)); [|lia]. pose proof (mp_window M p Hp) as (W1 & W2 & W3).
    assert (Hce : cend sh off nb rs (canon strat 0 p) = cend sh off nb rs p). { rewrite canon_zeros by (rewrite (proj1 Hp); apply M). apply cend_zeros; [apply dims_rs|]. intros x Hx. apply -> in_rev. exact Hx. }
    split; [|rewrite Hce; apply (cend_ge sh ev off nb); [intros p0 Hp0; destruct (mp_window M p0 Hp0) as (? & ? & _); split; assumption|apply M|apply dims_rs|exact Hp]].
    destruct rs as [|e l] eqn:Er0; cbn [cbeg]; [|lia]. assert (strat = []) as E0 by (rewrite <- (rev_involutive strat), Er0; reflexivity). rewrite canon_zeros by (rewrite (proj1 Hp); apply M). rewrite E0. cbn [zeros fold_left]. lia. }
  rewrite Fc by exact Hwb. rewrite (psum_window s (canon strat 0 p)) by (try assumption; unfold in_window in Hwb; lia). lia.
Qed.

(** the writes of an input bin *)
Lemma writes_ok p : valid sh p -> exists w, writes sh strat ev off nb p = Ok w /\
  forall y a, In (y, a) w <-> exists b r, off p <= b < off p + nb p /\ y = start p b + r /\ zget (vals p b) r = Some a.
Proof.
  intros Hp. destruct (offsets_ok p Hp) as (o & E & Eo & El & F). unfold writes. rewrite E. cbn [bind]. rewrite (range_ok p Hp). cbn [bind]. destruct (map_kernel_ok o (ev p)) as (w & Ew & P); [rewrite El; apply M; exact Hp|]. rewrite Ew. cbn [bind]. eexists. split; [reflexivity|].
  intros y a. rewrite in_map_iff. split.
  - intros ([x a'] & Exy & Hin). cbn [fst snd] in Exy. injection Exy as <- <-. apply P in Hin. destruct Hin as (t & r & Ht & Ex & Er). exists (off p + t), (Z.of_nat r). split; [lia|]. split.
    + unfold start. specialize (F (off p + t) ltac:(lia)). unfold full in F. rewrite Eo in F. replace (off p + t - off p) with t in F by lia. lia.
    + unfold Mapper_Proofs.vals. replace ((off p <=? off p + t) && (off p + t <? off p + nb p)) with true by lia. replace (off p + t - off p) with t by lia. unfold zget. replace (Z.of_nat r <? 0) with false by lia. rewrite Nat2Z.id. exact Er.
  - intros (b & r & Hb & Ey & Er). pose proof (zget_Some _ _ _ Er) as Hr. exists (full o b + r, a). split; [cbn [fst snd]; f_equal; rewrite Ey; unfold start; rewrite F by exact Hb; lia|]. apply P. exists (b - off p), (Z.to_nat r). split; [lia|]. split; [unfold full; rewrite Eo; lia|].
    unfold Mapper_Proofs.vals in Er. replace ((off p <=? b) && (b <? off p + nb p)) with true in Er by lia. unfold zget in Er. replace (r <? 0) with false in Er by lia. exact Er.
Qed.

Lemma vals_window p b r a : zget (vals p b) r = Some a -> off p <= b < off p + nb p.
Proof. unfold Mapper_Proofs.vals. destruct ((off p <=? b) && (b <? off p + nb p)) eqn:E; [lia|]. unfold zget. destruct (r <? 0); [discriminate|]. destruct (Z.to_nat r); discriminate. Qed.

Lemma start_ok p b r a : valid sh p -> zget (vals p b) r = Some a -> zget (concat output) (start p b + r) = Some a.
Proof.
  intros Hp Er. pose proof (zget_Some _ _ _ Er) as Hr. pose proof (vals_window p b r a Er) as Hb. pose proof (mp_window M p Hp) as (W1 & W2 & W3). destruct (row_index_ok p Hp) as [Hi Eq]. set (q := canon strat 0 p) in *.
  destruct (rank_ok sh ev off nb rs p b r dims_rs Hp Hr) as [Hlt Hz]. pose proof (rank_nonneg sh ev off nb rs p b). assert (Hcq : contents rs q b = contents rs p b) by (apply contents_canon; apply Hp).
  rewrite output_rows. unfold start. fold q.
  assert (Hrow : zget (row_of q) (psum (fun b => zlen (contents rs q b)) b + (rank rs p b + r)) = Some a).
  { unfold row_of. rewrite zget_flat_map0; [rewrite Hcq, Hz; exact Er|lia|rewrite Hcq; lia]. }
  pose proof (zget_Some _ _ _ Hrow) as Hrr. replace (_ + r) with (presum (fun q => zlen (row_of q)) R (row_index strat 0 sh p) + (psum (fun b => zlen (contents rs q b)) b + (rank rs p b + r))) by lia. rewrite (zget_concat []); rewrite ?Eq; [exact Hrow|exact Hi|exact Hrr].
Qed.

Lemma start_cover y : 0 <= y < zlen (concat output) -> exists p b r a, valid sh p /\ zget (vals p b) r = Some a /\ y = start p b + r.
Proof.
  rewrite output_rows. intros Hy. destruct (concat_split [] _ _ y Hy) as (i & y1 & Hi & Hy1 & Ey). set (q := znth [] R i) in *. assert (Hq : In q R) by (apply znth_In; exact Hi). destruct (row_ok q Hq) as [Hqv Hqc].
  unfold row_of in Hy1. destruct (concat_split 0 _ _ y1 Hy1) as (b & y2 & Hb & Hy2 & Ey1). rewrite zlen_zseq in Hb. rewrite znth_zseq in Hy2 by lia. rewrite Z.add_0_l in Hy2. rewrite presum_zseq in Ey1 by lia.
  destruct (rank_cover sh ev off nb rs q b y2 dims_rs nodup_rs Hqv Hy2) as (p & r & Hp & Ha & Hr & Ey2).
  assert (Hpq : canon strat 0 p = q).
  { rewrite <- Hqc. destruct Hp as [L N]. destruct Hqv as [Lq _]. apply (znth_ext 0); [rewrite !canon_len; congruence|]. intros j Hj. rewrite canon_len in Hj. rewrite !canon_nth by lia. rewrite Z.add_0_l. destruct (existsb (Z.eqb j) strat) eqn:E; [reflexivity|]. apply Ha; [unfold okdim; lia|]. intros X. apply in_rev in X. apply existsb_In in X. congruence. }
  destruct (row_index_ok p Hp) as [Hri Eri]. rewrite Hpq in Eri.
  assert (Eii : row_index strat 0 sh p = i) by (rewrite <- row_index_canon, Hpq; apply row_index_inv; [apply M|exact Hi]).
  exists p, b, r. destruct (zget (vals p b) r) as [a|] eqn:Ez; [|exfalso; unfold zget in Ez; replace (r <? 0) with false in Ez by lia; apply nth_error_None in Ez; unfold zlen in Hr; lia].
  exists a. split; [exact Hp|]. split; [reflexivity|]. unfold start. rewrite Eii, Hpq. lia.
Qed.

Lemma start_inj p p' b b' r r' a a' : valid sh p -> valid sh p' -> zget (vals p b) r = Some a -> zget (vals p' b') r' = Some a' -> start p b + r = start p' b' + r' -> p = p'.
Proof.
  intros Hp Hp' Er Er' E. pose proof (zget_Some _ _ _ Er) as Hr. pose proof (zget_Some _ _ _ Er') as Hr'. pose proof (vals_window p b r a Er) as Hb. pose proof (vals_window p' b' r' a' Er') as Hb'. pose proof (mp_window M p Hp) as (W1 & W2 & W3). pose proof (mp_window M p' Hp') as (W1' & W2' & W3').
  destruct (row_index_ok p Hp) as [Hi Eq]. destruct (row_index_ok p' Hp') as [Hi' Eq'].
  destruct (rank_ok sh ev off nb rs p b r dims_rs Hp Hr) as [Hlt _]. destruct (rank_ok sh ev off nb rs p' b' r' dims_rs Hp' Hr') as [Hlt' _]. pose proof (rank_nonneg sh ev off nb rs p b). pose proof (rank_nonneg sh ev off nb rs p' b').
  rewrite <- (contents_canon p b) in Hlt by apply Hp. rewrite <- (contents_canon p' b') in Hlt' by apply Hp'. unfold start in E.
  set (q := canon strat 0 p) in *. set (q' := canon strat 0 p') in *. set (g := fun q => zlen (row_of q)) in *. assert (Hg : forall q, 0 <= g q) by (intros; apply zlen_nonneg).
  assert (Hrow : forall q b, 0 <= b < V -> psum (fun b => zlen (contents rs q b)) b + zlen (contents rs q b) <= g q).
  { intros q0 b0 Hb0. unfold g, row_of. rewrite zlen_flat_map. change (sumZ _) with (psum (fun b => zlen (contents rs q0 b)) V). apply (psum_sep (fun b => zlen (contents rs q0 b))); [intros; apply zlen_nonneg|lia]. }
  pose proof (Hrow q b ltac:(lia)) as G1. pose proof (Hrow q' b' ltac:(lia)) as G2. pose proof (psum_ge0 (fun b => zlen (contents rs q b)) b (fun b => zlen_nonneg _)). pose proof (psum_ge0 (fun b => zlen (contents rs q' b)) b' (fun b => zlen_nonneg _)).
  assert (Ei : row_index strat 0 sh p = row_index strat 0 sh p').
  { destruct (Z.lt_trichotomy (row_index strat 0 sh p) (row_index strat 0 sh p')) as [Hl|[He|Hl]]; [|exact He|]; exfalso.
    - pose proof (presum_sep [] g R Hg _ _ (conj (proj1 Hi) Hl) (proj2 Hi)) as X. rewrite Eq in X. lia.
    - pose proof (presum_sep [] g R Hg _ _ (conj (proj1 Hi') Hl) (proj2 Hi')) as X. rewrite Eq' in X. lia. }
  rewrite Ei in E, Eq. assert (Eqq : q = q') by congruence. rewrite <- Eqq in *.
  assert (Ebb : b = b').
  { destruct (Z.lt_trichotomy b b') as [Hl|[He|Hl]]; [|exact He|]; exfalso.
    - pose proof (psum_sep (fun b => zlen (contents rs q b)) b b' (fun b => zlen_nonneg _) ltac:(lia)) as X. cbv beta in X. lia.
    - pose proof (psum_sep (fun b => zlen (contents rs q b)) b' b (fun b => zlen_nonneg _) ltac:(lia)) as X. cbv beta in X. lia. }
  subst b'. apply (rank_inj sh ev off nb rs p p' b r r' dims_rs Hp Hp'); try assumption; [|lia].
  intros i Hio Hn. assert (Hc : znth 0 q i = znth 0 q' i) by (rewrite Eqq; reflexivity). unfold q, q' in Hc. unfold okdim in Hio. destruct Hp as [L _], Hp' as [L' _]. rewrite !canon_nth in Hc by lia. rewrite Z.add_0_l in Hc. destruct (existsb (Z.eqb i) strat) eqn:Ex; [|exact Hc]. exfalso. apply Hn. apply in_rev. rewrite rev_involutive. apply existsb_In. exact Ex.
Qed.

Lemma bin_sizes_ok : bin_sizes sh strat ev off nb V = Ok (map zlen output).
Proof.
  unfold bin_sizes. set (g := fun q => match out_sizes sh strat ev off nb q with Ok s => s | _ => mksub 0 [] end).
  assert (Hg : forall q, In q R -> out_sizes sh strat ev off nb q = Ok (g q) /\ 0 <= so (g q) /\ so (g q) + zlen (ss (g q)) <= V /\ forall b, full (g q) b = zlen (contents rs q b)).
  { intros q Hq. apply row_ok in Hq. destruct Hq as [Hq _]. destruct (proj2 strategy_inv q Hq) as (s & E & Eo & El & F). unfold g. rewrite E. split; [reflexivity|]. split; [rewrite Eo; apply cbeg_nonneg; exact Hq|]. split; [rewrite El; apply cend_le; [apply dims_rs|exact Hq]|exact F]. }
  rewrite (mapM_ok _ g) by (intros q Hq; apply Hg; exact Hq). cbn [bind]. destruct (C21_flatten V (map g R) (mp_volume M)) as (out & E & L & N).
  - apply Forall_forall. intros s Hs. apply in_map_iff in Hs. destruct Hs as (q & <- & Hq). destruct (Hg q Hq) as (_ & G1 & G2 & _). split; assumption.
  - rewrite E. f_equal. rewrite zlen_map in L.
    assert (Hnth : forall i k, 0 <= i < zlen R -> 0 <= k < V -> znth 0 out (i * V + k) = zlen (contents rs (znth [] R i) k)).
    { intros i k Hi Hk. specialize (N (Z.to_nat i) (g (znth [] R i)) k). rewrite Z2Nat.id in N by lia. rewrite N; [apply Hg; apply znth_In; exact Hi| |exact Hk]. rewrite nth_error_map. unfold znth. replace (i <? 0) with false by lia. rewrite (nth_error_nth' _ []) by (unfold zlen in Hi; lia). reflexivity. }
    clear N E Hg. unfold output. clearbody g. revert out L Hnth. induction R as [|q l IH]; intros out L Hnth.
    + change (zlen (@nil (list Z))) with 0 in L. rewrite Z.mul_0_r in L. apply zlen_0_nil in L. subst out. reflexivity.
    + cbn [flat_map]. rewrite map_app, map_map. rewrite zlen_cons in L. pose proof (mp_volume M) as HV. pose proof (zlen_nonneg l). rewrite <- (firstn_skipn (Z.to_nat V) out). f_equal.
      * apply (znth_ext 0); [rewrite zlen_firstn, zlen_map, zlen_zseq by nia; lia|]. intros k Hk. rewrite zlen_firstn in Hk by nia. rewrite znth_firstn by lia. rewrite (znth_map _ 0) by (rewrite zlen_zseq; lia). rewrite znth_zseq, Z.add_0_l by lia. specialize (Hnth 0 k ltac:(rewrite zlen_cons; lia) Hk). rewrite znth_0 in Hnth. exact Hnth.
      * apply IH; [rewrite zlen_skipn by nia; nia|]. intros i k Hi Hk. rewrite znth_skipn by nia. specialize (Hnth (i + 1) k ltac:(rewrite zlen_cons; lia) Hk). rewrite znth_S in Hnth by lia. replace (i + 1 - 1) with i in Hnth by lia. rewrite <- Hnth. f_equal. lia.
Qed.

(** All writes of all input bins, in any order, fill the buffer with the output bins; bins of different input bins never touch the same element. *)
Theorem mapper_ok : bin_sizes sh strat ev off nb V = Ok (map zlen output) /\ total_size sh strat ev off nb = Ok (zlen (concat output)) /\
  (forall p, valid sh p -> exists w, writes sh strat ev off nb p = Ok w) /\
  (forall p p' w w' y a a', valid sh p -> valid sh p' -> writes sh strat ev off nb p = Ok w -> writes sh strat ev off nb p' = Ok w' -> In (y, a) w -> In (y, a') w' -> p = p') /\
  (forall W buf, (forall e, In e W <-> exists p w, valid sh p /\ writes sh strat ev off nb p = Ok w /\ In e w) -> zlen buf = zlen (concat output) -> apply_writes buf W = Ok (concat output)).
Proof.
  split; [exact bin_sizes_ok|]. split; [exact total_ok|]. split; [intros p Hp; destruct (writes_ok p Hp) as (w & E & _); exists w; exact E|]. split.
  - intros p p' w w' y a a' Hp Hp' Ew Ew' Hi Hi'. destruct (writes_ok p Hp) as (w1 & E1 & P1). destruct (writes_ok p' Hp') as (w2 & E2 & P2). rewrite E1 in Ew. rewrite E2 in Ew'. injection Ew as <-. injection Ew' as <-.
    apply P1 in Hi. apply P2 in Hi'. destruct Hi as (b & r & _ & Ey & Er). destruct Hi' as (b' & r' & _ & Ey' & Er'). apply (start_inj p p' b b' r r' a a'); try assumption. lia.
  - intros W buf HW Hl. apply apply_writes_ok; [|exact Hl|].
    + intros y a Hin. apply HW in Hin. destruct Hin as (p & w & Hp & Ew & Hin). destruct (writes_ok p Hp) as (w1 & E1 & P1). rewrite E1 in Ew. injection Ew as <-. apply P1 in Hin. destruct Hin as (b & r & _ & -> & Er). apply start_ok; assumption.
    + intros y Hy. right. destruct (start_cover y Hy) as (p & b & r & a & Hp & Er & ->). exists a. apply HW. destruct (writes_ok p Hp) as (w1 & E1 & P1). exists p, w1. split; [exact Hp|]. split; [exact E1|]. apply P1. exists b, r. split; [apply (vals_window p b r a Er)|]. split; [reflexivity|exact Er].
Qed.
End Run.
