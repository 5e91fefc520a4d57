(** Theorems about the mapping of events to output bins. *)
From Coq Require Import Permutation.
From Verif Require Import Base Arr Subbin_Model Subbin_Props BinKernel_Model BinKernel_Proofs Mapper_Model Mapper_Proofs Mapper_Proofs2 Mapper_Proofs3.

(** ** two stages *)
Lemma vals_of_flat_map {A X} (f : X -> list (Z * A)) b l : vals_of b (flat_map f l) = flat_map (fun x => vals_of b (f x)) l.
Proof. induction l as [|x l IH]; [reflexivity|]. cbn [flat_map]. rewrite vals_of_app, IH. reflexivity. Qed.
Lemma vals_of_out {A} n (ev : list (Z * A)) b : targets_below n ev -> n <= b -> vals_of b ev = [].
Proof. intros Ht Hb. apply vals_of_none. eapply Forall_impl; [|exact Ht]. intros e He. cbv beta in *. lia. Qed.
Lemma vals_coarse {A} chunk (ev : list (Z * A)) c f : 0 < chunk -> 0 <= f < chunk -> vals_of f (vals_of c (map (fun e => (fst e / chunk, (fst e mod chunk, snd e))) ev)) = vals_of (c * chunk + f) ev.
Proof.
  intros Hc Hf. induction ev as [|[t a] ev IH]; [reflexivity|]. cbn [map fst snd]. rewrite (vals_of_cons c), (vals_of_cons (c * chunk + f)). destruct (Z.eqb_spec (t / chunk) c) as [Ec|Ec].
  - rewrite vals_of_cons, IH. replace (t =? c * chunk + f) with (t mod chunk =? f); [reflexivity|]. pose proof (Z.div_mod t chunk ltac:(lia)). destruct (Z.eqb_spec (t mod chunk) f); destruct (Z.eqb_spec t (c * chunk + f)); try reflexivity; exfalso; nia.
  - rewrite IH. replace (t =? c * chunk + f) with false; [reflexivity|]. symmetry. apply Z.eqb_neq. intros ->. apply Ec. rewrite Z.add_comm, Z.div_add, Z.div_small by lia. lia.
Qed.
Lemma contents_coarse {A} sh (ev : pos -> list (Z * A)) V chunk nc rs : 0 < chunk -> V <= nc * chunk -> forall p c f, Forall (okdim sh) rs -> validx sh rs p -> (forall p, valid sh p -> targets_below V (ev p)) -> 0 <= c < nc -> 0 <= f < chunk ->
  vals_of f (contents sh (coarse_events chunk ev) (fun _ => 0) (fun _ => nc) rs p c) = contents sh ev (fun _ => 0) (fun _ => V) rs p (c * chunk + f).
Proof.
  intros Hch HV. induction rs as [|d rs IH]; intros p c f Hr Hp Ht Hc Hf; cbn [contents].
  - unfold vals. replace ((0 <=? c) && (c <? 0 + nc)) with true by lia. rewrite !Z.sub_0_r, Z.add_0_l. unfold coarse_events. rewrite vals_coarse by assumption. destruct ((0 <=? c * chunk + f) && (c * chunk + f <? V)) eqn:E; [reflexivity|]. apply (vals_of_out V); [apply Ht; exact Hp|nia].
  - apply Forall_cons_iff in Hr. destruct Hr as [Hd Hr]. rewrite vals_of_flat_map. rewrite !flat_map_concat_map. f_equal. apply map_ext_in. intros k Hk. apply In_zseq in Hk. apply IH; try assumption. apply validx_upd; [exact Hd|exact Hp|lia].
Qed.

Lemma contents_beyond {A} sh (ev : pos -> list (Z * A)) V rs : forall p b, V <= b -> contents sh ev (fun _ => 0) (fun _ => V) rs p b = [].
Proof.
  induction rs as [|d rs IH]; intros p b Hb; cbn [contents].
  - unfold vals. replace ((0 <=? b) && (b <? 0 + V)) with false by lia. reflexivity.
  - induction (zseq 0 (Z.to_nat (znth 0 sh d))) as [|k l IHl]; [reflexivity|]. cbn [flat_map]. rewrite IH, IHl by exact Hb. reflexivity.
Qed.

Lemma zseq_blocks (nc chunk : nat) : forall a, zseq (a * Z.of_nat chunk) (nc * chunk) = flat_map (fun c => map (fun f => c * Z.of_nat chunk + f) (zseq 0 chunk)) (zseq a nc).
Proof.
  induction nc as [|nc IH]; intros a; [reflexivity|]. rewrite zseq_S. cbn [flat_map Nat.mul]. rewrite <- IH.
  assert (Hz : forall a n m, zseq a (n + m) = zseq a n ++ zseq (a + Z.of_nat n) m). { clear. intros a n m. revert a. induction n as [|n IH]; intros a; [cbn [Nat.add]; rewrite Z.add_0_r; reflexivity|]. cbn [Nat.add]. rewrite !zseq_S, IH. cbn [app]. do 3 f_equal. lia. }
  rewrite Hz. f_equal; [|f_equal; lia]. unfold zseq. rewrite map_map. apply map_ext. intros. lia.
Qed.

Lemma outer_volume strat sh : forall i, row_volume [] 0 (outer_shape strat i sh) = row_volume strat i sh /\ forall j, row_volume [] j (outer_shape strat i sh) = row_volume strat i sh.
Proof.
  assert (Hg : forall sh i j, row_volume [] j (outer_shape strat i sh) = row_volume strat i sh); [|intros i; split; [apply Hg|intros; apply Hg]].
  clear sh. induction sh as [|n sh IH]; intros i j; [reflexivity|]. cbn [outer_shape row_volume]. destruct (existsb (Z.eqb i) strat); [apply IH|]. cbn [row_volume existsb]. rewrite IH. reflexivity.
Qed.
Lemma outer_nonneg strat sh : Forall (fun n => 0 <= n) sh -> forall i, Forall (fun n => 0 <= n) (outer_shape strat i sh).
Proof. induction sh as [|n sh IH]; intros Hs i; [constructor|]. apply Forall_cons_iff in Hs. destruct Hs as [Hn Hs]. cbn [outer_shape]. destruct (existsb (Z.eqb i) strat); [apply IH; exact Hs|]. constructor; [exact Hn|apply IH; exact Hs]. Qed.
Lemma volume_snoc sh n : forall i, row_volume [] i (sh ++ [n]) = row_volume [] i sh * n.
Proof. induction sh as [|m sh IH]; intros i; cbn [app row_volume existsb]; [lia|]. rewrite IH. lia. Qed.
Lemma fine_rows {A} shape2 (bins : list (list (Z * A))) : Forall (fun n => 0 <= n) shape2 -> zlen bins = row_volume [] 0 shape2 -> map (fine_events shape2 bins) (rows [] 0 shape2) = bins.
Proof.
  intros Hs Hl. destruct (rows_len [] shape2 Hs 0) as [El _]. apply (znth_ext []); [rewrite zlen_map; congruence|]. intros i Hi. rewrite zlen_map in Hi. rewrite (znth_map _ []) by exact Hi. unfold fine_events. rewrite row_index_inv by assumption. rewrite (vget_znth []) by lia. reflexivity.
Qed.

Lemma flat_map_map {X Y B} (g : Y -> list B) (f : X -> Y) l : flat_map g (map f l) = flat_map (fun x => g (f x)) l.
Proof. induction l as [|x l IH]; [reflexivity|]. cbn [map flat_map]. rewrite IH. reflexivity. Qed.
Lemma flat_map_flat_map {X Y B} (g : Y -> list B) (f : X -> list Y) l : flat_map g (flat_map f l) = flat_map (fun x => flat_map g (f x)) l.
Proof. induction l as [|x l IH]; [reflexivity|]. cbn [flat_map]. rewrite flat_map_app, IH. reflexivity. Qed.
Lemma flat_map_ext_in {X B} (g g' : X -> list B) l : (forall x, In x l -> g x = g' x) -> flat_map g l = flat_map g' l.
Proof. intros He. rewrite !flat_map_concat_map. f_equal. apply map_ext_in. exact He. Qed.
Lemma map_flat_map {X Y B} (g : Y -> B) (f : X -> list Y) l : map g (flat_map f l) = flat_map (fun x => map g (f x)) l.
Proof. induction l as [|x l IH]; [reflexivity|]. cbn [flat_map]. rewrite map_app, IH. reflexivity. Qed.

Lemma zseq_app' a n m : zseq a (n + m) = zseq a n ++ zseq (a + Z.of_nat n) m.
Proof. revert a. induction n as [|n IH]; intros a; [cbn [Nat.add]; rewrite Z.add_0_r; reflexivity|]. cbn [Nat.add]. rewrite !zseq_S, IH. cbn [app]. do 3 f_equal. lia. Qed.

Section TwoStage.
Context {A : Type}.
Variable sh strat : list Z.
Variable ev : pos -> list (Z * A).
Variable V chunk nc : Z.
Hypothesis Hsh : Forall (fun n => 0 <= n) sh.
Hypothesis Hdims : Forall (okdim sh) strat.
Hypothesis Hnd : NoDup strat.
Hypothesis Ht : forall p, valid sh p -> targets_below V (ev p).
Hypothesis HV : 0 <= V <= nc * chunk.
Hypothesis Hchunk : 0 < chunk.
Hypothesis Hnc : 0 <= nc.

Lemma constant_mappable {B} (ev' : pos -> list (Z * B)) n : 0 <= n -> (forall p, valid sh p -> targets_below n (ev' p)) -> mappable sh strat ev' (fun _ => 0) (fun _ => n) n.
Proof.
  intros Hn Ht'. constructor; try assumption; try (intros; lia).
  - intros d _ p k _ _. lia.
  - destruct strat as [|d l]; [exact I|]. intros p k _ _. lia.
Qed.
Lemma stage1_mappable : mappable sh strat (coarse_events chunk ev) (fun _ => 0) (fun _ => nc) nc.
Proof.
  apply constant_mappable; [exact Hnc|]. intros p Hp. unfold targets_below, coarse_events. apply Forall_map. eapply Forall_impl; [|exact (Ht p Hp)]. intros e He. cbv beta in He. cbn [fst]. apply Z.div_lt_upper_bound; nia.
Qed.
Notation out1 := (output sh strat (coarse_events chunk ev) (fun _ => 0) (fun _ => nc) nc).
Notation shape2 := (outer_shape strat 0 sh ++ [nc]).
Lemma shape2_nonneg : Forall (fun n => 0 <= n) shape2.
Proof. apply Forall_app. split; [apply outer_nonneg; exact Hsh|]. constructor; [exact Hnc|constructor]. Qed.
Lemma out1_len : zlen out1 = row_volume [] 0 shape2.
Proof.
  rewrite volume_snoc, (proj1 (outer_volume strat sh 0)). rewrite <- (proj1 (rows_len strat sh Hsh 0)). unfold output. rewrite zlen_flat_map. set (l := rows strat 0 sh). induction l as [|q l IH]; [reflexivity|]. cbn [map]. rewrite sumZ_cons, IH, zlen_map, zlen_zseq, zlen_cons. lia.
Qed.
Lemma targets_coarse : forall e, In e (concat out1) -> fst e < chunk.
Proof.
  assert (Hin : forall rs p c e, In e (contents sh (coarse_events chunk ev) (fun _ => 0) (fun _ => nc) rs p c) -> fst e < chunk).
  { induction rs as [|d rs IH]; intros p c e He; cbn [contents] in He.
    - unfold vals in He. destruct ((0 <=? c) && (c <? 0 + nc)); [|destruct He]. unfold vals_of, coarse_events in He. apply in_map_iff in He. destruct He as (x & <- & Hx). apply filter_In in Hx. destruct Hx as [Hx _]. apply in_map_iff in Hx. destruct Hx as (y & <- & _). cbn [fst snd]. apply Z.mod_pos_bound. exact Hchunk.
    - apply in_flat_map in He. destruct He as (k & _ & He). apply (IH _ _ _ He). }
  intros e He. apply in_concat in He. destruct He as (l & Hl & He). unfold output in Hl. apply in_flat_map in Hl. destruct Hl as (q & _ & Hl). apply in_map_iff in Hl. destruct Hl as (b & <- & _). apply (Hin _ _ _ _ He).
Qed.
Notation ev2 := (fine_events shape2 out1).
Lemma stage2_mappable : mappable shape2 [] ev2 (fun _ => 0) (fun _ => chunk) chunk.
Proof.
  constructor; try (intros; lia); try constructor; try exact shape2_nonneg; try lia.
  intros p Hp. unfold targets_below, fine_events. destruct (vget out1 (row_index [] 0 shape2 p)) as [l|?|] eqn:E; try constructor. apply Forall_forall. intros e He. apply targets_coarse. apply in_concat. exists l. split; [|exact He].
  apply (vget_Ok []) in E. destruct E as [Hi <-]. apply znth_In. exact Hi.
  intros d [].
Qed.
Notation out2 := (output shape2 [] ev2 (fun _ => 0) (fun _ => chunk) chunk).
Notation out := (output sh strat ev (fun _ => 0) (fun _ => V) V).

Lemma out2_eq : out2 = flat_map (fun q => map (contents sh ev (fun _ => 0) (fun _ => V) (rev strat) q) (zseq 0 (Z.to_nat (nc * chunk)))) (rows strat 0 sh).
Proof.
  transitivity (flat_map (fun bin => map (fun f => vals_of f bin) (zseq 0 (Z.to_nat chunk))) (map ev2 (rows [] 0 shape2))).
  - rewrite flat_map_map. unfold output. apply flat_map_ext. intros p. cbn [rev]. apply map_ext_in. intros b Hb. apply In_zseq in Hb. cbn [contents]. unfold vals. replace ((0 <=? b) && (b <? 0 + chunk)) with true by lia. rewrite Z.sub_0_r. reflexivity.
  - rewrite fine_rows by (try exact shape2_nonneg; exact out1_len). unfold output. rewrite flat_map_flat_map. apply flat_map_ext_in. intros q Hq. rewrite flat_map_map.
    pose proof (zseq_blocks (Z.to_nat nc) (Z.to_nat chunk) 0) as Hz. rewrite Z.mul_0_l in Hz. replace (Z.to_nat nc * Z.to_nat chunk)%nat with (Z.to_nat (nc * chunk)) in Hz by (rewrite Z2Nat.inj_mul by lia; reflexivity). rewrite Hz, map_flat_map. apply flat_map_ext_in. intros c Hc. apply In_zseq in Hc. rewrite map_map. apply map_ext_in. intros f Hf. apply In_zseq in Hf. rewrite Z2Nat.id by lia.
    apply contents_coarse; try assumption; try lia; [apply Forall_rev; exact Hdims|]. apply (row_ok sh strat). exact Hq.
Qed.
Lemma row_split q : map (contents sh ev (fun _ => 0) (fun _ => V) (rev strat) q) (zseq 0 (Z.to_nat (nc * chunk))) = map (contents sh ev (fun _ => 0) (fun _ => V) (rev strat) q) (zseq 0 (Z.to_nat V)) ++ repeat [] (Z.to_nat (nc * chunk - V)).
Proof.
  replace (Z.to_nat (nc * chunk)) with (Z.to_nat V + Z.to_nat (nc * chunk - V))%nat by lia. rewrite zseq_app', map_app. f_equal. apply (znth_ext []); [rewrite zlen_map, zlen_zseq, zlen_repeat; lia|]. intros i Hi. rewrite zlen_map, zlen_zseq in Hi. rewrite (znth_map _ 0), znth_repeat, znth_zseq by (rewrite ?zlen_zseq; lia). apply contents_beyond. lia.
Qed.
Lemma out2_concat : concat out2 = concat out.
Proof.
  rewrite out2_eq. unfold output. induction (rows strat 0 sh) as [|q l IH]; [reflexivity|]. cbn [flat_map]. rewrite !concat_app, IH, row_split, concat_app. f_equal. rewrite <- (app_nil_r (concat (map _ (zseq 0 (Z.to_nat V))))) at 2. f_equal. generalize (Z.to_nat (nc * chunk - V)). intros n. induction n as [|n IHn]; [reflexivity|]. exact IHn.
Qed.
Lemma out2_sizes : slice_rows (length (rows strat 0 sh)) (nc * chunk) V (map zlen out2) = map zlen out.
Proof.
  rewrite out2_eq. unfold output. induction (rows strat 0 sh) as [|q l IH]; [reflexivity|]. cbn [flat_map length slice_rows]. rewrite !map_app. set (u := map zlen (map _ (zseq 0 (Z.to_nat (nc * chunk))))). set (rest := map zlen (flat_map _ l)) in *.
  assert (Hu : length u = Z.to_nat (nc * chunk)) by (unfold u; rewrite !map_length; unfold zseq; rewrite map_length, seq_length; reflexivity). rewrite skipn_app, firstn_app. rewrite Hu. rewrite (proj2 (Nat.sub_0_le (Z.to_nat V) (Z.to_nat (nc * chunk)))) by lia. rewrite Nat.sub_diag. cbn [firstn skipn]. rewrite app_nil_r.
  rewrite skipn_all2 by lia. cbn [app]. rewrite IH. f_equal. unfold u. rewrite row_split, map_app. rewrite firstn_app. rewrite !map_length. replace (length (zseq 0 (Z.to_nat V))) with (Z.to_nat V) by (unfold zseq; rewrite map_length, seq_length; reflexivity). rewrite Nat.sub_diag. cbn [firstn]. rewrite app_nil_r. apply firstn_all2. rewrite !map_length. unfold zseq. rewrite map_length, seq_length. lia.
Qed.
End TwoStage.

(** ** C20: the mapping *)
(** For every input that fits the windows of the input bins ([mappable]): the writes of the input bins, in any order, fill the
    buffer; the sizes cut it into [output]: for every outer position and target bin the events of the input bins with that
    target, input bins in the order of nested loops over the rebinned dimensions, events of an input bin in their order. *)
Theorem C20_mapper {A} sh strat (ev : pos -> list (Z * A)) off nb V : mappable sh strat ev off nb V ->
  exists sizes total, bin_sizes sh strat ev off nb V = Ok sizes /\ total_size sh strat ev off nb = Ok total /\
  (forall p, valid sh p -> exists w, writes sh strat ev off nb p = Ok w) /\
  (forall p p' w w' y a a', valid sh p -> valid sh p' -> writes sh strat ev off nb p = Ok w -> writes sh strat ev off nb p' = Ok w' -> In (y, a) w -> In (y, a') w' -> p = p') /\
  (forall W buf, (forall e, In e W <-> exists p w, valid sh p /\ writes sh strat ev off nb p = Ok w /\ In e w) -> zlen buf = total ->
    exists out, apply_writes buf W = Ok out /\
      bins_of_sizes out sizes = flat_map (fun q => map (fun b => contents sh ev off nb (rev strat) q b) (zseq 0 (Z.to_nat V))) (rows strat 0 sh)).
Proof.
  intros M. destruct (mapper_ok sh strat ev off nb V M) as (Es & Et & Hw & Hd & Hb). eexists _, _. split; [exact Es|]. split; [exact Et|]. split; [exact Hw|]. split; [exact Hd|]. intros W buf HW Hl. eexists. split; [apply Hb; assumption|]. rewrite bins_of_sizes_concat. reflexivity.
Qed.
Print Assumptions C20_mapper.

(** No event with a target is lost or duplicated. *)
Fixpoint all_events {A} (sh : list Z) (ev : pos -> list (Z * A)) (rs : list Z) (p : pos) : list A :=
  match rs with [] => map snd (filter (fun e => 0 <=? fst e) (ev p)) | d :: rs' => flat_map (fun k => all_events sh ev rs' (zupd p d k)) (zseq 0 (Z.to_nat (znth 0 sh d))) end.
Lemma flat_map_split {X B} (f g : X -> list B) l : Permutation (flat_map (fun x => f x ++ g x) l) (flat_map f l ++ flat_map g l).
Proof.
  induction l as [|x l IH]; [apply Permutation_refl|]. cbn [flat_map]. rewrite IH. rewrite !app_assoc. apply Permutation_app_tail. rewrite <- !app_assoc. apply Permutation_app_head. apply Permutation_app_comm.
Qed.
Lemma flat_map_swap {X Y B} (f : X -> Y -> list B) l m : Permutation (flat_map (fun x => flat_map (f x) m) l) (flat_map (fun y => flat_map (fun x => f x y) l) m).
Proof.
  induction l as [|x l IH]; cbn [flat_map].
  - induction m as [|y m IHm]; [apply Permutation_refl|]. exact IHm.
  - rewrite IH. symmetry. apply (flat_map_split (f x) (fun y => flat_map (fun x => f x y) l)).
Qed.
Lemma flat_map_nil {X B} (f : X -> list B) l : (forall x, In x l -> f x = []) -> flat_map f l = [].
Proof. induction l as [|x l IH]; intros Hf; [reflexivity|]. cbn [flat_map]. rewrite Hf, IH by (try (left; reflexivity); intros; apply Hf; right; assumption). reflexivity. Qed.
Lemma vals_conserved {A} (ev : list (Z * A)) off nb V : 0 <= off -> 0 <= nb -> off + nb <= V -> targets_below nb ev ->
  Permutation (flat_map (fun b => if (off <=? b) && (b <? off + nb) then vals_of (b - off) ev else []) (zseq 0 (Z.to_nat V))) (map snd (filter (fun e => 0 <=? fst e) ev)).
Proof.
  intros Ho Hn Hv. induction ev as [|[t a] ev IH]; intros Ht.
  - rewrite flat_map_nil; [apply Permutation_refl|]. intros b _. destruct ((off <=? b) && (b <? off + nb)); reflexivity.
  - apply Forall_cons_iff in Ht. destruct Ht as [Ht Hev]. specialize (IH Hev). cbn [fst] in Ht. cbn [filter fst]. set (g := fun b => if (off <=? b) && (b <? off + nb) then vals_of (b - off) ev else []) in *.
    rewrite (flat_map_ext _ (fun b => (if (0 <=? t) && (b =? off + t) then [a] else []) ++ g b)).
    2:{ intros b. unfold g. rewrite vals_of_cons. destruct (Z.eqb_spec t (b - off)) as [->|Hne].
        - replace (0 <=? b - off) with (off <=? b) by lia. replace (b =? off + (b - off)) with true by lia. destruct (Z.leb_spec off b); [|reflexivity]. cbn [andb]. destruct (Z.ltb_spec b (off + nb)); [reflexivity|lia].
        - replace (b =? off + t) with false by lia. rewrite andb_false_r. reflexivity. }
    rewrite flat_map_split, IH. destruct (Z.leb_spec 0 t) as [Hp|Hp]; cbn [andb map].
    + change (snd (t, a)) with a. set (k := off + t). assert (Hk : 0 <= k < V) by (unfold k; lia). assert (E : flat_map (fun b => if b =? k then [a] else []) (zseq 0 (Z.to_nat V)) = [a]); [|rewrite E; apply Permutation_refl].
      replace (Z.to_nat V) with (Z.to_nat k + S (Z.to_nat (V - k - 1)))%nat by lia. rewrite zseq_app', flat_map_app. rewrite zseq_S. cbn [flat_map]. rewrite Z2Nat.id, Z.add_0_l, Z.eqb_refl by lia.
      rewrite flat_map_nil, (flat_map_nil _ (zseq (k + 1) _)); [reflexivity| |]; intros b Hb; apply In_zseq in Hb; replace (b =? k) with false by lia; reflexivity.
    + rewrite flat_map_nil by reflexivity. apply Permutation_refl.
Qed.
Lemma row_conserved {A} sh (ev : pos -> list (Z * A)) off nb V rs : (forall p, valid sh p -> 0 <= off p /\ 0 <= nb p /\ off p + nb p <= V) -> (forall p, valid sh p -> targets_below (nb p) (ev p)) -> forall p, Forall (okdim sh) rs -> validx sh rs p ->
  Permutation (flat_map (contents sh ev off nb rs p) (zseq 0 (Z.to_nat V))) (all_events sh ev rs p).
Proof.
  intros Hw Ht. induction rs as [|d rs IH]; intros p Hr Hp; cbn [contents all_events].
  - destruct (Hw p Hp) as (W1 & W2 & W3). apply vals_conserved; try assumption. apply Ht. exact Hp.
  - apply Forall_cons_iff in Hr. destruct Hr as [Hd Hr]. rewrite flat_map_swap. assert (Hk : forall k, In k (zseq 0 (Z.to_nat (znth 0 sh d))) -> 0 <= k < znth 0 sh d) by (intros k Hk; apply In_zseq in Hk; lia).
    induction (zseq 0 (Z.to_nat (znth 0 sh d))) as [|k l IHl]; [apply Permutation_refl|]. cbn [flat_map]. apply Permutation_app; [apply IH; [exact Hr|apply validx_upd; [exact Hd|exact Hp|apply Hk; left; reflexivity]]|]. apply IHl. intros; apply Hk; right; assumption.
Qed.
Theorem C20_conserved {A} sh strat (ev : pos -> list (Z * A)) off nb V : mappable sh strat ev off nb V ->
  Permutation (concat (flat_map (fun q => map (fun b => contents sh ev off nb (rev strat) q b) (zseq 0 (Z.to_nat V))) (rows strat 0 sh))) (flat_map (fun q => all_events sh ev (rev strat) q) (rows strat 0 sh)).
Proof.
  intros M. assert (Hq : forall q, In q (rows strat 0 sh) -> validx sh (rev strat) q) by (intros q Hq; apply (row_ok sh strat); exact Hq). induction (rows strat 0 sh) as [|q l IH]; [apply Permutation_refl|]. cbn [flat_map]. rewrite concat_app. apply Permutation_app; [|apply IH; intros; apply Hq; right; assumption].
  rewrite <- flat_map_concat_map. apply row_conserved; [apply M|apply M|apply Forall_rev; apply M|apply Hq; left; reflexivity].
Qed.
Print Assumptions C20_conserved.

(** One rebinned dimension (in particular a table split into pretended bins): stable in the order of the input bins. *)
Theorem C20_one_dim {A} n (ev : pos -> list (Z * A)) V : (forall k, 0 <= k < n -> targets_below V (ev [k])) -> 0 <= n -> 0 <= V ->
  mappable [n] [0] ev (fun _ => 0) (fun _ => V) V /\
  flat_map (fun q => map (fun b => contents [n] ev (fun _ => 0) (fun _ => V) (rev [0]) q b) (zseq 0 (Z.to_nat V))) (rows [0] 0 [n]) =
  map (fun b => map snd (filter (fun e => fst e =? b) (flat_map (fun k => ev [k]) (zseq 0 (Z.to_nat n))))) (zseq 0 (Z.to_nat V)).
Proof.
  intros Ht Hn HV. split.
  - constructor; try (intros; lia).
    + constructor; [exact Hn|constructor].
    + constructor; [unfold okdim, zlen; cbn; lia|constructor].
    + constructor; [intros []|constructor].
    + intros p [L N]. destruct p as [|k [|k2 p]]; try (unfold zlen in L; cbn in L; lia). apply Ht. specialize (N 0 ltac:(unfold okdim, zlen; cbn; lia) ltac:(intros [])). exact N.
    + intros d _ p k _ _. lia.
    + intros p k _ _. lia.
  - cbn [rows existsb Z.eqb orb map flat_map rev app]. rewrite app_nil_r. apply map_ext_in. intros b Hb. apply In_zseq in Hb. fold (vals_of b (flat_map (fun k => ev [k]) (zseq 0 (Z.to_nat n)))). rewrite vals_of_flat_map. cbn [contents]. change (znth 0 [n] 0) with n. apply flat_map_ext. intros k. change (zupd [0] 0 k) with [k]. unfold vals. replace ((0 <=? b) && (b <? 0 + V)) with true by lia. rewrite Z.sub_0_r. reflexivity.
Qed.
Print Assumptions C20_one_dim.

(** Two rebinned dimensions: the strategy is sorted by decreasing extent, and with extents 3 and 2 the events of an output bin
    are not in the row-major order of the input bins. *)
Theorem C20_row_major_refuted : exists (ev : pos -> list (Z * Z)), mappable [3; 2] [0; 1] ev (fun _ => 0) (fun _ => 1) 1 /\
  (forall i j, ev [i; j] = [(0, 10 * i + j)]) /\
  flat_map (fun q => map (fun b => contents [3; 2] ev (fun _ => 0) (fun _ => 1) (rev [0; 1]) q b) (zseq 0 (Z.to_nat 1))) (rows [0; 1] 0 [3; 2]) = [[0; 10; 20; 1; 11; 21]].
Proof.
  exists (fun p => [(0, 10 * znth 0 p 0 + znth 0 p 1)]). split; [|split; [reflexivity|reflexivity]]. constructor; try (intros; lia).
  - repeat constructor; lia.
  - repeat constructor; unfold zlen; cbn; lia.
  - repeat constructor; [intros [E|[]]; discriminate|intros []].
  - intros p _. repeat constructor; cbn; lia.
  - intros d _ p k _ _. lia.
  - intros p k _ _. lia.
Qed.
Print Assumptions C20_row_major_refuted.

(** ** C22: two stages give the buffer and sizes of one stage *)
Theorem C22_two_stage {A} sh strat (ev : pos -> list (Z * A)) V : mappable sh strat ev (fun _ => 0) (fun _ => V) V -> use_two_stage V = true ->
  let chunk := chunk_size V in let nc := n_coarse V in let shape2 := outer_shape strat 0 sh ++ [nc] in
  let ev1 := coarse_events chunk ev in
  exists sizes1 total1, bin_sizes sh strat ev1 (fun _ => 0) (fun _ => nc) nc = Ok sizes1 /\ total_size sh strat ev1 (fun _ => 0) (fun _ => nc) = Ok total1 /\
  forall W1 buf1, (forall e, In e W1 <-> exists p w, valid sh p /\ writes sh strat ev1 (fun _ => 0) (fun _ => nc) p = Ok w /\ In e w) -> zlen buf1 = total1 ->
  exists b1, apply_writes buf1 W1 = Ok b1 /\
  let ev2 := fine_events shape2 (bins_of_sizes b1 sizes1) in
  exists sizes2 total2, bin_sizes shape2 [] ev2 (fun _ => 0) (fun _ => chunk) chunk = Ok sizes2 /\ total_size shape2 [] ev2 (fun _ => 0) (fun _ => chunk) = Ok total2 /\
  forall W2 buf2, (forall e, In e W2 <-> exists p w, valid shape2 p /\ writes shape2 [] ev2 (fun _ => 0) (fun _ => chunk) p = Ok w /\ In e w) -> zlen buf2 = total2 ->
  exists b2, apply_writes buf2 W2 = Ok b2 /\
    bin_sizes sh strat ev (fun _ => 0) (fun _ => V) V = Ok (slice_rows (length (rows strat 0 sh)) (nc * chunk) V sizes2) /\
    total_size sh strat ev (fun _ => 0) (fun _ => V) = Ok (zlen b2) /\
    (forall W buf, (forall e, In e W <-> exists p w, valid sh p /\ writes sh strat ev (fun _ => 0) (fun _ => V) p = Ok w /\ In e w) -> zlen buf = zlen b2 -> apply_writes buf W = Ok b2).
Proof.
  intros M HV chunk nc shape2 ev1. unfold use_two_stage in HV. assert (Hbig : 16 * 1024 < V) by lia. pose proof (Z.sqrt_spec V ltac:(lia)) as Hsq. fold (chunk_size V) in Hsq. fold chunk in Hsq. cbv zeta in Hsq.
  assert (Hch : 0 < chunk) by nia. pose proof (Z.div_mod V chunk ltac:(lia)) as Hdm. pose proof (Z.mod_pos_bound V chunk Hch) as Hm. assert (Enc : nc = V / chunk + 1) by reflexivity. assert (Hnc0 : 0 <= V / chunk) by (apply Z.div_pos; lia).
  assert (HVn : 0 <= V <= nc * chunk) by (rewrite Enc; nia). assert (Hnc : 0 <= nc) by lia. clearbody chunk nc.
  assert (Ht : forall p, valid sh p -> targets_below V (ev p)) by apply M.
  pose proof (stage1_mappable sh strat ev V chunk nc (mp_shape _ _ _ _ _ _ M) (mp_dims _ _ _ _ _ _ M) (mp_nodup _ _ _ _ _ _ M) Ht HVn Hch Hnc) as M1. destruct (mapper_ok _ _ _ _ _ _ M1) as (Es1 & Et1 & _ & _ & Hb1). fold ev1 in Es1, Et1, Hb1, M1.
  eexists _, _. split; [exact Es1|]. split; [exact Et1|]. intros W1 buf1 HW1 Hl1. eexists. split; [apply Hb1; assumption|]. cbv zeta. rewrite bins_of_sizes_concat.
  assert (M2 : mappable shape2 [] (fine_events shape2 (output sh strat ev1 (fun _ => 0) (fun _ => nc) nc)) (fun _ => 0) (fun _ => chunk) chunk) by (eapply stage2_mappable; first [eassumption|apply M]). destruct (mapper_ok _ _ _ _ _ _ M2) as (Es2 & Et2 & _ & _ & Hb2).
  eexists _, _. split; [exact Es2|]. split; [exact Et2|]. intros W2 buf2 HW2 Hl2. eexists. split; [apply Hb2; assumption|].
  destruct (mapper_ok _ _ _ _ _ _ M) as (Es & Et & _ & _ & Hb).
  set (o2 := output shape2 [] _ _ _ _) in *. assert (Hsz : slice_rows (length (rows strat 0 sh)) (nc * chunk) V (map zlen o2) = map zlen (output sh strat ev (fun _ => 0) (fun _ => V) V)) by (apply out2_sizes; first [eassumption|apply M]).
  assert (Hcc : concat o2 = concat (output sh strat ev (fun _ => 0) (fun _ => V) V)) by (apply out2_concat; first [eassumption|apply M]).
  rewrite Hsz, Hcc. split; [exact Es|]. split; [exact Et|]. exact Hb.
Qed.
Print Assumptions C22_two_stage.

(** The events of three input bins with the targets 20000 (last but one bin), 5 and a dropped one, in 20001 bins. *)
Example C22_case : mappable [3] [0] (fun p => [(20000, znth 0 p 0); (5, 10 + znth 0 p 0); (-1, 7)]) (fun _ => 0) (fun _ => 20001) 20001 /\ use_two_stage 20001 = true /\ chunk_size 20001 = 141 /\ n_coarse 20001 = 142 /\
  contents [3] (fun p => [(20000, znth 0 p 0); (5, 10 + znth 0 p 0); (-1, 7)]) (fun _ => 0) (fun _ => 20001) [0] [0] 20000 = [0; 1; 2].
Proof.
  split; [|repeat split]. apply C20_one_dim; [|lia|lia]. intros k Hk. repeat constructor; cbn; lia.
Qed.
(** One stage, executed: two input bins of three events each, two target bins; the writes of the second input bin first. *)
Example C20_case : let ev (p : pos) := if znth 0 p 0 =? 0 then [(1, 100); (0, 101); (1, 102)] else [(0, 200); (-1, 201); (1, 202)] in
  mappable [2] [0] ev (fun _ => 0) (fun _ => 2) 2 /\ bin_sizes [2] [0] ev (fun _ => 0) (fun _ => 2) 2 = Ok [2; 3] /\
  writes [2] [0] ev (fun _ => 0) (fun _ => 2) [0] = Ok [(2, 100); (0, 101); (3, 102)] /\ writes [2] [0] ev (fun _ => 0) (fun _ => 2) [1] = Ok [(1, 200); (4, 202)] /\
  apply_writes [9; 9; 9; 9; 9] [(1, 200); (4, 202); (2, 100); (0, 101); (3, 102)] = Ok [101; 200; 100; 102; 202].
Proof.
  cbv zeta. split; [|repeat split]. apply C20_one_dim; [|lia|lia]. intros k Hk. change (znth 0 [k] 0) with k. destruct (Z.eqb_spec k 0); repeat constructor; cbn; lia.
Qed.
