(** Proofs for the mapping of the events of one input bin. *)
From Verif Require Import Base Arr Subbin_Model BinKernel_Model.

Section Kernel.
Context {A : Type}.
Notation event := (Z * A)%type.

(** values of the events with target [b], in order *)
Definition vals_of (b : Z) (ev : list event) : list A := map snd (filter (fun e => fst e =? b) ev).
Definition targets_below (n : Z) (ev : list event) : Prop := Forall (fun e => fst e < n) ev.

Lemma vals_of_cons b t a ev : vals_of b ((t, a) :: ev) = if t =? b then a :: vals_of b ev else vals_of b ev.
Proof. unfold vals_of. cbn [filter fst]. destruct (t =? b); reflexivity. Qed.
Lemma vals_of_app b e1 e2 : vals_of b (e1 ++ e2) = vals_of b e1 ++ vals_of b e2.
Proof. unfold vals_of. rewrite filter_app, map_app. reflexivity. Qed.

(** what the writes are, as a set: the [r]-th value with target [b] goes to position [bins[b] + r] *)
Definition placed (bins : list Z) (ev : list event) (w : list event) : Prop :=
  forall x a, In (x, a) w <-> exists b r, 0 <= b < zlen bins /\ x = znth 0 bins b + Z.of_nat r /\ nth_error (vals_of b ev) r = Some a.
(** and the cursors afterwards *)
Definition advanced (bins : list Z) (ev : list event) (bins' : list Z) : Prop :=
  zlen bins' = zlen bins /\ forall b, 0 <= b < zlen bins -> znth 0 bins' b = znth 0 bins b + zlen (vals_of b ev).

Lemma placed_cons bins t a ev w : 0 <= t < zlen bins -> placed (zupd bins t (znth 0 bins t + 1)) ev w -> placed bins ((t, a) :: ev) ((znth 0 bins t, a) :: w).
Proof.
  intros Ht Hp x y. cbn [In]. rewrite (Hp x y). split.
  - intros [E|(b & r & Hb & Ex & Er)].
    + injection E as <- <-. exists t, 0%nat. split; [exact Ht|]. split; [lia|]. rewrite vals_of_cons, Z.eqb_refl. reflexivity.
    + rewrite zlen_zupd in Hb. rewrite znth_zupd in Ex by exact Ht. destruct (Z.eqb_spec b t) as [->|Hne].
      * exists t, (S r). split; [exact Hb|]. split; [lia|]. rewrite vals_of_cons, Z.eqb_refl. exact Er.
      * exists b, r. split; [exact Hb|]. split; [exact Ex|]. rewrite vals_of_cons. replace (t =? b) with false by lia. exact Er.
  - intros (b & r & Hb & Ex & Er). rewrite vals_of_cons in Er. destruct (Z.eqb_spec t b) as [<-|Hne].
    + destruct r as [|r]; [left; cbn in Er; injection Er as <-; f_equal; lia|]. right. exists t, r. rewrite zlen_zupd, znth_zupd, Z.eqb_refl by exact Ht. split; [exact Hb|]. split; [lia|exact Er].
    + right. exists b, r. rewrite zlen_zupd, znth_zupd by exact Ht. replace (b =? t) with false by lia. auto.
Qed.
Lemma placed_skip bins t a ev w : t < 0 -> placed bins ev w -> placed bins ((t, a) :: ev) w.
Proof.
  intros Ht Hp x y. rewrite (Hp x y). split; intros (b & r & Hb & Ex & Er); exists b, r; (split; [exact Hb|]); (split; [exact Ex|]); rewrite vals_of_cons in *; replace (t =? b) with false in * by lia; exact Er.
Qed.

Lemma map_direct_ok ev : forall bins, targets_below (zlen bins) ev -> exists w, map_direct bins ev = Ok w /\ placed bins ev w.
Proof.
  induction ev as [|[t a] ev IH]; intros bins Ht.
  - exists []. split; [reflexivity|]. intros x y. split; [intros []|]. intros (b & r & _ & _ & Er). destruct r; discriminate.
  - apply Forall_cons_iff in Ht. destruct Ht as [Ht Hev]. cbn [fst] in Ht. cbn [map_direct]. destruct (Z.ltb_spec t 0) as [Hneg|Hpos].
    + destruct (IH bins Hev) as (w & E & P). exists w. split; [exact E|]. apply placed_skip; assumption.
    + rewrite (vget_znth 0) by lia. cbn [bind]. rewrite vset_zupd by lia. cbn [bind]. destruct (IH (zupd bins t (znth 0 bins t + 1))) as (w & E & P); [rewrite zlen_zupd; exact Hev|].
      rewrite E. cbn [bind]. eexists. split; [reflexivity|]. apply placed_cons; [lia|exact P].
Qed.

Lemma emit_ok ev : forall bins, Forall (fun e => 0 <= fst e < zlen bins) ev -> exists bins' w, emit bins ev = Ok (bins', w) /\ placed bins ev w /\ advanced bins ev bins'.
Proof.
  induction ev as [|[t a] ev IH]; intros bins Ht.
  - exists bins, []. split; [reflexivity|]. split.
    + intros x y. split; [intros []|]. intros (b & r & _ & _ & Er). destruct r; discriminate.
    + split; [reflexivity|]. intros b Hb. unfold zlen. cbn. lia.
  - apply Forall_cons_iff in Ht. destruct Ht as [Ht Hev]. cbn [fst] in Ht. cbn [emit].
    rewrite (vget_znth 0) by lia. cbn [bind]. rewrite vset_zupd by lia. cbn [bind]. destruct (IH (zupd bins t (znth 0 bins t + 1))) as (b' & w & E & P & L & N); [rewrite zlen_zupd; exact Hev|].
    rewrite E. cbn [bind fst snd]. eexists _, _. split; [reflexivity|]. split; [apply placed_cons; [lia|exact P]|]. rewrite zlen_zupd in *. split; [exact L|].
    intros b Hb. rewrite N, znth_zupd by lia. rewrite vals_of_cons. destruct (Z.eqb_spec b t) as [->|]; [rewrite Z.eqb_refl, zlen_cons; lia|]. replace (t =? b) with false by lia. reflexivity.
Qed.

Lemma placed_app bins e1 e2 w1 w2 bins1 : placed bins e1 w1 -> advanced bins e1 bins1 -> placed bins1 e2 w2 -> placed bins (e1 ++ e2) (w1 ++ w2).
Proof.
  intros P1 [L1 A1] P2 x y. rewrite in_app_iff, (P1 x y), (P2 x y). split.
  - intros [(b & r & Hb & Ex & Er)|(b & r & Hb & Ex & Er)].
    + exists b, r. split; [exact Hb|]. split; [exact Ex|]. rewrite vals_of_app, nth_error_app1; [exact Er|]. apply nth_error_Some. congruence.
    + rewrite L1 in Hb. rewrite A1 in Ex by exact Hb. exists b, (length (vals_of b e1) + r)%nat. split; [exact Hb|]. split; [unfold zlen in Ex; lia|].
      rewrite vals_of_app, nth_error_app2 by lia. replace (_ + r - _)%nat with r by lia. exact Er.
  - intros (b & r & Hb & Ex & Er). rewrite vals_of_app in Er. destruct (Nat.lt_ge_cases r (length (vals_of b e1))) as [Hr|Hr].
    + left. rewrite nth_error_app1 in Er by exact Hr. exists b, r. auto.
    + right. rewrite nth_error_app2 in Er by exact Hr. exists b, (r - length (vals_of b e1))%nat. rewrite L1, A1 by exact Hb. split; [exact Hb|]. split; [unfold zlen; lia|exact Er].
Qed.
Lemma advanced_app bins e1 e2 bins1 bins2 : advanced bins e1 bins1 -> advanced bins1 e2 bins2 -> advanced bins (e1 ++ e2) bins2.
Proof.
  intros [L1 A1] [L2 A2]. split; [lia|]. intros b Hb. rewrite A2 by lia. rewrite A1 by exact Hb. rewrite vals_of_app, zlen_app. lia.
Qed.
Lemma placed_ext bins e1 e2 w : (forall b, 0 <= b < zlen bins -> vals_of b e1 = vals_of b e2) -> placed bins e1 w -> placed bins e2 w.
Proof. intros He P x y. rewrite (P x y). split; intros (b & r & Hb & Ex & Er); exists b, r; (split; [exact Hb|]); (split; [exact Ex|]); [rewrite <- He|rewrite He]; assumption. Qed.
Lemma advanced_ext bins e1 e2 bins' : (forall b, 0 <= b < zlen bins -> vals_of b e1 = vals_of b e2) -> advanced bins e1 bins' -> advanced bins e2 bins'.
Proof. intros He [L N]. split; [exact L|]. intros b Hb. rewrite N, He by exact Hb. reflexivity. Qed.

(** ** chunks *)
Fixpoint unchunk (cs i : Z) (chunks : list (list event)) : list event :=
  match chunks with [] => [] | c :: chunks' => map (fun e => (cs * i + fst e, snd e)) c ++ unchunk cs (i + 1) chunks' end.

Lemma emit_chunks_ok cs chunks : forall i bins, Forall (fun e => 0 <= fst e < zlen bins) (unchunk cs i chunks) ->
  exists bins' w, emit_chunks cs i bins chunks = Ok (bins', w) /\ placed bins (unchunk cs i chunks) w /\ advanced bins (unchunk cs i chunks) bins'.
Proof.
  induction chunks as [|c chunks IH]; intros i bins Ht; cbn [emit_chunks unchunk] in *.
  - exists bins, []. split; [reflexivity|]. split.
    + intros x y. split; [intros []|]. intros (b & r & _ & _ & Er). destruct r; discriminate.
    + split; [reflexivity|]. intros b Hb. unfold zlen. cbn. lia.
  - apply Forall_app in Ht. destruct Ht as [Hc Hr]. destruct (emit_ok _ bins Hc) as (b1 & w1 & E1 & P1 & A1). rewrite E1. cbn [bind fst snd].
    destruct (IH (i + 1) b1) as (b2 & w2 & E2 & P2 & A2); [rewrite (proj1 A1); exact Hr|]. rewrite E2. cbn [bind fst snd]. eexists _, _. split; [reflexivity|].
    split; [eapply placed_app; eassumption|eapply advanced_app; eassumption].
Qed.

(** the chunks hold, per bin, the events in order *)
Definition in_chunks (cs : Z) (chunks : list (list event)) (b : Z) : list A := vals_of (b mod cs) (znth [] chunks (b / cs)).
Lemma to_chunks_ok cs ev : 0 < cs -> forall n chunks, zlen chunks = n -> targets_below (n * cs) ev ->
  Forall (Forall (fun e => 0 <= fst e < cs)) chunks -> exists chunks', to_chunks cs chunks ev = Ok chunks' /\ zlen chunks' = n /\
    Forall (Forall (fun e => 0 <= fst e < cs)) chunks' /\ forall b, 0 <= b -> in_chunks cs chunks' b = in_chunks cs chunks b ++ vals_of b ev.
Proof.
  intros Hcs. induction ev as [|[t a] ev IH]; intros n chunks Hn Ht Hr.
  - exists chunks. split; [reflexivity|]. split; [exact Hn|]. split; [exact Hr|]. intros b Hb. symmetry. apply app_nil_r.
  - apply Forall_cons_iff in Ht. destruct Ht as [Ht Hev]. cbn [fst] in Ht. cbn [to_chunks]. destruct (Z.ltb_spec t 0) as [Hneg|Hpos].
    + destruct (IH n chunks Hn Hev Hr) as (c' & E & L & R & N). exists c'. split; [exact E|]. split; [exact L|]. split; [exact R|]. intros b Hb. rewrite N by exact Hb. rewrite vals_of_cons. replace (t =? b) with false by lia. reflexivity.
    + rewrite Z.quot_div_nonneg, Z.rem_mod_nonneg by lia. assert (Hq : 0 <= t / cs < n) by (split; [apply Z.div_pos; lia|apply Z.div_lt_upper_bound; lia]). pose proof (Z.mod_pos_bound t cs Hcs) as Hm.
      rewrite (vget_znth []) by lia. cbn [bind]. rewrite vset_zupd by lia. cbn [bind].
      set (c1 := zupd chunks (t / cs) (znth [] chunks (t / cs) ++ [(t mod cs, a)])).
      assert (Hc1 : Forall (Forall (fun e : event => 0 <= fst e < cs)) c1).
      { apply Forall_forall. intros c Hc. apply (In_znth []) in Hc. destruct Hc as (i & Hi & <-). unfold c1 in *. rewrite zlen_zupd in Hi. rewrite znth_zupd by lia. rewrite Forall_forall in Hr.
        destruct (Z.eqb_spec i (t / cs)) as [->|]; [|apply Hr; apply znth_In; lia]. apply Forall_app. split; [apply Hr; apply znth_In; lia|]. constructor; [exact Hm|constructor]. }
      destruct (IH n c1) as (c' & E & L & R & N); [unfold c1; rewrite zlen_zupd; exact Hn|exact Hev|exact Hc1|]. exists c'. split; [exact E|]. split; [exact L|]. split; [exact R|].
      intros b Hb. rewrite N by exact Hb. rewrite vals_of_cons. unfold in_chunks at 1. unfold c1. rewrite znth_zupd by lia. destruct (Z.eqb_spec (b / cs) (t / cs)) as [Ed|Ed].
      * rewrite vals_of_app, <- app_assoc. rewrite vals_of_cons. unfold in_chunks. rewrite Ed. f_equal. destruct (Z.eqb_spec t b) as [->|Hne]; [rewrite Z.eqb_refl; reflexivity|].
        destruct (Z.eqb_spec (t mod cs) (b mod cs)) as [Em|]; [|reflexivity]. exfalso. apply Hne. rewrite (Z.div_mod t cs), (Z.div_mod b cs) by lia. rewrite Ed, Em. reflexivity.
      * destruct (Z.eqb_spec t b) as [->|]; [contradiction|]. reflexivity.
Qed.

Lemma vals_of_shift b d ev : vals_of b (map (fun e : event => (d + fst e, snd e)) ev) = vals_of (b - d) ev.
Proof.
  induction ev as [|[t a] ev IH]; [reflexivity|]. cbn [map fst snd]. rewrite !vals_of_cons, IH. replace (d + t =? b) with (t =? b - d) by lia. reflexivity.
Qed.
Lemma vals_of_none b ev : Forall (fun e : event => fst e <> b) ev -> vals_of b ev = [].
Proof. induction ev as [|[t a] ev IH]; intros Hf; [reflexivity|]. apply Forall_cons_iff in Hf. destruct Hf as [Ht Hf]. cbn [fst] in Ht. rewrite vals_of_cons, IH by exact Hf. replace (t =? b) with false by lia. reflexivity. Qed.
Lemma unchunk_vals cs chunks : 0 < cs -> Forall (Forall (fun e => 0 <= fst e < cs)) chunks -> forall i b, vals_of b (unchunk cs i chunks) = vals_of (b mod cs) (znth [] chunks (b / cs - i)).
Proof.
  intros Hcs. induction chunks as [|c chunks IH]; intros Hr i b.
  - cbn [unchunk]. rewrite znth_out; [reflexivity|]. unfold zlen. cbn. lia.
  - apply Forall_cons_iff in Hr. destruct Hr as [Hc Hr]. cbn [unchunk]. rewrite vals_of_app, vals_of_shift, (IH Hr). pose proof (Z.mod_pos_bound b cs Hcs). pose proof (Z.div_mod b cs ltac:(lia)).
    destruct (Z.lt_trichotomy (b / cs) i) as [Hlt|[Heq|Hgt]].
    + rewrite vals_of_none; [|eapply Forall_impl; [|exact Hc]; intros e He; cbv beta in He; nia]. rewrite !znth_out by lia. reflexivity.
    + rewrite (znth_out [] chunks) by lia. cbn [vals_of filter map]. rewrite app_nil_r. replace (b / cs - i) with 0 by lia. rewrite znth_0. f_equal. nia.
    + rewrite vals_of_none; [|eapply Forall_impl; [|exact Hc]; intros e He; cbv beta in He; nia]. rewrite znth_S by lia. cbn [app]. do 2 f_equal. lia.
Qed.
Lemma unchunk_range cs chunks : 0 < cs -> Forall (Forall (fun e => 0 <= fst e < cs)) chunks -> forall i e, In e (unchunk cs i chunks) -> 0 <= i -> 0 <= fst e.
Proof.
  intros Hcs. induction chunks as [|c chunks IH]; intros Hr i e He Hi; [destruct He|]. apply Forall_cons_iff in Hr. destruct Hr as [Hc Hr]. cbn [unchunk] in He. apply in_app_or in He. destruct He as [He|He].
  - apply in_map_iff in He. destruct He as (x & <- & Hx). rewrite Forall_forall in Hc. specialize (Hc x Hx). cbn [fst]. nia.
  - apply (IH Hr (i + 1) e He). lia.
Qed.

Lemma block_ok cs bins ev : 0 < cs -> 0 < zlen bins -> targets_below (zlen bins) ev ->
  exists chunks bins' w, to_chunks cs (repeat [] (Z.to_nat (Z.quot (zlen bins - 1) cs + 1))) ev = Ok chunks /\ emit_chunks cs 0 bins chunks = Ok (bins', w) /\ placed bins ev w /\ advanced bins ev bins'.
Proof.
  intros Hcs Hb Ht. rewrite Z.quot_div_nonneg by lia. set (n := (zlen bins - 1) / cs + 1). assert (Hq : 0 <= (zlen bins - 1) / cs) by (apply Z.div_pos; lia).
  assert (Hn : zlen bins <= n * cs) by (unfold n; pose proof (Z.div_mod (zlen bins - 1) cs ltac:(lia)); pose proof (Z.mod_pos_bound (zlen bins - 1) cs Hcs); nia).
  assert (Hr0 : Forall (Forall (fun e : event => 0 <= fst e < cs)) (repeat [] (Z.to_nat n))) by (apply Forall_forall; intros c Hc; apply repeat_spec in Hc; subst; constructor).
  destruct (to_chunks_ok cs ev Hcs n (repeat [] (Z.to_nat n))) as (chunks & E & L & R & N).
  - rewrite zlen_repeat. lia.
  - eapply Forall_impl; [|exact Ht]. intros e He. cbv beta in *. lia.
  - exact Hr0.
  - assert (Hv : forall b, 0 <= b -> vals_of b (unchunk cs 0 chunks) = vals_of b ev).
    { intros b Hb0. rewrite unchunk_vals by assumption. rewrite Z.sub_0_r. specialize (N b Hb0). unfold in_chunks in N. rewrite N, znth_repeat_d. reflexivity. }
    destruct (emit_chunks_ok cs chunks 0 bins) as (b' & w & E' & P & Ad).
    + apply Forall_forall. intros e He. pose proof (unchunk_range cs chunks Hcs R 0 e He ltac:(lia)) as Hp. split; [exact Hp|].
      assert (Hin : In (snd e) (vals_of (fst e) (unchunk cs 0 chunks))).
      { unfold vals_of. apply in_map. apply filter_In. split; [exact He|]. apply Z.eqb_refl. }
      rewrite Hv in Hin by exact Hp. unfold vals_of in Hin. apply in_map_iff in Hin. destruct Hin as (e' & _ & Hf). apply filter_In in Hf. destruct Hf as [Hf Ef]. unfold targets_below in Ht. rewrite Forall_forall in Ht. specialize (Ht e' Hf). lia.
    + exists chunks, b', w. split; [exact E|]. split; [exact E'|]. split; [eapply placed_ext; [|exact P]|eapply advanced_ext; [|exact Ad]]; intros b Hb'; apply Hv; lia.
Qed.

Lemma map_chunkwise_ok cs fuel : 0 < cs -> forall bins ev, 0 < zlen bins -> targets_below (zlen bins) ev -> (length ev < fuel)%nat ->
  exists w, map_chunkwise fuel cs bins ev = Ok w /\ placed bins ev w.
Proof.
  intros Hcs. induction fuel as [|fuel IH]; intros bins ev Hb Ht Hf; [lia|]. destruct ev as [|e ev].
  - exists []. split; [reflexivity|]. intros x y. split; [intros []|]. intros (b & r & _ & _ & Er). destruct r; discriminate.
  - cbn [map_chunkwise]. set (k := Z.to_nat (8 * zlen bins)). assert (Hk : (0 < k)%nat) by (unfold k; lia). set (l := e :: ev) in *.
    assert (Hsplit : l = firstn k l ++ skipn k l) by (symmetry; apply firstn_skipn). unfold targets_below in Ht. rewrite Hsplit in Ht. apply Forall_app in Ht. destruct Ht as [Ht1 Ht2].
    destruct (block_ok cs bins (firstn k l) Hcs Hb Ht1) as (chunks & b' & w & E1 & E2 & P & Ad). rewrite E1. cbn [bind]. rewrite E2. cbn [bind fst snd].
    destruct (IH b' (skipn k l)) as (w2 & E3 & P2); [rewrite (proj1 Ad); exact Hb|rewrite (proj1 Ad); exact Ht2|rewrite skipn_length; unfold l in *; cbn [length] in *; lia|]. rewrite E3. cbn [bind].
    eexists. split; [reflexivity|]. rewrite Hsplit. eapply placed_app; eassumption.
Qed.

Theorem map_kernel_ok o ev : targets_below (zlen (ss o)) ev -> exists w, map_kernel o ev = Ok w /\ placed (ss o) ev w.
Proof.
  intros Ht. unfold map_kernel. destruct ((zlen (ss o) >? 512) && (zlen (ss o) * 4 <? zlen ev)) eqn:E; [|apply map_direct_ok; exact Ht].
  apply map_chunkwise_ok; [destruct (_ <=? _); [|destruct (_ <=? _); [|destruct (_ <=? _)]]; lia|lia|exact Ht|lia].
Qed.

Lemma count_loop_ok ev : forall c, targets_below (zlen c) ev -> exists c', count_loop c ev = Ok c' /\ zlen c' = zlen c /\ forall b, 0 <= b -> znth 0 c' b = znth 0 c b + zlen (vals_of b ev).
Proof.
  induction ev as [|[t a] ev IH]; intros c Ht.
  - exists c. split; [reflexivity|]. split; [reflexivity|]. intros b Hb. unfold zlen. cbn. lia.
  - apply Forall_cons_iff in Ht. destruct Ht as [Ht Hev]. cbn [fst] in Ht. cbn [count_loop]. destruct (t >=? 0) eqn:E.
    + rewrite (vget_znth 0) by lia. cbn [bind]. rewrite vset_zupd by lia. cbn [bind]. destruct (IH (zupd c t (znth 0 c t + 1))) as (c' & E' & L & N); [rewrite zlen_zupd; exact Hev|]. rewrite zlen_zupd in L.
      exists c'. split; [exact E'|]. split; [exact L|]. intros b Hb. rewrite N, znth_zupd, vals_of_cons by lia. destruct (Z.eqb_spec b t) as [->|]; [rewrite Z.eqb_refl, zlen_cons; lia|]. replace (t =? b) with false by lia. reflexivity.
    + destruct (IH c Hev) as (c' & E' & L & N). exists c'. split; [exact E'|]. split; [exact L|]. intros b Hb. rewrite N, vals_of_cons by exact Hb. replace (t =? b) with false by lia. reflexivity.
Qed.
Theorem count_indices_ok ev o n : 0 <= o -> 0 <= n -> targets_below n ev -> exists s, count_indices ev o n = Ok s /\ so s = o /\ zlen (ss s) = n /\ forall b, 0 <= b -> znth 0 (ss s) b = zlen (vals_of b ev).
Proof.
  intros Ho Hn Ht. unfold count_indices. replace (n <? 0) with false by lia. destruct (count_loop_ok ev (repeat 0 (Z.to_nat n))) as (c & E & L & N); [rewrite zlen_repeat, Z2Nat.id by lia; exact Ht|]. rewrite E. cbn [bind].
  unfold sb_make. replace (o <? 0) with false by lia. eexists. split; [reflexivity|]. cbn [so ss]. split; [reflexivity|]. split; [rewrite L, zlen_repeat; lia|]. intros b Hb. rewrite N, znth_repeat_d by exact Hb. lia.
Qed.
End Kernel.
