(** Rebinning of histograms (C25), over the real numbers; counterexamples with doubles. *)
From Coq Require Import Reals Lra.
From Flocq Require Import Core.Raux.
From Flocq Require Import IEEE754.BinarySingleNaN.
From Verif Require Transform_Proofs Index_Proofs.
From Verif Require Import Base Float Arr Lookup_Model Lookup_Proofs BinKernel_Model BinKernel_Proofs Mapper_Model Mapper_Proofs Histogram_Model Histogram_Props Rebin_Model Rebin_Proofs.

Ltac rcases := repeat match goal with |- context [Rle_dec ?x ?y] => match x with context [Rle_dec _ _] => fail 1 | _ => match y with context [Rle_dec _ _] => fail 2 | _ => destruct (Rle_dec x y) end end end.

Ltac znths := cbv [znth Z.ltb Z.compare Z.to_nat Pos.to_nat Pos.iter_op nth Init.Nat.add].
Definition is_zero {W} (zero : W) (add : W -> W -> W) : Prop := forall x, add x zero = x.
Definition commutes {W} (add : W -> W -> W) : Prop := forall x y, add x y = add y x.
Definition associates {W} (add : W -> W -> W) : Prop := forall x y z, add x (add y z) = add (add x y) z.
(** scaling by 0 and 1 *)
Definition scales {W} (zero : W) (scale : W -> R -> W) : Prop := (forall w, scale w 0%R = zero) /\ forall w, scale w 1%R = w.
(** the content of new bin [j]: the sum over the old bins of the content times the part of the old bin inside *)
Definition spread {W} (zero : W) add (scale : W -> R -> W) (sh : Z -> Z -> R) (old : list W) (j : Z) : W :=
  fold_left add (map (fun i => scale (znth zero old i) (sh i j)) (zseq 0 (Z.to_nat (zlen old)))) zero.
Definition rebin_R {W} (zero : W) add scale scale' inner xnew old xold := rebin Rlt_bool Rminus Rdiv Rabs zero add scale scale' inner xnew old xold.

Lemma nondecreasing_sorted x : nondecreasing x -> sorted_by Rlt_bool x = true.
Proof.
  intros Hx. assert (Hg : forall suf pre, x = pre ++ suf -> sorted_by Rlt_bool suf = true); [|apply (Hg x []); reflexivity].
  induction suf as [|a suf IH]; intros pre Hp; [reflexivity|]. destruct suf as [|b suf]; [reflexivity|]. cbn [sorted_by]. apply andb_true_intro. split.
  - pose proof (zlen_nonneg pre). pose proof (zlen_nonneg suf). specialize (Hx (zlen pre) (zlen pre + 1) ltac:(lia) ltac:(rewrite Hp, zlen_app, !zlen_cons; lia)). rewrite Hp, !znth_app, Z.ltb_irrefl, Z.sub_diag in Hx. destruct (Z.ltb_spec (zlen pre + 1) (zlen pre)); [lia|]. replace (zlen pre + 1 - zlen pre) with 1 in Hx by lia. cbn in Hx. rewrite Rlt_bool_false by exact Hx. reflexivity.
  - apply (IH (pre ++ [a])). rewrite <- app_assoc. exact Hp.
Qed.

(** Any memory layout, ascending edges. [scale] is used for contiguous data, [scale'] otherwise. *)
Theorem C25_rebin {W} (zero : W) add scale scale' inner xnew old xold : is_zero zero add -> commutes add -> associates add -> scales zero scale -> scales zero scale' ->
  increasing xold -> nondecreasing xnew -> zlen xold = zlen old + 1 -> 1 <= zlen xnew -> (inner = false -> old <> []) ->
  rebin_R zero add scale scale' inner xnew old xold = Ok (map (spread zero add (if inner then scale else scale') (share xnew xold) old) (zseq 0 (Z.to_nat (zlen xnew - 1)))).
Proof.
  intros Hz Hc Ha [S0 S1] [S0' S1'] Ho Hn Hl Hn1 Hi. unfold rebin_R, rebin. rewrite Hl, Z.eqb_refl. cbn [negb]. destruct (Z.ltb_spec (zlen xnew) 1); [lia|]. rewrite (nondecreasing_sorted _ (increasing_nondecreasing _ Ho)), (nondecreasing_sorted _ Hn). cbn [andb].
  destruct inner.
  - destruct (rebin_inner_ok zero add Hz Hc Ha scale S0 xnew xold old Ho Hn Hl Hn1) as (out & -> & Lo & No). f_equal. apply (znth_ext zero); [rewrite zlen_map, zlen_zseq; lia|]. intros j Hj. rewrite No by lia. rewrite (znth_map _ 0) by (rewrite zlen_zseq; lia). rewrite znth_zseq by lia. unfold new_content, spread. rewrite Z.add_0_l. replace (zlen xold - 1) with (zlen old) by lia. reflexivity.
  - rewrite (rebin_non_inner_ok zero add Hz Hc Ha scale' S0' xnew xold old Ho Hn Hl S1'); [|destruct old; [destruct (Hi eq_refl eq_refl)|rewrite Hl, zlen_cons; pose proof (zlen_nonneg old); lia]|exact Hn1].
    f_equal. apply map_ext. intros j. unfold new_content, spread. replace (zlen xold - 1) with (zlen old) by lia. reflexivity.
Qed.
Print Assumptions C25_rebin.

(** Descending edges: the same with the edges of the bins exchanged. *)
Definition share_desc (xnew xold : list R) (i j : Z) : R :=
  (overlap (znth 0%R xnew (j + 1)) (znth 0%R xnew j) (znth 0%R xold (i + 1)) (znth 0%R xold i) / (znth 0%R xold i - znth 0%R xold (i + 1)))%R.
Definition Rgt_bool (a b : R) : bool := Rlt_bool b a.
Lemma Rlt_bool_opp a b : Rlt_bool (- a) (- b) = Rlt_bool b a.
Proof. destruct (Rlt_bool_spec (- a) (- b)), (Rlt_bool_spec b a); try reflexivity; lra. Qed.
Lemma fraction_opp a b c d : fraction Rgt_bool Rminus Rdiv Rabs a b c d = fraction Rlt_bool Rminus Rdiv Rabs (- a)%R (- b)%R (- c)%R (- d)%R.
Proof.
  unfold fraction, min_by, max_by, Rgt_bool. rewrite !Rlt_bool_opp. f_equal.
  - rewrite <- Rabs_Ropp. f_equal. destruct (Rlt_bool b d), (Rlt_bool c a); lra.
  - rewrite <- Rabs_Ropp. f_equal. lra.
Qed.
Lemma vget_map {A B} (f : A -> B) l i : vget (map f l) i = (do x <- vget l i; Ok (f x)).
Proof. unfold vget. destruct (i <? 0); [reflexivity|]. rewrite nth_error_map. destruct (nth_error l (Z.to_nat i)); reflexivity. Qed.
Section Opp.
Context {W : Type} (zero : W) (add : W -> W -> W) (scale : W -> R -> W).
Lemma rebin_loop_opp xnew old xold fuel : forall iold inew data, rebin_loop Rgt_bool Rminus Rdiv Rabs add scale xnew old xold fuel iold inew data = rebin_loop Rlt_bool Rminus Rdiv Rabs add scale (map Ropp xnew) old (map Ropp xold) fuel iold inew data.
Proof.
  induction fuel as [|fuel IH]; intros iold inew data; [reflexivity|]. cbn [rebin_loop]. rewrite !zlen_map. destruct ((iold <? zlen xold - 1) && (inew <? zlen xnew - 1)); [|reflexivity]. rewrite !vget_map.
  destruct (vget xold iold) as [a| |]; cbn [bind]; [|reflexivity|reflexivity]. destruct (vget xold (iold + 1)) as [b| |]; cbn [bind]; [|reflexivity|reflexivity]. destruct (vget xnew inew) as [c| |]; cbn [bind]; [|reflexivity|reflexivity]. destruct (vget xnew (inew + 1)) as [d| |]; cbn [bind]; [|reflexivity|reflexivity].
  rewrite !Rlt_bool_opp. unfold Rgt_bool at 1. destruct (Rlt_bool d a); cbn [negb]; [|apply IH]. unfold Rgt_bool at 1. destruct (Rlt_bool b c); cbn [negb]; [|apply IH]. rewrite fraction_opp.
  destruct (vget old iold) as [o| |]; cbn [bind]; [|reflexivity|reflexivity]. destruct (vget data inew) as [n| |]; cbn [bind]; [|reflexivity|reflexivity]. destruct (vset data inew _) as [data'| |]; cbn [bind]; [|reflexivity|reflexivity]. unfold Rgt_bool at 1. destruct (Rlt_bool d b); apply IH.
Qed.
Lemma upper_bound_opp x xold : upper_bound (Rgt_bool x) xold = upper_bound (Rlt_bool (- x)%R) (map Ropp xold).
Proof.
  unfold upper_bound. rewrite map_length. generalize (S (length xold)) 0 (Z.of_nat (length xold)). intros fuel. induction fuel as [|fuel IH]; intros first len; [reflexivity|]. cbn [upper_bound_loop]. destruct (len <=? 0); [reflexivity|]. rewrite vget_map.
  destruct (vget xold (first + Z.quot len 2)) as [e| |]; cbn [bind]; [|reflexivity|reflexivity]. rewrite Rlt_bool_opp. unfold Rgt_bool at 1. destruct (Rlt_bool e x); apply IH.
Qed.
Lemma accumulate_bin_opp old xold a b : accumulate_bin Rgt_bool Rminus Rdiv Rabs zero add scale old xold a b = accumulate_bin Rlt_bool Rminus Rdiv Rabs zero add scale old (map Ropp xold) (- a)%R (- b)%R.
Proof.
  unfold accumulate_bin. rewrite !upper_bound_opp, zlen_map. destruct (upper_bound (Rlt_bool (- a)%R) (map Ropp xold)) as [s| |]; cbn [bind]; [|reflexivity|reflexivity]. destruct (upper_bound (Rlt_bool (- b)%R) (map Ropp xold)) as [e| |]; cbn [bind]; [|reflexivity|reflexivity].
  destruct ((s =? zlen xold - 1 + 1) || (e =? 0)); [reflexivity|].
  assert (Hf : forall acc i, add_from_bin Rgt_bool Rminus Rdiv Rabs add scale old xold acc a b i = add_from_bin Rlt_bool Rminus Rdiv Rabs add scale old (map Ropp xold) acc (- a)%R (- b)%R i).
  { intros acc i. unfold add_from_bin. rewrite !vget_map. destruct (vget xold i) as [c| |]; cbn [bind]; [|reflexivity|reflexivity]. destruct (vget xold (i + 1)) as [d| |]; cbn [bind]; [|reflexivity|reflexivity]. rewrite fraction_opp. reflexivity. }
  rewrite Hf. destruct (add_from_bin Rlt_bool _ _ _ _ _ _ _ _ _ _ _) as [acc| |]; cbn [bind]; [|reflexivity|reflexivity]. destruct (negb _ && _); [apply Hf|reflexivity].
Qed.
Lemma rebin_non_inner_opp xnew old xold : rebin_non_inner Rgt_bool Rminus Rdiv Rabs zero add scale xnew old xold = rebin_non_inner Rlt_bool Rminus Rdiv Rabs zero add scale (map Ropp xnew) old (map Ropp xold).
Proof. induction xnew as [|a [|b xnew] IH]; [reflexivity|reflexivity|]. cbn [map]. change (rebin_non_inner ?l ?s ?d ?ab ?z ?ad ?sc (?x :: ?y :: ?r) ?o ?xo) with (do v <- accumulate_bin l s d ab z ad sc o xo x y; do r' <- rebin_non_inner l s d ab z ad sc (y :: r) o xo; Ok (v :: r')). rewrite accumulate_bin_opp, IH. reflexivity. Qed.
Lemma sorted_by_opp x : sorted_by Rgt_bool x = sorted_by Rlt_bool (map Ropp x).
Proof. induction x as [|a [|b x] IH]; [reflexivity|reflexivity|]. cbn [map]. change (sorted_by ?l (?x :: ?y :: ?r)) with (negb (l y x) && sorted_by l (y :: r)). rewrite IH, Rlt_bool_opp. reflexivity. Qed.
End Opp.
Definition decreasing (x : list R) : Prop := forall i j, 0 <= i < j -> j < zlen x -> (znth 0 x j < znth 0 x i)%R.
Definition nonincreasing (x : list R) : Prop := forall i j, 0 <= i <= j -> j < zlen x -> (znth 0 x j <= znth 0 x i)%R.
Lemma znth_opp x i : znth 0%R (map Ropp x) i = (- znth 0 x i)%R.
Proof. destruct (Z_lt_ge_dec i 0); [rewrite !znth_out by lia; lra|]. destruct (Z_lt_ge_dec i (zlen x)); [apply znth_map; lia|rewrite !znth_out by (rewrite ?zlen_map; lia); lra]. Qed.
Lemma share_opp xnew xold i j : share (map Ropp xnew) (map Ropp xold) i j = share_desc xnew xold i j.
Proof.
  unfold share, share_desc, overlap. rewrite !znth_opp. f_equal.
  - f_equal. unfold Rmin, Rmax. rcases; lra.
  - lra.
Qed.
Theorem C25_descending {W} (zero : W) add scale scale' inner xnew old xold : is_zero zero add -> commutes add -> associates add -> scales zero scale -> scales zero scale' ->
  decreasing xold -> nonincreasing xnew -> zlen xold = zlen old + 1 -> 1 <= zlen xnew -> old <> [] ->
  rebin_R zero add scale scale' inner xnew old xold = Ok (map (spread zero add (if inner then scale else scale') (share_desc xnew xold) old) (zseq 0 (Z.to_nat (zlen xnew - 1)))).
Proof.
  intros Hz Hc Ha Hs Hs' Ho Hn Hl Hn1 Hne.
  assert (Ho' : increasing (map Ropp xold)). { intros i j Hij Hj. rewrite zlen_map in Hj. rewrite !znth_opp. specialize (Ho i j Hij Hj). lra. }
  assert (Hn' : nondecreasing (map Ropp xnew)). { intros i j Hij Hj. rewrite zlen_map in Hj. rewrite !znth_opp. specialize (Hn i j Hij Hj). lra. }
  pose proof (C25_rebin zero add scale scale' inner (map Ropp xnew) old (map Ropp xold) Hz Hc Ha Hs Hs' Ho' Hn' ltac:(rewrite zlen_map; exact Hl) ltac:(rewrite zlen_map; exact Hn1) (fun _ => Hne)) as E. rewrite zlen_map in E.
  transitivity (rebin_R zero add scale scale' inner (map Ropp xnew) old (map Ropp xold)).
  - unfold rebin_R, rebin. rewrite !zlen_map. rewrite Hl, Z.eqb_refl. cbn [negb]. destruct (Z.ltb_spec (zlen xnew) 1); [lia|].
    assert (Hf : sorted_by Rlt_bool xold = false). { destruct xold as [|a [|b xold]]; [pose proof (zlen_nonneg old); change (zlen (@nil R)) with 0 in Hl; lia|destruct old; [contradiction|rewrite !zlen_cons in Hl; change (zlen (@nil R)) with 0 in Hl; pose proof (zlen_nonneg old); lia]|]. cbn [sorted_by]. specialize (Ho 0 1 ltac:(lia)). rewrite !zlen_cons in Ho. pose proof (zlen_nonneg xold). specialize (Ho ltac:(lia)). cbn in Ho. rewrite Rlt_bool_true by exact Ho. reflexivity. }
    rewrite Hf. cbn [andb]. change (fun a b : R => Rlt_bool b a) with Rgt_bool. rewrite !sorted_by_opp. rewrite (nondecreasing_sorted _ (increasing_nondecreasing _ Ho')), (nondecreasing_sorted _ Hn'). cbn [andb]. destruct inner.
    + unfold rebin_inner. rewrite rebin_loop_opp, !map_length, zlen_map. reflexivity.
    + apply rebin_non_inner_opp.
  - rewrite E. f_equal. apply map_ext. intros j. unfold spread. f_equal. apply map_ext. intros i. f_equal. apply share_opp.
Qed.
Print Assumptions C25_descending.

(** The result does not depend on the memory layout, if the two ways of scaling are the same. *)
Theorem C25_layout {W} (zero : W) add scale xnew old xold : is_zero zero add -> commutes add -> associates add -> scales zero scale ->
  increasing xold -> nondecreasing xnew -> zlen xold = zlen old + 1 -> 1 <= zlen xnew -> old <> [] ->
  rebin_R zero add scale scale true xnew old xold = rebin_R zero add scale scale false xnew old xold.
Proof.
  intros Hz Hc Ha Hs Ho Hn Hl Hn1 Hne. rewrite (C25_rebin zero add scale scale true) by (assumption || discriminate). rewrite (C25_rebin zero add scale scale false) by (assumption || (intros; assumption)). reflexivity.
Qed.
Print Assumptions C25_layout.

(** ** conservation *)
Definition clamp (c d x : R) : R := Rmin (Rmax x c) d.
Lemma overlap_clamp a b c d : (a <= b -> c <= d -> overlap a b c d = clamp c d b - clamp c d a)%R.
Proof.
  intros Hab Hcd. unfold overlap, clamp, Rmin, Rmax.
  rcases; lra.
 Qed.
Section Conserve.
Context {W : Type}.
Variable zero : W.
Variable add : W -> W -> W.
Variable scale : W -> R -> W.
Hypothesis Hz : is_zero zero add.
Hypothesis Hc : commutes add.
Hypothesis Ha : associates add.
Hypothesis Hplus : forall w a b, scale w (a + b)%R = add (scale w a) (scale w b).
Hypothesis Hs : scales zero scale.
Notation total := (total zero add).
Lemma total_scale w (f : Z -> R) l : total (map (fun j => scale w (f j)) l) = scale w (fold_right Rplus 0%R (map f l)).
Proof. induction l as [|j l IH]; [symmetry; apply Hs|]. cbn [map fold_right]. rewrite (total_cons zero add Hz Hc Ha), IH, Hplus. reflexivity. Qed.
Lemma total_add (f g : Z -> W) l : total (map (fun j => add (f j) (g j)) l) = add (total (map f l)) (total (map g l)).
Proof.
  induction l as [|j l IH]; [symmetry; apply Hz|]. cbn [map]. rewrite !(total_cons zero add Hz Hc Ha), IH. rewrite <- !Ha. f_equal. rewrite !Ha. f_equal. apply Hc.
Qed.
Lemma total_exchange (f : Z -> Z -> W) l m : total (map (fun j => total (map (fun i => f i j) m)) l) = total (map (fun i => total (map (fun j => f i j) l)) m).
Proof.
  induction m as [|i m IH]; cbn [map].
  - apply (total_zero zero add Hz Hc Ha). reflexivity.
  - rewrite (total_cons zero add Hz Hc Ha), <- IH, <- total_add. f_equal. apply map_ext. intros j. apply (total_cons zero add Hz Hc Ha).
Qed.
Lemma telescope (f : Z -> R) n : forall a, fold_right Rplus 0%R (map (fun j => (f (j + 1)%Z - f j)%R) (zseq a n)) = (f (a + Z.of_nat n)%Z - f a)%R.
Proof. induction n as [|n IH]; intros a; [cbn [zseq seq map fold_right]; rewrite Z.add_0_r; lra|]. rewrite zseq_S. cbn [map fold_right]. rewrite IH. replace (a + 1 + Z.of_nat n) with (a + Z.of_nat (S n)) by lia. lra. Qed.
(** If the new edges cover the old edges, the sum of all contents is conserved. *)
Theorem C25_conserved xnew old xold inner scale' : scales zero scale' -> (inner = false -> scale' = scale) -> increasing xold -> nondecreasing xnew -> zlen xold = zlen old + 1 -> 1 <= zlen xnew -> old <> [] ->
  (znth 0 xnew 0 <= znth 0 xold 0)%R -> (znth 0 xold (zlen xold - 1) <= znth 0 xnew (zlen xnew - 1)%Z)%R ->
  exists out, rebin_R zero add scale scale' inner xnew old xold = Ok out /\ fold_left add out zero = fold_left add old zero.
Proof.
  intros Hs' Hsame Ho Hn Hl Hn1 Hne Hlow Hhigh. eexists. split; [apply C25_rebin; try assumption; intros _; exact Hne|].
  assert (E : (if inner then scale else scale') = scale) by (destruct inner; [reflexivity|apply Hsame; reflexivity]). rewrite E.
  change (total (map (spread zero add scale (share xnew xold) old) (zseq 0 (Z.to_nat (zlen xnew - 1)))) = total old).
  change (total (map (fun j => total (map (fun i => scale (znth zero old i) (share xnew xold i j)) (zseq 0 (Z.to_nat (zlen old))))) (zseq 0 (Z.to_nat (zlen xnew - 1)))) = total old).
  rewrite total_exchange. f_equal. apply (znth_ext zero); [rewrite zlen_map, zlen_zseq; pose proof (zlen_nonneg old); lia|]. intros i Hi. rewrite zlen_map, zlen_zseq in Hi. rewrite (znth_map _ 0) by (rewrite zlen_zseq; lia). rewrite znth_zseq, Z.add_0_l by lia. rewrite total_scale.
  transitivity (scale (znth zero old i) 1%R); [f_equal|apply Hs].
  pose proof (Ho i (i + 1) ltac:(lia) ltac:(lia)) as Hw. set (c := znth 0%R xold i) in *. set (d := znth 0%R xold (i + 1)) in *.
  pose proof (increasing_nondecreasing _ Ho 0 i ltac:(lia) ltac:(lia)) as Hc0. pose proof (increasing_nondecreasing _ Ho (i + 1) (zlen xold - 1) ltac:(lia) ltac:(lia)) as Hd0. fold c in Hc0. fold d in Hd0.
  transitivity (fold_right Rplus 0%R (map (fun j => (clamp c d (znth 0 xnew (j + 1)%Z) / (d - c) - clamp c d (znth 0 xnew j) / (d - c))%R) (zseq 0 (Z.to_nat (zlen xnew - 1))))).
  - f_equal. apply map_ext_in. intros j Hj. apply In_zseq in Hj. unfold share. fold c d. rewrite overlap_clamp; [|apply Hn; lia|lra]. field. lra.
  - rewrite (telescope (fun j => clamp c d (znth 0 xnew j) / (d - c))%R). rewrite Z.add_0_l, Z2Nat.id by lia. unfold clamp. rewrite (Rmax_right (znth 0%R xnew 0) c) by lra. rewrite (Rmax_left (znth 0%R xnew (zlen xnew - 1)) c) by lra. rewrite (Rmin_right (znth 0%R xnew (zlen xnew - 1)) d) by lra. rewrite (Rmin_left c d) by lra. field. lra.
Qed.
End Conserve.
Print Assumptions C25_conserved.

(** Rebinning to the same edges changes nothing. *)
Theorem C25_identity {W} (zero : W) add scale scale' inner old xold : is_zero zero add -> commutes add -> associates add -> scales zero scale -> scales zero scale' ->
  increasing xold -> zlen xold = zlen old + 1 -> (inner = false -> old <> []) -> rebin_R zero add scale scale' inner xold old xold = Ok old.
Proof.
  intros Hz Hc Ha Hs Hs' Ho Hl Hi. pose proof (zlen_nonneg old) as Hp. rewrite C25_rebin by (assumption || (apply increasing_nondecreasing; assumption) || lia). f_equal. set (s := if inner then scale else scale'). assert (Hss : scales zero s) by (destruct inner; assumption). clearbody s.
  apply (znth_ext zero); [rewrite zlen_map, zlen_zseq; lia|]. intros j Hj. rewrite zlen_map, zlen_zseq in Hj. rewrite (znth_map _ 0) by (rewrite zlen_zseq; lia). rewrite znth_zseq, Z.add_0_l by lia. unfold spread.
  change (total zero add (map (fun i => s (znth zero old i) (share xold xold i j)) (zseq 0 (Z.to_nat (zlen old)))) = znth zero old j).
  rewrite (total_change zero add Hz Hc Ha (fun _ => zero) _ j (znth zero old j)).
  - rewrite (total_zero zero add Hz Hc Ha) by reflexivity. rewrite Hc. apply Hz.
  - apply Transform_Proofs.zseq_NoDup.
  - apply In_zseq. lia.
  - reflexivity.
  - unfold share. pose proof (Ho j (j + 1) ltac:(lia) ltac:(lia)). rewrite overlap_full by lra. unfold Rdiv. rewrite Rinv_r by lra. apply Hss.
  - intros i Hir Hne. apply In_zseq in Hir. unfold share. rewrite overlap_0; [unfold Rdiv; rewrite Rmult_0_l; apply Hss|].
    destruct (Z_lt_ge_dec i j); [left|right]; apply increasing_nondecreasing; try exact Ho; lia.
Qed.
Print Assumptions C25_identity.

(** ** cases *)
(** Values and variances with [scale] as in rebin.h. *)
Definition add2 (a b : R * R) : R * R := (fst a + fst b, snd a + snd b)%R.
Definition scale_both (w : R * R) (s : R) : R * R := (fst w * s, snd w * s)%R.
Definition scale_square (w : R * R) (s : R) : R * R := (fst w * s, snd w * (s * s))%R.
Example C25_case : is_zero (0, 0)%R add2 /\ commutes add2 /\ associates add2 /\ scales (0, 0)%R scale_both /\ scales (0, 0)%R scale_square /\
  increasing [0; 2; 3]%R /\ nondecreasing [0; 1; 1; 4]%R /\ (share [0; 1; 1; 4] [0; 2; 3] 0 2 = / 2)%R.
Proof.
  split; [intros [a b]; unfold add2; cbn; f_equal; lra|]. split; [intros [a b] [c d]; unfold add2; cbn; f_equal; lra|]. split; [intros [a b] [c d] [e f]; unfold add2; cbn; f_equal; lra|].
  split; [split; intros [a b]; unfold scale_both; cbn; f_equal; lra|]. split; [split; intros [a b]; unfold scale_square; cbn; f_equal; lra|]. split; [|split].
  - intros i j Hij Hj. change (zlen [0; 2; 3]%R) with 3 in Hj. assert (i = 0 \/ i = 1) as [-> | ->] by lia; assert (j = 1 \/ j = 2) as [-> | ->] by lia; try lia; znths; lra.
  - intros i j Hij Hj. change (zlen [0; 1; 1; 4]%R) with 4 in Hj. assert (i = 0 \/ i = 1 \/ i = 2 \/ i = 3) as [-> | [-> | [-> | ->]]] by lia; assert (j = 0 \/ j = 1 \/ j = 2 \/ j = 3) as [-> | [-> | [-> | ->]]] by lia; try lia; znths; lra.
  - unfold share. change (0 + 1)%Z with 1; change (2 + 1)%Z with 3. znths. unfold overlap, Rmin, Rmax. rcases; lra.
Qed.

(** Variances depend on the memory layout: rebin.h scales them with the fraction, rebin.cpp with its square. *)
Theorem C25_variance_refuted : exists xnew xold old,
  rebin_R (0, 0)%R add2 scale_both scale_square true xnew old xold = Ok [(1, 2)%R] /\ rebin_R (0, 0)%R add2 scale_both scale_square false xnew old xold = Ok [(1, 1)%R].
Proof.
  exists [0; 1]%R, [0; 2]%R, [(2, 4)%R]. destruct C25_case as (A1 & A2 & A3 & A4 & A5 & _ & _).
  assert (Hi : increasing [0; 2]%R). { intros i j Hij Hj. change (zlen [0; 2]%R) with 2 in Hj. assert (i = 0 /\ j = 1) as [-> ->] by lia. znths. lra. }
  assert (Hn : nondecreasing [0; 1]%R). { intros i j Hij Hj. change (zlen [0; 1]%R) with 2 in Hj. assert (i = 0 \/ i = 1) as [-> | ->] by lia; assert (j = 0 \/ j = 1) as [-> | ->] by lia; try lia; znths; lra. }
  assert (Hsh : share [0; 1]%R [0; 2]%R 0 0 = (/ 2)%R). { unfold share. change (0 + 1)%Z with 1; change (2 + 1)%Z with 3. znths. unfold overlap, Rmin, Rmax. rcases; lra. }
  split; rewrite C25_rebin by (assumption || discriminate || reflexivity || (intros; discriminate) || (unfold zlen; cbn; lia)).
  - change (zseq 0 (Z.to_nat (zlen [0; 1]%R - 1))) with [0]. cbn [map]. unfold spread. change (zseq 0 (Z.to_nat (zlen [(2, 4)%R]))) with [0]. cbn [map fold_left]. rewrite Hsh. unfold add2, scale_both. cbn. do 2 f_equal. f_equal; lra.
  - change (zseq 0 (Z.to_nat (zlen [0; 1]%R - 1))) with [0]. cbn [map]. unfold spread. change (zseq 0 (Z.to_nat (zlen [(2, 4)%R]))) with [0]. cbn [map fold_left]. rewrite Hsh. unfold add2, scale_square. cbn. do 2 f_equal. f_equal; lra.
Qed.
Print Assumptions C25_variance_refuted.

(** ** doubles *)
Definition rebin_f64 (inner : bool) (xnew old xold : list f64) := rebin fltb fsub fdiv fabs (f_of_Z 0) fadd fmul fmul inner xnew old xold.
Definition fz (l : list Z) : list f64 := map f_of_Z l.
Definition f_is (x : f64) (z : Z) : bool := fleb x (f_of_Z z) && fleb (f_of_Z z) x.
Example C25_f64_case : match rebin_f64 true (fz [0; 2; 4]) (fz [4; 8]) (fz [1; 3; 5]) with Ok [a; b] => f_is a 2 && f_is b 6 | _ => false end = true.
Proof. vm_compute. reflexivity. Qed.
(** An old bin of width zero inside of a new bin: NaN for contiguous data, otherwise the content is added in full. *)
Theorem C25_zero_width_refuted : exists xnew old xold, match rebin_f64 true xnew old xold, rebin_f64 false xnew old xold with Ok [a], Ok [b] => is_nan a && f_is b 6 | _, _ => false end = true.
Proof. exists (fz [0; 2]), (fz [1; 2; 3]), (fz [0; 1; 1; 2]). vm_compute. reflexivity. Qed.
Print Assumptions C25_zero_width_refuted.
(** No old bins: memory behind the edges is read, if the data are not contiguous. *)
Theorem C25_empty_refuted : exists xnew xold, rebin_f64 false xnew [] xold = Ub /\ exists r, rebin_f64 true xnew [] xold = Ok r.
Proof. exists (fz [0; 2]), (fz [1]). split; [vm_compute; reflexivity|]. eexists. unfold rebin_f64, rebin. cbn. reflexivity. Qed.
Print Assumptions C25_empty_refuted.
(** Rounding: one bin split into ten. *)
Theorem C25_conserved_float_refuted : exists xnew old xold, match rebin_f64 true xnew old xold with Ok out => fltb (fold_left fadd out (f_of_Z 0)) (fold_left fadd old (f_of_Z 0)) | _ => false end = true.
Proof. exists (fz [0; 1; 2; 3; 4; 5; 6; 7; 8; 9; 10]), (fz [1]), (fz [0; 10]). vm_compute. reflexivity. Qed.
Print Assumptions C25_conserved_float_refuted.
