(** Proofs about rebinning over the real numbers. *)
From Coq Require Import Reals Lra.
From Flocq Require Import Core.Raux.
From Verif Require Transform_Proofs.
From Verif Require Import Base Arr Lookup_Model Lookup_Proofs BinKernel_Model BinKernel_Proofs Mapper_Model Mapper_Proofs Histogram_Model Histogram_Props Rebin_Model.

(** ** specification *)
(** the common part of the intervals [a, b] and [c, d] *)
Definition overlap (a b c d : R) : R := (Rmax 0 (Rmin b d - Rmax a c))%R.
(** the part of old bin [i] that lies in new bin [j] *)
Definition share (xnew xold : list R) (i j : Z) : R :=
  (overlap (znth 0%R xnew j) (znth 0%R xnew (j + 1)) (znth 0%R xold i) (znth 0%R xold (i + 1)) / (znth 0%R xold (i + 1) - znth 0%R xold i))%R.
Definition increasing (x : list R) : Prop := forall i j, 0 <= i < j -> j < zlen x -> (znth 0 x i < znth 0 x j)%R.
Definition nondecreasing (x : list R) : Prop := forall i j, 0 <= i <= j -> j < zlen x -> (znth 0 x i <= znth 0 x j)%R.

Lemma increasing_nondecreasing x : increasing x -> nondecreasing x.
Proof. intros Hx i j Hij Hj. destruct (Z.eq_dec i j) as [->|]; [lra|]. left. apply Hx; lia. Qed.
Lemma overlap_0 a b c d : (d <= a \/ b <= c)%R -> overlap a b c d = 0%R.
Proof. intros Hs. unfold overlap. apply Rmax_left. unfold Rmin, Rmax. destruct (Rle_dec b d), (Rle_dec a c); lra. Qed.
Lemma overlap_full a b c d : (a <= c -> c <= d -> d <= b -> overlap a b c d = d - c)%R.
Proof. intros A C B. unfold overlap. rewrite (Rmin_right b d), (Rmax_right a c) by lra. apply Rmax_right. lra. Qed.
Lemma fraction_ok a b c d : (a <= d -> c <= b -> a <= b -> c < d -> fraction Rlt_bool Rminus Rdiv Rabs a b c d = overlap a b c d / (d - c))%R.
Proof.
  intros A B C D. unfold fraction, min_by, max_by, overlap.
  assert (E1 : (if Rlt_bool d b then d else b) = Rmin b d) by (unfold Rmin; destruct (Rlt_bool_spec d b), (Rle_dec b d); lra).
  assert (E2 : (if Rlt_bool a c then c else a) = Rmax a c) by (unfold Rmax; destruct (Rlt_bool_spec a c), (Rle_dec a c); lra).
  rewrite E1, E2. rewrite (Rabs_right (d - c)) by lra. assert (Hp : (Rmax a c <= Rmin b d)%R) by (unfold Rmin, Rmax; destruct (Rle_dec b d), (Rle_dec a c); lra).
  rewrite Rabs_right by lra. rewrite (Rmax_right 0 (Rmin b d - Rmax a c)) by lra. reflexivity.
Qed.

Section Sums.
Context {W : Type}.
Variable zero : W.
Variable add : W -> W -> W.
Hypothesis add_zero : forall x, add x zero = x.
Hypothesis add_comm : forall x y, add x y = add y x.
Hypothesis add_assoc : forall x y z, add x (add y z) = add (add x y) z.
Notation total := (total zero add).
Lemma total_zero (f : Z -> W) l : (forall i, In i l -> f i = zero) -> total (map f l) = zero.
Proof. induction l as [|i l IH]; intros Hf; [reflexivity|]. cbn [map]. rewrite (total_cons zero add add_zero add_comm add_assoc), (Hf i (or_introl eq_refl)), IH by (intros; apply Hf; right; assumption). apply add_zero. Qed.
Lemma total_change (f g : Z -> W) i0 x l : NoDup l -> In i0 l -> f i0 = zero -> g i0 = x -> (forall i, In i l -> i <> i0 -> g i = f i) -> total (map g l) = add (total (map f l)) x.
Proof.
  induction l as [|i l IH]; intros Hnd Hin Hf Hg Hext; [contradiction|]. apply NoDup_cons_iff in Hnd. destruct Hnd as [Hni Hnd']. cbn [map]. rewrite !(total_cons zero add add_zero add_comm add_assoc). destruct Hin as [->|Hin].
  - rewrite Hf. rewrite (add_comm zero), add_zero, add_comm. f_equal; [f_equal|exact Hg]. apply map_ext_in. intros j Hj. apply Hext; [right; exact Hj|]. intros ->. contradiction.
  - rewrite (Hext i (or_introl eq_refl)) by (intros ->; contradiction). rewrite IH; [rewrite add_assoc; reflexivity|exact Hnd'|exact Hin|exact Hf|exact Hg|]. intros j Hj Hne. apply Hext; [right; exact Hj|exact Hne].
Qed.

Section Rows.
Variable scale : W -> R -> W.
Hypothesis scale_0 : forall w, scale w 0%R = zero.
Variable xnew xold : list R.
Variable old : list W.
Hypothesis Hold : increasing xold.
Hypothesis Hnew : nondecreasing xnew.
Hypothesis Hlen : zlen xold = zlen old + 1.
Notation n := (zlen xold - 1).
Definition term (i j : Z) : W := scale (znth zero old i) (share xnew xold i j).
Definition new_content (j : Z) : W := total (map (fun i => term i j) (zseq 0 (Z.to_nat n))).

Lemma term_0 i j : 0 <= i < n -> 0 <= j < zlen xnew - 1 -> (znth 0 xold (i + 1) <= znth 0 xnew j \/ znth 0 xnew (j + 1) <= znth 0 xold i)%R -> term i j = zero.
Proof. intros Hi Hj Hs. unfold term, share. rewrite overlap_0 by exact Hs. unfold Rdiv. rewrite Rmult_0_l. apply scale_0. Qed.

Definition partial (iold inew j : Z) : W := total (map (fun i => if (i <? iold) || (j <? inew) then term i j else zero) (zseq 0 (Z.to_nat n))).
Lemma partial_same iold inew iold' inew' j : (forall i, 0 <= i < n -> (i <? iold) || (j <? inew) = (i <? iold') || (j <? inew') \/ term i j = zero) -> partial iold inew j = partial iold' inew' j.
Proof.
  intros Hs. unfold partial. f_equal. apply map_ext_in. intros i Hi. apply In_zseq in Hi. destruct (Hs i ltac:(lia)) as [-> | ->]; [reflexivity|]. destruct ((i <? iold) || (j <? inew)), ((i <? iold') || (j <? inew')); reflexivity.
Qed.
Lemma partial_add iold inew iold' inew' i0 j : 0 <= i0 < n -> (i0 <? iold) || (j <? inew) = false -> (i0 <? iold') || (j <? inew') = true ->
  (forall i, 0 <= i < n -> i <> i0 -> (i <? iold) || (j <? inew) = (i <? iold') || (j <? inew') \/ term i j = zero) -> partial iold' inew' j = add (partial iold inew j) (term i0 j).
Proof.
  intros Hi0 Hf Ht Hs. unfold partial. apply (total_change _ _ i0).
  - apply Transform_Proofs.zseq_NoDup.
  - apply In_zseq. lia.
  - rewrite Hf. reflexivity.
  - rewrite Ht. reflexivity.
  - intros i Hi Hne. apply In_zseq in Hi. destruct (Hs i ltac:(lia) Hne) as [-> | ->]; [reflexivity|]. destruct ((i <? iold) || (j <? inew)), ((i <? iold') || (j <? inew')); reflexivity.
Qed.

Notation loop := (rebin_loop Rlt_bool Rminus Rdiv Rabs add scale xnew old xold).
Lemma loop_ok fuel : forall iold inew data, 0 <= iold <= n -> 0 <= inew <= zlen xnew - 1 -> n - iold + (zlen xnew - 1 - inew) < Z.of_nat fuel -> zlen data = zlen xnew - 1 ->
  (forall j, 0 <= j < zlen xnew - 1 -> znth zero data j = partial iold inew j) ->
  exists out, loop fuel iold inew data = Ok out /\ zlen out = zlen xnew - 1 /\ forall j, 0 <= j < zlen xnew - 1 -> znth zero out j = new_content j.
Proof.
  induction fuel as [|fuel IH]; intros iold inew data Hio Hin Hfuel Hdl Hd; [lia|]. cbn [rebin_loop].
  destruct (Z.ltb_spec iold n) as [Hi|Hi]; [destruct (Z.ltb_spec inew (zlen xnew - 1)) as [Hj|Hj]|]; cbn [andb].
  - rewrite !(vget_znth 0%R) by lia. cbn [bind].
    pose proof (Hold iold (iold + 1) ltac:(lia) ltac:(lia)) as Hwo. pose proof (Hnew inew (inew + 1) ltac:(lia) ltac:(lia)) as Hwn.
    assert (Hnj : forall j, inew + 1 <= j -> j < zlen xnew -> (znth 0 xnew (inew + 1) <= znth 0 xnew j)%R) by (intros; apply Hnew; lia).
    assert (Hnj0 : forall j, inew <= j -> j < zlen xnew -> (znth 0 xnew inew <= znth 0 xnew j)%R) by (intros; apply Hnew; lia).
    assert (Hoi : forall i, iold + 1 <= i -> i < zlen xold -> (znth 0 xold (iold + 1) <= znth 0 xold i)%R) by (intros; apply increasing_nondecreasing; [exact Hold|lia|lia]).
    assert (Hoi0 : forall i, iold <= i -> i < zlen xold -> (znth 0 xold iold <= znth 0 xold i)%R) by (intros; apply increasing_nondecreasing; [exact Hold|lia|lia]).
    destruct (Rlt_bool_spec (znth 0%R xold iold) (znth 0%R xnew (inew + 1))) as [A|A]; cbn [negb].
    + destruct (Rlt_bool_spec (znth 0%R xnew inew) (znth 0%R xold (iold + 1))) as [B|B]; cbn [negb].
      * rewrite (vget_znth zero old) by lia. rewrite (vget_znth zero data) by lia. cbn [bind]. unfold vset. change (Z.of_nat (length data)) with (zlen data). replace ((inew <? 0) || (zlen data <=? inew)) with false by lia. cbn [bind].
        set (f := add (znth zero data inew) _). change (upd data (Z.to_nat inew) f) with (zupd data inew f).
        assert (Ef : f = add (partial iold inew inew) (term iold inew)). { unfold f. rewrite Hd by lia. unfold term, share. rewrite fraction_ok by lra. reflexivity. } clearbody f. subst f.
        destruct (Rlt_bool_spec (znth 0%R xold (iold + 1)) (znth 0%R xnew (inew + 1))) as [C|C].
        -- apply IH; [lia|lia|lia|rewrite zlen_zupd; exact Hdl|]. intros j Hjr. rewrite znth_zupd by lia. destruct (Z.eqb_spec j inew) as [->|Hne].
           ++ symmetry. apply partial_add; [lia|lia|lia|]. intros i Hir Hii. left. lia.
           ++ rewrite Hd by exact Hjr. apply partial_same. intros i Hir. destruct (Z_lt_ge_dec j inew); [left; lia|]. destruct (Z.eq_dec i iold) as [->|]; [|left; lia]. right. apply term_0; [lia|lia|left]. pose proof (Hnj j ltac:(lia) ltac:(lia)). lra.
        -- apply IH; [lia|lia|lia|rewrite zlen_zupd; exact Hdl|]. intros j Hjr. rewrite znth_zupd by lia. destruct (Z.eqb_spec j inew) as [->|Hne].
           ++ symmetry. apply partial_add; [lia|lia|lia|]. intros i Hir Hii. destruct (Z_lt_ge_dec i iold); [left; lia|]. right. apply term_0; [lia|lia|right]. pose proof (Hoi i ltac:(lia) ltac:(lia)). lra.
           ++ rewrite Hd by exact Hjr. apply partial_same. intros i Hir. left. lia.
      * apply IH; [lia|lia|lia|exact Hdl|]. intros j Hjr. rewrite Hd by exact Hjr. apply partial_same. intros i Hir. destruct (Z_lt_ge_dec j inew); [left; lia|]. destruct (Z.eq_dec i iold) as [->|]; [|left; lia]. right. apply term_0; [lia|lia|left]. pose proof (Hnj0 j ltac:(lia) ltac:(lia)). lra.
    + apply IH; [lia|lia|lia|exact Hdl|]. intros j Hjr. rewrite Hd by exact Hjr. apply partial_same. intros i Hir. destruct (Z.eq_dec j inew) as [->|]; [|left; lia]. destruct (Z_lt_ge_dec i iold); [left; lia|]. right. apply term_0; [lia|lia|right]. pose proof (Hoi0 i ltac:(lia) ltac:(lia)). lra.
  - exists data. split; [reflexivity|]. split; [exact Hdl|]. intros j Hjr. rewrite Hd by exact Hjr. unfold partial, new_content. f_equal. apply map_ext_in. intros i Hir. replace (j <? inew) with true by lia. rewrite orb_true_r. reflexivity.
  - exists data. split; [reflexivity|]. split; [exact Hdl|]. intros j Hjr. rewrite Hd by exact Hjr. unfold partial, new_content. f_equal. apply map_ext_in. intros i Hir. apply In_zseq in Hir. replace (i <? iold) with true by lia. reflexivity.
Qed.
Lemma rebin_inner_ok : 1 <= zlen xnew -> exists out, rebin_inner Rlt_bool Rminus Rdiv Rabs zero add scale xnew old xold = Ok out /\ zlen out = zlen xnew - 1 /\ forall j, 0 <= j < zlen xnew - 1 -> znth zero out j = new_content j.
Proof.
  intros Hn. unfold rebin_inner. pose proof (zlen_nonneg old) as Hz. assert (Hr : zlen (repeat zero (Z.to_nat (zlen xnew - 1))) = zlen xnew - 1) by (rewrite zlen_repeat; lia).
  assert (Hf : n - 0 + (zlen xnew - 1 - 0) < Z.of_nat (S (length xold + length xnew))) by (unfold zlen in *; lia).
  apply (loop_ok _ 0 0 _ ltac:(lia) ltac:(lia) Hf Hr).
  intros j Hj. rewrite znth_repeat_d. symmetry. apply total_zero. intros i Hi. apply In_zseq in Hi. replace ((i <? 0) || (j <? 0)) with false by lia. reflexivity.
Qed.

(** *** other memory layouts *)
Hypothesis scale_1 : forall w, scale w 1%R = w.
Lemma upper_ok x : exists it, upper_bound (Rlt_bool x) xold = Ok it /\ 0 <= it <= zlen xold /\ (forall i, 0 <= i < it -> (znth 0 xold i <= x)%R) /\ (forall i, it <= i < zlen xold -> (x < znth 0 xold i)%R).
Proof.
  destruct (upper_bound_ok (Rlt_bool x) xold) as (it & E & Hit & Hb & Ha).
  - intros i j Hij (e & Ee & Le) Hj. pose proof (vget_bound _ _ _ Ee) as Bi. exists (znth 0%R xold j). split; [apply vget_znth; unfold zlen; lia|]. rewrite (vget_znth 0%R) in Ee by (unfold zlen; lia). injection Ee as <-. apply Rlt_bool_true. pose proof (Rlt_bool_spec x (znth 0%R xold i)) as Hs. rewrite Le in Hs. inversion Hs. pose proof (increasing_nondecreasing _ Hold i j ltac:(lia) ltac:(unfold zlen; lia)). lra.
  - exists it. split; [exact E|]. split; [unfold zlen; exact Hit|]. split.
    + intros i Hi. destruct (Hb i Hi) as (e & Ee & Le). rewrite (vget_znth 0%R) in Ee by (unfold zlen; lia). injection Ee as <-. pose proof (Rlt_bool_spec x (znth 0%R xold i)) as Hs. rewrite Le in Hs. inversion Hs. assumption.
    + intros i Hi. destruct (Ha i) as (e & Ee & Le); [unfold zlen in Hi; lia|]. rewrite (vget_znth 0%R) in Ee by lia. injection Ee as <-. pose proof (Rlt_bool_spec x (znth 0%R xold i)) as Hs. rewrite Le in Hs. inversion Hs. assumption.
Qed.
Lemma sum_range a b acc : 0 <= a <= b -> b <= zlen old -> fold_left add (firstn (Z.to_nat (b - a)) (skipn (Z.to_nat a) old)) acc = add acc (total (map (fun i => znth zero old i) (zseq a (Z.to_nat (b - a))))).
Proof.
  intros Hab Hb. rewrite (total_acc zero add add_zero add_comm add_assoc). do 2 f_equal. apply (znth_ext zero).
  - rewrite zlen_map, zlen_zseq, zlen_firstn by (rewrite zlen_skipn; lia). lia.
  - intros i Hi. rewrite zlen_firstn in Hi by (rewrite zlen_skipn; lia). rewrite znth_firstn, znth_skipn by lia. rewrite (znth_map _ 0) by (rewrite zlen_zseq; lia). rewrite znth_zseq by lia. reflexivity.
Qed.
Lemma total_split (f : Z -> W) a m k : total (map f (zseq a (m + k))) = add (total (map f (zseq a m))) (total (map f (zseq (a + Z.of_nat m) k))).
Proof. rewrite Index_Proofs.zseq_app, map_app. apply (total_app zero add add_zero add_comm add_assoc). Qed.
Lemma accumulate_ok j : 2 <= zlen xold -> 0 <= j < zlen xnew - 1 ->
  accumulate_bin Rlt_bool Rminus Rdiv Rabs zero add scale old xold (znth 0%R xnew j) (znth 0%R xnew (j + 1)) = Ok (new_content j).
Proof.
  intros Hn2 Hj. pose proof (Hnew j (j + 1) ltac:(lia) ltac:(lia)) as Hab. unfold accumulate_bin. destruct (upper_ok (znth 0%R xnew j)) as (b0 & -> & B0 & B1 & B2). destruct (upper_ok (znth 0%R xnew (j + 1))) as (e & -> & E0 & E1 & E2). cbn [bind].
  assert (Hbe : b0 <= e). { destruct (Z_le_gt_dec b0 e) as [|Hgt]; [assumption|]. pose proof (B1 e ltac:(lia)). pose proof (E2 e ltac:(lia)). lra. }
  destruct (Z.eqb_spec b0 (n + 1)) as [Eb|Eb]; cbn [orb].
  { f_equal. symmetry. apply total_zero. intros i Hi. apply In_zseq in Hi. apply term_0; [lia|lia|left; apply B1; lia]. }
  destruct (Z.eqb_spec e 0) as [Ee|Ee].
  { f_equal. symmetry. apply total_zero. intros i Hi. apply In_zseq in Hi. apply term_0; [lia|lia|right]. pose proof (E2 i ltac:(lia)). lra. }
  set (b := Z.max 0 (b0 - 1)). assert (Hb : 0 <= b < n) by lia. assert (Hbe' : b <= e - 1) by lia.
  (* the first bin *)
  assert (Hfirst : add_from_bin Rlt_bool Rminus Rdiv Rabs add scale old xold zero (znth 0%R xnew j) (znth 0%R xnew (j + 1)) b = Ok (term b j)).
  { unfold add_from_bin. rewrite !(vget_znth 0%R) by lia. rewrite (vget_znth zero) by lia. cbn [bind]. rewrite add_comm, add_zero. f_equal. unfold term, share. f_equal. apply fraction_ok; [left; apply B2; lia|apply E1; lia|exact Hab|apply Hold; lia]. }
  rewrite Hfirst. cbn [bind].
  (* the bins before, between and after *)
  assert (Hbefore : total (map (fun i => term i j) (zseq 0 (Z.to_nat b))) = zero). { apply total_zero. intros i Hi. apply In_zseq in Hi. apply term_0; [lia|lia|left]. apply B1. lia. }
  assert (Hmid : forall i, b < i < e - 1 -> term i j = znth zero old i).
  { intros i Hi. unfold term, share. pose proof (B2 i ltac:(lia)). pose proof (E1 (i + 1) ltac:(lia)). pose proof (Hold i (i + 1) ltac:(lia) ltac:(lia)). rewrite overlap_full by lra. unfold Rdiv. rewrite Rinv_r by lra. apply scale_1. }
  assert (Hafter : forall i, e <= i < n -> term i j = zero). { intros i Hi. apply term_0; [lia|lia|right]. left. apply E2. lia. }
  assert (Hsum : new_content j = add (term b j) (total (map (fun i => term i j) (zseq (b + 1) (Z.to_nat (n - b - 1)))))).
  { unfold new_content. replace (Z.to_nat n) with (Z.to_nat b + S (Z.to_nat (n - b - 1)))%nat by lia. rewrite total_split, Hbefore, (add_comm zero), add_zero. rewrite Z2Nat.id by lia. rewrite Z.add_0_l. rewrite zseq_S. cbn [map]. apply (total_cons zero add add_zero add_comm add_assoc). }
  rewrite Hsum. destruct (Z.eqb_spec b (e - 1)) as [E|Hne]; cbn [negb andb].
  - destruct (Z.ltb_spec (b + 1) (e - 1)); [lia|]. f_equal. rewrite total_zero; [symmetry; apply add_zero|]. intros i Hi. apply In_zseq in Hi. apply Hafter. lia.
  - assert (Hmidsum : (if b + 1 <? e - 1 then fold_left add (firstn (Z.to_nat (e - 1 - (b + 1))) (skipn (Z.to_nat (b + 1)) old)) (term b j) else term b j) = add (term b j) (total (map (fun i => term i j) (zseq (b + 1) (Z.to_nat (e - 1 - (b + 1))))))).
    { destruct (Z.ltb_spec (b + 1) (e - 1)).
      - rewrite sum_range by lia. do 2 f_equal. apply map_ext_in. intros i Hi. apply In_zseq in Hi. symmetry. apply Hmid. lia.
      - replace (Z.to_nat (e - 1 - (b + 1))) with O by lia. symmetry. apply add_zero. }
    rewrite Hmidsum. clear Hmidsum. destruct (Z.ltb_spec e (n + 1)).
    + unfold add_from_bin. rewrite !(vget_znth 0%R) by lia. rewrite (vget_znth zero) by lia. cbn [bind]. f_equal.
      replace (Z.to_nat (n - b - 1)) with (Z.to_nat (e - 1 - (b + 1)) + S (Z.to_nat (n - e)))%nat by lia. rewrite total_split. rewrite Z2Nat.id by lia. replace (b + 1 + (e - 1 - (b + 1))) with (e - 1) by lia. rewrite zseq_S. cbn [map]. rewrite (total_cons zero add add_zero add_comm add_assoc).
      rewrite (total_zero _ (zseq (e - 1 + 1) (Z.to_nat (n - e)))); [|intros i Hi; apply In_zseq in Hi; apply Hafter; lia]. rewrite add_zero, <- add_assoc. do 2 f_equal. unfold term, share. f_equal. apply fraction_ok; [|apply E1; lia|exact Hab|apply Hold; lia].
      left. apply B2. lia.
    + f_equal. do 4 f_equal. lia.
Qed.
Lemma rebin_non_inner_ok : 2 <= zlen xold -> 1 <= zlen xnew -> rebin_non_inner Rlt_bool Rminus Rdiv Rabs zero add scale xnew old xold = Ok (map new_content (zseq 0 (Z.to_nat (zlen xnew - 1)))).
Proof.
  intros Hn2 Hn1. assert (Hg : forall suf pre, xnew = pre ++ suf -> suf <> [] -> rebin_non_inner Rlt_bool Rminus Rdiv Rabs zero add scale suf old xold = Ok (map new_content (zseq (zlen pre) (Z.to_nat (zlen suf - 1))))).
  { induction suf as [|a suf IH]; intros pre Hp Hne; [contradiction|]. cbn [rebin_non_inner]. destruct suf as [|b suf]; [reflexivity|].
    assert (Ha : znth 0%R xnew (zlen pre) = a) by (rewrite Hp, znth_app, Z.ltb_irrefl, Z.sub_diag; reflexivity).
    assert (Hb : znth 0%R xnew (zlen pre + 1) = b). { rewrite Hp, znth_app. destruct (Z.ltb_spec (zlen pre + 1) (zlen pre)); [lia|]. replace (zlen pre + 1 - zlen pre) with 1 by lia. reflexivity. }
    pose proof (accumulate_ok (zlen pre) Hn2) as Hacc. rewrite Ha, Hb in Hacc. rewrite Hacc. 2:{ rewrite Hp, zlen_app, !zlen_cons. pose proof (zlen_nonneg pre). pose proof (zlen_nonneg suf). lia. }
    cbn [bind]. specialize (IH (pre ++ [a])). rewrite <- app_assoc in IH. cbn [app] in IH. rewrite (IH Hp ltac:(discriminate)). cbn [bind]. f_equal. rewrite zlen_app, !zlen_cons. change (zlen (@nil R)) with 0. pose proof (zlen_nonneg suf). replace (Z.to_nat (zlen suf + 1 + 1 - 1)) with (S (Z.to_nat (zlen suf + 1 - 1))) by lia. rewrite zseq_S. cbn [map]. reflexivity. }
  apply (Hg xnew []); [reflexivity|]. intros ->. change (zlen (@nil R)) with 0 in Hn1. lia.
Qed.
End Rows.
End Sums.
