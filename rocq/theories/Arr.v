(** Reading and writing positions of lists, as functions of an integer position with a default outside. *)
From Verif Require Import Base.

Definition znth {A} (d : A) (l : list A) (i : Z) : A := if i <? 0 then d else nth (Z.to_nat i) l d.

Lemma zlen_nonneg {A} (l : list A) : 0 <= zlen l. Proof. unfold zlen. lia. Qed.
Lemma zlen_nil {A} : zlen (@nil A) = 0. Proof. reflexivity. Qed.
Lemma zlen_cons {A} (a : A) l : zlen (a :: l) = zlen l + 1. Proof. unfold zlen. cbn [length]. lia. Qed.
Lemma zlen_app {A} (l m : list A) : zlen (l ++ m) = zlen l + zlen m. Proof. unfold zlen. rewrite app_length. lia. Qed.
Lemma zlen_map {A B} (f : A -> B) l : zlen (map f l) = zlen l. Proof. unfold zlen. rewrite map_length. reflexivity. Qed.
Lemma zlen_repeat {A} (a : A) n : zlen (repeat a n) = Z.of_nat n. Proof. unfold zlen. rewrite repeat_length. reflexivity. Qed.
Lemma zlen_zseq a n : zlen (zseq a n) = Z.of_nat n. Proof. unfold zlen, zseq. rewrite map_length, seq_length. reflexivity. Qed.
Lemma zlen_firstn {A} n (l : list A) : 0 <= n <= zlen l -> zlen (firstn (Z.to_nat n) l) = n.
Proof. unfold zlen. intros Hn. rewrite firstn_length. lia. Qed.
Lemma zlen_skipn {A} n (l : list A) : 0 <= n <= zlen l -> zlen (skipn (Z.to_nat n) l) = zlen l - n.
Proof. unfold zlen. intros Hn. rewrite skipn_length. lia. Qed.
Lemma zlen_0_nil {A} (l : list A) : zlen l = 0 -> l = []. Proof. destruct l; [reflexivity|]. rewrite zlen_cons. pose proof (zlen_nonneg l). lia. Qed.

Lemma znth_out {A} (d : A) l i : ~ (0 <= i < zlen l) -> znth d l i = d.
Proof. unfold znth, zlen. intros Hi. destruct (Z.ltb_spec i 0); [reflexivity|]. apply nth_overflow. lia. Qed.
Lemma znth_0 {A} (d : A) a l : znth d (a :: l) 0 = a. Proof. reflexivity. Qed.
Lemma znth_S {A} (d : A) a l i : 0 < i -> znth d (a :: l) i = znth d l (i - 1).
Proof.
  intros Hi. unfold znth. destruct (Z.ltb_spec i 0); [lia|]. destruct (Z.ltb_spec (i - 1) 0); [lia|]. replace (Z.to_nat i) with (S (Z.to_nat (i - 1))) by lia. reflexivity.
Qed.
Lemma znth_default {A} (d d' : A) l i : 0 <= i < zlen l -> znth d l i = znth d' l i.
Proof. unfold znth, zlen. intros Hi. destruct (Z.ltb_spec i 0); [lia|]. apply nth_indep. lia. Qed.
Lemma znth_app {A} (d : A) l m i : znth d (l ++ m) i = if i <? zlen l then znth d l i else znth d m (i - zlen l).
Proof.
  unfold znth, zlen. destruct (Z.ltb_spec i (Z.of_nat (length l))).
  - destruct (Z.ltb_spec i 0); [reflexivity|]. apply app_nth1. lia.
  - destruct (Z.ltb_spec i 0); [lia|]. destruct (Z.ltb_spec (i - Z.of_nat (length l)) 0); [lia|]. rewrite app_nth2 by lia. f_equal. lia.
Qed.
Lemma znth_map {A B} (f : A -> B) d e l i : 0 <= i < zlen l -> znth e (map f l) i = f (znth d l i).
Proof.
  unfold znth, zlen. intros Hi. destruct (Z.ltb_spec i 0); [lia|]. rewrite (nth_indep (map f l) e (f d)) by (rewrite map_length; lia). apply map_nth.
Qed.
Lemma znth_repeat {A} (d a : A) n i : 0 <= i < Z.of_nat n -> znth d (repeat a n) i = a.
Proof. unfold znth. intros Hi. destruct (Z.ltb_spec i 0); [lia|]. assert (Hn : (Z.to_nat i < n)%nat) by lia. revert Hn. generalize (Z.to_nat i). clear. intros k. revert n. induction k; intros [|n] Hn; cbn; try lia; [reflexivity|apply IHk; lia]. Qed.
Lemma znth_repeat_d {A} (d : A) n i : znth d (repeat d n) i = d.
Proof. destruct (Z_lt_dec i (Z.of_nat n)); [destruct (Z_le_dec 0 i); [apply znth_repeat; lia|]|]; apply znth_out; rewrite zlen_repeat; lia. Qed.
Lemma znth_zseq d a n i : 0 <= i < Z.of_nat n -> znth d (zseq a n) i = a + i.
Proof.
  intros Hi. unfold zseq. rewrite (znth_map _ 0%nat) by (unfold zlen; rewrite seq_length; lia). unfold znth. destruct (Z.ltb_spec i 0); [lia|].
  rewrite seq_nth by lia. lia.
Qed.
Lemma znth_firstn {A} (d : A) n l i : i < n -> znth d (firstn (Z.to_nat n) l) i = znth d l i.
Proof.
  intros Hi. unfold znth. destruct (Z.ltb_spec i 0); [reflexivity|]. assert (Hn : (Z.to_nat i < Z.to_nat n)%nat) by lia. revert Hn. generalize (Z.to_nat i) (Z.to_nat n). clear.
  intros i n. revert i l. induction n as [|n IH]; intros i l Hn; [lia|]. destruct l; [reflexivity|]. destruct i; [reflexivity|]. cbn. apply IH. lia.
Qed.
Lemma znth_skipn {A} (d : A) n l i : 0 <= n -> 0 <= i -> znth d (skipn (Z.to_nat n) l) i = znth d l (n + i).
Proof.
  intros Hn Hi. unfold znth. destruct (Z.ltb_spec i 0); [lia|]. destruct (Z.ltb_spec (n + i) 0); [lia|]. replace (Z.to_nat (n + i)) with (Z.to_nat n + Z.to_nat i)%nat by lia.
  generalize (Z.to_nat i) (Z.to_nat n). clear. intros i n. revert l. induction n as [|n IH]; intros l; [reflexivity|]. destruct l; [destruct i; reflexivity|]. cbn. apply IH.
Qed.
Lemma znth_rev {A} (d : A) l i : 0 <= i < zlen l -> znth d (rev l) i = znth d l (zlen l - 1 - i).
Proof.
  unfold znth, zlen. intros Hi. destruct (Z.ltb_spec i 0); [lia|]. destruct (Z.ltb_spec (Z.of_nat (length l) - 1 - i) 0); [lia|].
  rewrite rev_nth by lia. f_equal. lia.
Qed.
Lemma znth_In {A} (d : A) l i : 0 <= i < zlen l -> In (znth d l i) l.
Proof. unfold znth, zlen. intros Hi. destruct (Z.ltb_spec i 0); [lia|]. apply nth_In. lia. Qed.
Lemma In_znth {A} (d : A) l x : In x l -> exists i, 0 <= i < zlen l /\ znth d l i = x.
Proof.
  intros Hx. destruct (In_nth l x d Hx) as (k & Hk & E). exists (Z.of_nat k). unfold zlen, znth. split; [lia|]. destruct (Z.ltb_spec (Z.of_nat k) 0); [lia|]. rewrite Nat2Z.id. exact E.
Qed.
Lemma znth_ext {A} (d : A) l m : zlen l = zlen m -> (forall i, 0 <= i < zlen l -> znth d l i = znth d m i) -> l = m.
Proof.
  unfold zlen. intros Hl Hn. apply (nth_ext _ _ d d); [lia|]. intros n Hlt. specialize (Hn (Z.of_nat n) ltac:(lia)). unfold znth in Hn.
  destruct (Z.ltb_spec (Z.of_nat n) 0); [lia|]. rewrite Nat2Z.id in Hn. exact Hn.
Qed.

Lemma vget_znth {A} (d : A) l i : 0 <= i < zlen l -> vget l i = Ok (znth d l i).
Proof.
  unfold vget, znth, zlen. intros Hi. destruct (Z.ltb_spec i 0); [lia|]. rewrite (nth_error_nth' l d) by lia. reflexivity.
Qed.
Lemma vget_Ok {A} (d : A) l i x : vget l i = Ok x -> 0 <= i < zlen l /\ znth d l i = x.
Proof.
  unfold vget, znth, zlen. destruct (Z.ltb_spec i 0); [discriminate|]. destruct (nth_error l (Z.to_nat i)) eqn:E; [|discriminate]. intros Hx. injection Hx as <-.
  split; [assert (Z.to_nat i < length l)%nat by (apply nth_error_Some; congruence); lia|]. apply nth_error_nth. exact E.
Qed.
Lemma vget_Ub {A} (l : list A) i : ~ (0 <= i < zlen l) -> vget l i = Ub.
Proof.
  unfold vget, zlen. intros Hi. destruct (Z.ltb_spec i 0); [reflexivity|]. assert (En : nth_error l (Z.to_nat i) = None) by (apply nth_error_None; lia). rewrite En. reflexivity.
Qed.
Lemma upd_length {A} (l : list A) n x : length (upd l n x) = length l.
Proof. revert n. induction l as [|a l IH]; intros [|n]; cbn; auto. Qed.
Lemma upd_nth {A} (d : A) l n x k : (n < length l)%nat -> nth k (upd l n x) d = if Nat.eqb k n then x else nth k l d.
Proof.
  revert n k. induction l as [|a l IH]; intros n k Hn; [cbn in Hn; lia|]. destruct n as [|n], k as [|k]; cbn; try reflexivity. apply IH. cbn in Hn. lia.
Qed.
Definition zupd {A} (l : list A) (i : Z) (x : A) : list A := upd l (Z.to_nat i) x.
Lemma vset_zupd {A} (l : list A) i x : 0 <= i < zlen l -> vset l i x = Ok (zupd l i x).
Proof. unfold vset, zlen. intros Hi. replace ((i <? 0) || (Z.of_nat (length l) <=? i)) with false by lia. reflexivity. Qed.
Lemma zlen_zupd {A} (l : list A) i x : zlen (zupd l i x) = zlen l.
Proof. unfold zlen, zupd. rewrite upd_length. reflexivity. Qed.
Lemma znth_zupd {A} (d : A) l i x j : 0 <= i < zlen l -> znth d (zupd l i x) j = if j =? i then x else znth d l j.
Proof.
  unfold znth, zupd, zlen. intros Hi. destruct (Z.ltb_spec j 0) as [Hj|Hj]; [destruct (Z.eqb_spec j i); [lia|reflexivity]|].
  rewrite upd_nth by lia. destruct (Z.eqb_spec j i); [subst; rewrite Nat.eqb_refl; reflexivity|]. destruct (Nat.eqb_spec (Z.to_nat j) (Z.to_nat i)); [lia|reflexivity].
Qed.
Lemma vset_Ok {A} (l : list A) i x m : vset l i x = Ok m -> 0 <= i < zlen l /\ m = zupd l i x.
Proof. unfold vset, zlen, zupd. destruct ((i <? 0) || (Z.of_nat (length l) <=? i)) eqn:E; [discriminate|]. intros Hm. injection Hm as <-. split; [lia|reflexivity]. Qed.

Lemma sumZ_app l m : sumZ (l ++ m) = sumZ l + sumZ m.
Proof. unfold sumZ. induction l as [|a l IH]; cbn [app fold_right]; lia. Qed.
Lemma sumZ_cons a l : sumZ (a :: l) = a + sumZ l. Proof. reflexivity. Qed.
Lemma sumZ_map_add {A} (f g : A -> Z) l : sumZ (map (fun x => f x + g x) l) = sumZ (map f l) + sumZ (map g l).
Proof. induction l as [|a l IH]; [reflexivity|]. cbn [map]. rewrite !sumZ_cons, IH. lia. Qed.
Lemma sumZ_map_0 {A} (f : A -> Z) l : (forall x, In x l -> f x = 0) -> sumZ (map f l) = 0.
Proof. induction l as [|a l IH]; intros Hf; [reflexivity|]. cbn [map]. rewrite sumZ_cons, IH, (Hf a) by (intros; try apply Hf; cbn; auto). reflexivity. Qed.
Lemma sumZ_map_nonneg {A} (f : A -> Z) l : (forall x, In x l -> 0 <= f x) -> 0 <= sumZ (map f l).
Proof. induction l as [|a l IH]; intros Hf; [cbn; lia|]. cbn [map]. rewrite sumZ_cons. pose proof (Hf a (or_introl eq_refl)). specialize (IH (fun x Hx => Hf x (or_intror Hx))). lia. Qed.
Lemma sumZ_nonneg l : (forall x, In x l -> 0 <= x) -> 0 <= sumZ l.
Proof. intros Hl. rewrite <- (map_id l). apply sumZ_map_nonneg. exact Hl. Qed.
