(** Specification of an insertion-ordered map: a partial function plus the list of its keys.
    Independent of the vectors used by the code. *)
From Verif Require Import Base Map_Model.

Section Spec.
Context {K V : Type} (eqb : K -> K -> bool).

Record omap := mkomap { o_order : list K; o_content : K -> option V }.

Definition oempty : omap := mkomap [] (fun _ => None).

Definition oput (s : omap) (k : K) (v : V) : K -> option V :=
  fun x => if eqb x k then Some v else o_content s x.

Definition ohas (s : omap) (k : K) : bool :=
  match o_content s k with Some _ => true | None => false end.

(** Remove [k]: the other keys keep their relative order. *)
Definition odel (s : omap) (k : K) : omap :=
  mkomap (filter (fun x => negb (eqb x k)) (o_order s))
         (fun x => if eqb x k then None else o_content s x).

(** What each call must do: new state or the exception. *)
Definition sm_spec (s : omap) (o : sm_op K V) : omap + exn :=
  match o with
  | SmAssign k v => if ohas s k then inl (mkomap (o_order s) (oput s k v)) else inr DimensionError
  | SmInsertLeft k v => if ohas s k then inr DimensionError
                        else inl (mkomap (k :: o_order s) (oput s k v))
  | SmInsertRight k v => if ohas s k then inr DimensionError
                         else inl (mkomap (o_order s ++ [k]) (oput s k v))
  | SmErase k => if ohas s k then inl (odel s k) else inr DimensionError
  | SmClear => inl oempty
  | SmReplaceKey k k' =>
    if negb (eqb k k') && ohas s k' then inr DimensionError
    else if ohas s k
         then inl (mkomap (map (fun x => if eqb x k then k' else x) (o_order s))
                          (fun x => if eqb x k' then o_content s k
                                    else if eqb x k then None else o_content s x))
         else inr DimensionError
  end.

Definition d_spec (s : omap) (o : d_op K V) : omap + exn :=
  match o with
  | DSet k v => inl (mkomap (if ohas s k then o_order s else o_order s ++ [k]) (oput s k v))
  | DErase k => if ohas s k then inl (odel s k) else inr NotFoundError
  | DClear => inl oempty
  end.

Fixpoint orun {O} (step : omap -> O -> omap + exn) (s : omap) (os : list O) : omap * list (option exn) :=
  match os with
  | [] => (s, [])
  | o :: os' =>
    match step s o with
    | inl s' => let (t, l) := orun step s' os' in (t, None :: l)
    | inr e => let (t, l) := orun step s os' in (t, Some e :: l)
    end
  end.

(** A concrete map shows exactly the abstract one to its user: iteration order, membership, lookups
    ([e] is the exception for a missing key), positions, and iterated pairs. *)
Definition shows (e : exn) (m : vmap K V) (s : omap) : Prop :=
  m_keys m = o_order s /\ NoDup (o_order s) /\
  (forall k, In k (o_order s) <-> o_content s k <> None) /\
  (forall k, mcontains eqb m k = ohas s k) /\
  (forall k, mat eqb e m k = match o_content s k with Some v => Ok v | None => Throw e end) /\
  (forall i k, mindex eqb e m k = Ok (Z.of_nat i) <-> nth_error (o_order s) i = Some k) /\
  (forall k, mindex eqb e m k = Throw e <-> o_content s k = None) /\
  (forall i, nth_error (ditems m) i =
     match nth_error (o_order s) i with
     | Some k => option_map (pair k) (o_content s k)
     | None => None
     end) /\
  length (m_values m) = length (o_order s).
End Spec.
Arguments omap : clear implicits.
Arguments mkomap {K V} _ _.
