(** Model of the construction of the target bins: lib/dataset/bin.cpp 295-446 ([TargetBinBuilder]) and
    lib/dataset/bin_detail.cpp 25-112. Integer coordinates (64 bit); one-dimensional edges, groups and bin coordinates. *)
From Verif Require Import Base Arr Numeric_Model Lookup_Model Mapper_Model.

(** lib/core/include/scipp/core/element/bin_detail.h 30-36, 38-44: the loop of [begin_edge] and [end_edge]; [adv e] is
    [e <= coord] and [e < coord], respectively. *)
Fixpoint edge_loop (adv : Z -> bool) (edges : list Z) (fuel : nat) (bin : Z) : res Z :=
  match fuel with
  | O => Ub
  | S fuel' =>
    if bin + 2 <? zlen edges then
      do e <- vget edges (bin + 1);
      if adv e then edge_loop adv edges fuel' (bin + 1) else Ok bin
    else Ok bin
  end.
(** lib/variable/bin_detail.cpp 22-31, 38-47: [accumulate_in_place] visits the coordinates in order and keeps [bin]. *)
Fixpoint edge_scan (adv : Z -> Z -> bool) (edges : list Z) (bin : Z) (coords : list Z) : res (list Z) :=
  match coords with
  | [] => Ok []
  | c :: cs => do b <- edge_loop (fun e => adv e c) edges (S (length edges)) bin; do bs <- edge_scan adv edges b cs; Ok (b :: bs)
  end.
Definition begin_edge (coords edges : list Z) : res (list Z) := edge_scan Z.leb edges 0 coords.
Definition end_edge (coords edges : list Z) : res (list Z) := do bs <- edge_scan Z.ltb edges 0 coords; Ok (map (fun b => b + 2) bs).

(** lib/variable/bin_util.cpp 17-28 *)
Definition left_edge (c : list Z) : res (list Z) := if zlen c <? 2 then Throw BinEdgeError else Ok (removelast c).
Definition right_edge (c : list Z) : res (list Z) := if zlen c <? 2 then Throw BinEdgeError else Ok (tl c).

(** bin.h 55-83 and bin_detail.cpp 31-62: the lookup of one value; [bits] is the size of the index type. *)
Definition lookup_bin (bits : Z) (linspace : bool) (edges : list Z) (x : Z) : res Z :=
  if linspace then get_bin_int bits edges x else bin_sorted (fun e => x <? e) edges.

(** lib/core/include/scipp/core/element/bin.h 85-103: [groups_to_map], as the list of the pairs; later labels replace earlier ones. *)
Fixpoint find_last (x current : Z) (groups : list Z) (found : option Z) : option Z :=
  match groups with [] => found | g :: gs => find_last x (current + 1) gs (if g =? x then Some current else found) end.
Fixpoint distinct (groups : list Z) : Z := match groups with [] => 0 | g :: gs => (if existsb (Z.eqb g) gs then 0 else 1) + distinct gs end.
(** bin.h 109-142 and 148-173; bin_detail.cpp 73-102. *)
Definition contiguous_groups (groups : list Z) : bool := negb (zlen groups =? 0) && isarange groups.
Definition check_groups (groups : list Z) : res unit :=
  if contiguous_groups groups then Ok tt else if zlen groups =? distinct groups then Ok tt else Throw RuntimeError.
Definition lookup_group (groups : list Z) (x : Z) : res Z :=
  if contiguous_groups groups then
    do offset <- vget groups 0;
    do g <- int_val 64 (x - offset); Ok (if (g <? 0) || (zlen groups <=? g) then -1 else g)
  else Ok (match find_last x 0 groups None with Some i => i | None => -1 end).

(** The entries of [m_actions]; [key p e] is the coordinate of event [e] in input bin [p] (the event coordinate or, if there is
    none, the coordinate of the bin, bin.cpp 308-310). For [Bin]: the coordinate of the input bins along the same dimension
    [d] if there is one ([d] is -1 if the data do not depend on the dimension, i.e., the coordinate belongs to a slice). *)
Inductive action (E : Type) : Type :=
| Group (key : pos -> E -> Z) (groups : list Z)
| Bin (key : pos -> E -> Z) (edges : list Z) (bin_coord : option (Z * list Z))
| Existing (d n : Z)
| Join.
Arguments Group {E}. Arguments Bin {E}. Arguments Existing {E}. Arguments Join {E}.
(** bin.cpp 414-435: the extent of the output dimension. [erase] (438) is an extent 1 without action, like [Join]. *)
Definition asize {E} (a : action E) : Z :=
  match a with Group _ groups => zlen groups | Bin _ edges _ => zlen edges - 1 | Existing _ n => n | Join => 1 end.
Definition volume {E} (acts : list (action E)) : Z := prodZ (map asize acts).

(** [allsorted] ascending *)
Fixpoint sortedb (l : list Z) : bool := match l with a :: (b :: _) as l' => (a <=? b) && sortedb l' | _ => true end.

Section Build.
Context {E : Type}.
Variable bits : Z.
(** the dimensions of the input bins *)
Variable sh : list Z.
Variable V : Z.

(** [indices]: the target of every event; the offset and number of the target bins of every input bin; whether [m_offsets] has
    no dimensions. *)
Record state := { s_index : pos -> E -> res Z; s_off : pos -> Z; s_nb : pos -> Z; s_scalar : bool }.

Definition dim_size (d : Z) : Z := if d <? 0 then 1 else znth 0 sh d.
(** the entry of a variable along dimension [d] for the input bin [p]; the variable was squeezed if it has a single entry. *)
Definition entry (d : Z) (l : list Z) (p : pos) : Z := if zlen l =? 1 then znth 0 l 0 else znth 0 l (znth 0 p d).
(** [make_bins_no_validate(zip(begin, end), dim, key)] *)
Definition sub_edges (edges : list Z) (b e : Z) : list Z := firstn (Z.to_nat (e - b)) (skipn (Z.to_nat b) edges).

(** bin.cpp 314-391 *)
Definition step (s : state) (a : action E) : res state :=
  match a with
  | Group key groups =>
    do _ <- check_groups groups;
    Ok {| s_index := fun p e => do i <- s_index s p e; update_index i (zlen groups) (lookup_group groups (key p e));
          s_off := s_off s; s_nb := s_nb s; s_scalar := s_scalar s |}
  | Bin key edges bc =>
    let linspace := islinspace_int edges in
    let dense := Ok {| s_index := fun p e => do i <- s_index s p e; update_index i (zlen edges - 1) (lookup_bin bits linspace edges (key p e));
                       s_off := s_off s; s_nb := s_nb s; s_scalar := s_scalar s |} in
    match bc with
    | Some (d, c) =>
      if s_scalar s && sortedb c then
        let histogram := zlen c =? dim_size d + 1 in
        do l <- (if histogram then left_edge c else Ok c);
        do begin <- begin_edge l edges;
        do end_ <- (if histogram then do r <- right_edge c; end_edge r edges else Ok (map (fun b => b + 2) begin));
        if asize a =? 0 then Ub else
        let inner_volume := Z.quot V (asize a) in
        let sub p := sub_edges edges (entry d begin p) (entry d end_ p) in
        Ok {| s_index := fun p e => do i <- s_index s p e; update_index i (zlen (sub p) - 1) (lookup_bin bits linspace (sub p) (key p e));
              s_off := fun p => entry d begin p * inner_volume;
              s_nb := fun p => (entry d end_ p - entry d begin p - 1) * inner_volume;
              s_scalar := zlen begin =? 1 |}
      else dense
    | None => dense
    end
  | Existing d n =>
    if s_scalar s && (n =? V) then
      Ok {| s_index := s_index s; s_off := fun p => znth 0 p d; s_nb := fun _ => 1; s_scalar := false |}
    else Ok {| s_index := fun p e => do i <- s_index s p e; update_index i n (Ok (znth 0 p d));
               s_off := s_off s; s_nb := s_nb s; s_scalar := s_scalar s |}
  | Join => Ok s
  end.
Fixpoint steps (s : state) (acts : list (action E)) : res state :=
  match acts with [] => Ok s | a :: r => do s' <- step s a; steps s' r end.
(** bin.cpp 312-313; [TargetBins] starts with zeros. *)
Definition init : state := {| s_index := fun _ _ => Ok 0; s_off := fun _ => 0; s_nb := fun _ => V; s_scalar := true |}.
End Build.
Definition build {E} (bits : Z) (sh : list Z) (acts : list (action E)) : res (@state E) := steps bits sh (volume acts) (init (volume acts)) acts.
Arguments s_index {E}. Arguments s_off {E}. Arguments s_nb {E}. Arguments s_scalar {E}.

(** lib/dataset/bins.cpp 219-233: [pretend_bins_for_threading], the begin and end of the chunks of [n] rows. *)
Definition pretend_stride (n : Z) : Z :=
  let size := Z.max 1 n in
  let nthread := if size >? 10000000 then 24 else if size >? 1000000 then 4 else if size >? 100000 then 2 else 1 in
  Z.max 1 (Z.quot size nthread).
Definition pretend_bins (n : Z) : list (Z * Z) :=
  let size := Z.max 1 n in
  let stride := pretend_stride n in
  let begin := map (fun k => k * stride) (zseq 0 (Z.to_nat (Z.quot size stride))) in     (* make_range, bin_detail.cpp 25-29 *)
  let end_ := removelast (map (fun b => b + stride) begin) ++ [n] in                      (* [back()] is set *)
  combine begin end_.
(** the rows of a chunk *)
Definition slice_range {A} (l : list A) (r : Z * Z) : list A := firstn (Z.to_nat (snd r - fst r)) (skipn (Z.to_nat (fst r)) l).
