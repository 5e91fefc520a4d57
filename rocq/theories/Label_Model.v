(** Model of the global registry of dimension labels (lib/units/dim.cpp). *)
From Coq Require Import String.
From Verif Require Import Base.
#[local] Open Scope string_scope.

(** dim.h 16-39: the enumerators of [Dim::Id], in order, starting at 0. dim.cpp 17-39: the built-in
    names. [InternalBinCoarse] = 8, [InternalBinFine] = 9, [InternalSubbin] = 10 have no name. *)
Definition builtin_ids : list (string * Z) :=
  [("<invalid>", 0); ("<none>", 1); ("<internal_structure_component>", 2); ("<internal_structure_row>", 3);
   ("<internal_structure_column>", 4); ("<internal_histogram>", 5); ("<internal_sort>", 6);
   ("<internal_accumulate>", 7); ("energy", 11); ("event", 12); ("group", 13); ("position", 14);
   ("row", 15); ("temperature", 16); ("time", 17); ("wavelength", 18); ("x", 19); ("y", 20); ("z", 21)].

(** [std::unordered_map::find] / [operator\[\] =] on a list of pairs. *)
Fixpoint find_label (l : string) (m : list (string * Z)) : option Z :=
  match m with
  | [] => None
  | (k, i) :: m' => if String.eqb k l then Some i else find_label l m'
  end.
Fixpoint put_label (l : string) (i : Z) (m : list (string * Z)) : list (string * Z) :=
  match m with
  | [] => [(l, i)]
  | (k, j) :: m' => if String.eqb k l then (k, i) :: m' else (k, j) :: put_label l i m'
  end.

(** Linear search by id; the iteration order of the hash map is unspecified, here it is the list order. *)
Fixpoint find_id (i : Z) (m : list (string * Z)) : option string :=
  match m with
  | [] => None
  | (k, j) :: m' => if (j =? i)%Z then Some k else find_id i m'
  end.

(** The registry, the threads that looked a label up without success and released the read lock
    (dim.cpp 54-59), and the labels handed out so far with their ids. *)
Record reg := mkreg { custom : list (string * Z); pending : list (nat * string); handed : list (string * Z) }.
Definition reg_init : reg := mkreg [] [] [].

Fixpoint pending_of (t : nat) (p : list (nat * string)) : option string :=
  match p with
  | [] => None
  | (u, l) :: p' => if Nat.eqb u t then Some l else pending_of t p'
  end.

(** The atomic regions of [Dim::Dim(label)] executed by thread [t]: dim.cpp 49-58 (search of the built-in
    table and, under the shared lock, of the custom table) and dim.cpp 60-66 (under the unique lock). *)
Inductive ev := Lookup (t : nat) (l : string) | Register (t : nat).

Definition lookup_step (s : reg) (t : nat) (l : string) : reg :=
  match pending_of t (pending s) with
  | Some _ => s                           (* the thread is still inside the constructor *)
  | None =>
    match find_label l builtin_ids with
    | Some i => mkreg (custom s) (pending s) ((l, i) :: handed s)
    | None =>
      match find_label l (custom s) with
      | Some i => mkreg (custom s) (pending s) ((l, i) :: handed s)
      | None => mkreg (custom s) ((t, l) :: pending s) (handed s)
      end
    end
  end.

(** [id > max(uint16)] throws and hands out nothing. *)
Definition register_step (s : reg) (t : nat) : reg :=
  match pending_of t (pending s) with
  | None => s
  | Some l =>
    let p := filter (fun x => negb (Nat.eqb (fst x) t)) (pending s) in
    let id := (zlen (custom s) + 1000)%Z in
    if (id >? 65535)%Z then mkreg (custom s) p (handed s)
    else mkreg (put_label l id (custom s)) p ((l, id) :: handed s)
  end.

Definition reg_step (s : reg) (e : ev) : reg :=
  match e with Lookup t l => lookup_step s t l | Register t => register_step s t end.
Definition reg_run (s : reg) (es : list ev) : reg := fold_left reg_step es s.

(** A label constructed by a single thread: both regions back to back. *)
Definition construct (l : string) : list ev := [Lookup 0 l; Register 0].

(** dim.cpp 69-79 *)
Definition dim_name (s : reg) (i : Z) : string :=
  match (if (i <? 1000)%Z then find_id i builtin_ids else None) with
  | Some k => k
  | None => match find_id i (custom s) with Some k => k | None => "unreachable" end
  end.
