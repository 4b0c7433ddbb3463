(** Specification vocabulary for ART models. *)
From Coq Require Import String ZArith Reals Bool Arith List.
From Verif Require Import Base LinAlg M_Reference M_Interp M_Art S_Lattice S_Symmetry S_Equivalent S_Interp.
Import ListNotations.
Local Open Scope R_scope.

(** The (N,3) array [b] is nonzero in row [k] and in no other. *)
Definition moves_only (b : list V3) (k : nat) : Prop :=
  (k < List.length b)%nat /\ nth k b v0 <> v0 /\ forall j, j <> k -> nth j b v0 = v0.

(** A structure whose symmetry operations carry atoms onto atoms (in the row convention of
    the code), with no two atoms on top of each other *)
Definition symmetric_reference (r : refstruct) : Prop :=
  exists numbers L pos ops equiv, make_reference numbers L pos (Some (ops, equiv)) = Ok r /\
    (0 < List.length pos)%nat /\ ops <> [] /\ separated (/ 100000) pos /\
    Forall (fun op => short_columns (fst op) /\ exists pi, row_symmetry pos (fst op) (snd op) pi) ops.

(** Atom index [i] (negative: counted from the end) names atom [k] of [n]. *)
Definition names_atom (n : nat) (i : Z) (k : nat) : Prop :=
  (k < n)%nat /\ (i = Z.of_nat k \/ i = Z.of_nat k - Z.of_nat n)%Z.

(** Histories that add DOFs through add_art only *)
Definition adds_by_add_art (o : aop) : Prop :=
  match o with OpArtFiles _ | OpArtPymatgen _ _ => False | _ => True end.

(** Some coordinate exceeds the tolerance. *)
Definition exceeds (tol : R) (v : V3) : Prop :=
  tol < Rabs (vx v) \/ tol < Rabs (vy v) \/ tol < Rabs (vz v).

(** [list(set(l))] in any order *)
Definition lists_set (f : list Z -> list Z) : Prop :=
  forall l, NoDup (f l) /\ forall x, In x (f l) <-> In x l.

(** Atoms asked for by index or by element symbol *)
Definition asked_for (r : refstruct) (items : list request) (i : Z) : Prop :=
  In (ByIndex i) items \/
  exists s z k, In (BySymbol s) items /\ nth_error (rs_numbers r) k = Some z /\
    Constants.atom_symbol z = Ok s /\ i = Z.of_nat k.

(** The first of the atoms that move furthest *)
Definition most_displaced (d : list V3) (k : nat) : Prop :=
  (k < List.length d)%nat /\ (forall j, vnorm2 (nth j d v0) <= vnorm2 (nth k d v0)) /\
  (forall j, (j < k)%nat -> vnorm2 (nth j d v0) < vnorm2 (nth k d v0)).

(** [out] lists, in order, the elements of a list that satisfy [P]. *)
Inductive selects {A} (P : A -> Prop) : list A -> list A -> Prop :=
| sel_nil : selects P [] []
| sel_keep a l out : P a -> selects P l out -> selects P (a :: l) (a :: out)
| sel_drop a l out : ~ P a -> selects P l out -> selects P (a :: l) out.
