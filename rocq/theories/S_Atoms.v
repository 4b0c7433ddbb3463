(** Specification vocabulary for polarizability models of one structure whose atoms are
    listed in two different orders: C93. *)
From Coq Require Import String ZArith Reals List.
From Verif Require Import Base LinAlg M_Validate M_StructUtils M_Symmetry M_Reference M_Interp M_Art M_Shared S_Order S_Relabel.
Import ListNotations.
Local Open Scope R_scope.

(** The same rows, one per atom, in the new order *)
Definition same_rows (n : nat) (move : nat -> nat) (l l' : list V3) : Prop :=
  List.length l = n /\ reordered move l l'.
Definition same_read (n : nat) (move : nat -> nat) (x y : res (list V3 * M3)) : Prop :=
  match x, y with
  | Ok (p, q), Ok (p', q') => same_rows n move p p' /\ q' = q
  | Err e, Err e' => e' = e
  | _, _ => False
  end.

(** The same call, with atoms listed in the new order *)
Definition same_call (n : nat) (move : nat -> nat) (a a' : adding) : Prop :=
  match a, a' with
  | Dof c x p k i, Dof c' x' p' k' i' => same_rows n move c c' /\ x' = x /\ p' = p /\ k' = k /\ i' = i
  | DofFiles r k, DofFiles r' k' => Forall2 (same_read n move) r r' /\ k' = k
  | DofPymatgen ps p k, DofPymatgen ps' p' k' => Forall2 (same_rows n move) ps ps' /\ p' = p /\ k' = k
  | Art i d x p, Art i' d' x' p' => option_map move (py_index n i) = py_index n i' /\ d' = d /\ x' = x /\ p' = p
  | ArtFiles r, ArtFiles r' => Forall2 (same_read n move) r r'
  | ArtPymatgen ps p, ArtPymatgen ps' p' => Forall2 (same_rows n move) ps ps' /\ p' = p
  | _, _ => False
  end.

(** What a sequence of calls shows: warnings and result of each, and the model afterwards *)
Fixpoint run_all (art : bool) (calls : list adding) (m : imodel) : list (list warning * res unit) * imodel :=
  match calls with
  | [] => ([], m)
  | a :: rest =>
      let '((m1, w), x) := run_adding art a m in
      let '(os, m2) := run_all art rest m1 in ((w, x) :: os, m2)
  end.

(** A batch of samples of N atoms, and the same batch with the atoms in the new order *)
Definition same_batch (n : nat) (move : nat -> nat) (b b' : batch) : Prop :=
  exists ns, b_shape b = [ns; n; 3%nat] /\ b_shape b' = [ns; n; 3%nat] /\
    forall s i c, (s < ns)%nat -> (i < n)%nat -> (c < 3)%nat -> b_at b' s (move i) c = b_at b s i c.

(** Largest component of a row, in absolute value *)
Definition biggest (v : V3) : R := Rmax (Rabs (vx v)) (Rmax (Rabs (vy v)) (Rabs (vz v))).
(** One atom has the largest component. *)
Definition one_leader (l : list V3) : Prop :=
  exists i, (i < List.length l)%nat /\
    forall k, (k < List.length l)%nat -> k <> i -> biggest (nth k l v0) < biggest (nth i l v0).
(** One atom moves farthest. *)
Definition one_mover (l : list V3) : Prop :=
  exists i, (i < List.length l)%nat /\
    forall k, (k < List.length l)%nat -> k <> i -> vnorm2 (nth k l v0) < vnorm2 (nth i l v0).

(** In each group of equivalent displacements of [d], every member is an exact multiple of
    the first one, or one atom alone has the largest component of the first one. *)
Definition decisive (r : refstruct) (d : list V3) : Prop :=
  forall gs g lead rest e, get_equivalent_displacements r (Fin d) = Ok gs -> In g gs ->
    g_disp g = Fin lead :: rest -> In (Fin e) (Fin lead :: rest) ->
    (exists t, e = rows_scale t lead) \/ one_leader lead.

(** No tie between atoms decides what the call adds. *)
Definition unambiguous (r : refstruct) (a : adding) : Prop :=
  forall d, starts_from r a d ->
    decisive r d /\ match a with ArtFiles _ | ArtPymatgen _ _ => one_mover d | _ => True end.
