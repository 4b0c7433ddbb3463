(** Specification vocabulary for one crystal in two orientations: C95. *)
From Coq Require Import String ZArith Reals List.
From Verif Require Import Base LinAlg M_Validate M_StructUtils M_Symmetry M_Reference M_Interp M_Art M_Shared S_Images.
Import ListNotations.
Local Open Scope R_scope.

(** Turning a crystal by [Q] (rows: u |-> u Q) turns its lattice to [mmul L Q], Cartesian
    displacements [c] to [rows_mul c Q] and polarizabilities [a] to [carried Q a]; fractional
    coordinates, amplitudes and symmetry operations (which are fractional) stay the same. *)


(** The same calls with [f] applied to every polarizability.
    Two arrays of polarizabilities, the second with [f] applied to every one; or two arrays with a
    shape that is not that of a list of polarizabilities *)
Definition mapped_data (f : M3 -> M3) (p p' : rarr) : Prop :=
  (exists qs, p = mats_arr qs /\ p' = mats_arr (map f qs)) \/
  (ra_shape p' = ra_shape p /\ forall k, ra_shape p <> [k; 3%nat; 3%nat]).
Definition mapped_read (f : M3 -> M3) (x y : res (list V3 * M3)) : Prop :=
  match x, y with
  | Ok (p, q), Ok (p', q') => p' = p /\ q' = f q
  | Err e, Err e' => e' = e
  | _, _ => False
  end.
(** A Cartesian direction: three numbers *)
Definition turned_direction (Q : M3) (d d' : list R) : Prop :=
  match d with
  | [x; y; z] => let v := vmul (mkV x y z) Q in d' = [vx v; vy v; vz v]
  | _ => d' = d
  end.

(** The same call with every Cartesian displacement turned by [Q] and every polarizability
    mapped by [f] *)
Definition mapped_call (Q : M3) (f : M3 -> M3) (a a' : adding) : Prop :=
  match a, a' with
  | Dof c x p k i, Dof c' x' p' k' i' => c' = rows_mul c Q /\ x' = x /\ mapped_data f p p' /\ k' = k /\ i' = i
  | DofFiles r k, DofFiles r' k' => Forall2 (mapped_read f) r r' /\ k' = k
  | DofPymatgen ps p k, DofPymatgen ps' p' k' => ps' = ps /\ mapped_data f p p' /\ k' = k
  | Art i d x p, Art i' d' x' p' => i' = i /\ turned_direction Q d d' /\ x' = x /\ mapped_data f p p'
  | ArtFiles r, ArtFiles r' => Forall2 (mapped_read f) r r'
  | ArtPymatgen ps p, ArtPymatgen ps' p' => ps' = ps /\ p' = map f p
  | _, _ => False
  end.
(** The same call for the turned crystal *)
Definition turned_call (Q : M3) : adding -> adding -> Prop := mapped_call Q (carried Q).

(** The spline through mapped values has mapped values. *)
Definition spline_maps (f : M3 -> M3) (spl : nat -> list (R * M3) -> R -> M3) : Prop :=
  forall k pts x, spl k (map (fun p => (fst p, f (snd p))) pts) x = f (spl k pts x).

(** The same call with other polarizabilities: as many of them, of any values *)
Definition other_data (p p' : rarr) : Prop :=
  (exists qs qs', List.length qs' = List.length qs /\ p = mats_arr qs /\ p' = mats_arr qs') \/
  (ra_shape p' = ra_shape p /\ forall k, ra_shape p <> [k; 3%nat; 3%nat]).
Definition other_read (x y : res (list V3 * M3)) : Prop :=
  match x, y with
  | Ok (p, _), Ok (p', _) => p' = p
  | Err e, Err e' => e' = e
  | _, _ => False
  end.
Definition other_call (a a' : adding) : Prop :=
  match a, a' with
  | Dof c x p k i, Dof c' x' p' k' i' => c' = c /\ x' = x /\ other_data p p' /\ k' = k /\ i' = i
  | DofFiles r k, DofFiles r' k' => Forall2 other_read r r' /\ k' = k
  | DofPymatgen ps p k, DofPymatgen ps' p' k' => ps' = ps /\ other_data p p' /\ k' = k
  | Art i d x p, Art i' d' x' p' => i' = i /\ d' = d /\ x' = x /\ other_data p p'
  | ArtFiles r, ArtFiles r' => Forall2 other_read r r'
  | ArtPymatgen ps p, ArtPymatgen ps' p' => ps' = ps /\ List.length p' = List.length p
  | _, _ => False
  end.
(** Every polarizability in the call multiplied by [k] *)
Definition rescaled_call (k : R) : adding -> adding -> Prop := mapped_call mI (mscale k).
(** The order and the amplitudes at which each degree of freedom is sampled *)
Definition sampling (m : imodel) : list (nat * list R) := map (fun sp => (sp_order sp, map fst (sp_pts sp))) (im_interp m).
(** The tensor [c] added to every polarizability in the call *)
Definition offset_call (c : M3) : adding -> adding -> Prop := mapped_call mI (fun a => madd a c).
