(** Specification vocabulary for models built from a symmetric linear response: C85, C86. *)
From Coq Require Import String ZArith Reals List.
From Verif Require Import Base LinAlg M_Validate M_Symmetry M_Reference M_Interp M_Art M_Dynamics S_Lattice S_Vec S_Symmetry S_Equivalent
  S_Interp S_Images.
Import ListNotations.
Local Open Scope R_scope.

(** [r] is the reference structure of a crystal with lattice [L], atoms at [pos] and symmetry
    operations [ops], each of which really carries atoms onto atoms and has the same orthogonal
    matrix in fractional and Cartesian coordinates (C83_carried_refuted shows what happens
    otherwise). *)
Definition crystal (L : M3) (pos : list V3) (ops : list (M3 * V3)) (r : refstruct) : Prop :=
  (exists numbers equiv, make_reference numbers L pos (Some (ops, equiv)) = Ok r) /\
  (0 < List.length pos)%nat /\ ops <> [] /\ separated (/ 100000) pos /\
  Forall (fun op => short_columns (fst op) /\ isometry (fst op) /\ mmul (fst op) L = mmul L (fst op) /\
     exists pi, row_symmetry pos (fst op) (snd op) pi) ops.

(** Cartesian displacements [u] after an operation with matrix [R] that carries atom [pi b]
    onto atom [b] *)
Definition moved (R : M3) (pi : nat -> nat) (u : list V3) : list V3 :=
  map (fun b => vmul (nth (pi b) u v0) R) (seq 0 (List.length u)).

(** The response of the polarizability has the symmetry of the crystal. *)
Definition symmetric_response (pos : list V3) (ops : list (M3 * V3)) (l : list V3 -> M3) : Prop :=
  forall op pi u, In op ops -> row_symmetry pos (fst op) (snd op) pi -> List.length u = List.length pos ->
    l (moved (fst op) pi u) = carried (fst op) (l u).

(** Displacements that get_equivalent_displacements puts into one group because they are
    collinear really are: equal or opposite to the first. *)
Definition exact_images (r : refstruct) (d : list V3) : Prop :=
  forall gs g, get_equivalent_displacements r (Fin d) = Ok gs -> In g gs ->
    exists lead rest, g_disp g = Fin lead :: rest /\
      forall x, In (Fin x) (g_disp g) -> x = lead \/ x = rows_scale (-1) lead.

(** What the polarizability is at the given amplitudes along [cart] *)
Definition data_along (pol : M3) (l : list V3 -> M3) (cart : list V3) (amps : list R) : rarr :=
  mats_arr (map (fun a => madd pol (l (rows_scale a (direction_of cart)))) amps).

(** Models built by successful add_dof and add_art calls with data from the response
    u |-> pol + l u, for displacements of less than half a cell. *)
Inductive sampled (r : refstruct) (pol : M3) (l : list V3 -> M3) : imodel -> Prop :=
| sampled_new : sampled r pol l (make_model r pol false)
| sampled_dof m d cart amps inc m' w :
    sampled r pol l m -> List.length d = List.length (rs_positions r) -> half_cell d -> exact_images r d ->
    cart = rows_mul d (rs_lattice r) -> amps <> [] ->
    add_dof (Fin cart) (vec_arr amps) (data_along pol l cart amps) 1 inc m = ((m', w), Ok tt) ->
    sampled r pol l m'
| sampled_art m f v i k amps m' w :
    sampled r pol l m -> half_cell [f] -> f <> v0 -> v = vmul f (rs_lattice r) -> py_index (List.length (rs_positions r)) i = Some k ->
    exact_images r (set_nth k f (repeat v0 (List.length (rs_positions r)))) -> amps <> [] ->
    add_art i [vx v; vy v; vz v] (vec_arr amps)
      (data_along pol l (set_nth k v (repeat v0 (List.length (rs_positions r)))) amps) m = ((m', w), Ok tt) ->
    sampled r pol l m'.

(** The model has been built from a symmetric linear response of the crystal, and its
    degrees of freedom are orthonormal and as many as the atoms have coordinates. *)
Definition fully_sampled (L : M3) (pos : list V3) (ops : list (M3 * V3)) (r : refstruct) (pol : M3)
    (l : list V3 -> M3) (m : imodel) : Prop :=
  crystal L pos ops r /\ linear_response (List.length pos) l /\ symmetric_response pos ops l /\ sampled r pol l m /\
  orthonormal (im_basis m) /\ List.length (im_basis m) = (3 * List.length pos)%nat.

(** The model as the argument of get_raman_spectrum: samples are (N,3) arrays. *)
Definition as_model (spl : nat -> list (R * M3) -> R -> M3) (m : imodel) : pol_model :=
  fun xs => calc_polarizabilities spl m (batch_of (List.length (rs_positions (im_ref m))) xs).

(** Phonons about the reference structure, whose displacements by 1/1000 either way (the step
    of the central difference) stay within half a cell *)
Definition phonons_about (pos : list V3) (p : phonons) : Prop :=
  ph_ref p = pos /\ ph_displacements p <> [] /\ List.length (ph_wavenumbers p) = List.length (ph_displacements p) /\
  Forall (fun d => List.length d = List.length pos /\ half_cell (rows_scale (1 / 1000) d) /\
                   half_cell (rows_scale (- (1 / 1000)) d)) (ph_displacements p).
