(** Specification vocabulary for models of nonlinear responses: C88. *)
From Coq Require Import String ZArith Reals List.
From Verif Require Import Base LinAlg M_Validate M_Symmetry M_Reference M_Interp M_Art S_Lattice S_Vec S_Symmetry S_Equivalent
  S_Interp S_Images S_Response.
Import ListNotations.
Local Open Scope R_scope.

(** The polynomial with the given matrix coefficients, constant first *)
Definition mpoly (cs : list M3) (t : R) : M3 := fold_right (fun c acc => madd c (mscale t acc)) m0 cs.

(** What is assumed of scipy's splines of order [k]: through more than [k] points of a
    polynomial of degree [k] or less goes that polynomial.  (An interpolating spline is the
    only function of its spline space through the points, and that space contains the
    polynomials of degree [k].) *)
Definition reproduces_polynomials (spl : nat -> list (R * M3) -> R -> M3) : Prop :=
  forall k pts cs, (1 < k)%nat -> (k < List.length pts)%nat -> increasing pts -> (List.length cs <= S k)%nat ->
    (forall p, In p pts -> snd p = mpoly cs (fst p)) -> forall x, spl k pts x = mpoly cs x.

(** Models built by successful add_dof (any order) and add_art calls with data from the
    response u |-> pol + f u, for displacements of less than half a cell. *)
Inductive sampled_any (r : refstruct) (pol : M3) (f : list V3 -> M3) : imodel -> Prop :=
| any_new : sampled_any r pol f (make_model r pol false)
| any_dof m d cart amps order inc m' w :
    sampled_any r pol f m -> List.length d = List.length (rs_positions r) -> half_cell d -> exact_images r d ->
    cart = rows_mul d (rs_lattice r) -> amps <> [] ->
    add_dof (Fin cart) (vec_arr amps) (data_along pol f cart amps) order inc m = ((m', w), Ok tt) ->
    sampled_any r pol f m'
| any_art m g v i k amps m' w :
    sampled_any r pol f m -> half_cell [g] -> g <> v0 -> v = vmul g (rs_lattice r) -> py_index (List.length (rs_positions r)) i = Some k ->
    exact_images r (set_nth k g (repeat v0 (List.length (rs_positions r)))) -> amps <> [] ->
    add_art i [vx v; vy v; vz v] (vec_arr amps)
      (data_along pol f (set_nth k v (repeat v0 (List.length (rs_positions r)))) amps) m = ((m', w), Ok tt) ->
    sampled_any r pol f m'.

(** Along [b] the response is a polynomial of degree at most [k]. *)
Definition polynomial_along (f : list V3 -> M3) (b : list V3) (k : nat) : Prop :=
  exists cs, (List.length cs <= S k)%nat /\ forall t, f (rows_scale t b) = mpoly cs t.

(** "Each degree of freedom modulates the polarizability independently." *)
Definition modulates_independently (n : nat) (f : list V3 -> M3) (basis : list (list V3)) : Prop :=
  forall u, List.length u = n ->
    f u = fold_right madd m0 (map (fun b => f (rows_scale (inner (rowsR b) (rowsR u)) b)) basis).

(** The response [f] is one the model can represent, and the model has been built from it. *)
Definition fully_modelled (spl : nat -> list (R * M3) -> R -> M3) (L : M3) (pos : list V3) (ops : list (M3 * V3))
    (r : refstruct) (pol : M3) (f : list V3 -> M3) (m : imodel) : Prop :=
  reproduces_polynomials spl /\ crystal L pos ops r /\ f (repeat v0 (List.length pos)) = m0 /\ symmetric_response pos ops f /\
  sampled_any r pol f m /\
  Forall2 (fun b sp => polynomial_along f b (sp_order sp)) (im_basis m) (im_interp m) /\
  modulates_independently (List.length pos) f (im_basis m).

(** The coefficients of the odd powers *)
Fixpoint odd_coefficients (cs : list M3) : list M3 :=
  match cs with
  | _ :: c :: cs' => c :: odd_coefficients cs'
  | _ => []
  end.
