(** Specification vocabulary for the order in which degrees of freedom are added: C91. *)
From Coq Require Import String ZArith Reals List.
From Verif Require Import Base LinAlg M_Validate M_StructUtils M_Symmetry M_Reference M_Interp M_Art M_Shared S_Lattice S_Vec S_Symmetry
  S_Equivalent S_Interp S_Images.
Import ListNotations.
Local Open Scope R_scope.

(** The calls, made one after the other on model [m], all return; the model is then [m']. *)
Fixpoint all_return (art : bool) (calls : list adding) (m m' : imodel) : Prop :=
  match calls with
  | [] => m' = m
  | a :: rest => exists m1 w, run_adding art a m = ((m1, w), Ok tt) /\ all_return art rest m1 m'
  end.

(** The fractional displacement a call starts from: that of its argument, or that of the
    first structure it is given *)
Definition starts_from (r : refstruct) (a : adding) (d : list V3) : Prop :=
  match a with
  | Dof cart _ _ _ _ => get_frac_displacement r cart = Ok d
  | DofFiles (Ok (p, _) :: _) _ | ArtFiles (Ok (p, _) :: _) | DofPymatgen (p :: _) _ _ | ArtPymatgen (p :: _) _ =>
      calc_displacement (rs_positions r) p = Ok d
  | Art i direction _ _ => exists f k, get_frac_direction r direction = Ok f /\
      py_index (List.length (rs_positions r)) i = Some k /\ d = set_nth k f (repeat v0 (List.length (rs_positions r)))
  | _ => False
  end.

(** Atoms at [pos] in a cell with lattice [L]; each operation of [ops] carries atoms onto
    atoms, is an isometry in Cartesian coordinates and is undone by one of [ops]. *)
Definition rigid_symmetries (L : M3) (pos : list V3) (ops : list (M3 * V3)) (r : refstruct) : Prop :=
  (exists numbers equiv, make_reference numbers L pos (Some (ops, equiv)) = Ok r) /\
  (0 < List.length pos)%nat /\ ops <> [] /\ separated (/ 100000) pos /\
  Forall (fun op => short_columns (fst op) /\ (exists Q, isometry Q /\ cartesian_form L (fst op) Q) /\
     exists pi, row_symmetry pos (fst op) (snd op) pi) ops /\
  forall op pi, In op ops -> row_symmetry pos (fst op) (snd op) pi ->
    exists op' pi', In op' ops /\ row_symmetry pos (fst op') (snd op') pi' /\ mmul (fst op) (fst op') = mI /\
      forall b, (b < List.length pos)%nat -> pi (pi' b) = b.

(** Every image of [d] under an operation of [ops] is, up to length and sign, the first
    displacement of one of the groups reported by get_equivalent_displacements. *)
Definition images_listed (pos : list V3) (ops : list (M3 * V3)) (r : refstruct) (d : list V3) : Prop :=
  exists gs, get_equivalent_displacements r (Fin d) = Ok gs /\
  forall op pi, In op ops -> row_symmetry pos (fst op) (snd op) pi ->
    exists g lead rest c, In g gs /\ g_disp g = Fin lead :: rest /\
      map (fun b => vmul (nth (pi b) d v0) (fst op)) (seq 0 (List.length pos)) = rows_scale c lead.
