(** Specification vocabulary for displaced structures. *)
From Coq Require Import ZArith NArith Reals List.
From Verif Require Import Base LinAlg S_Lattice M_Symmetry M_Text M_Poscar S_Text.
Import ListNotations.
Local Open Scope R_scope.

(** [q]: positions [p] (fractional) moved by the Cartesian displacement [step], in the unit cell *)
Definition moved (lattice : M3) (p step q : list V3) : Prop :=
  exists x, rows_mul x lattice = step /\ cell_images (rows_add p x) q.
(** ... only atom [k] moved, by [step] *)
Definition moved_atom (lattice : M3) (p : list V3) (k : nat) (step : V3) (q : list V3) : Prop :=
  List.length q = List.length p /\
  exists x, vmul x lattice = step /\
    forall j a b, nth_error p j = Some a -> nth_error q j = Some b ->
      vall2 cell_image (if Nat.eqb j k then vadd a x else a) b.

(** Row entries, as numbers *)
Definition coords (l : list V3) : list num := flat_map (fun v => [M_Text.Fin (vx v); M_Text.Fin (vy v); M_Text.Fin (vz v)]) l.
(** The text is a structure file with this lattice, these atomic numbers and these positions
    (to the sixteen decimals written, read back by [fl]) *)
Definition file_holds (E : env) (t : text) (lattice : M3) (numbers : list Z) (positions : list num) : Prop :=
  exists lat pos, read_structure E t = Ok (lat, numbers, pos) /\
    Forall2 (reread (e_fl E)) (coords [r0 lattice; r1 lattice; r2 lattice]) (entries lat) /\
    Forall2 (reread (e_fl E)) positions (entries pos).
