(** Specification vocabulary for vasprun.xml files. *)
From Coq Require Import String ZArith NArith QArith Qreals Reals Bool Arith List.
From Verif Require Import Base LinAlg Constants M_Text M_Poscar M_Outcar M_Vasprun S_Text S_Lattice S_Outcar.
Import ListNotations.
Local Open Scope nat_scope.

(** Element [e] has tag [t] and, when a value [v] is given, the attribute name="v" *)
Definition attribute (e : xml) (key v : text) : Prop :=
  exists a b, x_attrs e = a ++ (key, v) :: b /\ ~ In key (map fst a).
Definition step_to (s : pstep) (e : xml) : Prop :=
  x_tag e = fst s /\ (forall v, snd s = Some v -> attribute e (txt "name") v).
(** [e'] is reached from [e] by choosing, for each step in turn, a matching child *)
Inductive reaches : xml -> list pstep -> xml -> Prop :=
| reach_here e : reaches e [] e
| reach_child e s p c e' : In c (x_kids e) -> step_to s c -> reaches c p e' -> reaches e (s :: p) e'.
(** [e'] is the first such element in document order *)
Inductive first_at : xml -> list pstep -> xml -> Prop :=
| first_here e : first_at e [] e
| first_child e s p before c after e' :
    x_kids e = before ++ c :: after -> step_to s c -> first_at c p e' ->
    (forall b x, In b before -> step_to s b -> ~ reaches b p x) -> first_at e (s :: p) e'.
Definition absent_at (e : xml) (p : list pstep) : Prop := forall x, ~ reaches e p x.

(** The children of a varray are rows of numbers *)
Definition words_are (E : env) (t : text) (xs : list num) : Prop :=
  Forall2 (fun w x => float_of (e_fl E) w = Some x) (split t) xs.
Definition varray_is (E : env) (e : xml) (a : narr) : Prop :=
  exists rows, Forall2 (fun c xs => exists t, x_text c = Some t /\ words_are E t xs) (x_kids e) rows /\ array_of rows a.
(** ... three finite numbers each *)
Definition varray3 (E : env) (e : xml) (vs : list V3) : Prop :=
  Forall2 (fun c v => exists t, x_text c = Some t /\ words_are E t (entries3 (fin3 v))) (x_kids e) vs.
(** Element symbols: the text of the first child of each child of atominfo/array/set *)
Definition symbols_path : list pstep := [tag "atominfo"; tag "array"; tag "set"].
Definition symbol_in (child : xml) (w : text) : Prop :=
  exists c cs t, x_kids child = c :: cs /\ x_text c = Some t /\ w = strip t.
Definition symbols_are (root : xml) (symbols : list text) : Prop :=
  exists s, first_at root symbols_path s /\ Forall2 symbol_in (x_kids s) symbols.
Definition lattice_path : list pstep := [named "structure" "initialpos"; tag "crystal"; named "varray" "basis"].
Definition initial_path : list pstep := [named "structure" "initialpos"; tag "varray"].
Definition tensor_path : list pstep := [tag "calculation"; named "varray" "dielectric_dft"].
Definition timestep_path : list pstep := [tag "parameters"; named "separator" "ionic"; named "i" "POTIM"].
Definition eigenvalues_path : list pstep := [tag "calculation"; tag "dynmat"; named "v" "eigenvalues"].
Definition eigenvectors_path : list pstep := [tag "calculation"; tag "dynmat"; named "varray" "eigenvectors"].

(** The unnamed structures directly below the root, in document order *)
Definition unnamed_structures (root : xml) (l : list xml) : Prop :=
  exists keep, List.length keep = List.length (x_kids root) /\
    (forall i c b, nth_error (x_kids root) i = Some c -> nth_error keep i = Some b ->
       b = true <-> x_tag c = txt "structure" /\ ~ In (txt "name") (map fst (x_attrs c))) /\
    l = map snd (filter fst (combine keep (x_kids root))).

(** One eigenvector: 3N numbers, the Cartesian rows of the N atoms *)
Definition eigenvector_is (E : env) (c : xml) (vs : list V3) : Prop :=
  exists t, x_text c = Some t /\ words_are E t (flat_map entries3 (map fin3 vs)).
(** Speed of light in cm per ps *)
Definition light_cm_ps : R := 299792458 / 10 ^ 10.

(** What the first element at a path holds *)
Definition array_at (E : env) (root : xml) (p : list pstep) (a : narr) : Prop := exists e, first_at root p e /\ varray_is E e a.
Definition timestep_at (E : env) (root : xml) (dt : num) : Prop :=
  exists e t, first_at root timestep_path e /\ x_text e = Some t /\ float_of (e_fl E) (strip t) = Some dt.
Definition eigenvalues_at (E : env) (root : xml) (xs : list num) : Prop :=
  exists e t, first_at root eigenvalues_path e /\ x_text e = Some t /\ words_are E t xs.
Definition eigenvectors_at (E : env) (root : xml) (vss : list (list V3)) : Prop :=
  exists e, first_at root eigenvectors_path e /\ Forall2 (eigenvector_is E) (x_kids e) vss.

(** [y] is [x] moved into [[0, 1)]; an infinite or undefined number becomes undefined *)
Definition in_unit_cell (x y : num) : Prop :=
  match x with Fin a => exists b, y = Fin b /\ cell_image a b | _ => y = NaN end.
