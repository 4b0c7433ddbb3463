(** Model of ramannoodle/io/vasp/vasprun.py.

    ElementTree's parser is a parameter; what it returns is a tree of elements with tag,
    attributes, text (None when there is none) and children.  Numbers are as in M_Outcar. *)
From Coq Require Import String Ascii ZArith NArith QArith Qreals Reals Bool Arith List.
From Verif Require Import Base LinAlg Constants M_Validate M_StructUtils M_Text M_Poscar M_Outcar.
Import ListNotations.
Local Open Scope nat_scope.

Inductive xml := Elem (tag : text) (attrs : list (text * text)) (content : option text) (kids : list xml).
Definition x_tag (e : xml) : text := let 'Elem t _ _ _ := e in t.
Definition x_attrs (e : xml) : list (text * text) := let 'Elem _ a _ _ := e in a.
Definition x_text (e : xml) : option text := let 'Elem _ _ t _ := e in t.
Definition x_kids (e : xml) : list xml := let 'Elem _ _ _ k := e in k.
(** [element.get(key)], [key in element.attrib] *)
Definition x_get (e : xml) (key : text) : option text :=
  option_map snd (find (fun p => teqb (fst p) key) (x_attrs e)).

(** One step of an ElementPath: a child tag and possibly [[@name='value']].  In
    ["i/[@name='POTIM']"] the predicate after the slash filters the elements selected so far,
    as ["i[@name='POTIM']"] does. *)
Definition pstep : Type := text * option text.
Definition step_matches (s : pstep) (e : xml) : bool :=
  teqb (x_tag e) (fst s) &&
  match snd s with
  | None => true
  | Some v => match x_get e (txt "name") with Some w => teqb w v | None => false end
  end.
Definition select (s : pstep) (l : list xml) : list xml := filter (step_matches s) (flat_map x_kids l).
(** [element.iterfind(path)] and [element.find(path)] *)
Definition iterfind (e : xml) (p : list pstep) : list xml := fold_left (fun l s => select s l) p [e].
Definition xfind (e : xml) (p : list pstep) : option xml := hd_error (iterfind e p).
Definition tag (s : string) : pstep := (txt s, None).
Definition named (s v : string) : pstep := (txt s, Some (txt v)).

(** vasprun.py:24-30 [_get_root_element] *)
Inductive parsed := Tree (root : xml) | ParseError | Raises (e : exn).
Definition root_element (parse : text -> parsed) (content : text) : res xml :=
  match parse content with
  | Tree r => Ok r
  | ParseError => Err (InvalidFileException (txt "root xml element could not be found"))
  | Raises e => Err e
  end.
Definition or_missing (msg : string) (o : option xml) : res xml :=
  match o with Some e => Ok e | None => Err (InvalidFileException (txt msg)) end.
Definition text_of (msg : string) (e : xml) : res text :=
  match x_text e with Some t => Ok t | None => Err (InvalidFileException (txt msg)) end.
(** [[float(i) for i in text.split()]]: bare ValueError *)
Definition floats_of (E : env) (t : text) : res (list num) :=
  match floats E (split t) with Some l => Ok l | None => Err ValueError end.

(** vasprun.py:33-51 [_parse_atomic_symbols]; [child[0]] raises IndexError when the child is
    empty *)
Definition parse_symbols (root : xml) : res (list text) :=
  let* s := or_missing "atomic symbols not found" (xfind root [tag "atominfo"; tag "array"; tag "set"]) in
  mapM (fun child =>
          match x_kids child with
          | [] => Err IndexError
          | c :: _ => let* t := text_of "child has no text" c in Ok (strip t)
          end) (x_kids s).
(** vasprun.py:54-69 [_parse_positions], with the same loops in 85-91 and 107-113 *)
Definition parse_rows (E : env) (varray : xml) : res narr :=
  let* rows := mapM (fun child => let* t := text_of "varray child text not found" child in floats_of E t) (x_kids varray) in
  np_rows rows.
(** vasprun.py:72-91 [_parse_polarizability] *)
Definition parse_polarizability (E : env) (root : xml) : res narr :=
  let* e := or_missing "polarizability not found" (xfind root [tag "calculation"; named "varray" "dielectric_dft"]) in
  parse_rows E e.
(** vasprun.py:94-113 [_parse_lattice] *)
Definition parse_lattice (E : env) (root : xml) : res narr :=
  let* e := or_missing "lattice not found"
              (xfind root [named "structure" "initialpos"; tag "crystal"; named "varray" "basis"]) in
  parse_rows E e.
(** vasprun.py:145-148, 187-190, 242-245, 275-278, 399-402 *)
Definition parse_initial_positions (E : env) (root : xml) : res narr :=
  let* e := or_missing "initial positions not found" (xfind root [named "structure" "initialpos"; tag "varray"]) in
  parse_rows E e.
(** [ATOMIC_NUMBERS[symbol]]: KeyError *)
Definition atomic_number (s : text) : res Z :=
  match symbol_number s with Some z => Ok z | None => Err KeyError end.

(** vasprun.py:116-150 [read_positions_and_polarizability] *)
Definition vasprun_read_positions_and_polarizability (E : env) (parse : text -> parsed) (content : text)
  : res (narr * narr) :=
  let* root := root_element parse content in
  let* positions := parse_initial_positions E root in
  let* polarizability := parse_polarizability E root in
  Ok (positions, polarizability).
(** vasprun.py:153-192 [read_structure_and_polarizability] *)
Definition vasprun_read_structure_and_polarizability (E : env) (parse : text -> parsed) (content : text)
  : res (narr * list Z * narr * narr) :=
  let* root := root_element parse content in
  let* symbols := parse_symbols root in
  let* numbers := mapM atomic_number symbols in
  let* lattice := parse_lattice E root in
  let* positions := parse_initial_positions E root in
  let* polarizability := parse_polarizability E root in
  Ok (lattice, numbers, positions, polarizability).
(** vasprun.py:220-246 [read_positions] *)
Definition vasprun_read_positions (E : env) (parse : text -> parsed) (content : text) : res narr :=
  let* root := root_element parse content in
  parse_initial_positions E root.
(** vasprun.py:249-279 [read_ref_structure]; [mk]: the constructor of ReferenceStructure *)
Definition vasprun_read_ref_structure {A} (mk : list Z -> narr -> narr -> res A) (E : env)
    (parse : text -> parsed) (content : text) : res A :=
  let* root := root_element parse content in
  let* symbols := parse_symbols root in
  let* numbers := mapM atomic_number symbols in
  let* lattice := parse_lattice E root in
  let* positions := parse_initial_positions E root in
  mk numbers lattice positions.

(** vasprun.py:282-295 [_parse_timestep] *)
Definition parse_timestep (E : env) (root : xml) : res num :=
  let* e := or_missing "timestep not found"
              (xfind root [tag "parameters"; named "separator" "ionic"; named "i" "POTIM"]) in
  let* t := text_of "potim element has no text" e in
  match float_of (e_fl E) (strip t) with Some x => Ok x | None => Err ValueError end.
(** vasprun.py:298-330 [read_trajectory] *)
Definition unnamed (e : xml) : bool := match x_get e (txt "name") with Some _ => false | None => true end.
Definition vasprun_read_trajectory (E : env) (parse : text -> parsed) (content : text) : res ntrajectory :=
  let* root := root_element parse content in
  let* ps := mapM (fun s => let* v := or_missing "structure varray not found" (xfind s [tag "varray"]) in parse_rows E v)
               (filter unnamed (iterfind root [tag "structure"])) in
  match ps with
  | [] => Err (InvalidFileException (txt "no trajectory found"))
  | _ =>
      let* timestep := parse_timestep E root in
      let* ts := np_stack ps in
      trajectory_of ts timestep
  end.

(** vasprun.py:345-347: [np.sqrt(np.abs(-x)) * 1 / 0.0299792458], then [*= np.sign(...)] *)
Definition num_abs (x : num) : num := match x with Fin r => Fin (Rabs r) | Inf _ => Inf false | NaN => NaN end.
Definition num_sqrt (x : num) : num :=
  match x with Fin r => if Rltb r 0 then NaN else Fin (sqrt r) | Inf true => NaN | Inf false => Inf false | NaN => NaN end.
Definition num_sign (x : num) : num :=
  match x with
  | Fin r => if Rltb 0 r then Fin 1 else if Rltb r 0 then Fin (-1) else Fin 0
  | Inf neg => Fin (if neg then -1 else 1)
  | NaN => NaN
  end.
Definition wavenumber_factor : R := (299792458 / 10000000000)%R.
Definition eigenvalue_to_wavenumber (x : num) : num :=
  let y := num_div (num_sqrt (num_abs (num_opp x))) wavenumber_factor in
  num_mul y (num_sign y).
(** vasprun.py:333-348 [_parse_eigenvalues] *)
Definition parse_eigenvalues (E : env) (root : xml) : res narr :=
  let* e := or_missing "eigenvalues not found" (xfind root [tag "calculation"; tag "dynmat"; named "v" "eigenvalues"]) in
  let* t := text_of "eigenvalues has no text" e in
  let* l := floats_of E t in
  Ok (mkNarr [List.length l] (map eigenvalue_to_wavenumber l)).
(** vasprun.py:351-372 [_parse_eigenvectors] *)
Definition reshape_rows (n : nat) (l : list num) : res narr :=
  if Nat.eqb (List.length l) (n * 3) then Ok (mkNarr [n; 3] l) else Err ValueError.
Definition parse_eigenvectors (E : env) (root : xml) : res narr :=
  let* lattice := parse_lattice E root in
  let* symbols := parse_symbols root in
  let* e := or_missing "eigenvectors not found"
              (xfind root [tag "calculation"; tag "dynmat"; named "varray" "eigenvectors"]) in
  let* vs := mapM (fun v =>
                let* t := text_of "eigenvector element has no text" v in
                let* l := floats_of E t in
                let* cart := reshape_rows (List.length symbols) l in
                let* i := inv_arr E lattice in
                matmul_inv cart i) (x_kids e) in
  np_stack vs.
(** vasprun.py:375-408 [read_phonons] *)
Definition vasprun_read_phonons (E : env) (parse : text -> parsed) (content : text) : res nphonons :=
  let* root := root_element parse content in
  let* symbols := parse_symbols root in
  let* weights := mapM atomic_weight symbols in
  let* ref := parse_initial_positions E root in
  let* wav := parse_eigenvalues E root in
  let* ev := parse_eigenvectors E root in
  let* disp := div_weights ev weights in
  phonons_of ref wav disp.
