(** Model of ramannoodle/structure/_reference.py.  The answer of spglib is an
    argument of the constructor; nothing is assumed about it here. *)
From Coq Require Import String ZArith Reals Bool List.
From Verif Require Import Base LinAlg Constants M_Validate M_StructUtils M_Symmetry.
Import ListNotations.
Local Open Scope R_scope.

(** A boolean permutation matrix, row by row. *)
Definition bmat := list (list bool).

(** _reference.py:49-72 [_get_positions_permutation_matrix]:
    entry (b,a) is [norm(wrap(ref_b - permuted_a)) < 1e-5]. *)
Definition ptol : R := / 100000.
Definition close_pts (refp permp : V3) : bool :=
  Rltb (sqrt (vnorm2 (vmap wrapd (vsub refp permp)))) ptol.
Definition get_positions_permutation_matrix (refp permp : list V3) : bmat :=
  map (fun b => map (fun a => close_pts b a) permp) refp.

(** [np.mean(positions, axis=0)], N > 0. *)
Definition mean_rows (p : list V3) : V3 := vscale (/ INR (length p)) (vsum p).

(** _reference.py:26-46 [_compute_permutation_matrices] *)
Definition com_shift (p : list V3) : V3 := vsub (mkV (/2) (/2) (/2)) (mean_rows p).
Definition permutation_matrix_of (p : list V3) (op : M3 * V3) : res bmat :=
  let shift := com_shift p in
  let* a := displace_positions p [shift] in
  let* b := transform_positions p (fst op) (vadd (snd op) shift) in
  Ok (get_positions_permutation_matrix a b).
Definition compute_permutation_matrices (ops : list (M3 * V3)) (p : list V3) : res (list bmat) :=
  mapM (permutation_matrix_of p) ops.

(** _reference.py:75-125 [ReferenceStructure]: the attributes. *)
Record refstruct := mkRef {
  rs_numbers : list Z;
  rs_lattice : M3;
  rs_positions : list V3;
  rs_ops : list (M3 * V3);          (* rotations zipped with translations *)
  rs_equiv : list nat;              (* spglib "equivalent_atoms" *)
  rs_perms : list bmat }.

(** _reference.py:98-125 [__init__].  [sym] is spglib's answer.  The shape check of
    the lattice is part of its type here; the position shape check is the length. *)
Definition make_reference (numbers : list Z) (lattice : M3) (positions : list V3)
    (sym : option (list (M3 * V3) * list nat)) : res refstruct :=
  let* _ := verify_list_len (List.length numbers) None in
  let* _ := verify_ndarray_shape [List.length positions; 3%nat] [Some (List.length numbers); Some 3%nat] in
  match sym with
  | None => Err SymmetryException
  | Some (ops, equiv) =>
      let* perms := compute_permutation_matrices ops positions in
      Ok (mkRef numbers lattice positions ops equiv perms)
  end.

(** _reference.py:159-163 [num_nonequivalent_atoms]: size of the set of labels *)
Definition num_nonequivalent_atoms (r : refstruct) : nat :=
  List.length (nodup Nat.eq_dec (rs_equiv r)).

(** An insertion-ordered dict from atom index to list of indexes. *)
Definition idict := list (nat * list nat).
Definition dict_set (d : idict) (k : nat) (v : list nat) : idict :=
  if existsb (fun e => Nat.eqb (fst e) k) d
  then map (fun e => if Nat.eqb (fst e) k then (k, v) else e) d
  else d ++ [(k, v)].
Definition dict_get (d : idict) (k : nat) : option (list nat) :=
  match find (fun e => Nat.eqb (fst e) k) d with Some e => Some (snd e) | None => None end.
Definition dict_append (d : idict) (k x : nat) : res idict :=
  match dict_get d k with
  | Some v => Ok (dict_set d k (v ++ [x]))
  | None => Err KeyError
  end.

(** _reference.py:165-181 [get_equivalent_atom_dict] *)
Fixpoint equivalent_atom_loop (index : nat) (labels : list nat) (d : idict) : res idict :=
  match labels with
  | [] => Ok d
  | l :: labels' =>
      if Nat.eqb index l then equivalent_atom_loop (S index) labels' (dict_set d index [])
      else let* d' := dict_append d l index in equivalent_atom_loop (S index) labels' d'
  end.
Definition get_equivalent_atom_dict (r : refstruct) : res idict :=
  equivalent_atom_loop 0 (rs_equiv r) [].

(** A boolean matrix times an (N,3) array: ValueError on mismatch. *)
Definition brow_mul (row : list bool) (c : list V3) : V3 :=
  vsum (map2 (fun (b : bool) v => if b then v else v0) row c).
Definition bmat_mul (P : bmat) (c : list V3) : res (list V3) :=
  if forallb (fun row => Nat.eqb (List.length row) (List.length c)) P
  then Ok (map (fun row => brow_mul row c) P) else Err ValueError.

(** One dictionary of the answer: "displacements" and "transformations". *)
Record group := mkGroup { g_disp : list (arr V3); g_trans : list (M3 * V3) }.

(** _reference.py:211-228: displace, transform, permute, measure.  [d] is the
    scaled displacement.  NaN displacements stay NaN (NaN * 0 = NaN), but the
    shape errors are the same. *)
Definition candidate (r : refstruct) (d : arr V3) (op : M3 * V3) (P : bmat) : res (arr V3) :=
  match d with
  | Fin l =>
      let* refp := displace_positions (rs_positions r) l in
      let* c := transform_positions refp (fst op) (snd op) in
      let* c' := bmat_mul P c in
      let* cd := calc_displacement (rs_positions r) c' in
      Ok (Fin cd)
  | Nan n =>
      let* refp := displace_positions (rs_positions r) (repeat v0 n) in
      let* c' := bmat_mul P refp in
      Ok (Nan (List.length c'))
  end.

(** [np.isclose(a, b, atol=1e-05).all()] on (N,3) arrays of equal shape *)
Definition dup_tol : R := / 100000.
Definition vclose (atol : R) (a b : V3) : bool :=
  isclose_at atol (vx a) (vx b) && isclose_at atol (vy a) (vy b) && isclose_at atol (vz a) (vz b).
Definition arr_close (a b : arr V3) : bool :=
  match a, b with
  | Fin l, Fin m => forallb (fun ab => vclose dup_tol (fst ab) (snd ab)) (combine l m)
  | _, _ => false
  end.

(** Append a displacement and its transformation to the [k]-th group. *)
Fixpoint add_to_group (k : nat) (d : arr V3) (op : M3 * V3) (gs : list group) : list group :=
  match gs, k with
  | [], _ => []
  | g :: gs', O => mkGroup (g_disp g ++ [d]) (g_trans g ++ [op]) :: gs'
  | g :: gs', S k' => g :: add_to_group k' d op gs'
  end.

(** _reference.py:230-268: classify one candidate.  State: result, orthogonal. *)
Definition classify (st : list group * list (arr V3)) (cd : arr V3) (op : M3 * V3)
  : res (list group * list (arr V3)) :=
  let '(result, orth) := st in
  let* o := is_orthogonal_to_all (flatten cd) (map flatten orth) in
  if (o =? -1)%Z then
    Ok (result ++ [mkGroup [cd] [op]], orth ++ [cd])
  else
    let* c := is_non_collinear_with_all (flatten cd) (map flatten orth) in
    if negb (c =? -1)%Z then
      let k := Z.to_nat c in
      match nth_error result k with
      | None => Err IndexError
      | Some g =>
          if existsb (fun e => arr_close cd e) (g_disp g) then Ok st
          else Ok (add_to_group k cd op result, orth)
      end
    else Ok st.

Fixpoint equivalent_loop (r : refstruct) (d : arr V3) (ops : list ((M3 * V3) * bmat))
    (st : list group * list (arr V3)) : res (list group * list (arr V3)) :=
  match ops with
  | [] => Ok st
  | (op, P) :: ops' =>
      let* cd := candidate r d op P in
      let* st' := classify st cd op in
      equivalent_loop r d ops' st'
  end.

(** _reference.py:207-209: wrap, then divide by ten times the norm. *)
Definition scale_displacement (d : arr V3) : arr V3 :=
  match d with
  | Fin l =>
      let w := apply_pbc_displacement l in
      if Reqb (rows_norm w) 0 then match w with [] => Fin [] | _ => Nan (List.length w) end
      else Fin (rows_scale (/ (rows_norm w * 10)) w)
  | Nan n => Nan n
  end.

(** _reference.py:183-270 [get_equivalent_displacements].  (The displacement of the
    positions is recomputed per operation here; it does not depend on it, and with no
    operation the only difference is that a shape error is raised first.) *)
Definition get_equivalent_displacements (r : refstruct) (d : arr V3) : res (list group) :=
  let d' := scale_displacement d in
  let* _ := displace_positions (rs_positions r)
              (match d' with Fin l => l | Nan n => repeat v0 n end) in
  rmap fst (equivalent_loop r d' (combine (rs_ops r) (rs_perms r)) ([], [])).

(** _reference.py:272-288 [get_cart_displacement], (N,3) input *)
Definition get_cart_displacement (r : refstruct) (d : list V3) : list V3 :=
  rows_mul (apply_pbc_displacement d) (rs_lattice r).
Definition get_cart_displacement_arr (r : refstruct) (d : arr V3) : arr V3 :=
  match d with Fin l => Fin (get_cart_displacement r l) | Nan n => Nan n end.

(** _reference.py:290-307 [get_cart_direction]: [np.array([direction]) @ lattice],
    hence a one-row array. The input is a flat array; ValueError unless its length is 3. *)
Definition get_cart_direction (r : refstruct) (d : list R) : res (list V3) :=
  match d with
  | [x; y; z] => Ok [vmul (vmap wrapd (mkV x y z)) (rs_lattice r)]
  | _ => Err ValueError
  end.

(** _reference.py:309-323 [get_frac_displacement], (N,3) input *)
Definition get_frac_displacement (r : refstruct) (c : list V3) : res (list V3) :=
  let* li := minv (rs_lattice r) in
  Ok (apply_pbc_displacement (rows_mul c li)).

(** _reference.py:325-342 [get_frac_direction]: flat input, shape check, then
    [(np.array([d]) @ inv(lattice))[0]] wrapped. *)
Definition get_frac_direction (r : refstruct) (c : list R) : res V3 :=
  match c with
  | [x; y; z] =>
      let* li := minv (rs_lattice r) in
      Ok (vmap wrapd (vmul (mkV x y z) li))
  | _ => Err ValueError
  end.

(** _reference.py:344-364 [get_atom_indexes] *)
Fixpoint atom_index_loop (k : nat) (syms : list string) (wanted : list string) : list nat :=
  match syms with
  | [] => []
  | s :: syms' =>
      if existsb (String.eqb s) wanted then k :: atom_index_loop (S k) syms' wanted
      else atom_index_loop (S k) syms' wanted
  end.
Definition get_atom_indexes (r : refstruct) (wanted : list string) : res (list nat) :=
  let* syms := mapM atom_symbol (rs_numbers r) in
  Ok (atom_index_loop 0 syms wanted).
