(** Model of InterpolationModel and ARTModel objects in memory: which of their attributes
    share memory with arrays of the caller (pmodel/_interpolation.py, pmodel/_art.py).

    The values of all attributes are as in M_Interp.v and M_Art.v; here the reference
    polarizability, the basis vectors and the mask are NumPy arrays in the memory of
    M_Alias.v.  Simplifications: the reference structure does not change (C74 is about the
    arrays behind it); interpolations are values, as [make_interp_spline] copies its data
    and nothing writes to them; arrays are float or bool with finite entries, and a write
    carries a value of the dtype of the array; broadcast (repeating) views do not exist. *)
From Coq Require Import String ZArith Reals Bool Arith List.
From Verif Require Import Base LinAlg M_Validate M_StructUtils M_Reference M_Interp M_Art M_Alias.
Import ListNotations.

(** Elements: a bool is kept as 0 or 1 *)
Definition real (c : cell) : R :=
  match c with Num (Some x) => x | Num None => 0%R | Int z => IZR z end.
Definition flag (c : cell) : bool := match c with Int z => negb (z =? 0)%Z | Num _ => true end.
Definition float (x : R) : cell := Num (Some x).
Definition bool_cell (b : bool) : cell := Int (if b then 1 else 0).

(** Contents of a (3,3) and of an (N,3) array *)
Definition matrix_of (l : list cell) : M3 := hd m0 (mats_of (map real l)).
Fixpoint rows_of (l : list cell) : list V3 :=
  match l with
  | a :: b :: c :: l' => mkV (real a) (real b) (real c) :: rows_of l'
  | _ => []
  end.
Definition matrix_data (m : M3) : list cell := map float (mat_entries m).
Definition rows_data (l : list V3) : list cell :=
  flat_map (fun v => [float (vx v); float (vy v); float (vz v)]) l.

(** _interpolation.py:106-115: the attributes, and the class *)
Record pmodel := mkPm {
  pm_art : bool;                 (* an ARTModel *)
  pm_ref : refstruct;
  pm_pol : aref;
  pm_dummy : bool;
  pm_basis : list aref;
  pm_interp : list spline;
  pm_mask : aref }.

(** What the object holds now *)
Definition contents (m : mem) (o : pmodel) : imodel :=
  mkIM (pm_ref o) (matrix_of (load m (pm_pol o))) (pm_dummy o)
       (map (fun b => rows_of (load m b)) (pm_basis o)) (pm_interp o)
       (map flag (load m (pm_mask o))).

(** The methods that add DOFs *)
Inductive adding :=
| Dof (cart : list V3) (amps pols : rarr) (order : Z) (include_ref : bool)
| DofFiles (rds : reads) (order : Z)
| DofPymatgen (poss : list (list V3)) (pols : rarr) (order : Z)
| Art (atom : Z) (direction : list R) (amps pols : rarr)
| ArtFiles (rds : reads)
| ArtPymatgen (poss : list (list V3)) (pols : list M3).

(** _interpolation.py:410-627, _art.py:82-304; an InterpolationModel has no [add_art] *)
Definition run_adding (art : bool) (a : adding) : act unit :=
  match a with
  | Dof c x p k i => if art then art_add_dof c x p k i else run_op (OpAddDof c x p k i)
  | DofFiles r k => if art then art_add_dof_from_files r k else run_op (OpAddFiles r k)
  | DofPymatgen ps p k => if art then art_add_dof_from_pymatgen ps p k else run_op (OpAddPymatgen ps p k)
  | Art i d x p => if art then add_art i d x p else raise AttributeError
  | ArtFiles r => if art then add_art_from_files r else raise AttributeError
  | ArtPymatgen ps p => if art then add_art_from_pymatgen ps p else raise AttributeError
  end.

(** ** The caller: arrays it has, models it has *)
Record world := mkWorld { w_mem : mem; w_held : list aref; w_models : list pmodel }.

Inductive call :=
| NewArray (shape : list nat) (data : list cell)
| Slice (i : nat) (elements : list nat) (shape : list nat)   (* a view of array i *)
| WriteTo (i k : nat) (c : cell)                             (* a.flat[k] = c *)
| MakeModel (art : bool) (r : refstruct) (pol : nat) (dummy : bool)
| Add (j : nat) (a : adding)
| SetMask (j i : nat)                                        (* model.mask = array *)
| Unmask (j : nat)
| GetMask (j : nat)                                          (* model.mask *)
| GetPolarizability (j : nat)                                (* model.ref_polarizability *)
| GetBasis (j : nat)                                         (* model.cart_basis_vectors *)
| GetDirections (j : nat)      (* the directions in model.get_specification_tuples() *)
| Predict (j : nat) (b : batch)                              (* calc_polarizabilities *)
| GetMasked (j : nat) (indexes : list Z).                    (* get_masked_model *)

Definition held (w : world) (i : nat) : res aref :=
  match nth_error (w_held w) i with Some a => Ok a | None => Err IndexError end.
Definition model (w : world) (j : nat) : res pmodel :=
  match nth_error (w_models w) j with Some o => Ok o | None => Err IndexError end.

(** Several new arrays, one after the other *)
Fixpoint new_arrays (m : mem) (l : list (list nat * list cell)) : mem * list aref :=
  match l with
  | [] => (m, [])
  | (sh, data) :: l' =>
      let '(m1, a) := np_new m sh data in
      let '(m2, rest) := new_arrays m1 l' in (m2, a :: rest)
  end.
Definition basis_array (b : list V3) : list nat * list cell := ([List.length b; 3], rows_data b).

(** [a[:] = value] *)
Definition fill (m : mem) (a : aref) (c : cell) : mem :=
  fold_left (fun m' k => store m' a k c) (seq 0 (List.length (a_cells a))) m.

(** Is [elements] a set of positions in an array of [n] elements? *)
Fixpoint distinct (l : list nat) : bool :=
  match l with [] => true | x :: l' => negb (existsb (Nat.eqb x) l') && distinct l' end.
Definition positions_ok (n : nat) (l : list nat) : bool := forallb (fun x => x <? n) l && distinct l.

(** copy.deepcopy of a model: every array is copied *)
Definition deepcopy (m : mem) (o : pmodel) : mem * pmodel :=
  let '(m1, pol) := np_copy m (pm_pol o) in
  let '(m2, bs) := new_arrays m1 (map (fun b => (a_shape b, load m b)) (pm_basis o)) in
  let '(m3, mask) := np_copy m2 (pm_mask o) in
  (m3, mkPm (pm_art o) (pm_ref o) pol (pm_dummy o) bs (pm_interp o) mask).

(** _art.py:306-333, 367-373: the rows [self._cart_basis_vectors[index][atom_index]], which
    are views.  [list(set([a]))] is [[a]]. *)
Definition direction_views (m : mem) (o : pmodel) : res (list aref) :=
  let v := contents m o in
  let* d := get_equivalent_atom_dict (pm_ref o) in
  rmap (@List.concat aref)
    (mapM (fun kv : nat * list nat =>
             let* idx := get_dof_indexes (fun l => l) v [ByIndex (Z.of_nat (fst kv))] in
             mapM (fun i => match nth_error (pm_basis o) i with
                            | None => Err IndexError
                            | Some b => Ok (np_row b (fst kv))
                            end) idx) d).

Definition put_model (w : world) (m : mem) (j : nat) (o : pmodel) : world :=
  mkWorld m (w_held w) (set_nth j o (w_models w)).
Definition give (w : world) (m : mem) (l : list aref) : world :=
  mkWorld m (w_held w ++ l) (w_models w).
Definition give_model (w : world) (m : mem) (o : pmodel) : world :=
  mkWorld m (w_held w) (w_models w ++ [o]).

Section Calls.
(** scipy's evaluation for orders above one *)
Variable spl : nat -> list (R * M3) -> R -> M3.

(** One call: the world after it, or the exception it raises (nothing is changed by a call
    that raises: the attributes are assigned last, see C19) *)
Definition perform (w : world) (c : call) : res world :=
  let m := w_mem w in
  match c with
  | NewArray sh data =>
      if Nat.eqb (List.length data) (prod_list sh)
      then let '(m1, a) := np_new m sh data in Ok (give w m1 [a])
      else Err ValueError
  | Slice i elements sh =>
      let* a := held w i in
      if positions_ok (List.length (a_cells a)) elements && Nat.eqb (List.length elements) (prod_list sh)
      then Ok (give w m [mkAref (a_buf a) (map (fun k => nth k (a_cells a) 0) elements) sh])
      else Err IndexError
  | WriteTo i k x =>
      let* a := held w i in
      if k <? List.length (a_cells a)
      then Ok (mkWorld (store m a k x) (w_held w) (w_models w)) else Err IndexError
  | MakeModel art r i dummy =>
      (* _interpolation.py:100-115 *)
      let* a := held w i in
      let '(m1, pol) := if dummy then np_new m [3; 3] (matrix_data m0) else (m, a) in
      let* _ := verify_ndarray_shape (a_shape pol) [Some 3; Some 3] in
      let '(m2, mask) := np_new m1 [0] [] in
      Ok (give_model w m2 (mkPm art r pol dummy [] [] mask))
  | Add j a =>
      (* _interpolation.py:399-404: new lists of basis vectors and interpolations;
         np.append makes a new mask *)
      let* o := model w j in
      let v := contents m o in
      let '((v', _), r) := run_adding (pm_art o) a v in
      let* _ := r in
      let '(m1, bs) := new_arrays m (map basis_array (skipn (List.length (pm_basis o)) (im_basis v'))) in
      let '(m2, mask) := np_new m1 [List.length (im_mask v')] (map bool_cell (im_mask v')) in
      Ok (put_model w m2 j (mkPm (pm_art o) (pm_ref o) (pm_pol o) (pm_dummy o)
                                 (pm_basis o ++ bs) (im_interp v') mask))
  | SetMask j i =>
      (* _interpolation.py:174-189 *)
      let* o := model w j in
      let* a := held w i in
      let* _ := verify_ndarray_shape (a_shape a) (map Some (a_shape (pm_mask o))) in
      Ok (put_model w m j (mkPm (pm_art o) (pm_ref o) (pm_pol o) (pm_dummy o)
                                (pm_basis o) (pm_interp o) a))
  | Unmask j =>
      (* _interpolation.py:710-712 *)
      let* o := model w j in
      Ok (mkWorld (fill m (pm_mask o) (bool_cell false)) (w_held w) (w_models w))
  | GetMask j =>
      (* _interpolation.py:162-172 *)
      let* o := model w j in
      let '(m1, a) := np_copy m (pm_mask o) in Ok (give w m1 [a])
  | GetPolarizability j =>
      (* _interpolation.py:122-131 *)
      let* o := model w j in
      let '(m1, a) := np_copy m (pm_pol o) in Ok (give w m1 [a])
  | GetBasis j =>
      (* _interpolation.py:138-149 *)
      let* o := model w j in
      let '(m1, l) := new_arrays m (map (fun b => (a_shape b, load m b)) (pm_basis o)) in
      Ok (give w m1 l)
  | GetDirections j =>
      let* o := model w j in
      if pm_art o then (let* l := direction_views m o in Ok (give w m l)) else Err AttributeError
  | Predict j b =>
      (* _interpolation.py:191-252: the sum on the last line is a new array *)
      let* o := model w j in
      let* ms := calc_polarizabilities spl (contents m o) b in
      let '(m1, a) := np_new m [List.length ms; 3; 3] (flat_map matrix_data ms) in
      Ok (give w m1 [a])
  | GetMasked j idx =>
      (* _interpolation.py:697-708 *)
      let* o := model w j in
      let '(m1, o') := deepcopy m o in
      let '(m2, mask) := np_copy m1 (pm_mask o') in                  (* result.mask *)
      let m3 := fill m2 mask (bool_cell false) in
      let* flags := mask_indexes idx (map flag (load m3 mask)) in
      let m4 := fold_left (fun m' kb => store m' mask (fst kb) (bool_cell (snd kb)))
                          (combine (seq 0 (List.length flags)) flags) m3 in
      Ok (give_model w m4 (mkPm (pm_art o') (pm_ref o') (pm_pol o') (pm_dummy o')
                                (pm_basis o') (pm_interp o') mask))
  end.

Definition after (w : world) (c : call) : world :=
  match perform w c with Ok w' => w' | Err _ => w end.
Definition outcome (w : world) (c : call) : res unit :=
  match perform w c with Ok _ => Ok tt | Err e => Err e end.
Definition history (w : world) (cs : list call) : world := fold_left after cs w.
End Calls.
