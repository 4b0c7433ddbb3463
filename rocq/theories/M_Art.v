(** Model of ramannoodle/pmodel/_art.py over exact reals.  An ARTModel has the attributes
    of an InterpolationModel.  TypeError branches are in M_Args.v, NaN user input in M_Special.v,
    __repr__ in M_Repr.v. *)
From Coq Require Import String ZArith Reals Bool Arith List.
From Verif Require Import Base LinAlg M_Validate M_StructUtils M_Symmetry M_Reference M_Interp.
Import ListNotations.
Local Open Scope R_scope.

(** _art.py:82-135: the inherited entry points are disabled. *)
Definition art_add_dof (cart : list V3) (amps pols : rarr) (order : Z) (include_ref : bool) : act unit :=
  raise UserError.
Definition art_add_dof_from_files (rds : reads) (order : Z) : act unit := raise UserError.
Definition art_add_dof_from_pymatgen (poss : list (list V3)) (pols : rarr) (order : Z) : act unit :=
  raise UserError.

(** _art.py:183-187: [positions * 0] with row [k] set to [direction / norm(direction * 10)];
    a zero direction makes that row NaN, and NaN spreads over the whole array as soon as
    [add_dof] divides by the norm. *)
Definition art_displacement (r : refstruct) (k : nat) (f : V3) : arr V3 :=
  let n := List.length (rs_positions r) in
  let nf := sqrt (vnorm2 (vscale 10 f)) in
  if Reqb nf 0 then Nan n else Fin (set_nth k (vscale (/ nf) f) (repeat v0 n)).

(** _art.py:137-197 [add_art]; [atom] may be negative. *)
Definition add_art (atom : Z) (direction : list R) (amps pols : rarr) : act unit :=
  do s <- get;
  let r := im_ref s in
  do f <- lift (get_frac_direction r direction);
  do _ <- lift (match ra_shape amps with [1%nat] | [2%nat] => Ok tt | _ => Err ValueError end);
  let n := List.length (ra_data amps) in
  let pols := if im_dummy s then mats_arr (repeat m0 n) else pols in
  do _ <- lift (verify_ndarray_shape (ra_shape pols) [Some n; Some 3%nat; Some 3%nat]);
  match py_index (List.length (rs_positions r)) atom with
  | None => raise IndexError
  | Some k => add_dof (get_cart_displacement_arr r (art_displacement r k f)) amps pols 1 false
  end.

(** _art.py:231-252 and 283-304: shared tail of the two file-like entry points.
    [np.allclose(x, 0.0, atol=1e-6)] *)
Definition one_atom_tol : R := / 1000000.
Definition row_small (v : V3) : bool :=
  isclose_at one_atom_tol (vx v) 0 && isclose_at one_atom_tol (vy v) 0 && isclose_at one_atom_tol (vz v) 0.
Definition add_one_atom (d0 : list V3) (amps : list R) (pols : list M3) : act unit :=
  do s <- get;
  do k <- lift (argmax (map vnorm2 d0));
  if negb (forallb row_small (set_nth k v0 d0)) then raise InvalidDOFException
  else
    do dofs <- lift (get_dof s (Fin d0) amps pols false);
    match dofs with
    | [] => raise IndexError
    | d :: _ =>
        if negb (Nat.eqb (List.length (snd d)) 2) then raise InvalidDOFException
        else construct_and_add dofs 1
    end.

(** _art.py:199-252 [add_art_from_files] *)
Definition add_art_from_files (rds : reads) : act unit :=
  do s <- get;
  do x <- lift (read_dof s rds);
  let '(d0, amps, pols) := x in
  add_one_atom d0 amps pols.

(** _art.py:254-304 [add_art_from_pymatgen].  The polarizabilities are not checked: with
    a number of them other than that of the structures, [zip] stops at the shorter.
    Simplification: they are an (M,3,3) array for some M. *)
Definition add_art_from_pymatgen (poss : list (list V3)) (pols : list M3) : act unit :=
  do s <- get;
  do x <- lift (displacement_amplitudes s poss);
  add_one_atom (fst x) (snd x) pols.

(** ** Queries *)

(** An item of the argument of [get_dof_indexes]: an index or a symbol *)
Inductive request := ByIndex (i : Z) | BySymbol (s : string).

(** [np.allclose(direction, 0, atol=1e-5)] *)
Definition dof_tol : R := / 100000.
Definition row_zero (v : V3) : bool :=
  isclose_at dof_tol (vx v) 0 && isclose_at dof_tol (vy v) 0 && isclose_at dof_tol (vz v) 0.

(** _art.py:351-356 *)
Definition requested (r : refstruct) (items : list request) : res (list Z) :=
  rmap (@List.concat Z)
    (mapM (fun it => match it with
                     | ByIndex i => Ok [i]
                     | BySymbol s => rmap (map Z.of_nat) (get_atom_indexes r [s])
                     end) items).

(** _art.py:360-364: the DOFs of one atom *)
Fixpoint dofs_of_atom (atom : Z) (k : nat) (basis : list (list V3)) : res (list nat) :=
  match basis with
  | [] => Ok []
  | b :: basis' =>
      match py_index (List.length b) atom with
      | None => Err IndexError
      | Some i =>
          let* rest := dofs_of_atom atom (S k) basis' in
          Ok (if negb (row_zero (nth i b v0)) then k :: rest else rest)
      end
  end.

Section Sets.
(** [list(set(l))]: the order is Python's business *)
Variable set_list : list Z -> list Z.

(** _art.py:335-365 [get_dof_indexes] (a single item is the one-element list) *)
Definition get_dof_indexes (m : imodel) (items : list request) : res (list nat) :=
  let* atoms := requested (im_ref m) items in
  rmap (@List.concat nat) (mapM (fun a => dofs_of_atom a 0 (im_basis m)) (set_list atoms)).

(** _art.py:367-373 [_get_art_cart_directions] *)
Definition art_cart_directions (m : imodel) (atom : nat) : res (list V3) :=
  let* idx := get_dof_indexes m [ByIndex (Z.of_nat atom)] in
  mapM (fun i => match nth_error (im_basis m) i with
                 | None => Err IndexError
                 | Some b => match nth_error b atom with None => Err IndexError | Some v => Ok v end
                 end) idx.

(** _art.py:306-333 [get_specification_tuples] *)
Definition get_specification_tuples (m : imodel) : res (list (nat * list nat * list V3)) :=
  let* d := get_equivalent_atom_dict (im_ref m) in
  mapM (fun kv : nat * list nat =>
          let* dirs := art_cart_directions m (fst kv) in Ok (fst kv, snd kv, dirs)) d.
End Sets.

(** ** Histories *)
Inductive aop :=
| OpBase (o : iop)                       (* every inherited entry point *)
| OpArt (atom : Z) (direction : list R) (amps pols : rarr)
| OpArtFiles (rds : reads)
| OpArtPymatgen (poss : list (list V3)) (pols : list M3).

Definition run_aop (o : aop) : act unit :=
  match o with
  | OpBase (OpAddDof c a p k i) => art_add_dof c a p k i
  | OpBase (OpAddFiles r k) => art_add_dof_from_files r k
  | OpBase (OpAddPymatgen ps p k) => art_add_dof_from_pymatgen ps p k
  | OpBase (OpSetMask sh v) => set_mask sh v
  | OpBase OpUnmask => unmask
  | OpArt i d a p => add_art i d a p
  | OpArtFiles r => add_art_from_files r
  | OpArtPymatgen ps p => add_art_from_pymatgen ps p
  end.
Definition astep (s : imodel) (o : aop) : imodel := fst (fst (run_aop o s)).
Definition arun (s : imodel) (ops : list aop) : imodel := fold_left astep ops s.
