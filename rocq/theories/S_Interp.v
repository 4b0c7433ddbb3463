(** Specification vocabulary for polarizability models: what a prediction is, when the
    tables of a model agree with one another, how histories are described.  The only
    model functions used are the record projections. *)
From Coq Require Import String ZArith Reals Bool Arith List.
From Verif Require Import Base LinAlg M_Validate M_Symmetry M_Reference M_Interp M_Art S_Lattice S_Vec S_Symmetry S_Equivalent.
Import ListNotations.
Local Open Scope R_scope.

(** Every ndarray has as many entries as its shape says. *)
Definition rarr_wf (a : rarr) : Prop := List.length (ra_data a) = fold_right Nat.mul 1%nat (ra_shape a).
Definition iop_wf (o : iop) : Prop :=
  match o with
  | OpAddDof _ a p _ _ => rarr_wf a /\ rarr_wf p
  | OpAddFiles _ _ => True
  | OpAddPymatgen _ p _ => rarr_wf p
  | OpSetMask sh v => List.length v = fold_right Nat.mul 1%nat sh
  | OpUnmask => True
  end.

Definition aop_wf (o : aop) : Prop :=
  match o with
  | OpBase o => iop_wf o
  | OpArt _ _ a p => rarr_wf a /\ rarr_wf p
  | _ => True
  end.

(** The tables of a model agree: one mask entry per basis vector, one interpolation per
    basis vector unless the model is a dummy, which holds none. *)
Definition consistent (m : imodel) : Prop :=
  List.length (im_mask m) = List.length (im_basis m) /\
  (im_dummy m = false -> List.length (im_interp m) = List.length (im_basis m)) /\
  (im_dummy m = true -> im_interp m = []).

(** Squared Euclidean length of an (N,3) array equal to one *)
Definition unit_length (b : list V3) : Prop := inner (rowsR b) (rowsR b) = 1.

(** Abscissae increase strictly. *)
Fixpoint increasing (pts : list (R * M3)) : Prop :=
  match pts with
  | [] => True
  | p :: tl => match tl with [] => True | q :: _ => fst p < fst q end /\ increasing tl
  end.

(** An evaluation routine that passes through its data points. *)
Definition interpolating (spl : nat -> list (R * M3) -> R -> M3) : Prop :=
  forall k pts x y, (1 < k)%nat -> (k < List.length pts)%nat -> increasing pts -> In (x, y) pts ->
    spl k pts x = y.

(** A batch holding the given samples, each an (n,3) array: shape (S,n,3). *)
Definition coord (v : V3) (c : nat) : R :=
  match c with O => vx v | S O => vy v | _ => vz v end.
Definition batch_of (n : nat) (samples : list (list V3)) : batch :=
  mkBatch [List.length samples; n; 3%nat]
          (fun s i c => coord (nth i (nth s samples []) v0) c).
Definition sample_shape (n : nat) (samples : list (list V3)) : Prop :=
  Forall (fun p => List.length p = n) samples.

(** [u] (Cartesian rows) is the displacement of positions [p] from the reference
    structure: the fractional difference taken in (-1/2,1/2], times the lattice. *)
Definition displacement_from (r : refstruct) (p u : list V3) : Prop :=
  exists d, half_images (rows_sub p (rs_positions r)) d /\ u = rows_mul d (rs_lattice r).

(** The prediction for displacement [u]: reference polarizability plus the value of
    every interpolation whose mask entry is False, at the component of [u] along its
    basis vector. *)
Fixpoint prediction (value : spline -> R -> M3) (u : list V3)
    (basis : list (list V3)) (interps : list spline) (mask : list bool) : M3 :=
  match basis, interps, mask with
  | b :: basis', s :: interps', k :: mask' =>
      madd (if k then m0 else value s (inner (rowsR b) (rowsR u)))
           (prediction value u basis' interps' mask')
  | _, _, _ => m0
  end.

(** Operations that never exclude the reference polarizability from a DOF *)
Definition includes_ref (o : iop) : Prop :=
  match o with OpAddDof _ _ _ _ i => i = true | _ => True end.

(** Two amplitudes too close to be told apart by np.allclose(x, y) *)
Definition too_close (x y : R) : Prop := Rabs (x - y) <= / 100000000 + / 100000 * Rabs y.

(** The warnings due to one interpolation: its largest amplitude is at most 1e-3, its
    smallest at least -1e-3. *)
Definition due_warning (pts : list (R * M3)) (w : warning) : Prop :=
  match w with
  | MaxNotPositive => forall p, In p pts -> fst p <= / 1000
  | MinNotNegative => forall p, In p pts -> - / 1000 <= fst p
  end.

(** A reference structure as the constructor makes it, with at least one atom and at
    least one symmetry operation (spglib always reports the identity). *)
Definition valid_reference (r : refstruct) : Prop :=
  exists numbers L pos ops equiv,
    make_reference numbers L pos (Some (ops, equiv)) = Ok r /\ (0 < List.length pos)%nat /\ ops <> [].

(** Models that some history of calls on a freshly constructed InterpolationModel or
    ARTModel produces *)
Definition reachable_art (m : imodel) : Prop :=
  exists r pol dummy ops, valid_reference r /\ Forall aop_wf ops /\ m = arun (make_model r pol dummy) ops.
Definition reachable (m : imodel) : Prop :=
  (exists r pol dummy ops, valid_reference r /\ Forall iop_wf ops /\ m = run (make_model r pol dummy) ops) \/
  reachable_art m.
(** InterpolationModels where no DOF was added without the reference polarizability *)
Definition reachable_incl (m : imodel) : Prop :=
  exists r pol dummy ops, valid_reference r /\ Forall iop_wf ops /\ Forall includes_ref ops /\
    m = run (make_model r pol dummy) ops.

(** Every coordinate lies in (-1/2,1/2]. *)
Definition half_cell (d : list V3) : Prop := Forall (vall (fun x => - / 2 < x <= / 2)) d.

(** Linear algebra on (n,3) arrays *)
Fixpoint lincomb (n : nat) (cs : list R) (basis : list (list V3)) : list V3 :=
  match cs, basis with
  | c :: cs', b :: basis' => rows_add (rows_scale c b) (lincomb n cs' basis')
  | _, _ => repeat v0 n
  end.
Definition spans (n : nat) (basis : list (list V3)) : Prop :=
  forall u, List.length u = n -> exists cs, List.length cs = List.length basis /\ u = lincomb n cs basis.
Definition orthonormal (basis : list (list V3)) : Prop :=
  forall i j b c, nth_error basis i = Some b -> nth_error basis j = Some c ->
    inner (rowsR b) (rowsR c) = if Nat.eqb i j then 1 else 0.
(** A linear response of the polarizability to Cartesian displacements of n atoms *)
Definition linear_response (n : nat) (l : list V3 -> M3) : Prop :=
  (forall u v, List.length u = n -> List.length v = n -> l (rows_add u v) = madd (l u) (l v)) /\
  (forall c u, List.length u = n -> l (rows_scale c u) = mscale c (l u)).

(** A structure whose first symmetry operation is the identity (spglib always reports it
    first), with no two atoms on top of each other *)
Definition identity_first (r : refstruct) (others : list (M3 * V3)) : Prop :=
  exists numbers L pos equiv, make_reference numbers L pos (Some ((mI, v0) :: others, equiv)) = Ok r /\
    (0 < List.length pos)%nat /\ separated (/ 100000) pos.

(** The direction of an (n,3) array *)
Definition direction_of (c : list V3) : list V3 := rows_scale (/ magnitude (rowsR c)) c.

(** First-order models of a structure without symmetry, built by successful add_dof calls
    with data sampled from the affine response u |-> pol + l u: along [cart], at the
    given amplitudes. [adds r pol l carts m]: [m] is the model after the calls for [carts]. *)
Inductive adds (r : refstruct) (pol : M3) (l : list V3 -> M3) : list (list V3) -> imodel -> Prop :=
| adds_nil : adds r pol l [] (make_model r pol false)
| adds_cons carts m d cart amps inc m' w :
    adds r pol l carts m -> List.length d = List.length (rs_positions r) -> half_cell d -> amps <> [] -> cart = rows_mul d (rs_lattice r) ->
    add_dof (Fin cart) (vec_arr amps)
      (mats_arr (map (fun a => madd pol (l (rows_scale a (direction_of cart)))) amps)) 1 inc m
      = ((m', w), Ok tt) ->
    adds r pol l (carts ++ [cart]) m'.

(** The samples of a batch of shape (S,n,c) with n and c either full size or one, each
    missing row or coordinate repeated: NumPy broadcasting to (S,N,3). *)
Definition repeated (d i : nat) : nat := if Nat.eqb d 1 then 0%nat else i.
Definition broadcast_samples (b : batch) (ns n c N : nat) : list (list V3) :=
  map (fun s => map (fun i => mkV (b_at b s (repeated n i) (repeated c 0))
                                  (b_at b s (repeated n i) (repeated c 1))
                                  (b_at b s (repeated n i) (repeated c 2))) (seq 0 N)) (seq 0 ns).
