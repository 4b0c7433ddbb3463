(** Model of ramannoodle/pmodel/_interpolation.py over exact reals.

    The model object is the record [imodel]; methods that change it are written in a
    small state-exception-warning monad, so that where an exception is raised relative
    to the assignments is visible (an exception does not roll anything back).
    scipy's [make_interp_spline]/[BSpline] are represented by the order and the sorted
    data points; evaluation is piecewise linear for order 1 and an oracle otherwise.
    Not modelled here: the TypeError branches (M_Args.v), NaN or infinite user input
    (M_Special.v), aliasing (M_Shared.v). *)
From Coq Require Import String ZArith Reals Bool Arith List.
From Verif Require Import Base LinAlg M_Validate M_StructUtils M_Symmetry M_Reference.
Import ListNotations.
Local Open Scope R_scope.

(** A finite NumPy float array: shape and row-major entries. *)
Record rarr := mkRarr { ra_shape : list nat; ra_data : list R }.
Definition vec_arr (l : list R) : rarr := mkRarr [List.length l] l.
Definition mat_entries (m : M3) : list R :=
  [vx (r0 m); vy (r0 m); vz (r0 m); vx (r1 m); vy (r1 m); vz (r1 m); vx (r2 m); vy (r2 m); vz (r2 m)].
Definition mats_arr (l : list M3) : rarr := mkRarr [List.length l; 3%nat; 3%nat] (flat_map mat_entries l).
(** The 3x3 blocks of an (L,3,3) array *)
Fixpoint mats_of (l : list R) : list M3 :=
  match l with
  | a :: b :: c :: d :: e :: f :: g :: h :: i :: l' =>
      mkM (mkV a b c) (mkV d e f) (mkV g h i) :: mats_of l'
  | _ => []
  end.

(** What a BSpline object is determined by. *)
Record spline := mkSpline { sp_order : nat; sp_pts : list (R * M3) }.

(** _interpolation.py:106-115: the attributes of an InterpolationModel *)
Record imodel := mkIM {
  im_ref : refstruct;
  im_refpol : M3;
  im_dummy : bool;
  im_basis : list (list V3);
  im_interp : list spline;
  im_mask : list bool }.

(** _interpolation.py:100-115 [__init__] (the (3,3) shape of the polarizability is
    part of its type here) *)
Definition make_model (ref : refstruct) (refpol : M3) (dummy : bool) : imodel :=
  mkIM ref (if dummy then m0 else refpol) dummy [] [] [].

(** DOFWarning messages, _interpolation.py:382-391 *)
Inductive warning := MaxNotPositive | MinNotNegative.

(** ** The monad *)
Definition act (A : Type) := imodel -> (imodel * list warning) * res A.
Definition ret {A} (a : A) : act A := fun s => ((s, []), Ok a).
Definition raise {A} (e : exn) : act A := fun s => ((s, []), Err e).
Definition lift {A} (r : res A) : act A := fun s => ((s, []), r).
Definition get : act imodel := fun s => ((s, []), Ok s).
Definition put (s' : imodel) : act unit := fun _ => ((s', []), Ok tt).
Definition emit (w : warning) : act unit := fun s => ((s, [w]), Ok tt).
Definition bind {A B} (m : act A) (k : A -> act B) : act B := fun s =>
  let '((s1, w1), r) := m s in
  match r with
  | Err e => ((s1, w1), Err e)
  | Ok a => let '((s2, w2), r2) := k a s1 in ((s2, w1 ++ w2), r2)
  end.
Notation "'do' x <- a ; k" := (bind a (fun x => k))
  (at level 200, x pattern, a at level 100, k at level 200, right associativity).
Fixpoint for_each {A B} (f : A -> act B) (l : list A) : act (list B) :=
  match l with
  | [] => ret []
  | a :: l' => do b <- f a; do bs <- for_each f l'; ret (b :: bs)
  end.

(** ** Helpers *)

(** _interpolation.py:46-57 [get_amplitude] *)
Definition get_amplitude (basis disp : list V3) : R := ldot (flatten_rows basis) (flatten_rows disp).

(** _interpolation.py:60-75 [find_duplicates] for a list of numbers: is there a pair
    [v1] before [v2] with [np.allclose(v1, v2)]?  [None] stands for a non-finite
    amplitude; those compare as not close (true of NaN; two equal infinities would
    compare close, which only changes the class of the exception that follows). *)
Definition close_n (a b : option R) : bool :=
  match a, b with Some x, Some y => isclose x y | _, _ => false end.
Fixpoint has_duplicates (l : list (option R)) : bool :=
  match l with
  | [] => false
  | a :: l' => existsb (close_n a) l' || has_duplicates l'
  end.

(** [np.argmax]: position of the first maximum; ValueError on an empty array. *)
Fixpoint argmax_from (best : R) (bi k : nat) (l : list R) : nat :=
  match l with
  | [] => bi
  | x :: l' => if Rltb best x then argmax_from x k (S k) l' else argmax_from best bi (S k) l'
  end.
Definition argmax (l : list R) : res nat :=
  match l with [] => Err ValueError | x :: l' => Ok (argmax_from x 0 1 l') end.

(** _interpolation.py:319-322: [multiplier]; [None] when it is not finite. *)
Definition multiplier (child coll : arr V3) : res (option R) :=
  match child, coll with
  | Fin c, Fin d =>
      let fc := flatten_rows c in
      let fd := flatten_rows d in
      let* k := argmax (map Rabs fc) in
      match nth_error fc k, nth_error fd k with
      | Some x, Some y => Ok (if Reqb y 0 then None else Some (x / y))
      | _, _ => Err IndexError
      end
  | _, _ => Ok None
  end.

(** [a / np.linalg.norm(a)] for an (N,3) array; used with [np.linalg.norm(10 a)] too *)
Definition over_norm (c : R) (a : arr V3) : arr V3 :=
  match a with
  | Fin [] => Fin []
  | Fin l => let n := rows_norm (rows_scale c l) in
             if Reqb n 0 then Nan (List.length l) else Fin (rows_scale (/ n) l)
  | Nan n => Nan n
  end.

(** _reference.py:306-323 [get_frac_displacement] on an array that may hold NaN *)
Definition get_frac_displacement_arr (r : refstruct) (c : arr V3) : res (arr V3) :=
  match c with
  | Fin l => rmap Fin (get_frac_displacement r l)
  | Nan n => let* _ := minv (rs_lattice r) in Ok (Nan n)
  end.

(** ** Degrees of freedom *)

(** Basis vector and interpolation points of one DOF *)
Definition dof := (arr V3 * list (option R * M3))%type.

(** _interpolation.py:316-331: the points contributed by one collinear displacement *)
Definition points_of (refpol : M3) (amps : list R) (pols : list M3)
    (child : arr V3) (ct : arr V3 * (M3 * V3)) : res (list (option R * M3)) :=
  let '(coll, (rot, _)) := ct in
  let* mult := multiplier child coll in
  mapM (fun ap : R * M3 =>
          let* inv := minv rot in
          Ok (option_map (fun k => k * fst ap) mult,
              mmul (mmul inv (msub (snd ap) refpol)) rot))
       (combine amps pols).

(** _interpolation.py:307-340: one dictionary of [get_equivalent_displacements] *)
Definition dof_of_group (r : refstruct) (refpol : M3) (amps : list R) (pols : list M3)
    (include_ref : bool) (g : group) : res dof :=
  match g_disp g with
  | [] => Err IndexError
  | child :: _ =>
      let* pss := mapM (points_of refpol amps pols child) (combine (g_disp g) (g_trans g)) in
      Ok (over_norm 1 (get_cart_displacement_arr r child),
          (if include_ref then [(Some 0, m0)] else []) ++ List.concat pss)
  end.

(** _interpolation.py:254-342 [_get_dof] *)
Definition get_dof (m : imodel) (parent : arr V3) (amps : list R) (pols : list M3)
    (include_ref : bool) : res (list dof) :=
  let r := im_ref m in
  let cart := get_cart_displacement_arr r parent in
  let* result := is_orthogonal_to_all (flatten cart) (map (fun b => flatten (Fin b)) (im_basis m)) in
  if negb (result =? -1)%Z then Err InvalidDOFException
  else
    let* groups := get_equivalent_displacements r parent in
    mapM (dof_of_group r (im_refpol m) amps pols include_ref) groups.

(** All amplitudes finite? *)
Fixpoint all_finite (l : list (option R * M3)) : option (list (R * M3)) :=
  match l with
  | [] => Some []
  | (Some x, y) :: l' => match all_finite l' with Some r => Some ((x, y) :: r) | None => None end
  | (None, _) :: _ => None
  end.

(** [np.argsort] and the two fancy indexings: sort by amplitude (stable insertion). *)
Fixpoint insert_pt (p : R * M3) (l : list (R * M3)) : list (R * M3) :=
  match l with
  | [] => [p]
  | q :: l' => if Rleb (fst p) (fst q) then p :: l else q :: insert_pt p l'
  end.
Definition sort_pts (l : list (R * M3)) : list (R * M3) := fold_right insert_pt [] l.

Definition rmax_list (x : R) (l : list R) : R := fold_left Rmax l x.
Definition rmin_list (x : R) (l : list R) : R := fold_left Rmin l x.
(** _interpolation.py:382-391: the two warnings; [np.allclose(v, 0, atol=1e-3)].
    With a NaN among the amplitudes both comparisons are False. *)
Definition warn_tol : R := / 1000.
Definition span_warnings (pts : list (R * M3)) : list warning :=
  match map fst pts with
  | [] => []
  | x :: xs =>
      let mx := rmax_list x xs in
      let mn := rmin_list x xs in
      (if isclose_at warn_tol mx 0 || Rleb mx 0 then [MaxNotPositive] else []) ++
      (if isclose_at warn_tol mn 0 || Rleb 0 mn then [MinNotNegative] else [])
  end.
Fixpoint emit_all (ws : list warning) : act unit :=
  match ws with [] => ret tt | w :: ws' => do _ <- emit w; emit_all ws' end.

(** _interpolation.py:364-401: the checks and the spline of one DOF.  scipy rejects
    non-finite abscissae with ValueError. *)
Definition construct_one (order : nat) (pts : list (option R * M3)) : act spline :=
  if has_duplicates (map fst pts) then raise InvalidDOFException
  else if Nat.leb (List.length pts) order then raise InvalidDOFException
  else match all_finite pts with
       | None => raise ValueError
       | Some ps => do _ <- emit_all (span_warnings ps); ret (mkSpline order (sort_pts ps))
       end.

Fixpoint all_fin (l : list (arr V3)) : option (list (list V3)) :=
  match l with
  | [] => Some []
  | Fin a :: l' => match all_fin l' with Some r => Some (a :: r) | None => None end
  | Nan _ :: _ => None
  end.

(** _interpolation.py:344-407 [_construct_and_add_interpolations].  A NaN basis vector
    comes from a zero displacement only, for which the code always ends in some exception
    before storing anything (established by reading); the model raises ValueError for it. *)
Definition construct_and_add (dofs : list dof) (order : Z) : act unit :=
  if (order <? 1)%Z then raise ValueError
  else
    do interps <- for_each (fun d : dof => construct_one (Z.to_nat order) (snd d)) dofs;
    match all_fin (map fst dofs) with
    | None => raise ValueError
    | Some bs =>
        do s <- get;
        do _ <- put (mkIM (im_ref s) (im_refpol s) (im_dummy s) (im_basis s ++ bs)
                          (im_interp s) (im_mask s));
        do s <- get;
        do _ <- put (mkIM (im_ref s) (im_refpol s) (im_dummy s) (im_basis s)
                          (if im_dummy s then im_interp s else im_interp s ++ interps) (im_mask s));
        do s <- get;
        put (mkIM (im_ref s) (im_refpol s) (im_dummy s) (im_basis s) (im_interp s)
                  (im_mask s ++ repeat false (List.length bs)))
    end.

(** _interpolation.py:410-480 [add_dof].  The displacement is an (M,3) array. *)
Definition add_dof (cart : arr V3) (amps pols : rarr) (order : Z) (include_ref : bool) : act unit :=
  do s <- get;
  do disp <- lift (get_frac_displacement_arr (im_ref s) cart);
  let parent := over_norm 10 disp in
  do _ <- lift (verify_ndarray_shape (ra_shape amps) [None]);
  let n := List.length (ra_data amps) in
  let pols := if im_dummy s then mats_arr (repeat m0 n) else pols in
  do _ <- lift (verify_ndarray_shape (ra_shape pols) [Some n; Some 3%nat; Some 3%nat]);
  do dofs <- lift (get_dof s parent (ra_data amps) (mats_of (ra_data pols)) include_ref);
  construct_and_add dofs order.

(** Positions and polarizabilities read from the files of one call; each element is
    what the reader returned or raised. *)
Definition reads := list (res (list V3 * M3)).

(** _interpolation.py:629-695 [_read_dof] *)
Definition read_one (s : imodel) (rd : res (list V3 * M3)) : res (list V3 * M3) :=
  let* pp := rd in
  let pol := if im_dummy s then m0 else snd pp in
  match calc_displacement (rs_positions (im_ref s)) (fst pp) with
  | Ok d => Ok (d, pol)
  | Err e => if is_value_error e then Err InvalidDOFException else Err e
  end.
(** Shared tail of [_read_dof] and [_get_displacement_amplitudes_pymatgen] (568-583):
    collinearity with the first displacement, then the amplitudes.  A zero first
    displacement never passes the collinearity check. *)
Definition amplitudes_of (s : imodel) (disps : list (list V3)) : res (list V3 * list R) :=
  match disps with
  | [] => Err IndexError
  | d0 :: _ =>
      let* z := is_collinear_with_all (flatten (Fin d0)) (map (fun d => flatten (Fin d)) disps) in
      if negb (z =? -1)%Z then Err InvalidDOFException
      else match over_norm 1 (Fin (get_cart_displacement (im_ref s) d0)) with
           | Fin b => Ok (d0, map (fun d => get_amplitude b (get_cart_displacement (im_ref s) d)) disps)
           | Nan _ => Err ValueError
           end
  end.
Definition read_dof (s : imodel) (rds : reads) : res (list V3 * list R * list M3) :=
  let* dps := mapM (read_one s) rds in
  let* da := amplitudes_of s (map fst dps) in
  Ok (da, map snd dps).

(** _interpolation.py:482-526 [add_dof_from_files] *)
Definition add_dof_from_files (rds : reads) (order : Z) : act unit :=
  do s <- get;
  do x <- lift (read_dof s rds);
  let '(d0, amps, pols) := x in
  add_dof (Fin (get_cart_displacement (im_ref s) d0)) (vec_arr amps) (mats_arr pols) order true.

(** _interpolation.py:528-583 and 585-627 [add_dof_from_pymatgen], given the positions
    of the structures. *)
Definition displacement_amplitudes (s : imodel) (poss : list (list V3)) : res (list V3 * list R) :=
  let* ds := mapM (fun p => match calc_displacement (rs_positions (im_ref s)) p with
                            | Ok d => Ok d
                            | Err e => if is_value_error e then Err InvalidDOFException else Err e
                            end) poss in
  amplitudes_of s ds.
Definition add_dof_from_pymatgen (poss : list (list V3)) (pols : rarr) (order : Z) : act unit :=
  do s <- get;
  do x <- lift (displacement_amplitudes s poss);
  add_dof (Fin (get_cart_displacement (im_ref s) (fst x))) (vec_arr (snd x)) pols order true.

(** ** Masks *)

(** _interpolation.py:174-189 [mask] setter; a boolean array of the given shape *)
Definition set_mask (shape : list nat) (value : list bool) : act unit :=
  do s <- get;
  do _ <- lift (verify_ndarray_shape shape [Some (List.length (im_mask s))]);
  put (mkIM (im_ref s) (im_refpol s) (im_dummy s) (im_basis s) (im_interp s) value).

(** _interpolation.py:710-712 [unmask] *)
Definition unmask : act unit :=
  do s <- get;
  put (mkIM (im_ref s) (im_refpol s) (im_dummy s) (im_basis s) (im_interp s)
            (map (fun _ => false) (im_mask s))).

(** [new_mask[indexes] = True], NumPy integer-list indexing *)
Fixpoint mask_indexes (idx : list Z) (mask : list bool) : res (list bool) :=
  match idx with
  | [] => Ok mask
  | i :: idx' =>
      match py_index (List.length mask) i with
      | None => Err IndexError
      | Some k => mask_indexes idx' (set_nth k true mask)
      end
  end.
(** _interpolation.py:697-708 [get_masked_model]: a new model, or an exception *)
Definition get_masked_model (s : imodel) (idx : list Z) : res imodel :=
  let* mask := mask_indexes idx (map (fun _ => false) (im_mask s)) in
  Ok (mkIM (im_ref s) (im_refpol s) (im_dummy s) (im_basis s) (im_interp s) mask).

(** ** Evaluation *)

(** A first-order B-spline: the line through the two knots around [x], continued
    beyond the first and the last knot. *)
Definition segment (p q : R * M3) (x : R) : M3 :=
  madd (snd p) (mscale ((x - fst p) / (fst q - fst p)) (msub (snd q) (snd p))).
Fixpoint linear_spline (pts : list (R * M3)) (x : R) : M3 :=
  match pts with
  | p :: tl =>
      match tl with
      | [] => m0
      | q :: rest =>
          match rest with
          | [] => segment p q x
          | _ => if Rltb x (fst q) then segment p q x else linear_spline tl x
          end
      end
  | [] => m0
  end.

(** A batch of fractional positions: an array of any shape; [b_at] gives the entries
    of a rank-3 array (never consulted for other ranks). *)
Record batch := mkBatch { b_shape : list nat; b_at : nat -> nat -> nat -> R }.

(** One entry of a dimension pair under NumPy broadcasting *)
Definition bdim (a b : nat) : option nat :=
  if Nat.eqb a b then Some a
  else if Nat.eqb a 1 then Some b else if Nat.eqb b 1 then Some a else None.

(** Index into a dimension of size [d], 0 when it is broadcast *)
Definition bix (d i : nat) : nat := if Nat.eqb d 1 then 0%nat else i.

(** Displacement of broadcast row [i] of sample [s] from the reference:
    [apply_pbc_displacement(apply_pbc(batch) - apply_pbc(ref))] *)
Definition bdisp (pos : list V3) (b : batch) (n c : nat) (s i : nat) : V3 :=
  let q := mkV (b_at b s (bix n i) (bix c 0)) (b_at b s (bix n i) (bix c 1)) (b_at b s (bix n i) (bix c 2)) in
  let p := nth (bix (List.length pos) i) pos v0 in
  vmap wrapd (vsub (vmap wrap q) (vmap wrap p)).

Section Eval.
(** scipy's evaluation for orders above one *)
Variable spl : nat -> list (R * M3) -> R -> M3.

Definition eval_spline (s : spline) (x : R) : M3 :=
  if Nat.eqb (sp_order s) 1 then linear_spline (sp_pts s) x else spl (sp_order s) (sp_pts s) x.

(** _interpolation.py:214-229: flattened Cartesian displacements, one list per sample,
    and their width.  Anything that fails here becomes ValueError.
    For rank 4 and above the reshape only succeeds when there are no entries. *)
Definition batch_displacements (r : refstruct) (b : batch) : res (nat * list (list R)) :=
  let pos := rs_positions r in
  match b_shape b with
  | [ns; n; c] =>
      match bdim (List.length pos) n, bdim 3 c with
      | Some n', Some 3%nat =>
          Ok ((n' * 3)%nat,
              map (fun s => flatten_rows (map (fun i => vmul (bdisp pos b n c s i) (rs_lattice r)) (seq 0 n')))
                  (seq 0 ns))
      | _, _ => Err ValueError
      end
  | ns :: a :: rest =>
      match rev rest with
      | c :: n :: mid =>
          match bdim (List.length pos) n, bdim 3 c with
          | Some n', Some 3%nat =>
              (* broadcast shape: ns, a, rev mid..., n', 3; reshaped to (ns, a * third) *)
              let dims := ns :: a :: rev mid ++ [n'; 3%nat] in
              let third := nth 2 dims 0%nat in
              if Nat.eqb (prod_list dims) (ns * (a * third))
              then Ok ((a * third)%nat, repeat [] ns) else Err ValueError
          | _, _ => Err ValueError
          end
      | _ => Err ValueError
      end
  | _ => Err ValueError
  end.

(** _interpolation.py:232-243: one round of the loop for every sample.
    The width check is einsum's; a core dimension of one would broadcast. *)
Definition b2r (b : bool) : R := if b then 1 else 0.
Fixpoint sum_dofs (width : nat) (rows : list (list R)) (basis : list (list V3))
    (interps : list spline) (mask : list bool) (acc : list M3) : res (list M3) :=
  match basis, interps, mask with
  | [], [], [] => Ok acc
  | b :: basis', sp :: interps', mk :: mask' =>
      let fb := flatten_rows b in
      if Nat.eqb (List.length fb) width || Nat.eqb width 1 || Nat.eqb (List.length fb) 1 then
        let acc' := map2 (fun a row => madd a (mscale (1 - b2r mk) (eval_spline sp (ldot fb row)))) acc rows in
        sum_dofs width rows basis' interps' mask' acc'
      else Err ValueError
  | _, _, _ => Err ValueError
  end.

(** _interpolation.py:191-252 [calc_polarizabilities] *)
Definition calc_polarizabilities (m : imodel) (b : batch) : res (list M3) :=
  let* wr := batch_displacements (im_ref m) b in
  let '(width, rows) := wr in
  match sum_dofs width rows (im_basis m) (im_interp m) (im_mask m) (map (fun _ => m0) rows) with
  | Ok d => Ok (map (fun x => madd x (im_refpol m)) d)
  | Err e => if is_value_error e then (if im_dummy m then Err UserError else Err e) else Err e
  end.
End Eval.

(** ** Histories *)
Inductive iop :=
| OpAddDof (cart : list V3) (amps pols : rarr) (order : Z) (include_ref : bool)
| OpAddFiles (rds : reads) (order : Z)
| OpAddPymatgen (poss : list (list V3)) (pols : rarr) (order : Z)
| OpSetMask (shape : list nat) (value : list bool)
| OpUnmask.

Definition run_op (o : iop) : act unit :=
  match o with
  | OpAddDof c a p k i => add_dof (Fin c) a p k i
  | OpAddFiles r k => add_dof_from_files r k
  | OpAddPymatgen ps p k => add_dof_from_pymatgen ps p k
  | OpSetMask sh v => set_mask sh v
  | OpUnmask => unmask
  end.
(** State after a call, whether it returned or raised *)
Definition step (s : imodel) (o : iop) : imodel := fst (fst (run_op o s)).
Definition run (s : imodel) (ops : list iop) : imodel := fold_left step ops s.
