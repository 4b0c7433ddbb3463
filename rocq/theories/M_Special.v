(** Model of ramannoodle/pmodel/_interpolation.py and _art.py for numbers that may be NaN or
    infinite: what the callers pass, what files hold and what the reference polarizability is.

    Entries are [num]s; arithmetic is exact on finite numbers and follows IEEE rules on the
    others (zeros carry no sign).  The arrays for which the code only ever produces "all entries
    finite" or "all entries NaN" are the [arr]s of M_Symmetry.v, and [as_arr] goes from one to
    the other (P_Special.v shows that no entry is lost).  Warnings and exceptions as in
    M_Interp.v. *)
From Coq Require Import String ZArith Reals Bool Arith List.
From Verif Require Import Base LinAlg M_Validate M_Text M_Poscar M_Outcar M_Vasprun M_Dataset
  M_StructUtils M_Symmetry M_Reference M_Interp M_Art.
Import ListNotations.
Local Open Scope R_scope.

Notation FinN := M_Text.Fin.
Notation FinA := M_Symmetry.Fin.

(** ** Arrays *)
(** A (3,3) array *)
Record nmat := mkNmat { q0 : n3; q1 : n3; q2 : n3 }.
Definition fin_mat (m : M3) : nmat := mkNmat (fin3 (r0 m)) (fin3 (r1 m)) (fin3 (r2 m)).
Definition n3_map (f : num -> num) (v : n3) : n3 := mkN3 (f (nx v)) (f (ny v)) (f (nz v)).
Definition n3_map2 (f : num -> num -> num) (v w : n3) : n3 := mkN3 (f (nx v) (nx w)) (f (ny v) (ny w)) (f (nz v) (nz w)).
Definition nmat_map (f : num -> num) (m : nmat) : nmat := mkNmat (n3_map f (q0 m)) (n3_map f (q1 m)) (n3_map f (q2 m)).
Definition nmat_map2 (f : num -> num -> num) (a b : nmat) : nmat :=
  mkNmat (n3_map2 f (q0 a) (q0 b)) (n3_map2 f (q1 a) (q1 b)) (n3_map2 f (q2 a) (q2 b)).
Definition nan_mat : nmat := let v := mkN3 NaN NaN NaN in mkNmat v v v.
(** [v @ m] for a row [v] and a finite matrix [m] *)
Definition nrow_mul (v : n3) (m : M3) : n3 :=
  let f c := num_add (num_add (num_mul (nx v) (FinN (c (r0 m)))) (num_mul (ny v) (FinN (c (r1 m))))) (num_mul (nz v) (FinN (c (r2 m)))) in
  mkN3 (f vx) (f vy) (f vz).
(** [a @ m] and [m @ a] for a finite matrix [m] *)
Definition nmat_mul_r (a : nmat) (m : M3) : nmat := mkNmat (nrow_mul (q0 a) m) (nrow_mul (q1 a) m) (nrow_mul (q2 a) m).
Definition nmat_mul_l (m : M3) (a : nmat) : nmat :=
  let lin v := n3_map2 num_add (n3_map2 num_add (n3_map (num_mul (FinN (vx v))) (q0 a)) (n3_map (num_mul (FinN (vy v))) (q1 a)))
                 (n3_map (num_mul (FinN (vz v))) (q2 a)) in
  mkNmat (lin (r0 m)) (lin (r1 m)) (lin (r2 m)).
(** The 3x3 blocks of an (L,3,3) array *)
Fixpoint nmats_of (l : list num) : list nmat :=
  match l with
  | a :: b :: c :: d :: e :: f :: g :: h :: i :: l' =>
      mkNmat (mkN3 a b c) (mkN3 d e f) (mkN3 g h i) :: nmats_of l'
  | _ => []
  end.
Definition nmat_entries (m : nmat) : list num :=
  [nx (q0 m); ny (q0 m); nz (q0 m); nx (q1 m); ny (q1 m); nz (q1 m); nx (q2 m); ny (q2 m); nz (q2 m)].
Definition nmats_arr (l : list nmat) : narr := mkNarr [List.length l; 3%nat; 3%nat] (flat_map nmat_entries l).
Definition nvec_arr (l : list num) : narr := mkNarr [List.length l] l.
Definition finite_mat (m : nmat) : option M3 :=
  match finite3 (q0 m), finite3 (q1 m), finite3 (q2 m) with Some a, Some b, Some c => Some (mkM a b c) | _, _, _ => None end.

(** [x - x // 1] (structure/utils.py:26) and [np.where(x % 1 > 0.5, x % 1 - 1, x % 1)]
    (structure/utils.py:46), one coordinate: quotient and remainder of an infinity are NaN *)
Definition nwrap (x : num) : num := match x with FinN r => FinN (wrap r) | _ => NaN end.
Definition nwrapd (x : num) : num := match x with FinN r => FinN (wrapd r) | _ => NaN end.

(** [np.linalg.norm(c * a)] and [a / that] for an (N,3) array *)
Definition nentries (a : list n3) : list num := flat_map (fun v => [nx v; ny v; nz v]) a.
Definition nnorm (c : R) (a : list n3) : num :=
  num_sqrt (num_sum (map (fun x => let y := num_mul x (FinN c) in num_mul y y) (nentries a))).
Definition nover_norm (c : R) (a : list n3) : list n3 := map (n3_map (fun x => num_quot x (nnorm c a))) a.

Fixpoint all_rows (l : list n3) : option (list V3) :=
  match l with
  | [] => Some []
  | v :: l' => match finite3 v, all_rows l' with Some w, Some r => Some (w :: r) | _, _ => None end
  end.
Definition as_arr (l : list n3) : arr V3 := match all_rows l with Some r => FinA r | None => Nan (List.length l) end.

(** ** The model object: attributes as in M_Interp.v.  The points of a BSpline are finite because
    scipy checks them (see [construct_n]). *)
Record nmodel := mkNM {
  nm_ref : refstruct; nm_refpol : nmat; nm_dummy : bool;
  nm_basis : list (arr V3); nm_interp : list spline; nm_mask : list bool }.

(** _interpolation.py:100-115 [__init__] *)
Definition make_nmodel (ref : refstruct) (refpol : nmat) (dummy : bool) : nmodel :=
  mkNM ref (if dummy then fin_mat m0 else refpol) dummy [] [] [].

(** Warnings, and the new model or an exception *)
Definition ncall := (list warning * res nmodel)%type.
Definition nbind {A} (r : res A) (f : A -> ncall) : ncall := match r with Ok a => f a | Err e => ([], Err e) end.

(** ** Degrees of freedom *)
Definition ndof := (arr V3 * list (num * nmat))%type.

(** _interpolation.py:319-322: [multiplier]; every entry of a NaN array is NaN *)
Definition nmultiplier (child coll : arr V3) : res num :=
  match child, coll with
  | FinA c, FinA d =>
      let fc := flatten_rows c in
      let fd := flatten_rows d in
      let* k := argmax (map Rabs fc) in
      match nth_error fc k, nth_error fd k with
      | Some x, Some y => Ok (num_quot (FinN x) (FinN y))
      | _, _ => Err IndexError
      end
  | _, _ => Ok NaN
  end.

(** _interpolation.py:316-331 *)
Definition npoints_of (refpol : nmat) (amps : list num) (pols : list nmat) (child : arr V3) (ct : arr V3 * (M3 * V3))
  : res (list (num * nmat)) :=
  let '(coll, (rot, _)) := ct in
  let* mult := nmultiplier child coll in
  mapM (fun ap : num * nmat =>
          let* inv := minv rot in
          Ok (num_mul mult (fst ap), nmat_mul_r (nmat_mul_l inv (nmat_map2 num_sub (snd ap) refpol)) rot))
       (combine amps pols).

(** _interpolation.py:307-340 *)
Definition ndof_of_group (r : refstruct) (refpol : nmat) (amps : list num) (pols : list nmat) (include_ref : bool) (g : group)
  : res ndof :=
  match g_disp g with
  | [] => Err IndexError
  | child :: _ =>
      let* pss := mapM (npoints_of refpol amps pols child) (combine (g_disp g) (g_trans g)) in
      Ok (over_norm 1 (get_cart_displacement_arr r child),
          (if include_ref then [(FinN 0, fin_mat m0)] else []) ++ List.concat pss)
  end.

(** _interpolation.py:254-342 [_get_dof] *)
Definition nget_dof (m : nmodel) (parent : arr V3) (amps : list num) (pols : list nmat) (include_ref : bool) : res (list ndof) :=
  let r := nm_ref m in
  let cart := get_cart_displacement_arr r parent in
  let* result := is_orthogonal_to_all (flatten cart) (map flatten (nm_basis m)) in
  if negb (result =? -1)%Z then Err InvalidDOFException
  else
    let* groups := get_equivalent_displacements r parent in
    mapM (ndof_of_group r (nm_refpol m) amps pols include_ref) groups.

(** _interpolation.py:60-75 [find_duplicates]: equal infinities are close *)
Definition nclose (x y : num) : bool :=
  match x, y with
  | FinN a, FinN b => isclose a b
  | Inf a, Inf b => Bool.eqb a b
  | _, _ => false
  end.
Fixpoint nhas_duplicates (l : list num) : bool :=
  match l with [] => false | a :: l' => existsb (nclose a) l' || nhas_duplicates l' end.

(** [np.max], [np.min]: NaN if there is one *)
Definition num_max (x y : num) : num :=
  match x, y with
  | NaN, _ | _, NaN => NaN
  | Inf false, _ | _, Inf false => Inf false
  | Inf true, z => z
  | z, Inf true => z
  | FinN a, FinN b => FinN (Rmax a b)
  end.
Definition num_min (x y : num) : num := num_opp (num_max (num_opp x) (num_opp y)).
(** _interpolation.py:382-391 *)
Definition near_zero (x : num) : bool := match x with FinN r => isclose_at warn_tol r 0 | _ => false end.
Definition nspan_warnings (xs : list num) : list warning :=
  match xs with
  | [] => []
  | x :: xs' =>
      let mx := fold_left num_max xs' x in
      let mn := fold_left num_min xs' x in
      (if near_zero mx || num_le0 mx then [MaxNotPositive] else []) ++
      (if near_zero mn || num_le0 (num_opp mn) then [MinNotNegative] else [])
  end.

(** scipy's make_interp_spline refuses (ValueError) abscissae and ordinates that are not finite. *)
Fixpoint finite_points (l : list (num * nmat)) : option (list (R * M3)) :=
  match l with
  | [] => Some []
  | (FinN x, y) :: l' => match finite_mat y, finite_points l' with Some m, Some r => Some ((x, m) :: r) | _, _ => None end
  | _ :: _ => None
  end.

(** _interpolation.py:364-401, one round *)
Definition construct_n (order : nat) (pts : list (num * nmat)) : list warning * res spline :=
  if nhas_duplicates (map fst pts) then ([], Err InvalidDOFException)
  else if Nat.leb (List.length pts) order then ([], Err InvalidDOFException)
  else (nspan_warnings (map fst pts),
        match finite_points pts with
        | None => Err ValueError
        | Some ps => Ok (mkSpline order (sort_pts ps))
        end).
Fixpoint construct_all (order : nat) (l : list (list (num * nmat))) : list warning * res (list spline) :=
  match l with
  | [] => ([], Ok [])
  | pts :: l' =>
      let '(w, r) := construct_n order pts in
      match r with
      | Err e => (w, Err e)
      | Ok s => let '(w', r') := construct_all order l' in (w ++ w', rmap (cons s) r')
      end
  end.

(** _interpolation.py:344-407 [_construct_and_add_interpolations].  Nothing is assigned before the
    loop has ended. *)
Definition nconstruct_and_add (s : nmodel) (dofs : list ndof) (order : Z) : ncall :=
  if (order <? 1)%Z then ([], Err ValueError)
  else
    let '(w, r) := construct_all (Z.to_nat order) (map snd dofs) in
    (w, let* interps := r in
        Ok (mkNM (nm_ref s) (nm_refpol s) (nm_dummy s) (nm_basis s ++ map fst dofs)
              (if nm_dummy s then nm_interp s else nm_interp s ++ interps)
              (nm_mask s ++ repeat false (List.length dofs)))).

(** structure/_reference.py:309-323 [get_frac_displacement] *)
Definition nget_frac_displacement (r : refstruct) (c : list n3) : res (list n3) :=
  let* li := minv (rs_lattice r) in
  Ok (map (fun v => n3_map nwrapd (nrow_mul v li)) c).

(** _interpolation.py:410-480 [add_dof] *)
Definition nadd_dof (s : nmodel) (cart : list n3) (amps pols : narr) (order : Z) (include_ref : bool) : ncall :=
  nbind (nget_frac_displacement (nm_ref s) cart) (fun disp =>
  let parent := as_arr (nover_norm 10 disp) in
  nbind (verify_ndarray_shape (na_shape amps) [None]) (fun _ =>
  let n := List.length (na_data amps) in
  let pols := if nm_dummy s then nmats_arr (repeat (fin_mat m0) n) else pols in
  nbind (verify_ndarray_shape (na_shape pols) [Some n; Some 3%nat; Some 3%nat]) (fun _ =>
  nbind (nget_dof s parent (na_data amps) (nmats_of (na_data pols)) include_ref) (fun dofs =>
  nconstruct_and_add s dofs order)))).

(** ** From files and pymatgen *)
(** What was read from the files of one call *)
Definition nreads := list (res (list n3 * nmat)).

(** structure/utils.py:110-135 [calc_displacement] *)
Definition ncalc_displacement (p1 : list V3) (p2 : list n3) : res (list n3) :=
  let* d := bcast2 (n3_map2 num_sub) (map (n3_map nwrap) p2) (map (fun v => n3_map nwrap (fin3 v)) p1) in
  Ok (map (n3_map nwrapd) d).

Definition nread_one (s : nmodel) (rd : res (list n3 * nmat)) : res (list n3 * nmat) :=
  let* pp := rd in
  let pol := if nm_dummy s then fin_mat m0 else snd pp in
  match ncalc_displacement (rs_positions (nm_ref s)) (fst pp) with
  | Ok d => Ok (d, pol)
  | Err e => if is_value_error e then Err InvalidDOFException else Err e
  end.

(** _interpolation.py:568-583 and 677-695.  [are_collinear] divides by the norm first, so that one
    entry that is not finite makes all NaN.  Past the collinearity check every displacement is
    finite (P_Special.v), which is why the last case is not reached. *)
Definition namplitudes_of (s : nmodel) (disps : list (list n3)) : res (list V3 * list num) :=
  match map as_arr disps with
  | [] => Err IndexError
  | d0 :: ds =>
      let* z := is_collinear_with_all (flatten d0) (map flatten (d0 :: ds)) in
      if negb (z =? -1)%Z then Err InvalidDOFException
      else match d0, all_fin (d0 :: ds) with
           | FinA c0, Some cs =>
               match over_norm 1 (FinA (get_cart_displacement (nm_ref s) c0)) with
               | FinA b => Ok (c0, map (fun d => FinN (get_amplitude b (get_cart_displacement (nm_ref s) d))) cs)
               | Nan _ => Err ValueError
               end
           | _, _ => Err ValueError
           end
  end.

(** _interpolation.py:629-695 [_read_dof], 482-526 [add_dof_from_files] *)
Definition nread_dof (s : nmodel) (rds : nreads) : res (list V3 * list num * list nmat) :=
  let* dps := mapM (nread_one s) rds in
  let* da := namplitudes_of s (map fst dps) in
  Ok (da, map snd dps).
Definition nadd_dof_from_files (s : nmodel) (rds : nreads) (order : Z) : ncall :=
  nbind (nread_dof s rds) (fun x =>
  let '(d0, amps, pols) := x in
  nadd_dof s (map fin3 (get_cart_displacement (nm_ref s) d0)) (nvec_arr amps) (nmats_arr pols) order true).

(** _interpolation.py:528-583, 585-627 [add_dof_from_pymatgen] *)
Definition ndisplacement_amplitudes (s : nmodel) (poss : list (list n3)) : res (list V3 * list num) :=
  let* ds := mapM (fun p => match ncalc_displacement (rs_positions (nm_ref s)) p with
                            | Ok d => Ok d
                            | Err e => if is_value_error e then Err InvalidDOFException else Err e
                            end) poss in
  namplitudes_of s ds.
Definition nadd_dof_from_pymatgen (s : nmodel) (poss : list (list n3)) (pols : narr) (order : Z) : ncall :=
  nbind (ndisplacement_amplitudes s poss) (fun x =>
  nadd_dof s (map fin3 (get_cart_displacement (nm_ref s) (fst x))) (nvec_arr (snd x)) pols order true).

(** ** Atomic Raman tensors *)
(** structure/_reference.py:325-342 [get_frac_direction] *)
Definition nget_frac_direction (r : refstruct) (c : list num) : res n3 :=
  match c with
  | [x; y; z] => let* li := minv (rs_lattice r) in Ok (n3_map nwrapd (nrow_mul (mkN3 x y z) li))
  | _ => Err ValueError
  end.
(** structure/_reference.py:272-288 [get_cart_displacement] *)
Definition nget_cart_displacement (r : refstruct) (d : list n3) : list n3 :=
  map (fun v => nrow_mul (n3_map nwrapd v) (rs_lattice r)) d.

(** _art.py:137-197 [add_art] *)
Definition nadd_art (s : nmodel) (atom : Z) (direction : list num) (amps pols : narr) : ncall :=
  let r := nm_ref s in
  nbind (nget_frac_direction r direction) (fun f =>
  nbind (match na_shape amps with [1%nat] | [2%nat] => Ok tt | _ => Err ValueError end) (fun _ =>
  let n := List.length (na_data amps) in
  let pols := if nm_dummy s then nmats_arr (repeat (fin_mat m0) n) else pols in
  nbind (verify_ndarray_shape (na_shape pols) [Some n; Some 3%nat; Some 3%nat]) (fun _ =>
  match py_index (List.length (rs_positions r)) atom with
  | None => ([], Err IndexError)
  | Some k =>
      let row := n3_map (fun x => num_quot x (nnorm 10 [f])) f in
      let displacement := set_nth k row (repeat (fin3 v0) (List.length (rs_positions r))) in
      nadd_dof s (nget_cart_displacement r displacement) amps pols 1 false
  end))).

(** _art.py:231-252 and 283-304; past the collinearity check the displacement is finite *)
Definition nadd_one_atom (s : nmodel) (d0 : list V3) (amps : list num) (pols : list nmat) : ncall :=
  nbind (argmax (map vnorm2 d0)) (fun k =>
  if negb (forallb row_small (set_nth k v0 d0)) then ([], Err InvalidDOFException)
  else
    nbind (nget_dof s (FinA d0) amps pols false) (fun dofs =>
    match dofs with
    | [] => ([], Err IndexError)
    | d :: _ =>
        if negb (Nat.eqb (List.length (snd d)) 2) then ([], Err InvalidDOFException)
        else nconstruct_and_add s dofs 1
    end)).
(** _art.py:199-252 [add_art_from_files], 254-304 [add_art_from_pymatgen] *)
Definition nadd_art_from_files (s : nmodel) (rds : nreads) : ncall :=
  nbind (nread_dof s rds) (fun x => let '(d0, amps, pols) := x in nadd_one_atom s d0 amps pols).
Definition nadd_art_from_pymatgen (s : nmodel) (poss : list (list n3)) (pols : list nmat) : ncall :=
  nbind (ndisplacement_amplitudes s poss) (fun x => nadd_one_atom s (fst x) (snd x) pols).

(** ** Masks and histories *)
(** _interpolation.py:174-189 [mask] setter, 710-712 [unmask] *)
Definition nset_mask (s : nmodel) (shape : list nat) (value : list bool) : ncall :=
  nbind (verify_ndarray_shape shape [Some (List.length (nm_mask s))]) (fun _ =>
  ([], Ok (mkNM (nm_ref s) (nm_refpol s) (nm_dummy s) (nm_basis s) (nm_interp s) value))).
Definition nunmask (s : nmodel) : ncall :=
  ([], Ok (mkNM (nm_ref s) (nm_refpol s) (nm_dummy s) (nm_basis s) (nm_interp s) (map (fun _ => false) (nm_mask s)))).

Inductive nop :=
| NAddDof (cart : list n3) (amps pols : narr) (order : Z) (include_ref : bool)
| NAddFiles (rds : nreads) (order : Z)
| NAddPymatgen (poss : list (list n3)) (pols : narr) (order : Z)
| NArt (atom : Z) (direction : list num) (amps pols : narr)
| NArtFiles (rds : nreads)
| NArtPymatgen (poss : list (list n3)) (pols : list nmat)
| NSetMask (shape : list nat) (value : list bool)
| NUnmask.

(** The calls an InterpolationModel ([art = false]) or an ARTModel ([art = true]) understands;
    _art.py:82-135 disables three of them *)
Definition run_nop (art : bool) (s : nmodel) (o : nop) : ncall :=
  match o with
  | NAddDof c a p k i => if art then ([], Err UserError) else nadd_dof s c a p k i
  | NAddFiles r k => if art then ([], Err UserError) else nadd_dof_from_files s r k
  | NAddPymatgen ps p k => if art then ([], Err UserError) else nadd_dof_from_pymatgen s ps p k
  | NArt i d a p => if art then nadd_art s i d a p else ([], Err AttributeError)
  | NArtFiles r => if art then nadd_art_from_files s r else ([], Err AttributeError)
  | NArtPymatgen ps p => if art then nadd_art_from_pymatgen s ps p else ([], Err AttributeError)
  | NSetMask sh v => nset_mask s sh v
  | NUnmask => nunmask s
  end.
(** The model after a call, whether it returned or raised *)
Definition nstep (art : bool) (s : nmodel) (o : nop) : nmodel :=
  match snd (run_nop art s o) with Ok s' => s' | Err _ => s end.
Definition nrun (art : bool) (s : nmodel) (ops : list nop) : nmodel := fold_left (nstep art) ops s.

(** ** Evaluation *)
Record nbatch := mkNBatch { nb_shape : list nat; nb_at : nat -> nat -> nat -> num }.

Definition nbdisp (pos : list V3) (b : nbatch) (n c : nat) (s i : nat) : n3 :=
  let q := mkN3 (nb_at b s (bix n i) (bix c 0)) (nb_at b s (bix n i) (bix c 1)) (nb_at b s (bix n i) (bix c 2)) in
  let p := nth (bix (List.length pos) i) pos v0 in
  n3_map nwrapd (n3_map2 num_sub (n3_map nwrap q) (n3_map nwrap (fin3 p))).

Section Eval.
(** scipy's evaluation for orders above one, and at infinities *)
Variable spl : nat -> list (R * M3) -> R -> M3.
Variable at_infinity : spline -> bool -> nmat.

(** [interpolation(x)]; scipy returns NaN at NaN *)
Definition neval (s : spline) (x : num) : nmat :=
  match x with
  | FinN r => fin_mat (eval_spline spl s r)
  | Inf b => at_infinity s b
  | NaN => nan_mat
  end.

(** _interpolation.py:214-229; see [batch_displacements] in M_Interp.v for the shapes *)
Definition nbatch_displacements (r : refstruct) (b : nbatch) : res (nat * list (list num)) :=
  let pos := rs_positions r in
  match nb_shape b with
  | [ns; n; c] =>
      match bdim (List.length pos) n, bdim 3 c with
      | Some n', Some 3%nat =>
          Ok ((n' * 3)%nat,
              map (fun s => nentries (map (fun i => nrow_mul (nbdisp pos b n c s i) (rs_lattice r)) (seq 0 n')))
                  (seq 0 ns))
      | _, _ => Err ValueError
      end
  | _ => rmap (fun wr => (fst wr, map (fun _ => []) (snd wr))) (batch_displacements r (mkBatch (nb_shape b) (fun _ _ _ => 0)))
  end.

(** [np.einsum("i,ji", basis, displacements)], one sample *)
Definition ndot (b : arr V3) (row : list num) : num :=
  match b with
  | FinA l => num_sum (map2 (fun x y => num_mul (FinN x) y) (flatten_rows l) row)
  | Nan n => num_sum (map2 num_mul (repeat NaN (n * 3)) row)
  end.

(** _interpolation.py:232-243 *)
Fixpoint nsum_dofs (width : nat) (rows : list (list num)) (basis : list (arr V3)) (interps : list spline) (mask : list bool)
    (acc : list nmat) : res (list nmat) :=
  match basis, interps, mask with
  | [], [], [] => Ok acc
  | b :: basis', sp :: interps', mk :: mask' =>
      let size := (arr_len b * 3)%nat in
      if Nat.eqb size width || Nat.eqb width 1 || Nat.eqb size 1 then
        let acc' := map2 (fun a row => nmat_map2 num_add a (nmat_map (num_mul (FinN (1 - b2r mk))) (neval sp (ndot b row)))) acc rows in
        nsum_dofs width rows basis' interps' mask' acc'
      else Err ValueError
  | _, _, _ => Err ValueError
  end.

(** _interpolation.py:191-252 [calc_polarizabilities] *)
Definition ncalc_polarizabilities (m : nmodel) (b : nbatch) : res (list nmat) :=
  let* wr := nbatch_displacements (nm_ref m) b in
  let '(width, rows) := wr in
  match nsum_dofs width rows (nm_basis m) (nm_interp m) (nm_mask m) (map (fun _ => fin_mat m0) rows) with
  | Ok d => Ok (map (fun x => nmat_map2 num_add x (nm_refpol m)) d)
  | Err e => if is_value_error e then (if nm_dummy m then Err UserError else Err e) else Err e
  end.
End Eval.
