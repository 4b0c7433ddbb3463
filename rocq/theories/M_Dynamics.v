(** Model of ramannoodle/dynamics/_phonon.py and ramannoodle/dynamics/_trajectory.py.

    A polarizability model is any function from batches of samples to tensors or an
    exception (ramannoodle/abstract.py:10-28); it is a parameter of the definitions. *)
From Coq Require Import String ZArith Reals Bool Arith List.
From Verif Require Import Base LinAlg M_Validate M_StructUtils M_Interp M_Spectrum.
Import ListNotations.
Local Open Scope R_scope.

(** abstract.py:14-28 [PolarizabilityModel.calc_polarizabilities], one list of (N,3)
    rows per sample *)
Definition pol_model := list (list V3) -> res (list M3).

(** Rows of a finite (N,3) array and frames of a finite (S,N,3) array *)
Fixpoint rows_of (l : list R) : list V3 :=
  match l with
  | x :: y :: z :: l' => mkV x y z :: rows_of l'
  | _ => []
  end.
Fixpoint frames_of (s n : nat) (l : list V3) : list (list V3) :=
  match s with
  | O => []
  | S s' => firstn n l :: frames_of s' n (skipn n l)
  end.

(** dynamics/_phonon.py:13-46 [Phonons] *)
Record phonons := mkPh {
  ph_ref : list V3;
  ph_wavenumbers : list R;
  ph_displacements : list (list V3) }.

Definition new_phonons (ref wav disp : rarr) : res phonons :=
  rbind (verify_ndarray_shape (ra_shape ref) [None; Some 3%nat]) (fun _ =>
  rbind (verify_ndarray_shape (ra_shape wav) [None]) (fun _ =>
  rbind (verify_ndarray_shape (ra_shape disp)
           [Some (List.length (ra_data wav)); Some (hd 0%nat (ra_shape ref)); Some 3%nat]) (fun _ =>
  Ok (mkPh (rows_of (ra_data ref)) (ra_data wav)
        (frames_of (hd 0%nat (ra_shape disp)) (hd 0%nat (ra_shape ref)) (rows_of (ra_data disp))))))).

(** constants.py:248 *)
Definition RAMAN_TENSOR_CENTRAL_DIFFERENCE : R := 1 / 1000.

Definition vdivs (v : V3) (c : R) : V3 := mkV (vx v / c) (vy v / c) (vz v / c).
Definition mdivs (m : M3) (c : R) : M3 := mkM (vdivs (r0 m) c) (vdivs (r1 m) c) (vdivs (r2 m) c).

(** [model.calc_polarizabilities(np.array([p]))[0]] *)
Definition predict_one (calc : pol_model) (p : list V3) : res M3 :=
  rbind (calc [p]) (fun l => match l with m :: _ => Ok m | [] => Err IndexError end).

(** [except ValueError as exc: raise ValueError(...)] *)
Definition rewrap {A} (r : res A) : res A :=
  match r with Ok a => Ok a | Err e => if is_value_error e then Err ValueError else Err e end.

(** dynamics/_phonon.py:93-106, one phonon.  [ref + epsilon] has equal shapes by
    construction of [Phonons]. *)
Definition raman_tensor (calc : pol_model) (ref disp : list V3) : res M3 :=
  rewrap
    (let epsilon := map (fun d => mkV (vx d * RAMAN_TENSOR_CENTRAL_DIFFERENCE)
                                      (vy d * RAMAN_TENSOR_CENTRAL_DIFFERENCE)
                                      (vz d * RAMAN_TENSOR_CENTRAL_DIFFERENCE)) disp in
     rbind (predict_one calc (map2 vadd ref epsilon)) (fun plus =>
     rbind (predict_one calc (map2 vsub ref epsilon)) (fun minus =>
     Ok (mdivs (msub plus minus) RAMAN_TENSOR_CENTRAL_DIFFERENCE)))).

(** dynamics/_phonon.py:82-108 [Phonons.get_raman_spectrum]; [np.array([])] has shape
    (0,), which the constructor rejects. *)
Definition phonons_raman_spectrum (calc : pol_model) (p : phonons) : res phonon_spectrum :=
  rbind (mapM (raman_tensor calc (ph_ref p)) (ph_displacements p)) (fun tensors =>
  new_phonon_spectrum (vec_arr (ph_wavenumbers p))
    (match tensors with [] => mkRarr [0%nat] [] | _ => mats_arr tensors end)).

(** dynamics/_trajectory.py:16-46 [Trajectory]; [positions_ts] as frames. *)
Record trajectory := mkTr { tr_ts : list (list V3); tr_timestep : R }.

Definition new_trajectory (ts : rarr) (timestep : R) : res trajectory :=
  rbind (verify_ndarray_shape (ra_shape ts) [None; None; Some 3%nat]) (fun _ =>
  if Rleb timestep 0 then Err ValueError
  else Ok (mkTr (map apply_pbc (frames_of (nth 0 (ra_shape ts) 0%nat) (nth 1 (ra_shape ts) 0%nat)
                                  (rows_of (ra_data ts)))) timestep)).

(** dynamics/_trajectory.py:71-90 [Trajectory.get_raman_spectrum] *)
Definition trajectory_raman_spectrum (calc : pol_model) (t : trajectory) : res md_spectrum :=
  rbind (rewrap (calc (tr_ts t))) (fun ts =>
  new_md_spectrum (mats_arr ts) (tr_timestep t)).

(** dynamics/_trajectory.py:92-94 [__len__] *)
Definition trajectory_len (t : trajectory) : nat := List.length (tr_ts t).

(** dynamics/_trajectory.py:102-109 [__getitem__] with an int key *)
Definition trajectory_get (t : trajectory) (i : Z) : res (list V3) :=
  match py_index (List.length (tr_ts t)) i with
  | Some k => match nth_error (tr_ts t) k with Some f => Ok f | None => Err IndexError end
  | None => Err IndexError
  end.

(** CPython's [slice.indices(n)] followed by the index range; NumPy uses the same rule. *)
Definition clip_index (n lower upper : Z) (dflt : Z) (v : option Z) : Z :=
  match v with
  | None => dflt
  | Some i =>
      let i' := if (i <? 0)%Z then (i + n)%Z else i in
      if (i' <? lower)%Z then lower else if (upper <? i')%Z then upper else i'
  end.
Definition slice_bounds (n : nat) (start stop : option Z) (step : Z) : Z * Z :=
  let nz := Z.of_nat n in
  if (0 <? step)%Z then
    (clip_index nz 0 nz 0 start, clip_index nz 0 nz nz stop)
  else
    (clip_index nz (-1) (nz - 1) (nz - 1) start, clip_index nz (-1) (nz - 1) (-1) stop).
Definition slice_count (a b step : Z) : nat :=
  if (0 <? step)%Z then Z.to_nat ((b - a + step - 1) / step)
  else Z.to_nat ((a - b + - step - 1) / (- step)).

(** dynamics/_trajectory.py:102-109 [__getitem__] with a slice key; a zero step raises
    ValueError. *)
Definition trajectory_slice (t : trajectory) (start stop : option Z) (step : option Z)
  : res (list (list V3)) :=
  let st := match step with Some s => s | None => 1%Z end in
  if (st =? 0)%Z then Err ValueError
  else
    let '(a, b) := slice_bounds (List.length (tr_ts t)) start stop st in
    Ok (map (fun k => nth (Z.to_nat (a + Z.of_nat k * st)) (tr_ts t) [])
            (seq 0 (slice_count a b st))).
