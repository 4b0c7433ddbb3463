(** Property C98: arguments of any type and shape are checked and complained about by name. *)
From Coq Require Import String ZArith NArith Reals Lra Lia Bool Arith List.
From Verif Require Import Base LinAlg Constants M_Validate M_Text M_Poscar M_Args S_Args P_Args P_Args2 P_Args3 P_Args4.
Import ListNotations.
Local Open Scope nat_scope.
Local Open Scope list_scope.

(** One argument: accepted exactly if it has a fitting shape, complained about otherwise *)
Theorem C98_shape_check : forall mt name v spec,
  reported mt [Arg name v (HasShape spec)] (verify_shape mt name v spec).
Proof. exact last_shape. Qed.
Print Assumptions C98_shape_check.

(** what [reported] allows is unique *)
Theorem C98_unique : forall mt args o o', reported mt args o -> reported mt args o' -> o = o'.
Proof. exact f_C98_unique. Qed.
Print Assumptions C98_unique.

(** Constructors and methods: the first argument that is not as required is reported *)
Theorem C98_reference_structure : forall mt n l p,
  reported mt [Arg (txt "atomic_numbers") n IsList; Arg (txt "lattice") l (HasShape [SDim 3; SDim 3]);
               Arg (txt "positions") p (HasShape [SDim (list_length n); SDim 3])]
    (reference_checks mt n l p).
Proof. exact f_C98_reference. Qed.
Print Assumptions C98_reference_structure.

Theorem C98_phonons : forall mt r w d, ~ is_tensor w ->
  reported mt [Arg (txt "ref_positions") r (HasShape [SAny; SDim 3]); Arg (txt "wavenumbers") w (HasShape [SAny]);
               Arg (txt "displacements") d (HasShape [SDim (first_dim w); SDim (first_dim r); SDim 3])]
    (phonons_checks mt r w d).
Proof. exact f_C98_phonons. Qed.
Print Assumptions C98_phonons.

(** Tensors pass for arrays, but as wavenumbers of [Phonons] they are always rejected, and the displacements are blamed *)
Theorem C98_phonons_tensor_refuted : forall mt r w d,
  meets r (HasShape [SAny; SDim 3]) -> meets w (HasShape [SAny]) -> is_tensor w ->
  exists e m rest, phonons_checks mt r w d = Raise e m /\ m = txt "displacements" ++ rest.
Proof. exact f_C98_phonons_tensor. Qed.
Print Assumptions C98_phonons_tensor_refuted.

Theorem C98_phonon_spectrum : forall mt w r,
  reported mt [Arg (txt "phonon_wavenumbers") w (HasShape [SAny]); Arg (txt "raman_tensors") r (HasShape [SDim (first_dim w); SDim 3; SDim 3])]
    (phonon_spectrum_checks mt w r).
Proof. exact f_C98_phonon_spectrum. Qed.
Print Assumptions C98_phonon_spectrum.

Theorem C98_md_spectrum : forall mt p t,
  reported mt [Arg (txt "polarizability_ts") p (HasShape [SAny; SDim 3; SDim 3])] (md_spectrum_checks mt p t).
Proof. exact f_C98_md_spectrum. Qed.
Print Assumptions C98_md_spectrum.

Theorem C98_model : forall mt p,
  reported mt [Arg (txt "ref_polarizability") p (HasShape [SDim 3; SDim 3])] (model_checks mt false p) /\
  model_checks mt true p = Done tt.
Proof. exact f_C98_model. Qed.
Print Assumptions C98_model.

Theorem C98_mask : forall mt n v, reported mt [Arg (txt "mask") v (HasShape [SDim n])] (mask_checks mt n v).
Proof. exact f_C98_mask. Qed.
Print Assumptions C98_mask.

Theorem C98_add_dof : forall mt d a p,
  ((exists dims, shaped d dims) ->
   reported mt [Arg (txt "cart_displacement") d (HasShape [SAny; SDim 3]); Arg (txt "amplitudes") a (HasShape [SAny]);
                Arg (txt "polarizabilities") p (HasShape [SDim (first_dim a); SDim 3; SDim 3])] (add_dof_checks mt false d a p) /\
   reported mt [Arg (txt "cart_displacement") d (HasShape [SAny; SDim 3]); Arg (txt "amplitudes") a (HasShape [SAny])] (add_dof_checks mt true d a p)) /\
  ((forall dims, ~ shaped d dims) -> forall dummy, add_dof_checks mt dummy d a p = Raise TypeError (txt "displacement is not an ndarray")).
Proof. exact f_C98_add_dof. Qed.
Print Assumptions C98_add_dof.

Theorem C98_add_art : forall mt i d a p,
  whole i -> (exists data, a = VArray [1] data \/ a = VArray [2] data) ->
  reported mt [Arg (txt "direction") d (HasShape [SDim 3]); Arg (txt "polarizabilities") p (HasShape [SDim (first_dim a); SDim 3; SDim 3])] (add_art_checks mt false i d a p) /\
  reported mt [Arg (txt "direction") d (HasShape [SDim 3])] (add_art_checks mt true i d a p).
Proof. exact f_C98_add_art. Qed.
Print Assumptions C98_add_art.

Theorem C98_add_art_rejects : forall mt dummy i d a p, meets d (HasShape [SDim 3]) ->
  (~ whole i -> add_art_checks mt dummy i d a p = Raise TypeError (about_type (txt "atom_index") (txt "int") i)) /\
  (whole i -> (forall dims, ~ shaped a dims) -> add_art_checks mt dummy i d a p = Raise TypeError (about_type (txt "amplitudes") (txt "ndarray") a)) /\
  (whole i -> forall dims, shaped a dims -> dims <> [1] -> dims <> [2] ->
     add_art_checks mt dummy i d a p = Raise ValueError (txt "amplitudes has wrong shape: " ++ round_text mt (map SDim dims) ++ txt " != (1,) or (2,)")) /\
  (whole i -> is_tensor a -> exists e m, add_art_checks mt dummy i d a p = Raise e m).
Proof. exact f_C98_add_art_errors. Qed.
Print Assumptions C98_add_art_rejects.

Theorem C98_dataset : forall mt l n p q,
  reported mt [Arg (txt "lattice") l (HasShape [SDim 3; SDim 3]); Arg (txt "atomic_numbers") n IsList;
               Arg (txt "positions") p (HasShape [SAny; SDim (list_length n); SDim 3]);
               Arg (txt "polarizabilities") q (HasShape [SDim (first_dim p); SDim 3; SDim 3])]
    (dataset_checks mt l n p q).
Proof. exact f_C98_dataset. Qed.
Print Assumptions C98_dataset.

(** [scale_polarizabilities] does not report a bad stddev under its name *)
Theorem C98_scale_refuted : forall mt, ~ (forall m s,
  reported mt [Arg (txt "mean") m (HasShape [SDim 3; SDim 3]); Arg (txt "stddev") s (HasShape [SDim 3; SDim 3])] (scale_checks mt m s)).
Proof. exact f_C98_scale_refuted. Qed.
Print Assumptions C98_scale_refuted.

Theorem C98_scale : forall mt m s,
  reported mt [Arg (txt "mean") m (HasShape [SDim 3; SDim 3]); Arg (txt "mean") s (HasShape [SDim 3; SDim 3])] (scale_checks mt m s).
Proof. exact f_C98_scale. Qed.
Print Assumptions C98_scale.

Theorem C98_potgnn : forall mt m s,
  reported mt [Arg (txt "mean_polarizability") m (HasShape [SDim 3; SDim 3]); Arg (txt "stddev_polarizability") s (HasShape [SDim 3; SDim 3])] (potgnn_checks mt m s).
Proof. exact f_C98_potgnn. Qed.
Print Assumptions C98_potgnn.

Theorem C98_potgnn_positions : forall mt n p,
  reported mt [Arg (txt "positions_batch") p (HasShape [SAny; SDim n; SDim 3])] (potgnn_positions_checks mt n p).
Proof. exact f_C98_potgnn_positions. Qed.
Print Assumptions C98_potgnn_positions.

Theorem C98_convolve : forall mt show amb w i x o t, ~ not_positive x ->
  reported mt [Arg (txt "out_wavenumbers") o (HasShape [SAny]); Arg (txt "wavenumbers") w (HasShape [SAny]); Arg (txt "intensities") i (HasShape [SDim (first_dim w)])]
    (convolve_checks mt show amb w i (VNumber t x) o).
Proof. exact f_C98_convolve. Qed.
Print Assumptions C98_convolve.

(** Width, temperature and laser wavenumber *)
Theorem C98_positive_numbers : forall show amb name v,
  (forall t x, v = VNumber t x -> ~ not_positive x -> verify_positive show amb name v = Done tt) /\
  (forall t x, v = VNumber t x -> not_positive x -> verify_positive show amb name v = Raise ValueError (txt "invalid " ++ name ++ txt ": " ++ show v ++ txt " <= 0")) /\
  ((forall t x, v <> VNumber t x) -> (forall dims, ~ shaped v dims) -> verify_positive show amb name v = Raise TypeError (about_type name (txt "float") v)).
Proof. exact f_C98_positive. Qed.
Print Assumptions C98_positive_numbers.

(** [Trajectory]: whatever [float] can read is a time step, texts included, if it is not known not to be positive *)
Theorem C98_trajectory_accepts : forall mt bad fl p t x,
  trajectory_checks mt bad fl p t = Done x <->
  meets p (HasShape [SAny; SAny; SDim 3]) /\ stands_for fl t x /\ ~ not_positive x.
Proof. exact f_C98_trajectory. Qed.
Print Assumptions C98_trajectory_accepts.

Theorem C98_trajectory_rejects : forall mt bad fl p t,
  (forall e m, complaint mt (Arg (txt "positions_ts") p (HasShape [SAny; SAny; SDim 3])) e m ->
     ~ meets p (HasShape [SAny; SAny; SDim 3]) -> trajectory_checks mt bad fl p t = Raise e m) /\
  (meets p (HasShape [SAny; SAny; SDim 3]) -> (forall x, ~ stands_for fl t x) -> (forall s, t <> VStr s) ->
     trajectory_checks mt bad fl p t = Raise TypeError (about_type (txt "timestep") (txt "float") t)) /\
  (meets p (HasShape [SAny; SAny; SDim 3]) -> (exists x, stands_for fl t x /\ not_positive x) ->
     trajectory_checks mt bad fl p t = Raise ValueError (txt "timestep must be positive")).
Proof. exact f_C98_trajectory_errors. Qed.
Print Assumptions C98_trajectory_rejects.

(** What the writers of structures and trajectories accept *)
Theorem C98_write_structure : forall mt show uh l n p,
  verify_structure_v mt show uh l n p = Done tt <->
  meets l (HasShape [SDim 3; SDim 3]) /\ (exists zs, n = VList zs /\ Forall element zs) /\
  meets p (HasShape [SDim (list_length n); SDim 3]) /\ (forall x, In x (entries p) -> ~ beyond x).
Proof. exact f_C98_structure. Qed.
Print Assumptions C98_write_structure.

Theorem C98_write_trajectory : forall mt show uh l n p,
  verify_trajectory_v mt show uh l n p = Done tt <->
  meets l (HasShape [SDim 3; SDim 3]) /\ (exists zs, n = VList zs /\ Forall element zs) /\
  meets p (HasShape [SAny; SDim (list_length n); SDim 3]) /\ (forall x, In x (entries p) -> ~ beyond x).
Proof. exact f_C98_written_trajectory. Qed.
Print Assumptions C98_write_trajectory.

Theorem C98_write_structure_rejects : forall mt show uh l n p zs,
  n = VList zs -> Forall element zs -> (forall x, In x (entries p) -> ~ beyond x) ->
  reported mt [Arg (txt "lattice") l (HasShape [SDim 3; SDim 3]); Arg (txt "positions") p (HasShape [SDim (length zs); SDim 3])]
    (verify_structure_v mt show uh l n p).
Proof. exact f_C98_structure_errors. Qed.
Print Assumptions C98_write_structure_rejects.

(** The first atomic number that is not of an element is shown *)
Theorem C98_bad_atomic_number : forall mt show uh l zs v rest p,
  meets l (HasShape [SDim 3; SDim 3]) -> Forall element zs -> ~ element v ->
  exists e m, verify_structure_v mt show uh l (VList (zs ++ v :: rest)) p = Raise e m /\
    ((e = ValueError /\ m = txt "invalid atomic number: " ++ show v) \/ (e = TypeError /\ m = uh v)).
Proof. exact f_C98_bad_number. Qed.
Print Assumptions C98_bad_atomic_number.

(** Tensors: arrays are rejected too *)
Theorem C98_tensor_check : forall mt name v size,
  (verify_tensor_size mt name v size = Done tt <-> exists dims data, v = VTensor dims data /\ Forall2 dim_ok dims size) /\
  (forall dims data, v = VTensor dims data -> ~ Forall2 dim_ok dims size ->
     verify_tensor_size mt name v size = Raise ValueError (name ++ txt " has wrong size: " ++ square_text mt (map SDim dims) ++ txt " != " ++ square_text mt size)) /\
  ((forall dims, ~ shaped v dims) -> verify_tensor_size mt name v size = Raise TypeError (about_type name (txt "Tensor") v)) /\
  (forall dims data, v = VArray dims data -> exists m, verify_tensor_size mt name v size = Raise TypeError m).
Proof. exact f_C98_tensor. Qed.
Print Assumptions C98_tensor_check.

(** The texts tell which argument it was, what was found and what was expected *)
Theorem C98_shape_told : forall mt n n' f f' s s',
  one_word n -> one_word n' -> plain s -> plain s' ->
  about_shape mt n f s = about_shape mt n' f' s' -> n = n' /\ f = f' /\ s = s'.
Proof. exact f_C98_shape_told. Qed.
Print Assumptions C98_shape_told.

Theorem C98_type_told : forall n n' x x' v v',
  one_word n -> one_word n' -> ~ In 44%N x -> ~ In 44%N x' ->
  about_type n x v = about_type n' x' v' -> n = n' /\ x = x' /\ type_name v = type_name v'.
Proof. exact f_C98_type_told. Qed.
Print Assumptions C98_type_told.

(** A list of the wrong length: the required length is not told *)
Theorem C98_length_told_refuted : exists name v n n', n <> n' /\
  exists m, verify_list name v (Some n) = Raise ValueError m /\ verify_list name v (Some n') = Raise ValueError m.
Proof. exact f_C98_length_untold. Qed.
Print Assumptions C98_length_told_refuted.

(** The shape of a scalar is not shown as () *)
Theorem C98_scalar_shape_refuted : forall mt data,
  exists m, verify_shape mt (txt "lattice") (VArray [] data) [SDim 3; SDim 3] = Raise ValueError m /\
    m = txt "lattice has wrong shape: ) != (3,3)".
Proof. exact f_C98_scalar. Qed.
Print Assumptions C98_scalar_shape_refuted.

(** On arrays and lists these are the checks used in the rest of the model *)
Theorem C98_typed_shape : forall mt name dims data spec,
  forget (verify_shape mt name (VArray dims data) (map sdim_of spec)) = verify_ndarray_shape dims spec.
Proof. exact f_C98_typed_shape. Qed.
Print Assumptions C98_typed_shape.

Theorem C98_typed_list : forall name l n, forget (verify_list name (VList l) n) = verify_list_len (length l) n.
Proof. exact f_C98_typed_list. Qed.
Print Assumptions C98_typed_list.

Theorem C98_typed_structure : forall mt show uh lattice numbers positions,
  forget (verify_structure_v mt show uh (VArray (na_shape lattice) (na_data lattice)) (VList (map (fun z => VNumber (txt "int") (Fin (IZR z))) numbers)) (VArray (na_shape positions) (na_data positions)))
  = verify_structure lattice numbers positions.
Proof. exact f_C98_typed_structure. Qed.
Print Assumptions C98_typed_structure.

(** A structure with two silicon atoms is accepted, with the lattice forgotten it is the lattice that is
    complained about, and with a text as time step a trajectory is accepted *)
Example C98_nonvacuous : forall mt,
  let si := VNumber (txt "int") (Fin 14) in
  reference_checks mt (VList [si; si]) (np_zeros [3; 3]) (np_zeros [2; 3]) = Done tt /\
  reference_checks mt (VList [si; si]) (VOther (txt "NoneType")) (np_zeros [2; 2])
    = Raise TypeError (txt "lattice should have type ndarray, not NoneType") /\
  reference_checks mt (VList [si; si]) (np_zeros [3; 3]) (np_zeros [3; 3])
    = Raise ValueError (txt "positions has wrong shape: (3,3) != (2,3)") /\
  (exists x, trajectory_checks mt (fun _ => []) (fun r => Fin r) (np_zeros [1; 2; 3]) (VStr (txt "1.5")) = Done x) /\
  one_word (txt "positions") /\ plain [SAny; SDim 3] /\ element si /\ ~ element (VStr (txt "Si")) /\ whole si /\
  is_tensor (VTensor [1] [Fin 1]) /\ meets (VTensor [1] [Fin 1]) (HasShape [SAny]).
Proof. exact ex_C98. Qed.
