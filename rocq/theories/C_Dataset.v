(** Theorems about polarizability datasets: C64-C66, C78. *)
From Coq Require Import String Ascii ZArith NArith Reals Bool Arith List Lia Lra.
From Verif Require Import Base LinAlg Constants M_Validate M_Text M_Poscar M_Outcar M_Vasprun M_Dataset S_Dataset
  P_Dataset P_Dataset2 P_Dataset3 P_Examples8.
Import ListNotations.
Local Open Scope nat_scope.

(** C64: reading a dataset from files, and constructing one from pymatgen structures. *)
Theorem C64_reads : forall (Path : Type) (read_fn : Path -> res (narr * list Z * narr * narr)) cast paths r rs,
  Forall2 (reads read_fn) paths (r :: rs) -> Forall well_formed (r :: rs) ->
  (consecutive_close (r :: rs) /\ same_atoms (r :: rs) ->
     exists d, read_dataset read_fn true cast paths = Ok d /\
       ds_lattice d = cast_all cast (tensor (rd_lattice (last rs r))) /\ ds_numbers d = rd_numbers r /\
       ds_positions d = cast_all cast (frames (List.length (rd_numbers r)) (map rd_positions (r :: rs))) /\
       ds_raw d = tensors (map rd_polarizability (r :: rs))) /\
  (~ (consecutive_close (r :: rs) /\ same_atoms (r :: rs)) -> read_dataset read_fn true cast paths = Err IncompatibleStructureException).
Proof. exact (@f_C64_reads). Qed.
Print Assumptions C64_reads.

Theorem C64_read_error : forall (Path : Type) (read_fn : Path -> res (narr * list Z * narr * narr)) cast before p after rs e,
  Forall2 (reads read_fn) before rs -> Forall well_formed rs -> consecutive_close rs -> same_atoms rs ->
  read_fn p = Err e -> read_dataset read_fn true cast (before ++ p :: after) = Err e.
Proof. exact (@f_C64_read_error). Qed.
Print Assumptions C64_read_error.

Theorem C64_empty : forall (Path : Type) (read_fn : Path -> res (narr * list Z * narr * narr)) cast,
  read_dataset read_fn true cast [] = Err ValueError.
Proof. exact (@f_C64_empty). Qed.
Print Assumptions C64_empty.

Theorem C64_no_torch : forall (Path : Type) (read_fn : Path -> res (narr * list Z * narr * narr)) cast paths,
  read_dataset read_fn false cast paths = Err UserError.
Proof. exact (@f_C64_no_torch). Qed.
Print Assumptions C64_no_torch.

Theorem C64_sound : forall (Path : Type) (read_fn : Path -> res (narr * list Z * narr * narr)) torch cast paths d,
  read_dataset read_fn torch cast paths = Ok d ->
  torch = true /\ exists outs, Forall2 (fun p o => read_fn p = Ok o) paths outs /\
    Forall (fun o => snd (fst (fst o)) = ds_numbers d) outs /\
    forall o o', In o outs -> In o' outs -> na_shape (snd (fst o)) = na_shape (snd (fst o')).
Proof. exact (@f_C64_sound). Qed.
Print Assumptions C64_sound.

Theorem C64_drift_bounded_refuted :
  forall cast distance, exists (files : list reading) d,
  Forall well_formed files /\ read_dataset read_back true cast files = Ok d /\
  exists first final, nth_error files 0 = Some first /\ nth_error files (List.length files - 1) = Some final /\
    (distance < Rabs (ment (rd_lattice final) 0 0 - ment (rd_lattice first) 0 0))%R.
Proof. exact f_C64_drift_refuted. Qed.
Print Assumptions C64_drift_bounded_refuted.

Example C64_nonvacuous :
  (Forall2 (reads read_back) [drifted 0; drifted 1; drifted 2] [drifted 0; drifted 1; drifted 2] /\ Forall well_formed [drifted 0; drifted 1; drifted 2] /\
    consecutive_close [drifted 0; drifted 1; drifted 2] /\ same_atoms [drifted 0; drifted 1; drifted 2]) /\
  (Forall2 (reads read_back) [drifted 0; far] [drifted 0; far] /\ Forall well_formed [drifted 0; far] /\ ~ consecutive_close [drifted 0; far]).
Proof. exact ex_C64. Qed.

Theorem C64_pymatgen : forall cast s l ts,
  Forall pm_formed (s :: l) -> List.length ts = List.length (s :: l) ->
  (Forall (fun s' => lattice_close (pm_lattice s') (pm_lattice s) /\ pm_numbers s' = pm_numbers s) (s :: l) ->
     exists d, construct_dataset cast (s :: l) (tensors ts) = Ok d /\
       ds_lattice d = cast_all cast (tensor (pm_lattice s)) /\ ds_numbers d = pm_numbers s /\
       ds_positions d = cast_all cast (frames (List.length (pm_numbers s)) (map pm_positions (s :: l))) /\ ds_raw d = tensors ts) /\
  (~ Forall (fun s' => lattice_close (pm_lattice s') (pm_lattice s) /\ pm_numbers s' = pm_numbers s) (s :: l) ->
     construct_dataset cast (s :: l) (tensors ts) = Err IncompatibleStructureException).
Proof. exact f_C64_pymatgen. Qed.
Print Assumptions C64_pymatgen.

Theorem C64_pymatgen_empty : forall cast pols,
  exists e, construct_dataset cast [] pols = Err e /\ (na_shape pols = [0; 3; 3] -> e = IndexError).
Proof. exact f_C64_pymatgen_empty. Qed.
Print Assumptions C64_pymatgen_empty.

Example C64_pymatgen_nonvacuous :
  let s := mkPm mI [1%Z; 8%Z] [mkV 0 0 0; mkV (1/2) (1/2) (1/2)] in
  let t := mkPm mI [1%Z; 8%Z] [mkV 0 0 0; mkV (1/2) (1/2) (1/4)] in
  Forall pm_formed [s; t] /\ List.length [mI; mI] = List.length [s; t] /\
  Forall (fun s' => lattice_close (pm_lattice s') (pm_lattice s) /\ pm_numbers s' = pm_numbers s) [s; t].
Proof. exact ex_C64_pymatgen. Qed.

(** C65: vectors and tensors. *)
Theorem C65_inverse : forall v t,
  narr_wf v -> vectors_to_tensors v = Ok t -> narr_wf t /\ tensors_to_vectors t = Ok v.
Proof. exact f_C65_inverse. Qed.
Print Assumptions C65_inverse.

Theorem C65_symmetric : forall v t,
  narr_wf v -> vectors_to_tensors v = Ok t -> symmetric_batch t.
Proof. exact f_C65_symmetric. Qed.
Print Assumptions C65_symmetric.

Theorem C65_iff : forall a v,
  narr_wf a -> tensors_to_vectors a = Ok v -> vectors_to_tensors v = Ok a <-> symmetric_batch a.
Proof. exact f_C65_iff. Qed.
Print Assumptions C65_iff.

Theorem C65_components : forall a v s k i j x,
  narr_wf a -> tensors_to_vectors a = Ok v -> nth_error components k = Some (i, j) ->
  entry v [s; k] x <-> entry a [s; i; j] x.
Proof. exact f_C65_components. Qed.
Print Assumptions C65_components.

Theorem C65_accepts : forall a,
  ((exists t, vectors_to_tensors a = Ok t) <-> exists s, na_shape a = [s; 6]) /\ ((exists v, tensors_to_vectors a = Ok v) <-> exists s, na_shape a = [s; 3; 3]).
Proof. exact f_C65_accepts. Qed.
Print Assumptions C65_accepts.

Theorem C65_vectors_rejected : forall a,
  vectors_to_tensors a = Err ValueError <-> ~ exists s, na_shape a = [s; 6].
Proof. exact to_tensors_err. Qed.
Print Assumptions C65_vectors_rejected.

Theorem C65_tensors_rejected : forall a,
  tensors_to_vectors a = Err ValueError <-> ~ exists s, na_shape a = [s; 3; 3].
Proof. exact to_vectors_err. Qed.
Print Assumptions C65_tensors_rejected.

Example C65_nonvacuous :
  narr_wf two_vectors /\ (exists t, vectors_to_tensors two_vectors = Ok t /\ symmetric_batch t) /\
  narr_wf (tensors [mkM (mkV 1 2 3) (mkV 4 5 6) (mkV 7 8 9)]) /\ ~ symmetric_batch (tensors [mkM (mkV 1 2 3) (mkV 4 5 6) (mkV 7 8 9)]).
Proof. exact ex_C65. Qed.

(** C66: scaling. *)
Theorem C66_standard : forall cast lattice numbers positions ts d,
  (forall x, cast (cast x) = cast x) ->
  dataset_new cast lattice numbers positions (tensors ts) = Ok d ->
  forall k i j, nth_error components k = Some (i, j) -> let xs := map (fun t => ment t i j) ts in ~ constant xs ->
  exists zs, List.length zs = List.length ts /\ mean zs = 0%R /\ variance zs = 1%R /\
    forall s z, nth_error zs s = Some z ->
      entry (ds_scaled d) [s; k] (cast (Fin z)) /\ nth_error xs s = Some (z * stddev xs + mean xs)%R.
Proof. exact f_C66_standard. Qed.
Print Assumptions C66_standard.

Theorem C66_constant : forall cast lattice numbers positions ts d,
  (forall x, cast (cast x) = cast x) ->
  dataset_new cast lattice numbers positions (tensors ts) = Ok d ->
  forall k i j, nth_error components k = Some (i, j) -> constant (map (fun t => ment t i j) ts) ->
  forall s, s < List.length ts -> entry (ds_scaled d) [s; k] (cast NaN).
Proof. exact f_C66_constant. Qed.
Print Assumptions C66_constant.

Theorem C66_statistics : forall d ts i j,
  ds_raw d = tensors ts -> ts <> [] -> i < 3 -> j < 3 ->
  let xs := map (fun t => ment t i j) ts in
  entry (mean_polarizability d) [i; j] (Fin (mean xs)) /\ entry (stddev_polarizability d) [i; j] (Fin (stddev xs)).
Proof. exact f_C66_statistics. Qed.
Print Assumptions C66_statistics.

Example C66_nonvacuous :
  exists d, small_new = Ok d /\ ds_raw d = tensors two_tensors /\
  ~ constant (map (fun t => ment t 0 0) two_tensors) /\ constant (map (fun t => ment t 0 1) two_tensors).
Proof. exact ex_C66. Qed.

Theorem C66_rejects : forall d ts m s,
  ds_raw d = tensors ts -> narr_wf m -> narr_wf s ->
  (valid_scaling (m, s) -> exists d', scale_polarizabilities d m s = Ok d') /\
  (~ valid_scaling (m, s) -> scale_polarizabilities d m s = Err ValueError).
Proof. exact f_C66_rejects. Qed.
Print Assumptions C66_rejects.

Theorem C66_unscaled : forall d h d',
  scalings d h d' -> Forall (fun c => ~ valid_scaling c) h -> d' = d.
Proof. exact f_C66_unscaled. Qed.
Print Assumptions C66_unscaled.

Theorem C66_last_wins : forall d h1 h2 m s d' ts,
  ds_raw d = tensors ts -> scalings d (h1 ++ (tensor m, tensor s) :: h2) d' ->
  Forall (fun c => ~ valid_scaling c) h2 ->
  ds_raw d' = ds_raw d /\
  forall n k i j t, nth_error components k = Some (i, j) -> nth_error ts n = Some t -> ment s i j <> 0%R ->
    entry (ds_scaled d') [n; k] (Fin ((ment t i j - ment m i j) / ment s i j)).
Proof. exact f_C66_last_wins. Qed.
Print Assumptions C66_last_wins.

Example C66_history_nonvacuous :
  exists d d', small_new = Ok d /\
  scalings d ([(tensor mI, mkNarr [9] [])] ++ (tensor mI, tensor (mkM (mkV 2 1 1) (mkV 1 2 1) (mkV 1 1 2))) :: [(mkNarr [] [], tensor mI)]) d' /\
  Forall (fun c => ~ valid_scaling c) [(mkNarr [] [], tensor mI)] /\
  nth_error two_tensors 1 = Some (mscale 3 mI) /\ entry (ds_scaled d') [1; 0] (Fin 1).
Proof. exact ex_C66_history. Qed.

(** C78: indexing. *)
Theorem C78_new : forall cast lattice numbers positions pol,
  (exists d, dataset_new cast lattice numbers positions pol = Ok d) <->
  na_shape lattice = [3; 3] /\ exists n, na_shape positions = [n; List.length numbers; 3] /\ na_shape pol = [n; 3; 3].
Proof. exact f_C78_new. Qed.
Print Assumptions C78_new.

Theorem C78_length : forall cast lattice numbers fs ts d h d',
  dataset_new cast lattice numbers (frames (List.length numbers) fs) (tensors ts) = Ok d ->
  scalings d h d' -> num_samples d' = List.length fs /\ num_atoms d' = List.length numbers /\ List.length ts = List.length fs.
Proof. exact f_C78_length. Qed.
Print Assumptions C78_length.

Theorem C78_item : forall cast lattice numbers fs ts d h d',
  dataset_new cast lattice numbers (frames (List.length numbers) fs) (tensors ts) = Ok d ->
  Forall (fun vs => List.length vs = List.length numbers) fs ->
  scalings d h d' -> Forall (fun c => narr_wf (fst c) /\ narr_wf (snd c)) h ->
  forall n i vs, nth_error fs n = Some vs -> i = Z.of_nat n \/ i = (Z.of_nat n - Z.of_nat (List.length fs))%Z ->
  exists target, getitem d' i = Ok (cast_all cast lattice, numbers, cast_all cast (frame vs), mkNarr [6] target) /\
    List.length target = 6 /\ forall k x, k < 6 -> nth_error target k = Some x <-> entry (ds_scaled d') [n; k] x.
Proof. exact f_C78_item. Qed.
Print Assumptions C78_item.

Theorem C78_range : forall d i,
  (exists e, getitem d i = Err e) <-> (i < - Z.of_nat (num_samples d) \/ Z.of_nat (num_samples d) <= i)%Z.
Proof. exact f_C78_range. Qed.
Print Assumptions C78_range.

Theorem C78_error : forall d i e,
  getitem d i = Err e -> e = IndexError.
Proof. exact f_C78_error. Qed.
Print Assumptions C78_error.

Example C78_nonvacuous :
  exists d, small_new = Ok d /\ Forall (fun vs : list V3 => List.length vs = List.length [1%Z]) [[mkV 0 0 0]; [mkV (1/2) 0 0]] /\ scalings d [] d /\
  (exists it, getitem d (-1) = Ok it) /\ getitem d 2 = Err IndexError /\ getitem d (-3) = Err IndexError.
Proof. exact ex_C78. Qed.
