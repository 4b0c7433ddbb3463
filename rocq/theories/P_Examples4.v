(** Concrete phonons, spectra and trajectories meeting the hypotheses of the theorems in C_Spectrum. *)
From Coq Require Import String ZArith Reals Lra Lia Psatz Bool Arith List.
From Verif Require Import Base LinAlg M_Validate M_StructUtils M_Interp M_Spectrum M_Dynamics S_Interp S_Spectrum
  S_Lattice P_StructUtils P_Signal P_Spectrum P_Dynamics P_Dynamics2 P_Convolve P_Convolve2.
Import ListNotations.
Local Open Scope R_scope.

Definition ex_calc : pol_model := fun b => Ok (map (fun p => mscale (vx (hd v0 p)) mI) b).
Definition ex_phonons : phonons := mkPh [mkV (1 / 4) 0 0] [100] [[mkV 1 0 0]].
Definition ex_raw : margs := mkArgs "polycrystalline" false 532 false 300.
Lemma ex_raw_ok : raw ex_raw.
Proof. repeat split. Qed.

Lemma ex_C40_hyp : Forall2 (fun d B => exists A even,
      (forall t, even (- t) = even t) /\
      (forall t, Rabs t <= 1 / 1000 ->
         ex_calc [displaced (ph_ref ex_phonons) d t] = Ok [madd (madd A (mscale t B)) (even t)]))
    (ph_displacements ex_phonons) [mI].
Proof.
  repeat constructor. exists (mscale (1 / 4) mI), (fun _ => m0). split; [reflexivity|].
  intros t _. unfold ex_calc, displaced. simpl. do 2 f_equal. apply M3_eq; apply V3_eq; simpl; ring.
Qed.
Lemma ex_shape : phonons_shape ex_phonons.
Proof. split; [reflexivity|]. repeat constructor. Qed.
Lemma ex_C40 : phonons_shape ex_phonons /\ ph_displacements ex_phonons <> [] /\
  Forall2 (fun d B => exists A even,
      (forall t, even (- t) = even t) /\
      (forall t, Rabs t <= 1 / 1000 ->
         ex_calc [displaced (ph_ref ex_phonons) d t] = Ok [madd (madd A (mscale t B)) (even t)]))
    (ph_displacements ex_phonons) [mI] /\
  exists s, phonons_raman_spectrum ex_calc ex_phonons = Ok s.
Proof.
  split; [exact ex_shape|]. split; [discriminate|]. split; [exact ex_C40_hyp|].
  eexists. apply f_C40_derivative with (tangent := [mI]); [exact ex_shape|discriminate|exact ex_C40_hyp].
Qed.
Lemma ex_offset : exists s, phonons_raman_spectrum (offset_model ex_calc mI) ex_phonons = Ok s /\ ps_tensors s <> [].
Proof.
  eexists. split.
  - rewrite f_C31_phonon. apply f_C40_derivative with (tangent := [mI]); [exact ex_shape|discriminate|exact ex_C40_hyp].
  - discriminate.
Qed.

(** A permutation of two axes *)
Definition ex_q : M3 := mkM (mkV 0 1 0) (mkV 1 0 0) (mkV 0 0 1).
Lemma ex_q_orth : orthogonal ex_q.
Proof. unfold orthogonal. apply M3_eq; apply V3_eq; simpl; ring. Qed.
Definition ex_t : M3 := mkM (mkV 1 0 0) (mkV 0 0 0) (mkV 0 0 0).
Lemma ex_t_rot : rotated ex_q ex_t <> ex_t.
Proof. unfold rotated. intros H. apply (f_equal (fun m => vx (r0 m))) in H. simpl in H. lra. Qed.
Lemma ex_t_sym : symmetric3 ex_t.
Proof. unfold symmetric3. apply M3_eq; apply V3_eq; simpl; ring. Qed.

Lemma ex_C36 : exists q s a w i, orthogonal q /\ q <> mI /\ Forall symmetric3 (ps_tensors s) /\
  measure_phonon s a = Ok (w, i) /\ map (rotated q) (ps_tensors s) <> ps_tensors s.
Proof.
  exists ex_q, (mkPS [100] [ex_t]), ex_raw. do 2 eexists. split; [exact ex_q_orth|]. split.
  { intros H. apply (f_equal (fun m => vx (r0 m))) in H. simpl in H. lra. }
  split; [constructor; [exact ex_t_sym|constructor]|]. split; [reflexivity|].
  cbn [ps_tensors map]. intros H. apply ex_t_rot. exact (f_equal (hd m0) H).
Qed.

Lemma ex_C36_asym : exists q s a, orthogonal q /\
  measure_phonon (mkPS (ps_wavenumbers s) (map (rotated q) (ps_tensors s))) a <> measure_phonon s a.
Proof.
  exists ex_q, (mkPS [100] [mkM (mkV 0 1 0) (mkV 0 0 0) (mkV 0 0 0)]), ex_raw. split; [exact ex_q_orth|].
  unfold measure_phonon. cbn [ps_wavenumbers ps_tensors map]. unfold apply_corrections. simpl.
  intros H. assert (K : polycrystalline (rotated ex_q (mkM (mkV 0 1 0) (mkV 0 0 0) (mkV 0 0 0))) = polycrystalline (mkM (mkV 0 1 0) (mkV 0 0 0) (mkV 0 0 0))) by congruence.
  clear H. rename K into H. rewrite !poly_textbook in H. unfold textbook_intensity, mean_polarizability, anisotropy_squared, rotated in H.
  cbv [entry mtrace mmul mtrans vmul vadd vscale r0 r1 r2 vx vy vz ex_q] in H. lra.
Qed.

Definition ex_series : list M3 := [ex_t; mI; mscale 3 mI; mscale (-1) ex_t].
Lemma ex_md : exists w i, measure_md (mkMD ex_series 1) ex_raw = Ok (w, i) /\ w <> [].
Proof.
  destruct (f_C41_ok ex_series 1 ex_raw) as (w & i & E & _); [simpl; lia|lra|exact ex_raw_ok|].
  exists w, (map Some i). split; auto. 
  destruct (f_C41_grid ex_series 1 ex_raw w (map Some i)) as (_ & _ & L & _); [simpl; lia|lra|auto|].
  intros ->. discriminate.
Qed.
Lemma ex_C43 : orthogonal ex_q /\ Forall symmetric3 ex_series /\ map (rotated ex_q) ex_series <> ex_series /\
  rev ex_series <> ex_series.
Proof.
  split; [exact ex_q_orth|]. split.
  - repeat constructor; try (apply M3_eq; apply V3_eq; simpl; ring).
  - split.
    + unfold ex_series. cbn [map]. intros H. apply (f_equal (fun l => vx (r0 (hd m0 l)))) in H. simpl in H. lra.
    + unfold ex_series. cbn [rev app]. intros H. apply (f_equal (fun l => vx (r0 (hd m0 l)))) in H. simpl in H. lra.
Qed.

Lemma ex_C45 : convolve_spectrum (vec_arr [100]) (vec_arr [1]) "boxcar" 5 (Some (vec_arr [50])) = Err ValueError /\
  convolve_spectrum (vec_arr []) (vec_arr []) "boxcar" 5 (Some (vec_arr [50])) = Ok ([50], [50 * 0]).
Proof.
  unfold convolve_spectrum. simpl. rewrite (proj2 (Rleb_false 5 0)) by lra. split; reflexivity.
Qed.

Lemma ex_C75 : exists t f, new_trajectory (mkRarr [2%nat; 1%nat; 3%nat] [0; 0; 0; 3 / 2; 0; 0]) 1 = Ok t /\
  trajectory_len t = 2%nat /\ trajectory_get t (-1)%Z = Ok f /\ f = [mkV (1 / 2) 0 0].
Proof.
  unfold new_trajectory. simpl. rewrite (proj2 (Rleb_false 1 0)) by lra. do 2 eexists. split; [reflexivity|].
  split; [reflexivity|]. split; [reflexivity|]. unfold vmap; simpl. f_equal.
  assert (wrap (3 / 2) = 1 / 2) as ->.
  { rewrite (wrap_proper (3 / 2) (1 / 2)); [apply wrap_id; lra|]. exists 1%Z. lra. }
  rewrite wrap_id by lra. reflexivity.
Qed.
