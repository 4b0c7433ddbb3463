(** Proofs of C88, continued: spectra of nonlinear responses. *)
From Coq Require Import String ZArith Reals Lra Lia Psatz Bool Arith List.
From Verif Require Import Base LinAlg M_Validate M_StructUtils M_Symmetry M_Reference M_Interp M_Art M_Spectrum M_Dynamics
  S_Lattice S_Vec S_Symmetry S_Equivalent S_Interp S_Images S_Response S_Anharmonic S_Spectrum P_StructUtils P_Symmetry P_Equivalent P_Equiv2 P_Equiv3 P_EquivTotal
  P_StructFinal P_Examples1 P_Spectrum P_Dynamics
  P_Interp P_Interp2 P_InterpEval P_Interp3 P_Interp4 P_Interp5 P_Interp6 P_Interp7 P_Examples2 P_Images P_Images2
  P_Response P_Response2 P_Response3 P_Anharmonic P_Anharmonic2.
Import ListNotations.
Local Open Scope R_scope.

(** ** Along a degree of freedom *)
Lemma only_one n f basis : forall j b t, f (repeat v0 n) = m0 -> Forall (fun b => List.length b = n) basis ->
  orthonormal basis -> nth_error basis j = Some b ->
  fold_right madd m0 (map (fun c => f (rows_scale (inner (rowsR c) (rowsR (rows_scale t b))) c)) basis) = f (rows_scale t b).
Proof.
  intros j b t H0 Hn Ho Hj.
  assert (Z: forall l, Forall (fun b => List.length b = n) l -> Forall (fun c => rows_dot c (rows_scale t b) = 0) l ->
     fold_right madd m0 (map (fun c => f (rows_scale (inner (rowsR c) (rowsR (rows_scale t b))) c)) l) = m0).
  { induction l as [|c l IH]; intros A B; auto. inversion A as [|? ? A1 A2]; inversion B as [|? ? B1 B2]; subst. cbn [map fold_right]. rewrite IH by auto.
    rewrite inner_rows. rewrite B1, rows_scale_zero, H0. vring. }
  assert (D: forall c, rows_dot c (rows_scale t b) = t * rows_dot c b).
  { intros c. rewrite rows_dot_comm, rows_dot_scale_l, rows_dot_comm. auto. }
  revert j Hj. induction basis as [|c basis IH]; intros [|j] Hj; try discriminate; cbn [nth_error] in Hj; inversion Hn; subst.
  - injection Hj as ->. cbn [map fold_right]. rewrite Z; auto.
    + rewrite inner_rows, D, <- inner_rows. rewrite (Ho 0%nat 0%nat b b) by auto. cbn. rewrite Rmult_1_r.
      destruct (f (rows_scale t b)) as [[] [] []]. vring.
    + apply Forall_forall. intros c Hc. apply In_nth_error in Hc as (k & Hk). rewrite D, <- inner_rows.
      rewrite (Ho (S k) 0%nat c b) by auto. cbn. ring.
  - cbn [map fold_right]. rewrite (IH) with (j := j); auto.
    + rewrite inner_rows, D, <- inner_rows. rewrite (Ho 0%nat (S j) c b) by auto. cbn [Nat.eqb]. rewrite Rmult_0_r, rows_scale_zero, H0.
      destruct (f (rows_scale t b)) as [[] [] []]. vring.
    + intros i k x y Hx Hy. apply (Ho (S i) (S k) x y); auto.
Qed.

Lemma f_C88_along spl L pos ops r pol f m j b t x : reproduces_polynomials spl -> crystal L pos ops r ->
  f (repeat v0 (List.length pos)) = m0 -> symmetric_response pos ops f -> sampled_any r pol f m ->
  Forall2 (fun b sp => polynomial_along f b (sp_order sp)) (im_basis m) (im_interp m) ->
  orthonormal (im_basis m) -> nth_error (im_basis m) j = Some b ->
  List.length x = List.length pos -> displacement_from r x (rows_scale t b) ->
  calc_polarizabilities spl m (batch_of (List.length pos) [x]) = Ok [madd pol (f (rows_scale t b))].
Proof.
  intros Hr HC H0 Hs Hm Hp Ho Hj Lx Hu. destruct (crystal_parts _ _ _ _ HC) as (Ep & El & _).
  destruct (sampled_traces _ _ _ _ _ _ _ HC H0 Hs Hm) as (I1 & I2 & I3 & I4 & I5 & I6).
  rewrite <- Ep, <- I1. rewrite <- Ep, <- I1 in Lx. rewrite <- I1 in Hu.
  rewrite calc_regular; auto; [|repeat constructor; auto]. f_equal. cbn [map]. f_equal.
  destruct I5 as (Wf & (C1 & C2 & C3) & Hb & Hsp). unfold predict. rewrite madd_comm, I2. f_equal.
  rewrite <- (displacement_from_unique _ _ _ Hu).
  rewrite prediction_traced with (f := f); auto. apply only_one with (n := List.length pos) (j := j); auto.
  eapply Forall_impl; [|exact Hb]. intros c [A _]. rewrite A, I1, Ep. auto.
Qed.

(** ** Spectra *)
Lemma modelled_calc spl L pos ops r pol f m xs us : fully_modelled spl L pos ops r pol f m ->
  sample_shape (List.length pos) xs -> Forall2 (displacement_from r) xs us ->
  as_model spl m xs = Ok (map (fun u => madd pol (f u)) us).
Proof.
  intros (Hr & HC & H0 & Hs & Hm & Hp & Hi) Hx Hu. unfold as_model. destruct (crystal_parts _ _ _ _ HC) as (Ep & El & _).
  destruct (sampled_traces _ _ _ _ _ _ _ HC H0 Hs Hm) as (I1 & _). rewrite I1, Ep. eapply f_C88; eauto.
Qed.

Lemma odd_part cs t : msub (mpoly cs t) (mpoly cs (- t)) = mscale (2 * t) (mpoly (odd_coefficients cs) (t ^ 2)).
Proof.
  enough (forall n cs, (List.length cs <= n)%nat -> msub (mpoly cs t) (mpoly cs (- t)) = mscale (2 * t) (mpoly (odd_coefficients cs) (t ^ 2))) by eauto.
  clear cs. induction n as [|n IH]; intros [|c [|d cs]] Hn; cbn [List.length] in Hn; try lia; cbn [mpoly odd_coefficients fold_right].
  - vring.
  - vring.
  - destruct c as [[] [] []]. vring.
  - assert (E := IH cs ltac:(lia)). unfold mpoly in E.
    set (p := fold_right (fun c acc => madd c (mscale t acc)) m0 cs) in *.
    set (q := fold_right (fun c acc => madd c (mscale (- t) acc)) m0 cs) in *.
    set (o := fold_right _ m0 (odd_coefficients cs)) in *. clearbody p q o.
    assert (Hp: p = madd q (mscale (2 * t) o)).
    { rewrite <- E. destruct p as [[] [] []], q as [[] [] []]. vring. }
    rewrite Hp. clear. apply M3_eq; apply V3_eq; cbn [msub madd mscale r0 r1 r2 vsub vadd vscale LinAlg.vx LinAlg.vy LinAlg.vz]; ring.
Qed.

Lemma f_C88_phonons spl L pos ops r pol f m p css : fully_modelled spl L pos ops r pol f m -> phonons_about pos p ->
  Forall2 (fun d cs => forall t, f (rows_scale t (rows_mul d L)) = mpoly cs t) (ph_displacements p) css ->
  phonons_raman_spectrum (as_model spl m) p
  = Ok (mkPS (ph_wavenumbers p) (map (fun cs => mscale 2 (mpoly (odd_coefficients cs) ((1 / 1000) ^ 2))) css)).
Proof.
  intros H (Hp & Hne & Hw & Hd) Hc. pose proof H as (_ & HC & _). destruct (crystal_parts _ _ _ _ HC) as (Ep & El & _).
  apply phonons_spectrum_ok; auto.
  - rewrite Hp. clear Hne Hw. induction Hc as [|d cs ds css Hcs _ IH]; auto. inversion Hd as [|? ? (D1 & D2 & D3) Hd' Q1]; clear Q1.
    cbn [mapM map]. rewrite raman_tensor_eq. unfold predict_one.
    assert (P: forall t, Rabs t <= 1 / 1000 -> as_model spl m [displaced pos d t] = Ok [madd pol (mpoly cs t)]).
    { intros t Ht. rewrite (modelled_calc spl L pos ops r pol f m _ [rows_scale t (rows_mul d L)] H).
      - cbn [map]. rewrite Hcs. auto.
      - repeat constructor. apply displaced_len. auto.
      - repeat constructor. rewrite <- Ep, <- El. apply displaced_from; [congruence|]. apply half_cell_between; auto. }
    rewrite (P (1 / 1000)) by (rewrite Rabs_right; lra). rewrite (P (- (1 / 1000))) by (rewrite Rabs_left; lra). cbn [rbind rewrap].
    rewrite IH by auto. cbn [rbind]. do 2 f_equal.
    transitivity (mscale 1000 (msub (mpoly cs (1 / 1000)) (mpoly cs (- (1 / 1000))))).
    + f_equal. destruct pol as [[] [] []], (mpoly cs (1 / 1000)) as [[] [] []], (mpoly cs (- (1 / 1000))) as [[] [] []]. vring.
    + rewrite odd_part, mscale_twice. f_equal. lra.
  - split; auto. rewrite Hp. eapply Forall_impl; [|exact Hd]. intros d (A & _). auto.
Qed.

Lemma f_C88_trajectory spl L pos ops r pol f m t us : fully_modelled spl L pos ops r pol f m ->
  sample_shape (List.length pos) (tr_ts t) -> Forall2 (displacement_from r) (tr_ts t) us ->
  trajectory_raman_spectrum (as_model spl m) t = Ok (mkMD (map (fun u => madd pol (f u)) us) (tr_timestep t)).
Proof.
  intros H Hx Hu. unfold trajectory_raman_spectrum. rewrite (modelled_calc spl _ _ _ _ _ _ _ _ _ H Hx Hu). simpl.
  unfold new_md_spectrum. cbn [mats_arr ra_shape ra_data].
  rewrite mats_of_entries. destruct (verify_ndarray_shape _ _) eqn:V; [auto|].
  exfalso. assert (verify_ndarray_shape [List.length (map (fun u => madd pol (f u)) us); 3%nat; 3%nat] [None; Some 3%nat; Some 3%nat] = Ok tt).
  { apply verify_ndarray_shape_spec. repeat constructor. } congruence.
Qed.

Lemma f_C88_md spl L pos ops r pol f m t us : fully_modelled spl L pos ops r pol f m ->
  sample_shape (List.length pos) (tr_ts t) -> Forall2 (displacement_from r) (tr_ts t) us ->
  exists s, trajectory_raman_spectrum (as_model spl m) t = Ok s /\
    forall a, measure_md s a = measure_md (mkMD (map f us) (tr_timestep t)) a.
Proof.
  intros H Hx Hu. eexists. split; [eapply f_C88_trajectory; eauto|]. intros a.
  rewrite <- (f_C43_offset pol (map f us) (tr_timestep t) a), map_map. do 2 f_equal. apply map_ext. intros u. apply madd_comm.
Qed.
