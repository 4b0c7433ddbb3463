(** Proofs of C86, and two atoms exchanged by a mirror plane as a case of C85 and C86. *)
From Coq Require Import String ZArith Reals Lra Lia Psatz Bool Arith List.
From Verif Require Import Base LinAlg M_Validate M_StructUtils M_Symmetry M_Reference M_Interp M_Art M_Spectrum M_Dynamics
  S_Lattice S_Vec S_Symmetry S_Equivalent S_Interp S_Images S_Response S_Spectrum P_StructUtils P_Symmetry P_Equivalent P_Equiv2 P_Equiv3 P_EquivTotal
  P_StructFinal P_Examples1 P_Spectrum P_Dynamics
  P_Interp P_Interp2 P_InterpEval P_Interp3 P_Interp4 P_Interp5 P_Interp6 P_Interp7 P_Examples2 P_Images P_Images2
  P_Response P_Response2.
Import ListNotations.
Local Open Scope R_scope.

(** ** Spectra *)
Lemma half_image_self x : - / 2 < x <= / 2 -> half_image x x.
Proof. intros H. split; [exists 0%Z; simpl; lra|auto]. Qed.

Lemma displaced_from r d t : List.length d = List.length (rs_positions r) -> half_cell (rows_scale t d) ->
  displacement_from r (displaced (rs_positions r) d t) (rows_scale t (rows_mul d (rs_lattice r))).
Proof.
  intros Hl Hh. exists (rows_scale t d). split; [|rewrite rows_mul_scale; auto].
  unfold displaced, half_images, rows_sub, rows_scale in *. revert d Hl Hh.
  induction (rs_positions r) as [|p ps IH]; intros [|v d] Hl Hh; try discriminate; simpl in *; constructor.
  - inversion Hh as [|? ? (A & B & C) _]; subst. unfold vall in *. simpl in *.
    assert (forall a b, a + b - a = b) as K by (intros; ring).
    unfold vall2; simpl. rewrite !K. split; [|split]; apply half_image_self; auto.
  - apply IH; [congruence|]. inversion Hh; auto.
Qed.

Lemma half_cell_between d t : half_cell (rows_scale (1 / 1000) d) -> half_cell (rows_scale (- (1 / 1000)) d) ->
  Rabs t <= 1 / 1000 -> half_cell (rows_scale t d).
Proof.
  unfold half_cell, rows_scale. rewrite !Forall_map, !Forall_forall. intros H1 H2 Ht v Hv.
  specialize (H1 v Hv). specialize (H2 v Hv). destruct v as [x y z]. unfold vall, vscale in *. simpl in *.
  assert (B: - (1/1000) <= t <= 1/1000) by (unfold Rabs in Ht; destruct (Rcase_abs t); lra).
  assert (K: forall a, - / 2 < 1 / 1000 * a <= / 2 -> - / 2 < - (1 / 1000) * a <= / 2 -> - / 2 < t * a <= / 2).
  { intros a A1 A2. assert (-500 < a < 500) by lra. destruct (Rle_dec 0 a); split; nra. }
  destruct H1 as (? & ? & ?), H2 as (? & ? & ?). auto.
Qed.

Lemma rows_mul_len d m : List.length (rows_mul d m) = List.length d.
Proof. unfold rows_mul. apply map_length. Qed.


Lemma sampled_ref L pos ops r pol l m : fully_sampled L pos ops r pol l m -> rs_positions (im_ref m) = pos.
Proof.
  intros (HC & Hl & Hs & Hm & _). destruct (crystal_parts _ _ _ _ HC) as (Ep & _).
  destruct (sampled_follows _ _ _ _ _ _ _ HC Hl Hs Hm) as (I1 & _). rewrite I1. auto.
Qed.

Lemma full_calc spl L pos ops r pol l m xs us : fully_sampled L pos ops r pol l m ->
  sample_shape (List.length pos) xs -> Forall2 (displacement_from r) xs us ->
  as_model spl m xs = Ok (map (fun u => madd pol (l u)) us).
Proof.
  intros H Hx Hu. unfold as_model. rewrite (sampled_ref _ _ _ _ _ _ _ H).
  destruct H as (HC & Hl & Hs & Hm & Ho & Hn). eapply f_C85; eauto.
Qed.

Lemma displaced_len ref d t : List.length d = List.length ref -> List.length (displaced ref d t) = List.length ref.
Proof. unfold displaced. revert d. induction ref as [|x ref IH]; intros [|v d] H; simpl in *; auto; discriminate. Qed.

Lemma linear_scale n l c u : linear_response n l -> List.length u = n -> l (rows_scale c u) = mscale c (l u).
Proof. intros (_ & H). auto. Qed.

Lemma f_C86_phonons spl L pos ops r pol l m p : fully_sampled L pos ops r pol l m -> phonons_about pos p ->
  phonons_raman_spectrum (as_model spl m) p
  = Ok (mkPS (ph_wavenumbers p) (map (fun d => mscale 2 (l (rows_mul d L))) (ph_displacements p))).
Proof.
  intros H (Hp & Hne & Hw & Hd). pose proof H as (HC & Hl & _). destruct (crystal_parts _ _ _ _ HC) as (Ep & El & _).
  rewrite <- (map_map (fun d => l (rows_mul d L)) (mscale 2)). apply f_C40_derivative.
  - split; auto. rewrite Hp. eapply Forall_impl; [|exact Hd]. intros d (A & _). auto.
  - auto.
  - rewrite Hp. clear Hne Hw. induction Hd as [|d ds (D1 & D2 & D3) _ IH]; constructor; auto.
    exists pol, (fun _ => m0). split; [auto|]. intros t Ht.
    rewrite (full_calc spl L pos ops r pol l m _ [rows_scale t (rows_mul d L)] H).
    + cbn [map]. rewrite (linear_scale (List.length pos)) by (auto; rewrite rows_mul_len; auto).
      do 2 f_equal. symmetry. rewrite madd_comm. vring.
    + repeat constructor. apply displaced_len. auto.
    + repeat constructor. rewrite <- Ep, <- El. apply displaced_from; [congruence|]. apply half_cell_between; auto.
Qed.

Lemma textbook_twice t : textbook_intensity (mscale 2 t) = 4 * textbook_intensity t.
Proof. unfold textbook_intensity, mean_polarizability, anisotropy_squared, mtrace, entry. destruct t as [[] [] []]. cbn. field. Qed.

Lemma f_C86_intensities spl L pos ops r pol l m p a s : fully_sampled L pos ops r pol l m -> phonons_about pos p -> raw a ->
  phonons_raman_spectrum (as_model spl m) p = Ok s ->
  measure_phonon s a
  = Ok (ph_wavenumbers p, map (fun d => Some (4 * textbook_intensity (l (rows_mul d L)))) (ph_displacements p)).
Proof.
  intros H Hp Ha E. rewrite (f_C86_phonons spl L pos ops r pol l m p H Hp) in E. injection E as <-.
  destruct (measure_phonon _ a) as [[w i]|e] eqn:M.
  - destruct (f_C37_raw _ _ _ _ Ha M) as (-> & F). cbn [ps_wavenumbers ps_tensors] in *. do 2 f_equal.
    clear M Hp. revert i F. induction (ph_displacements p) as [|d ds IH]; intros i F; inversion F; subst; cbn [map]; auto.
    destruct H2 as (v & -> & _ & -> & _). rewrite textbook_twice. f_equal. auto.
  - exfalso. revert M. unfold measure_phonon. destruct Ha as (-> & A1 & A2). cbn [String.eqb]. 
    unfold apply_corrections. rewrite A1, A2. discriminate.
Qed.

Lemma samples_disp r xs : exists us, Forall2 (displacement_from r) xs us.
Proof. exists (map (cart_disp r) xs). induction xs; constructor; auto. apply cart_disp_spec. Qed.

Lemma same_predictions spl spl' L pos ops r pol l m m' xs : fully_sampled L pos ops r pol l m -> fully_sampled L pos ops r pol l m' ->
  sample_shape (List.length pos) xs -> as_model spl m xs = as_model spl' m' xs.
Proof.
  intros H H' Hx. destruct (samples_disp r xs) as (us & Hu).
  rewrite (full_calc spl _ _ _ _ _ _ _ _ _ H Hx Hu), (full_calc spl' _ _ _ _ _ _ _ _ _ H' Hx Hu). auto.
Qed.

Lemma mapM_ext_in {A B} (f g : A -> res B) l : (forall a, In a l -> f a = g a) -> mapM f l = mapM g l.
Proof. induction l as [|a l IH]; intros H; simpl; auto. rewrite H, IH; auto; [intros; apply H; simpl; auto|simpl; auto]. Qed.

Lemma f_C86_choice spl spl' L pos ops r pol l m m' : fully_sampled L pos ops r pol l m -> fully_sampled L pos ops r pol l m' ->
  (forall xs, sample_shape (List.length pos) xs -> as_model spl m xs = as_model spl' m' xs) /\
  (forall p, phonons_shape p -> List.length (ph_ref p) = List.length pos ->
     phonons_raman_spectrum (as_model spl m) p = phonons_raman_spectrum (as_model spl' m') p) /\
  (forall t, sample_shape (List.length pos) (tr_ts t) ->
     trajectory_raman_spectrum (as_model spl m) t = trajectory_raman_spectrum (as_model spl' m') t).
Proof.
  intros H H'. split; [|split].
  - intros xs. eapply same_predictions; eauto.
  - intros p (_ & Hp) Hr. unfold phonons_raman_spectrum. rewrite (mapM_ext_in _ (raman_tensor (as_model spl' m') (ph_ref p))); auto.
    intros d Hd. rewrite Forall_forall in Hp. specialize (Hp d Hd). unfold raman_tensor, predict_one.
    assert (Z: forall (f : V3 -> V3 -> V3) (g : V3 -> V3), List.length (map2 f (ph_ref p) (map g d)) = List.length (ph_ref p)).
    { intros f g. revert Hp. clear. generalize (ph_ref p) as q. intros q. revert d. induction q as [|x q IH]; intros [|v d] H; simpl in *; auto; discriminate. }
    rewrite !(same_predictions spl spl' L pos ops r pol l m m' _ H H'); auto; repeat constructor; rewrite Z; auto.
  - intros t Ht. unfold trajectory_raman_spectrum. rewrite (same_predictions spl spl' _ _ _ _ _ _ _ _ _ H H' Ht). auto.
Qed.

(** Molecular dynamics: the spectrum is that of the series pol + l(u(t)), and the constant
    part does not matter. *)
Lemma f_C86_trajectory spl L pos ops r pol l m t us : fully_sampled L pos ops r pol l m ->
  sample_shape (List.length pos) (tr_ts t) -> Forall2 (displacement_from r) (tr_ts t) us ->
  trajectory_raman_spectrum (as_model spl m) t = Ok (mkMD (map (fun u => madd pol (l u)) us) (tr_timestep t)).
Proof.
  intros H Hx Hu. unfold trajectory_raman_spectrum. rewrite (full_calc spl _ _ _ _ _ _ _ _ _ H Hx Hu). simpl.
  unfold new_md_spectrum. cbn [mats_arr ra_shape ra_data].
  rewrite mats_of_entries. destruct (verify_ndarray_shape _ _) eqn:V; [auto|].
  exfalso. assert (verify_ndarray_shape [List.length (map (fun u => madd pol (l u)) us); 3%nat; 3%nat] [None; Some 3%nat; Some 3%nat] = Ok tt).
  { apply verify_ndarray_shape_spec. repeat constructor. } congruence.
Qed.

Lemma f_C86_md_intensities spl L pos ops r pol l m t us s a : fully_sampled L pos ops r pol l m ->
  sample_shape (List.length pos) (tr_ts t) -> Forall2 (displacement_from r) (tr_ts t) us ->
  trajectory_raman_spectrum (as_model spl m) t = Ok s -> measure_md s a = measure_md (mkMD (map l us) (tr_timestep t)) a.
Proof.
  intros H Hx Hu E. rewrite (f_C86_trajectory spl _ _ _ _ _ _ _ _ _ H Hx Hu) in E. injection E as <-.
  rewrite <- (f_C43_offset pol (map l us) (tr_timestep t) a), map_map. do 2 f_equal. apply map_ext. intros u. apply madd_comm.
Qed.

Lemma f_C86_succeeds spl L pos ops r pol l m t : fully_sampled L pos ops r pol l m ->
  sample_shape (List.length pos) (tr_ts t) -> exists s, trajectory_raman_spectrum (as_model spl m) t = Ok s.
Proof.
  intros H Hx. destruct (samples_disp r (tr_ts t)) as (us & Hu). eexists. eapply f_C86_trajectory; eauto.
Qed.
