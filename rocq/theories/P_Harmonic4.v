(** Molecular dynamics and phonons agree for vibrations of a linear response. *)
From Coq Require Import String ZArith Reals Lra Lia Psatz Bool Arith List.
From Verif Require Import Base LinAlg M_Validate M_StructUtils M_Symmetry M_Reference M_Interp M_Art M_Spectrum M_Dynamics S_Lattice S_Vec S_Symmetry
  S_Equivalent S_Interp S_Images S_Response S_Spectrum S_Harmonic
  P_Response P_Response2 P_Response3 P_Spectrum P_Dynamics P_Dynamics2 P_Harmonic P_Harmonic2 P_Harmonic3 P_Images2 P_Examples12.
Import ListNotations.
Local Open Scope R_scope.

Lemma textbook_scale c m : textbook_intensity (mscale c m) = c ^ 2 * textbook_intensity m.
Proof.
  destruct m as [[a b d] [e f g] [h i j]]. unfold textbook_intensity, mean_polarizability, anisotropy_squared, mtrace, entry. simpl. field.
Qed.

Definition vib_of (l : list V3 -> M3) (L : M3) (e : excitation) : vibration :=
  mkVib (e_cycles e) (e_phase e) (mscale (e_amp e) (l (rows_mul (e_disp e) L))).

Lemma excited_length N n L es j : Forall (fun e => List.length (e_disp e) = N) es -> List.length (excited N n L es j) = N.
Proof.
  induction 1 as [|e es He Hes IH]; cbn [excited fold_right]; [apply repeat_length|].
  change (List.length (map2 vadd (rows_scale (e_amp e * wave n (e_cycles e) (e_phase e) j) (rows_mul (e_disp e) L)) (excited N n L es j)) = N).
  rewrite map2_length, IH. unfold rows_scale, rows_mul. rewrite !map_length, He. lia.
Qed.

Lemma excited_response N n L l es j : linear_response N l -> Forall (fun e => List.length (e_disp e) = N) es ->
  l (excited N n L es j) = superposed n m0 (map (vib_of l L) es) j.
Proof.
  intros (P & M) F. unfold superposed. rewrite map_map. cbn [v_cycles v_phase v_swing vib_of].
  assert (Z : forall x, madd m0 x = x) by (intros; apply M3_eq; apply V3_eq; cbn [m0 v0 madd r0 r1 r2 vadd LinAlg.vx LinAlg.vy LinAlg.vz]; ring).
  rewrite Z. induction F as [|e es He Hes IH].
  - cbn. replace (repeat v0 N) with (rows_scale 0 (repeat v0 N)).
    + rewrite M by apply repeat_length. apply M3_eq; apply V3_eq; cbn [m0 v0 mscale r0 r1 r2 vscale LinAlg.vx LinAlg.vy LinAlg.vz]; ring.
    + unfold rows_scale. clear. induction N; cbn [repeat map]; auto. f_equal; auto. apply V3_eq; cbn [v0 vscale LinAlg.vx LinAlg.vy LinAlg.vz]; ring.
  - cbn [excited fold_right map msum]. rewrite P.
    + f_equal; [|exact IH]. rewrite M by (unfold rows_mul; rewrite map_length; auto).
      apply M3_eq; apply V3_eq; cbn [mscale r0 r1 r2 vscale LinAlg.vx LinAlg.vy LinAlg.vz]; ring.
    + unfold rows_scale, rows_mul. rewrite !map_length. auto.
    + apply (excited_length N n L es j Hes).
Qed.

Lemma f_C89_agree spl L pos ops r pol l m p es n t a sp :
  fully_sampled L pos ops r pol l m -> phonons_about pos p -> ph_displacements p = map e_disp es ->
  resolved n (map e_cycles es) -> (2 <= n)%nat -> raw a ->
  0 < tr_timestep t -> sample_shape (List.length pos) (tr_ts t) ->
  Forall2 (displacement_from r) (tr_ts t) (map (excited (List.length pos) n L es) (seq 0 (S n))) ->
  phonons_raman_spectrum (as_model spl m) p = Ok sp ->
  exists xs smd w i, measure_phonon sp a = Ok (ph_wavenumbers p, map Some xs) /\ List.length xs = List.length es /\
    trajectory_raman_spectrum (as_model spl m) t = Ok smd /\ measure_md smd a = Ok (w, i) /\
    forall k, (0 < k)%nat -> (2 * k < n)%nat ->
      nth_error w (k - 1) = Some (INR k * (3335640951981521 / 10 ^ 11) / (INR n * tr_timestep t)) /\
      nth_error i (k - 1) = Some (Some (rsum (map2 (fun e x =>
        x * e_amp e ^ 2 * sin (PI * INR (e_cycles e) / INR n) ^ 2 * (INR n / 4 + if Nat.eqb (e_cycles e) k then INR n ^ 2 / 8 else 0)) es xs))).
Proof.
  intros FS PA PD RS N Ra D SS F2 SP.
  pose proof (f_C86_intensities spl L pos ops r pol l m p a sp FS PA Ra SP) as PI'.
  destruct (f_C86_succeeds spl L pos ops r pol l m t FS SS) as (smd & ES).
  pose proof (f_C86_md_intensities spl L pos ops r pol l m t _ smd a FS SS F2 ES) as MD.
  assert (LL : Forall (fun e => List.length (e_disp e) = List.length pos) es).
  { destruct PA as (_ & _ & _ & F). rewrite PD, Forall_map in F. eapply Forall_impl; [|exact F]. intros e (He & _). exact He. }
  assert (LR : linear_response (List.length pos) l) by apply FS.
  rewrite map_map in MD. rewrite (map_ext _ (superposed n m0 (map (vib_of l L) es))) in MD.
  2: { intros j. apply excited_response; auto. }
  destruct (f_C89 n m0 (map (vib_of l L) es) (tr_timestep t) a D Ra) as (w & i & E & Li & H); auto.
  { rewrite map_map. exact RS. }
  rewrite E in MD.
  exists (map (fun d => 4 * textbook_intensity (l (rows_mul d L))) (ph_displacements p)), smd, w, i.
  split; [rewrite PI', map_map; reflexivity|]. split; [rewrite map_length, PD, map_length; auto|]. split; [auto|]. split; [auto|].
  intros k K1 K2. destruct (H k K1 K2) as [W I]. split; [exact W|]. rewrite I. do 2 f_equal. rewrite PD.
  clear. unfold rsum. induction es as [|e es IH]; cbn [map map2 fold_right]; auto. rewrite IH. f_equal.
  cbn [vib_of v_swing v_cycles]. rewrite textbook_scale. destruct (_ =? _)%nat; field.
Qed.

(** An example *)
Definition ex_excs : list excitation := [mkExc [mkV 1 2 3; v0] 1 0 (1 / 100); mkExc [mkV 0 0 1; mkV 0 1 0] 2 1 (1 / 50)].
Definition ex_frame (j : nat) : list V3 := rows_add sw_pos (excited 2 5 mI ex_excs j).
Definition ex_traj : trajectory := mkTr (map ex_frame (seq 0 6)) 1.

Lemma ex_frame_disp r j : rs_positions r = sw_pos -> rs_lattice r = mI ->
  displacement_from r (ex_frame j) (excited 2 5 mI ex_excs j).
Proof.
  intros Ep El. exists (excited 2 5 mI ex_excs j). rewrite Ep, El. split.
  - assert (W : forall c p, -1 <= wave 5 c p j <= 1) by (intros; apply COS_bound).
    unfold ex_frame, ex_excs, excited, sw_pos. cbn [fold_right e_disp e_cycles e_phase e_amp repeat].
    pose proof (W 1%nat 0) as W1. pose proof (W 2%nat 1) as W2. revert W1 W2. generalize (wave 5 1 0 j), (wave 5 2 1 j). intros x y X Y.
    unfold half_images, rows_sub, rows_add, rows_scale, rows_mul, mI, v0. cbn.
    repeat constructor; cbn; try lra; exists 0%Z; simpl; ring.
  - unfold rows_mul. rewrite <- (map_id (excited 2 5 mI ex_excs j)) at 1. apply map_ext. intros v. symmetry.
    apply V3_eq; unfold mI; cbn; ring.
Qed.

Lemma ex_C89 : exists r m, fully_sampled mI sw_pos sw_ops r mI ex_resp m /\ phonons_about sw_pos ex_phs /\
  ph_displacements ex_phs = map e_disp ex_excs /\ resolved 5 (map e_cycles ex_excs) /\
  0 < tr_timestep ex_traj /\ sample_shape (List.length sw_pos) (tr_ts ex_traj) /\
  Forall2 (displacement_from r) (tr_ts ex_traj) (map (excited (List.length sw_pos) 5 mI ex_excs) (seq 0 6)).
Proof.
  destruct ex_C85 as (r & m & _ & FS & _ & _ & _ & PA). exists r, m. split; [auto|]. split; [auto|]. split; [reflexivity|].
  assert (HC := proj1 FS). destruct (crystal_parts _ _ _ _ HC) as (Ep & El & _).
  split. { split; [repeat constructor; simpl; intuition discriminate|]. repeat constructor; cbn; lia. }
  split; [cbn; lra|]. split.
  - unfold sample_shape, ex_traj. cbn [tr_ts]. rewrite Forall_map. apply Forall_forall. intros j _. reflexivity.
  - unfold ex_traj. cbn [tr_ts]. change (List.length sw_pos) with 2%nat. induction (seq 0 6) as [|j l IH]; cbn [map]; constructor; auto.
    apply ex_frame_disp; auto.
Qed.
