(** C73 and C74: what shares memory with the objects of the library and what does not. *)
From Coq Require Import String ZArith Reals Bool Arith Lia List.
From Verif Require Import Base LinAlg M_Validate M_Interp M_Spectrum M_Reference M_Dynamics M_Alias S_Alias
  P_Alias P_Alias2 P_Alias3 P_Alias4.
Import ListNotations.

(** Every state a program can reach is sound, so the hypothesis [sound] below is no
    restriction. *)
Theorem C73_reachable_states_sound k ops : sound (run k (mkState [] [] []) ops).
Proof. exact (g_sound_reachable k ops). Qed.
Print Assumptions C73_reachable_states_sound.

(** Whatever the caller does from some moment on, as long as its in-place writes go to
    arrays it makes or reads from copying properties from then on, every call on every
    object existing at that moment answers as it did at that moment. *)
Theorem C73_copies_protect k s ops i o c :
  sound s -> nth_error (st_objs s) i = Some o ->
  writes_own k (from_now s) ops -> call_on i c ->
  answer k (run k (from_now s) ops) c = answer k s c.
Proof. exact (f_C73_history k s ops i o c). Qed.
Print Assumptions C73_copies_protect.

Example C73_copies_protect_nonvacuous :
  sound ex_world /\ length (st_objs ex_world) = 5
  /\ writes_own ex_kernel (from_now ex_world) ex_copies
  /\ show_val (st_mem (run ex_kernel (from_now ex_world) ex_copies)) (HArr (mkAref 11 [0; 1] [2]))
     = SArr [2] [num 7; num 200]
  /\ answer ex_kernel ex_world (Property 0 Wavenumbers) = Ok [SArr [2] [num 100; num 200]].
Proof.
  exact (conj ex_sound (conj eq_refl (conj ex_copies_own (conj ex_copies_write eq_refl)))).
Qed.

(** The wavenumbers returned by [measure] of a phonon spectrum are the stored array. *)
Theorem C73_measure_leaks k s i w t args n c e sh old :
  sound s -> nth_error (st_objs s) i = Some (OPhononSpectrum w t) -> ordinary (st_mem s) w ->
  perform k s (Measure i args) = Ok e ->
  answer k s (Property i PhononWavenumbers) = Ok [SArr sh old] -> n < length old ->
  answer k (run k s [Measure i args; Write (length (st_held s)) n c]) (Property i PhononWavenumbers)
  = Ok [SArr sh (set_nth n c old)].
Proof. exact (g_C73_measure_leaks k s i w t args n c e sh old). Qed.
Print Assumptions C73_measure_leaks.

Example C73_measure_leaks_nonvacuous :
  ordinary (st_mem ex_world) (mkAref 1 (seq 0 2) [2])
  /\ answer ex_kernel (run ex_kernel ex_world [Measure 3 ex_args; Write 6 0 (num 5)]) (Property 3 PhononWavenumbers)
     = Ok [SArr [2] [num 5; num 200]].
Proof. exact (conj (ex_ordinary 1 2 [2] eq_refl ltac:(lia)) eq_refl). Qed.

(** ... and, for a spectrum computed from phonons, it is the array of the phonons. *)
Theorem C73_phonons_leak_through_spectrum k s i r w d args n c sh old e1 e2 :
  sound s -> nth_error (st_objs s) i = Some (OPhonons r w d) -> ordinary (st_mem s) w ->
  let j := length (st_objs s) in
  perform k s (RamanSpectrum i) = Ok e1 ->
  perform k (step k s (RamanSpectrum i)) (Measure j args) = Ok e2 ->
  answer k s (Property i Wavenumbers) = Ok [SArr sh old] -> n < length old ->
  answer k (run k s [RamanSpectrum i; Measure j args; Write (length (st_held s)) n c]) (Property i Wavenumbers)
  = Ok [SArr sh (set_nth n c old)].
Proof. exact (g_C73_phonons_leak k s i r w d args n c sh old e1 e2). Qed.
Print Assumptions C73_phonons_leak_through_spectrum.

Example C73_phonons_leak_nonvacuous :
  answer ex_kernel (run ex_kernel ex_world [RamanSpectrum 0; Measure 5 ex_args; Write 6 1 (num 5)])
    (Property 0 Wavenumbers) = Ok [SArr [2] [num 100; num 5]].
Proof. reflexivity. Qed.

(** Indexing a trajectory gives a view: element [n] of frame [q] of the stored array. *)
Theorem C73_indexing_leaks k s i t dt q z n c e sh old :
  sound s -> nth_error (st_objs s) i = Some (OTrajectory t dt) -> ordinary (st_mem s) t ->
  perform k s (GetItem i z) = Ok e ->
  answer k s (Property i PositionsTs) = Ok [SArr sh old] ->
  py_index (hd 0 sh) z = Some q ->
  n < prod_list (tl sh) -> q * prod_list (tl sh) + n < length old ->
  answer k (run k s [GetItem i z; Write (length (st_held s)) n c]) (Property i PositionsTs)
  = Ok [SArr sh (set_nth (q * prod_list (tl sh) + n) c old)].
Proof. exact (g_C73_indexing_leaks k s i t dt q z n c e sh old). Qed.
Print Assumptions C73_indexing_leaks.

Example C73_indexing_leaks_nonvacuous :
  answer ex_kernel (run ex_kernel ex_world [GetItem 2 (-1); Write 6 1 (num 5)]) (Property 2 PositionsTs)
  = Ok [SArr [2; 1; 3] [num 0; num 0; num 0; num 0; num 5; num 0]].
Proof. reflexivity. Qed.

(** [MDRamanSpectrum.polarizability_ts], documented as a copy, is the stored array. *)
Theorem C73_polarizability_ts_leaks k s i t dt n c sh old :
  sound s -> nth_error (st_objs s) i = Some (OMDSpectrum t dt) -> ordinary (st_mem s) t ->
  answer k s (Property i PolarizabilityTs) = Ok [SArr sh old] -> n < length old ->
  answer k (run k s [Property i PolarizabilityTs; Write (length (st_held s)) n c]) (Property i PolarizabilityTs)
  = Ok [SArr sh (set_nth n c old)].
Proof. exact (g_C73_polarizability_ts_leaks k s i t dt n c sh old). Qed.
Print Assumptions C73_polarizability_ts_leaks.

(** The transformations returned by [get_equivalent_displacements] are views of the
    stored symmetry operations: element [n] of the rotation returned with the first
    displacement is element [n] of the stored rotation [q] it belongs to. *)
Theorem C73_transformations_leak k s i d0 n c num lat pos rot tra eq pm m' h1 h2 hs os q :
  sound s -> nth_error (st_objs s) i = Some (OStruct num lat pos rot tra eq pm) ->
  ordinary (st_mem s) rot -> a_buf lat <> a_buf rot -> a_buf pos <> a_buf rot ->
  a_buf tra <> a_buf rot -> num <> a_buf rot ->
  perform k s (EquivalentDisplacements i d0) = Ok (m', h1 :: h2 :: hs, os) ->
  (forall l, k_equivalent k (load (st_mem s) pos) (load (st_mem s) rot) (load (st_mem s) tra) pm d0 = Ok l ->
     exists dd l', l = (dd, q) :: l') ->
  tl (a_shape rot) = [3; 3] -> n < 9 -> q * 9 + n < length (load (st_mem s) rot) ->
  show_obj (st_mem (run k s [EquivalentDisplacements i d0; Write (length (st_held s) + 1) n c]))
    (OStruct num lat pos rot tra eq pm)
  = SObj [([], buffer (st_mem s) num); show_arr (st_mem s) lat; show_arr (st_mem s) pos;
          (a_shape rot, set_nth (q * 9 + n) c (load (st_mem s) rot)); show_arr (st_mem s) tra] ([eq], pm, None).
Proof. exact (f_C73_transformations_leak k s i d0 n c num lat pos rot tra eq pm m' h1 h2 hs os q). Qed.
Print Assumptions C73_transformations_leak.

Example C73_transformations_leak_nonvacuous :
  match answer ex_kernel (run ex_kernel ex_world
          [EquivalentDisplacements 1 [num 1; num 0; num 0]; Write 7 4 (num 5)])
        (EquivalentDisplacements 1 [num 1; num 0; num 0]) with
  | Ok [_; SArr [3; 3] r; _] => r = map num [1;0;0;0;5;0;0;0;1]%Z
  | _ => False
  end.
Proof. reflexivity. Qed.

(** ** Constructors *)

(** Whatever happens after construction, phonons show the present contents of the arrays
    they were made from. *)
Theorem C74_phonons_follow k s r w d ar aw ad g1 g2 g3 e ops :
  nth_error (st_held s) r = Some (HArr ar, g1) -> nth_error (st_held s) w = Some (HArr aw, g2) ->
  nth_error (st_held s) d = Some (HArr ad, g3) ->
  perform k s (MakePhonons r w d) = Ok e ->
  let i := length (st_objs s) in
  let s' := run k s (MakePhonons r w d :: ops) in
  answer k s' (Property i RefPositions) = Ok [show_val (st_mem s') (HArr ar)]
  /\ answer k s' (Property i Wavenumbers) = Ok [show_val (st_mem s') (HArr aw)]
  /\ answer k s' (Property i Displacements) = Ok [show_val (st_mem s') (HArr ad)].
Proof. exact (f_C74_phonons k s r w d ar aw ad g1 g2 g3 e ops). Qed.
Print Assumptions C74_phonons_follow.

Theorem C74_phonon_spectrum_follows k s w t aw at_ g1 g2 e ops :
  nth_error (st_held s) w = Some (HArr aw, g1) -> nth_error (st_held s) t = Some (HArr at_, g2) ->
  perform k s (MakePhononSpectrum w t) = Ok e ->
  let i := length (st_objs s) in
  let s' := run k s (MakePhononSpectrum w t :: ops) in
  answer k s' (Property i PhononWavenumbers) = Ok [show_val (st_mem s') (HArr aw)]
  /\ answer k s' (Property i RamanTensors) = Ok [show_val (st_mem s') (HArr at_)].
Proof. exact (f_C74_phonon_spectrum k s w t aw at_ g1 g2 e ops). Qed.
Print Assumptions C74_phonon_spectrum_follows.

Theorem C74_md_spectrum_follows k s t dt at_ g e ops :
  nth_error (st_held s) t = Some (HArr at_, g) ->
  perform k s (MakeMDSpectrum t dt) = Ok e ->
  let i := length (st_objs s) in
  let s' := run k s (MakeMDSpectrum t dt :: ops) in
  answer k s' (Property i PolarizabilityTs) = Ok [show_val (st_mem s') (HArr at_)].
Proof. exact (f_C74_md_spectrum k s t dt at_ g e ops). Qed.
Print Assumptions C74_md_spectrum_follows.

(** A reference structure shows the present atomic numbers, lattice and positions, but
    keeps the symmetry labels and permutation matrices found at construction. *)
Theorem C74_structure_follows k s n l p an al ap g1 g2 g3 e ops :
  nth_error (st_held s) n = Some (HLst an, g1) -> nth_error (st_held s) l = Some (HArr al, g2) ->
  nth_error (st_held s) p = Some (HArr ap, g3) ->
  perform k s (MakeStruct n l p) = Ok e ->
  let i := length (st_objs s) in
  let s' := run k s (MakeStruct n l p :: ops) in
  answer k s' (Property i AtomicNumbers) = Ok [show_val (st_mem s') (HLst an)]
  /\ answer k s' (Property i Lattice) = Ok [show_val (st_mem s') (HArr al)]
  /\ answer k s' (Property i Positions) = Ok [show_val (st_mem s') (HArr ap)]
  /\ exists nops rot tra equiv perms arrays,
       k_spglib k (load (st_mem s) al) (load (st_mem s) ap) (buffer (st_mem s) an) = Some (nops, rot, tra, equiv)
       /\ k_perms k rot tra (load (st_mem s) ap) = Ok perms
       /\ option_map (show_obj (st_mem s')) (nth_error (st_objs s') i)
          = Some (SObj arrays ([equiv], perms, None)).
Proof. exact (f_C74_structure k s n l p an al ap g1 g2 g3 e ops). Qed.
Print Assumptions C74_structure_follows.

(** A write to an array is a change of its present contents (so the four theorems above
    are about changes and not about constants). *)
Theorem C74_write_seen k s j a org n c :
  nth_error (st_held s) j = Some (HArr a, org) -> ordinary (st_mem s) a -> n < length (load (st_mem s) a) ->
  show_val (st_mem (step k s (Write j n c))) (HArr a) = SArr (a_shape a) (set_nth n c (load (st_mem s) a)).
Proof. exact (g_C74_write_seen k s j a org n c). Qed.
Print Assumptions C74_write_seen.

Example C74_follow_nonvacuous :
  (exists e, perform ex_kernel ex_world (MakePhonons 0 1 2) = Ok e)
  /\ (exists e, perform ex_kernel ex_world (MakeStruct 3 4 0) = Ok e)
  /\ answer ex_kernel (run ex_kernel ex_world [MakePhonons 0 1 2; Write 1 0 (num 3)]) (Property 5 Wavenumbers)
     = Ok [SArr [2] [num 3; num 200]]
  /\ answer ex_kernel (run ex_kernel ex_world [MakeStruct 3 4 0; Write 0 1 (num 3); SetList 3 [8%Z]]) (Property 5 Positions)
     = Ok [SArr [1; 3] [num 0; num 3; num 0]].
Proof. repeat split; try (eexists; reflexivity); reflexivity. Qed.

(** A trajectory is immune: whatever is done to the array it was made from, or to
    anything else, its positions stay the wrapped positions at construction, as long as
    the trajectory itself is not indexed or sliced. *)
Theorem C74_trajectory_immune k s t dt a g e ops :
  sound s -> nth_error (st_held s) t = Some (HArr a, g) ->
  perform k s (MakeTrajectory t dt) = Ok e ->
  let i := length (st_objs s) in
  Forall (fun o => ~ indexes i o) ops ->
  exists contents,
    Forall2 wrapped (load (st_mem s) a) contents
    /\ answer k (run k s (MakeTrajectory t dt :: ops)) (Property i PositionsTs)
       = Ok [SArr (a_shape a) contents].
Proof. exact (f_C74_trajectory k s t dt a g e ops). Qed.
Print Assumptions C74_trajectory_immune.

Example C74_trajectory_immune_nonvacuous :
  exists e, perform ex_kernel ex_world (MakeTrajectory 5 1) = Ok e.
Proof.
  assert (H : Rleb 1 0 = false) by (unfold Rleb; destruct (Rle_dec 1 0); auto; exfalso; Lra.lra).
  unfold perform. cbn [arr_at nth_error st_held ex_world rbind]. unfold makes, make_trajectory.
  rewrite H. cbn -[seq]. eexists; reflexivity.
Qed.
