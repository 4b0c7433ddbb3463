(** Two atoms exchanged by a mirror plane, in two orientations and with two sets of
    polarizabilities: cases of C95 and C96. *)
From Coq Require Import String ZArith Reals Lra Lia Psatz Bool Arith List.
From Verif Require Import Base LinAlg M_Validate M_StructUtils M_Symmetry M_Reference M_Interp M_Art M_Shared
  S_Lattice S_Vec S_Symmetry S_Equivalent S_Interp S_Images S_Order S_Atoms S_Turned P_StructUtils P_Interp P_Interp2 P_Interp3 P_InterpEval P_Images P_Images2 P_Examples2 P_Interp6
  P_Turned P_Turned2 P_Turned3.
Import ListNotations.
Local Open Scope R_scope.

Definition sw_lattice_ok : mdet mI <> 0 /\ r2 mI = mkV 0 0 1.
Proof. split; [rewrite mdet_mI; lra|reflexivity]. Qed.
Definition sw_call (q : M3) : adding := Dof sw_d1 (vec_arr sw_amps) (mats_arr [q; q]) 1 true.

(** The spline that is known only at its own points *)
Definition lookup_spl (k : nat) (pts : list (R * M3)) (x : R) : M3 :=
  match find (fun p => Reqb (fst p) x) pts with Some p => snd p | None => m0 end.
Lemma lookup_interpolating : interpolating lookup_spl.
Proof.
  intros k pts x y _ _ Hi Hin. unfold lookup_spl. induction pts as [|p pts IH]; [destruct Hin|].
  apply increasing_cons in Hi as [H1 H2]. simpl. destruct (Reqb (fst p) x) eqn:E.
  - apply Reqb_true in E. destruct Hin as [->|Hin]; auto. specialize (H1 _ Hin). simpl in H1. lra.
  - destruct Hin as [->|Hin]; [simpl in E; apply Reqb_false in E; tauto|]. auto.
Qed.
Lemma lookup_maps f : f m0 = m0 -> spline_maps f lookup_spl.
Proof.
  intros H k pts x. unfold lookup_spl. induction pts as [|p pts IH]; [cbn; congruence|]. cbn [map find fst].
  destruct (Reqb (fst p) x); [reflexivity|exact IH].
Qed.

(** The model with one call: both atoms are covered; the prediction for the image. *)
Lemma sw_run r q : make_reference [8%Z; 8%Z] mI sw_pos (Some (sw_ops, [0%nat; 0%nat])) = Ok r ->
  exists w s', run_all false [sw_call q] (make_model r mI false) = ([(w, Ok tt)], s') /\ List.length (im_basis s') = 2%nat /\
    calc_polarizabilities lookup_spl s' (batch_of 2 [sw_p]) = Ok [madd mI (mmul (mmul sw (msub q mI)) sw)].
Proof.
  intros E. destruct sw_lattice_ok as (HL & H2). destruct (sw_reference mI) as (r' & E' & Hi & Hv & Hlat & Hpos). rewrite E in E'. injection E' as <-.
  destruct (sw_add mI r mI q q E HL H2) as (F & w & A). exists w. eexists. split; [|split].
  - cbn [run_all run_adding sw_call run_op]. rewrite A. reflexivity.
  - reflexivity.
  - match goal with |- calc_polarizabilities _ ?s' _ = _ => assert (Hs: image_sample (make_model r mI false) s' sw q sw_p) end.
    { exists sw_d1, sw_d1, (vec_arr sw_amps), (mats_arr [q; q]).
      exists [mkGroup [Fin sw_d1] [(mI, v0)]; mkGroup [Fin sw_d2] [(sw, v0)]], 1%nat, (mkGroup [Fin sw_d2] [(sw, v0)]), sw_d2, [], 0%nat, sw_d2, v0, 1%nat, (/ 10), e3rows2.
      split; [|split; [reflexivity|]].
      { split; [|split; [reflexivity|split; [reflexivity|split; [reflexivity|split; [|split; [discriminate|split; [|split]]]]]]].
        - exists r, mI, false, []. split; [auto|]. repeat constructor.
        - cbn [im_ref make_model]. rewrite Hpos. reflexivity.
        - exists 1%Z, w. exact A.
        - exact F.
        - apply sw_groups with (1 := E). }
      split; [reflexivity|split; [reflexivity|split; [reflexivity|split; [auto|split; [reflexivity|]]]]].
      split.
      { intros [|[|j']] c Hj Hc; cbn in Hc; [|cbn in Hj; lia|destruct j'; discriminate].
        injection Hc as <-. rewrite inner_rows. unfold e3rows1, e3rows2, rows_dot. vunf. ring. }
      split; [reflexivity|split; [|split]].
      - cbn [mats_arr ra_data]. rewrite mats_of_entries. reflexivity.
      - cbn [im_ref make_model]. rewrite Hpos. reflexivity.
      - cbn [im_ref make_model]. exists sw_d2. split.
        + rewrite Hpos. unfold sw_p, sw_pos, sw_d2, rows_sub. cbn [map2]. repeat constructor; cbn; try lra; exists 0%Z; cbn; lra.
        + rewrite Hlat, rows_mul_mI. unfold direction_of. rewrite magnitude_rows.
          assert (N20: rows_norm sw_d2 = / 10) by (apply norm_tenth; unfold sw_d2, rows_norm2, rows_dot; vunf; lra).
          rewrite N20, rows_scale_scale. replace (/ 10 * / / 10) with 1 by field. rewrite rows_scale_1. auto. }
    destruct (f_C83_data lookup_spl _ _ _ _ _ lookup_interpolating Hs) as (Ri & Hinv & C).
    cbn [im_ref im_refpol make_model] in C. rewrite Hpos in C. cbn [List.length sw_pos] in C. rewrite C.
    assert (Ri = sw) as -> by (apply (inverse_unique sw Ri sw Hinv); split; apply sw_self). reflexivity.
Qed.

(** ** Two orientations *)
(** A quarter turn about x; a half turn about the diagonal of x and y *)
Definition quarter : M3 := mkM (mkV 1 0 0) (mkV 0 0 1) (mkV 0 (-1) 0).
Definition half : M3 := mkM (mkV 0 1 0) (mkV 1 0 0) (mkV 0 0 (-1)).
Lemma quarter_iso : isometry quarter.
Proof. split; unfold quarter; vring. Qed.
Lemma half_iso : isometry half.
Proof. split; unfold half; vring. Qed.
Definition dg (a b c : R) : M3 := mkM (mkV a 0 0) (mkV 0 b 0) (mkV 0 0 c).
Lemma carried_quarter a b c : carried quarter (dg a b c) = dg a c b.
Proof. unfold carried, quarter, dg. apply M3_eq; apply V3_eq; cbn; ring. Qed.
Lemma carried_half a b c : carried half (dg a b c) = dg b a c.
Proof. unfold carried, half, dg. apply M3_eq; apply V3_eq; cbn; ring. Qed.
Lemma carried_iso_mI Q : isometry Q -> carried Q mI = mI.
Proof. intros (_ & H). unfold carried. rewrite mmul_mI_r. exact H. Qed.
Lemma sw_image_dg a b c : madd mI (mmul (mmul sw (msub (dg a b c) mI)) sw) = dg b a c.
Proof. unfold sw, dg. apply M3_eq; apply V3_eq; cbn; ring. Qed.

Lemma turned_sw_call Q q : turned_call Q (sw_call q) (Dof (rows_mul sw_d1 Q) (vec_arr sw_amps) (mats_arr [carried Q q; carried Q q]) 1 true).
Proof. repeat split. left. exists [q; q]. auto. Qed.

Lemma ex_C95 : exists Q numbers L pos ops equiv r r' refpol calls calls' w s' spl p a,
  isometry Q /\ mdet Q = 1 /\ Q <> mI /\ make_reference numbers L pos (Some (ops, equiv)) = Ok r /\ make_reference numbers (mmul L Q) pos (Some (ops, equiv)) = Ok r' /\
  (1 < List.length ops)%nat /\ Forall (fun op => mmul (fst op) Q = mmul Q (fst op)) ops /\ Forall2 (turned_call Q) calls calls' /\ spline_maps (carried Q) spl /\
  run_all false calls (make_model r refpol false) = ([(w, Ok tt)], s') /\ List.length (im_basis s') = 2%nat /\
  calc_polarizabilities spl s' (batch_of 2 [p]) = Ok [a] /\ carried Q a <> a.
Proof.
  destruct (sw_reference mI) as (r & E & _). destruct (sw_run r (dg 2 1 1) E) as (w & s' & E1 & E2 & E3). rewrite sw_image_dg in E3.
  exists half, [8%Z; 8%Z], mI, sw_pos, sw_ops, [0%nat; 0%nat], r, (tref half r), mI, [sw_call (dg 2 1 1)].
  eexists. exists w, s', lookup_spl, sw_p, (dg 1 2 1).
  split; [exact half_iso|]. split; [unfold half; vunf; ring|].
  split; [intros C; apply (f_equal (fun m => vx (r0 m))) in C; cbn in C; lra|]. split; [exact E|].
  split; [rewrite (make_turn half), E; reflexivity|]. split; [cbn; lia|].
  split; [repeat constructor; cbn [fst]; unfold half, sw; vring|].
  split; [constructor; [apply turned_sw_call|constructor]|].
  split; [apply lookup_maps, carried_m0|]. split; [exact E1|]. split; [exact E2|]. split; [exact E3|].
  rewrite carried_half. intros C. apply (f_equal (fun m => vx (r0 m))) in C. cbn in C. lra.
Qed.

(** The same turn with an operation it does not commute with *)
Lemma f_C95_refuted : ~ (forall Q numbers L pos ops equiv r r' refpol art calls calls' spl b,
  isometry Q -> make_reference numbers L pos (Some (ops, equiv)) = Ok r -> make_reference numbers (mmul L Q) pos (Some (ops, equiv)) = Ok r' ->
  Forall2 (turned_call Q) calls calls' -> spline_maps (carried Q) spl ->
  calc_polarizabilities spl (snd (run_all art calls' (make_model r' (carried Q refpol) false))) b
    = rmap (map (carried Q)) (calc_polarizabilities spl (snd (run_all art calls (make_model r refpol false))) b)).
Proof.
  intros H. destruct (sw_reference mI) as (r & E & _). destruct (sw_run r (dg 2 1 1) E) as (w & s' & E1 & _ & E3). rewrite sw_image_dg in E3.
  assert (E' : make_reference [8%Z; 8%Z] (mmul mI quarter) sw_pos (Some (sw_ops, [0%nat; 0%nat])) = Ok (tref quarter r)) by (rewrite (make_turn quarter), E; reflexivity).
  specialize (H quarter [8%Z; 8%Z] mI sw_pos sw_ops [0%nat; 0%nat] r (tref quarter r) mI false [sw_call (dg 2 1 1)] _ lookup_spl (batch_of 2 [sw_p])
    quarter_iso E E' (Forall2_cons _ _ (turned_sw_call quarter (dg 2 1 1)) (Forall2_nil _)) (lookup_maps _ (carried_m0 quarter))).
  rewrite E1 in H. cbn [snd] in H. rewrite E3 in H. cbn [rmap rbind map] in H.
  rewrite !carried_quarter, (carried_iso_mI quarter quarter_iso) in H.
  pose proof (model_turn quarter (fun x => x) r mI false eq_refl) as EM. cbv beta in EM. rewrite EM in H.
  pose proof (runs_turn quarter (fun x => x) quarter_iso eq_refl (fun a b => eq_refl) (fun k a => eq_refl) false [sw_call (dg 2 1 1)]
    [Dof (rows_mul sw_d1 quarter) (vec_arr sw_amps) (mats_arr [dg 2 1 1; dg 2 1 1]) 1 true]) as K.
  rewrite K in H; clear K.
  - rewrite E1 in H. cbn [snd] in H.
    rewrite (predict_turn quarter (fun x => x) quarter_iso eq_refl (fun a b => eq_refl) (fun k a => eq_refl) lookup_spl) in H by (apply lookup_maps; reflexivity).
    rewrite E3 in H. cbn [rmap rbind map] in H.
    assert (C : vy (r1 (dg 1 2 1)) = vy (r1 (dg 1 1 2))) by exact (f_equal (fun x => match x with Ok (a :: _) => vy (r1 a) | _ => 0 end) H). cbn in C. lra.
  - constructor; [|constructor]. repeat split. left. exists [dg 2 1 1; dg 2 1 1]. auto.
  - apply Forall_forall. intros op _ i x _. reflexivity.
Qed.

(** ** Two sets of polarizabilities *)
Lemma ex_C96 : exists r refpol refpol' calls calls' calls'' w s' spl p a,
  Forall2 other_call calls calls' /\ calls' <> calls /\ refpol' <> refpol /\
  Forall2 (rescaled_call 2) calls calls'' /\ spline_maps (mscale 2) spl /\
  run_all false calls (make_model r refpol false) = ([(w, Ok tt)], s') /\ List.length (im_basis s') = 2%nat /\
  calc_polarizabilities spl s' (batch_of 2 [p]) = Ok [a] /\ a <> refpol.
Proof.
  destruct (sw_reference mI) as (r & E & _). destruct (sw_run r (dg 2 1 1) E) as (w & s' & E1 & E2 & E3). rewrite sw_image_dg in E3.
  exists r, mI, m0, [sw_call (dg 2 1 1)], [sw_call m0], [sw_call (mscale 2 (dg 2 1 1))], w, s', lookup_spl, sw_p, (dg 1 2 1).
  split; [constructor; [|constructor]; repeat split; left; exists [dg 2 1 1; dg 2 1 1], [m0; m0]; auto|].
  split; [intros C; assert (C' : 0 = 2) by exact (f_equal (fun x => match x with Dof _ _ p _ _ :: _ => hd 0 (ra_data p) | _ => 0 end) C); lra|].
  split; [intros C; apply (f_equal (fun m => vx (r0 m))) in C; cbn in C; lra|].
  split; [constructor; [|constructor]; cbn [rescaled_call mapped_call sw_call]; split; [symmetry; apply rows_mul_mI|]; repeat split; left; exists [dg 2 1 1; dg 2 1 1]; auto|].
  split; [apply lookup_maps, mscale_m0|]. split; [exact E1|]. split; [exact E2|]. split; [exact E3|].
  intros C. apply (f_equal (fun m => vy (r1 m))) in C. cbn in C. lra.
Qed.
