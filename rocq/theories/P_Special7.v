(** C99: final forms and examples. *)
From Coq Require Import String ZArith Reals Lra Lia Bool Arith List.
From Verif Require Import Base LinAlg S_Lattice M_Validate M_Text M_Poscar M_Outcar M_Vasprun M_Dataset M_StructUtils M_Symmetry M_Reference
  M_Interp M_Art M_Special S_Interp S_Special P_StructUtils P_Symmetry P_Equivalent P_EquivTotal P_Examples1 P_Interp P_Interp2 P_InterpEval P_Interp4 P_Interp5 P_Interp6 P_Art P_Art2 P_Examples2 P_Examples3 P_Images
  P_Atoms2 P_Special P_Special2 P_Special3 P_Special4 P_Special5 P_Special6.
Import ListNotations.
Local Open Scope R_scope.

Lemma reachable_ref m : reachable m -> valid_reference (im_ref m).
Proof.
  intros [(r & pol & d & ops & V & W & ->)|(r & pol & d & ops & V & W & ->)].
  - assert (B : built_by false r pol d (run (make_model r pol d) ops)) by (exists ops; auto). apply built_frame in B as (-> & _). exact V.
  - assert (B : built_by true r pol d (arun (make_model r pol d) ops)) by (exists ops; auto). apply built_frame in B as (-> & _). exact V.
Qed.
Lemma f_C99_finite_calls art m o : reachable m -> mdet (rs_lattice (im_ref m)) <> 0 ->
  match exact_op art o m with
  | ((m', w), Ok _) => run_nop art (of_model m) (fin_op o) = (w, Ok (of_model m'))
  | (_, Err _) => exists w e, run_nop art (of_model m) (fin_op o) = (w, Err e)
  end.
Proof.
  intros H D. apply reachable_ref in H. pose proof (op_agree m (valid_reference_wf _ H) (valid_ops _ H) D art o) as A. unfold agrees in A.
  destruct (exact_op art o m) as [[m' w] [u|e]]; exact A.
Qed.
Lemma f_C99_refused art s o : valid_reference (nm_ref s) -> nop_wf o ->
  tainted (nm_dummy s) o \/ (adding o /\ tensor_not_finite (nm_refpol s)) ->
  (exists w e, run_nop art s o = (w, Err e)) /\ nstep art s o = s.
Proof.
  intros V W H. pose proof (tainted_fails s (valid_reference_wf _ V) (valid_ops _ V) art o W H) as F. split; [exact F|apply nstep_fails, F].
Qed.
Lemma f_C99_history art r refpol pol dummy ops : valid_reference r -> mdet (rs_lattice r) <> 0 -> dummy = true \/ refpol = fin_mat pol -> Forall nop_wf ops ->
  exists m, reachable m /\ im_ref m = r /\ im_dummy m = dummy /\ (dummy = false -> im_refpol m = pol) /\
    nrun art (make_nmodel r refpol dummy) ops = of_model m.
Proof.
  intros V D P W. destruct (history_finite art r pol dummy V D ops W) as (m & B & E). exists m. split; [eapply built_reachable; eassumption|].
  apply built_frame in B as (F1 & F2 & F3). split; [exact F1|]. split; [exact F2|]. split; [intros ->; exact F3|].
  rewrite <- E. f_equal. unfold make_nmodel, of_model, make_model. cbn. f_equal. destruct P as [-> | ->]; [reflexivity|]. destruct dummy; reflexivity.
Qed.
Lemma f_C99_reference art r refpol ops : valid_reference r -> tensor_not_finite refpol -> Forall nop_wf ops ->
  nrun art (make_nmodel r refpol false) ops = make_nmodel r refpol false.
Proof.
  intros V T W. induction W as [|o ops Wo W IH]; [reflexivity|]. cbn [nrun fold_left]. unfold nrun in IH.
  replace (nstep art (make_nmodel r refpol false) o) with (make_nmodel r refpol false); [exact IH|]. symmetry.
  assert (A : adding o -> nstep art (make_nmodel r refpol false) o = make_nmodel r refpol false) by (intros A; apply f_C99_refused; auto).
  destruct o as [c a p k i|rds k|ps p k|i d a p|rds|ps p|sh v|]; try (apply A; exact I); [|reflexivity].
  unfold nstep. cbn [run_nop]. unfold nset_mask. cbn [make_nmodel nm_mask nm_ref nm_refpol nm_dummy nm_basis nm_interp List.length].
  destruct (verify_ndarray_shape sh [Some 0%nat]) as [u|e] eqn:E; [|reflexivity].
  destruct u. apply verify_ndarray_shape_spec in E. inversion E as [|? ? ? ? E1 E2]; subst. inversion E2; subst. cbn in Wo. destruct v; [reflexivity|discriminate Wo].
Qed.

Lemma f_C99_reference_all :
  forall art r refpol ops, valid_reference r -> tensor_not_finite refpol -> Forall nop_wf ops ->
  nrun art (make_nmodel r refpol false) ops = make_nmodel r refpol false /\
  forall spl at_infinity samples,
    ncalc_polarizabilities spl at_infinity (nrun art (make_nmodel r refpol false) ops) (nbatch_of (List.length (rs_positions r)) samples) =
    Ok (map (fun _ => refpol) samples).
Proof.
  intros art r refpol ops V T W. rewrite (f_C99_reference art r refpol ops V T W). split; [reflexivity|].
  intros spl inf samples. exact (f_C99_bare spl inf r refpol samples).
Qed.

(** ** Examples *)
Definition nan3 : n3 := mkN3 (FinN 1) NaN (FinN 0).
Definition ex_good : nop := NAddDof (map fin3 (ex_cart ex_d1)) (fin_arr (vec_arr ex_amps)) (fin_arr (mats_arr (ex_pols mI))) 1 true.
Definition ex_bad : nop := NAddDof [nan3; nan3] (fin_arr (vec_arr ex_amps)) (fin_arr (mats_arr (ex_pols mI))) 1 true.
Lemma ex_good_wf : nop_wf ex_good. Proof. split; reflexivity. Qed.
Lemma ex_bad_wf : nop_wf ex_bad. Proof. split; reflexivity. Qed.
Lemma ex_bad_tainted : tainted false ex_bad.
Proof. left. apply Exists_cons_hd. right; left. exact I. Qed.
Lemma ex_C99_finite : exists m o m' w, reachable m /\ mdet (rs_lattice (im_ref m)) <> 0 /\ exact_op false o m = ((m', w), Ok tt) /\ im_basis m' <> [] /\ fin_op o = ex_good.
Proof.
  destruct (ex_two mI) as (r & s1 & s2 & w1 & w2 & Hi & HL & Hp & A1 & A2 & R1 & R2 & D1 & D2 & B1 & _).
  exists (make_model r mI false), (OpBase (OpAddDof (ex_cart ex_d1) (vec_arr ex_amps) (mats_arr (ex_pols mI)) 1 true)), s1, w1.
  split; [left; exists r, mI, false, []; split; [eapply identity_first_valid; eassumption|split; [constructor|reflexivity]]|].
  split; [cbn; rewrite HL; apply ex_det|]. split; [exact A1|]. split; [rewrite B1; discriminate|reflexivity].
Qed.
Lemma ex_C99_history : exists r m, valid_reference r /\ mdet (rs_lattice r) <> 0 /\ Forall nop_wf [ex_good; ex_bad] /\
  nrun false (make_nmodel r (fin_mat mI) false) [ex_good; ex_bad] = of_model m /\ im_basis m <> [].
Proof.
  destruct (ex_two mI) as (r & s1 & s2 & w1 & w2 & Hi & HL & Hp & A1 & A2 & R1 & R2 & D1 & D2 & B1 & _).
  assert (V : valid_reference r) by (eapply identity_first_valid; eassumption). assert (Dt : mdet (rs_lattice r) <> 0) by (rewrite HL; apply ex_det).
  exists r, s1. split; [exact V|]. split; [exact Dt|]. split; [repeat constructor|]. split; [|rewrite B1; discriminate].
  cbn [nrun fold_left]. assert (E : nstep false (make_nmodel r (fin_mat mI) false) ex_good = of_model s1).
  { pose proof (op_agree (make_model r mI false) (valid_reference_wf _ V) (valid_ops _ V) Dt false (OpBase (OpAddDof (ex_cart ex_d1) (vec_arr ex_amps) (mats_arr (ex_pols mI)) 1 true))) as G.
    unfold agrees in G. cbn [exact_op run_op] in G. rewrite A1 in G. cbn [fin_op] in G. fold ex_good in G. unfold nstep.
    change (make_nmodel r (fin_mat mI) false) with (of_model (make_model r mI false)). rewrite G. reflexivity. }
  rewrite E. apply f_C99_refused; [cbn; rewrite R1; exact V|exact ex_bad_wf|]. left. cbn [of_model nm_dummy]. rewrite D1. exact ex_bad_tainted.
Qed.
Definition nan_refpol : nmat := mkNmat nan3 nan3 nan3.
Lemma ex_C99_predict : exists m samples, reachable m /\ im_dummy m = false /\ im_basis m <> [] /\
  Forall (fun q => List.length q = List.length (rs_positions (im_ref m))) samples /\ List.length samples = 2%nat /\
  Exists row_not_finite (nth 1 samples []).
Proof.
  destruct (ex_two mI) as (r & s1 & s2 & w1 & w2 & Hi & HL & Hp & A1 & A2 & R1 & R2 & D1 & D2 & B1 & B2 & (r' & pol & dummy & ops & V & W & _ & E) & _).
  exists s1, [[fin3 v0; fin3 v0]; [nan3; fin3 v0]]. split; [left; exists r', pol, dummy, ops; auto|]. split; [exact D1|]. split; [rewrite B1; discriminate|].
  rewrite R1, Hp. split; [repeat constructor|]. split; [reflexivity|]. apply Exists_cons_hd. right; left. exact I.
Qed.
