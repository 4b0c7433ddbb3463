(** C99: NaN and infinities. *)
From Coq Require Import String ZArith Reals Lra Lia Bool Arith List.
From Verif Require Import Base LinAlg M_Validate M_Text M_Poscar M_Dataset M_StructUtils M_Symmetry M_Reference
  M_Interp M_Art M_Special S_Interp S_Special P_Special2 P_Special3 P_Special5 P_Special6 P_Special7 P_Special8.
Import ListNotations.
Local Open Scope R_scope.

(** C99: when every number is finite, a call does exactly what the exact models of M_Interp.v
    and M_Art.v say: it raises when they raise, and otherwise gives the same warnings and the
    same model. *)
Theorem C99_finite_calls :
  forall art m o, reachable m -> mdet (rs_lattice (im_ref m)) <> 0 ->
  match exact_op art o m with
  | ((m', w), Ok _) => run_nop art (of_model m) (fin_op o) = (w, Ok (of_model m'))
  | (_, Err _) => exists w e, run_nop art (of_model m) (fin_op o) = (w, Err e)
  end.
Proof. exact f_C99_finite_calls. Qed.
Print Assumptions C99_finite_calls.
Example C99_finite_calls_nonvacuous : exists m o m' w, reachable m /\ mdet (rs_lattice (im_ref m)) <> 0 /\
  exact_op false o m = ((m', w), Ok tt) /\ im_basis m' <> [] /\ fin_op o = ex_good.
Proof. exact ex_C99_finite. Qed.

(** C99: a call that adds to a model raises and leaves the model as it was if one of the
    numbers it uses is not finite, or if the reference polarizability is not. *)
Theorem C99_refused :
  forall art s o, valid_reference (nm_ref s) -> nop_wf o ->
  tainted (nm_dummy s) o \/ (adding o /\ tensor_not_finite (nm_refpol s)) ->
  (exists w e, run_nop art s o = (w, Err e)) /\ nstep art s o = s.
Proof. exact f_C99_refused. Qed.
Print Assumptions C99_refused.
Example C99_refused_nonvacuous : exists r, valid_reference r /\ nop_wf ex_bad /\ tainted (nm_dummy (make_nmodel r (fin_mat mI) false)) ex_bad.
Proof. destruct ex_C99_history as (r & m & V & _). exists r. split; [exact V|]. split; [exact ex_bad_wf|exact ex_bad_tainted]. Qed.

(** C99: amplitudes among which are NaN, or both infinities, are refused without a warning about
    their sign: NaN has none, and the infinities span zero. *)
Theorem C99_silent :
  forall art s o, nop_wf o ->
  (exists c a p k i, o = NAddDof c a p k i /\ (In NaN (na_data a) \/ (In (Inf true) (na_data a) /\ In (Inf false) (na_data a)))) \/
  (exists j d a p, o = NArt j d a p /\ (In NaN (na_data a) \/ (In (Inf true) (na_data a) /\ In (Inf false) (na_data a)))) ->
  fst (run_nop art s o) = [].
Proof. exact f_C99_silent. Qed.
Print Assumptions C99_silent.
Example C99_silent_nonvacuous : exists r o c a p, valid_reference r /\ nop_wf o /\ o = NAddDof c a p 1 true /\
  In (Inf true) (na_data a) /\ In (Inf false) (na_data a) /\
  exists e, run_nop false (make_nmodel r (fin_mat mI) false) o = ([], Err e).
Proof. exact ex_C99_silent. Qed.

(** C99: whatever calls are made with whatever numbers on a model whose reference
    polarizability is finite, the model is one that calls with finite numbers can build: no
    stored number is ever NaN or infinite. *)
Theorem C99_history :
  forall art r refpol pol dummy ops, valid_reference r -> mdet (rs_lattice r) <> 0 ->
  dummy = true \/ refpol = fin_mat pol -> Forall nop_wf ops ->
  exists m, reachable m /\ im_ref m = r /\ im_dummy m = dummy /\ (dummy = false -> im_refpol m = pol) /\
    nrun art (make_nmodel r refpol dummy) ops = of_model m.
Proof. exact f_C99_history. Qed.
Print Assumptions C99_history.
Example C99_history_nonvacuous : exists r m, valid_reference r /\ mdet (rs_lattice r) <> 0 /\ Forall nop_wf [ex_good; ex_bad] /\
  nrun false (make_nmodel r (fin_mat mI) false) [ex_good; ex_bad] = of_model m /\ im_basis m <> [].
Proof. exact ex_C99_history. Qed.

(** C99: a model made with a reference polarizability that is not finite stays without
    degrees of freedom for ever, and predicts that polarizability for every sample. *)
Theorem C99_reference :
  forall art r refpol ops, valid_reference r -> tensor_not_finite refpol -> Forall nop_wf ops ->
  nrun art (make_nmodel r refpol false) ops = make_nmodel r refpol false /\
  forall spl at_infinity samples,
    ncalc_polarizabilities spl at_infinity (nrun art (make_nmodel r refpol false) ops) (nbatch_of (List.length (rs_positions r)) samples) =
    Ok (map (fun _ => refpol) samples).
Proof. exact f_C99_reference_all. Qed.
Print Assumptions C99_reference.
Example C99_reference_nonvacuous : exists r, valid_reference r /\ tensor_not_finite nan_refpol /\ Forall nop_wf [ex_good; ex_bad].
Proof. destruct ex_C99_history as (r & m & V & _ & W & _). exists r. split; [exact V|]. split; [left; right; left; exact I|exact W]. Qed.

(** C99: predictions.  In one batch every sample is its own: a finite sample gets what it gets
    alone, a sample with a number that is not finite gets a tensor of NaN if the model has any
    degree of freedom, masked or not, and without degrees of freedom every sample gets the
    reference polarizability. *)
Theorem C99_predictions :
  forall spl at_infinity m samples, reachable m -> im_dummy m = false ->
  Forall (fun q => List.length q = List.length (rs_positions (im_ref m))) samples ->
  exists ps, ncalc_polarizabilities spl at_infinity (of_model m) (nbatch_of (List.length (rs_positions (im_ref m))) samples) = Ok ps /\
    List.length ps = List.length samples /\
    forall k q, nth_error samples k = Some q ->
      (forall p, q = map fin3 p -> exists t,
         calc_polarizabilities spl m (batch_of (List.length (rs_positions (im_ref m))) [p]) = Ok [t] /\ nth_error ps k = Some (fin_mat t)) /\
      (Exists row_not_finite q -> im_basis m <> [] -> nth_error ps k = Some nan_mat) /\
      (im_basis m = [] -> nth_error ps k = Some (fin_mat (im_refpol m))).
Proof. exact f_C99_predictions. Qed.
Print Assumptions C99_predictions.
Example C99_predictions_nonvacuous : exists m samples, reachable m /\ im_dummy m = false /\ im_basis m <> [] /\
  Forall (fun q => List.length q = List.length (rs_positions (im_ref m))) samples /\ List.length samples = 2%nat /\
  Exists row_not_finite (nth 1 samples []).
Proof. exact ex_C99_predict. Qed.
