(** Theorems about the order in which the atoms of a structure are listed: C93. *)
From Coq Require Import String ZArith Reals List.
From Verif Require Import Base LinAlg M_Validate M_StructUtils M_Symmetry M_Reference M_Interp M_Art M_Shared
  S_Symmetry S_Order S_Relabel S_Atoms P_Atoms4 P_Atoms5 P_Images2 P_Examples1 P_Examples12 P_Examples16 P_Examples18.
Import ListNotations.
Local Open Scope R_scope.

(** C93: the warnings and results of every call, the degrees of freedom, the mask and every
    prediction are the same, up to the order of the rows, when no tie between atoms decides
    what a call adds. *)
Theorem C93_order : forall numbers numbers' L pos pos' ops equiv equiv' r r' move refpol dummy art calls calls',
  reordering (List.length pos) move -> reordered move pos pos' ->
  make_reference numbers L pos (Some (ops, equiv)) = Ok r -> make_reference numbers' L pos' (Some (ops, equiv')) = Ok r' ->
  Forall2 (same_call (List.length pos) move) calls calls' -> Forall (unambiguous r) calls ->
  let run := run_all art calls (make_model r refpol dummy) in
  let run' := run_all art calls' (make_model r' refpol dummy) in
  fst run' = fst run /\
  Forall2 (same_rows (List.length pos) move) (im_basis (snd run)) (im_basis (snd run')) /\
  im_mask (snd run') = im_mask (snd run) /\
  forall spl b b', same_batch (List.length pos) move b b' ->
    calc_polarizabilities spl (snd run') b' = calc_polarizabilities spl (snd run) b.
Proof. exact f_C93_order. Qed.
Print Assumptions C93_order.

(** C93: the groups of equivalent displacements, for every displacement, ties or not. *)
Theorem C93_images : forall numbers numbers' L pos pos' ops equiv equiv' r r' move d d',
  reordering (List.length pos) move -> reordered move pos pos' ->
  make_reference numbers L pos (Some (ops, equiv)) = Ok r -> make_reference numbers' L pos' (Some (ops, equiv')) = Ok r' ->
  same_rows (List.length pos) move d d' ->
  match get_equivalent_displacements r (Fin d), get_equivalent_displacements r' (Fin d') with
  | Ok gs, Ok gs' => Forall2 (fun g g' => g_trans g' = g_trans g /\ Forall2 (fun a a' =>
      match a, a' with Fin l, Fin l' => same_rows (List.length pos) move l l' | Nan k, Nan k' => k' = k | _, _ => False end) (g_disp g) (g_disp g')) gs gs'
  | Err e, Err e' => e' = e
  | _, _ => False
  end.
Proof. exact f_C93_images. Qed.
Print Assumptions C93_images.

(** C93: no tie matters in a structure with a single symmetry operation ... *)
Theorem C93_single_operation : forall numbers L pos op equiv r d,
  make_reference numbers L pos (Some ([op], equiv)) = Ok r -> decisive r d.
Proof. exact f_C93_single_operation. Qed.
Print Assumptions C93_single_operation.

(** ... nor for an atomic Raman tensor of one atom, whatever the symmetries of the crystal. *)
Theorem C93_single_atom : forall numbers L pos ops equiv r i direction amps pols,
  make_reference numbers L pos (Some (ops, equiv)) = Ok r ->
  separated (/ 100000) pos -> (0 < List.length pos)%nat -> ops <> [] ->
  Forall (fun op => short_columns (fst op) /\ mdet (fst op) <> 0 /\ exists pi, row_symmetry pos (fst op) (snd op) pi) ops ->
  unambiguous r (Art i direction amps pols).
Proof. exact f_C93_single_atom. Qed.
Print Assumptions C93_single_atom.

(** C93: ties do matter: a call accepted with the atoms in one order is rejected in another. *)
Theorem C93_ties_refuted : ~ forall numbers numbers' L pos pos' ops equiv equiv' r r' move refpol dummy art calls calls',
  reordering (List.length pos) move -> reordered move pos pos' ->
  make_reference numbers L pos (Some (ops, equiv)) = Ok r -> make_reference numbers' L pos' (Some (ops, equiv')) = Ok r' ->
  Forall2 (same_call (List.length pos) move) calls calls' ->
  separated (/ 100000) pos -> Forall (fun op => exists pi, row_symmetry pos (fst op) (snd op) pi) ops ->
  map snd (fst (run_all art calls' (make_model r' refpol dummy))) = map snd (fst (run_all art calls (make_model r refpol dummy))).
Proof. exact f_C93_refuted. Qed.
Print Assumptions C93_ties_refuted.

(** Two atoms exchanged by a mirror plane, listed in the two orders; both calls are accepted. *)
Example C93_nonvacuous : exists r r' m,
  make_reference [8%Z; 8%Z] mI sw_pos (Some (sw_ops, [0%nat; 0%nat])) = Ok r /\
  make_reference [8%Z; 8%Z] mI (rev sw_pos) (Some (sw_ops, [0%nat; 0%nat])) = Ok r' /\
  reordering 2 swap2 /\ reordered swap2 sw_pos (rev sw_pos) /\
  Forall2 (same_call 2 swap2) [along ex; along ez] [along' ex; along' ez] /\
  Forall (unambiguous r) [along ex; along ez] /\
  all_return false [along ex; along ez] (make_model r mI false) m /\ List.length (im_basis m) = 4%nat.
Proof. exact ex_C93. Qed.
