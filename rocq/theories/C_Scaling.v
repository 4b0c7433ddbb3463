(** Theorems about scaling by any numbers (C66) and about what labels become (C48). *)
From Coq Require Import String ZArith NArith Reals Bool Arith List.
From Verif Require Import Base LinAlg M_Validate M_Text M_Poscar M_Dataset S_Dataset S_Text S_Scaling P_Scaling P_Examples5 P_Examples21.
Import ListNotations.
Local Open Scope nat_scope.

(** C66: whatever numbers the dataset, the mean and the standard deviation hold, the last valid
    call decides, and every component is standardised as IEEE 754 says. *)
Theorem C66_any_scaling : forall d h1 h2 m s d' n,
  narr_wf (ds_raw d) -> na_shape (ds_raw d) = [n; 3; 3] -> narr_wf m -> narr_wf s ->
  na_shape m = [3; 3] -> na_shape s = [3; 3] ->
  scalings d (h1 ++ (m, s) :: h2) d' -> Forall (fun c => ~ valid_scaling c) h2 ->
  na_shape (ds_scaled d') = [n; 6] /\
  forall p k i j x a b, nth_error components k = Some (i, j) ->
    entry (ds_raw d) [p; i; j] x -> entry m [i; j] a -> entry s [i; j] b ->
    exists y, entry (ds_scaled d') [p; k] y /\ standardised x a b y.
Proof. exact f_C66_any_scaling. Qed.
Print Assumptions C66_any_scaling.

Example C66_any_scaling_nonvacuous :
  exists d d', odd_new = Ok d /\ scalings d ([] ++ (tensor mI, wide) :: []) d' /\ entry (ds_scaled d') [1; 0] (Fin 0%R).
Proof. exact ex_C66_any. Qed.

(** C66: one polarizability that is not a finite number makes that component of every sample
    not a number ... *)
Theorem C66_not_finite : forall cast lattice numbers positions pol d,
  (forall x, cast (cast x) = cast x) -> narr_wf pol ->
  dataset_new cast lattice numbers positions pol = Ok d ->
  forall k i j s0 x0, nth_error components k = Some (i, j) -> entry pol [s0; i; j] x0 -> ~ is_finite x0 ->
  forall s x, entry pol [s; i; j] x -> entry (ds_scaled d) [s; k] (cast NaN).
Proof. exact f_C66_not_finite. Qed.
Print Assumptions C66_not_finite.

(** ... and leaves the other components alone: each depends on its own entries only. *)
Theorem C66_one_component : forall cast lattice numbers positions pol d,
  (forall x, cast (cast x) = cast x) -> narr_wf pol ->
  dataset_new cast lattice numbers positions pol = Ok d ->
  forall k i j xs, nth_error components k = Some (i, j) -> component_is pol i j xs ->
  forall s x, nth_error xs s = Some x ->
    (~ constant xs -> entry (ds_scaled d) [s; k] (cast (Fin ((x - mean xs) / stddev xs)%R))) /\
    (constant xs -> entry (ds_scaled d) [s; k] (cast NaN)).
Proof. exact f_C66_one_component. Qed.
Print Assumptions C66_one_component.

Example C66_not_finite_nonvacuous :
  exists d, odd_new = Ok d /\ narr_wf odd_pol /\ entry odd_pol [0; 1; 1] (Inf true) /\ ~ is_finite (Inf true) /\
  component_is odd_pol 0 0 [0%R; 2%R] /\ ~ constant [0%R; 2%R].
Proof. exact ex_C66_odd. Qed.

(** C48: the first line, read as the inside of a Python string literal, is the label ... *)
Theorem C48_label_told : forall E lattice numbers label,
  unicode label ->
  (forall positions pieces, structure_pieces E lattice numbers positions label = Ok pieces -> literal (first_line (concat pieces)) label) /\
  (forall pts pieces, trajectory_pieces E lattice numbers pts label = Ok pieces -> literal (first_line (concat pieces)) label).
Proof. exact f_C48_told. Qed.
Print Assumptions C48_label_told.

(** ... and no other text, so different labels give different first lines. *)
Theorem C48_label_unambiguous : forall s l l', literal s l -> literal s l' -> l = l'.
Proof. exact (fun s l l' H H' => literal_unique s l H l' H'). Qed.
Print Assumptions C48_label_unambiguous.

Example C48_label_nonvacuous :
  unicode odd_label /\ (exists pieces, structure_pieces exE exl exn exp odd_label = Ok pieces) /\
  literal (txt "\n'\x01A\U0001f600") odd_label /\ literal (txt "caf\xe9") [99; 97; 102; 233]%N.
Proof. exact ex_C48_told. Qed.
