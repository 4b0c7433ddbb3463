(** Theorems about the structure utilities on arrays of any shape: C01-C03, C06, C07. *)
From Coq Require Import ZArith Reals Bool Arith List.
From Verif Require Import Base LinAlg M_Validate M_Text M_Poscar M_Arrays S_Lattice S_Dataset S_Arrays P_Arrays.
Import ListNotations.
Local Open Scope nat_scope.

(** C01, C02: every entry is wrapped, whatever the shape. *)
Theorem C01_any_shape : forall a,
  na_shape (apply_pbc_array a) = na_shape a /\ Forall2 (wrapped_to cell_image) (na_data a) (na_data (apply_pbc_array a)).
Proof. exact f_C01_any. Qed.
Print Assumptions C01_any_shape.

Theorem C02_any_shape : forall a,
  na_shape (apply_pbc_displacement_array a) = na_shape a /\
  Forall2 (wrapped_to half_image) (na_data a) (na_data (apply_pbc_displacement_array a)).
Proof. exact f_C02_any. Qed.
Print Assumptions C02_any_shape.

(** C03: arrays are matched by NumPy's broadcasting rule. *)
Theorem C03_displace_any_shape : forall p d,
  narr_wf p -> narr_wf d ->
  ((exists out, broadcasts (na_shape p) (na_shape d) out) ->
     exists q, displace_positions_array p d = Ok q /\ combined displaced_to p d q) /\
  ((~ exists out, broadcasts (na_shape p) (na_shape d) out) -> displace_positions_array p d = Err ValueError).
Proof. exact f_C03_displace. Qed.
Print Assumptions C03_displace_any_shape.

Theorem C03_measure_any_shape : forall p q,
  narr_wf p -> narr_wf q ->
  ((exists out, broadcasts (na_shape p) (na_shape q) out) ->
     exists d, calc_displacement_array p q = Ok d /\ combined measured_to p q d) /\
  ((~ exists out, broadcasts (na_shape p) (na_shape q) out) -> calc_displacement_array p q = Err ValueError).
Proof. exact f_C03_measure. Qed.
Print Assumptions C03_measure_any_shape.

Theorem C03_inverse_any_shape : forall p d q,
  narr_wf p -> narr_wf d -> displace_positions_array p d = Ok q ->
  exists e, calc_displacement_array p q = Ok e /\ combined shortest_to p d e.
Proof. exact f_C03_any_inverse. Qed.
Print Assumptions C03_inverse_any_shape.

Theorem C03_reaches_any_shape : forall p q d,
  narr_wf p -> narr_wf q -> calc_displacement_array p q = Ok d ->
  exists e, displace_positions_array p d = Ok e /\ combined image_to p q e.
Proof. exact f_C03_any_reaches. Qed.
Print Assumptions C03_reaches_any_shape.

Example C03_any_shape_nonvacuous :
  (narr_wf ex_row /\ narr_wf ex_vec /\ narr_wf ex_scalar /\ narr_wf ex_batch) /\
  broadcasts [2; 1; 3] [4; 3] [2; 4; 3] /\ ~ exists out, broadcasts [2; 3] [3; 3] out.
Proof. exact (conj ex_wf ex_broadcast). Qed.

(** C06, C07: what transform_positions accepts and returns. *)
Theorem C07_transform_any_shape : forall p r t,
  narr_wf p -> narr_wf r -> narr_wf t ->
  (accepted p r t -> exists q, transform_positions_array p r t = Ok q) /\
  (~ accepted p r t -> transform_positions_array p r t = Err ValueError).
Proof. exact f_C06_accepts. Qed.
Print Assumptions C07_transform_any_shape.

Theorem C06_values_any_shape : forall p r t q,
  narr_wf p -> narr_wf r -> narr_wf t -> finite_array p -> finite_array r -> finite_array t ->
  transform_positions_array p r t = Ok q ->
  exists n s, na_shape p = [n; 3] /\ product_shape n (na_shape r) s /\ broadcasts s (na_shape t) (na_shape q) /\ narr_wf q /\
    forall idx, Forall2 lt idx (na_shape q) -> exists i j y d x,
      supplies s i idx /\ supplies (na_shape t) j idx /\ product_entry p r i y /\ entry t j (Fin d) /\
      entry q idx (Fin x) /\ cell_image (y + d) x.
Proof. exact f_C06_values. Qed.
Print Assumptions C06_values_any_shape.

Example C06_any_shape_nonvacuous :
  accepted ex_row ex_vec ex_scalar /\ finite_array ex_row /\ finite_array ex_vec /\ finite_array ex_scalar.
Proof. exact (conj ex_accepted ex_finite). Qed.

(** "(3,3) rotations only, and the result has the shape of the positions" is false. *)
Theorem C06_shapes_refuted :
  ~ (forall p r t q, narr_wf p -> narr_wf r -> narr_wf t ->
     transform_positions_array p r t = Ok q -> na_shape r = [3; 3] /\ na_shape q = na_shape p).
Proof. exact f_C06_shapes. Qed.
Print Assumptions C06_shapes_refuted.
