(** Theorems about the construction of the graph neural network: C84. *)
From Coq Require Import ZArith Reals Bool Arith List.
From Verif Require Import Base LinAlg M_Torch S_Torch M_Gnn S_Gnn S_GnnNew P_Examples10 P_GnnNew.
Import ListNotations.
Local Open Scope R_scope.

(** C84: which settings are accepted and which exception the others raise.  An edge
    embedding of size 1 passes the checks but raises IndexError. *)
Theorem C84_outcome : forall dimenet_triplets order w cast lattice numbers positions cutoff node edge passes start stop
    mean_shape stddev_shape mean stddev,
  iterates_set order numbers ->
  let new := potgnn_new dimenet_triplets order w cast lattice numbers positions cutoff node edge passes start stop
               mean_shape stddev_shape mean stddev in
  let good := good_settings cutoff node edge passes start stop mean_shape stddev_shape in
  (new = Err ValueError <-> ~ good) /\
  (new = Err IndexError <-> good /\ (edge = 1%Z \/ exists z, In z numbers /\ (z < -119 \/ 118 < z)%Z)) /\
  ((exists g, new = Ok g) <-> good /\ (2 <= edge)%Z /\ Forall (fun z => (-119 <= z <= 118)%Z) numbers).
Proof. exact f_C84_outcome. Qed.
Print Assumptions C84_outcome.

(** C84: every element of the structure has its own row of the embedding table, whatever
    happens to the network later; other elements have none. *)
Theorem C84_own_row : forall dimenet_triplets order w cast lattice numbers positions cutoff node edge passes start stop
    mean_shape stddev_shape mean stddev g g',
  potgnn_new dimenet_triplets order w cast lattice numbers positions cutoff node edge passes start stop
    mean_shape stddev_shape mean stddev = Ok g ->
  List.length positions = List.length numbers -> iterates_set order numbers ->
  List.length (w_embedding w) = List.length order ->
  triplets_for (List.length numbers) (List.length (g_ref_edges g))
    (dimenet_triplets (map (fun '(_, i, j) => (i, j)) (g_ref_edges g)) (List.length numbers)) ->
  Forall (fun z => (0 <= z <= 118)%Z) numbers -> history g g' ->
  (forall i z, nth_error order i = Some z -> exists v, nth_error (g_embedding g') i = Some v /\ embed g' z = Ok v) /\
  (forall z, (0 <= z <= 118)%Z -> ~ In z numbers -> embed g' z = Err IndexError).
Proof. exact f_C84_history. Qed.
Print Assumptions C84_own_row.
(** C84: the distance filter.  Each distance becomes one Gaussian per component, centred at
    evenly spaced distances from the first to the last, with the spacing as width. *)
Theorem C84_distance_filter : forall dimenet_triplets order w cast lattice numbers positions cutoff node edge passes start stop
    mean_shape stddev_shape mean stddev g g',
  potgnn_new dimenet_triplets order w cast lattice numbers positions cutoff node edge passes start stop
    mean_shape stddev_shape mean stddev = Ok g -> history g g' ->
  exists step, 0 < step /\ start + IZR (edge - 1) * step = stop /\
    forall distances, Forall2 (fun d row => List.length row = Z.to_nat edge /\
      forall k, (k < Z.to_nat edge)%nat -> nth_error row k = Some (exp (- ((d - (start + INR k * step)) / step) ^ 2 / 2)))
      distances (apply_gaussian (g_gaussian g') distances).
Proof. exact f_C84_filter. Qed.
Print Assumptions C84_distance_filter.
Example C84_nonvacuous : exists g, ex_net ex_weights = Ok g /\ iterates_set [1; 8]%Z ex_numbers /\
  Forall (fun z => (0 <= z <= 118)%Z) ex_numbers /\ built ex_lattice ex_numbers g /\
  good_settings (3/10) 5 4 2 0 5 [3; 3]%nat [3; 3]%nat.
Proof.
  destruct (ex_built ex_weights eq_refl) as (g & E & B & _). exists g. split; [exact E|].
  exact (conj ex_iterates (conj ex_numbers_range (conj B ex_good_settings))).
Qed.
