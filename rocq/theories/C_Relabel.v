(** Theorems about the order in which a structure lists its atoms, for PotGNN: C90. *)
From Coq Require Import ZArith Reals Bool Arith List.
From Verif Require Import Base LinAlg M_Torch S_Torch M_Gnn S_Gnn S_Relabel P_Relabel4 P_Examples10 P_Examples15.
Import ListNotations.
Local Open Scope R_scope.

(** C90: networks made from the same structure with its atoms listed in two orders, with the
    same settings, the same iteration order of the set of elements and the same weights after
    any history, predict the same polarizabilities for samples reordered alike. *)
Theorem C90_order : forall incoming_first dimenet_triplets, triplet_finder incoming_first dimenet_triplets ->
  forall order w w' cast cast' lattice numbers numbers' positions positions' cutoff node edge passes start stop
    mean_shape stddev_shape mean stddev g0 g0' g g' move samples samples',
  potgnn_new dimenet_triplets order w cast lattice numbers positions cutoff node edge passes start stop
    mean_shape stddev_shape mean stddev = Ok g0 ->
  potgnn_new dimenet_triplets order w' cast lattice numbers' positions' cutoff node edge passes start stop
    mean_shape stddev_shape mean stddev = Ok g0' ->
  List.length positions = List.length numbers -> iterates_set order numbers ->
  List.length (w_embedding w) = List.length order -> List.length (w_embedding w') = List.length order ->
  reordering (List.length numbers) move -> reordered move numbers numbers' -> reordered move positions positions' ->
  history g0 g -> history g0' g' -> same_weights g g' ->
  Forall2 (fun p q => List.length p = List.length numbers /\ reordered move p q) samples samples' ->
  snd (calc_polarizabilities cast' g' [List.length samples'; List.length numbers'; 3%nat] samples') =
  snd (calc_polarizabilities cast' g [List.length samples; List.length numbers; 3%nat] samples).
Proof. exact f_C90_order. Qed.
Print Assumptions C90_order.

(** C90: the same with any two iteration orders, if every element has the same vector in both
    networks. *)
Theorem C90_embeddings : forall incoming_first dimenet_triplets, triplet_finder incoming_first dimenet_triplets ->
  forall order order' w w' cast cast' lattice numbers numbers' positions positions' cutoff node edge passes start stop
    mean_shape stddev_shape mean stddev g0 g0' g g' move samples samples',
  potgnn_new dimenet_triplets order w cast lattice numbers positions cutoff node edge passes start stop
    mean_shape stddev_shape mean stddev = Ok g0 ->
  potgnn_new dimenet_triplets order' w' cast lattice numbers' positions' cutoff node edge passes start stop
    mean_shape stddev_shape mean stddev = Ok g0' ->
  List.length positions = List.length numbers -> iterates_set order numbers -> iterates_set order' numbers' ->
  List.length (w_embedding w) = List.length order -> List.length (w_embedding w') = List.length order' ->
  reordering (List.length numbers) move -> reordered move numbers numbers' -> reordered move positions positions' ->
  history g0 g -> history g0' g' -> same_layers g g' -> (forall z, In z numbers -> embed g' z = embed g z) ->
  Forall2 (fun p q => List.length p = List.length numbers /\ reordered move p q) samples samples' ->
  snd (calc_polarizabilities cast' g' [List.length samples'; List.length numbers'; 3%nat] samples') =
  snd (calc_polarizabilities cast' g [List.length samples; List.length numbers; 3%nat] samples).
Proof. exact f_C90_embeddings. Qed.
Print Assumptions C90_embeddings.

(** C90: exchanging atoms of the same element that have the same neighbours in the reference
    graph does not change a network's predictions. *)
Theorem C90_exchange : forall incoming_first dimenet_triplets, triplet_finder incoming_first dimenet_triplets ->
  forall order w cast cast' lattice numbers positions cutoff node edge passes start stop
    mean_shape stddev_shape mean stddev g0 g move samples samples',
  potgnn_new dimenet_triplets order w cast lattice numbers positions cutoff node edge passes start stop
    mean_shape stddev_shape mean stddev = Ok g0 ->
  List.length positions = List.length numbers -> iterates_set order numbers ->
  List.length (w_embedding w) = List.length order ->
  reordering (List.length numbers) move -> reordered move numbers numbers ->
  (forall i j, (i < List.length numbers)%nat -> (j < List.length numbers)%nat ->
     In (0%nat, i, j) (g_ref_edges g0) <-> In (0%nat, move i, move j) (g_ref_edges g0)) ->
  history g0 g ->
  Forall2 (fun p q => List.length p = List.length numbers /\ reordered move p q) samples samples' ->
  snd (calc_polarizabilities cast' g [List.length samples'; List.length numbers; 3%nat] samples') =
  snd (calc_polarizabilities cast' g [List.length samples; List.length numbers; 3%nat] samples).
Proof. exact f_C90_exchange. Qed.
Print Assumptions C90_exchange.

(** C90: the iteration order matters.  For two hydrogen atoms and a fluorine atom CPython
    iterates [set([1, 1, 9])] as 1, 9 and [set([9, 1, 1])] as 9, 1 (both fall into the same
    slot).  With the same weights the predictions for the same structure differ. *)
Theorem C90_iteration_order_refuted : exists w dimenet_triplets move positions positions' g g' t t',
  let new order numbers positions :=
    potgnn_new dimenet_triplets order w (fun x => x) mI numbers positions (3/10) 1 2 1 0 5 [3; 3]%nat [3; 3]%nat m0 mI in
  triplet_finder true dimenet_triplets /\
  reordering 3 move /\ reordered move [1; 1; 9]%Z [9; 1; 1]%Z /\ reordered move positions positions' /\
  iterates_set [1; 9]%Z [1; 1; 9]%Z /\ iterates_set [9; 1]%Z [9; 1; 1]%Z /\
  new [1; 9]%Z [1; 1; 9]%Z positions = Ok g /\ new [9; 1]%Z [9; 1; 1]%Z positions' = Ok g' /\ same_weights g g' /\
  snd (calc_polarizabilities (fun x => x) g [1; 3; 3]%nat [positions]) = Ok [Some t] /\
  snd (calc_polarizabilities (fun x => x) g' [1; 3; 3]%nat [positions']) = Ok [Some t'] /\
  vx (r0 t) < vx (r0 t').
Proof. exact f_C90_iteration_order. Qed.
Print Assumptions C90_iteration_order_refuted.

Example C90_nonvacuous : exists g g',
  triplet_finder true ex_dimenet /\
  tell_net [9; 1]%Z [1; 1; 9]%Z ex_positions = Ok g /\ tell_net [9; 1]%Z [9; 1; 1]%Z turned_positions = Ok g' /\
  iterates_set [9; 1]%Z [1; 1; 9]%Z /\ List.length (w_embedding tell_weights) = 2%nat /\
  reordering 3 turn3 /\ reordered turn3 [1; 1; 9]%Z [9; 1; 1]%Z /\ reordered turn3 ex_positions turned_positions /\
  same_weights g g' /\ g_ref_edges g <> [].
Proof. exact ex_C90. Qed.
Example C90_exchange_nonvacuous : exists g,
  ex_net ex_weights = Ok g /\ iterates_set [1; 8]%Z ex_numbers /\
  reordering 3 swap12 /\ reordered swap12 ex_numbers ex_numbers /\
  (forall i j, (i < 3)%nat -> (j < 3)%nat -> In (0%nat, i, j) (g_ref_edges g) <-> In (0%nat, swap12 i, swap12 j) (g_ref_edges g)) /\
  g_ref_edges g <> [] /\ reordered swap12 ex_good [mkV (/8) 0 0; mkV 0 (/4) (/8); mkV (/4) 0 0].
Proof. exact ex_C90_exchange. Qed.
