(** Theorems about the equations of the graph neural network (C81) and about datasets read
    from files that hold any numbers (C64). *)
From Coq Require Import ZArith Reals Bool Arith List.
From Verif Require Import Base LinAlg M_Validate M_Text M_Poscar M_Dataset S_Dataset S_Readings P_Readings M_StructUtils S_Lattice M_Torch S_Torch M_Gnn S_Gnn
  S_Edge S_Relabel S_Network P_Network2 P_Examples10 P_Examples23.
Import ListNotations.
Local Open Scope R_scope.

(** C81: a prediction is what the equations of the network give: atoms start with the vector of
    their element passed through two layers, edges with their smeared length, every pass updates
    the atoms from the edges that enter them and then the edges from their atoms and from the
    paths of two edges, and the mean of the tensors of the edges is scaled and shifted. *)
Theorem C81_network : forall incoming_first dimenet_triplets, triplet_finder incoming_first dimenet_triplets ->
  forall order w cast lattice numbers positions cutoff node edge num_passes start stop mean_shape stddev_shape mean stddev g0 g cast' p,
  potgnn_new dimenet_triplets order w cast lattice numbers positions cutoff node edge num_passes start stop
    mean_shape stddev_shape mean stddev = Ok g0 ->
  List.length positions = List.length numbers -> iterates_set order numbers -> List.length (w_embedding w) = List.length order ->
  history g0 g -> mdet (cast_m cast' lattice) <> 0 -> apart cast' (List.length numbers) p -> g_ref_edges g0 <> [] ->
  let E := map (fun '(_, i, j) => (i, j)) (g_ref_edges g0) in
  exists vs geo, Forall2 (fun z v => embed g z = Ok v) numbers vs /\
    Forall2 (edge_geometry (cast_m cast' lattice) (map (vmap cast') p)) E geo /\
    let rows := passes incoming_first E (g_node_blocks g) (g_edge_blocks g) (map (atom_row g) vs)
                  (map (fun x => smeared start stop (Z.to_nat edge) (fst x)) geo) in
    snd (calc_polarizabilities cast' g [1; List.length numbers; 3]%nat [p]) =
    Ok [Some (madd mean (hadamard stddev (mean_tensor (map2 (fun r x => edge_tensor (fun k => nth k (channels g r) 0) (snd x)) rows geo))))].
Proof. exact f_C81_network. Qed.
Print Assumptions C81_network.

Example C81_network_nonvacuous : exists g, triplet_finder true ex_dimenet /\ ex_net full_weights = Ok g /\ iterates_set [1; 8]%Z ex_numbers /\
  List.length (w_embedding full_weights) = 2%nat /\ history g g /\ mdet (cast_m (fun x => x) ex_lattice) <> 0 /\
  apart (fun x => x) (List.length ex_numbers) ex_good /\ g_ref_edges g <> [] /\ g_node_blocks g = [ex_node_block; ex_node_block].
Proof. exact ex_C81_network. Qed.

(** C64: files that can be read, whatever their numbers are (infinities and not-a-number
    included): the dataset is read exactly if consecutive lattices are near each other and all
    files list the same atoms, and holds what the files hold. *)
Theorem C64_any_reads : forall (Path : Type) (read_fn : Path -> res output) cast paths o os,
  Forall2 (fun p o => read_fn p = Ok o) paths (o :: os) -> Forall formed (o :: os) ->
  (agreeing (o :: os) ->
     exists d, read_dataset read_fn true cast paths = Ok d /\
       ds_lattice d = cast_all cast (o_lattice (last os o)) /\ ds_numbers d = o_numbers o /\
       ds_positions d = cast_all cast (stacked (map o_positions (o :: os)) [List.length (o_numbers o); 3%nat]) /\
       ds_raw d = stacked (map o_polarizability (o :: os)) [3; 3]%nat) /\
  (~ agreeing (o :: os) -> read_dataset read_fn true cast paths = Err IncompatibleStructureException).
Proof. exact @f_C64_any_reads. Qed.
Print Assumptions C64_any_reads.

(** C64: a lattice with not-a-number is near no lattice, not even itself. *)
Theorem C64_nan : forall a b i j, narr_wf b -> na_shape a = na_shape b -> entry a [i; j] NaN -> ~ near_lattices a b.
Proof. exact f_C64_nan. Qed.
Print Assumptions C64_nan.

Example C64_any_reads_nonvacuous : Forall formed [odd_file (Inf true); odd_file (Inf true)] /\ agreeing [odd_file (Inf true); odd_file (Inf true)] /\
  ~ agreeing [odd_file (Inf true); odd_file (Inf false)] /\ ~ agreeing [odd_file NaN; odd_file NaN] /\ ~ agreeing [odd_file (Fin 1); odd_file (Inf false)].
Proof. exact ex_C64_any. Qed.
Example C64_nan_nonvacuous : narr_wf (o_lattice (odd_file NaN)) /\ entry (o_lattice (odd_file NaN)) [0; 0]%nat NaN.
Proof. exact ex_C64_nan. Qed.
