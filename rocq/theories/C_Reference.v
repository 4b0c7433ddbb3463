(** Properties C09-C17: symmetry tests and the reference structure. *)
From Coq Require Import String ZArith Reals Lra Lia Sorted List.
From Verif Require Import Base LinAlg Constants M_Validate M_StructUtils M_Symmetry M_Reference
  S_Lattice S_Vec S_Symmetry S_Equivalent P_StructUtils P_Reference P_Reference2 P_StructFinal P_Examples1.
Import ListNotations.
Local Open Scope R_scope.

(** C09 *)
Theorem C09_collinear : forall v w, length v = length w -> v <> [] ->
  exists b, are_collinear (Fin v) (Fin w) = Ok b /\ (b = true <-> collinear_spec v w) /\
    are_collinear (Fin w) (Fin v) = Ok b /\
    (forall c, c <> 0 -> are_collinear (Fin (map (fun x => c * x) v)) (Fin w) = Ok b /\
                         are_collinear (Fin v) (Fin (map (fun x => c * x) w)) = Ok b).
Proof. exact f_C09. Qed.
Print Assumptions C09_collinear.
Theorem C09_parallel : forall c v, c <> 0 -> nonzero_vec v ->
  are_collinear (Fin v) (Fin (map (fun x => c * x) v)) = Ok true.
Proof. exact f_C09_parallel. Qed.
Print Assumptions C09_parallel.
Theorem C09_orthogonal : forall v w, length v = length w -> v <> [] ->
  (is_orthogonal_to_all (Fin v) [Fin w] = Ok (-1)%Z <-> orthogonal_spec v w) /\
  (is_orthogonal_to_all (Fin v) [Fin w] = Ok 0%Z <-> ~ orthogonal_spec v w).
Proof. exact f_C09_orth. Qed.
Print Assumptions C09_orthogonal.
Example C09_nonvacuous : exists v w : list R, length v = length w /\ v <> [] /\
  collinear_spec v w /\ ~ orthogonal_spec v w.
Proof.
  exists [1], [2]. split; [auto|split; [discriminate|]].
  assert (C: cosine [1] [2] = 1).
  { unfold cosine, magnitude, inner. rewrite !Rplus_0_r.
    replace (1 * 1) with (1²) by (unfold Rsqr; ring). replace (2 * 2) with (2²) by (unfold Rsqr; ring).
    rewrite !sqrt_Rsqr by lra. field. }
  unfold collinear_spec, orthogonal_spec. rewrite C, Rabs_R1. unfold tol1. split.
  - split; [exists 1; simpl; auto with real|split; [exists 2; simpl; split; auto; lra|lra]].
  - intros (_ & _ & H). lra.
Qed.

(** C10 *)
Theorem C10_first_index : forall v ws, v <> [] -> (forall w, In w ws -> length v = length w) ->
  forall z,
  (is_orthogonal_to_all (Fin v) (map Fin ws) = Ok z <-> first_failure (orthogonal_spec v) ws z) /\
  (is_collinear_with_all (Fin v) (map Fin ws) = Ok z <-> first_failure (collinear_spec v) ws z) /\
  (is_non_collinear_with_all (Fin v) (map Fin ws) = Ok z <->
     first_failure (fun w => ~ collinear_spec v w) ws z).
Proof. exact f_C10. Qed.
Print Assumptions C10_first_index.
Theorem C10_total : forall v ws, v <> [] -> (forall w, In w ws -> length v = length w) ->
  exists z1 z2 z3, is_orthogonal_to_all (Fin v) (map Fin ws) = Ok z1 /\
    is_collinear_with_all (Fin v) (map Fin ws) = Ok z2 /\ is_non_collinear_with_all (Fin v) (map Fin ws) = Ok z3.
Proof. exact f_C10_total. Qed.
Print Assumptions C10_total.
Example C10_nonvacuous : [1; 2] <> [] /\ (forall w, In w [[3; 4]; [0; 0]] -> length [1; 2] = length w).
Proof. split; [discriminate|]. intros w [<-|[<-|[]]]; auto. Qed.

(** C11 *)
Theorem C11_frac_cart : forall r c d, mdet (rs_lattice r) <> 0 ->
  (exists d', get_frac_displacement r (get_cart_displacement r d) = Ok d' /\ half_images d d') /\
  (exists f, get_frac_displacement r c = Ok f /\ Forall (vall (fun x => - / 2 < x <= / 2)) f /\
     Forall2 (fun a b => exists n, integer_vector n /\ vsub a b = vmul n (rs_lattice r)) c
       (get_cart_displacement r f) /\
     (get_cart_displacement r f = c <->
      exists g, map (fun v => vmul v (rs_lattice r)) g = c /\ Forall (vall (fun x => - / 2 < x <= / 2)) g)).
Proof. exact f_C11. Qed.
Print Assumptions C11_frac_cart.
Theorem C11_singular : forall r c, mdet (rs_lattice r) = 0 -> get_frac_displacement r c = Err LinAlgError.
Proof. exact frac_displacement_singular. Qed.
Print Assumptions C11_singular.
Example C11_nonvacuous : exists r, rs_lattice r = ex_lat /\ mdet (rs_lattice r) <> 0.
Proof. destruct ex_reference as (r & _ & _ & H & _). exists r. rewrite H. split; [auto|exact ex_det]. Qed.

(** C12 *)
Theorem C12_direction_roundtrip : forall r x y z, mdet (rs_lattice r) <> 0 ->
  exists cx cy cz, get_cart_direction r [x; y; z] = Ok [mkV cx cy cz] /\
    exists f, get_frac_direction r [cx; cy; cz] = Ok f /\ vall2 half_image (mkV x y z) f.
Proof. exact f_C12. Qed.
Print Assumptions C12_direction_roundtrip.
Theorem C12_frac_direction_shape : forall r c, length c <> 3%nat -> get_frac_direction r c = Err ValueError.
Proof. exact f_C12_shape. Qed.
Print Assumptions C12_frac_direction_shape.
(** get_cart_direction always returns a one-row (1,3) array, never shape (3,). *)
Theorem C12_cart_direction_shape_refuted : forall r d out,
  get_cart_direction r d = Ok out -> length out = 1%nat.
Proof. exact f_C12_refuted. Qed.
Print Assumptions C12_cart_direction_shape_refuted.
Example C12_nonvacuous : exists r, mdet (rs_lattice r) <> 0.
Proof. destruct C11_nonvacuous as (r & _ & H). exists r; auto. Qed.

(** C13 *)
Theorem C13_atom_indexes : forall r wanted,
  (forall n, In n (rs_numbers r) -> exists s, atom_symbol n = Ok s) ->
  exists l, get_atom_indexes r wanted = Ok l /\ StronglySorted lt l /\
   forall i, In i l <-> exists n s, nth_error (rs_numbers r) i = Some n /\ atom_symbol n = Ok s /\ In s wanted.
Proof. exact f_C13. Qed.
Print Assumptions C13_atom_indexes.
Theorem C13_unknown_element : forall r wanted,
  (exists n, In n (rs_numbers r) /\ atom_symbol n = Err KeyError) ->
  get_atom_indexes r wanted = Err KeyError.
Proof. exact f_C13_unknown. Qed.
Print Assumptions C13_unknown_element.
Example C13_nonvacuous : (forall n, In n [22; 8; 8]%Z -> exists s, atom_symbol n = Ok s) /\
  get_atom_indexes (mkRef [22; 8; 8]%Z mI [] [] [] []) ["O"%string] = Ok [1; 2]%nat /\
  atom_symbol 119 = Err KeyError.
Proof.
  split; [|split; reflexivity]. intros n [<-|[<-|[<-|[]]]]; eexists; reflexivity.
Qed.

(** C14: the labels must point to an earlier-or-equal representative; then the answer
    is a partition into the classes of equal label, else KeyError. *)
Theorem C14_equivalent_atom_dict : forall r d,
  orbit_labels (rs_equiv r) -> get_equivalent_atom_dict r = Ok d ->
  NoDup (map fst d) /\
  (forall k v, In (k, v) d -> NoDup v /\
     forall i, (i = k \/ In i v) <-> nth_error (rs_equiv r) i = Some k) /\
  (forall i, (i < List.length (rs_equiv r))%nat -> exists k v, In (k, v) d /\ (i = k \/ In i v)) /\
  (forall k v i, In (k, v) d -> In i v -> (k < i)%nat) /\
  List.length d = num_nonequivalent_atoms r.
Proof. exact equivalent_atom_dict_partition. Qed.
Print Assumptions C14_equivalent_atom_dict.
Theorem C14_exactly_orbit_labels : forall r,
  ((exists d, get_equivalent_atom_dict r = Ok d) <-> orbit_labels (rs_equiv r)) /\
  (forall e, get_equivalent_atom_dict r = Err e -> e = KeyError).
Proof. exact equivalent_atom_dict_iff. Qed.
Print Assumptions C14_exactly_orbit_labels.
Example C14_nonvacuous :
  get_equivalent_atom_dict (mkRef [] mI [] [] [0; 1; 0; 1; 1; 5]%nat []) = Ok [(0, [2]); (1, [3; 4]); (5, [])]%nat /\
  get_equivalent_atom_dict (mkRef [] mI [] [] [1; 1]%nat []) = Err KeyError.
Proof. split; reflexivity. Qed.

(** C15 *)
Theorem C15_permutation_matrix : forall pos R t pi,
  Forall (vall (fun x => 0 <= x <= 1)) pos ->
  row_symmetry pos R t pi -> separated (/ 100000) pos ->
  exists P, permutation_matrix_of pos (R, t) = Ok P /\ length P = length pos /\
    forall b, (b < length pos)%nat -> exists row, nth_error P b = Some row /\ length row = length pos /\
      forall a, (a < length pos)%nat -> nth_error row a = Some (Nat.eqb a (pi b)).
Proof. exact f_C15. Qed.
Print Assumptions C15_permutation_matrix.
Example C15_nonvacuous : Forall (vall (fun x => 0 <= x <= 1)) ex_pos /\
  row_symmetry ex_pos ex_mirror v0 swap2 /\ separated (/ 100000) ex_pos.
Proof. split; [exact ex_pos_ok|split; [exact ex_row_symmetry|exact ex_separated]]. Qed.
(** For spglib's documented convention (x |-> R x + t) the claim is false. *)
Theorem C15_column_convention_refuted : exists L pos R t pi P,
  mdet L <> 0 /\ Forall (vall (fun x => 0 <= x <= 1)) pos /\ separated (/ 100000) pos /\
  column_isometry L R /\ column_symmetry pos R t pi /\
  permutation_matrix_of pos (R, t) = Ok P /\ exists row, In row P /\ forall b, In b row -> b = false.
Proof. exact f_C15_refuted. Qed.
Print Assumptions C15_column_convention_refuted.

(** C16: [w] is the wrapped displacement; the code transforms w / (10 |w|).
    Last clause (completeness): the image under every operation is listed up to the
    duplicate tolerance, unless among the leaders known so far it was neither orthogonal
    to all nor collinear with one. *)
Theorem C16_equivalent_displacements : forall numbers L pos ops equiv r l w gs,
  make_reference numbers L pos (Some (ops, equiv)) = Ok r ->
  (0 < List.length pos)%nat -> ops <> [] ->
  half_images l w -> rows_norm w <> 0 ->
  get_equivalent_displacements r (Fin l) = Ok gs ->
  exists Gs, gs = map to_group Gs /\
    Forall (fun G => G <> [] /\
       (forall e, In e G -> In (snd e) ops /\
          image_under pos (rows_scale (/ (rows_norm w * 10)) w) (snd e) (fst e)) /\
       (forall e0 rest, G = e0 :: rest ->
          Forall (fun e => collinear_spec (rowsR (fst e)) (rowsR (fst e0))) rest) /\
       ForallOrdPairs (fun e1 e2 => ~ near_rows (fst e2) (fst e1)) G) Gs /\
    ForallOrdPairs (fun a b => orthogonal_spec (rowsR b) (rowsR a)) (leaders Gs) /\
    (forall op, In op ops -> exists x, image_under pos (rows_scale (/ (rows_norm w * 10)) w) op x /\
       ((exists G e, In G Gs /\ In e G /\ near_rows x (fst e)) \/
        (exists k, (exists o, In o (firstn k (leaders Gs)) /\ ~ orthogonal_spec (rowsR x) (rowsR o)) /\
                   (forall o, In o (firstn k (leaders Gs)) -> ~ collinear_spec (rowsR x) (rowsR o))))).
Proof. exact f_C16. Qed.
Print Assumptions C16_equivalent_displacements.
Theorem C16_total : forall numbers L pos ops equiv r d,
  make_reference numbers L pos (Some (ops, equiv)) = Ok r ->
  (0 < List.length pos)%nat -> ops <> [] -> arr_len d = List.length pos ->
  exists gs, get_equivalent_displacements r d = Ok gs.
Proof. exact f_C16_total. Qed.
Print Assumptions C16_total.

(** C17 *)
Theorem C17_rotated_permuted_copies : forall numbers L pos ops equiv r l w gs,
  make_reference numbers L pos (Some (ops, equiv)) = Ok r ->
  Forall (vall (fun x => 0 <= x <= 1)) pos -> separated (/ 100000) pos -> (0 < List.length pos)%nat ->
  Forall (fun op => short_columns (fst op) /\ exists pi, row_symmetry pos (fst op) (snd op) pi) ops ->
  List.length l = List.length pos -> half_images l w -> rows_norm w <> 0 ->
  get_equivalent_displacements r (Fin l) = Ok gs ->
  Forall (fun g => Forall2 (fun disp op => exists pi, In op ops /\ row_symmetry pos (fst op) (snd op) pi /\
      disp = Fin (map (fun b => vmul (vscale (/ (rows_norm w * 10)) (nth (pi b) w v0)) (fst op))
                      (seq 0 (List.length pos))))
    (g_disp g) (g_trans g)) gs.
Proof. exact f_C17. Qed.
Print Assumptions C17_rotated_permuted_copies.
Example C16_C17_nonvacuous : exists r w gs,
  make_reference [8%Z; 8%Z] ex_lat ex_pos (Some (ex_ops, [0%nat; 0%nat])) = Ok r /\
  half_images ex_disp w /\ rows_norm w <> 0 /\ get_equivalent_displacements r (Fin ex_disp) = Ok gs /\
  Forall (fun op => short_columns (fst op) /\ exists pi, row_symmetry ex_pos (fst op) (snd op) pi) ex_ops /\
  separated (/ 100000) ex_pos /\ (0 < List.length ex_pos)%nat /\ ex_ops <> [].
Proof.
  destruct ex_equivalents as (r & gs & H1 & H2). exists r, (apply_pbc_displacement ex_disp), gs.
  split; [auto|split; [apply apply_pbc_displacement_spec; auto|split; [exact ex_disp_nz|split; [auto|]]]].
  split; [exact ex_ops_ok|split; [exact ex_separated|split; [simpl; lia|discriminate]]].
Qed.
