(** C97: what printing a model tells. *)
From Coq Require Import String ZArith NArith Reals Bool Arith List.
From Verif Require Import Base LinAlg M_Validate M_StructUtils M_Symmetry M_Reference M_Interp M_Art M_Text M_Repr
  S_Lattice S_Vec S_Symmetry S_Equivalent S_Interp S_Art S_Images S_Response S_Repr P_Images2 P_Examples12 P_Repr P_Repr2.
Import ListNotations.
Local Open Scope R_scope.

(** C97: the text of an InterpolationModel begins with the number of its degrees of freedom, of
    three per atom, and is green exactly when they are equal. *)
Theorem C97_count : forall m c k n, begins_with c k n (interpolation_repr m) <->
  k = List.length (im_basis m) /\ n = (3 * List.length (rs_positions (im_ref m)))%nat /\ colour_for c k n.
Proof. exact f_C97_count. Qed.
Print Assumptions C97_count.

(** C97: two models print alike exactly when they have as many degrees of freedom, coordinates
    and masked degrees of freedom and are both dummies or both not: masked degrees of freedom
    and dummies are always reported. *)
Theorem C97_alike : forall m m', interpolation_repr m = interpolation_repr m' <-> summary_of m = summary_of m'.
Proof. exact f_C97_alike. Qed.
Print Assumptions C97_alike.

(** C97: if the degrees of freedom are orthonormal, green means that every displacement of the
    atoms is a combination of them, and red that there are none. *)
Theorem C97_green : forall m k n, reachable m -> orthonormal (im_basis m) ->
  (begins_with Green k n (interpolation_repr m) -> spans (List.length (rs_positions (im_ref m))) (im_basis m)) /\
  (begins_with Red k n (interpolation_repr m) -> k = 0%nat).
Proof. exact f_C97_green. Qed.
Print Assumptions C97_green.

(** C97: a green model of a symmetric linear response with orthonormal degrees of freedom is exact *)
Theorem C97_green_exact : forall spl L pos ops r pol l m k n xs us,
  crystal L pos ops r -> linear_response (List.length pos) l -> symmetric_response pos ops l -> sampled r pol l m ->
  orthonormal (im_basis m) -> begins_with Green k n (interpolation_repr m) ->
  sample_shape (List.length pos) xs -> Forall2 (displacement_from r) xs us ->
  calc_polarizabilities spl m (batch_of (List.length pos) xs) = Ok (map (fun u => madd pol (l u)) us).
Proof. exact f_C97_trust. Qed.
Print Assumptions C97_green_exact.

(** C97: but not if they are not orthonormal, which printing does not tell: a model to which the
    library has accepted every degree of freedom prints in green and is wrong. *)
Theorem C97_green_exact_refuted : ~ forall spl L pos ops r pol l m k n xs us,
  crystal L pos ops r -> linear_response (List.length pos) l -> symmetric_response pos ops l -> sampled r pol l m ->
  begins_with Green k n (interpolation_repr m) ->
  sample_shape (List.length pos) xs -> Forall2 (displacement_from r) xs us ->
  calc_polarizabilities spl m (batch_of (List.length pos) xs) = Ok (map (fun u => madd pol (l u)) us).
Proof. exact f_C97_trust_refuted. Qed.
Print Assumptions C97_green_exact_refuted.

(** C97: the table of an ART model has a row for every group of equivalent atoms, with the
    directions of the first of them, their number of three and how many atoms are equivalent
    to it; *)
Theorem C97_table : forall set show m d, lists_set set -> reachable m ->
  List.length (rs_equiv (im_ref m)) = List.length (rs_positions (im_ref m)) ->
  get_equivalent_atom_dict (im_ref m) = Ok d ->
  exists dirs rows, art_table set show m = Ok ([txt "Atom index"; txt "Directions"; txt "Specified"; txt "Equivalent atoms"] :: rows) /\
    List.length dirs = List.length d /\ List.length rows = List.length d /\
    forall i kv ds row, nth_error d i = Some kv -> nth_error dirs i = Some ds -> nth_error rows i = Some row -> art_row show m kv ds row.
Proof. exact f_C97_table. Qed.
Print Assumptions C97_table.
(** C97: every atom is in one row, so the rows and the atoms equivalent to theirs make up the
    structure; *)
Theorem C97_table_atoms : forall r d, get_equivalent_atom_dict r = Ok d ->
  list_sum (map (fun kv : nat * list nat => 1 + List.length (snd kv))%nat d) = List.length (rs_equiv r).
Proof. exact f_C97_atoms. Qed.
Print Assumptions C97_table_atoms.
(** C97: no row counts more than three directions if the degrees of freedom are orthonormal and
    move one atom each, and a row with three has a complete set; *)
Theorem C97_table_row : forall m k dirs, reachable m -> orthonormal (im_basis m) ->
  Forall (fun b => exists j, moves_only b j) (im_basis m) ->
  selects (exceeds (/ 100000)) (map (fun b => nth k b v0) (im_basis m)) dirs ->
  (List.length dirs <= 3)%nat /\ (List.length dirs = 3%nat -> spans 1 (map (fun v => [v]) dirs)).
Proof. exact f_C97_row. Qed.
Print Assumptions C97_table_row.
(** C97: and if no two atoms are equivalent, there is a row for every atom in order and the
    counts add up to the number of degrees of freedom. *)
Theorem C97_table_total : forall set show m, lists_set set -> reachable m -> no_equivalent_atoms (im_ref m) ->
  Forall (fun b => exists j, moves_only b j) (im_basis m) ->
  exists counts rows, art_table set show m = Ok ([txt "Atom index"; txt "Directions"; txt "Specified"; txt "Equivalent atoms"] :: rows) /\
    List.length rows = List.length (rs_positions (im_ref m)) /\ List.length counts = List.length rows /\
    (forall i k row, nth_error counts i = Some k -> nth_error rows i = Some row ->
       exists d c, row = [str_int (Z.of_nat i); d; fraction c k 3; str_int 0]) /\
    list_sum counts = List.length (im_basis m).
Proof. exact f_C97_total. Qed.
Print Assumptions C97_table_total.
(** C97: beneath the table there is something exactly when something is masked or the model is a
    dummy. *)
Theorem C97_table_notes : forall set show tab m table, art_table set show m = Ok table ->
  exists notes, art_repr set show tab m = Ok (tab table ++ notes) /\
    (notes = [] <-> masked_count (im_mask m) = 0%nat /\ im_dummy m = false).
Proof. exact f_C97_notes. Qed.
Print Assumptions C97_table_notes.

(** A complete model of two atoms exchanged by a mirror plane, and a new one *)
Example C97_nonvacuous : exists r m, fully_sampled mI sw_pos sw_ops r mI ex_resp m /\ reachable m /\
  begins_with Green 6 6 (interpolation_repr m) /\ begins_with Red 0 6 (interpolation_repr (make_model r mI false)) /\
  interpolation_repr m <> interpolation_repr (make_model r mI false).
Proof. exact ex_C97. Qed.
(** An ART model of two inequivalent atoms, with a direction each *)
Example C97_table_nonvacuous : exists set m d, lists_set set /\ reachable m /\ orthonormal (im_basis m) /\ List.length (im_basis m) = 2%nat /\
  no_equivalent_atoms (im_ref m) /\ Forall (fun b => exists j, moves_only b j) (im_basis m) /\
  List.length (rs_equiv (im_ref m)) = List.length (rs_positions (im_ref m)) /\ get_equivalent_atom_dict (im_ref m) = Ok d.
Proof. exact ex_C97_art. Qed.
