(** Properties C01-C07, C76: periodic coordinates and validators. *)
From Coq Require Import String ZArith Reals Lra Lia List.
From Verif Require Import Base LinAlg M_Validate M_StructUtils M_Reference S_Lattice
  P_StructUtils P_Minimal P_StructFinal P_Examples1.
Import ListNotations.
Local Open Scope R_scope.

(** C01: [apply_pbc] returns, for every array, the unique image with all coordinates
    in [0,1) (hence same shape), is idempotent and invariant under lattice translations. *)
Theorem C01_apply_pbc_canonical : forall p,
  (forall q, q = apply_pbc p <-> cell_images p q) /\ length (apply_pbc p) = length p /\
  apply_pbc (apply_pbc p) = apply_pbc p /\
  (forall q, same_mod_lattice p q -> apply_pbc q = apply_pbc p).
Proof. exact f_C01. Qed.
Print Assumptions C01_apply_pbc_canonical.
Example C01_nonvacuous : cell_images [mkV (-1/4) (5/2) 1] [mkV (3/4) (1/2) 0].
Proof.
  constructor; [|constructor]. unfold vall2, cell_image, congr1; simpl.
  split; [split; [exists (-1)%Z; lra|lra]|split; [split; [exists 2%Z; lra|lra]|split; [exists 1%Z; lra|lra]]].
Qed.

(** C02: [apply_pbc_displacement] returns the unique image in (-1/2,1/2], and no
    congruent coordinate is smaller in absolute value. *)
Theorem C02_apply_pbc_displacement_canonical : forall p,
  (forall q, q = apply_pbc_displacement p <-> half_images p q) /\
  (forall q, same_mod_lattice p q ->
     Forall2 (vall2 (fun r y => Rabs r <= Rabs y)) (apply_pbc_displacement p) q).
Proof. exact f_C02. Qed.
Print Assumptions C02_apply_pbc_displacement_canonical.
Example C02_nonvacuous : half_images [mkV (-1/2) (3/4) 1] [mkV (1/2) (-1/4) 0].
Proof.
  constructor; [|constructor]. unfold vall2, half_image, congr1; simpl.
  split; [split; [exists (-1)%Z; lra|lra]|split; [split; [exists 1%Z; lra|lra]|split; [exists 1%Z; lra|lra]]].
Qed.

(** C03 *)
Theorem C03_displace_calc_inverse : forall p d q,
  length p = length d -> length p = length q ->
  (exists m, displace_positions p d = Ok m /\
     exists d', calc_displacement p m = Ok d' /\ half_images d d' /\ cell_images (rows_add p d) m) /\
  (exists d', calc_displacement p q = Ok d' /\ half_images (rows_sub q p) d' /\
     exists m, displace_positions p d' = Ok m /\ cell_images q m) /\
  (forall p' q', same_mod_lattice p p' -> same_mod_lattice q q' ->
     calc_displacement p' q' = calc_displacement p q).
Proof. exact f_C03. Qed.
Print Assumptions C03_displace_calc_inverse.
Example C03_nonvacuous : length ex_pos = length ex_disp /\ length ex_pos = length ex_pos.
Proof. split; reflexivity. Qed.

(** C03, error case: arrays that do not broadcast are rejected. *)
Theorem C03_shape_mismatch : forall p d,
  length p <> length d -> length p <> 1%nat -> length d <> 1%nat ->
  displace_positions p d = Err ValueError.
Proof. exact displace_mismatch. Qed.
Print Assumptions C03_shape_mismatch.
Example C03_mismatch_nonvacuous : length ex_pos <> 3%nat /\ length ex_pos <> 1%nat /\ 3%nat <> 1%nat.
Proof. simpl; lia. Qed.

(** C04 *)
Theorem C04_calc_displacement_swap : forall p q d,
  length p = length q -> calc_displacement p q = Ok d ->
  exists d', calc_displacement q p = Ok d' /\
  Forall2 (vall2 (fun x y => (x <> / 2 -> y = - x) /\ (x = / 2 -> y = / 2))) d d'.
Proof. exact calc_displacement_swap. Qed.
Print Assumptions C04_calc_displacement_swap.
Example C04_nonvacuous : exists d, calc_displacement ex_pos ex_disp = Ok d.
Proof. rewrite calc_displacement_eq by reflexivity. eauto. Qed.

(** C05: for mutually orthogonal lattice vectors, no periodic image is closer. *)
Theorem C05_shortest_in_orthogonal_cells : forall L p q d,
  orthogonal_cell L -> length p = length q -> calc_displacement p q = Ok d ->
  forall e, same_mod_lattice (rows_sub q p) e ->
  Forall2 (fun a b => vnorm2 (vmul a L) <= vnorm2 (vmul b L)) d e.
Proof. exact calc_displacement_shortest. Qed.
Print Assumptions C05_shortest_in_orthogonal_cells.
Example C05_nonvacuous : orthogonal_cell ex_lat.
Proof. unfold orthogonal_cell, ex_lat, vdot; simpl; lra. Qed.
(** ... and the documented "minimum displacement" is false for skewed cells. *)
Theorem C05_minimum_refuted :
  exists (L : M3) (p q d e : V3),
    mdet L <> 0 /\ calc_displacement [p] [q] = Ok [d] /\ vcongr (vsub q p) e /\
    vnorm2 (vmul e L) < vnorm2 (vmul d L).
Proof. exact calc_displacement_not_shortest. Qed.
Print Assumptions C05_minimum_refuted.

(** C06 *)
Theorem C06_transform_is_action : forall p R t,
  Forall (vall (fun x => 0 <= x <= 1)) p -> integer_matrix R ->
  exists q, transform_positions p R t = Ok q /\ cell_images (map (fun v => vadd (vmul v R) t) p) q /\
  (forall p', Forall (vall (fun x => 0 <= x <= 1)) p' -> same_mod_lattice p p' ->
     transform_positions p' R t = Ok q) /\
  (forall R' t', integer_matrix R' ->
     transform_positions q R' t' = transform_positions p (mmul R R') (vadd (vmul t R') t')) /\
  transform_positions p mI v0 = Ok (apply_pbc p).
Proof. exact f_C06. Qed.
Print Assumptions C06_transform_is_action.
Example C06_nonvacuous : Forall (vall (fun x => 0 <= x <= 1)) ex_pos /\ integer_matrix ex_mirror.
Proof. split; [exact ex_pos_ok|exact ex_mirror_int]. Qed.

(** C07: exactly the (N,3) arrays with non-NaN entries in [0,1] are accepted. *)
Theorem C07_position_validation : forall a rot t,
  ((exists r, transform_positions_nd a rot t = Ok r) <->
   (exists n, nd_shape a = [n; 3%nat]) /\ (forall x, In (Some x) (nd_data a) -> 0 <= x <= 1)) /\
  (forall e, transform_positions_nd a rot t = Err e -> e = ValueError) /\
  (forall p, a = nd_of_rows p -> Forall (vall (fun x => 0 <= x <= 1)) p ->
     transform_positions_nd a rot t = rmap Some (transform_positions p rot t)).
Proof. exact f_C07. Qed.
Print Assumptions C07_position_validation.
Theorem C07_constructor_rejects : forall numbers lattice positions op ops equiv,
  ~ Forall (vall (fun x => 0 <= x <= 1)) positions ->
  make_reference numbers lattice positions (Some (op :: ops, equiv)) = Err ValueError.
Proof. exact f_C07b. Qed.
Print Assumptions C07_constructor_rejects.
Theorem C07_constructor_accepts : forall numbers lattice positions ops equiv,
  Forall (vall (fun x => 0 <= x <= 1)) positions -> length positions = length numbers ->
  exists r, make_reference numbers lattice positions (Some (ops, equiv)) = Ok r /\
    rs_numbers r = numbers /\ rs_lattice r = lattice /\ rs_positions r = positions /\ rs_ops r = ops.
Proof. exact f_C07c. Qed.
Print Assumptions C07_constructor_accepts.
Example C07_nonvacuous : ~ Forall (vall (fun x => 0 <= x <= 1)) [mkV (3/2) 0 0] /\
  Forall (vall (fun x => 0 <= x <= 1)) ex_pos.
Proof. split; [intros H; inversion H as [|? ? [H1 _] _]; simpl in H1; lra|exact ex_pos_ok]. Qed.

(** C76: validators *)
Theorem C76_verify_shape : forall dims spec,
  (verify_ndarray_shape dims spec = Ok tt <->
   Forall2 (fun d s => match s with Some n => d = n | None => True end) dims spec) /\
  (verify_ndarray_shape dims spec <> Ok tt -> verify_ndarray_shape dims spec = Err ValueError).
Proof. exact verify_ndarray_shape_spec. Qed.
Print Assumptions C76_verify_shape.
Theorem C76_verify_list_len : forall len n,
  (verify_list_len len (Some n) = Ok tt <-> len = n /\ (n <= 256)%nat) /\
  (verify_list_len len (Some n) <> Ok tt -> verify_list_len len (Some n) = Err ValueError) /\
  verify_list_len len None = Ok tt.
Proof. exact verify_list_len_spec. Qed.
Print Assumptions C76_verify_list_len.
Example C76_nonvacuous : verify_ndarray_shape [7; 3]%nat [None; Some 3%nat] = Ok tt /\
  verify_list_len 256 (Some 256%nat) = Ok tt /\ verify_list_len 257 (Some 257%nat) = Err ValueError.
Proof. repeat split. Qed.
