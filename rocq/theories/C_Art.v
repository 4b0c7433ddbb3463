(** Theorems about ART models: C19, C29 (add_art half), C32-C35. *)
From Coq Require Import String ZArith Reals Lra Lia Psatz Bool Arith List.
From Verif Require Import Base LinAlg Constants M_Validate M_StructUtils M_Symmetry M_Reference M_Interp M_Art
  S_Lattice S_Vec S_Symmetry S_Equivalent S_Interp S_Art P_Interp2 P_Interp3 P_Examples1 P_Examples2 P_Art P_Art2 P_Examples3.
Import ListNotations.
Local Open Scope R_scope.

(** C19: a call that raises changes nothing. *)
Theorem C19_art_exception_safe : forall o s s' w e, run_aop o s = ((s', w), Err e) -> s' = s.
Proof. exact f_C19_art. Qed.
Print Assumptions C19_art_exception_safe.
Example C19_art_nonvacuous : exists o s s' w e, run_aop o s = ((s', w), Err e).
Proof.
  exists (OpBase (OpAddDof [] (vec_arr []) (vec_arr []) 1%Z true)), (make_model (mkRef [] mI [] [] [] []) m0 false).
  do 3 eexists. reflexivity.
Qed.

(** C29: within the half cell add_art depends on the direction only up to a positive factor. *)
Theorem C29_art_only_direction_matters : forall c v atom amps pols s,
  0 < c -> half_cell [v] -> half_cell [vscale c v] ->
  let d := vmul v (rs_lattice (im_ref s)) in
  add_art atom [c * vx d; c * vy d; c * vz d] amps pols s = add_art atom [vx d; vy d; vz d] amps pols s.
Proof. exact f_C29_art. Qed.
Print Assumptions C29_art_only_direction_matters.
Example C29_art_nonvacuous : half_cell [mkV (/10) (/5) 0] /\ half_cell [vscale 2 (mkV (/10) (/5) 0)].
Proof. split; repeat constructor; simpl; lra. Qed.

(** C32 *)
Theorem C32_disabled_entry_points : forall s cart amps pols order inc rds poss,
  art_add_dof cart amps pols order inc s = ((s, []), Err UserError) /\
  art_add_dof_from_files rds order s = ((s, []), Err UserError) /\
  art_add_dof_from_pymatgen poss pols order s = ((s, []), Err UserError).
Proof. exact f_C32. Qed.
Print Assumptions C32_disabled_entry_points.
(** No history of inherited calls gives an ART model a DOF. *)
Theorem C32_history : forall s ops,
  (forall o, In o ops -> match o with OpBase _ => True | _ => False end) ->
  im_basis (arun s ops) = im_basis s /\ im_interp (arun s ops) = im_interp s.
Proof. exact f_C32_history. Qed.
Print Assumptions C32_history.
Example C32_nonvacuous : exists ops, ops <> [] /\ forall o, In o ops -> match o with OpBase _ => True | _ => False end.
Proof.
  exists [OpBase (OpAddDof ex_d1 (vec_arr ex_amps) (mats_arr (ex_pols mI)) 1%Z true); OpBase OpUnmask].
  split; [discriminate|]. intros o [<-|[<-|[]]]; exact I.
Qed.

(** C33 *)
Theorem C33_single_atom : forall atom dir amps pols s s' w,
  symmetric_reference (im_ref s) ->
  add_art atom dir amps pols s = ((s', w), Ok tt) ->
  exists bs sps, bs <> [] /\ im_basis s' = im_basis s ++ bs /\
    im_interp s' = (if im_dummy s then im_interp s else im_interp s ++ sps) /\ List.length sps = List.length bs /\
    Forall (fun b => exists j op pi, moves_only b j /\ In op (rs_ops (im_ref s)) /\
       row_symmetry (rs_positions (im_ref s)) (fst op) (snd op) pi /\
       names_atom (List.length (rs_positions (im_ref s))) atom (pi j)) bs /\
    Forall (fun sp => sp_order sp = 1%nat /\
       forall p, In p (sp_pts sp) -> exists a c, In a (ra_data amps) /\ c <> 0 /\ fst p = c * a) sps.
Proof. exact f_C33. Qed.
Print Assumptions C33_single_atom.
Theorem C33_first_order : forall m,
  reachable_art m -> Forall (fun sp => sp_order sp = 1%nat) (im_interp m).
Proof. exact f_C33_order. Qed.
Print Assumptions C33_first_order.
Theorem C33_history : forall r pol dummy ops,
  symmetric_reference r -> Forall adds_by_add_art ops ->
  Forall (fun b => exists k, moves_only b k) (im_basis (arun (make_model r pol dummy) ops)).
Proof. exact f_C33_history. Qed.
Print Assumptions C33_history.
Example C33_nonvacuous : exists s s' w, symmetric_reference (im_ref s) /\ reachable_art s' /\ List.length (im_basis s') = 2%nat /\
  add_art 1 [0; 3/10; 0] (vec_arr ex_amps2) (mats_arr (ex_pols mI)) s = ((s', w), Ok tt).
Proof.
  destruct (ex_art mI false) as (r & s1 & s2 & w1 & w2 & _ & _ & _ & _ & A2 & R & S & _ & _ & E1 & E2 & B).
  exists s1, s2, w2. rewrite E1, <- E2, B. auto.
Qed.

(** C34: indexes of the DOFs of the requested atoms *)
Theorem C34_dof_indexes : forall set m items,
  lists_set set -> reachable m ->
  (forall n, In n (rs_numbers (im_ref m)) -> exists s, atom_symbol n = Ok s) ->
  let N := List.length (rs_positions (im_ref m)) in
  ((forall a, asked_for (im_ref m) items a -> exists k, names_atom N a k) ->
    exists l, get_dof_indexes set m items = Ok l /\
      (forall i, In i l <-> exists a k b, asked_for (im_ref m) items a /\ names_atom N a k /\
         nth_error (im_basis m) i = Some b /\ exceeds (/ 100000) (nth k b v0)) /\
      ((forall a a' k, asked_for (im_ref m) items a -> asked_for (im_ref m) items a' ->
          names_atom N a k -> names_atom N a' k -> a = a') ->
       Forall (fun b => exists k, moves_only b k) (im_basis m) -> NoDup l)) /\
  ((exists a, asked_for (im_ref m) items a /\ forall k, ~ names_atom N a k) ->
     im_basis m <> [] -> get_dof_indexes set m items = Err IndexError).
Proof. exact f_C34. Qed.
Print Assumptions C34_dof_indexes.
(** Specification tuples: (atom, equivalents, Cartesian directions of its DOFs), in the order
    of the dictionary of equivalent atoms *)
Theorem C34_specification_tuples : forall set m d,
  lists_set set -> reachable m ->
  List.length (rs_equiv (im_ref m)) = List.length (rs_positions (im_ref m)) ->
  get_equivalent_atom_dict (im_ref m) = Ok d ->
  exists l, get_specification_tuples set m = Ok l /\
    Forall2 (fun kv t => fst t = kv /\
      selects (exceeds (/ 100000)) (map (fun b => nth (fst kv) b v0) (im_basis m)) (snd t)) d l.
Proof. exact f_C34_tuples. Qed.
Print Assumptions C34_specification_tuples.
Example C34_nonvacuous : exists m d, reachable m /\ List.length (im_basis m) = 2%nat /\
  (forall n, In n (rs_numbers (im_ref m)) -> exists s, atom_symbol n = Ok s) /\
  (forall a, asked_for (im_ref m) [ByIndex (-1)] a -> exists k, names_atom (List.length (rs_positions (im_ref m))) a k) /\
  List.length (rs_equiv (im_ref m)) = List.length (rs_positions (im_ref m)) /\
  get_equivalent_atom_dict (im_ref m) = Ok d.
Proof.
  destruct (ex_art mI false) as (r & s1 & s2 & w1 & w2 & _ & _ & Hp & _ & _ & R & _ & N & E & _ & E2 & B).
  exists s2, [(0%nat, []); (1%nat, [])]. rewrite B, N. unfold get_equivalent_atom_dict. rewrite E, E2, Hp.
  split; [right; auto|]. split; [auto|]. split; [intros n [<-|[<-|[]]]; eexists; reflexivity|].
  split; [|split; reflexivity].
  intros a [[H|[]]|(s & z & k & [H|[]] & _)]; [|discriminate]. injection H as <-. exists 1%nat. split; simpl; lia.
Qed.

(** C35: shapes accepted by add_art *)
Theorem C35_add_art_shapes : forall atom dir amps pols s,
  (List.length dir <> 3%nat -> add_art atom dir amps pols s = ((s, []), Err ValueError)) /\
  (List.length dir = 3%nat -> mdet (rs_lattice (im_ref s)) <> 0 ->
    (ra_shape amps <> [1%nat] -> ra_shape amps <> [2%nat] -> add_art atom dir amps pols s = ((s, []), Err ValueError)) /\
    (forall n, n = 1%nat \/ n = 2%nat -> ra_shape amps = [n] -> rarr_wf amps ->
       (im_dummy s = false -> ra_shape pols <> [n; 3%nat; 3%nat] -> add_art atom dir amps pols s = ((s, []), Err ValueError)) /\
       ((im_dummy s = false -> ra_shape pols = [n; 3%nat; 3%nat]) ->
          (forall k, ~ names_atom (List.length (rs_positions (im_ref s))) atom k) ->
          add_art atom dir amps pols s = ((s, []), Err IndexError)))).
Proof. exact f_C35_shapes. Qed.
Print Assumptions C35_add_art_shapes.
(** On a structure without symmetry add_art accepts two distinct amplitudes. *)
Theorem C35_add_art_accepts : forall s k f a1 a2 q1 q2,
  identity_first (im_ref s) [] -> reachable s -> mdet (rs_lattice (im_ref s)) <> 0 ->
  (k < List.length (rs_positions (im_ref s)))%nat -> half_cell [f] -> f <> v0 ->
  let d := vmul f (rs_lattice (im_ref s)) in
  (forall b, In b (im_basis s) -> vdot (nth k b v0) d = 0) ->
  ~ too_close a1 a2 -> im_dummy s = false ->
  exists s' w b sp,
    add_art (Z.of_nat k) [vx d; vy d; vz d] (vec_arr [a1; a2]) (mats_arr [q1; q2]) s = ((s', w), Ok tt) /\
    im_basis s' = im_basis s ++ [b] /\ im_interp s' = im_interp s ++ [sp] /\ moves_only b k /\
    (forall p, In p (sp_pts sp) <-> p = (a1, msub q1 (im_refpol s)) \/ p = (a2, msub q2 (im_refpol s))).
Proof. exact f_C35_accepts. Qed.
Print Assumptions C35_add_art_accepts.
Example C35_add_art_nonvacuous : exists s s' w, im_dummy s = false /\
  add_art 0 [/5; 0; 0] (vec_arr ex_amps2) (mats_arr (ex_pols mI)) s = ((s', w), Ok tt).
Proof.
  destruct (ex_art mI false) as (r & s1 & s2 & w1 & w2 & _ & _ & _ & A & _). do 3 eexists. split; [|exact A]. auto.
Qed.
(** Files and pymatgen structures: one moving atom, two points *)
Theorem C35_files_accepted : forall p0 pol0 rds s s' w d0,
  List.length p0 = List.length (rs_positions (im_ref s)) ->
  half_images (rows_sub p0 (rs_positions (im_ref s))) d0 ->
  add_art_from_files (Ok (p0, pol0) :: rds) s = ((s', w), Ok tt) ->
  (forall k, most_displaced d0 k -> forall j, j <> k -> ~ exceeds (/ 1000000) (nth j d0 v0)) /\
  exists bs sp sps, bs <> [] /\ im_basis s' = im_basis s ++ bs /\
    im_interp s' = (if im_dummy s then im_interp s else im_interp s ++ sp :: sps) /\ List.length (sp :: sps) = List.length bs /\
    sp_order sp = 1%nat /\ List.length (sp_pts sp) = 2%nat.
Proof. exact f_C35_files. Qed.
Print Assumptions C35_files_accepted.
Theorem C35_pymatgen_accepted : forall p0 poss pols s s' w d0,
  List.length p0 = List.length (rs_positions (im_ref s)) ->
  half_images (rows_sub p0 (rs_positions (im_ref s))) d0 ->
  add_art_from_pymatgen (p0 :: poss) pols s = ((s', w), Ok tt) ->
  (forall k, most_displaced d0 k -> forall j, j <> k -> ~ exceeds (/ 1000000) (nth j d0 v0)) /\
  exists bs sp sps, bs <> [] /\ im_basis s' = im_basis s ++ bs /\
    im_interp s' = (if im_dummy s then im_interp s else im_interp s ++ sp :: sps) /\ List.length (sp :: sps) = List.length bs /\
    sp_order sp = 1%nat /\ List.length (sp_pts sp) = 2%nat.
Proof. exact f_C35_pymatgen. Qed.
Print Assumptions C35_pymatgen_accepted.
Theorem C35_files_several_atoms_rejected : forall p0 pol0 rds s d0 k j,
  mdet (rs_lattice (im_ref s)) <> 0 ->
  Forall (fun rd => exists p pol, rd = Ok (p, pol) /\ List.length p = List.length (rs_positions (im_ref s))) (Ok (p0, pol0) :: rds) ->
  half_images (rows_sub p0 (rs_positions (im_ref s))) d0 -> most_displaced d0 k -> j <> k ->
  exceeds (/ 1000000) (nth j d0 v0) ->
  add_art_from_files (Ok (p0, pol0) :: rds) s = ((s, []), Err InvalidDOFException).
Proof. exact f_C35_files_rejects. Qed.
Print Assumptions C35_files_several_atoms_rejected.
Theorem C35_pymatgen_several_atoms_rejected : forall p0 poss pols s d0 k j,
  mdet (rs_lattice (im_ref s)) <> 0 ->
  Forall (fun p => List.length p = List.length (rs_positions (im_ref s))) (p0 :: poss) ->
  half_images (rows_sub p0 (rs_positions (im_ref s))) d0 -> most_displaced d0 k -> j <> k ->
  exceeds (/ 1000000) (nth j d0 v0) ->
  add_art_from_pymatgen (p0 :: poss) pols s = ((s, []), Err InvalidDOFException).
Proof. exact f_C35_pymatgen_rejects. Qed.
Print Assumptions C35_pymatgen_several_atoms_rejected.
Example C35_files_nonvacuous : exists s s' w, List.length [mkV (/10) 0 0] = List.length (rs_positions (im_ref s)) /\
  half_images (rows_sub [mkV (/10) 0 0] (rs_positions (im_ref s))) exf_d /\
  add_art_from_files [Ok ([mkV (/10) 0 0], mI); Ok ([mkV (9/10) 0 0], mscale 2 mI)] s = ((s', w), Ok tt).
Proof.
  destruct (ex_art_files mI mI (mscale 2 mI)) as (r & s1 & w1 & _ & Hp & A). exists (make_model r mI false), s1, w1.
  simpl im_ref. rewrite Hp. split; [auto|split; [exact exf_half|exact A]].
Qed.
Example C35_several_atoms_nonvacuous : exists d, half_images (rows_sub [mkV (35/100) 0 0; mkV (76/100) 0 0] ex_pos) d /\
  most_displaced d 0 /\ exceeds (/ 1000000) (nth 1 d v0).
Proof. exact ex_two_move. Qed.
