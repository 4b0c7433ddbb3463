(** Property C98, continued: any Python values given to the structure utilities and as paths. *)
From Coq Require Import String ZArith NArith Reals Bool Arith List.
From Verif Require Import Base LinAlg M_Text M_Poscar M_Args M_Arrays M_Values S_Lattice S_Dataset S_Arrays S_Args S_Values P_Arrays P_Values.
Import ListNotations.
Local Open Scope nat_scope.

(** Numbers and arrays are wrapped; anything else is a TypeError naming the argument. *)
Theorem C98_wrap : forall v,
  (forall a, numeric v a -> exists w b, apply_pbc_v v = Done w /\ numeric w b /\ na_shape b = na_shape a /\
     Forall2 (wrapped_to cell_image) (na_data a) (na_data b)) /\
  (not_numeric v -> apply_pbc_v v = Raise TypeError (about_type (txt "positions") (txt "ndarray") v)).
Proof. exact f_C98_wrap. Qed.
Print Assumptions C98_wrap.

(** The same for displacements, except for text that Python cannot use as a format. *)
Theorem C98_wrap_displacement : forall bad_format v,
  (forall a, numeric v a -> exists w b, apply_pbc_displacement_v bad_format v = Done w /\ numeric w b /\ na_shape b = na_shape a /\
     Forall2 (wrapped_to half_image) (na_data a) (na_data b)) /\
  (not_numeric v -> (forall s, v = VStr s -> bad_format s = None) ->
     apply_pbc_displacement_v bad_format v = Raise TypeError (about_type (txt "displacement") (txt "ndarray") v)) /\
  (forall s m, v = VStr s -> bad_format s = Some m -> apply_pbc_displacement_v bad_format v = Raise ValueError m).
Proof. exact f_C98_wrap_displacement. Qed.
Print Assumptions C98_wrap_displacement.

Theorem C98_displace : forall no_broadcast bad_format p d,
  (not_numeric p -> displace_positions_v no_broadcast bad_format p d = Raise TypeError (about_type (txt "positions") (txt "ndarray") p)) /\
  (forall a, numeric p a -> not_numeric d -> (forall s, d = VStr s -> bad_format s = None) ->
     displace_positions_v no_broadcast bad_format p d = Raise TypeError (about_type (txt "displacement") (txt "ndarray") d)) /\
  (forall a b, numeric p a -> numeric d b -> narr_wf a -> narr_wf b ->
     ((exists out, broadcasts (na_shape a) (na_shape b) out) ->
        exists w c, displace_positions_v no_broadcast bad_format p d = Done w /\ numeric w c /\ combined displaced_to a b c) /\
     ((~ exists out, broadcasts (na_shape a) (na_shape b) out) ->
        displace_positions_v no_broadcast bad_format p d = Raise ValueError (no_broadcast (na_shape a) (na_shape b)))).
Proof. exact f_C98_displace. Qed.
Print Assumptions C98_displace.

Theorem C98_measure : forall no_broadcast bad_format p q,
  (not_numeric p -> calc_displacement_v no_broadcast bad_format p q = Raise TypeError (about_type (txt "positions") (txt "ndarray") p)) /\
  (forall a, numeric p a -> not_numeric q ->
     calc_displacement_v no_broadcast bad_format p q = Raise TypeError (about_type (txt "positions") (txt "ndarray") q)) /\
  (forall a b, numeric p a -> numeric q b -> narr_wf a -> narr_wf b ->
     ((exists out, broadcasts (na_shape a) (na_shape b) out) ->
        exists w c, calc_displacement_v no_broadcast bad_format p q = Done w /\ numeric w c /\ combined measured_to a b c) /\
     ((~ exists out, broadcasts (na_shape a) (na_shape b) out) ->
        calc_displacement_v no_broadcast bad_format p q = Raise ValueError (no_broadcast (na_shape b) (na_shape a)))).
Proof. exact f_C98_measure. Qed.
Print Assumptions C98_measure.

(** "The exception tells which of the two arguments of calc_displacement is wrong" is false. *)
Theorem C98_measure_name_refuted : forall no_broadcast bad_format a, exists p q q' m,
  not_numeric p /\ not_numeric q' /\ numeric q a /\
  calc_displacement_v no_broadcast bad_format p q = Raise TypeError m /\
  calc_displacement_v no_broadcast bad_format q q' = Raise TypeError m.
Proof. exact f_C98_measure_untold. Qed.
Print Assumptions C98_measure_name_refuted.

(** transform_positions *)
Theorem C98_transform_positions : forall mt nb bf np ns p r t,
  (~ meets p (HasShape [SAny; SDim 3]) ->
     exists e m, complaint mt (Arg (txt "positions") p (HasShape [SAny; SDim 3])) e m /\ transform_positions_v mt nb bf np ns p r t = Raise e m) /\
  (meets p (HasShape [SAny; SDim 3]) -> Exists beyond (entries p) ->
     transform_positions_v mt nb bf np ns p r t = Raise ValueError (txt "positions has coordinates that are not between 0 and 1")).
Proof. exact f_C98_transform_positions_arg. Qed.
Print Assumptions C98_transform_positions.

(** A rotation of the wrong shape or a text is complained about by name - but a number, which has no
    shape, makes the complaint itself fail. *)
Theorem C98_transform_rotation : forall mt nb bf np ns p n r t, na_shape p = [n; 3] -> within_cell p ->
  (forall dims data, r = VArray dims data -> (~ exists s, product_shape n dims s) ->
     transform_positions_v mt nb bf np ns (of_narr p) r t = Raise ValueError (about_shape mt (txt "rotation") dims [SDim 3; SDim 3])) /\
  (forall s, r = VStr s ->
     transform_positions_v mt nb bf np ns (of_narr p) r t = Raise TypeError (about_type (txt "rotation") (txt "ndarray") r)) /\
  (forall ty x, r = VNumber ty x -> transform_positions_v mt nb bf np ns (of_narr p) r t = Raise AttributeError (ns r)).
Proof. exact f_C98_rotation. Qed.
Print Assumptions C98_transform_rotation.

(** "A wrong translation is complained about as translation" is false: it is called displacement. *)
Theorem C98_transform_translation_refuted : forall mt nb bf np ns p n dims data s t, na_shape p = [n; 3] -> within_cell p ->
  product_shape n dims s -> not_numeric t -> (forall w, t = VStr w -> bf w = None) ->
  transform_positions_v mt nb bf np ns (of_narr p) (VArray dims data) t
  = Raise TypeError (about_type (txt "displacement") (txt "ndarray") t).
Proof. exact f_C98_translation. Qed.
Print Assumptions C98_transform_translation_refuted.

(** On arrays this is transform_positions of C06 and C07. *)
Theorem C98_transform_arrays : forall mt nb bf np ns p r t, narr_wf p -> narr_wf r -> narr_wf t ->
  (accepted p r t -> exists w q, transform_positions_v mt nb bf np ns (of_narr p) (of_narr r) (of_narr t) = Done w /\
     numeric w q /\ transform_positions_array p r t = Ok q) /\
  (~ accepted p r t -> exists m, transform_positions_v mt nb bf np ns (of_narr p) (of_narr r) (of_narr t) = Raise ValueError m).
Proof. exact f_C98_transform_arrays. Qed.
Print Assumptions C98_transform_arrays.

(** Paths: texts and path objects, alone or in a list that is not empty; the first item that is
    neither is shown. *)
Theorem C98_paths : forall show,
  (forall p s, names_path p s -> pathify_as_list show (POne p) = Done [s]) /\
  (forall v, pathify_as_list show (POne (PNot v)) = Raise TypeError (show v ++ txt " cannot be resolved as a filepath")) /\
  pathify_as_list show (PList []) = Raise ValueError (txt "filepaths is empty") /\
  (forall l ps, l <> [] -> Forall2 names_path l ps -> pathify_as_list show (PList l) = Done ps) /\
  (forall l ps v rest, Forall2 names_path l ps ->
     pathify_as_list show (PList (l ++ PNot v :: rest)) = Raise TypeError (show v ++ txt " cannot be resolved as a filepath")).
Proof. exact f_C98_paths. Qed.
Print Assumptions C98_paths.

Example C98_values_nonvacuous :
  numeric (VNumber (txt "float") (Fin 3)) (mkNarr [] [Fin 3]) /\ numeric (of_narr ex_row) ex_row /\
  not_numeric (VList [VNumber (txt "int") (Fin 1)]) /\ not_numeric (VOther (txt "NoneType")) /\ not_numeric (VStr (txt "0.5")) /\
  (exists n, na_shape ex_row = [n; 3] /\ within_cell ex_row /\ (exists s, product_shape n [3; 3] s) /\ ~ exists s, product_shape n [2; 3] s) /\
  names_path (PStr (txt "OUTCAR")) (txt "OUTCAR").
Proof. exact ex_values. Qed.
