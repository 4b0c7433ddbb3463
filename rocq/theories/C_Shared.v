(** C87: what polarizability models share with their caller and with one another.
    Worlds, calls and histories are in M_Shared.v; what is seen of them in S_Shared.v. *)
From Coq Require Import String ZArith Reals Lra Bool Arith List Lia.
From Verif Require Import Base LinAlg M_Validate M_Reference M_Interp M_Art M_Alias S_Interp S_Art P_Examples1 P_Examples2 P_Examples3
  M_Shared S_Shared P_Shared P_Shared2 P_Shared3 P_Shared4 P_Shared5 P_Examples13.
Import ListNotations.

(** Every call on a model has the effect and answer of the value-level model (used by C18-C35) *)
Theorem C87_calls_agree : forall spl w j v art,
  reached spl w -> model_at w j = Some v -> class_at w j = Some art ->
  (forall a, let '((v', _), r) := run_adding art a v in
     outcome spl w (Add j a) = r /\ model_at (after spl w (Add j a)) j = Some v') /\
  (forall i sh x, array_at w i = Some (sh, x) ->
     let '((v', _), r) := set_mask sh (map flag x) v in
     outcome spl w (SetMask j i) = r /\ model_at (after spl w (SetMask j i)) j = Some v') /\
  (outcome spl w (Unmask j) = Ok tt /\
   mask_at (after spl w (Unmask j)) j = Some (map (fun _ => false) (im_mask v))) /\
  (forall idx, match get_masked_model v idx with
     | Ok v' => outcome spl w (GetMasked j idx) = Ok tt /\
                model_at (after spl w (GetMasked j idx)) (length (w_models w)) = Some v'
     | Err e => outcome spl w (GetMasked j idx) = Err e
     end) /\
  (forall b, match calc_polarizabilities spl v b with
     | Ok ms => outcome spl w (Predict j b) = Ok tt /\
                array_at (after spl w (Predict j b)) (length (w_held w)) = Some ([length ms; 3; 3], flat_map matrix_data ms)
     | Err e => outcome spl w (Predict j b) = Err e
     end) /\
  (exists x, array_at (after spl w (GetMask j)) (length (w_held w)) = Some ([length (im_mask v)], x) /\
             map flag x = im_mask v) /\
  (exists x, array_at (after spl w (GetPolarizability j)) (length (w_held w)) = Some ([3; 3], x) /\
             matrix_of x = im_refpol v).
Proof. exact f_C87_calls. Qed.
Print Assumptions C87_calls_agree.

(** After [model.mask = array] the mask and the array stay the same thing until the model is given another mask or new DOFs *)
Theorem C87_mask_is_shared : forall spl w j i cs,
  reached spl w -> outcome spl w (SetMask j i) = Ok tt ->
  Forall (fun c => match c with Add k _ | SetMask k _ => k <> j | _ => True end) cs ->
  exists sh x, array_at (history spl (after spl w (SetMask j i)) cs) i = Some (sh, x) /\
               mask_at (history spl (after spl w (SetMask j i)) cs) j = Some (map flag x).
Proof. exact f_C87_mask_shared. Qed.
Print Assumptions C87_mask_is_shared.

(** [unmask] of one model unmasks every model that was given the same mask array, and clears the caller's array *)
Theorem C87_unmask_reaches_sharers : forall spl w j k i cs,
  reached spl w -> j <> k ->
  outcome spl w (SetMask j i) = Ok tt ->
  outcome spl (after spl w (SetMask j i)) (SetMask k i) = Ok tt ->
  Forall (fun c => match c with Add l _ | SetMask l _ => l <> j /\ l <> k | _ => True end) cs ->
  exists mask sh x,
    mask_at (history spl w (SetMask j i :: SetMask k i :: cs ++ [Unmask j])) k = Some mask /\
    Forall (fun b => b = false) mask /\
    array_at (history spl w (SetMask j i :: SetMask k i :: cs ++ [Unmask j])) i = Some (sh, x) /\
    Forall (fun c => flag c = false) x.
Proof. exact f_C87_unmask_reaches. Qed.
Print Assumptions C87_unmask_reaches_sharers.

(** A model's reference polarizability stays the caller's array, whatever is done *)
Theorem C87_polarizability_is_shared : forall spl w art r i cs,
  reached spl w ->
  outcome spl w (MakeModel art r i false) = Ok tt ->
  exists x v, array_at (history spl w (MakeModel art r i false :: cs)) i = Some ([3; 3], x) /\
    model_at (history spl w (MakeModel art r i false :: cs)) (length (w_models w)) = Some v /\
    im_refpol v = matrix_of x.
Proof. exact f_C87_polarizability_shared. Qed.
Print Assumptions C87_polarizability_is_shared.

(** A dummy model's reference polarizability is zero, whatever is done *)
Theorem C87_dummy_polarizability_zero : forall spl w art r i cs,
  reached spl w ->
  outcome spl w (MakeModel art r i true) = Ok tt ->
  exists v, model_at (history spl w (MakeModel art r i true :: cs)) (length (w_models w)) = Some v /\ im_refpol v = m0.
Proof. exact f_C87_dummy_zero. Qed.
Print Assumptions C87_dummy_polarizability_zero.

(** Adding DOFs keeps the mask, gives the new DOFs False, and detaches the mask from the caller's array *)
Theorem C87_add_detaches : forall spl w j a v v',
  reached spl w -> model_at w j = Some v ->
  outcome spl w (Add j a) = Ok tt -> model_at (after spl w (Add j a)) j = Some v' ->
  im_mask v' = im_mask v ++ repeat false (length (im_basis v') - length (im_basis v)) /\
  forall cs, Forall (fun c => match c with Add k _ | SetMask k _ | Unmask k => k <> j | _ => True end) cs ->
    mask_at (history spl (after spl w (Add j a)) cs) j = Some (im_mask v').
Proof. exact f_C87_add_detaches. Qed.
Print Assumptions C87_add_detaches.

(** Calls that neither modify an existing model nor write to an existing array leave all of them as they were, whatever is done to newer objects *)
Theorem C87_old_objects_untouched : forall spl w cs,
  reached spl w ->
  Forall (leaves_model (fun j => j < length (w_models w))) cs ->
  Forall (leaves_array (fun i => i < length (w_held w))) cs ->
  (forall j, j < length (w_models w) -> model_at (history spl w cs) j = model_at w j) /\
  (forall i, i < length (w_held w) -> array_at (history spl w cs) i = array_at w i).
Proof. exact f_C87_old_untouched. Qed.
Print Assumptions C87_old_objects_untouched.

(** A masked model is an independent copy *)
Theorem C87_masked_model_independent : forall spl w j idx cs,
  reached spl w -> outcome spl w (GetMasked j idx) = Ok tt ->
  Forall (leaves_model (eq (length (w_models w)))) cs ->
  model_at (history spl (after spl w (GetMasked j idx)) cs) (length (w_models w))
  = model_at (after spl w (GetMasked j idx)) (length (w_models w)).
Proof. exact f_C87_masked_model. Qed.
Print Assumptions C87_masked_model_independent.

(** Returned masks, reference polarizabilities, basis vectors and polarizabilities are independent copies *)
Theorem C87_returned_arrays_are_copies : forall spl w c i cs,
  reached spl w -> copying c -> outcome spl w c = Ok tt ->
  length (w_held w) <= i < length (w_held (after spl w c)) -> Forall (leaves_array (eq i)) cs ->
  array_at (history spl (after spl w c) cs) i = array_at (after spl w c) i.
Proof. exact f_C87_copies. Qed.
Print Assumptions C87_returned_arrays_are_copies.

(** What writing to an array does to that array *)
Theorem C87_write : forall spl w i sh old q x,
  reached spl w -> array_at w i = Some (sh, old) -> q < length old ->
  outcome spl w (WriteTo i q x) = Ok tt /\
  array_at (after spl w (WriteTo i q x)) i = Some (sh, set_nth q x old).
Proof. exact f_C87_write. Qed.
Print Assumptions C87_write.

(** Exception: each direction given by [get_specification_tuples] is a row of a basis vector of the model, now and later *)
Theorem C87_directions_are_shared : forall spl w j i,
  reached spl w -> outcome spl w (GetDirections j) = Ok tt ->
  length (w_held w) <= i < length (w_held (after spl w (GetDirections j))) ->
  exists k p, forall cs, exists v b c0 c1 c2,
    model_at (history spl (after spl w (GetDirections j)) cs) j = Some v /\
    nth_error (im_basis v) k = Some b /\ nth_error b p = Some (mkV (real c0) (real c1) (real c2)) /\
    array_at (history spl (after spl w (GetDirections j)) cs) i = Some ([3], [c0; c1; c2]).
Proof. exact f_C87_directions. Qed.
Print Assumptions C87_directions_are_shared.

(** Programs that never write to an array or assign a mask: each model behaves as if it were alone *)
Theorem C87_value_semantics : forall spl cs1 cs2 j v art,
  Forall no_writes (cs1 ++ cs2) ->
  model_at (history spl empty_world cs1) j = Some v -> class_at (history spl empty_world cs1) j = Some art ->
  model_at (history spl empty_world (cs1 ++ cs2)) j = Some (alone art v (flat_map (own_call j) cs2)).
Proof. exact f_C87_values. Qed.
Print Assumptions C87_value_semantics.

(** A world with an ART model of two DOFs, two arrays held by the caller, a mask that can be
    assigned and masked models and directions that can be asked for *)
Example C87_nonvacuous : forall spl, exists w v,
  reached spl w /\ model_at w 0 = Some v /\ class_at w 0 = Some true /\
  im_mask v = [false; false] /\ length (im_basis v) = 2 /\ length (w_models w) = 1 /\ length (w_held w) = 2 /\
  outcome spl w (SetMask 0 1) = Ok tt /\ outcome spl w (GetMasked 0 [0%Z]) = Ok tt /\
  outcome spl w (GetDirections 0) = Ok tt /\ length (w_held (after spl w (GetDirections 0))) = 4.
Proof.
  intros spl. destruct (ex_shared spl) as (r & w0 & v0 & w & v & E0 & R0 & M0 & C0 & O & E & R & M & Mk & B & S & G & L1 & L2 & D & L3).
  exists w, v. split; [exact R|]. split; [exact M|]. split; [|tauto].
  subst w. unfold after. unfold class_at in *. unfold perform. unfold model.
  destruct (nth_error (w_models w0) 0) as [o|] eqn:Eo; [|discriminate]. cbn [rbind].
  destruct (run_adding _ _ _) as [[v' ws] rr]. destruct rr as [u|e]; cbn [rbind]; [|rewrite Eo; auto]. cbn [rbind]. destruct (new_arrays _ _). unfold np_new, put_model.
  cbn [w_models]. destruct (w_models w0); [discriminate|]. injection Eo as ->. exact C0.
Qed.
(** Adding a DOF that succeeds; making a model; two models given one mask array *)
Example C87_nonvacuous_add : forall spl, exists w v a v',
  reached spl w /\ model_at w 0 = Some v /\ outcome spl w (Add 0 a) = Ok tt /\
  model_at (after spl w (Add 0 a)) 0 = Some v' /\ length (im_basis v') = 2.
Proof.
  intros spl. destruct (ex_shared spl) as (r & w0 & v0 & w & v & E0 & R0 & M0 & C0 & O & E & R & M & Mk & B & _).
  subst w. eexists w0, v0, _, v. eauto.
Qed.
Example C87_nonvacuous_make : forall spl, exists w r,
  reached spl w /\ outcome spl w (MakeModel true r 0 false) = Ok tt /\ outcome spl w (MakeModel true r 0 true) = Ok tt /\
  outcome spl (history spl w [MakeModel true r 0 false; MakeModel true r 0 false]) (SetMask 0 1) = Ok tt /\
  outcome spl (after spl (history spl w [MakeModel true r 0 false; MakeModel true r 0 false]) (SetMask 0 1)) (SetMask 1 1) = Ok tt.
Proof.
  intros spl. destruct (ex_art mI false) as (r & _).
  exists (history spl empty_world [NewArray [3; 3] (matrix_data mI); NewArray [0] []]), r.
  split; [eexists; reflexivity|]. split; [reflexivity|]. split; [reflexivity|]. split; reflexivity.
Qed.
(** A program that does not write *)
Example C87_nonvacuous_values : forall spl, exists cs1 a v, Forall no_writes (cs1 ++ [Add 0 a]) /\
  model_at (history spl empty_world cs1) 0 = Some v /\ class_at (history spl empty_world cs1) 0 = Some true /\
  flat_map (own_call 0) [Add 0 a] = [OwnAdd a].
Proof.
  intros spl. destruct (ex_shared spl) as (r & w0 & v0 & w & v & E0 & R0 & M0 & C0 & _).
  eexists _, (Art 1 [0; 3/10; 0]%R (vec_arr ex_amps2) (mats_arr (ex_pols mI))), v0. rewrite <- E0.
  split; [|auto]. repeat constructor.
Qed.
