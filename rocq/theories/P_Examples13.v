(** A concrete world for C87: an ART model with two DOFs. *)
From Coq Require Import String ZArith Reals Lra Bool Arith List Lia.
From Verif Require Import Base LinAlg M_Validate M_StructUtils M_Symmetry M_Reference M_Interp M_Art M_Alias P_Alias S_Interp S_Art
  P_StructUtils P_Interp P_Interp2 P_InterpEval P_Interp3 P_Interp4 P_Interp6 P_Art P_Art2 P_Examples1 P_Examples2 P_Examples3
  M_Shared S_Shared P_Shared P_Shared2 P_Shared3.
Import ListNotations.
Local Open Scope R_scope.

Lemma unit_rows a : 0 < a -> rows_norm [mkV a 0 0; v0] = a /\ rows_norm [v0; mkV 0 a 0] = a.
Proof.
  intros H. unfold rows_norm. split.
  - replace (rows_norm2 _) with (a * a) by (unfold rows_norm2, rows_dot; vunf; ring). apply sqrt_square; lra.
  - replace (rows_norm2 _) with (a * a) by (unfold rows_norm2, rows_dot; vunf; ring). apply sqrt_square; lra.
Qed.
Lemma ex_rows : direction_of [mkV (/5) 0 0; v0] = [mkV 1 0 0; v0] /\ direction_of [v0; mkV 0 (3/10) 0] = [v0; mkV 0 1 0].
Proof.
  unfold direction_of. rewrite !magnitude_rows.
  destruct (unit_rows (/5)) as [-> _]; [lra|]. destruct (unit_rows (3/10)) as [_ ->]; [lra|].
  unfold rows_scale. cbn [map]. rewrite !vscale_v0. unfold vscale. cbn [vx vy vz]. split; repeat (f_equal; try field).
Qed.
Lemma row_zero_v0 : row_zero v0 = true.
Proof.
  unfold row_zero, isclose_at, dof_tol, rtol. cbn [v0 vx vy vz].
  replace (0 - 0) with 0 by ring. rewrite Rabs_R0. unfold Rleb. destruct (Rle_dec _ _); auto. lra.
Qed.
Lemma row_zero_x : row_zero (mkV 1 0 0) = false.
Proof.
  unfold row_zero, isclose_at, dof_tol. cbn [vx vy vz]. replace (1 - 0) with 1 by ring. rewrite Rabs_R1, Rabs_R0.
  unfold Rleb at 1. destruct (Rle_dec _ _); auto. lra.
Qed.
Lemma row_zero_y : row_zero (mkV 0 1 0) = false.
Proof.
  unfold row_zero, isclose_at, dof_tol. cbn [vx vy vz]. replace (1 - 0) with 1 by ring. rewrite Rabs_R1, Rabs_R0.
  apply andb_false_intro1. apply andb_false_intro2. unfold Rleb. destruct (Rle_dec _ _); auto. lra.
Qed.

Definition ex_arts : list adding :=
  [Art 0 [/5; 0; 0] (vec_arr ex_amps2) (mats_arr (ex_pols mI)); Art 1 [0; 3/10; 0] (vec_arr ex_amps2) (mats_arr (ex_pols mI))].

(** A reference polarizability, a mask array, a model, a DOF; then another DOF *)
Lemma ex_shared spl : exists r w0 v0 w v, 
  w0 = history spl empty_world [NewArray [3; 3]%nat (matrix_data mI); NewArray [2]%nat [bool_cell true; bool_cell false];
                                MakeModel true r 0 false; Add 0 (Art 0 [/5; 0; 0] (vec_arr ex_amps2) (mats_arr (ex_pols mI)))] /\
  reached spl w0 /\ model_at w0 0 = Some v0 /\ class_at w0 0 = Some true /\
  outcome spl w0 (Add 0 (Art 1 [0; 3/10; 0] (vec_arr ex_amps2) (mats_arr (ex_pols mI)))) = Ok tt /\
  w = after spl w0 (Add 0 (Art 1 [0; 3/10; 0] (vec_arr ex_amps2) (mats_arr (ex_pols mI)))) /\
  reached spl w /\ model_at w 0 = Some v /\ im_mask v = [false; false] /\ List.length (im_basis v) = 2%nat /\
  outcome spl w (SetMask 0 1) = Ok tt /\ outcome spl w (GetMasked 0 [0%Z]) = Ok tt /\
  List.length (w_models w) = 1%nat /\ List.length (w_held w) = 2%nat /\
  outcome spl w (GetDirections 0) = Ok tt /\ List.length (w_held (after spl w (GetDirections 0))) = 4%nat.
Proof.
  destruct (ex_art mI false) as (r & s1 & s2 & w1 & w2 & Hi & HL & Hp & A1 & A2 & R & _ & Hn & He & E1 & E2 & B).
  set (c0 := [NewArray [3; 3]%nat (matrix_data mI); NewArray [2]%nat [bool_cell true; bool_cell false]; MakeModel true r 0 false]).
  set (wa := history spl empty_world c0).
  assert (Sa : sound wa) by apply history_sound, empty_sound.
  assert (Ma : exists o, nth_error (w_models wa) 0 = Some o /\ pm_art o = true /\ contents (w_mem wa) o = make_model r mI false).
  { eexists. split; [reflexivity|]. split; auto. }
  destruct Ma as (oa & Ha & Aa & Ca).
  assert (Ha' : List.length (w_held wa) = 2%nat /\ List.length (w_models wa) = 1%nat) by (split; reflexivity).
  set (a1 := Art 0 [/5; 0; 0] (vec_arr ex_amps2) (mats_arr (ex_pols mI))).
  set (a2 := Art 1 [0; 3/10; 0] (vec_arr ex_amps2) (mats_arr (ex_pols mI))).
  pose proof (add_agrees spl wa 0 oa a1 Sa Ha) as P1. rewrite Aa, Ca in P1. cbn [run_adding a1] in P1. rewrite A1 in P1. destruct P1 as [O1 V1].
  set (wb := after spl wa (Add 0 a1)).
  assert (Sb : sound wb) by (apply after_sound; auto).
  destruct (model_at_inv wb 0 s1 V1) as (ob & Hb & Cb).
  assert (Ab : pm_art ob = true).
  { destruct (history_pol spl [Add 0 a1] 0 wa oa Sa Ha) as (o' & H' & _ & A'). change (history spl wa [Add 0 a1]) with wb in H'. congruence. }
  pose proof (add_agrees spl wb 0 ob a2 Sb Hb) as P2. rewrite Ab, <- Cb in P2. cbn [run_adding a2] in P2. rewrite A2 in P2. destruct P2 as [O2 V2].
  set (wc := after spl wb (Add 0 a2)).
  assert (Sc : sound wc) by (apply after_sound; auto).
  destruct (model_at_inv wc 0 s2 V2) as (oc & Hc & Cc).
  assert (Ac : pm_art oc = true).
  { destruct (history_pol spl [Add 0 a2] 0 wb ob Sb Hb) as (o' & H' & _ & A'). change (history spl wb [Add 0 a2]) with wc in H'. congruence. }
  destruct ex_rows as [R1 R2]. rewrite R1, R2 in B.
  assert (Addh : forall w a, w_held (after spl w (Add 0 a)) = w_held w /\ List.length (w_models (after spl w (Add 0 a))) = List.length (w_models w)).
  { intros w a. unfold after. cbn [perform]. destruct (model w 0) as [o|]; [|auto]. cbn [rbind].
    destruct (run_adding _ _ _) as [[v' ws] rr]. destruct rr; [|auto]. cbn [rbind]. destruct (new_arrays _ _). unfold np_new, put_model.
    cbn [w_held w_models]. rewrite P_Alias.set_nth_length. auto. }
  assert (Hh : w_held wc = w_held wa /\ List.length (w_models wc) = 1%nat).
  { destruct (Addh wb a2) as [X1 X2]. destruct (Addh wa a1) as [Y1 Y2]. fold wb in Y1, Y2. fold wc in X1, X2. rewrite X1, X2, Y1, Y2. auto. }
  exists r, wb, s1, wc, s2.
  split; [reflexivity|].
  assert (Rb : reached spl wb) by (exists (c0 ++ [Add 0 a1]); reflexivity).
  assert (Rc : reached spl wc) by (exists (c0 ++ [Add 0 a1; Add 0 a2]); reflexivity).
  assert (Lm2 : im_mask s2 = [false; false]).
  { destruct (run_adding_cases true a1 (make_model r mI false) s1 w1 (Ok tt)) as [(e & X & _)|(_ & bs & sps & X)]; [exact A1|discriminate|].
    destruct (run_adding_cases true a2 s1 s2 w2 (Ok tt)) as [(e & Y & _)|(_ & bs' & sps' & Y)]; [exact A2|discriminate|].
    assert (L : (List.length bs + List.length bs')%nat = 2%nat).
    { rewrite Y, X in B. cbn [appended make_model im_basis app] in B. apply (f_equal (@List.length _)) in B. rewrite app_length in B. exact B. }
    rewrite Y, X. cbn [appended make_model im_mask app]. rewrite <- repeat_app, L. reflexivity. }
  assert (Hmod : List.length (w_models wc) = 1%nat) by tauto.
  assert (Hheld : List.length (w_held wc) = 2%nat) by (destruct Hh as [-> _]; tauto).
  assert (Hcl : class_at wb 0 = Some true) by (unfold class_at; rewrite Hb; cbn; congruence).
  assert (Hcl' : class_at wc 0 = Some true) by (unfold class_at; rewrite Hc; cbn; congruence).
  destruct (f_C87_calls spl wc 0 s2 true Rc V2 Hcl') as (_ & K2 & _ & K4 & _).
  split; [exact Rb|]. split; [exact V1|]. split; [exact Hcl|].
  split; [exact O2|]. split; [reflexivity|]. split; [exact Rc|]. split; [exact V2|].
  split; [exact Lm2|]. split; [rewrite B; reflexivity|].
  split.
  { assert (Ar : exists x, array_at wc 1 = Some ([2%nat], x)).
    { unfold array_at. destruct Hh as [-> _]. eexists. reflexivity. }
    destruct Ar as (x & Ar). specialize (K2 1%nat _ _ Ar).
    assert (Q : exists s', set_mask [2%nat] (map flag x) s2 = ((s', []), Ok tt)).
    { eexists. cbn [set_mask bind get lift]. rewrite Lm2. reflexivity. }
    destruct Q as (s' & Q). rewrite Q in K2. apply K2. }
  split.
  { specialize (K4 [0%Z]). unfold get_masked_model in K4. rewrite Lm2 in K4. apply K4. }
  split; [exact Hmod|]. split; [exact Hheld|].
  assert (D : exists l, direction_views (w_mem wc) oc = Ok l /\ List.length l = 2%nat).
  { unfold direction_views. rewrite <- Cc. 
    assert (Eo : pm_ref oc = r) by (rewrite <- E2, Cc; reflexivity). rewrite Eo.
    assert (Ed : get_equivalent_atom_dict r = Ok [(0%nat, []); (1%nat, [])]) by (unfold get_equivalent_atom_dict; rewrite <- E2, He; reflexivity).
    rewrite Ed. cbn [rbind].
    assert (Lb : List.length (pm_basis oc) = 2%nat).
    { rewrite Cc in B. cbn [contents im_basis] in B. apply (f_equal (@List.length _)) in B. rewrite map_length in B. exact B. }
    destruct (pm_basis oc) as [|b0 [|b1 [|? ?]]]; try discriminate.
    assert (D0 : get_dof_indexes (fun l => l) s2 [ByIndex 0] = Ok [0%nat]).
    { unfold get_dof_indexes. cbn [requested mapM rbind rmap List.concat app]. rewrite B.
      cbn [dofs_of_atom List.length].
      change (py_index 2 0) with (Some 0%nat). cbn [rbind nth]. rewrite row_zero_x, row_zero_v0. reflexivity. }
    assert (D1 : get_dof_indexes (fun l => l) s2 [ByIndex 1] = Ok [1%nat]).
    { unfold get_dof_indexes. cbn [requested mapM rbind rmap List.concat app]. rewrite B.
      cbn [dofs_of_atom List.length].
      change (py_index 2 1) with (Some 1%nat). cbn [rbind nth]. rewrite row_zero_y, row_zero_v0. reflexivity. }
    cbn [mapM rbind fst]. change (Z.of_nat 0) with 0%Z. change (Z.of_nat 1) with 1%Z. rewrite D0, D1.
    eexists. split; reflexivity. }
  destruct D as (l & D & Dl).
  assert (G : perform spl wc (GetDirections 0) = Ok (give wc (w_mem wc) l)).
  { cbn [perform]. unfold model. rewrite Hc. cbn [rbind]. rewrite Ac, D. reflexivity. }
  unfold outcome, after. rewrite G. split; [reflexivity|]. cbn [give w_held]. rewrite app_length, Dl, Hheld. reflexivity.
Qed.
