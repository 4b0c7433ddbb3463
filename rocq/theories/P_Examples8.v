(** Concrete cases meeting the hypotheses of the dataset theorems *)
From Coq Require Import String Ascii ZArith NArith Reals Bool Arith List Lia Lra.
From Verif Require Import Base LinAlg Constants M_Validate M_Text M_Poscar M_Outcar M_Vasprun M_Dataset S_Dataset
  P_Poscar P_Outcar P_Outcar2 P_Dataset P_Dataset2 P_Dataset3.
Import ListNotations.
Local Open Scope nat_scope.

Definition two_vectors : narr := mkNarr [2; 6] (map (fun k => Fin (INR k)) (seq 1 12)).
Lemma ex_C65 : narr_wf two_vectors /\ (exists t, vectors_to_tensors two_vectors = Ok t /\ symmetric_batch t) /\
  narr_wf (tensors [mkM (mkV 1 2 3) (mkV 4 5 6) (mkV 7 8 9)]) /\ ~ symmetric_batch (tensors [mkM (mkV 1 2 3) (mkV 4 5 6) (mkV 7 8 9)]).
Proof.
  split; [reflexivity|]. split.
  - destruct (vectors_to_tensors two_vectors) as [t|e] eqn:E; [|discriminate]. exists t. split; [reflexivity|]. eapply f_C65_symmetric; [|exact E]. reflexivity.
  - split; [reflexivity|]. intros S. specialize (S 0 0 1 (Fin 2)). destruct S as [_ S].
    + split; [cbn; repeat constructor; lia|reflexivity].
    + cbn in S. injection S as S. lra.
Qed.
Definition two_tensors : list M3 := [mI; mscale 3 mI].
Definition small_new : res dataset := dataset_new (fun x => x) (tensor mI) [1%Z] (frames 1 [[mkV 0 0 0]; [mkV (1/2) 0 0]]) (tensors two_tensors).
Lemma ex_C66 : exists d, small_new = Ok d /\ ds_raw d = tensors two_tensors /\
  ~ constant (map (fun t => ment t 0 0) two_tensors) /\ constant (map (fun t => ment t 0 1) two_tensors).
Proof.
  destruct small_new as [d|e] eqn:E; [|discriminate]. exists d. split; [reflexivity|]. split; [apply new_ok in E; rewrite E; reflexivity|]. split.
  - intros C. specialize (C 1%R 3%R). cbn in C. assert (1 = 3)%R; [apply C; [auto|right; left; lra]|lra].
  - intros x y Hx Hy. cbn in Hx, Hy. destruct Hx as [<-|[<-|[]]], Hy as [<-|[<-|[]]]; lra.
Qed.
(** a call that raises, a valid call, and another that raises *)
Lemma ex_C66_history : exists d d', small_new = Ok d /\
  scalings d ([(tensor mI, mkNarr [9] [])] ++ (tensor mI, tensor (mkM (mkV 2 1 1) (mkV 1 2 1) (mkV 1 1 2))) :: [(mkNarr [] [], tensor mI)]) d' /\
  Forall (fun c => ~ valid_scaling c) [(mkNarr [] [], tensor mI)] /\
  nth_error two_tensors 1 = Some (mscale 3 mI) /\ entry (ds_scaled d') [1; 0] (Fin 1).
Proof.
  destruct small_new as [d|e] eqn:E; [|discriminate]. assert (R : ds_raw d = tensors two_tensors) by (apply new_ok in E; rewrite E; reflexivity).
  set (s := mkM (mkV 2 1 1) (mkV 1 2 1) (mkV 1 1 2)).
  destruct (proj1 (f_C66_rejects d two_tensors (tensor mI) (tensor s) R eq_refl eq_refl) (conj eq_refl eq_refl)) as [d' Hd].
  assert (S : scalings d ([(tensor mI, mkNarr [9] [])] ++ (tensor mI, tensor s) :: [(mkNarr [] [], tensor mI)]) d').
  { cbn [app]. eapply scalings_raise; [reflexivity|]. eapply scalings_ok; [exact Hd|]. eapply scalings_raise; [reflexivity|]. constructor. }
  assert (V : Forall (fun c => ~ valid_scaling c) [(mkNarr [] [], tensor mI)]) by (constructor; [intros [C _]; discriminate|constructor]).
  exists d, d'. split; [reflexivity|]. split; [exact S|]. split; [exact V|]. split; [reflexivity|].
  destruct (f_C66_last_wins d _ _ mI s d' two_tensors R S V) as [_ G]. specialize (G 1 0 0 0 (mscale 3 mI) eq_refl eq_refl).
  assert (N : ment s 0 0 <> 0%R) by (cbn; lra). specialize (G N). replace (Fin 1) with (Fin ((ment (mscale 3 mI) 0 0 - ment mI 0 0) / ment s 0 0)); [exact G|]. f_equal. cbn. field.
Qed.
Lemma ex_C78 : exists d, small_new = Ok d /\ Forall (fun vs : list V3 => List.length vs = List.length [1%Z]) [[mkV 0 0 0]; [mkV (1/2) 0 0]] /\ scalings d [] d /\
  (exists it, getitem d (-1) = Ok it) /\ getitem d 2 = Err IndexError /\ getitem d (-3) = Err IndexError.
Proof.
  destruct small_new as [d|e] eqn:E; [|discriminate]. exists d. split; [reflexivity|]. split; [repeat constructor|]. split; [constructor|].
  apply new_ok in E. subst d. split; [eexists; reflexivity|]. split; reflexivity.
Qed.
Definition far : reading := mkReading (mkM (mkV 2 0 0) (mkV 0 1 0) (mkV 0 0 1)) [1%Z] [mkV 0 0 0] mI.
Lemma ex_C64 : (Forall2 (reads read_back) [drifted 0; drifted 1; drifted 2] [drifted 0; drifted 1; drifted 2] /\ Forall well_formed [drifted 0; drifted 1; drifted 2] /\
    consecutive_close [drifted 0; drifted 1; drifted 2] /\ same_atoms [drifted 0; drifted 1; drifted 2]) /\
  (Forall2 (reads read_back) [drifted 0; far] [drifted 0; far] /\ Forall well_formed [drifted 0; far] /\ ~ consecutive_close [drifted 0; far]).
Proof.
  assert (F : forall l, Forall2 (reads read_back) l l) by (intros l; induction l; constructor; [reflexivity|assumption]).
  assert (W : forall k, well_formed (drifted k)) by (intros k; split; [reflexivity|discriminate]).
  split.
  - split; [apply F|]. split; [repeat (constructor; [apply W|]); constructor|]. split.
    + intros [|[|[|i]]] a b Ha Hb; cbn in Ha, Hb; try discriminate; injection Ha as <-; injection Hb as <-; apply drifted_close.
    + intros a b Ha Hb. cbn in Ha, Hb. destruct Ha as [<-|[<-|[<-|[]]]], Hb as [<-|[<-|[<-|[]]]]; reflexivity.
  - split; [apply F|]. split; [constructor; [apply W|constructor; [split; [reflexivity|discriminate]|constructor]]|].
    intros C. specialize (C 0 _ _ eq_refl eq_refl 0 0 ltac:(lia) ltac:(lia)). cbn [drifted far rd_lattice ment vent r0 vx] in C. cbn [INR] in C.
    replace (1 + 0 / 10 ^ 5 - 2)%R with (-1)%R in C by (field; lra). rewrite Rabs_left, Rabs_pos_eq in C by lra. lra.
Qed.
Lemma ex_C64_pymatgen : let s := mkPm mI [1%Z; 8%Z] [mkV 0 0 0; mkV (1/2) (1/2) (1/2)] in
  let t := mkPm mI [1%Z; 8%Z] [mkV 0 0 0; mkV (1/2) (1/2) (1/4)] in
  Forall pm_formed [s; t] /\ List.length [mI; mI] = List.length [s; t] /\
  Forall (fun s' => lattice_close (pm_lattice s') (pm_lattice s) /\ pm_numbers s' = pm_numbers s) [s; t].
Proof.
  cbv zeta. split; [repeat constructor|]. split; [reflexivity|]. assert (C : lattice_close mI mI) by (intros i j _ _; apply close_refl).
  repeat (constructor; [split; [exact C|reflexivity]|]). constructor.
Qed.
