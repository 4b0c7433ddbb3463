(** Proofs about the checking of arguments: C98 *)
From Coq Require Import String ZArith NArith Reals Lra Lia Bool Arith List.
From Verif Require Import Base LinAlg Constants M_Validate M_Text M_Poscar M_Outcar M_Repr M_Args S_Args P_Text P_Repr.
Import ListNotations.
Local Open Scope nat_scope.

(** *** Texts of shapes *)
Lemma show_dim_text mt d : show_dim mt d = dim_text mt d.
Proof. destruct d; reflexivity. Qed.
Lemma flat_commas mt l : forall x, flat_map (fun i => show_dim mt i ++ txt ",") (x :: l) = (commas (map (dim_text mt) (x :: l)) ++ txt ",")%list.
Proof.
  induction l as [|y l IH]; intros x.
  - cbn [flat_map map commas]. rewrite show_dim_text, app_nil_r. reflexivity.
  - cbn [flat_map] in *. rewrite (IH y), show_dim_text. cbn [map commas]. rewrite <- !app_assoc. reflexivity.
Qed.
Lemma removelast_snoc (l : text) : removelast (l ++ txt ",") = l.
Proof. change (txt ",") with [44%N]. rewrite removelast_app by discriminate. cbn. apply app_nil_r. Qed.
Lemma bracket_text left right mt l : (exists c, left = [c]) -> bracket_string mt left right l = tuple_text left right mt l.
Proof.
  intros (c & ->). unfold bracket_string, tuple_text. destruct l as [|x [|y l]].
  - cbn [length Nat.eqb flat_map]. rewrite app_nil_r. reflexivity.
  - cbn [length Nat.eqb flat_map]. rewrite show_dim_text, app_nil_r, <- !app_assoc. reflexivity.
  - cbn [length Nat.eqb]. rewrite flat_commas, app_assoc, removelast_snoc, <- app_assoc. reflexivity.
Qed.
Lemma shape_text mt l : shape_string mt l = round_text mt l.
Proof. apply bracket_text. eexists; reflexivity. Qed.
Lemma size_text mt l : tensor_size_str mt l = square_text mt l.
Proof. apply bracket_text. eexists; reflexivity. Qed.

(** *** The checks *)
Lemma shape_of_shaped v dims : shape_of v = Some dims <-> shaped v dims.
Proof.
  split.
  - destruct v; cbn; intros H; try discriminate; injection H as <-; eexists; eauto.
  - intros (d & [-> | ->]); reflexivity.
Qed.
Lemma unshaped v : shape_of v = None <-> forall dims, ~ shaped v dims.
Proof.
  split.
  - intros H dims K. apply shape_of_shaped in K. congruence.
  - intros H. destruct (shape_of v) eqn:E; [|reflexivity]. apply shape_of_shaped in E. now apply H in E.
Qed.
Lemma shaped_unique v d1 d2 : shaped v d1 -> shaped v d2 -> d1 = d2.
Proof. intros A B. apply shape_of_shaped in A, B. congruence. Qed.
Lemma dims_ok dims : forall spec, length spec = length dims ->
  (existsb (fun p => dim_differs (fst p) (snd p)) (combine dims spec) = false <-> Forall2 dim_ok dims spec).
Proof.
  induction dims as [|d dims IH]; intros [|s spec] L; try discriminate; cbn [combine existsb fst snd].
  - split; auto.
  - rewrite orb_false_iff, IH by (cbn in L; lia).
    assert (K : dim_differs d s = false <-> dim_ok d s).
    { destruct s; cbn; [tauto| |split; [discriminate|tauto]]. rewrite negb_false_iff. apply Nat.eqb_eq. }
    rewrite K. split; [intros (A & B); constructor; auto|intros H; inversion H; auto].
Qed.
Lemma forall2_len {A B} (P : A -> B -> Prop) l m : Forall2 P l m -> length l = length m.
Proof. induction 1; cbn; auto. Qed.
Lemma verify_shape_cases mt name v spec :
  (meets v (HasShape spec) /\ verify_shape mt name v spec = Done tt) \/
  (~ meets v (HasShape spec) /\ exists e m, complaint mt (Arg name v (HasShape spec)) e m /\ verify_shape mt name v spec = Raise e m).
Proof.
  unfold verify_shape. destruct (shape_of v) as [dims|] eqn:E.
  - pose proof (proj1 (shape_of_shaped v dims) E) as S.
    assert (C : exists e m, complaint mt (Arg name v (HasShape spec)) e m /\ raise (A := unit) (shape_error mt name dims (shape_string mt spec)) = Raise e m).
    { exists ValueError, (about_shape mt name dims spec). split.
      - right. exists dims. auto.
      - unfold raise, shape_error, about_shape. cbn [fst snd]. now rewrite !shape_text. }
    destruct (Nat.eqb_spec (length spec) (length dims)) as [L|L]; cbn [negb].
    + destruct (existsb _ _) eqn:X.
      * right. split; [|exact C]. intros (d & S' & F). apply (shaped_unique v d dims) in S' as ->; [|exact S]. apply dims_ok in F; [congruence|exact L].
      * left. split; [|reflexivity]. exists dims. split; [exact S|]. now apply dims_ok.
    + right. split; [|exact C]. intros (d & S' & F). apply (shaped_unique v d dims) in S' as ->; [|exact S]. apply forall2_len in F. congruence.
  - right. pose proof (proj1 (unshaped v) E) as U. split.
    + intros (d & S & _). now apply U in S.
    + exists TypeError, (about_type name (txt "ndarray") v). split; [|reflexivity]. left. auto.
Qed.
Lemma verify_list_cases mt name v :
  (exists l, v = VList l /\ verify_list name v None = Done l) \/
  (~ meets v IsList /\ exists e m, complaint mt (Arg name v IsList) e m /\ verify_list name v None = Raise e m).
Proof.
  destruct v; try (right; split; [intros (l' & E); discriminate|]; exists TypeError; eexists; split; [split; reflexivity|reflexivity]).
  left. eauto.
Qed.
Lemma reported_ok mt a args o : met a -> reported mt args o -> reported mt (a :: args) o.
Proof.
  intros M R. destruct R as [args F|b x af e m F N C].
  - constructor. now constructor.
  - change (a :: b ++ x :: af)%list with ((a :: b) ++ x :: af)%list. constructor; auto.
Qed.
Lemma reported_bad mt a args e m : ~ met a -> complaint mt a e m -> reported mt (a :: args) (Raise e m).
Proof. intros N C. apply (first_unmet mt [] a args e m); auto. Qed.
Lemma reported_nil mt : reported mt [] (Done tt).
Proof. constructor. constructor. Qed.
Lemma step_shape mt name v spec args k : (meets v (HasShape spec) -> reported mt args k) ->
  reported mt (Arg name v (HasShape spec) :: args) (obind (verify_shape mt name v spec) (fun _ => k)).
Proof.
  intros H. destruct (verify_shape_cases mt name v spec) as [(M & ->)|(N & e & m & C & ->)]; cbn [obind].
  - apply reported_ok; auto.
  - apply reported_bad; auto.
Qed.
Lemma last_shape mt name v spec : reported mt [Arg name v (HasShape spec)] (verify_shape mt name v spec).
Proof.
  destruct (verify_shape_cases mt name v spec) as [(M & ->)|(N & e & m & C & ->)].
  - apply reported_ok; auto. apply reported_nil.
  - apply reported_bad; auto.
Qed.
Lemma step_list mt name v args k : (forall l, v = VList l -> reported mt args (k l)) ->
  reported mt (Arg name v IsList :: args) (obind (verify_list name v None) k).
Proof.
  intros H. destruct (verify_list_cases mt name v) as [(l & -> & ->)|(N & e & m & C & ->)]; cbn [obind].
  - apply reported_ok; [exists l; reflexivity|auto].
  - apply reported_bad; auto.
Qed.
Lemma len_first v : len_of v = first_dim v.
Proof. destruct v as [| | |[|]|[|]|]; reflexivity. Qed.

Lemma f_C98_reference mt n l p :
  reported mt [Arg (txt "atomic_numbers") n IsList; Arg (txt "lattice") l (HasShape [SDim 3; SDim 3]);
               Arg (txt "positions") p (HasShape [SDim (list_length n); SDim 3])]
    (reference_checks mt n l p).
Proof. unfold reference_checks. apply step_list. intros l0 ->. apply step_shape. intros _. apply last_shape. Qed.
Lemma f_C98_phonons mt r w d : ~ is_tensor w ->
  reported mt [Arg (txt "ref_positions") r (HasShape [SAny; SDim 3]); Arg (txt "wavenumbers") w (HasShape [SAny]);
               Arg (txt "displacements") d (HasShape [SDim (first_dim w); SDim (first_dim r); SDim 3])]
    (phonons_checks mt r w d).
Proof.
  intros T. unfold phonons_checks. apply step_shape. intros _. apply step_shape. intros (dims & (data & [-> | ->]) & F).
  - inversion F as [|? ? ? ? ? F']; subst. inversion F'; subst. cbn [size_entry first_dim]. cbn [prod_list fold_right]. rewrite Nat.mul_1_r, len_first. apply last_shape.
  - exfalso. apply T. exists dims, data. reflexivity.
Qed.
Lemma f_C98_phonons_tensor mt r w d : meets r (HasShape [SAny; SDim 3]) -> meets w (HasShape [SAny]) -> is_tensor w ->
  exists e m rest, phonons_checks mt r w d = Raise e m /\ m = (txt "displacements" ++ rest)%list.
Proof.
  intros R W (dims & data & ->). unfold phonons_checks.
  destruct (verify_shape_cases mt (txt "ref_positions") r [SAny; SDim 3]) as [(_ & ->)|(N & _)]; [|tauto].
  destruct (verify_shape_cases mt (txt "wavenumbers") (VTensor dims data) [SAny]) as [(_ & ->)|(N & _)]; [|tauto]. cbn [obind size_entry].
  match goal with |- context [verify_shape _ _ _ ?s] => destruct (verify_shape_cases mt (txt "displacements") d s) as [((dd & _ & F) & _)|(N & e & m & C & ->)] end.
  - inversion F as [|? ? ? ? K]. destruct K.
  - destruct C as [(_ & _ & ->)|(dd & _ & _ & ->)]; do 3 eexists; (split; [reflexivity|]); unfold about_type, about_shape; reflexivity.
Qed.
Lemma f_C98_phonon_spectrum mt w r :
  reported mt [Arg (txt "phonon_wavenumbers") w (HasShape [SAny]); Arg (txt "raman_tensors") r (HasShape [SDim (first_dim w); SDim 3; SDim 3])]
    (phonon_spectrum_checks mt w r).
Proof. unfold phonon_spectrum_checks. rewrite len_first. apply step_shape. intros _. apply last_shape. Qed.
Lemma f_C98_md_spectrum mt p t : reported mt [Arg (txt "polarizability_ts") p (HasShape [SAny; SDim 3; SDim 3])] (md_spectrum_checks mt p t).
Proof. apply last_shape. Qed.
Lemma zeros_shape mt name dims : verify_shape mt name (np_zeros dims) (map SDim dims) = Done tt.
Proof.
  destruct (verify_shape_cases mt name (np_zeros dims) (map SDim dims)) as [(_ & H)|(N & _)]; [exact H|]. exfalso. apply N. exists dims. split.
  - eexists. left. reflexivity.
  - clear N. induction dims; cbn [map]; constructor; [reflexivity|assumption].
Qed.
Lemma f_C98_model mt p :
  reported mt [Arg (txt "ref_polarizability") p (HasShape [SDim 3; SDim 3])] (model_checks mt false p) /\ model_checks mt true p = Done tt.
Proof. split; [apply last_shape|]. exact (zeros_shape mt (txt "ref_polarizability") [3; 3]). Qed.
Lemma f_C98_mask mt n v : reported mt [Arg (txt "mask") v (HasShape [SDim n])] (mask_checks mt n v).
Proof. apply last_shape. Qed.
Lemma f_C98_dataset mt l n p q :
  reported mt [Arg (txt "lattice") l (HasShape [SDim 3; SDim 3]); Arg (txt "atomic_numbers") n IsList;
               Arg (txt "positions") p (HasShape [SAny; SDim (list_length n); SDim 3]);
               Arg (txt "polarizabilities") q (HasShape [SDim (first_dim p); SDim 3; SDim 3])]
    (dataset_checks mt l n p q).
Proof. unfold dataset_checks. rewrite len_first. apply step_shape. intros _. apply step_list. intros l0 ->. apply step_shape. intros _. apply last_shape. Qed.
Lemma f_C98_scale mt m s :
  reported mt [Arg (txt "mean") m (HasShape [SDim 3; SDim 3]); Arg (txt "mean") s (HasShape [SDim 3; SDim 3])] (scale_checks mt m s).
Proof. unfold scale_checks. apply step_shape. intros _. apply last_shape. Qed.
Lemma f_C98_potgnn mt m s :
  reported mt [Arg (txt "mean_polarizability") m (HasShape [SDim 3; SDim 3]); Arg (txt "stddev_polarizability") s (HasShape [SDim 3; SDim 3])] (potgnn_checks mt m s).
Proof. unfold potgnn_checks. apply step_shape. intros _. apply last_shape. Qed.
Lemma f_C98_potgnn_positions mt n p : reported mt [Arg (txt "positions_batch") p (HasShape [SAny; SDim n; SDim 3])] (potgnn_positions_checks mt n p).
Proof. apply last_shape. Qed.
(** what [reported] says is unique *)
Lemma complaint_unique mt a e m e' m' : complaint mt a e m -> complaint mt a e' m' -> e = e' /\ m = m'.
Proof.
  unfold complaint. destruct (a_req a).
  - intros (-> & ->) (-> & ->). auto.
  - intros [(A & -> & ->)|(d & S & -> & ->)] [(A' & -> & ->)|(d' & S' & -> & ->)]; auto.
    + now apply A in S'.
    + now apply A' in S.
    + rewrite (shaped_unique _ _ _ S S'). auto.
Qed.
Lemma f_C98_unique mt args o o' : reported mt args o -> reported mt args o' -> o = o'.
Proof.
  intros A. revert o'. destruct A as [args F|b a af e m F N C]; intros o' B.
  - remember args as args' in B. destruct B as [args'' _|b' a' af' e' m' F' N' C']; [reflexivity|]. exfalso. apply N'. rewrite <- Heqargs' in F. rewrite Forall_forall in F. apply F. apply in_elt.
  - remember (b ++ a :: af)%list as args in B. destruct B as [args'' G|b' a' af' e' m' F' N' C'].
    + exfalso. apply N. subst. rewrite Forall_forall in G. apply G. apply in_elt.
    + assert (K : a' = a).
      { clear C C' e e' m m'. revert b Heqargs F. induction F' as [|x b' X F' IH]; intros [|y b] E F; cbn [app] in E.
        - congruence.
        - injection E as -> _. inversion F; tauto.
        - injection E as -> _. tauto.
        - injection E as -> E. inversion F; subst. eapply IH; eauto. }
      subst a'. destruct (complaint_unique mt a e m e' m') as (-> & ->); auto.
Qed.
