(** Proofs about the checking of arguments, concluded: C98 *)
From Coq Require Import String ZArith NArith Reals Lra Lia Bool Arith List.
From Verif Require Import Base LinAlg Constants M_Validate M_Text M_Poscar M_Outcar M_Repr M_Args S_Args P_Text P_Repr P_Args P_Args2.
Import ListNotations.
Local Open Scope nat_scope.

(** *** Structures to be written *)
Lemma numbers_table z : In z (map snd atomic_numbers) <-> (1 <= z <= 118)%Z.
Proof.
  assert (E : map snd atomic_numbers = map Z.of_nat (seq 1 118)) by (vm_compute; reflexivity).
  rewrite E, in_map_iff. split.
  - intros (n & <- & I). apply in_seq in I. lia.
  - intros H. exists (Z.to_nat z). split; [lia|]. apply in_seq. lia.
Qed.
Lemma key_spec uh v : not_a_key uh v = Done false <-> element v.
Proof.
  unfold element. split.
  - destruct v as [t [x| |]|s|l|d e|d e|t]; cbn [not_a_key]; intros H; try discriminate. assert (H' : negb (is_key x) = false) by congruence. apply negb_false_iff in H'. unfold is_key in H'. apply existsb_exists in H' as (z & I & E).
    destruct (Req_EM_T x (IZR z)) as [->|]; [|discriminate]. exists t, z. split; [reflexivity|]. now apply numbers_table.
  - intros (t & z & -> & Z). cbn [not_a_key]. f_equal. apply negb_false_iff. unfold is_key. apply existsb_exists. exists z. split; [now apply numbers_table|]. destruct (Req_EM_T (IZR z) (IZR z)); congruence.
Qed.
Lemma numbers_spec show uh l : verify_numbers show uh l = Done tt <-> Forall element l.
Proof.
  induction l as [|v l IH]; cbn [verify_numbers]; [split; auto|]. destruct (not_a_key uh v) as [[]|e m] eqn:E; cbn [obind].
  - split; [discriminate|]. intros H. inversion H as [|? ? K]; subst. apply (key_spec uh) in K. congruence.
  - rewrite IH. apply key_spec in E. split; [intros; constructor; auto|intros H; inversion H; auto].
  - split; [discriminate|]. intros H. inversion H as [|? ? K]; subst. apply (key_spec uh) in K. congruence.
Qed.
Lemma leaves_spec v : leaves_cell v = true <-> exists x, In x (entries v) /\ beyond x.
Proof.
  assert (K : forall d, existsb (fun x => num_lt x 0 || num_gt x 1) d = true <-> exists x, In x d /\ beyond x).
  { intros d. rewrite existsb_exists. split; intros (x & I & H); exists x; (split; [exact I|]).
    - apply orb_true_iff in H. destruct x as [r|[]|]; cbn in *; [|tauto|tauto|destruct H; discriminate].
      destruct H as [H|H]; [left|right]; now apply Rltb_true.
    - apply orb_true_iff. destruct x as [r|[]|]; cbn in *; [|auto|auto|tauto]. destruct H as [H|H]; [left|right]; now apply Rltb_true. }
  destruct v; cbn [leaves_cell entries]; try apply K; split; try discriminate; intros (y0 & [] & _).
Qed.
Lemma shape_done mt name v spec : verify_shape mt name v spec = Done tt <-> meets v (HasShape spec).
Proof. destruct (verify_shape_cases mt name v spec) as [(M & ->)|(N & e & m & C & ->)]; split; auto; try discriminate; tauto. Qed.
Lemma obind_done {A} (r : outcome unit) (k : outcome A) x : obind r (fun _ => k) = Done x <-> r = Done tt /\ k = Done x.
Proof. destruct r as [[]|]; cbn; split; [auto|tauto|discriminate|intros (H & _); discriminate]. Qed.
Lemma if_done (b : bool) m : (if b then Raise ValueError m else Done tt) = Done tt <-> ~ b = true.
Proof. destruct b; split; try discriminate; auto. intros H. now destruct H. Qed.
Lemma list_done {A} name v (k : list pyval -> outcome A) x : obind (verify_list name v None) k = Done x <-> exists l, v = VList l /\ k l = Done x.
Proof.
  split.
  - destruct v; cbn; try discriminate. eauto.
  - intros (l & -> & H). exact H.
Qed.
Lemma f_C98_structure mt show uh l n p : verify_structure_v mt show uh l n p = Done tt <->
  meets l (HasShape [SDim 3; SDim 3]) /\ (exists zs, n = VList zs /\ Forall element zs) /\
  meets p (HasShape [SDim (list_length n); SDim 3]) /\ (forall x, In x (entries p) -> ~ beyond x).
Proof.
  unfold verify_structure_v, verify_positions_v. rewrite obind_done, shape_done, list_done. split.
  - intros (A & zs & -> & H). rewrite !obind_done, !shape_done, numbers_spec, if_done, leaves_spec in H. destruct H as (F & B & _ & C).
    split; [exact A|]. split; [eauto|]. split; [exact B|]. intros x I X. apply C. eauto.
  - intros (A & (zs & -> & F) & B & C). split; [exact A|]. exists zs. split; [reflexivity|]. rewrite !obind_done, !shape_done, numbers_spec, if_done, leaves_spec.
    split; [exact F|]. split; [exact B|]. split; [|intros (x & I & X); now apply (C x)].
    destruct B as (d & S & B). exists d. split; [exact S|]. inversion B; subst. constructor; [exact I|assumption].
Qed.
Lemma f_C98_written_trajectory mt show uh l n p : verify_trajectory_v mt show uh l n p = Done tt <->
  meets l (HasShape [SDim 3; SDim 3]) /\ (exists zs, n = VList zs /\ Forall element zs) /\
  meets p (HasShape [SAny; SDim (list_length n); SDim 3]) /\ (forall x, In x (entries p) -> ~ beyond x).
Proof.
  unfold verify_trajectory_v. rewrite obind_done, shape_done, list_done. split.
  - intros (A & zs & -> & H). rewrite !obind_done, !shape_done, numbers_spec, if_done, leaves_spec in H. destruct H as (F & B & C).
    split; [exact A|]. split; [eauto|]. split; [exact B|]. intros x I X. apply C. eauto.
  - intros (A & (zs & -> & F) & B & C). split; [exact A|]. exists zs. split; [reflexivity|]. rewrite !obind_done, !shape_done, numbers_spec, if_done, leaves_spec.
    split; [exact F|]. split; [exact B|]. intros (x & I & X); now apply (C x).
Qed.
(** the order of complaints of the writers *)
Lemma f_C98_structure_errors mt show uh l n p zs : n = VList zs -> Forall element zs ->
  (forall x, In x (entries p) -> ~ beyond x) ->
  reported mt [Arg (txt "lattice") l (HasShape [SDim 3; SDim 3]); Arg (txt "positions") p (HasShape [SDim (length zs); SDim 3])]
    (verify_structure_v mt show uh l n p).
Proof.
  intros -> F C. unfold verify_structure_v. apply step_shape. intros _. cbn [verify_list obind]. rewrite (proj2 (numbers_spec show uh zs) F). cbn [obind].
  assert (L : leaves_cell p = false) by (apply not_true_is_false; rewrite leaves_spec; intros (x & I & X); now apply (C x)).
  unfold verify_positions_v. rewrite L.
  replace (obind (verify_shape mt (txt "positions") p [SDim (length zs); SDim 3]) (fun _ => obind (verify_shape mt (txt "positions") p [SAny; SDim 3]) (fun _ => Done tt)))
    with (verify_shape mt (txt "positions") p [SDim (length zs); SDim 3]); [apply last_shape|].
  destruct (verify_shape_cases mt (txt "positions") p [SDim (length zs); SDim 3]) as [((d & S & B) & ->)|(N & e & m & K & ->)]; cbn [obind]; [|reflexivity].
  assert (M : verify_shape mt (txt "positions") p [SAny; SDim 3] = Done tt).
  { apply shape_done. exists d. split; [exact S|]. inversion B; subst. constructor; [exact I|assumption]. }
  rewrite M. reflexivity.
Qed.
Lemma f_C98_bad_number mt show uh l zs v rest p : meets l (HasShape [SDim 3; SDim 3]) -> Forall element zs -> ~ element v ->
  exists e m, verify_structure_v mt show uh l (VList (zs ++ v :: rest)) p = Raise e m /\
    ((e = ValueError /\ m = (txt "invalid atomic number: " ++ show v)%list) \/ (e = TypeError /\ m = uh v)).
Proof.
  intros L F N. unfold verify_structure_v. rewrite (proj2 (shape_done mt (txt "lattice") l _) L). cbn [obind verify_list].
  assert (K : exists e m, verify_numbers show uh (zs ++ v :: rest) = Raise e m /\ ((e = ValueError /\ m = (txt "invalid atomic number: " ++ show v)%list) \/ (e = TypeError /\ m = uh v))).
  { induction zs as [|z zs IH]; cbn [app verify_numbers].
    - destruct (not_a_key uh v) as [[]|e m] eqn:E; cbn [obind].
      + do 2 eexists. split; [reflexivity|]. auto.
      + apply key_spec in E. contradiction.
      + do 2 eexists. split; [reflexivity|]. right. destruct v as [t [x| |]|s|l0|d e0|d e0|t]; cbn in E; try discriminate; injection E as <- <-; auto.
    - inversion F as [|? ? Z F']; subst. apply (key_spec uh) in Z. rewrite Z. cbn [obind]. auto. }
  destruct K as (e & m & -> & K). cbn [obind]. eauto.
Qed.

(** *** Degrees of freedom and atomic Raman tensors *)
Lemma f_C98_add_dof mt d a p :
  ((exists dims, shaped d dims) ->
   reported mt [Arg (txt "cart_displacement") d (HasShape [SAny; SDim 3]); Arg (txt "amplitudes") a (HasShape [SAny]);
                Arg (txt "polarizabilities") p (HasShape [SDim (first_dim a); SDim 3; SDim 3])] (add_dof_checks mt false d a p) /\
   reported mt [Arg (txt "cart_displacement") d (HasShape [SAny; SDim 3]); Arg (txt "amplitudes") a (HasShape [SAny])] (add_dof_checks mt true d a p)) /\
  ((forall dims, ~ shaped d dims) -> forall dummy, add_dof_checks mt dummy d a p = Raise TypeError (txt "displacement is not an ndarray")).
Proof.
  split.
  - intros (dims & S). unfold add_dof_checks.
    assert (E : match verify_shape mt (txt "cart_displacement") d [SAny; SDim 3] with Raise TypeError _ => Raise TypeError (txt "displacement is not an ndarray") | r => r end
                = verify_shape mt (txt "cart_displacement") d [SAny; SDim 3]).
    { destruct (verify_shape_cases mt (txt "cart_displacement") d [SAny; SDim 3]) as [(_ & ->)|(_ & e & m & C & ->)]; [reflexivity|].
      destruct C as [(K & _)|(dd & _ & -> & _)]; [now apply K in S|reflexivity]. }
    rewrite E, len_first. split.
    + apply step_shape. intros _. apply step_shape. intros _. apply last_shape.
    + apply step_shape. intros _. apply step_shape. intros _. pose proof (zeros_shape mt (txt "polarizabilities") [first_dim a; 3; 3]) as Z; cbn [map] in Z; rewrite Z. apply reported_nil.
  - intros U dummy. unfold add_dof_checks. apply unshaped in U. unfold verify_shape. rewrite U. reflexivity.
Qed.
Lemma teqb_iff a b : teqb a b = true <-> a = b.
Proof. apply teqb_eq || (unfold teqb; destruct (list_eq_dec _ a b); split; intros; auto; discriminate). Qed.
Lemma is_int_spec v : is_int v = true <-> whole v.
Proof.
  unfold whole. destruct v; cbn [is_int]; try (split; [discriminate|intros (y & [E|E]); discriminate]).
  rewrite orb_true_iff, !teqb_iff. split.
  - intros [-> | ->]; eauto.
  - intros (y & [E|E]); injection E as -> ->; auto.
Qed.
Lemma f_C98_add_art mt i d a p : whole i -> (exists data, a = VArray [1] data \/ a = VArray [2] data) ->
  reported mt [Arg (txt "direction") d (HasShape [SDim 3]); Arg (txt "polarizabilities") p (HasShape [SDim (first_dim a); SDim 3; SDim 3])] (add_art_checks mt false i d a p) /\
  reported mt [Arg (txt "direction") d (HasShape [SDim 3])] (add_art_checks mt true i d a p).
Proof.
  intros I (data & A). unfold add_art_checks. apply is_int_spec in I. rewrite I. cbn [negb].
  assert (S : shape_of a = Some [first_dim a] /\ (first_dim a = 1 \/ first_dim a = 2) /\ size_entry a = SDim (first_dim a)).
  { destruct A as [-> | ->]; cbn; auto. }
  destruct S as (-> & F & ->). assert (E : existsb (fun d0 : list nat => if list_eq_dec Nat.eq_dec [first_dim a] d0 then true else false) [[1]; [2]] = true).
  { destruct F as [-> | ->]; reflexivity. }
  rewrite E. cbn [obind]. split.
  - apply step_shape. intros _. apply last_shape.
  - apply step_shape. intros _. pose proof (zeros_shape mt (txt "polarizabilities") [first_dim a; 3; 3]) as Z; cbn [map] in Z; rewrite Z. apply reported_nil.
Qed.
Lemma f_C98_add_art_errors mt dummy i d a p : meets d (HasShape [SDim 3]) ->
  (~ whole i -> add_art_checks mt dummy i d a p = Raise TypeError (about_type (txt "atom_index") (txt "int") i)) /\
  (whole i -> (forall dims, ~ shaped a dims) -> add_art_checks mt dummy i d a p = Raise TypeError (about_type (txt "amplitudes") (txt "ndarray") a)) /\
  (whole i -> forall dims, shaped a dims -> dims <> [1] -> dims <> [2] ->
     add_art_checks mt dummy i d a p = Raise ValueError (txt "amplitudes has wrong shape: " ++ round_text mt (map SDim dims) ++ txt " != (1,) or (2,)")) /\
  (whole i -> is_tensor a -> exists e m, add_art_checks mt dummy i d a p = Raise e m).
Proof.
  intros D. unfold add_art_checks. rewrite (proj2 (shape_done mt (txt "direction") d _) D). cbn [obind]. split; [|split; [|split]].
  - intros N. destruct (is_int i) eqn:E; [apply is_int_spec in E; contradiction|]. reflexivity.
  - intros I U. apply is_int_spec in I. rewrite I. cbn [negb]. apply unshaped in U. rewrite U. reflexivity.
  - intros I dims S N1 N2. apply is_int_spec in I. rewrite I. cbn [negb]. apply shape_of_shaped in S. rewrite S. cbn [existsb].
    destruct (list_eq_dec Nat.eq_dec dims [1]); [contradiction|]. destruct (list_eq_dec Nat.eq_dec dims [2]); [contradiction|]. cbn [orb].
    unfold raise, shape_error. cbn [fst snd obind]. rewrite shape_text. reflexivity.
  - intros I (dims & data & ->). apply is_int_spec in I. rewrite I. cbn [negb shape_of size_entry].
    destruct (existsb _ _); cbn [obind]; [|unfold raise; cbn [obind]; eauto]. destruct dummy; cbn [obind]; [eauto|].
    destruct (verify_shape_cases mt (txt "polarizabilities") p [SMethod; SDim 3; SDim 3]) as [((dd & _ & F) & _)|(N & e & m & C & ->)]; [|eauto].
    inversion F as [|? ? ? ? K]. destruct K.
Qed.

(** *** Broadening, positive numbers *)
Lemma f_C98_positive show amb name v :
  (forall t x, v = VNumber t x -> ~ not_positive x -> verify_positive show amb name v = Done tt) /\
  (forall t x, v = VNumber t x -> not_positive x -> verify_positive show amb name v = Raise ValueError (txt "invalid " ++ name ++ txt ": " ++ show v ++ txt " <= 0")) /\
  ((forall t x, v <> VNumber t x) -> (forall dims, ~ shaped v dims) -> verify_positive show amb name v = Raise TypeError (about_type name (txt "float") v)).
Proof.
  split; [|split].
  - intros t x -> P. unfold verify_positive. cbn [at_most_zero]. destruct (num_le0 x) eqn:E; [apply num_le0_spec in E; contradiction|reflexivity].
  - intros t x -> P. unfold verify_positive. cbn [at_most_zero]. apply num_le0_spec in P. rewrite P. reflexivity.
  - intros N U. destruct v as [t x|s|l|d e|d e|t]; try reflexivity; exfalso.
    + now apply (N t x).
    + apply (U d). eexists; eauto.
    + apply (U d). eexists; eauto.
Qed.
Lemma f_C98_convolve mt show amb w i x o t : ~ not_positive x ->
  reported mt [Arg (txt "out_wavenumbers") o (HasShape [SAny]); Arg (txt "wavenumbers") w (HasShape [SAny]); Arg (txt "intensities") i (HasShape [SDim (first_dim w)])]
    (convolve_checks mt show amb w i (VNumber t x) o).
Proof.
  intros P. unfold convolve_checks. rewrite (proj1 (f_C98_positive show amb (txt "width") (VNumber t x)) t x eq_refl P). cbn [obind]. rewrite len_first.
  apply step_shape. intros (dims & S & _). apply step_shape. intros _.
  assert (V : verify_ndarray (txt "out_wavenumbers") o = Done tt) by (unfold verify_ndarray; apply shape_of_shaped in S; now rewrite S).
  rewrite V. replace (obind _ _) with (verify_shape mt (txt "intensities") i [SDim (first_dim w)]); [apply last_shape|].
  destruct (verify_shape _ _ _ _) as [[]|]; reflexivity.
Qed.
(** *** Tensors *)
Lemma f_C98_tensor mt name v size :
  (verify_tensor_size mt name v size = Done tt <-> exists dims data, v = VTensor dims data /\ Forall2 dim_ok dims size) /\
  (forall dims data, v = VTensor dims data -> ~ Forall2 dim_ok dims size ->
     verify_tensor_size mt name v size = Raise ValueError (name ++ txt " has wrong size: " ++ square_text mt (map SDim dims) ++ txt " != " ++ square_text mt size)) /\
  ((forall dims, ~ shaped v dims) -> verify_tensor_size mt name v size = Raise TypeError (about_type name (txt "Tensor") v)) /\
  (forall dims data, v = VArray dims data -> exists m, verify_tensor_size mt name v size = Raise TypeError m).
Proof.
  assert (K : forall dims data, (Forall2 dim_ok dims size /\ verify_tensor_size mt name (VTensor dims data) size = Done tt) \/
     (~ Forall2 dim_ok dims size /\ verify_tensor_size mt name (VTensor dims data) size = Raise ValueError (name ++ txt " has wrong size: " ++ square_text mt (map SDim dims) ++ txt " != " ++ square_text mt size))).
  { intros dims data. cbn [verify_tensor_size]. rewrite !size_text. destruct (Nat.eqb_spec (length size) (length dims)) as [L|L]; cbn [negb].
    - destruct (existsb _ _) eqn:X; [right|left]; (split; [|reflexivity]).
      + intros F. apply dims_ok in F; [congruence|exact L].
      + now apply dims_ok.
    - right. split; [|reflexivity]. intros F. apply forall2_len in F. congruence. }
  split; [|split; [|split]].
  - split.
    + destruct v as [| | | |dims data|]; cbn [verify_tensor_size]; intros H; try discriminate. destruct (K dims data) as [(F & _)|(_ & E)]; [eauto|].
      cbn [verify_tensor_size] in E. rewrite H in E. discriminate.
    + intros (dims & data & -> & F). destruct (K dims data) as [(_ & E)|(N & _)]; [exact E|contradiction].
  - intros dims data -> N. destruct (K dims data) as [(F & _)|(_ & E)]; [contradiction|exact E].
  - intros U. destruct v; try reflexivity; exfalso; eapply U; eexists; eauto.
  - intros dims data ->. cbn [verify_tensor_size]. eauto.
Qed.
(** *** The checks of the other model files are these checks *)
Lemma f_C98_typed_shape mt name dims data spec :
  forget (verify_shape mt name (VArray dims data) (map sdim_of spec)) = verify_ndarray_shape dims spec.
Proof.
  unfold verify_shape, verify_ndarray_shape. cbn [shape_of]. rewrite map_length. destruct (Nat.eqb_spec (length spec) (length dims)) as [L|L]; cbn [negb]; [|reflexivity].
  assert (E : existsb (fun p => dim_differs (fst p) (snd p)) (combine dims (map sdim_of spec)) = negb (dims_match dims spec)).
  { revert spec L. induction dims as [|d dims IH]; intros [|s spec] L; try discriminate; cbn [map combine existsb dims_match fst snd]; [reflexivity|].
    rewrite IH by (cbn in L; lia). destruct s as [n|]; cbn [sdim_of dim_differs]; [destruct (d =? n); reflexivity|reflexivity]. }
  rewrite E. destruct (dims_match dims spec); reflexivity.
Qed.
Lemma f_C98_typed_list name l n : forget (verify_list name (VList l) n) = verify_list_len (length l) n.
Proof. destruct n as [n|]; [|reflexivity]. cbn [verify_list verify_list_len]. destruct (int_is _ _); reflexivity. Qed.
Lemma f_C98_typed_structure mt show uh lattice numbers positions :
  forget (verify_structure_v mt show uh (VArray (na_shape lattice) (na_data lattice)) (VList (map (fun z => VNumber (txt "int") (Fin (IZR z))) numbers)) (VArray (na_shape positions) (na_data positions)))
  = verify_structure lattice numbers positions.
Proof.
  unfold verify_structure_v, verify_structure, verify_positions_v.
  assert (B : forall (o : outcome unit) (k : outcome unit) r, forget o = r -> forget (obind o (fun _ => k)) = rbind r (fun _ => forget k)).
  { intros o k r <-. destruct o; reflexivity. }
  rewrite (B _ _ _ (f_C98_typed_shape mt (txt "lattice") (na_shape lattice) (na_data lattice) [Some 3; Some 3])). 
  destruct (verify_ndarray_shape (na_shape lattice) [Some 3; Some 3]); [|reflexivity]. cbn [rbind verify_list obind verify_list_len].
  assert (N : forget (verify_numbers show uh (map (fun z => VNumber (txt "int") (Fin (IZR z))) numbers)) = if existsb unknown_number numbers then Err ValueError else Ok tt).
  { induction numbers as [|z l IH]; cbn [map verify_numbers existsb]; [reflexivity|]. cbn [not_a_key obind].
    assert (U : negb (is_key (IZR z)) = unknown_number z).
    { unfold is_key, unknown_number, atom_symbol_opt. clear IH. generalize atomic_numbers. intros tb. induction tb as [|[s y] tb IH]; cbn [map existsb find snd fst]; [reflexivity|].
      destruct (Z.eqb_spec y z) as [->|D]; [destruct (Req_EM_T (IZR z) (IZR z)); [reflexivity|congruence]|]. destruct (Req_EM_T (IZR z) (IZR y)) as [E|_]; [apply eq_IZR in E; congruence|]. exact IH. }
    rewrite U. destruct (unknown_number z); [reflexivity|exact IH]. }
  destruct (existsb unknown_number numbers).
  - destruct (verify_numbers _ _ _); [discriminate|]. cbn [obind forget] in *. exact N.
  - destruct (verify_numbers _ _ _); [|discriminate]. cbn [obind]. rewrite map_length.
    rewrite (B _ _ _ (f_C98_typed_shape mt (txt "positions") (na_shape positions) (na_data positions) [Some (length numbers); Some 3])).
    destruct (verify_ndarray_shape (na_shape positions) [Some (length numbers); Some 3]); [|reflexivity]. cbn [rbind].
    rewrite (B _ _ _ (f_C98_typed_shape mt (txt "positions") (na_shape positions) (na_data positions) [None; Some 3])).
    destruct (verify_ndarray_shape (na_shape positions) [None; Some 3]); [|reflexivity]. cbn [rbind leaves_cell]. unfold outside. destruct (existsb _ _); reflexivity.
Qed.
