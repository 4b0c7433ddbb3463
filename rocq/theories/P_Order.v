(** What a successful addition contributes does not depend on the DOFs already there. *)
From Coq Require Import String ZArith Reals Lra Lia Bool Arith List Permutation.
From Verif Require Import Base LinAlg M_Validate M_StructUtils M_Symmetry M_Reference M_Interp M_Art M_Shared
  S_Lattice S_Vec S_Symmetry S_Equivalent S_Interp S_Images S_Order P_StructUtils P_Symmetry P_Equivalent P_Equiv3 P_EquivTotal P_Interp P_Interp2.
Import ListNotations.
Local Open Scope R_scope.

Definition fresh (s : imodel) : imodel := mkIM (im_ref s) (im_refpol s) (im_dummy s) [] [] [].
Definition adds (art : bool) (a : adding) (s s' : imodel) : Prop := exists w, run_adding art a s = ((s', w), Ok tt).

(** [v] passes the test against basis vector [b] *)
Definition ortho (v : arr V3) (b : list V3) : Prop := non_orthogonal (normalise (flatten v)) (flatten (Fin b)) = Ok false.

Lemma orth_all v bs : is_orthogonal_to_all (flatten v) (map (fun b => flatten (Fin b)) bs) = Ok (-1)%Z <-> Forall (ortho v) bs.
Proof.
  unfold is_orthogonal_to_all. split.
  - intros H. apply Forall_forall. intros b Hb. eapply (scan_none _ _ _ H). apply (in_map (fun b => flatten (Fin b))). auto.
  - intros H. rewrite Forall_forall in H.
    assert (K: forall l k, (forall b, In b l -> ortho v b) -> scan_from (non_orthogonal (normalise (flatten v))) k (map (fun b => flatten (Fin b)) l) = Ok (-1)%Z).
    { induction l as [|b l IH]; intros k G; simpl; auto. rewrite (G b) by (simpl; auto). simpl. apply IH. intros; apply G; simpl; auto. }
    apply K. auto.
Qed.

Definition lead (s : imodel) (p : arr V3) : arr V3 := get_cart_displacement_arr (im_ref s) p.

Lemma get_dof_fresh s p amps pols inc dofs : get_dof s p amps pols inc = Ok dofs <->
  Forall (ortho (lead s p)) (im_basis s) /\ get_dof (fresh s) p amps pols inc = Ok dofs.
Proof.
  rewrite <- orth_all. unfold get_dof, lead. cbn [fresh im_ref im_refpol im_basis].
  change (is_orthogonal_to_all (flatten (get_cart_displacement_arr (im_ref s) p)) (map (fun b => flatten (Fin b)) []))
    with (Ok (-1)%Z). cbn [rbind Z.eqb negb Pos.eqb].
  destruct (is_orthogonal_to_all _ _) as [z|e] eqn:E; cbn [rbind].
  - destruct (Z.eqb_spec z (-1)) as [->|N]; cbn [negb].
    + tauto.
    + split; [discriminate|]. intros [C _]. injection C as C. tauto.
  - split; [discriminate|]. intros [C _]. discriminate.
Qed.

Lemma construct_fresh dofs order s s' :
  (exists w, construct_and_add dofs order s = ((s', w), Ok tt)) <->
  exists w bs sps, construct_and_add dofs order (fresh s) = ((appended (fresh s) bs sps, w), Ok tt) /\ s' = appended s bs sps.
Proof.
  split.
  - intros (w & H). apply construct_and_add_cases in H as [(e & E & _)|(_ & Ho & bs & pss & H1 & H2 & H3 & H4 & H5)]; [discriminate|].
    do 3 eexists. split; [|exact H5]. rewrite (construct_and_add_complete dofs order (fresh s) bs pss) by auto. reflexivity.
  - intros (w & bs & sps & H & ->).
    apply construct_and_add_cases in H as [(e & E & _)|(_ & Ho & bs' & pss & H1 & H2 & H3 & H4 & H5)]; [discriminate|].
    exists (flat_map span_warnings pss). rewrite (construct_and_add_complete dofs order s bs' pss) by auto.
    unfold appended in *. cbn [fresh im_ref im_refpol im_dummy im_basis im_interp im_mask app] in H5. injection H5 as E1 E2 E3.
    destruct (im_dummy s); subst; auto.
Qed.

(** One step: a lifted result that does not depend on the tables *)
Lemma lift_ok {A B} (x : res A) (k : A -> act B) s s' w r :
  (do a <- lift x; k a) s = ((s', w), Ok r) <-> exists a, x = Ok a /\ k a s = ((s', w), Ok r).
Proof.
  unfold bind, lift. destruct x as [a|e].
  - destruct (k a s) as [[s1 w1] r1] eqn:E. simpl. split.
    + intros [= <- <- ->]. eauto.
    + intros (a' & [= <-] & H). rewrite E in H. injection H as <- <- ->. auto.
  - split; [discriminate|]. intros (a & C & _). discriminate.
Qed.
Lemma get_ok {B} (k : imodel -> act B) s : (do a <- get; k a) s = k s s.
Proof. unfold bind, get. destruct (k s s) as [[]]. reflexivity. Qed.

Definition dof_parent (r : refstruct) (cart : arr V3) : arr V3 :=
  match get_frac_displacement_arr r cart with Ok d => over_norm 10 d | Err _ => Nan 0 end.

(** [x] adds, from any state with the same constants as [s], the same things *)
Definition uniform (x : act unit) (s : imodel) (p : arr V3) : Prop :=
  forall s', (exists w, x s = ((s', w), Ok tt)) <->
    Forall (ortho (lead s p)) (im_basis s) /\
    exists w bs sps, x (fresh s) = ((appended (fresh s) bs sps, w), Ok tt) /\ s' = appended s bs sps.

Lemma add_dof_uniform cart amps pols order inc s : uniform (add_dof cart amps pols order inc) s (dof_parent (im_ref s) cart).
Proof.
  intros s'. unfold add_dof, dof_parent. rewrite !get_ok. cbn [fresh im_ref im_dummy].
  destruct (get_frac_displacement_arr (im_ref s) cart) as [disp|e] eqn:D.
  2: { split; [intros (w & H); apply lift_ok in H as (a & H & _); discriminate|].
       intros (_ & w & bs & sps & H & _). apply lift_ok in H as (a & H & _); discriminate. }
  split.
  - intros (w & H). apply lift_ok in H as (a & [= <-] & H). apply lift_ok in H as ([] & V1 & H). apply lift_ok in H as ([] & V2 & H).
    apply lift_ok in H as (dofs & G & H). apply get_dof_fresh in G as [O G]. split; [exact O|].
    destruct (proj1 (construct_fresh dofs order s s') (ex_intro _ w H)) as (w' & bs & sps & C & E).
    exists w', bs, sps. split; [|exact E].
    apply lift_ok. exists disp. split; auto. apply lift_ok. exists tt. split; [exact V1|]. apply lift_ok. exists tt. split; [exact V2|].
    apply lift_ok. exists dofs. split; [exact G|exact C].
  - intros (O & w & bs & sps & H & E). apply lift_ok in H as (a & [= <-] & H). apply lift_ok in H as ([] & V1 & H). apply lift_ok in H as ([] & V2 & H).
    apply lift_ok in H as (dofs & G & H).
    destruct (proj2 (construct_fresh dofs order s s')) as (w' & C); [exists w, bs, sps; auto|].
    exists w'. apply lift_ok. exists disp. split; auto. apply lift_ok. exists tt. split; [exact V1|]. apply lift_ok. exists tt. split; [exact V2|].
    apply lift_ok. exists dofs. split; [|exact C]. apply get_dof_fresh. split; [exact O|exact G].
Qed.

Lemma one_atom_uniform d0 amps pols s : uniform (add_one_atom d0 amps pols) s (Fin d0).
Proof.
  intros s'. unfold add_one_atom. rewrite !get_ok. split.
  - intros (w & H). apply lift_ok in H as (k & K & H).
    destruct (forallb row_small (set_nth k v0 d0)) eqn:F; cbn [negb] in H; [|discriminate].
    apply lift_ok in H as (dofs & G & H). destruct dofs as [|d dofs]; [discriminate|].
    destruct (negb (Nat.eqb (List.length (snd d)) 2)) eqn:L; [discriminate|].
    apply get_dof_fresh in G as [O G]. split; [exact O|].
    destruct (proj1 (construct_fresh (d :: dofs) 1 s s') (ex_intro _ w H)) as (w' & bs & sps & C & E).
    exists w', bs, sps. split; [|exact E].
    apply lift_ok. exists k. split; auto. rewrite F. cbn [negb]. apply lift_ok. exists (d :: dofs). split; [exact G|]. rewrite L. exact C.
  - intros (O & w & bs & sps & H & E). apply lift_ok in H as (k & K & H).
    destruct (forallb row_small (set_nth k v0 d0)) eqn:F; cbn [negb] in H; [|discriminate].
    apply lift_ok in H as (dofs & G & H). destruct dofs as [|d dofs]; [discriminate|].
    destruct (negb (Nat.eqb (List.length (snd d)) 2)) eqn:L; [discriminate|].
    destruct (proj2 (construct_fresh (d :: dofs) 1 s s')) as (w' & C); [exists w, bs, sps; auto|].
    exists w'. apply lift_ok. exists k. split; auto. rewrite F. cbn [negb]. apply lift_ok. exists (d :: dofs).
    split; [apply get_dof_fresh; split; [exact O|exact G]|]. rewrite L. exact C.
Qed.

(** The displacement a call starts from, as it is handed to the common code *)
Definition parent (art : bool) (a : adding) (s : imodel) : arr V3 :=
  let r := im_ref s in
  match a with
  | Dof c _ _ _ _ => dof_parent r (Fin c)
  | DofFiles rds _ => match read_dof (fresh s) rds with
                      | Ok (d0, _, _) => dof_parent r (Fin (get_cart_displacement r d0)) | Err _ => Nan 0 end
  | DofPymatgen poss _ _ => match displacement_amplitudes (fresh s) poss with
                            | Ok x => dof_parent r (Fin (get_cart_displacement r (fst x))) | Err _ => Nan 0 end
  | Art i d _ _ =>
      match get_frac_direction r d, py_index (List.length (rs_positions r)) i with
      | Ok f, Some k => dof_parent r (get_cart_displacement_arr r (art_displacement r k f)) | _, _ => Nan 0 end
  | ArtFiles rds => match read_dof (fresh s) rds with Ok (d0, _, _) => Fin d0 | Err _ => Nan 0 end
  | ArtPymatgen poss _ => match displacement_amplitudes (fresh s) poss with Ok x => Fin (fst x) | Err _ => Nan 0 end
  end.

Lemma raise_uniform e s p : uniform (raise e) s p.
Proof. intros s'. split; [intros (w & H); discriminate|]. intros (_ & w & bs & sps & H & _). discriminate. Qed.

Lemma lift_uniform {A} (x : res A) (k : A -> act unit) s p q :
  (forall a, x = Ok a -> uniform (k a) s (p a)) -> q = match x with Ok a => p a | Err _ => Nan 0 end ->
  uniform (do a <- lift x; k a) s q.
Proof.
  intros H -> s'. destruct x as [a|e].
  - specialize (H a eq_refl s'). split.
    + intros (w & G). apply lift_ok in G as (a' & [= <-] & G). destruct (proj1 H (ex_intro _ w G)) as (O & w' & bs & sps & C & E).
      split; auto. exists w', bs, sps. split; auto. apply lift_ok. eauto.
    + intros (O & w & bs & sps & C & E). apply lift_ok in C as (a' & [= <-] & C).
      destruct (proj2 H) as (w' & G); [split; [auto|exists w, bs, sps; auto]|]. exists w'. apply lift_ok. eauto.
  - split; [intros (w & G); apply lift_ok in G as (a & G & _); discriminate|].
    intros (_ & w & bs & sps & G & _). apply lift_ok in G as (a & G & _); discriminate.
Qed.

Lemma uniform_ext x y s p : (forall t, t = s \/ t = fresh s -> x t = y t) -> uniform y s p -> uniform x s p.
Proof. intros H G s'. rewrite !H by auto. apply G. Qed.

Lemma adding_uniform art a s : uniform (run_adding art a) s (parent art a s).
Proof.
  destruct art, a as [c x p k i|r k|ps p k|i d x p|r|ps p]; cbn [run_adding run_op]; try apply raise_uniform; unfold parent.
  - unfold add_art. apply (uniform_ext _ (do f <- lift (get_frac_direction (im_ref s) d);
      do _ <- lift (match ra_shape x with [1%nat] | [2%nat] => Ok tt | _ => Err ValueError end);
      do _ <- lift (verify_ndarray_shape (ra_shape (if im_dummy s then mats_arr (repeat m0 (List.length (ra_data x))) else p))
                      [Some (List.length (ra_data x)); Some 3%nat; Some 3%nat]);
      match py_index (List.length (rs_positions (im_ref s))) i with
      | None => raise IndexError
      | Some k => add_dof (get_cart_displacement_arr (im_ref s) (art_displacement (im_ref s) k f)) x
                    (if im_dummy s then mats_arr (repeat m0 (List.length (ra_data x))) else p) 1 false
      end)).
    { intros t [->| ->]; rewrite get_ok; reflexivity. }
    destruct (py_index (List.length (rs_positions (im_ref s))) i) as [k|].
    + apply (lift_uniform _ _ _ (fun f => dof_parent (im_ref s) (get_cart_displacement_arr (im_ref s) (art_displacement (im_ref s) k f)))); [|reflexivity].
      intros f _ s'. split.
      * intros (w & H). apply lift_ok in H as ([] & V1 & H). apply lift_ok in H as ([] & V2 & H).
        destruct (proj1 (add_dof_uniform _ _ _ _ _ _ s') (ex_intro _ w H)) as (O & w' & bs & sps & C & E). split; auto.
        exists w', bs, sps. split; auto. apply lift_ok. exists tt. split; auto. apply lift_ok. exists tt. auto.
      * intros (O & w & bs & sps & H & E). apply lift_ok in H as ([] & V1 & H). apply lift_ok in H as ([] & V2 & H).
        destruct (proj2 (add_dof_uniform (get_cart_displacement_arr (im_ref s) (art_displacement (im_ref s) k f)) x
          (if im_dummy s then mats_arr (repeat m0 (List.length (ra_data x))) else p) 1 false s s')) as (w' & G).
        { split; auto. exists w, bs, sps. auto. }
        exists w'. apply lift_ok. exists tt. split; auto. apply lift_ok. exists tt. auto.
    + intros s'. split.
      * intros (w & H). apply lift_ok in H as (f & _ & H). apply lift_ok in H as ([] & V1 & H). apply lift_ok in H as ([] & V2 & H). discriminate.
      * intros (O & w & bs & sps & H & E). apply lift_ok in H as (f & _ & H). apply lift_ok in H as ([] & V1 & H). apply lift_ok in H as ([] & V2 & H). discriminate.
  - unfold add_art_from_files. apply (uniform_ext _ (do x <- lift (read_dof (fresh s) r); let '(d0, amps, pols) := x in add_one_atom d0 amps pols)).
    { intros t [->| ->]; rewrite get_ok; reflexivity. }
    apply (lift_uniform _ _ _ (fun x : list V3 * list R * list M3 => let '(d0, _, _) := x in Fin d0)); [|reflexivity].
    intros [[d0 am] po] _. apply one_atom_uniform.
  - unfold add_art_from_pymatgen. apply (uniform_ext _ (do x <- lift (displacement_amplitudes (fresh s) ps); add_one_atom (fst x) (snd x) p)).
    { intros t [->| ->]; rewrite get_ok; reflexivity. }
    apply (lift_uniform _ _ _ (fun x : list V3 * list R => Fin (fst x))); [|reflexivity].
    intros x _. apply one_atom_uniform.
  - apply add_dof_uniform.
  - unfold add_dof_from_files. apply (uniform_ext _ (do x <- lift (read_dof (fresh s) r); let '(d0, amps, pols) := x in
      add_dof (Fin (get_cart_displacement (im_ref s) d0)) (vec_arr amps) (mats_arr pols) k true)).
    { intros t [->| ->]; rewrite get_ok; reflexivity. }
    apply (lift_uniform _ _ _ (fun x : list V3 * list R * list M3 => let '(d0, _, _) := x in dof_parent (im_ref s) (Fin (get_cart_displacement (im_ref s) d0)))); [|reflexivity].
    intros [[d0 am] po] _. apply add_dof_uniform.
  - unfold add_dof_from_pymatgen. apply (uniform_ext _ (do x <- lift (displacement_amplitudes (fresh s) ps);
      add_dof (Fin (get_cart_displacement (im_ref s) (fst x))) (vec_arr (snd x)) p k true)).
    { intros t [->| ->]; rewrite get_ok; reflexivity. }
    apply (lift_uniform _ _ _ (fun x : list V3 * list R => dof_parent (im_ref s) (Fin (get_cart_displacement (im_ref s) (fst x))))); [|reflexivity].
    intros x _. apply add_dof_uniform.
Qed.

Lemma adding_split art a s s' : adds art a s s' <->
  Forall (ortho (lead s (parent art a s))) (im_basis s) /\
  exists bs sps, adds art a (fresh s) (appended (fresh s) bs sps) /\ s' = appended s bs sps.
Proof.
  unfold adds. rewrite (adding_uniform art a s s'). split; intros (O & H); (split; [exact O|]).
  - destruct H as (w & bs & sps & H & E). eauto 6.
  - destruct H as (bs & sps & (w & H) & E). eauto 6.
Qed.
