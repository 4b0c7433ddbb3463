(** C99: calls that use a number that is not finite fail; histories keep everything finite. *)
From Coq Require Import String ZArith Reals Lra Lia Bool Arith List.
From Verif Require Import Base LinAlg M_Validate M_Text M_Poscar M_Outcar M_Vasprun M_Dataset M_StructUtils M_Symmetry M_Reference
  M_Interp M_Art M_Special S_Interp S_Special P_StructUtils P_Symmetry P_Equivalent P_EquivTotal P_Interp P_Interp2 P_Interp4 P_Interp6 P_Art P_Art2 P_Examples2 P_Examples3 P_Images
  P_Atoms2 P_Special P_Special2 P_Special3 P_Special4.
Import ListNotations.
Local Open Scope R_scope.

Lemma nums_dec l : {k | l = map FinN k} + {Exists not_finite l}.
Proof.
  induction l as [|x l IH]; [left; exists []; reflexivity|].
  destruct (nf_dec x) as [(y & ->)|H]; [|right; apply Exists_cons_hd, H].
  destruct IH as [(k & ->)|H]; [left; exists (y :: k); reflexivity|right; apply Exists_cons_tl, H].
Qed.
Lemma nmats_arr_wf l : narr_wf (nmats_arr l).
Proof. unfold narr_wf; cbn. induction l as [|t l IH]; [reflexivity|]. cbn in *. rewrite IH. lia. Qed.
Lemma nmats_arr_nf l : Exists tensor_not_finite l -> Exists not_finite (na_data (nmats_arr l)).
Proof.
  cbn. induction 1 as [t l H|t l H IH]; cbn [flat_map]; apply Exists_app; [left|right; exact IH].
  apply Exists_exists. unfold tensor_not_finite, row_not_finite in H. unfold nmat_entries.
  destruct H as [[H|[H|H]]|[[H|[H|H]]|[H|[H|H]]]]; eexists; (split; [|exact H]); cbn; tauto.
Qed.
Lemma scan_bad {A} (test : A -> res bool) k l z a : scan_from test k l = Ok z -> In a l -> (forall b, test a = Ok b -> b = true) -> negb (z =? -1)%Z = true.
Proof.
  intros E Ha H. destruct (Z.eqb_spec z (-1)) as [->|N]; [|reflexivity]. apply (scan_none _ _ _ E) in Ha. apply H in Ha. discriminate.
Qed.
Lemma collinear_nan v n b : are_collinear v (Nan n) = Ok b -> b = false.
Proof.
  unfold are_collinear. cbn [normalise]. unfold npdot. destruct (Nat.eqb _ _); cbn [rbind]; [|discriminate]. destruct (normalise v); intros [= <-]; reflexivity.
Qed.
Lemma namplitudes_nf s ds : Exists (Exists row_not_finite) ds -> exists e, namplitudes_of s ds = Err e.
Proof.
  intros H. unfold namplitudes_of. destruct (map as_arr ds) as [|d0 l] eqn:E; [eauto|].
  destruct (is_collinear_with_all _ _) as [z|] eqn:S; cbn [rbind]; [|eauto].
  apply Exists_exists in H as (d & Hd & N). rewrite (scan_bad _ _ _ _ (flatten (as_arr d)) S); [eauto| |].
  - rewrite <- E. apply in_map, in_map, Hd.
  - intros b. rewrite (as_arr_nf _ N). cbn [flatten]. destruct (are_collinear _ _) as [c|] eqn:C; cbn; [|discriminate]. apply collinear_nan in C. subst c. intros [= <-]. reflexivity.
Qed.
Lemma nwrap_nf v : row_not_finite v -> row_not_finite (n3_map nwrap v).
Proof. destruct v as [a b c]; unfold row_not_finite; cbn. intros [H|[H|H]]; [left; destruct a|right; left; destruct b|right; right; destruct c]; cbn in *; tauto. Qed.
Lemma nsub_row_l v w : row_not_finite v -> row_not_finite (n3_map2 num_sub v w).
Proof. unfold row_not_finite; cbn. intuition auto using nf_sub_l. Qed.
Lemma ncalc_nf p1 p2 d : p1 <> [] -> Exists row_not_finite p2 -> ncalc_displacement p1 p2 = Ok d -> Exists row_not_finite d.
Proof.
  intros Hn H. unfold ncalc_displacement. destruct (bcast2 _ _ _) as [x|] eqn:E; cbn [rbind]; [|discriminate]. intros [= <-]. apply nwrapd_nf.
  assert (H' : Exists row_not_finite (map (n3_map nwrap) p2)) by (clear - H; induction H; cbn; [apply Exists_cons_hd, nwrap_nf; assumption|apply Exists_cons_tl; assumption]).
  revert E H'. generalize (map (n3_map nwrap) p2). intros l. assert (Hm : map (fun v => n3_map nwrap (fin3 v)) p1 <> []) by (destruct p1; [congruence|discriminate]).
  revert Hm. generalize (map (fun v => n3_map nwrap (fin3 v)) p1). clear. intros k Hm E H. unfold bcast2 in E.
  destruct (Nat.eqb_spec (List.length l) (List.length k)) as [L|L].
  - injection E as <-. clear Hm. revert k L. induction H as [v l H|v l H IH]; intros [|w k] L; try discriminate; cbn.
    + apply Exists_cons_hd, nsub_row_l, H.
    + apply Exists_cons_tl, IH. cbn in L. lia.
  - destruct l as [|a [|a2 l]].
    + inversion H.
    + injection E as <-. destruct k as [|w k]; [congruence|]. cbn. apply Exists_cons_hd, nsub_row_l. inversion H as [? ? X|? ? X]; [exact X|inversion X].
    + destruct k as [|w [|w2 k]]; [discriminate| |discriminate]. injection E as <-. apply Exists_exists in H as (v & Hv & N). apply Exists_exists.
      exists (n3_map2 num_sub v w). split; [|apply nsub_row_l, N]. apply (in_map (fun a => n3_map2 num_sub a w) (a :: a2 :: l) v Hv).
Qed.
Lemma mapM_in {A B} (f : A -> res B) l bs a : mapM f l = Ok bs -> In a l -> exists b, In b bs /\ f a = Ok b.
Proof.
  intros M H. apply mapM_Ok in M. induction M as [|x b l bs E M IH]; [destruct H|]. destruct H as [->|H]; [exists b; split; [left; reflexivity|exact E]|].
  destruct (IH H) as (c & ? & ?). exists c. split; [right|]; assumption.
Qed.
Lemma displ_nf s ps : rs_positions (nm_ref s) <> [] -> Exists (Exists row_not_finite) ps -> exists e, ndisplacement_amplitudes s ps = Err e.
Proof.
  intros Hn H. unfold ndisplacement_amplitudes. destruct (mapM _ ps) as [ds|] eqn:E; cbn [rbind]; [|eauto].
  apply namplitudes_nf. apply Exists_exists in H as (p & Hp & N). destruct (mapM_in _ _ _ _ E Hp) as (d & Hd & Q).
  apply Exists_exists. exists d. split; [exact Hd|]. destruct (ncalc_displacement _ p) as [d'|e] eqn:C; [|destruct (is_value_error e); discriminate].
  injection Q as <-. eapply ncalc_nf; eassumption.
Qed.
Lemma namplitudes_len s ds x : namplitudes_of s ds = Ok x -> List.length (snd x) = List.length ds.
Proof.
  unfold namplitudes_of. destruct (map as_arr ds) as [|d0 l] eqn:E; [discriminate|]. destruct (is_collinear_with_all _ _); cbn [rbind]; [|discriminate].
  destruct (negb _); [discriminate|]. destruct d0 as [c0|]; [|discriminate]. destruct (all_fin (FinA c0 :: l)) as [cs|] eqn:F; [|discriminate].
  destruct (over_norm 1 _); [|discriminate]. intros [= <-]. cbn [snd]. rewrite map_length. apply all_fin_map in F. apply (f_equal (@List.length _)) in F. rewrite map_length in F.
  rewrite <- F, <- E, map_length. reflexivity.
Qed.
Lemma namplitudes_fin' s ds x : namplitudes_of s ds = Ok x -> exists amps, snd x = map FinN amps.
Proof.
  unfold namplitudes_of. destruct (map as_arr ds) as [|d0 l] eqn:E; [discriminate|]. destruct (is_collinear_with_all _ _); cbn [rbind]; [|discriminate].
  destruct (negb _); [discriminate|]. destruct d0 as [c0|]; [|discriminate]. destruct (all_fin (FinA c0 :: l)) as [cs|] eqn:F; [|discriminate].
  destruct (over_norm 1 _); [|discriminate]. intros [= <-]. cbn [snd]. eexists. symmetry. apply map_map.
Qed.
Lemma displ_len s ps x : ndisplacement_amplitudes s ps = Ok x -> List.length (snd x) = List.length ps.
Proof.
  unfold ndisplacement_amplitudes. destruct (mapM _ ps) as [ds|] eqn:E; cbn [rbind]; [|discriminate]. intros H. apply namplitudes_len in H. rewrite H.
  eapply mapM_length, E.
Qed.
Lemma read_nf s rds p t : rs_positions (nm_ref s) <> [] -> In (Ok (p, t)) rds -> Exists row_not_finite p -> exists e, nread_dof s rds = Err e.
Proof.
  intros Hn Hi H. unfold nread_dof. destruct (mapM _ rds) as [dps|] eqn:E; cbn [rbind]; [|eauto].
  destruct (namplitudes_nf s (map fst dps)) as (e & Q); [|rewrite Q; cbn; eauto].
  destruct (mapM_in _ _ _ _ E Hi) as ([d u] & Hd & Q). unfold nread_one in Q. cbn [rbind fst snd] in Q.
  destruct (ncalc_displacement _ p) as [d'|e] eqn:C; [|destruct (is_value_error e); discriminate]. injection Q as <- _.
  apply Exists_exists. exists d'. split; [apply (in_map fst) in Hd; exact Hd|]. eapply ncalc_nf; eassumption.
Qed.
Lemma read_tensor s rds p t d0 amps pols : nm_dummy s = false -> In (Ok (p, t)) rds -> tensor_not_finite t -> nread_dof s rds = Ok (d0, amps, pols) ->
  List.length amps = List.length pols /\ Exists tensor_not_finite pols.
Proof.
  intros Hd Hi H. unfold nread_dof. destruct (mapM _ rds) as [dps|] eqn:E; cbn [rbind]; [|discriminate].
  destruct (namplitudes_of s (map fst dps)) as [da|] eqn:N; cbn [rbind]; [|discriminate]. intros [= -> <-]. apply namplitudes_len in N. cbn [snd] in N. rewrite map_length in N.
  split; [rewrite map_length; exact N|]. destruct (mapM_in _ _ _ _ E Hi) as ([d u] & Hd' & Q). unfold nread_one in Q. cbn [rbind fst snd] in Q. rewrite Hd in Q.
  destruct (ncalc_displacement _ p) as [d'|e]; [|destruct (is_value_error e); discriminate]. injection Q as _ <-.
  apply Exists_exists. exists t. split; [apply (in_map snd) in Hd'; exact Hd'|exact H].
Qed.
Lemma exists_combine {A} (amps : list A) pols : List.length amps = List.length pols -> Exists tensor_not_finite pols ->
  Exists (fun ap : A * nmat => tensor_not_finite (snd ap)) (combine amps pols).
Proof.
  intros L H. apply Exists_exists in H as (t & Ht & N). destruct (in_combine_r2 amps pols t L Ht) as (a & Ha). apply Exists_exists. exists (a, t). auto.
Qed.
Lemma combine_firstn' {A B} (l : list A) (k : list B) : combine l k = combine l (firstn (List.length l) k).
Proof. revert k. induction l as [|a l IH]; intros [|b k]; cbn; try reflexivity. rewrite <- IH. reflexivity. Qed.

Section Ref.
Variable s : nmodel.
Let r := nm_ref s.
Hypothesis Hwf : wf_ref r.
Hypothesis Hops : rs_ops r <> [].

Lemma positions_ne : rs_positions r <> [].
Proof. destruct Hwf as (_ & H & _). destruct (rs_positions r); [cbn in H; lia|discriminate]. Qed.
Lemma nadd_dof_tail c amps pols order inc : (forall disp, nget_frac_displacement r c = Ok disp -> fails (ntail s (as_arr (nover_norm 10 disp)) amps pols order inc)) ->
  fails (nadd_dof s c amps pols order inc).
Proof. intros H. unfold nadd_dof. apply fails_bind. exact H. Qed.
Lemma nadd_dof_fails c amps pols order inc : narr_wf pols ->
  tensor_not_finite (nm_refpol s) \/ Exists row_not_finite c \/ Exists not_finite (na_data amps) \/ (nm_dummy s = false /\ Exists not_finite (na_data pols)) ->
  fails (nadd_dof s c amps pols order inc).
Proof.
  intros W H. apply nadd_dof_tail. intros disp E. eapply ntail_fails; eauto. destruct H as [H|[H|[H|H]]]; auto.
  right. left. eexists. eapply frac_nf; eassumption.
Qed.
Lemma nadd_one_fails d0 amps pols : bad_data (nm_refpol s) amps pols -> fails (nadd_one_atom s d0 amps pols).
Proof.
  intros H. unfold nadd_one_atom. apply fails_bind. intros k _. destruct (negb _); [red; eauto|]. apply fails_bind. intros dofs E.
  pose proof (nget_dof_bad r Hwf Hops s _ _ _ _ _ eq_refl E (or_introl H)) as B. destruct dofs as [|d dofs]; [red; eauto|]. destruct (negb _); [red; eauto|].
  eapply nconstruct_bad, B.
Qed.

Lemma nadd_art_fails i d a p : narr_wf a -> narr_wf p ->
  tensor_not_finite (nm_refpol s) \/ Exists not_finite d \/ Exists not_finite (na_data a) \/ (nm_dummy s = false /\ Exists not_finite (na_data p)) ->
  fails (nadd_art s i d a p).
Proof.
  intros W1 W2 H. unfold nadd_art. cbv zeta. fold r. apply fails_bind. intros f Ef. apply fails_bind. intros [] _. apply fails_bind. intros [] _.
  destruct (py_index _ i) as [k|] eqn:Ek; [|red; eauto]. apply nadd_dof_fails.
  - destruct (nm_dummy s); [apply nmats_arr_wf|exact W2].
  - destruct H as [H|[H|[H|(Hd & H)]]]; auto; [|right; right; right; rewrite Hd; auto]. right. left.
    assert (Nf : row_not_finite f /\ (nx f = NaN \/ ny f = NaN \/ nz f = NaN)).
    { unfold nget_frac_direction in Ef. destruct d as [|x [|y [|z [|? ?]]]]; try discriminate. destruct (minv _) as [li|]; cbn [rbind] in Ef; [|discriminate]. injection Ef as <-.
      assert (X : row_not_finite (mkN3 x y z)).
      { unfold row_not_finite; cbn. inversion H as [? ? Q|? ? Q]; subst; [auto|]. inversion Q as [? ? Q2|? ? Q2]; subst; [auto|]. inversion Q2 as [? ? Q3|? ? Q3]; subst; [auto|inversion Q3]. }
      pose proof (nrow_mul_nf _ li X) as (A & B & C). assert (Q : nx (n3_map nwrapd (nrow_mul (mkN3 x y z) li)) = NaN) by (clear - A; revert A; generalize (nrow_mul (mkN3 x y z) li); intros [u ? ?]; cbn; destruct u; cbn; tauto).
      split; left; rewrite ?Q; [exact I|reflexivity]. }
    apply Exists_exists. eexists. split; [unfold nget_cart_displacement; apply in_map, set_nth_in; rewrite repeat_length; eapply py_index_lt, Ek|].
    apply nrow_mul_row. rewrite nnorm_nan.
    + left. cbn. destruct (nx f); exact I.
    + cbn. destruct Nf as [_ [N|[N|N]]]; [apply Exists_cons_hd|apply Exists_cons_tl, Exists_cons_hd|apply Exists_cons_tl, Exists_cons_tl, Exists_cons_hd]; exact N.
Qed.

(** C99: a call that uses a number that is not finite raises. *)
Lemma tainted_fails art o : nop_wf o -> tainted (nm_dummy s) o \/ (adding o /\ tensor_not_finite (nm_refpol s)) -> fails (run_nop art s o).
Proof.
  destruct art, o as [c a p k i|rds k|ps p k|i d a p|rds|ps p|sh v|]; cbn [run_nop nop_wf tainted adding]; intros W H; try (red; eauto; fail); try (destruct H as [H|(H & _)]; destruct H; fail).
  - destruct W as (W1 & W2). apply nadd_art_fails; try assumption. destruct H as [[H|[H|H]]|(_ & H)]; auto.
  - unfold nadd_art_from_files. apply fails_bind. intros [[d0 amps] pols] E. apply nadd_one_fails.
    destruct H as [(p & t & Hi & [H|(Hd & H)])|(_ & H)]; [|right|left; exact H].
    + destruct (read_nf s rds p t positions_ne Hi H) as (e & Q). congruence.
    + destruct (read_tensor _ _ _ _ _ _ _ Hd Hi H E) as (L & X). eapply Exists_impl; [|apply exists_combine; eassumption]. intros; auto.
  - unfold nadd_art_from_pymatgen. apply fails_bind. intros x E. apply nadd_one_fails. destruct H as [[H|H]|(_ & H)]; [|right|left; exact H].
    + destruct (displ_nf s ps positions_ne H) as (e & Q). congruence.
    + apply displ_len in E. apply Exists_exists in H as (t & Ht & N). rewrite combine_firstn', E.
      assert (exists a, In (a, t) (combine (snd x) (firstn (List.length ps) p))) as (a & Ha).
      { rewrite <- E in *. clear - Ht. revert p Ht. generalize (snd x). induction l as [|y l IH]; intros [|b p]; cbn; try tauto. intros [->|H]; [eauto|]. destruct (IH _ H) as (a & ?). eauto. }
      apply Exists_exists. exists (a, t). auto.
  - destruct W as (W1 & W2). apply nadd_dof_fails; [assumption|]. destruct H as [[H|[H|H]]|(_ & H)]; auto.
  - unfold nadd_dof_from_files. apply fails_bind. intros [[d0 amps] pols] E. apply nadd_dof_fails; [apply nmats_arr_wf|].
    destruct H as [(p & t & Hi & [H|(Hd & H)])|(_ & H)]; [|right; right; right|left; exact H].
    + destruct (read_nf s rds p t positions_ne Hi H) as (e & Q). congruence.
    + destruct (read_tensor _ _ _ _ _ _ _ Hd Hi H E) as (L & X). split; [exact Hd|]. apply nmats_arr_nf, X.
  - unfold nadd_dof_from_pymatgen. apply fails_bind. intros x E. apply nadd_dof_fails; [exact W|].
    destruct H as [[H|H]|(_ & H)]; auto. destruct (displ_nf s ps positions_ne H) as (e & Q). congruence.
Qed.
End Ref.

(** ** A call that uses finite numbers only *)
Definition fills (sh : list nat) (n : nat) : rarr := mkRarr sh (repeat 0 n).
Lemma narr_fin_dec a : {b | a = fin_arr b} + {Exists not_finite (na_data a)}.
Proof.
  destruct a as [sh l]. cbn. destruct (nums_dec l) as [(k & ->)|H]; [left; exists (mkRarr sh k); reflexivity|right; exact H].
Qed.
Lemma fin_arr_wf a : narr_wf (fin_arr a) <-> rarr_wf a.
Proof. unfold narr_wf, rarr_wf, fin_arr; cbn. rewrite map_length. reflexivity. Qed.

(** the polarizabilities the call uses *)
Definition used_arr (dummy : bool) (a : narr) : option rarr :=
  match narr_fin_dec a with
  | inleft b => Some (proj1_sig b)
  | inright _ => if dummy then Some (fills (na_shape a) (List.length (na_data a))) else None
  end.
Lemma used_arr_cases dummy a : (exists b, a = fin_arr b) \/ (dummy = true) \/ (dummy = false /\ Exists not_finite (na_data a)).
Proof. destruct (narr_fin_dec a) as [(b & ->)|H]; [left; eauto|]. destruct dummy; auto. Qed.

Lemma nadd_dof_dummy s c a p p' k i : nm_dummy s = true -> nadd_dof s c a p k i = nadd_dof s c a p' k i.
Proof. intros H. unfold nadd_dof. rewrite H. reflexivity. Qed.
Lemma nadd_art_dummy s i d a p p' : nm_dummy s = true -> nadd_art s i d a p = nadd_art s i d a p'.
Proof. intros H. unfold nadd_art. rewrite H. reflexivity. Qed.
Definition zeroed (rd : res (list n3 * nmat)) : res (list n3 * nmat) := rmap (fun pp => (fst pp, fin_mat m0)) rd.
Lemma nread_dummy s rds : nm_dummy s = true -> nread_dof s rds = nread_dof s (map zeroed rds).
Proof.
  intros H. unfold nread_dof. replace (mapM (nread_one s) (map zeroed rds)) with (mapM (nread_one s) rds); [reflexivity|].
  induction rds as [|rd rds IH]; [reflexivity|]. cbn [map mapM]. rewrite IH.
  replace (nread_one s (zeroed rd)) with (nread_one s rd); [reflexivity|]. destruct rd as [[p t]|e]; [|reflexivity]. unfold nread_one; cbn. rewrite H. reflexivity.
Qed.
Lemma rowss_dec l : {k | l = map (map fin3) k} + {Exists (Exists row_not_finite) l}.
Proof.
  induction l as [|x l IH]; [left; exists []; reflexivity|].
  destruct (rows_dec x) as [(y & ->)|H]; [|right; apply Exists_cons_hd, H].
  destruct IH as [(k & ->)|H]; [left; exists (y :: k); reflexivity|right; apply Exists_cons_tl, H].
Qed.
Lemma mats_dec l : {k | l = map fin_mat k} + {Exists tensor_not_finite l}.
Proof.
  induction l as [|x l IH]; [left; exists []; reflexivity|].
  destruct (mat_dec x) as [(y & ->)|H]; [|right; apply Exists_cons_hd, H].
  destruct IH as [(k & ->)|H]; [left; exists (y :: k); reflexivity|right; apply Exists_cons_tl, H].
Qed.
Lemma reads_dec (dummy : bool) (rds : nreads) : (exists k, fin_reads k = (if dummy then map zeroed rds else rds)) \/
  (exists p t, In (Ok (p, t)) rds /\ (Exists row_not_finite p \/ (dummy = false /\ tensor_not_finite t))).
Proof.
  induction rds as [|rd rds IH]; [left; exists []; destruct dummy; reflexivity|].
  destruct IH as [(k & Hk)|(p & t & H1 & H2)]; [|right; exists p, t; split; [right; exact H1|exact H2]].
  destruct rd as [[p t]|e].
  - destruct (rows_dec p) as [(q & ->)|H]; [|right; exists p, t; split; [left; reflexivity|left; exact H]].
    destruct dummy.
    + left. exists (Ok (q, m0) :: k). cbn. f_equal. exact Hk.
    + destruct (mat_dec t) as [(u & ->)|H]; [|right; exists (map fin3 q), t; split; [left; reflexivity|right; auto]].
      left. exists (Ok (q, u) :: k). cbn. f_equal. exact Hk.
  - left. exists (Err e :: k). destruct dummy; cbn; f_equal; exact Hk.
Qed.
Lemma nadd_one_firstn s d0 amps pols : nadd_one_atom s d0 amps pols = nadd_one_atom s d0 amps (firstn (List.length amps) pols).
Proof.
  assert (P : forall child ct, npoints_of (nm_refpol s) amps pols child ct = npoints_of (nm_refpol s) amps (firstn (List.length amps) pols) child ct).
  { intros child [coll [rot t]]. unfold npoints_of. rewrite <- combine_firstn'. reflexivity. }
  assert (G : forall g, ndof_of_group (nm_ref s) (nm_refpol s) amps pols false g = ndof_of_group (nm_ref s) (nm_refpol s) amps (firstn (List.length amps) pols) false g).
  { intros g. unfold ndof_of_group. destruct (g_disp g) as [|child rest]; [reflexivity|].
    rewrite (mapM_ext (npoints_of (nm_refpol s) amps pols child) (npoints_of (nm_refpol s) amps (firstn (List.length amps) pols) child)); [reflexivity|]. intros; apply P. }
  assert (D : nget_dof s (FinA d0) amps pols false = nget_dof s (FinA d0) amps (firstn (List.length amps) pols) false).
  { unfold nget_dof. destruct (is_orthogonal_to_all _ _); cbn [rbind]; [|reflexivity]. destruct (negb _); [reflexivity|].
    destruct (get_equivalent_displacements _ _) as [gs|]; cbn [rbind]; [|reflexivity]. apply mapM_ext. intros; apply G. }
  unfold nadd_one_atom. rewrite D. reflexivity.
Qed.

Lemma op_cases art s o : nop_wf o -> tainted (nm_dummy s) o \/ exists o', aop_wf o' /\ run_nop art s o = run_nop art s (fin_op o').
Proof.
  destruct o as [c a p k i|rds k|ps p k|i d a p|rds|ps p|sh v|]; cbn [nop_wf tainted]; intros W.
  - destruct W as (W1 & W2). destruct (rows_dec c) as [(c' & ->)|H]; [|auto]. destruct (narr_fin_dec a) as [(a' & ->)|H]; [|auto].
    destruct (used_arr_cases (nm_dummy s) p) as [(p' & ->)|[Hd|H]]; [| |auto]; right.
    + exists (OpBase (OpAddDof c' a' p' k i)). split; [split; apply fin_arr_wf; assumption|reflexivity].
    + exists (OpBase (OpAddDof c' a' (mkRarr [0%nat] []) k i)). split; [split; [apply fin_arr_wf; assumption|reflexivity]|].
      cbn [run_nop fin_op]. destruct art; [reflexivity|]. apply nadd_dof_dummy, Hd.
  - destruct (reads_dec (nm_dummy s) rds) as [(l & Hl)|H]; [|auto]. right. exists (OpBase (OpAddFiles l k)). split; [exact I|].
    cbn [run_nop fin_op]. destruct art; [reflexivity|]. rewrite Hl. destruct (nm_dummy s) eqn:D; [|reflexivity]. unfold nadd_dof_from_files. rewrite (nread_dummy s rds D). reflexivity.
  - destruct (rowss_dec ps) as [(qs & ->)|H]; [|auto]. destruct (used_arr_cases (nm_dummy s) p) as [(p' & ->)|[Hd|H]]; [| |auto]; right.
    + exists (OpBase (OpAddPymatgen qs p' k)). split; [apply fin_arr_wf, W|reflexivity].
    + exists (OpBase (OpAddPymatgen qs (mkRarr [0%nat] []) k)). split; [reflexivity|].
      cbn [run_nop fin_op]. destruct art; [reflexivity|]. unfold nadd_dof_from_pymatgen. destruct (ndisplacement_amplitudes _ _); cbn [nbind]; [|reflexivity]. apply nadd_dof_dummy, Hd.
  - destruct W as (W1 & W2). destruct (nums_dec d) as [(c' & ->)|H]; [|auto]. destruct (narr_fin_dec a) as [(a' & ->)|H]; [|auto].
    destruct (used_arr_cases (nm_dummy s) p) as [(p' & ->)|[Hd|H]]; [| |auto]; right.
    + exists (OpArt i c' a' p'). split; [split; apply fin_arr_wf; assumption|reflexivity].
    + exists (OpArt i c' a' (mkRarr [0%nat] [])). split; [split; [apply fin_arr_wf; assumption|reflexivity]|].
      cbn [run_nop fin_op]. destruct art; [|reflexivity]. apply nadd_art_dummy, Hd.
  - destruct (reads_dec (nm_dummy s) rds) as [(l & Hl)|H]; [|auto]. right. exists (OpArtFiles l). split; [exact I|].
    cbn [run_nop fin_op]. destruct art; [|reflexivity]. rewrite Hl. destruct (nm_dummy s) eqn:D; [|reflexivity]. unfold nadd_art_from_files. rewrite (nread_dummy s rds D). reflexivity.
  - destruct (rowss_dec ps) as [(qs & ->)|H]; [|auto]. destruct (mats_dec (firstn (List.length (map (map fin3) qs)) p)) as [(u & Hu)|H]; [|auto]. right.
    exists (OpArtPymatgen qs u). split; [exact I|]. cbn [run_nop fin_op]. destruct art; [|reflexivity]. unfold nadd_art_from_pymatgen.
    destruct (ndisplacement_amplitudes s _) as [x|] eqn:E; cbn [nbind]; [|reflexivity]. apply displ_len in E.
    rewrite nadd_one_firstn, E, Hu. reflexivity.
  - right. exists (OpBase (OpSetMask sh v)). split; [exact W|reflexivity].
  - right. exists (OpBase OpUnmask). split; [exact I|reflexivity].
Qed.

(** ** Histories *)
Definition built_by (art : bool) (r : refstruct) (pol : M3) (dummy : bool) (m : imodel) : Prop :=
  if art then exists ops, Forall aop_wf ops /\ m = arun (make_model r pol dummy) ops
  else exists ops, Forall iop_wf ops /\ m = run (make_model r pol dummy) ops.
Lemma built_step art r pol dummy m o : built_by art r pol dummy m -> aop_wf o -> built_by art r pol dummy (fst (fst (exact_op art o m))).
Proof.
  destruct art; cbn [built_by exact_op].
  - intros (ops & W & ->) Wo. exists (ops ++ [o]). split; [apply Forall_app; auto|]. unfold arun. rewrite fold_left_app. reflexivity.
  - intros (ops & W & ->) Wo. destruct o as [o|? ? ? ?|?|? ?]; try (exists ops; split; [exact W|reflexivity]).
    exists (ops ++ [o]). split; [apply Forall_app; auto|]. unfold run. rewrite fold_left_app. reflexivity.
Qed.
Lemma built_reachable art r pol dummy m : valid_reference r -> built_by art r pol dummy m -> reachable m.
Proof. intros H. destruct art; intros (ops & W & ->); [right|left]; exists r, pol, dummy, ops; auto. Qed.

Lemma frame_aop o s s' w x : run_aop o s = ((s', w), x) -> im_ref s' = im_ref s /\ im_refpol s' = im_refpol s /\ im_dummy s' = im_dummy s.
Proof.
  intros E. apply run_aop_cases in E as [(e & _ & ->)|(_ & [(c & a & p & dofs & bs & pss & H1 & H2 & H3 & H4 & H5 & ->)|(mask & -> & Hm & _)])]; auto.
Qed.
Lemma built_frame art r pol dummy m : built_by art r pol dummy m -> im_ref m = r /\ im_dummy m = dummy /\ im_refpol m = (if dummy then m0 else pol).
Proof.
  destruct art; cbn [built_by]; intros (ops & _ & ->).
  - unfold arun. assert (K : forall ops s, im_ref (fold_left astep ops s) = im_ref s /\ im_dummy (fold_left astep ops s) = im_dummy s /\ im_refpol (fold_left astep ops s) = im_refpol s).
    { induction ops0 as [|o l IH]; intros s; [auto|]. cbn [fold_left]. destruct (IH (astep s o)) as (A & B & C). rewrite A, B, C. unfold astep.
      destruct (run_aop o s) as [[s' w] x] eqn:E. apply frame_aop in E. cbn. tauto. }
    apply (K ops (make_model r pol dummy)).
  - unfold run. assert (K : forall ops s, im_ref (fold_left step ops s) = im_ref s /\ im_dummy (fold_left step ops s) = im_dummy s /\ im_refpol (fold_left step ops s) = im_refpol s).
    { induction ops0 as [|o l IH]; intros s; [auto|]. cbn [fold_left]. destruct (IH (step s o)) as (A & B & C). rewrite A, B, C. unfold step.
      destruct (run_op o s) as [[s' w] x] eqn:E. apply run_op_frame in E. cbn. tauto. }
    apply (K ops (make_model r pol dummy)).
Qed.

Lemma nstep_fails art s o : fails (run_nop art s o) -> nstep art s o = s.
Proof. intros (w & e & E). unfold nstep. rewrite E. reflexivity. Qed.

Lemma history_finite art r pol dummy : valid_reference r -> mdet (rs_lattice r) <> 0 -> forall ops, Forall nop_wf ops ->
  exists m, built_by art r pol dummy m /\ nrun art (of_model (make_model r pol dummy)) ops = of_model m.
Proof.
  intros Hv Hdet ops. assert (Z : built_by art r pol dummy (make_model r pol dummy)) by (destruct art; exists []; split; constructor). revert Z.
  generalize (make_model r pol dummy). induction ops as [|o ops IH]; intros m Z W; [exists m; auto|].
  inversion W as [|? ? W1 W2]; subst. cbn [nrun fold_left]. pose proof (built_frame _ _ _ _ _ Z) as (F1 & F2 & F3).
  destruct (op_cases art (of_model m) o W1) as [T|(o' & Wo & E)].
  - rewrite nstep_fails; [apply IH; assumption|]. apply tainted_fails; auto; cbn; rewrite F1; [apply valid_reference_wf, Hv|apply valid_ops, Hv].
  - unfold nstep at 2. rewrite E. pose proof (op_agree m) as A. rewrite F1 in A. specialize (A (valid_reference_wf _ Hv) (valid_ops _ Hv) Hdet art o').
    destruct (exact_op art o' m) as [[m' w] [u|e]] eqn:X; cbn [agrees] in A.
    + rewrite A. cbn [snd]. apply IH; [|exact W2]. replace m' with (fst (fst (exact_op art o' m))) by (rewrite X; reflexivity). apply built_step; assumption.
    + destruct A as (w' & e' & A). rewrite A. cbn [snd]. apply IH; assumption.
Qed.
