(** Full characterisation of get_equivalent_displacements: structure and completeness. *)
From Coq Require Import String ZArith Reals Lra Lia Psatz Bool List.
From Verif Require Import Base LinAlg Constants M_Validate M_StructUtils M_Symmetry M_Reference
  S_Lattice S_Vec S_Symmetry S_Equivalent P_StructUtils P_Minimal P_Reference P_Symmetry P_Equivalent P_Equiv2.
Import ListNotations.
Local Open Scope R_scope.

Definition covered (st : list group * list (arr V3)) (cd : arr V3) : Prop :=
  (exists g m, In g (fst st) /\ In m (g_disp g) /\ (m = cd \/ arr_close cd m = true)) \/
  (exists k, (exists o, In o (firstn k (snd st)) /\ non_orthogonal (normalise (flatten cd)) (flatten o) = Ok true) /\
     forall o, In o (firstn k (snd st)) -> are_collinear (flatten cd) (flatten o) = Ok false).

Definition extends (st st' : list group * list (arr V3)) : Prop :=
  (forall g m, In g (fst st) -> In m (g_disp g) -> exists g', In g' (fst st') /\ In m (g_disp g')) /\
  exists tl, snd st' = snd st ++ tl.

Lemma extends_refl st : extends st st.
Proof. split; [eauto|exists []; rewrite app_nil_r; auto]. Qed.
Lemma extends_trans a b c : extends a b -> extends b c -> extends a c.
Proof.
  intros [H1 [t1 E1]] [H2 [t2 E2]]. split.
  - intros g m Hg Hm. destruct (H1 g m Hg Hm) as (g' & Hg' & Hm'). eauto.
  - exists (t1 ++ t2). rewrite E2, E1, app_assoc. auto.
Qed.

Lemma covered_extends st st' cd : extends st st' -> covered st cd -> covered st' cd.
Proof.
  intros [H [tl E]] [(g & m & Hg & Hm & Hc)|(k & Ho & Hc)].
  - left. destruct (H g m Hg Hm) as (g' & Hg' & Hm'). eauto.
  - right. exists (Nat.min k (List.length (snd st))).
    assert (F: firstn (Nat.min k (List.length (snd st))) (snd st') = firstn k (snd st)).
    { rewrite E, firstn_app, (proj2 (Nat.sub_0_le _ _)) by lia. simpl. rewrite app_nil_r.
      destruct (Nat.le_ge_cases k (List.length (snd st))).
      - rewrite Nat.min_l; auto.
      - rewrite Nat.min_r, !firstn_all2; auto. }
    rewrite F. auto.
Qed.

Lemma add_to_group_incl k cd op gs g m : In g gs -> In m (g_disp g) ->
  exists g', In g' (add_to_group k cd op gs) /\ In m (g_disp g').
Proof.
  revert k; induction gs as [|h gs IH]; intros k; [intros []|].
  intros [->|Hg] Hm; destruct k; simpl.
  - eexists; split; [left; reflexivity|]. simpl. apply in_or_app; auto.
  - exists g; auto.
  - exists g; auto.
  - destruct (IH k Hg Hm) as (g' & Hg' & Hm'). eauto.
Qed.
Lemma add_to_group_new k cd op gs g : nth_error gs k = Some g ->
  exists g', In g' (add_to_group k cd op gs) /\ In cd (g_disp g').
Proof.
  revert k; induction gs as [|h gs IH]; intros [|k] H; simpl in *; try discriminate.
  - eexists; split; [left; reflexivity|]. simpl. apply in_or_app; simpl; auto.
  - destruct (IH k H) as (g' & Hg' & Hm'). eauto.
Qed.

Lemma classify_covers st cd op st' : classify st cd op = Ok st' -> extends st st' /\ covered st' cd.
Proof.
  destruct st as [gs orth]. unfold classify.
  destruct (is_orthogonal_to_all (flatten cd) (map flatten orth)) as [o|] eqn:Ho; simpl; [|discriminate].
  destruct (Z.eqb_spec o (-1)) as [->|No].
  - intros [= <-]. split.
    + split; simpl.
      * intros g m Hg Hm. exists g. split; auto. apply in_or_app; auto.
      * eauto.
    + left. exists (mkGroup [cd] [op]), cd. simpl. split; [apply in_or_app; simpl; auto|auto].
  - destruct (is_non_collinear_with_all (flatten cd) (map flatten orth)) as [c|] eqn:Hcl; simpl; [|discriminate].
    destruct (Z.eqb_spec c (-1)) as [->|Nc]; simpl.
    + intros [= <-]. split; [apply extends_refl|]. right. exists (List.length orth). simpl. rewrite firstn_all.
      split.
      * unfold is_orthogonal_to_all in Ho. apply scan_range in Ho as [|(n & a & _ & Hn & Ha & _)]; [tauto|].
        rewrite nth_error_map in Hn. destruct (nth_error orth n) as [x|] eqn:Hx; [|discriminate].
        injection Hn as <-. exists x. split; auto. eapply nth_error_In; eauto.
      * intros x Hx. unfold is_non_collinear_with_all in Hcl. eapply scan_none; [exact Hcl|]. apply in_map; auto.
    + destruct (nth_error gs (Z.to_nat c)) as [g|] eqn:Hg; [|discriminate].
      destruct (existsb (fun e => arr_close cd e) (g_disp g)) eqn:Hd.
      * intros [= <-]. split; [apply extends_refl|]. left. apply existsb_exists in Hd as (m & Hm & Hcm).
        exists g, m. simpl. split; [eapply nth_error_In; eauto|auto].
      * intros [= <-]. split.
        -- split; simpl; [|exists []; rewrite app_nil_r; auto].
           intros; eapply add_to_group_incl; eauto.
        -- left. destruct (add_to_group_new _ cd op _ _ Hg) as (g' & Hg' & Hm'). exists g', cd. auto.
Qed.

Lemma equivalent_loop_covers r d todo st st' :
  equivalent_loop r d todo st = Ok st' ->
  extends st st' /\ forall op P, In (op, P) todo -> exists cd, candidate r d op P = Ok cd /\ covered st' cd.
Proof.
  revert st; induction todo as [|[op P] todo IH]; intros st; simpl.
  - intros [= <-]. split; [apply extends_refl|]. intros ? ? [].
  - destruct (candidate r d op P) as [cd|] eqn:Hc; simpl; [|discriminate].
    destruct (classify st cd op) as [st1|] eqn:Hk; simpl; [|discriminate].
    intros H. apply classify_covers in Hk as [E1 C1]. apply IH in H as [E2 C2].
    split; [eapply extends_trans; eauto|].
    intros op' P' [[= <- <-]|Hin]; [|auto].
    exists cd. split; auto. eapply covered_extends; eauto.
Qed.

(** *** Reading *)
Lemma vclose_spec a b : vclose dup_tol a b = true <-> vall2 near1 a b.
Proof.
  unfold vclose, isclose_at, vall2, near1, dup_tol, rtol. rewrite !andb_true_iff, !Rleb_true. tauto.
Qed.
Lemma arr_close_spec l m : List.length l = List.length m ->
  (arr_close (Fin l) (Fin m) = true <-> near_rows l m).
Proof.
  unfold arr_close, near_rows. revert m; induction l as [|a l IH]; intros [|b m] H; try discriminate; simpl.
  - split; auto.
  - rewrite andb_true_iff, vclose_spec, IH by auto. split.
    + intros [H1 H2]; constructor; auto.
    + intros H1; inversion H1; auto.
Qed.
Lemma near_rows_refl a : near_rows a a.
Proof.
  induction a as [|v a IH]; constructor; auto.
  assert (H: forall x, near1 x x).
  { intros x. unfold near1. rewrite Rminus_diag_eq, Rabs_R0 by auto. pose proof (Rabs_pos x). lra. }
  repeat split; auto.
Qed.

Lemma candidate_image r d op P cd :
  wf_ref r -> In P (rs_perms r) -> permutation_matrix_of (rs_positions r) op = Ok P ->
  candidate r (Fin d) op P = Ok cd ->
  exists x, cd = Fin x /\ List.length x = List.length (rs_positions r) /\ image_under (rs_positions r) d op x.
Proof.
  intros Hwf HP HPm Hc. destruct (candidate_fin _ _ _ _ _ Hwf HP Hc) as (x & -> & Hx).
  exists x. split; [auto|split; [auto|]]. unfold candidate in Hc. unfold image_under.
  destruct (displace_positions (rs_positions r) d) as [q|]; simpl in Hc; [|discriminate].
  destruct (transform_positions q (fst op) (snd op)) as [q'|] eqn:Hq'; simpl in Hc; [|discriminate].
  destruct (bmat_mul P q') as [q''|] eqn:Hb; simpl in Hc; [|discriminate].
  destruct (calc_displacement (rs_positions r) q'') as [y|] eqn:Hy; simpl in Hc; [|discriminate].
  injection Hc as ->. exists P, q, q', q''. auto.
Qed.

Lemma nonorth_read x o n : List.length x = n -> List.length o = n -> (0 < n)%nat ->
  (non_orthogonal (normalise (flatten (Fin x))) (flatten (Fin o)) = Ok true <-> ~ orthogonal_spec (rowsR x) (rowsR o)) /\
  (non_orthogonal (normalise (flatten (Fin x))) (flatten (Fin o)) = Ok false <-> orthogonal_spec (rowsR x) (rowsR o)) /\
  (are_collinear (flatten (Fin x)) (flatten (Fin o)) = Ok true <-> collinear_spec (rowsR x) (rowsR o)) /\
  (are_collinear (flatten (Fin x)) (flatten (Fin o)) = Ok false <-> ~ collinear_spec (rowsR x) (rowsR o)).
Proof.
  intros Hx Ho Hn.
  assert (L: List.length (flatten_rows x) = List.length (flatten_rows o)) by (rewrite !flatten_rows_length; lia).
  assert (Ne: flatten_rows x <> []).
  { intros E0. apply (f_equal (@List.length R)) in E0. rewrite flatten_rows_length, Hx in E0. simpl in E0. lia. }
  destruct (non_orthogonal_spec _ _ L Ne) as (b & Hb & Hs).
  destruct (are_collinear_spec _ _ L Ne) as (c & Hc & Ht).
  cbn [flatten]. rewrite Hb, Hc. change (rowsR x) with (flatten_rows x). change (rowsR o) with (flatten_rows o).
  assert (K: forall c0 v, (@Ok bool c0 = Ok v) <-> c0 = v) by (intros; split; congruence).
  rewrite !K, Hs, Ht.
  assert (N: forall c0, c0 = false <-> ~ c0 = true) by (intros []; split; congruence).
  rewrite !N, Hs, Ht. destruct (orthogonal_spec_dec (flatten_rows x) (flatten_rows o)); tauto.
Qed.

Theorem equivalent_displacements_full numbers L pos ops equiv r l gs :
  make_reference numbers L pos (Some (ops, equiv)) = Ok r ->
  (0 < List.length pos)%nat -> ops <> [] ->
  rows_norm (apply_pbc_displacement l) <> 0 ->
  get_equivalent_displacements r (Fin l) = Ok gs ->
  exists Gs, gs = map to_group Gs /\
    Forall (fun G => G <> [] /\
       (forall e, In e G -> In (snd e) ops /\ image_under pos (scaled_dir l) (snd e) (fst e)) /\
       (forall e0 rest, G = e0 :: rest -> Forall (fun e => collinear_spec (rowsR (fst e)) (rowsR (fst e0))) rest) /\
       ForallOrdPairs (fun e1 e2 => ~ near_rows (fst e2) (fst e1)) G) Gs /\
    ForallOrdPairs (fun a b => orthogonal_spec (rowsR b) (rowsR a)) (leaders Gs) /\
    (forall op, In op ops -> exists x, image_under pos (scaled_dir l) op x /\
       ((exists G e, In G Gs /\ In e G /\ near_rows x (fst e)) \/
        (exists k, (exists o, In o (firstn k (leaders Gs)) /\ ~ orthogonal_spec (rowsR x) (rowsR o)) /\
                   (forall o, In o (firstn k (leaders Gs)) -> ~ collinear_spec (rowsR x) (rowsR o))))).
Proof.
  intros Hr Hn Hops Hnz Hgs.
  pose proof (make_reference_wf _ _ _ _ _ _ Hn Hops Hr) as Hwf.
  assert (Hpm: rs_positions r = pos /\ rs_ops r = ops /\ mapM (permutation_matrix_of pos) ops = Ok (rs_perms r)).
  { unfold make_reference in Hr. simpl in Hr. destruct (verify_ndarray_shape _ _); simpl in Hr; [|discriminate].
    destruct (compute_permutation_matrices ops pos) as [perms|] eqn:Hp; simpl in Hr; [|discriminate].
    injection Hr as <-. auto. }
  destruct Hpm as (Epos & Eops & Hperm). clear Hr.
  unfold get_equivalent_displacements in Hgs.
  rewrite scale_displacement_fin in Hgs by auto. fold (scaled_dir l) in Hgs.
  destruct (displace_positions _ _); simpl in Hgs; [|discriminate].
  destruct (equivalent_loop r _ _ _) as [[gs' orth]|] eqn:E; simpl in Hgs; [|discriminate].
  injection Hgs as <-.
  assert (I0: loop_inv r (Fin (scaled_dir l)) (combine (rs_ops r) (rs_perms r)) ([], [])) by (split; constructor).
  pose proof (equivalent_loop_inv r (Fin (scaled_dir l)) _ _ _ _ (fun x H => H) I0 E) as [I1 I2]. clear I0.
  apply equivalent_loop_covers in E as [_ Cov]. cbn [fst snd] in I1, I2.
  rewrite Eops in *.
  set (n := List.length pos) in *.
  assert (Hcand: forall op P cd, In (op, P) (combine ops (rs_perms r)) -> candidate r (Fin (scaled_dir l)) op P = Ok cd ->
     exists x, cd = Fin x /\ List.length x = n /\ image_under pos (scaled_dir l) op x).
  { intros op P cd Hin Hc. pose proof (combine_perms_In _ _ _ _ _ Hperm Hin) as HPm.
    apply in_combine_r in Hin. rewrite <- Epos in HPm. unfold n. rewrite <- Epos. eapply candidate_image; eauto. }
  (* per-group reading *)
  assert (HG: forall g o, members_ok r (Fin (scaled_dir l)) (combine ops (rs_perms r)) g o ->
     exists G, g = to_group G /\ (exists e rest, G = e :: rest /\ o = Fin (fst e)) /\
       Forall (fun e => List.length (fst e) = n /\ In (snd e) ops /\ image_under pos (scaled_dir l) (snd e) (fst e)) G).
  { intros [ds ts] o ((rest & E0 & _) & Hl & _ & Him). cbn [g_disp g_trans] in *.
    assert (H: exists G, mkGroup ds ts = to_group G /\
      Forall (fun e => List.length (fst e) = n /\ In (snd e) ops /\ image_under pos (scaled_dir l) (snd e) (fst e)) G).
    { clear E0. revert ts Hl Him. induction ds as [|x ds IH]; intros [|t ts] Hl Him; try discriminate.
      - exists []. auto.
      - inversion Him as [|? ? (P & HP & Hc) Him']; subst. cbn [fst snd] in HP, Hc.
        destruct (Hcand _ _ _ HP Hc) as (y & -> & Hy & Hy').
        destruct (IH ts) as (G & EG & HG); auto. injection EG as -> ->.
        exists ((y, t) :: G). split; [reflexivity|]. constructor; auto. cbn.
        split; [auto|split; [|auto]]. eapply in_combine_l; eauto. }
    destruct H as (G & EG & HG). exists G. split; [auto|split; [|auto]].
    injection EG as E1 _. rewrite E1 in E0. destruct G as [|e G]; [discriminate|].
    injection E0 as <- _. eauto. }
  assert (HGs: exists Gs, gs' = map to_group Gs /\ orth = map Fin (leaders Gs) /\
     Forall (fun G => G <> [] /\ Forall (fun e => List.length (fst e) = n /\ In (snd e) ops /\ image_under pos (scaled_dir l) (snd e) (fst e)) G) Gs).
  { clear Cov I2. induction I1 as [|g o gs orth H I1 IH].
    - exists []. auto.
    - destruct IH as (Gs & -> & -> & HF). destruct (HG _ _ H) as (G & -> & (e & rest & -> & ->) & HF').
      exists ((e :: rest) :: Gs). split; [auto|split; [auto|]]. constructor; auto. split; [discriminate|auto]. }
  destruct HGs as (Gs & -> & -> & HF). exists Gs. split; [auto|].
  assert (Hn0: (0 < n)%nat) by auto.
  assert (Hlead: forall o, In o (leaders Gs) -> List.length o = n).
  { intros o Ho. unfold leaders in Ho. apply in_flat_map in Ho as (G & HGin & Ho).
    rewrite Forall_forall in HF. destruct (HF G HGin) as [_ HFG]. destruct G as [|e G]; [destruct Ho|].
    destruct Ho as [<-|[]]. inversion HFG; tauto. }
  split; [|split].
  - assert (Hlead' := Hlead). clear Cov I2 HG Hlead. 
    induction Gs as [|G Gs IH]; constructor.
    + inversion HF as [|? ? [HF1 HF2] HF3]; subst. split; auto. 
      cbn [map leaders flat_map] in I1. destruct G as [|e0 G]; [tauto|].
      inversion I1 as [|? ? ? ? Hm _]; subst. destruct Hm as ((rest & E0 & Hcol) & _ & Hdup & _).
      cbn [to_group g_disp map fst] in E0, Hdup. injection E0 as <-.
      inversion HF2 as [|? ? (Hl0 & _) HF2']; subst. split; [|split].
      * intros e He. rewrite Forall_forall in HF2. apply HF2 in He. tauto.
      * intros e1 rest [= <- <-]. apply Forall_forall. intros e He.
        rewrite Forall_forall in Hcol. specialize (Hcol (Fin (fst e)) (in_map (fun e => Fin (fst e)) _ _ He)).
        rewrite Forall_forall in HF2'. destruct (HF2' _ He) as (Hle & _).
        apply (nonorth_read (fst e) (fst e0) n) in Hcol; auto.
      * change (Fin (fst e0) :: map (fun e => Fin (fst e)) G) with (map (fun e : list V3 * (M3 * V3) => Fin (fst e)) (e0 :: G)) in Hdup.
        assert (HL: Forall (fun e => List.length (fst e) = n) (e0 :: G)).
        { apply Forall_forall. intros e He. rewrite Forall_forall in HF2. apply HF2 in He. tauto. }
        clear - Hdup HL. revert HL Hdup. generalize (e0 :: G). intros K.
        induction K as [|e K IH]; intros HL Hdup; constructor.
        -- inversion Hdup as [|? ? H1 _]; subst. inversion HL as [|? ? HL1 HL2]; subst.
           apply Forall_forall. intros e' He' Hnear. rewrite Forall_forall in H1, HL2.
           specialize (H1 _ (in_map (fun e => Fin (fst e)) _ _ He')). specialize (HL2 _ He').
           apply arr_close_spec in Hnear; [congruence|congruence].
        -- inversion Hdup; inversion HL; subst; auto.
    + inversion HF as [|? ? [HF1 HF2] HF3]; subst. apply IH; auto.
      * destruct G as [|e0 G]; [tauto|]. cbn [map leaders flat_map app] in I1. inversion I1; subst; auto.
      * intros o Ho. apply Hlead'. cbn. apply in_or_app; auto.
  - clear Cov I1 HG HF. revert Hlead I2. generalize (leaders Gs). intros K Hlead I2.
    induction K as [|x K IH]; constructor.
    + inversion I2 as [|? ? H1 _]; subst. apply Forall_forall. intros y Hy.
      rewrite Forall_forall in H1. specialize (H1 (Fin y) (in_map _ _ _ Hy)).
      apply (nonorth_read y x n) in H1; auto; apply Hlead; simpl; auto.
    + inversion I2; subst. apply IH; auto. intros; apply Hlead; simpl; auto.
  - intros op Hop.
    assert (HP: exists P, In (op, P) (combine ops (rs_perms r))).
    { clear - Hop Hperm. apply mapM_Ok in Hperm. induction Hperm; [destruct Hop|].
      destruct Hop as [->|Hop]; [eexists; left; reflexivity|]. destruct (IHHperm Hop) as (P & HP).
      exists P. right; auto. }
    destruct HP as (P & HP). destruct (Cov op P HP) as (cd & Hcd & Hcov).
    destruct (Hcand _ _ _ HP Hcd) as (x & -> & Hx & Him). exists x. split; auto.
    destruct Hcov as [(g & m & Hg & Hm & Hc)|(k & (o & Ho & Hno) & Hcol)].
    + left. cbn [fst] in Hg. apply in_map_iff in Hg as (G & <- & HGin).
      cbn [to_group g_disp] in Hm. apply in_map_iff in Hm as (e & <- & He).
      exists G, e. split; [auto|split; [auto|]].
      destruct Hc as [[= ->]|Hc]; [apply near_rows_refl|].
      rewrite Forall_forall in HF. destruct (HF G HGin) as [_ HFG]. rewrite Forall_forall in HFG.
      destruct (HFG e He) as (Hle & _). apply arr_close_spec in Hc; auto. congruence.
    + right. exists k. cbn [snd] in *. rewrite firstn_map in Ho, Hcol.
      assert (Hsub: forall y, In y (firstn k (leaders Gs)) -> List.length y = n).
      { intros y Hy. apply Hlead. rewrite <- (firstn_skipn k). apply in_or_app; auto. }
      split.
      * apply in_map_iff in Ho as (y & <- & Hy). exists y. split; auto.
        apply (nonorth_read x y n) in Hno; auto.
      * intros y Hy. specialize (Hcol (Fin y) (in_map _ _ _ Hy)). apply (nonorth_read x y n) in Hcol; auto.
Qed.
