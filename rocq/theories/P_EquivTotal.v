(** get_equivalent_displacements never fails on a constructed reference structure
    and an (N,3) displacement. *)
From Coq Require Import String ZArith Reals Lra Lia Bool List.
From Verif Require Import Base LinAlg Constants M_Validate M_StructUtils M_Symmetry M_Reference
  S_Lattice S_Vec S_Symmetry S_Equivalent P_StructUtils P_Minimal P_Reference P_Symmetry P_Equivalent P_Equiv2 P_Equiv3.
Import ListNotations.
Local Open Scope R_scope.

Lemma flatten_len a : arr_len (flatten a) = (3 * arr_len a)%nat.
Proof. destruct a; simpl; auto. apply flatten_rows_length. Qed.

Lemma scan_total {A} (test : A -> res bool) k l :
  (forall a, In a l -> exists b, test a = Ok b) -> exists z, scan_from test k l = Ok z.
Proof.
  revert k; induction l as [|a l IH]; intros k H; simpl; [eauto|].
  destruct (H a) as [b ->]; [simpl; auto|]. simpl. destruct b; [eauto|]. apply IH. intros; apply H; simpl; auto.
Qed.

Lemma npdot_total a b : arr_len a = arr_len b -> exists x, npdot a b = Ok x.
Proof. intros H. unfold npdot. rewrite H, Nat.eqb_refl. destruct a, b; eauto. Qed.
Lemma non_orth_total v w : arr_len v = arr_len w -> exists b, non_orthogonal (normalise v) w = Ok b.
Proof.
  intros H. unfold non_orthogonal. destruct (npdot_total (normalise v) (normalise w)) as [x ->].
  - rewrite !normalise_len; auto. - simpl; eauto.
Qed.
Lemma collinear_total v w : arr_len v = arr_len w -> exists b, are_collinear v w = Ok b.
Proof.
  intros H. unfold are_collinear. destruct (npdot_total (normalise v) (normalise w)) as [x ->].
  - rewrite !normalise_len; auto. - simpl; eauto.
Qed.

Lemma add_to_group_length k cd op gs : List.length (add_to_group k cd op gs) = List.length gs.
Proof. revert k; induction gs; intros [|k]; simpl; auto. Qed.

Lemma classify_total n st cd op :
  Forall (fun o => arr_len o = n) (snd st) -> List.length (fst st) = List.length (snd st) -> arr_len cd = n ->
  exists st', classify st cd op = Ok st' /\ Forall (fun o => arr_len o = n) (snd st') /\
    List.length (fst st') = List.length (snd st').
Proof.
  destruct st as [gs orth]. cbn [fst snd]. intros HF Hl Hn. unfold classify.
  assert (HE: forall o, In o (map flatten orth) -> arr_len (flatten cd) = arr_len o).
  { intros o Ho. apply in_map_iff in Ho as (x & <- & Hx). rewrite Forall_forall in HF.
    rewrite !flatten_len, (HF x Hx), Hn. auto. }
  destruct (scan_total (non_orthogonal (normalise (flatten cd))) 0 (map flatten orth)) as [o Ho].
  { intros x Hx. apply non_orth_total; auto. }
  unfold is_orthogonal_to_all. rewrite Ho. cbn [rbind].
  destruct (Z.eqb_spec o (-1)) as [->|No].
  - eexists; split; [reflexivity|]. cbn. split; [apply Forall_app; auto|]. rewrite !app_length, Hl; auto.
  - destruct (scan_total (are_collinear (flatten cd)) 0 (map flatten orth)) as [c Hc].
    { intros x Hx. apply collinear_total; auto. }
    unfold is_non_collinear_with_all. rewrite Hc. cbn [rbind].
    destruct (Z.eqb_spec c (-1)) as [->|Nc]; cbn [negb].
    + eauto.
    + apply scan_range in Hc as [|(k & a & -> & Hk & _)]; [tauto|]. simpl. rewrite Nat2Z.id.
      assert (k < List.length gs)%nat.
      { rewrite Hl. rewrite <- (map_length flatten orth). apply nth_error_Some. congruence. }
      destruct (nth_error gs k) as [g|] eqn:Hg; [|apply nth_error_None in Hg; lia].
      destruct (existsb _ _); eexists; (split; [reflexivity|]); cbn; auto.
      rewrite add_to_group_length. auto.
Qed.

Lemma bmat_mul_total P c n : List.length c = n -> Forall (fun row => List.length row = n) P ->
  exists x, bmat_mul P c = Ok x /\ List.length x = List.length P.
Proof.
  intros Hc HP. unfold bmat_mul. rewrite (proj2 (forallb_forall _ _)).
  - eexists; split; [reflexivity|]. apply map_length.
  - intros row Hrow. rewrite Forall_forall in HP. apply Nat.eqb_eq. rewrite HP; auto.
Qed.

Lemma candidate_total r d op P : wf_ref r -> In P (rs_perms r) -> arr_len d = List.length (rs_positions r) ->
  exists cd, candidate r d op P = Ok cd /\ arr_len cd = List.length (rs_positions r).
Proof.
  intros (_ & _ & _ & Hperm & _) HP Hd. rewrite Forall_forall in Hperm. destruct (Hperm P HP) as [HPl HPr].
  unfold candidate. destruct d as [l|n]; simpl in Hd.
  - rewrite displace_positions_eq by auto. cbn [rbind].
    assert (Hq: List.length (apply_pbc (rows_add (rs_positions r) l)) = List.length (rs_positions r)).
    { rewrite apply_pbc_length, rows_add_length; auto. }
    destruct (transform_positions (apply_pbc (rows_add (rs_positions r) l)) (fst op) (snd op)) as [c|] eqn:Ht.
    2: { rewrite transform_ok_gen in Ht by apply apply_pbc_positions_ok. discriminate. }
    cbn [rbind]. pose proof (transform_length _ _ _ _ Ht) as Hc.
    destruct (bmat_mul_total P c (List.length (rs_positions r))) as (x & -> & Hx); [congruence|auto|]. cbn [rbind].
    rewrite calc_displacement_eq by congruence. cbn [rbind]. eexists; split; [reflexivity|].
    simpl. rewrite apply_pbc_displacement_length, rows_sub_length; congruence.
  - subst n. rewrite displace_positions_eq by (rewrite repeat_length; auto). cbn [rbind].
    destruct (bmat_mul_total P (apply_pbc (rows_add (rs_positions r) (repeat v0 (List.length (rs_positions r))))) (List.length (rs_positions r))) as (x & -> & Hx).
    { rewrite apply_pbc_length, rows_add_length; auto. rewrite repeat_length; auto. } { auto. }
    cbn [rbind]. eexists; split; [reflexivity|]. simpl. congruence.
Qed.

Lemma equivalent_loop_total r d ops st : wf_ref r -> arr_len d = List.length (rs_positions r) ->
  (forall op P, In (op, P) ops -> In P (rs_perms r)) ->
  Forall (fun o => arr_len o = List.length (rs_positions r)) (snd st) -> List.length (fst st) = List.length (snd st) ->
  exists st', equivalent_loop r d ops st = Ok st'.
Proof.
  intros Hwf Hd. revert st. induction ops as [|[op P] ops IH]; intros st Hin H1 H2; simpl; [eauto|].
  destruct (candidate_total r d op P Hwf) as (cd & -> & Hcd); auto. { eapply Hin; left; eauto. }
  cbn [rbind]. destruct (classify_total _ st cd op H1 H2 Hcd) as (st' & -> & H1' & H2'). cbn [rbind].
  apply IH; auto. intros; eapply Hin; right; eauto.
Qed.

Lemma scale_displacement_len d : arr_len (scale_displacement d) = arr_len d.
Proof.
  destruct d as [l|]; simpl; auto. destruct (Reqb _ 0).
  - unfold apply_pbc_displacement. destruct l as [|v l]; simpl; auto. rewrite map_length; auto.
  - simpl. unfold rows_scale. rewrite map_length. apply apply_pbc_displacement_length.
Qed.

Lemma equivalent_displacements_total r d : wf_ref r -> arr_len d = List.length (rs_positions r) ->
  exists gs, get_equivalent_displacements r d = Ok gs.
Proof.
  intros Hwf Hd. unfold get_equivalent_displacements.
  rewrite displace_positions_eq.
  2: { pose proof (scale_displacement_len d). destruct (scale_displacement d); simpl in *; rewrite ?repeat_length; congruence. }
  cbn [rbind].
  destruct (equivalent_loop_total r (scale_displacement d) (combine (rs_ops r) (rs_perms r)) ([], [])) as [st ->]; auto.
  - rewrite scale_displacement_len; auto.
  - intros op P H. eapply in_combine_r; eauto.
  - constructor.
  - simpl; eauto.
Qed.
