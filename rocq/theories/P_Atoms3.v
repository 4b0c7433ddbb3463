(** Calls on models of the same structure with its atoms in two orders *)
From Coq Require Import String ZArith Reals Bool Arith List Permutation Lia Lra.
From Verif Require Import Base LinAlg M_Validate M_StructUtils M_Symmetry M_Reference M_Interp M_Art M_Shared S_Vec S_Order P_Interp P_Interp5 P_Images P_Order P_Order3
  S_Relabel P_Relabel P_Relabel2 P_Relabel3 S_Atoms P_Atoms P_Atoms2.
Import ListNotations.
Local Open Scope R_scope.

(** ** A zero displacement has NaN images only *)
Definition all_nan (gs : list group) : Prop := Forall (fun g => Forall (fun d => exists k, d = Nan k) (g_disp g)) gs.
Lemma add_nan gs k op : all_nan gs -> forall j, all_nan (add_to_group j (Nan k) op gs).
Proof.
  induction 1 as [|g gs H HF IH]; intros [|j]; cbn; try (constructor; fail); [constructor; [|exact HF]|constructor; [exact H|apply IH]]. cbn. apply Forall_app. split; [exact H|]. constructor; [eexists; reflexivity|constructor].
Qed.
Lemma classify_nan st k op st' : all_nan (fst st) -> classify st (Nan k) op = Ok st' -> all_nan (fst st').
Proof.
  destruct st as [gs os]. intros H. unfold classify. destruct (is_orthogonal_to_all _ _) as [o|]; cbn [rbind]; [|discriminate].
  destruct (o =? -1)%Z.
  - intros [= <-]. cbn [fst]. apply Forall_app. split; [exact H|]. constructor; [|constructor]. cbn. constructor; [eexists; reflexivity|constructor].
  - destruct (is_non_collinear_with_all _ _) as [c|]; cbn [rbind]; [|discriminate]. destruct (negb _); [|intros [= <-]; exact H].
    destruct (nth_error _ _); [|discriminate]. destruct (existsb _ _); intros [= <-]; [exact H|]. cbn [fst]. apply add_nan, H.
Qed.
Lemma groups_nan r k gs : get_equivalent_displacements r (Nan k) = Ok gs -> all_nan gs.
Proof.
  unfold get_equivalent_displacements. cbn [scale_displacement]. destruct (displace_positions _ _) as [x|]; cbn [rbind]; [|discriminate].
  assert (K : forall ops st st', all_nan (fst st) -> equivalent_loop r (Nan k) ops st = Ok st' -> all_nan (fst st')).
  { induction ops as [|[op P] ops IH]; intros st st' H; cbn [equivalent_loop]; [intros [= <-]; exact H|].
    cbn [candidate]. destruct (displace_positions _ _) as [y|]; cbn [rbind]; [|discriminate]. destruct (bmat_mul P y) as [c|]; cbn [rbind]; [|discriminate].
    destruct (classify st _ op) as [st1|] eqn:E; cbn [rbind]; [|discriminate]. apply IH. eapply classify_nan; eassumption. }
  destruct (equivalent_loop r (Nan k) _ _) as [st|] eqn:E; [|discriminate]. intros [= <-]. eapply K; [|exact E]. constructor.
Qed.
Lemma nan_steady gs : all_nan gs -> steady gs.
Proof.
  intros H g lead rest e Hg Ed _. unfold all_nan in H. rewrite Forall_forall in H. specialize (H g Hg). rewrite Ed in H. apply Forall_inv in H. destruct H as (k & H). discriminate.
Qed.
Lemma decisive_steady r d gs : decisive r d -> get_equivalent_displacements r (Fin d) = Ok gs -> steady gs.
Proof. intros H E g lead rest e Hg Ed He. eapply H; eassumption. Qed.
Lemma parent_steady r d : decisive r d -> apply_pbc_displacement d = d -> forall gs, get_equivalent_displacements r (over_norm 10 (Fin d)) = Ok gs -> steady gs.
Proof.
  intros HD Hred gs Hg. destruct d as [|v d0]; [cbn [over_norm] in Hg; eapply decisive_steady; eassumption|].
  destruct (Req_dec (rows_norm (v :: d0)) 0) as [E|E].
  - cbn [over_norm] in Hg. rewrite rows_norm_scale, E, Rmult_0_r in Hg. destruct (Reqb 0 0) eqn:Q; [|apply Reqb_false in Q; tauto]. apply nan_steady. eapply groups_nan, Hg.
  - rewrite (parent_groups r _ Hred E) in Hg. eapply decisive_steady; eassumption.
Qed.

Lemma F2_len {A B} (Q : A -> B -> Prop) l l' : Forall2 Q l l' -> List.length l = List.length l'.
Proof. induction 1; cbn; congruence. Qed.

Section Order.
Context (n : nat) (u : nat -> nat) (HU : reordering n u) (r r' : refstruct) (HRR : RR n u r r').
Notation like := (like n u).

Definition RI (s s' : imodel) : Prop :=
  im_ref s = r /\ im_ref s' = r' /\ im_refpol s = im_refpol s' /\ im_dummy s = im_dummy s' /\
  Forall2 like (im_basis s) (im_basis s') /\ im_interp s = im_interp s' /\ im_mask s = im_mask s'.
Definition RM {A B} (Q : A -> B -> Prop) (m : act A) (m' : act B) : Prop := forall s s', RI s s' ->
  RI (fst (fst (m s))) (fst (fst (m' s'))) /\ snd (fst (m s)) = snd (fst (m' s')) /\ RS Q (snd (m s)) (snd (m' s')).
Lemma RM_bind {A B C D} (Q : A -> B -> Prop) (Q' : C -> D -> Prop) m m' k k' :
  RM Q m m' -> (forall a b, Q a b -> RM Q' (k a) (k' b)) -> RM Q' (bind m k) (bind m' k').
Proof.
  intros H K s s' HI. specialize (H s s' HI). unfold bind. destruct (m s) as [[s1 w1] x], (m' s') as [[s1' w1'] x']. cbn [fst snd] in H. destruct H as (H1 & H2 & H3).
  destruct x as [a|e], x' as [b|e']; cbn [RS] in H3; try contradiction; [|cbn; auto].
  specialize (K a b H3 s1 s1' H1). destruct (k a s1) as [[s2 w2] y], (k' b s1') as [[s2' w2'] y']. cbn [fst snd] in *. destruct K as (K1 & K2 & K3). repeat split; try apply K1; congruence || assumption.
Qed.
Lemma RM_get : RM RI get get.
Proof. intros s s' H. cbn. auto. Qed.
Lemma RM_put a a' : RI a a' -> RM eq (put a) (put a').
Proof. intros H s s' _. cbn. auto. Qed.
Lemma RM_lift {A B} (Q : A -> B -> Prop) x y : RS Q x y -> RM Q (lift x) (lift y).
Proof. intros H s s' HI. cbn. auto. Qed.
Lemma RM_raise {A B} (Q : A -> B -> Prop) e : RM Q (raise e) (raise e).
Proof. intros s s' HI. cbn. auto. Qed.
Lemma RM_ret {A B} (Q : A -> B -> Prop) a b : Q a b -> RM Q (ret a) (ret b).
Proof. intros H s s' HI. cbn. auto. Qed.
Lemma RM_emit ws : RM eq (emit_all ws) (emit_all ws).
Proof.
  induction ws as [|w ws IH]; cbn [emit_all]; [apply RM_ret; reflexivity|]. apply (RM_bind eq); [intros s s' H; cbn; auto|]. intros a b _. exact IH.
Qed.
Lemma RM_one k pts : RM eq (construct_one k pts) (construct_one k pts).
Proof.
  unfold construct_one. destruct (has_duplicates _); [apply RM_raise|]. destruct (Nat.leb _ _); [apply RM_raise|]. destruct (all_finite pts); [|apply RM_raise].
  apply (RM_bind eq); [apply RM_emit|]. intros a b _. apply RM_ret. reflexivity.
Qed.
Lemma RM_each k dofs dofs' : Forall2 (RD n u) dofs dofs' ->
  RM eq (for_each (fun d : dof => construct_one k (snd d)) dofs) (for_each (fun d : dof => construct_one k (snd d)) dofs').
Proof.
  induction 1 as [|d d' l l' (_ & E) HF IH]; cbn [for_each]; [apply RM_ret; reflexivity|]. rewrite E. apply (RM_bind eq); [apply RM_one|]. intros a b ->.
  apply (RM_bind eq); [exact IH|]. intros as_ bs ->. apply RM_ret. reflexivity.
Qed.
Lemma all_fin_like dofs dofs' : Forall2 (RD n u) dofs dofs' ->
  match all_fin (map fst dofs), all_fin (map fst dofs') with Some a, Some b => Forall2 like a b | None, None => True | _, _ => False end.
Proof.
  induction 1 as [|[a p] [a' p'] l l' (H & E) HF IH]; cbn [map fst all_fin]; [constructor|]. cbn [fst] in H.
  destruct a, a'; cbn [RA] in H; try contradiction; [|exact I]. destruct (all_fin (map fst l)), (all_fin (map fst l')); try contradiction; [|exact I]. constructor; assumption.
Qed.
Lemma RM_construct dofs dofs' order : Forall2 (RD n u) dofs dofs' -> RM eq (construct_and_add dofs order) (construct_and_add dofs' order).
Proof.
  intros H. unfold construct_and_add. destruct (order <? 1)%Z; [apply RM_raise|]. apply (RM_bind eq); [apply RM_each, H|]. intros is_ ? <-.
  pose proof (all_fin_like _ _ H) as K. destruct (all_fin (map fst dofs)) as [bs|], (all_fin (map fst dofs')) as [bs'|]; try contradiction; [|apply RM_raise].
  apply (RM_bind RI); [apply RM_get|]. intros s s' (A1 & A2 & A3 & A4 & A5 & A6 & A7).
  apply (RM_bind eq). { apply RM_put. unfold RI; cbn [im_ref im_refpol im_dummy im_basis im_interp im_mask]. repeat split; try assumption. apply Forall2_app; assumption. } intros _ _ _.
  apply (RM_bind RI); [apply RM_get|]. intros t t' (B1 & B2 & B3 & B4 & B5 & B6 & B7).
  apply (RM_bind eq). { apply RM_put. unfold RI; cbn [im_ref im_refpol im_dummy im_basis im_interp im_mask]. repeat split; try assumption. rewrite B4, B6. reflexivity. } intros _ _ _.
  apply (RM_bind RI); [apply RM_get|]. intros v v' (C1 & C2 & C3 & C4 & C5 & C6 & C7).
  apply RM_put. unfold RI; cbn [im_ref im_refpol im_dummy im_basis im_interp im_mask]. repeat split; try assumption. rewrite C7, (F2_len _ _ _ K). reflexivity.
Qed.
Lemma frac_arr_like a a' : RA n u a a' -> RS (RA n u) (get_frac_displacement_arr r a) (get_frac_displacement_arr r' a').
Proof.
  intros H. destruct a as [l|k], a' as [l'|k']; cbn [RA] in H; try contradiction; cbn [get_frac_displacement_arr].
  - pose proof (frac_like n u r r' HRR _ _ H) as K. destruct (get_frac_displacement r l), (get_frac_displacement r' l'); cbn in K |- *; try contradiction; exact K.
  - destruct HRR as (-> & _). destruct (minv _); cbn; [exact H|reflexivity].
Qed.
Lemma frac_arr_len a d : get_frac_displacement_arr r a = Ok d -> arr_len d = arr_len a.
Proof.
  destruct a as [l|k]; cbn [get_frac_displacement_arr]; unfold get_frac_displacement; destruct (minv _); cbn; try discriminate; intros [= <-]; cbn; [|reflexivity].
  unfold apply_pbc_displacement, rows_mul. rewrite !map_length. reflexivity.
Qed.
Lemma over_norm_len c a : arr_len (over_norm c a) = arr_len a.
Proof.
  destruct a as [[|v l]|k]; try reflexivity. cbn [over_norm]. destruct (Reqb _ 0); cbn; [reflexivity|]. unfold rows_scale. rewrite map_length. reflexivity.
Qed.
Lemma RM_lift_bind {A B C D} (Q : A -> B -> Prop) (Q' : C -> D -> Prop) x y k k' : RS Q x y ->
  (forall a b, x = Ok a -> y = Ok b -> Q a b -> RM Q' (k a) (k' b)) -> RM Q' (bind (lift x) k) (bind (lift y) k').
Proof.
  intros H K s s' HI. unfold bind, lift. destruct x as [a|e], y as [b|e']; cbn [RS] in H; try contradiction; [|cbn; auto].
  specialize (K a b eq_refl eq_refl H s s' HI). destruct (k a s) as [[s2 w2] z], (k' b s') as [[s2' w2'] z']. cbn [fst snd app] in *. exact K.
Qed.
Lemma RM_add_dof cart cart' amps pols order inc : RA n u cart cart' -> arr_len cart = n ->
  (forall d gs, get_frac_displacement_arr r cart = Ok d -> get_equivalent_displacements r (over_norm 10 d) = Ok gs -> steady gs) ->
  RM eq (add_dof cart amps pols order inc) (add_dof cart' amps pols order inc).
Proof.
  intros HC LC HS. unfold add_dof. apply (RM_bind RI); [apply RM_get|]. intros s s' (A1 & A2 & A3 & A4 & A5 & A6 & A7). rewrite A1, A2, <- A4.
  apply (RM_lift_bind (RA n u)); [apply frac_arr_like, HC|]. intros d d' Ed _ Hd. cbv zeta.
  apply (RM_lift_bind eq); [apply RS_eq; reflexivity|]. intros _ _ _ _ _. apply (RM_lift_bind eq); [apply RS_eq; reflexivity|]. intros _ _ _ _ _.
  apply (RM_lift_bind (Forall2 (RD n u))).
  - apply (get_dof_like n u HU r r' HRR); try assumption; [apply over_norm_like, Hd|rewrite over_norm_len, (frac_arr_len _ _ Ed); exact LC|]. intros gs Hg. eapply HS; [exact Ed|exact Hg].
  - intros dofs dofs' _ _ HF. apply RM_construct, HF.
Qed.

(** ** Structures read from files *)
Lemma read_one_like s s' x y : RI s s' -> same_read n u x y -> RS (fun a b => like (fst a) (fst b) /\ snd a = snd b) (read_one s x) (read_one s' y).
Proof.
  intros (A1 & A2 & _ & A4 & _) H. destruct x as [[p q]|e], y as [[p' q']|e']; cbn [same_read] in H; try contradiction; [|subst; reflexivity].
  destruct H as (H & ->). unfold read_one. cbn [rbind fst snd]. rewrite A1, A2, <- A4. destruct HRR as (_ & HP & _).
  pose proof (calc_like n u _ _ _ _ HP (same_like n u HU _ _ H)) as K. destruct (calc_displacement (rs_positions r) p), (calc_displacement (rs_positions r') p'); cbn [RS] in K; try contradiction.
  - cbn. split; [exact K|reflexivity].
  - subst. destruct (is_value_error _); reflexivity.
Qed.
Lemma amplitude_like b b' d d' : like b b' -> like d d' -> get_amplitude b d = get_amplitude b' d'.
Proof. intros H1 H2. unfold get_amplitude. rewrite !ldot_rows. apply (dot_like n u); assumption. Qed.
Lemma amplitudes_like s s' ds ds' : RI s s' -> Forall2 like ds ds' -> RS (fun a b => like (fst a) (fst b) /\ snd a = snd b) (amplitudes_of s ds) (amplitudes_of s' ds').
Proof.
  intros (A1 & A2 & _) HF. unfold amplitudes_of. destruct HF as [|d d' l l' Hd HF]; [reflexivity|].
  assert (HF2 : Forall2 like (d :: l) (d' :: l')) by (constructor; assumption).
  assert (E : is_collinear_with_all (flatten (Fin d)) (map (fun d => flatten (Fin d)) (d :: l)) = is_collinear_with_all (flatten (Fin d')) (map (fun d => flatten (Fin d)) (d' :: l'))).
  { rewrite <- (map_map Fin flatten), <- (map_map Fin flatten (d' :: l')). apply (all_coll_like n u); [exact Hd|]. clear - HF2. induction HF2; cbn; constructor; assumption. }
  rewrite E. clear E. destruct (is_collinear_with_all _ _) as [z|e]; cbn [rbind]; [|reflexivity]. destruct (negb _); [reflexivity|]. rewrite A1, A2.
  pose proof (over_norm_like n u 1 (Fin (get_cart_displacement r d)) (Fin (get_cart_displacement r' d')) (cart_like n u r r' HRR _ _ Hd)) as K.
  destruct (over_norm 1 (Fin (get_cart_displacement r d))) as [b|k], (over_norm 1 (Fin (get_cart_displacement r' d'))) as [b'|k']; cbn [RA] in K; try contradiction; [|reflexivity].
  cbn [RS fst snd]. split; [exact Hd|]. revert HF2. generalize (d :: l), (d' :: l'). induction 1; [reflexivity|]. cbn [map]. f_equal; [|assumption]. apply amplitude_like; [exact K|]. apply cart_like; assumption.
Qed.
Lemma Forall2_split {A B C} (Q : A -> C -> Prop) (l : list (A * B)) (m : list (C * B)) : Forall2 (fun a b => Q (fst a) (fst b) /\ snd a = snd b) l m -> Forall2 Q (map fst l) (map fst m) /\ map snd l = map snd m.
Proof. induction 1 as [|[a b] [c d] l m (H & E) HF (I1 & I2)]; cbn; [split; [constructor|reflexivity]|]. cbn in H, E. split; [constructor; assumption|congruence]. Qed.
Lemma read_dof_like s s' rds rds' : RI s s' -> Forall2 (same_read n u) rds rds' ->
  RS (fun a b => like (fst (fst a)) (fst (fst b)) /\ snd (fst a) = snd (fst b) /\ snd a = snd b) (read_dof s rds) (read_dof s' rds').
Proof.
  intros HI HF. unfold read_dof. eapply RS_bind.
  - eapply RS_mapM; [exact HF|]. intros a b _ H. apply read_one_like; [exact HI|exact H].
  - intros dps dps' H. apply Forall2_split in H. destruct H as (H1 & H2). eapply RS_bind; [apply amplitudes_like; [exact HI|exact H1]|]. intros [d am] [d' am'] (K1 & K2). cbn. auto.
Qed.
Lemma pymatgen_like s s' ps ps' : RI s s' -> Forall2 (same_rows n u) ps ps' ->
  RS (fun a b => like (fst a) (fst b) /\ snd a = snd b) (displacement_amplitudes s ps) (displacement_amplitudes s' ps').
Proof.
  intros HI HF. unfold displacement_amplitudes. eapply RS_bind.
  - eapply RS_mapM; [exact HF|]. cbv beta. intros a b _ H. instantiate (1 := like). destruct HI as (A1 & A2 & _). rewrite A1, A2. destruct HRR as (_ & HP & _).
    pose proof (calc_like n u _ _ _ _ HP (same_like n u HU _ _ H)) as K. destruct (calc_displacement (rs_positions r) a), (calc_displacement (rs_positions r') b); cbn [RS] in K; try contradiction; [exact K|].
    subst. destruct (is_value_error _); reflexivity.
  - intros ds ds' H. apply amplitudes_like; assumption.
Qed.
End Order.
