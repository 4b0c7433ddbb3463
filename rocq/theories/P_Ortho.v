(** When the degrees of freedom of a model are mutually orthogonal. *)
From Coq Require Import String ZArith Reals Lra Lia Bool Arith List Permutation.
From Verif Require Import Base LinAlg M_Validate M_StructUtils M_Symmetry M_Reference M_Interp M_Art M_Shared
  S_Lattice S_Vec S_Symmetry S_Equivalent S_Interp S_Images S_Response S_Order S_Ortho P_StructUtils P_Symmetry P_Equivalent P_Equiv3 P_EquivTotal P_StructFinal P_Interp P_Interp2
  P_Interp4 P_Interp5 P_Interp6 P_Images P_Response P_Response2 P_Examples2 P_Examples3 P_Order P_Order2 P_Order3 P_Interp3 P_Order4 P_Order5.
Import ListNotations.
Local Open Scope R_scope.

Definition orth (b c : list V3) : Prop := orthogonal_spec (rowsR b) (rowsR c).
Lemma orth_sym b c : orth b c -> orth c b.
Proof.
  intros (H1 & H2 & H3). split; [auto|split; [auto|]]. unfold cosine in *. rewrite !inner_rows in *. rewrite rows_dot_comm, Rmult_comm. exact H3.
Qed.

Lemma FOP_flat {A B} (f : A -> list B) (R : B -> B -> Prop) l : Forall (fun a => ForallOrdPairs R (f a)) l ->
  ForallOrdPairs (fun a b => forall x y, In x (f a) -> In y (f b) -> R x y) l -> ForallOrdPairs R (flat_map f l).
Proof.
  intros H F. induction F as [|a l Fa F IH]; cbn [flat_map]; [constructor|].
  apply Forall_cons_iff in H as (Ha & Hl). specialize (IH Hl).
  assert (K : forall xs, (forall x, In x xs -> In x (f a)) -> ForallOrdPairs R xs -> ForallOrdPairs R (xs ++ flat_map f l)).
  { induction xs as [|x xs IHx]; intros S Fx; cbn [app]; auto. inversion Fx as [|? ? F1 F2]; subst. constructor.
    - apply Forall_app. split; [auto|]. apply Forall_forall. intros y Hy. apply in_flat_map in Hy as (b & Hb & Hy).
      rewrite Forall_forall in Fa. eapply Fa; eauto. apply S. simpl; auto.
    - apply IHx; auto. intros z Hz. apply S. simpl; auto. }
  apply K; auto.
Qed.

Lemma FOP_nth {A} (R : A -> A -> Prop) l i j a b : (forall x y, R x y -> R y x) -> ForallOrdPairs R l ->
  nth_error l i = Some a -> nth_error l j = Some b -> i <> j -> R a b.
Proof.
  intros S F. revert i j. induction F as [|x l Fx F IH]; intros [|i] [|j] Hi Hj N; try discriminate; try tauto; cbn in Hi, Hj.
  - injection Hi as <-. rewrite Forall_forall in Fx. apply Fx. eapply nth_error_In; eauto.
  - injection Hj as <-. rewrite Forall_forall in Fx. apply S, Fx. eapply nth_error_In; eauto.
  - eapply IH; eauto.
Qed.

Lemma FOP_along {A B} (P : A -> B -> Prop) (R : A -> A -> Prop) (S : B -> B -> Prop) l m : Forall2 P l m ->
  (forall a a' b b', P a b -> P a' b' -> R a a' -> S b b') -> ForallOrdPairs R l -> ForallOrdPairs S m.
Proof.
  intros H K. induction H as [|a b l m Hab H IH]; intros F; constructor.
  - inversion F as [|? ? F1 F2]; subst. clear -F1 H K Hab. induction H as [|a' b' l m Hab' H IH]; constructor.
    + apply Forall_inv in F1. eapply K; eauto.
    + apply IH. eapply Forall_inv_tail; eauto.
  - apply IH. inversion F; auto.
Qed.

(** The first displacements of the groups are orthogonal as fractional arrays. *)
Lemma groups_orth numbers L pos ops equiv r d gs : make_reference numbers L pos (Some (ops, equiv)) = Ok r ->
  (0 < List.length pos)%nat -> ops <> [] -> apply_pbc_displacement d = d -> rows_norm d <> 0 ->
  get_equivalent_displacements r (Fin d) = Ok gs ->
  ForallOrdPairs (fun g g' => forall l rest l' rest', g_disp g = Fin l :: rest -> g_disp g' = Fin l' :: rest' -> orth l l') gs.
Proof.
  intros H Hn Ho Hp Nz G. destruct (f_C16 numbers L pos ops equiv r d d gs H Hn Ho) as (Gs & -> & F & FO & _); auto.
  { apply apply_pbc_displacement_spec; auto. }
  clear G. induction Gs as [|G Gs IH]; [constructor|]. apply Forall_cons_iff in F as ((Ne & _) & F).
  destruct G as [|e G]; [tauto|]. unfold leaders in FO. cbn [flat_map app] in FO. fold (leaders Gs) in FO.
  inversion FO as [|? ? F1 F2]; subst. cbn [map]. constructor; [|apply IH; auto].
  apply Forall_forall. intros g Hg. apply in_map_iff in Hg as (G' & <- & Hg). unfold to_group. cbn [g_disp map].
  intros l rest l' rest' [= <- <-] E. destruct G' as [|e' G']; [discriminate|]. cbn [map] in E. injection E as <- _.
  rewrite Forall_forall in F1. apply orth_sym, F1. apply in_flat_map. exists (e' :: G'). split; [auto|simpl; auto].
Qed.

Lemma cubic_dot L c u v : mmul L (mtrans L) = mscale c mI -> vdot (vmul u L) (vmul v L) = c * vdot u v.
Proof.
  intros H. transitivity (vdot (vmul u (mmul L (mtrans L))) v).
  - destruct L as [[] [] []], u, v. vunf. ring.
  - rewrite H, vmul_mscale, vmul_mI. destruct u, v. vunf. ring.
Qed.
Lemma cubic_rows L c u v : mmul L (mtrans L) = mscale c mI -> rows_dot (rows_mul u L) (rows_mul v L) = c * rows_dot u v.
Proof.
  intros H. revert v. induction u as [|x u IH]; intros [|y v]; try (unfold rows_dot; cbn; ring).
  unfold rows_mul in *. cbn [map]. rewrite !rows_dot_cons, IH, (cubic_dot L c) by auto. ring.
Qed.
Lemma cubic_orth L u v : cubic_lattice L -> List.length u = List.length v -> orth u v -> orth (rows_mul u L) (rows_mul v L).
Proof.
  intros (c & Hc & H) Hl O. unfold orth in *. rewrite orth_rows in O |- * by (rewrite ?rows_mul_length; auto).
  assert (N : forall w, rows_norm (rows_mul w L) = sqrt c * rows_norm w).
  { intros w. unfold rows_norm, rows_norm2. rewrite (cubic_rows L c), sqrt_mult_alt by (auto; lra). auto. }
  rewrite !N, (cubic_rows L c) by auto. destruct O as (O1 & O2 & O3). pose proof (sqrt_lt_R0 c Hc).
  split; [intros E; apply Rmult_integral in E as [E|E]; [lra|tauto]|].
  split; [intros E; apply Rmult_integral in E as [E|E]; [lra|tauto]|].
  rewrite Rabs_mult, (Rabs_right c) by lra.
  replace (tol1 * (sqrt c * rows_norm u * (sqrt c * rows_norm v))) with (c * (tol1 * (rows_norm u * rows_norm v))).
  - apply Rmult_le_compat_l; lra.
  - rewrite <- (sqrt_sqrt c) at 1 by lra. ring.
Qed.

Lemma im_nth n op pi d q : (q < n)%nat -> nth q (im n op pi d) v0 = vmul (nth (pi q) d v0) (fst op).
Proof.
  intros H. unfold im. rewrite (nth_indep _ v0 ((fun b => vmul (nth (pi b) d v0) (fst op)) 0%nat)) by (rewrite map_length, seq_length; auto).
  rewrite (map_nth (fun b => vmul (nth (pi b) d v0) (fst op))), seq_nth by auto. reflexivity.
Qed.

Section Rigid.
Variables (L : M3) (pos : list V3) (ops : list (M3 * V3)) (r : refstruct).
Hypothesis HR : rigid_symmetries L pos ops r.
Hypothesis HC : closed_symmetries pos ops.
Let n := List.length pos.
Variables (art : bool) (s : imodel).
Hypothesis Hs : im_ref s = r.

Lemma call_reduced a d : works art s a -> starts_from r a d -> apply_pbc_displacement d = d.
Proof.
  intros W S. destruct (rigid_parts L pos ops r HR) as (Ep & _). pose proof HR as (_ & Hn & _).
  apply (parent_form art s a d W); rewrite Hs; [auto|rewrite Ep; auto].
Qed.

(** Within a call *)
Lemma same_call a d : works art s a -> starts_from r a d -> List.length d = n -> cubic_lattice L ->
  ForallOrdPairs orth (fst (contrib art s a)).
Proof.
  intros W S Ld Cu. destruct (call_parts L pos ops r HR art s Hs a d W S Ld) as (Nz & _ & gs & G & F).
  pose proof HR as ((nu & eq & H) & Hn & Ho & _).
  pose proof (groups_orth nu L pos ops eq r d gs H Hn Ho (call_reduced a d W S) Nz G) as O.
  eapply FOP_along; [exact F| |exact O].
  intros g g' b b' (ld & rest & op & pi & k & c & E1 & _ & _ & _ & E2 & Hc & ->) (ld' & rest' & op' & pi' & k' & c' & E1' & _ & _ & _ & E2' & Hc' & ->) K.
  specialize (K ld rest ld' rest' E1 E1').
  assert (Ll : List.length ld = List.length ld') by (rewrite E2, E2', !rows_scale_length, !im_length; auto).
  apply orth_scaled; [rewrite !rows_mul_length; auto|lra|lra|]. apply cubic_orth; auto.
Qed.

(** Across calls *)
Lemma across_calls a b d e : works art s a -> starts_from r a d -> List.length d = n ->
  works art s b -> starts_from r b e -> List.length e = n -> images_listed pos ops r d ->
  Forall (ortho (starts art s b)) (fst (contrib art s a)) ->
  forall x y, In x (fst (contrib art s a)) -> In y (fst (contrib art s b)) -> orth x y.
Proof.
  intros Wa Sa La Wb Sb Lb Ia Acc x y Hx Hy.
  rewrite (accepted_images L pos ops r HR art s Hs a b d e) in Acc by auto.
  destruct (call_parts L pos ops r HR art s Hs a d Wa Sa La) as (_ & _ & gs & _ & F).
  destruct (call_parts L pos ops r HR art s Hs b e Wb Sb Lb) as (_ & _ & gs' & _ & F').
  apply In_nth_error in Hx as (i & Hx). apply In_nth_error in Hy as (j & Hy).
  destruct (f2nth_r _ _ _ _ _ F Hx) as (g & _ & ld & rest & op & pi & k & c & _ & Ho & Hp & Hk & -> & Hc & ->).
  destruct (f2nth_r _ _ _ _ _ F' Hy) as (g' & _ & ld' & rest' & op' & pi' & k' & c' & _ & Ho' & Hp' & Hk' & -> & Hc' & ->).
  rewrite !rows_mul_scale, !rows_scale_scale.
  apply orth_scaled; [rewrite !rows_mul_length, !im_length; auto|nra|nra|].
  (* bring [e] back *)
  pose proof HR as (_ & _ & _ & _ & _ & Inv). destruct (Inv op' pi' Ho' Hp') as (oi & pii & Hoi & Hpi & Hm & Hpp).
  destruct (HC op pi oi pii Ho Hp Hoi Hpi) as (o2 & p2 & Ho2 & Hp2 & Em & Ep).
  specialize (Acc o2 p2 Ho2 Hp2).
  rewrite orth_rows in Acc by (rewrite !rows_mul_length, im_length; auto).
  rewrite orth_rows by (rewrite !rows_mul_length, !im_length; auto).
  rewrite (im_norm L pos ops r HR) in Acc by auto. rewrite !(im_norm L pos ops r HR) by auto.
  destruct Acc as (A1 & A2 & A3). split; [auto|split; [auto|]].
  rewrite (im_swap L pos ops r HR op' pi' oi pii) by (auto; apply im_length).
  replace (im (List.length pos) oi pii (im (List.length pos) op pi d)) with (im (List.length pos) o2 p2 d).
  - rewrite (Rmult_comm (rows_norm (rows_mul d L))). exact A3.
  - unfold im. apply map_ext_in. intros q Hq. apply in_seq in Hq. rewrite Em, Ep by lia.
    assert (Hr : (pii q < n)%nat) by (destruct Hpi as (_ & (P & _) & _); apply P; lia).
    change (map (fun b => vmul (nth (pi b) d v0) (fst op)) (seq 0 (List.length pos))) with (im (List.length pos) op pi d).
    rewrite im_nth by auto. apply vmul_mmul.
Qed.

Lemma all_orth calls m : im_basis s = [] ->
  Forall (fun a => exists d, starts_from r a d /\ List.length d = n /\ images_listed pos ops r d) calls ->
  (forall a d, works art s a -> starts_from r a d -> List.length d = n -> ForallOrdPairs orth (fst (contrib art s a))) ->
  all_return art calls s m -> orthogonal_dofs m.
Proof.
  intros Hb HI Same H. apply all_return_iff in H as (W & _ & F & ->). intros i j b c.
  unfold appended. cbn [im_basis]. rewrite Hb. cbn [app]. intros Hi Hj N.
  refine (FOP_nth orth _ i j b c orth_sym _ Hi Hj N). unfold all_basis. apply FOP_flat.
  - rewrite Forall_forall in *. intros a Ha. destruct (HI a Ha) as (d & S & Ld & _). eapply Same; eauto.
  - eapply FOP_in; [|exact F]. rewrite Forall_forall in *. intros a a' Ha Ha' K.
    destruct (HI a Ha) as (d & S & Ld & Il). destruct (HI a' Ha') as (d' & S' & Ld' & Il'). eapply across_calls; eauto.
Qed.
End Rigid.

Lemma f_C92_orthogonal L pos ops r art pol dummy calls m : rigid_symmetries L pos ops r -> closed_symmetries pos ops -> cubic_lattice L ->
  Forall (fun a => exists d, starts_from r a d /\ List.length d = List.length pos /\ images_listed pos ops r d) calls ->
  all_return art calls (make_model r pol dummy) m -> orthogonal_dofs m.
Proof.
  intros HR HC Cu HI H. eapply (all_orth L pos ops r HR HC art (make_model r pol dummy)); eauto.
  intros. eapply same_call; eauto.
Qed.

Lemma f_C92_plain numbers L pos equiv r art pol dummy calls m : make_reference numbers L pos (Some ([(mI, v0)], equiv)) = Ok r ->
  (0 < List.length pos)%nat -> separated (/ 100000) pos ->
  Forall (fun a => exists d, starts_from r a d /\ List.length d = List.length pos) calls ->
  all_return art calls (make_model r pol dummy) m -> orthogonal_dofs m.
Proof.
  intros H Hn Hs HI A. pose proof (plain_rigid _ _ _ _ _ H Hn Hs) as HR.
  assert (HC : closed_symmetries pos [(mI, v0)]).
  { intros op pi op' pi' [<-|[]] Hp [<-|[]] Hp'. exists (mI, v0), pi. split; [simpl; auto|]. split; [auto|].
    cbn [fst snd] in *. split; [rewrite mmul_mI_l; auto|]. intros b Hb. rewrite (identity_fixes pos pi' Hs Hp'); auto. }
  assert (Li : forall a d, works art (make_model r pol dummy) a -> starts_from r a d -> List.length d = List.length pos -> images_listed pos [(mI, v0)] r d).
  { intros a d W S Ld. eapply plain_listed; eauto.
    - eapply (call_reduced L pos _ r HR art (make_model r pol dummy) eq_refl); eauto.
    - eapply (call_parts L pos _ r HR art (make_model r pol dummy) eq_refl); eauto. }
  apply (all_orth L pos [(mI, v0)] r HR HC art (make_model r pol dummy) eq_refl calls m eq_refl); [| |exact A].
  - pose proof A as A'. apply all_return_iff in A' as (W & _). rewrite Forall_forall in *. intros a Ha.
    destruct (HI a Ha) as (d & S & Ld). exists d. split; [auto|split; [auto|]]. eapply Li; eauto.
  - intros a d W S Ld. destruct (call_parts L pos _ r HR art (make_model r pol dummy) eq_refl a d W S Ld) as (Nz & _ & gs & G & F).
    destruct (make_reference_ops _ _ _ _ _ _ H) as (E1 & E2 & E3).
    destruct (parent_norm d Nz) as (P1 & P2).
    assert (I : identity_first r []) by (exists numbers, L, pos, equiv; auto).
    assert (Hr : apply_pbc_displacement d = d) by (eapply (call_reduced L pos _ r HR art (make_model r pol dummy) eq_refl); eauto).
    rewrite <- (parent_groups r d Hr Nz), P1, (lone_group r _ I) in G.
    + injection G as <-. revert F. generalize (fst (contrib art (make_model r pol dummy) a)). intros bs F.
      inversion F as [|? b ? bs' _ F']. inversion F'. repeat constructor.
    + unfold rows_scale. rewrite map_length. congruence.
    + exact P2.
Qed.
