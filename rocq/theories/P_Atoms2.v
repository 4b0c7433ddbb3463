(** Amplitude factors and degrees of freedom do not depend on the order of the rows *)
From Coq Require Import String ZArith Reals Bool Arith List Permutation Lia Lra.
From Verif Require Import Base LinAlg M_Validate M_StructUtils M_Symmetry M_Reference M_Interp M_Art S_Vec P_Interp P_Art2 S_Relabel P_Relabel P_Relabel2 P_Relabel3 S_Atoms P_Atoms.
Import ListNotations.
Local Open Scope R_scope.

(** ** The first maximum *)
Definition first_max (l : list R) (k : nat) : Prop :=
  (k < List.length l)%nat /\ (forall j, (j < List.length l)%nat -> nth j l 0 <= nth k l 0) /\ (forall j, (j < k)%nat -> nth j l 0 < nth k l 0).
Lemma first_max_unique l j k : first_max l j -> first_max l k -> j = k.
Proof.
  intros (J1 & J2 & J3) (K1 & K2 & K3). destruct (lt_eq_lt_dec j k) as [[H|H]|H]; [|exact H|].
  - specialize (K3 _ H). specialize (J2 _ K1). lra.
  - specialize (J3 _ H). specialize (K2 _ J1). lra.
Qed.
Lemma argmax_first l : match argmax l with Ok k => first_max l k | Err e => l = [] /\ e = ValueError end.
Proof.
  destruct l as [|x l]; [split; reflexivity|]. cbn [argmax].
  destruct (argmax_from_first l x 0%nat 1%nat ltac:(lia)) as [(-> & H)|(i & y & -> & H1 & H2 & H3 & H4)].
  - split; [cbn; lia|]. split; [|intros; lia]. intros [|j] Hj; cbn [nth]; [lra|]. cbn in Hj. apply H, nth_In. lia.
  - pose proof (nth_error_nth _ _ 0 H1) as N. pose proof (some_lt _ _ _ H1) as Hi.
    split; [cbn; lia|]. split.
    + intros [|j] Hj; cbn [nth Nat.add]; rewrite N; [lra|]. cbn in Hj. apply H3, nth_In. lia.
    + intros [|j] Hj; cbn [nth Nat.add]; rewrite N; [lra|]. apply (H4 j); [lia|]. apply nth_error_nth'. lia.
Qed.
Lemma argmax_is l k : first_max l k -> argmax l = Ok k.
Proof.
  intros H. pose proof (argmax_first l) as K. destruct (argmax l) as [j|e].
  - f_equal. eapply first_max_unique; eassumption.
  - destruct K as (-> & _). destruct H as (H & _). cbn in H. lia.
Qed.

(** ** Entries of a flattened array *)
Definition comp (v : V3) (j : nat) : R := match j with O => vx v | S O => vy v | _ => vz v end.
Lemma flat_at l i j : (i < List.length l)%nat -> (j < 3)%nat -> nth_error (flatten_rows l) (3 * i + j) = Some (comp (nth i l v0) j).
Proof.
  revert i. induction l as [|v l IH]; intros i Hi Hj; [cbn in Hi; lia|]. destruct i as [|i].
  - destruct j as [|[|[|j]]]; try lia; reflexivity.
  - replace (3 * S i + j)%nat with (S (S (S (3 * i + j)))) by lia. cbn [flatten_rows flat_map app nth_error nth]. apply IH; [cbn in Hi; lia|exact Hj].
Qed.
Lemma flat_index l k : (k < List.length (flatten_rows l))%nat -> exists i j, (i < List.length l)%nat /\ (j < 3)%nat /\ k = (3 * i + j)%nat.
Proof.
  rewrite flat_len. intros H. exists (k / 3)%nat, (k mod 3)%nat. split; [apply Nat.div_lt_upper_bound; lia|]. split; [apply Nat.mod_upper_bound; lia|]. apply Nat.div_mod. lia.
Qed.
Lemma comp_biggest v j : (j < 3)%nat -> Rabs (comp v j) <= biggest v.
Proof.
  unfold biggest. pose proof (Rmax_l (Rabs (vx v)) (Rmax (Rabs (vy v)) (Rabs (vz v)))). pose proof (Rmax_r (Rabs (vx v)) (Rmax (Rabs (vy v)) (Rabs (vz v)))).
  pose proof (Rmax_l (Rabs (vy v)) (Rabs (vz v))). pose proof (Rmax_r (Rabs (vy v)) (Rabs (vz v))).
  destruct j as [|[|[|j]]]; intros Hj; cbn [comp]; try lia; lra.
Qed.
Lemma biggest_comp v : exists j, (j < 3)%nat /\ biggest v = Rabs (comp v j).
Proof.
  unfold biggest, Rmax. destruct (Rle_dec (Rabs (vy v)) (Rabs (vz v))); (destruct (Rle_dec (Rabs (vx v)) _)); [exists 2%nat|exists 0%nat|exists 1%nat|exists 0%nat]; split; try lia; reflexivity.
Qed.
Lemma abs_at l i j : (i < List.length l)%nat -> (j < 3)%nat -> nth (3 * i + j) (map Rabs (flatten_rows l)) 0 = Rabs (comp (nth i l v0) j).
Proof. intros Hi Hj. apply nth_error_nth. apply map_nth_error. apply flat_at; assumption. Qed.
Lemma comp_scale t v j : comp (vscale t v) j = t * comp v j.
Proof. destruct v, j as [|[|j]]; reflexivity. Qed.
Lemma scale_at t l i : nth i (rows_scale t l) v0 = vscale t (nth i l v0).
Proof. unfold rows_scale. rewrite <- (vscale_v0 t) at 1. apply map_nth. Qed.

(** What [multiplier] computes from the entry it picks *)
Definition quotient (x y : R) : option R := if Reqb y 0 then None else Some (x / y).
Lemma multiplier_at c d i j : (i < List.length c)%nat -> (j < 3)%nat -> List.length d = List.length c ->
  first_max (map Rabs (flatten_rows c)) (3 * i + j) ->
  multiplier (Fin c) (Fin d) = Ok (quotient (comp (nth i c v0) j) (comp (nth i d v0) j)).
Proof.
  intros Hi Hj HL HF. cbn [multiplier]. rewrite (argmax_is _ _ HF). cbn [rbind]. rewrite (flat_at c), (flat_at d) by (lia || exact Hj). reflexivity.
Qed.
Lemma multiplier_cases c d : List.length d = List.length c ->
  (c = [] /\ multiplier (Fin c) (Fin d) = Err ValueError) \/
  exists i j, (i < List.length c)%nat /\ (j < 3)%nat /\ first_max (map Rabs (flatten_rows c)) (3 * i + j) /\
    multiplier (Fin c) (Fin d) = Ok (quotient (comp (nth i c v0) j) (comp (nth i d v0) j)).
Proof.
  intros HL. destruct c as [|v c]; [left; split; reflexivity|]. right. pose proof (argmax_first (map Rabs (flatten_rows (v :: c)))) as K.
  destruct (argmax (map Rabs (flatten_rows (v :: c)))) as [k|e]; [|destruct K as (K & _); discriminate].
  pose proof K as (K1 & _). rewrite map_length in K1. destruct (flat_index _ _ K1) as (i & j & Hi & Hj & ->). exists i, j. split; [exact Hi|]. split; [exact Hj|]. split; [exact K|].
  apply multiplier_at; assumption.
Qed.

Section Order.
Context (n : nat) (u : nat -> nat) (HU : reordering n u).
Notation like := (like n u).

Lemma multiplier_like c c' d d' : like c c' -> like d d' -> (exists t, d = rows_scale t c) \/ one_leader c ->
  multiplier (Fin c) (Fin d) = multiplier (Fin c') (Fin d').
Proof.
  intros Hc Hd Hx. destruct (like_len _ _ _ _ Hc) as [Lc Lc'], (like_len _ _ _ _ Hd) as [Ld Ld'].
  destruct (multiplier_cases c' d' ltac:(congruence)) as [(-> & ->)|(i' & j' & Hi' & Hj' & F' & ->)].
  { destruct c; [reflexivity|]. cbn in Lc, Lc'. lia. }
  destruct (multiplier_cases c d ltac:(congruence)) as [(-> & _)|(i & j & Hi & Hj & F & ->)]; [cbn in Lc; lia|].
  f_equal. destruct (u_onto n u HU i') as (k & Hk & <-); [congruence|].
  rewrite (like_nth n u c c' v0 k Hc Hk), (like_nth n u d d' v0 k Hd Hk) in *.
  assert (B1 : Rabs (comp (nth k c v0) j') = Rabs (comp (nth i c v0) j)).
  { apply Rle_antisym.
    - destruct F as (_ & F & _). specialize (F (3 * k + j')%nat). rewrite map_length, flat_len in F. specialize (F ltac:(lia)). rewrite !abs_at in F by (assumption || congruence || lia). exact F.
    - destruct F' as (_ & F' & _). specialize (F' (3 * u i + j)%nat). rewrite map_length, flat_len in F'. destruct HU as (U1 & _). assert (Hi2 : (i < n)%nat) by congruence. specialize (U1 _ Hi2). specialize (F' ltac:(lia)).
      rewrite !abs_at in F' by (assumption || congruence || lia). rewrite (like_nth n u c c' v0 k Hc Hk), (like_nth n u c c' v0 i Hc Hi2) in F'. exact F'. }
  destruct Hx as [(t & ->)|(i0 & Hi0 & HL)].
  - rewrite !scale_at, !comp_scale. unfold quotient. destruct (Req_dec t 0) as [->|Ht].
    { rewrite !Rmult_0_l. destruct (Reqb 0 0) eqn:Q; [reflexivity|]. apply Reqb_false in Q. tauto. }
    destruct (Req_dec (comp (nth i c v0) j) 0) as [E|E].
    + rewrite E, Rabs_R0 in B1. assert (comp (nth k c v0) j' = 0) as -> by (destruct (Req_dec (comp (nth k c v0) j') 0); [assumption|]; pose proof (Rabs_pos_lt _ H); lra). rewrite E. reflexivity.
    + assert (E' : comp (nth k c v0) j' <> 0) by (intros E'; rewrite E', Rabs_R0 in B1; pose proof (Rabs_pos_lt _ E); lra).
      destruct (Reqb (t * comp (nth i c v0) j) 0) eqn:Q1; [apply Reqb_true, Rmult_integral in Q1; tauto|].
      destruct (Reqb (t * comp (nth k c v0) j') 0) eqn:Q2; [apply Reqb_true, Rmult_integral in Q2; tauto|]. f_equal. field. tauto.
  - (* one atom leads *)
    assert (BB : forall a b, (a < n)%nat -> (b < 3)%nat -> (forall a2 b2, (a2 < n)%nat -> (b2 < 3)%nat -> Rabs (comp (nth a2 c v0) b2) <= Rabs (comp (nth a c v0) b)) -> a = i0).
    { intros a b Ha Hb Hmax. destruct (Nat.eq_dec a i0) as [|Ne]; [assumption|exfalso]. assert (Ha' : (a < List.length c)%nat) by congruence. specialize (HL a Ha' Ne).
      destruct (biggest_comp (nth i0 c v0)) as (b2 & Hb2 & E). assert (Hi0' : (i0 < n)%nat) by congruence. specialize (Hmax i0 b2 Hi0' Hb2). rewrite E in HL. pose proof (comp_biggest (nth a c v0) b Hb). lra. }
    assert (M : forall a2 b2, (a2 < n)%nat -> (b2 < 3)%nat -> Rabs (comp (nth a2 c v0) b2) <= Rabs (comp (nth i c v0) j)).
    { intros a2 b2 Ha Hb. destruct F as (_ & F & _). specialize (F (3 * a2 + b2)%nat). rewrite map_length, flat_len in F. specialize (F ltac:(lia)). rewrite !abs_at in F by (assumption || congruence || lia). exact F. }
    assert (Ei : i = i0) by (apply (BB i j); [congruence|exact Hj|exact M]).
    assert (Ek : k = i0) by (apply (BB k j'); [congruence|exact Hj'|rewrite B1; exact M]). subst i k.
    assert (Ej : j = j'); [|subst; reflexivity].
    destruct (lt_eq_lt_dec j j') as [[Hlt|Heq]|Hlt]; [|exact Heq|].
    + destruct F' as (_ & _ & F'). specialize (F' (3 * u i0 + j)%nat ltac:(lia)). rewrite !abs_at in F' by (assumption || congruence || lia). rewrite (like_nth n u c c' v0 i0 Hc Hk) in F'. lra.
    + destruct F as (_ & _ & F). specialize (F (3 * i0 + j')%nat ltac:(lia)). rewrite !abs_at in F by (assumption || congruence || lia). lra.
Qed.

Lemma over_norm_like c a a' : RA n u a a' -> RA n u (over_norm c a) (over_norm c a').
Proof.
  destruct a as [l|k], a' as [l'|k']; cbn [RA]; intros H; try contradiction; [|exact H]. destruct (like_len _ _ _ _ H) as [L L'].
  destruct l as [|v l], l' as [|v' l']; cbn in L, L'; try (exfalso; lia); [exact H|]. cbn [over_norm].
  rewrite <- (norm_like n u _ _ (scale_like n u c _ _ H)). destruct (Reqb _ 0); cbn [RA]; [cbn; congruence|]. apply scale_like, H.
Qed.

Context (r r' : refstruct) (HRR : RR n u r r').

Definition steady (gs : list group) : Prop := forall g lead rest e, In g gs -> g_disp g = Fin lead :: rest -> In (Fin e) (Fin lead :: rest) ->
  (exists t, e = rows_scale t lead) \/ one_leader lead.
Definition RD (d d' : dof) : Prop := RA n u (fst d) (fst d') /\ snd d = snd d'.

Lemma points_like refpol amps pols c c' e e' tr : RA n u c c' -> RA n u e e' ->
  (forall x y, c = Fin x -> e = Fin y -> (exists t, y = rows_scale t x) \/ one_leader x) ->
  points_of refpol amps pols c (e, tr) = points_of refpol amps pols c' (e', tr).
Proof.
  intros Hc He HS. destruct tr as [rot t]. cbn [points_of]. assert (E : multiplier c e = multiplier c' e'); [|rewrite E; reflexivity].
  destruct c, c', e, e'; cbn [RA] in Hc, He; try contradiction; try reflexivity. apply multiplier_like; auto.
Qed.
Lemma dof_like refpol amps pols inc g g' : RG n u g g' ->
  (forall lead rest e, g_disp g = Fin lead :: rest -> In (Fin e) (Fin lead :: rest) -> (exists t, e = rows_scale t lead) \/ one_leader lead) ->
  RS RD (dof_of_group r refpol amps pols inc g) (dof_of_group r' refpol amps pols inc g').
Proof.
  intros (HD & HT) HS. unfold dof_of_group. rewrite <- HT. destruct HD as [|c c' l l' Hc HD]; [reflexivity|].
  assert (E : mapM (points_of refpol amps pols c) (combine (c :: l) (g_trans g)) = mapM (points_of refpol amps pols c') (combine (c' :: l') (g_trans g))).
  { assert (HS' : forall x, c = Fin x -> forall y, In (Fin y) (c :: l) -> (exists t, y = rows_scale t x) \/ one_leader x) by (intros x -> y Hy; eapply HS; eauto).
    assert (HF : Forall2 (RA n u) (c :: l) (c' :: l')) by (constructor; assumption). clear - HF HS' Hc HU. generalize (g_trans g). induction HF as [|e e' m m' He HF IH]; intros [|tr ts]; try reflexivity. cbn [combine mapM].
    rewrite (points_like _ _ _ _ _ _ _ tr Hc He); [|intros x y -> ->; eapply HS'; [reflexivity|left; reflexivity]]. destruct (points_of _ _ _ c' _); [|reflexivity]. cbn [rbind].
    rewrite IH; [reflexivity|]. intros x Ex y Hy. eapply HS'; [exact Ex|right; exact Hy]. }
  rewrite E. destruct (mapM (points_of refpol amps pols c') _) as [pss|e]; cbn [rbind]; [|reflexivity]. split; cbn [fst snd]; [|reflexivity].
  apply over_norm_like, cart_arr_like; assumption.
Qed.
Lemma get_dof_like m m' p p' amps pols inc : im_ref m = r -> im_ref m' = r' -> im_refpol m = im_refpol m' -> Forall2 like (im_basis m) (im_basis m') ->
  RA n u p p' -> arr_len p = n -> (forall gs, get_equivalent_displacements r p = Ok gs -> steady gs) ->
  RS (Forall2 RD) (get_dof m p amps pols inc) (get_dof m' p' amps pols inc).
Proof.
  intros E1 E2 Ep HB Hp Lp HS. unfold get_dof. rewrite E1, E2, <- Ep.
  assert (EO : is_orthogonal_to_all (flatten (get_cart_displacement_arr r p)) (map (fun b => flatten (Fin b)) (im_basis m)) = is_orthogonal_to_all (flatten (get_cart_displacement_arr r' p')) (map (fun b => flatten (Fin b)) (im_basis m'))).
  { rewrite <- (map_map Fin flatten), <- (map_map Fin flatten (im_basis m')). apply (orth_like n u); [apply cart_arr_like; assumption|]. clear - HB. induction HB; cbn; constructor; assumption. }
  rewrite EO. clear EO. destruct (is_orthogonal_to_all _ _) as [z|e]; cbn [rbind]; [|exact eq_refl]. destruct (negb (z =? -1)%Z); [exact eq_refl|].
  pose proof (groups_like n u HU r r' HRR p p' Hp Lp) as HG. destruct (get_equivalent_displacements r p) as [gs|e] eqn:Eg, (get_equivalent_displacements r' p') as [gs'|e']; cbn [RS] in HG; try contradiction; cbn [rbind]; [|exact HG].
  eapply RS_mapM; [exact HG|]. intros g g' Hin Hg. apply dof_like; [exact Hg|]. intros lead rest e Ed He. eapply (HS gs eq_refl); eassumption.
Qed.
End Order.
