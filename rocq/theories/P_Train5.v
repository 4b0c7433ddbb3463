(** Training: the batch norm and a single edge *)
From Coq Require Import ZArith Reals Bool Arith List Lia Lra Permutation.
From Verif Require Import Base LinAlg M_Validate M_StructUtils S_Lattice P_StructUtils M_Torch S_Torch P_Torch P_Torch2 M_Gnn S_Gnn P_Gnn P_Gnn2 P_Gnn3 P_Gnn4 P_Examples10 M_Train S_Train P_Train P_Train2 P_Train3 P_Train4.
Import ListNotations.
Local Open Scope R_scope.

(** ** Bonds in both directions come in pairs *)
Definition reverse (x : nat * nat * nat) : nat * nat * nat := let '(s, a, b) := x in (s, b, a).
Definition upwards (x : nat * nat * nat) : bool := let '(_, a, b) := x in Nat.ltb a b.
Lemma reverse_reverse x : reverse (reverse x) = x.
Proof. destruct x as [[s a] b]. reflexivity. Qed.
Lemma paired_even (l : list (nat * nat * nat)) : NoDup l -> (forall s a b, In (s, a, b) l -> In (s, b, a) l /\ a <> b) -> Nat.Even (List.length l).
Proof.
  intros HN HP. set (f := filter upwards l). set (g := filter (fun x => negb (upwards x)) l).
  assert (EL : (List.length l = List.length f + List.length g)%nat). { unfold f, g. clear. induction l as [|x l IH]; [reflexivity|]. cbn. destruct (upwards x); cbn; lia. }
  assert (EP : Permutation (map reverse f) g).
  { apply NoDup_Permutation.
    - apply FinFun.Injective_map_NoDup; [|apply NoDup_filter, HN]. intros x y E. rewrite <- (reverse_reverse x), E. apply reverse_reverse.
    - apply NoDup_filter, HN.
    - intros [[s a] b]. unfold f, g. rewrite in_map_iff, filter_In. split.
      + intros ([[s' a'] b'] & E & Hi). apply filter_In in Hi. destruct Hi as [Hi U]. cbn in E. injection E as <- <- <-. destruct (HP _ _ _ Hi) as [H1 H2]. split; [exact H1|]. cbn in *. apply Nat.ltb_lt in U. apply negb_true_iff, Nat.ltb_ge. lia.
      + intros [Hi U]. destruct (HP _ _ _ Hi) as [H1 H2]. exists (s, b, a). split; [reflexivity|]. apply filter_In. split; [exact H1|]. cbn in *. apply negb_true_iff, Nat.ltb_ge in U. apply Nat.ltb_lt. lia. }
  apply Permutation_length in EP. rewrite map_length in EP. exists (List.length f). lia.
Qed.
Lemma new_edges dn order w cast lattice numbers pos cutoff sn se nm gs ge ms ss mean std g0 :
  potgnn_new dn order w cast lattice numbers pos cutoff sn se nm gs ge ms ss mean std = Ok g0 ->
  g_ref_edges g0 = fst (fst (radius_graph_pbc [cast_m cast lattice] (List.length pos) [map (vmap cast) pos] cutoff)).
Proof.
  unfold potgnn_new. intros H. repeat match type of H with (if ?c then _ else _) = _ => destruct c; [discriminate|] end.
  destruct (verify_ndarray_shape ms _); [|discriminate]. destruct (verify_ndarray_shape ss _); [|discriminate]. cbn [rbind] in H. fold (cast_m cast lattice) in H.
  destruct (radius_graph_pbc [cast_m cast lattice] (List.length pos) [map (vmap cast) pos] cutoff) as [[es us] ds].
  destruct (assign_types order 0 (repeat (-1)%Z 119)) as [tm|]; [|discriminate]. cbn [rbind] in H. destruct (gaussian_new gs ge (Z.to_nat se)) as [gf|]; [|discriminate]. cbn [rbind] in H. injection H as <-. reflexivity.
Qed.
Lemma f_C82_pairs dn order w cast lattice numbers pos cutoff sn se nm gs ge ms ss mean std g0 :
  potgnn_new dn order w cast lattice numbers pos cutoff sn se nm gs ge ms ss mean std = Ok g0 ->
  (forall i j pi pj, nth_error pos i = Some pi -> nth_error pos j = Some pj -> i <> j -> vall (fun x => ~ congr1 x (/ 2)) (vsub (vmap cast pj) (vmap cast pi))) ->
  Nat.Even (List.length (g_ref_edges g0)).
Proof.
  intros H HH. rewrite (new_edges _ _ _ _ _ _ _ _ _ _ _ _ _ _ _ _ _ _ H).
  assert (F : Forall (fun p : list V3 => List.length p = List.length pos) [map (vmap cast) pos]) by (constructor; [apply map_length|constructor]).
  apply paired_even; [apply f_C70_order; reflexivity|]. intros s a b Hi. split.
  - refine (f_C70_symmetric [cast_m cast lattice] (List.length pos) [map (vmap cast) pos] cutoff eq_refl F _ s a b Hi). intros s' p i j pi pj Ep Ei Ej N. destruct s' as [|s']; [|destruct s'; discriminate]. injection Ep as <-.
    rewrite nth_error_map in Ei, Ej. destruct (nth_error pos i) as [qi|] eqn:Qi; [|discriminate]. destruct (nth_error pos j) as [qj|] eqn:Qj; [|discriminate]. injection Ei as <-. injection Ej as <-. eauto.
  - apply (f_C70_edges [cast_m cast lattice] (List.length pos) [map (vmap cast) pos] cutoff eq_refl F) in Hi. destruct Hi as (L & p & i & j & v & _ & _ & -> & -> & N & _). lia.
Qed.

(** ** A cell with exactly one bond *)
Lemma skew_in : In (0, 1, 0)%nat (fst (fst (radius_graph_pbc [skew] 2 [skew_pos] 1))).
Proof.
  apply f_C70_edges; [reflexivity|constructor; [reflexivity|constructor]|].
  exists skew, skew_pos, 1%nat, 0%nat, (vmul (mkV (/ 2) (- / 4) 0) skew). repeat split; try reflexivity; try discriminate.
  - exists (mkV (/ 2) (/ 4) 0), (mkV 0 0 0), (mkV (/ 2) (- / 4) 0). split; [reflexivity|]. split; [reflexivity|]. split; [|reflexivity].
    split; [|split]; cbn; [apply (half_img1 _ _ (-1)); lra|apply half_img; lra|apply half_img; lra].
  - unfold vnorm. rewrite <- sqrt_1. apply sqrt_le_1_alt. unfold vnorm2, skew. vunf. cbn [vx vy vz r0 r1 r2]. lra.
Qed.
Lemma skew_only s a b : In (s, a, b) (fst (fst (radius_graph_pbc [skew] 2 [skew_pos] 1))) -> (s, a, b) = (0, 1, 0)%nat.
Proof.
  intros H. apply f_C70_edges in H; [|reflexivity|constructor; [reflexivity|constructor]]. destruct H as (L & p & i & j & v & EL & EP & -> & -> & N & Hv & HC).
  destruct s as [|s]; [|destruct s; discriminate]. injection EL as <-. injection EP as <-. pose proof Hv as (pi & pj & d & Ei & Ej & _).
  assert (Hi : (i < 2)%nat) by (change 2%nat with (List.length skew_pos); apply nth_error_Some; congruence).
  assert (Hj : (j < 2)%nat) by (change 2%nat with (List.length skew_pos); apply nth_error_Some; congruence).
  destruct (Nat.eq_dec i 1) as [-> | Ni]; [replace j with 0%nat by lia; reflexivity|]. assert (i = 0%nat) as -> by lia. assert (j = 1%nat) as -> by lia. exfalso.
  apply half_vector_eq in Hv. subst v. cbn [nth skew_pos] in HC.
  replace (vmap wrapd (vsub (mkV (/ 2) (/ 4) 0) (mkV 0 0 0))) with (mkV (/ 2) (/ 4) 0) in HC.
  - assert (H : vnorm2 (vmul (mkV (/ 2) (/ 4) 0) skew) <= 1).
    { rewrite <- norm_sq. pose proof (sqrt_pos (vnorm2 (vmul (mkV (/ 2) (/ 4) 0) skew))) as Q. fold (vnorm (vmul (mkV (/ 2) (/ 4) 0) skew)) in Q. nra. }
    unfold vnorm2, skew in H. revert H. vunf. cbn [vx vy vz r0 r1 r2]. lra.
  - apply V3_eq; cbn; apply wrapd_unique, half_img; lra.
Qed.
Lemma skew_one : fst (fst (radius_graph_pbc [skew] 2 [skew_pos] 1)) = [(0, 1, 0)]%nat.
Proof.
  pose proof skew_in as HI. pose proof skew_only as HO. destruct (f_C70_order [skew] 2 [skew_pos] 1 eq_refl) as [_ HN].
  destruct (fst (fst (radius_graph_pbc [skew] 2 [skew_pos] 1))) as [|[[s a] b] l]; [destruct HI|]. rewrite (HO s a b (or_introl eq_refl)) in *.
  destruct l as [|[[s' a'] b'] l]; [reflexivity|]. exfalso. rewrite (HO s' a' b' (or_intror (or_introl eq_refl))) in HN. inversion HN as [|? ? X _]. apply X. left. reflexivity.
Qed.
Definition skew_net : res potgnn :=
  potgnn_new ex_dimenet [1; 8]%Z ex_weights (fun x => x) skew [1; 8]%Z skew_pos 1 5 4 2 0 5 [3; 3]%nat [3; 3]%nat m0 mI.
Lemma skew_built : exists g0, skew_net = Ok g0 /\ built skew [1; 8]%Z g0 /\ List.length (g_ref_edges g0) = 1%nat.
Proof.
  destruct skew_net as [g0|er] eqn:E.
  - exists g0. split; [reflexivity|]. pose proof (new_edges _ _ _ _ _ _ _ _ _ _ _ _ _ _ _ _ _ _ E) as EE. rewrite cast_m_id, map_vmap_id in EE. change (List.length skew_pos) with 2%nat in EE. rewrite skew_one in EE.
    split; [|rewrite EE; reflexivity].
    exists ex_dimenet, [1; 8]%Z, ex_weights, (fun x => x), skew_pos, 1, 5%Z, 4%Z, 2%Z, 0, 5, [3; 3]%nat, [3; 3]%nat, m0, mI. split; [exact E|]. split; [reflexivity|]. split.
    + split; [repeat constructor; cbn; intuition discriminate|]. intros z. cbn. intuition.
    + split; [reflexivity|]. rewrite EE. change (List.length [(0, 1, 0)%nat]) with (List.length (map (fun '((_, i, j) : edge) => (i, j)) [(0, 1, 0)%nat])). apply ex_dimenet_ok. repeat constructor.
  - exfalso. unfold skew_net, potgnn_new in E. rewrite (proj2 (Rleb_false 1 0)) in E by lra. cbn [Z.leb Z.compare] in E. rewrite (proj2 (Rltb_false 0 0)) in E by lra. rewrite (proj2 (Rleb_false 5 0)) in E by lra.
    change (verify_ndarray_shape [3; 3]%nat [Some 3%nat; Some 3%nat]) with (@Ok unit tt) in E. cbn [rbind] in E. destruct (radius_graph_pbc _ _ _ _) as [[a b] c].
    assert (AT : exists tm, assign_types [1; 8]%Z 0 (repeat (-1)%Z 119) = Ok tm) by (eexists; vm_compute; reflexivity). destruct AT as [tm AT]. rewrite AT in E. cbn [rbind] in E.
    change (Z.to_nat 4) with 4%nat in E. unfold gaussian_new, linspace in E. cbn [seq map rbind] in E. discriminate.
Qed.
Definition skew_sample (t : R) : sample := mkSample skew [1; 8]%Z skew_pos [t; 0; 0; 0; 0; 0].
Lemma skew_goes l : goes_with [1; 8]%Z skew (map skew_sample l).
Proof. unfold goes_with. apply Forall_map, Forall_forall. intros t _. repeat split. Qed.
(** Three samples in batches of two leave one alone. *)
Lemma ex_C82_single : exists g0, built skew [1; 8]%Z g0 /\ history g0 (tr_model (ex_trainer g0)) /\ List.length (g_ref_edges g0) = 1%nat /\ single_sample_batch 3 2 /\
  goes_with [1; 8]%Z skew (map skew_sample [1; 2; 3]) /\
  exists st', train_single_epoch ex_env (fun l => l) (ex_trainer g0) (map skew_sample [1; 2; 3]) (map skew_sample [4; 5]) 2 = (st', Err ValueError).
Proof.
  destruct skew_built as (g0 & _ & HB & H1). exists g0. split; [exact HB|]. split; [constructor|]. split; [exact H1|]. split; [right; reflexivity|]. split; [apply skew_goes|].
  apply (f_C82_single ex_env (fun l => l) skew [1; 8]%Z g0 (ex_trainer g0) (map skew_sample [1; 2; 3]) (map skew_sample [4; 5]) 2 HB (h_new g0) ex_keeps (fun l => Permutation_refl l) (fun _ _ => eq_refl) skew skew); try discriminate; try reflexivity; try apply skew_goes; [exact H1|right; reflexivity].
Qed.
Lemma f_C82_succeeds_refuted : ~ (forall O (e : env O) shuffle lattice numbers g0 st tset vset bs,
  built lattice numbers g0 -> history g0 (tr_model st) -> keeps_sizes e -> (forall l, Permutation (shuffle l) l) ->
  (forall g b, List.length (e_gradient e g b) = List.length (tr_grad st)) ->
  forall L L', goes_with numbers L tset -> goes_with numbers L' vset -> tset <> [] -> vset <> [] -> (0 < bs)%Z ->
  exists st' v, train_single_epoch e shuffle st tset vset bs = (st', Ok v)).
Proof.
  intros H. destruct ex_C82_single as (g0 & HB & HH & _ & _ & HG & st' & E).
  destruct (H nat ex_env (fun l => l) skew [1; 8]%Z g0 (ex_trainer g0) (map skew_sample [1; 2; 3]) (map skew_sample [4; 5]) 2%Z HB HH ex_keeps (fun l => Permutation_refl l) (fun _ _ => eq_refl) skew skew HG (skew_goes _)) as (s & v & E'); try discriminate; try reflexivity.
  rewrite E in E'. discriminate.
Qed.
(** The example's structure has pairs of bonds. *)
Lemma ex_C82_pairs : exists g0, ex_net ex_weights = Ok g0 /\ g_ref_edges g0 <> [] /\
  (forall i j pi pj, nth_error ex_positions i = Some pi -> nth_error ex_positions j = Some pj -> i <> j -> vall (fun x => ~ congr1 x (/ 2)) (vsub (vmap (fun x => x) pj) (vmap (fun x => x) pi))).
Proof.
  destruct (ex_built ex_weights eq_refl) as (g0 & E & _ & HI & _). exists g0. split; [exact E|]. split; [intros F; rewrite F in HI; destruct HI|].
  intros i j pi pj Hi Hj N. destruct ex_C70 as (_ & _ & _ & H). apply (H 0%nat _ i j _ _ eq_refl); [| |exact N]; rewrite nth_error_map; [rewrite Hi|rewrite Hj]; reflexivity.
Qed.
