(** Concrete cases for the PyTorch utilities, the graph neural network and line ends. *)
From Coq Require Import String ZArith NArith Reals Bool Arith List Lia Lra.
From Verif Require Import Base LinAlg M_Validate M_StructUtils S_Lattice P_StructUtils M_Torch S_Torch P_Torch P_Torch2 M_Gnn S_Gnn P_Gnn P_Gnn2 P_Gnn3 P_Gnn4.
Import ListNotations.
Local Open Scope R_scope.

(** ** An implementation of torch_geometric's triplets *)
Definition ex_pairs (edges : list (nat * nat)) : list (nat * nat * nat * nat * nat) :=
  flat_map (fun a => flat_map (fun b =>
    match nth_error edges a, nth_error edges b with
    | Some (j, i), Some (k, j') => if (Nat.eqb j j' && negb (Nat.eqb k i))%bool then [(i, j, k, b, a)] else []
    | _, _ => [] end) (seq 0 (List.length edges))) (seq 0 (List.length edges)).
Definition ex_dimenet (edges : list (nat * nat)) (n : nat) : triplets :=
  let q := ex_pairs edges in
  mkTriplets (map snd edges) (map fst edges) (map (fun '(i, _, _, _, _) => i) q) (map (fun '(_, j, _, _, _) => j) q)
    (map (fun '(_, _, k, _, _) => k) q) (map (fun '(_, _, _, b, _) => b) q) (map (fun '(_, _, _, _, a) => a) q).
Lemma ex_pairs_in edges i j k b a : In (i, j, k, b, a) (ex_pairs edges) -> nth_error edges a = Some (j, i) /\ nth_error edges b = Some (k, j).
Proof.
  intros H. apply in_flat_map in H. destruct H as (a' & _ & H). apply in_flat_map in H. destruct H as (b' & _ & H).
  destruct (nth_error edges a') as [[j0 i0]|] eqn:Ea; [|destruct H]. destruct (nth_error edges b') as [[k0 j1]|] eqn:Eb; [|destruct H].
  destruct (Nat.eqb_spec j0 j1) as [<- | ]; [|destruct H]. destruct (negb (Nat.eqb k0 i0)); [|destruct H]. destruct H as [H | []]. injection H as <- <- <- <- <-. split; assumption.
Qed.
Lemma ex_dimenet_ok edges n : Forall (fun '(a, b) => a < n /\ b < n)%nat edges -> triplets_for n (List.length edges) (ex_dimenet edges n).
Proof.
  intros H. rewrite Forall_forall in H. unfold triplets_for, ex_dimenet. cbn [t_i t_j t_index_i t_index_j t_index_k t_index_ji t_index_kj]. rewrite !map_length. split; [reflexivity|]. split; [reflexivity|].
  split; [exists (List.length (ex_pairs edges)); repeat split|].
  assert (HP : forall i j k b a, In (i, j, k, b, a) (ex_pairs edges) -> (i < n /\ j < n /\ k < n /\ b < List.length edges /\ a < List.length edges)%nat).
  { intros i j k b a Hin. apply ex_pairs_in in Hin. destruct Hin as [Ha Hb]. pose proof (H _ (nth_error_In _ _ Ha)) as X. pose proof (H _ (nth_error_In _ _ Hb)) as Y. cbn in X, Y.
    assert (a < List.length edges)%nat by (apply nth_error_Some; congruence). assert (b < List.length edges)%nat by (apply nth_error_Some; congruence). lia. }
  split; rewrite !Forall_app; repeat split; apply Forall_map, Forall_forall.
  - intros [a b] Hin. apply H in Hin. cbn. lia.
  - intros [a b] Hin. apply H in Hin. cbn. lia.
  - intros [[[[i j] k] b] a] Hin. apply HP in Hin. lia.
  - intros [[[[i j] k] b] a] Hin. apply HP in Hin. lia.
  - intros [[[[i j] k] b] a] Hin. apply HP in Hin. lia.
  - intros [[[[i j] k] b] a] Hin. apply HP in Hin. lia.
  - intros [[[[i j] k] b] a] Hin. apply HP in Hin. lia.
Qed.

(** ** C67 *)
Lemma ex_C67 : exists bs, batch_positions [5; 2; 3]%nat [11; 12; 13; 14; 15]%nat 2 = Ok bs /\ bs = [[11; 12]; [13; 14]; [15]]%nat.
Proof. eexists. split; reflexivity. Qed.

(** ** C68, C69: four edges of a three-atom graph *)
Definition ex_edges : list edge := [(0, 0, 1); (0, 0, 2); (0, 1, 0); (0, 2, 0)]%nat.
Lemma ex_C68 : triplets_for 3 (List.length ex_edges) (ex_dimenet (map (fun '(_, i, j) => (i, j)) ex_edges) 3) /\
  snd (get_triplets (after_calls (batch_triplets_new ex_dimenet 3 ex_edges) [3; 1]%Z) 2) =
  Ok (mkTriplets [1; 2; 0; 0; 4; 5; 3; 3] [0; 0; 1; 2; 3; 3; 4; 5] [1; 2; 4; 5] [0; 0; 3; 3] [2; 1; 5; 4] [3; 2; 7; 6] [0; 1; 4; 5])%nat.
Proof. split; [apply ex_dimenet_ok; repeat constructor|reflexivity]. Qed.

(** ** C71 *)
Lemma ex_C71 : mkV 0 3 4 <> v0 /\ ~ opposite_to_x (mkV 0 3 4) /\ opposite_to_x (mkV (-2) 0 0).
Proof. split; [intros H; injection H; lra|]. split; [intros (_ & H & _); cbn in H; lra|]. repeat split; cbn; lra. Qed.

(** ** A network *)
Definition ex_lattice : M3 := mI.
Definition ex_numbers : list Z := [8; 1; 1]%Z.
Definition ex_positions : list V3 := [mkV 0 0 0; mkV (/4) 0 0; mkV 0 (/4) 0].
Definition ex_net (w : weights) : res potgnn :=
  potgnn_new ex_dimenet [1; 8]%Z w (fun x => x) ex_lattice ex_numbers ex_positions (3/10) 5 4 2 0 5 [3; 3]%nat [3; 3]%nat m0 mI.
Lemma ex_image x : - / 2 < x <= / 2 -> half_image x x.
Proof. intros H. split; [exists 0%Z; lra|exact H]. Qed.
Lemma ex_edge_in : In (0, 0, 1)%nat (fst (fst (radius_graph_pbc [cast_m (fun x => x) ex_lattice] 3 [map (vmap (fun x => x)) ex_positions] (3/10)))).
Proof.
  apply f_C70_edges; [reflexivity|constructor; [reflexivity|constructor]|]. exists ex_lattice, ex_positions, 0%nat, 1%nat, (mkV (/4) 0 0).
  split; [unfold ex_lattice; rewrite cast_m_id; reflexivity|]. split; [rewrite map_vmap_id; reflexivity|]. split; [reflexivity|]. split; [reflexivity|]. split; [discriminate|]. split.
  - exists (mkV 0 0 0), (mkV (/4) 0 0), (mkV (/4) 0 0). split; [reflexivity|]. split; [reflexivity|]. split; [|unfold ex_lattice; rewrite vmul_mI; reflexivity].
    unfold vall2, vsub. cbn [vx vy vz]. repeat split; try lra; exists 0%Z; lra.
  - unfold vnorm, vnorm2, vdot. cbn [vx vy vz]. replace (/ 4 * / 4 + 0 * 0 + 0 * 0) with (/ 4 * / 4) by ring. rewrite sqrt_square by lra. lra.
Qed.
Lemma ex_built w : List.length (w_embedding w) = 2%nat -> exists g0, ex_net w = Ok g0 /\ built ex_lattice ex_numbers g0 /\ In (0, 0, 1)%nat (g_ref_edges g0) /\ g_mean g0 = m0 /\ g_stddev g0 = mI.
Proof.
  intros Hw. destruct (ex_net w) as [g0|er] eqn:E.
  - exists g0. split; [reflexivity|]. pose proof E as E'. unfold ex_net, potgnn_new in E'.
    repeat match type of E' with (if ?c then _ else _) = _ => destruct c; [discriminate|] end. change (verify_ndarray_shape [3; 3]%nat [Some 3%nat; Some 3%nat]) with (@Ok unit tt) in E'. cbn [rbind] in E'.
    fold (cast_m (fun x => x) ex_lattice) in E'.
    pose proof (f_C70_edges [cast_m (fun x => x) ex_lattice] 3 [map (vmap (fun x => x)) ex_positions] (3/10) eq_refl ltac:(constructor; [reflexivity|constructor])) as HE.
    pose proof ex_edge_in as HI.
    change (List.length ex_positions) with 3%nat in E'. destruct (radius_graph_pbc [cast_m (fun x => x) ex_lattice] 3 [map (vmap (fun x => x)) ex_positions] (3/10)) as [[es us] ds] eqn:ER. cbn [fst] in HE, HI.
    cbn [rbind] in E'. destruct (assign_types _ _ _) as [tm|]; [|discriminate]. cbn [rbind] in E'. destruct (gaussian_new _ _ _) as [gf|]; [|discriminate]. cbn [rbind] in E'. injection E' as E'.
    assert (EE : g_ref_edges g0 = es) by (rewrite <- E'; reflexivity).
    split; [|rewrite <- E'; split; [exact HI|split; reflexivity]].
    exists ex_dimenet, [1; 8]%Z, w, (fun x => x), ex_positions, (3/10), 5%Z, 4%Z, 2%Z, 0, 5, [3; 3]%nat, [3; 3]%nat, m0, mI. split; [exact E|]. split; [reflexivity|]. split.
    + split; [repeat constructor; cbn; intuition discriminate|]. intros z. unfold ex_numbers. cbn. intuition.
    + split; [exact Hw|]. rewrite EE. replace (List.length es) with (List.length (map (fun '((_, i, j) : edge) => (i, j)) es)) by apply map_length. apply ex_dimenet_ok. apply Forall_map, Forall_forall. intros [[s a] b] Hin. apply HE in Hin.
      destruct Hin as (L & p & i & j & v & EL & EP & -> & -> & N & (pi & pj & d & Ei & Ej & _) & _). destruct s as [|s]; [|destruct s; discriminate]. cbn in EP. injection EP as <-.
      assert (i < 3)%nat by (change 3%nat with (List.length (map (vmap (fun x => x)) ex_positions)); apply nth_error_Some; unfold ex_positions; cbn; congruence).
      assert (j < 3)%nat by (change 3%nat with (List.length (map (vmap (fun x => x)) ex_positions)); apply nth_error_Some; unfold ex_positions; cbn; congruence). cbn. lia.
  - exfalso. unfold ex_net, potgnn_new in E. rewrite (proj2 (Rleb_false (3/10) 0)) in E by lra. cbn [Z.leb Z.compare] in E. rewrite (proj2 (Rltb_false 0 0)) in E by lra. rewrite (proj2 (Rleb_false 5 0)) in E by lra.
    change (verify_ndarray_shape [3; 3]%nat [Some 3%nat; Some 3%nat]) with (@Ok unit tt) in E. cbn [rbind] in E. destruct (radius_graph_pbc _ _ _ _) as [[a b] c].
    assert (AT : exists tm, assign_types [1; 8]%Z 0 (repeat (-1)%Z 119) = Ok tm) by (eexists; vm_compute; reflexivity). destruct AT as [tm AT]. rewrite AT in E. cbn [rbind] in E.
    change (Z.to_nat 4) with 4%nat in E. unfold gaussian_new, linspace in E. cbn [seq map rbind] in E. discriminate.
Qed.
Definition ex_weights : weights :=
  mkWeights [[1; 2]; [3; 4]] (mkLinear [[1; 0]] [0]) (mkLinear [[1]] [1]) [] [] (mkLinear [[1; 1]] [0]) (mkBN [0] [1] [1] [0]) (mkLinear [[1]] [0]) (mkLinear [[1]] [0]).
(** A sample displaced from the reference structure and one in which two bonded atoms coincide *)
Definition ex_good : list V3 := [mkV (/8) 0 0; mkV (/4) 0 0; mkV 0 (/4) (/8)].
Definition ex_bad : list V3 := [mkV (/4) 0 0; mkV (5/4) 0 0; mkV 0 (/4) 0].
Lemma ex_apart : apart (fun x => x) 3 ex_good.
Proof.
  split; [reflexivity|]. assert (NC : forall x, -1 < x < 1 -> x <> 0 -> forall k : Z, x <> IZR k). { intros x H N k ->. apply N. destruct H as [H1 H2]. apply lt_IZR in H1, H2. f_equal. lia. }
  intros i j pi pj N Hi Hj (H1 & H2 & H3). destruct H1 as [k1 H1], H2 as [k2 H2], H3 as [k3 H3].
  destruct i as [|[|[|i]]], j as [|[|[|j]]]; try (exfalso; apply N; reflexivity); try (destruct i; discriminate); try (destruct j; discriminate);
    cbn in Hi, Hj; injection Hi as <-; injection Hj as <-; cbn [vmap vx vy vz] in *.
  - apply (NC (/8 - /4)) with k1; lra.
  - apply (NC (0 - /4)) with k2; lra.
  - apply (NC (/4 - /8)) with k1; lra.
  - apply (NC (0 - /4)) with k2; lra.
  - apply (NC (/4 - 0)) with k2; lra.
  - apply (NC (/4 - 0)) with k2; lra.
Qed.
Lemma ex_collapsed g : In (0, 0, 1)%nat (g_ref_edges g) -> collapsed (fun x => x) g ex_bad.
Proof.
  intros H. exists 0%nat, 0%nat, 1%nat, (mkV (/4) 0 0), (mkV (5/4) 0 0). split; [exact H|]. split; [reflexivity|]. split; [reflexivity|]. unfold vcongr, vall2. cbn [vmap vx vy vz].
  split; [exists (-1)%Z; lra|]. split; exists 0%Z; lra.
Qed.
Lemma ex_det : mdet (cast_m (fun x => x) ex_lattice) <> 0.
Proof. rewrite cast_m_id. unfold ex_lattice, mdet, mI, vdot, vcross. cbn [r0 r1 r2 vx vy vz]. lra. Qed.
Lemma ex_C72 : exists g0 g, built ex_lattice ex_numbers g0 /\ history g0 g /\ used g (set_mode (fst (calc_polarizabilities (fun x => x) g [2; 3; 3]%nat [ex_good; ex_bad])) true) /\
  mdet (cast_m (fun x => x) ex_lattice) <> 0 /\ Forall (apart (fun x => x) (List.length ex_numbers)) [ex_good; ex_good] /\ g_ref_edges g0 <> [] /\ collapsed (fun x => x) g0 ex_bad /\
  symmetric3 (g_mean g0) /\ symmetric3 (g_stddev g0) /\ moved_sample ex_good (map (vadd (mkV 1 (/3) 0)) ex_good).
Proof.
  destruct (ex_built ex_weights eq_refl) as (g0 & E & HB & HI & HM & HS). exists g0, (with_weights g0 ex_weights false). split; [exact HB|]. split.
  - apply h_weights; [apply h_new|]. assert (HE : g_embedding g0 = w_embedding ex_weights); [|rewrite HE; reflexivity].
    unfold ex_net, potgnn_new in E. repeat match type of E with (if ?c then _ else _) = _ => destruct c; [discriminate|] end. change (verify_ndarray_shape [3; 3]%nat [Some 3%nat; Some 3%nat]) with (@Ok unit tt) in E. cbn [rbind] in E.
    destruct (radius_graph_pbc _ _ _ _) as [[a b] c]. destruct (assign_types _ _ _); [|discriminate]. cbn [rbind] in E. destruct (gaussian_new _ _ _); [|discriminate]. cbn [rbind] in E. injection E as <-. reflexivity.
  - split; [apply u_mode, u_calc, u_start|]. split; [exact ex_det|]. split; [repeat constructor; apply ex_apart|]. split; [intros F; rewrite F in HI; destruct HI|]. split; [apply ex_collapsed, HI|].
    rewrite HM, HS. split; [reflexivity|]. split; [reflexivity|]. exists (mkV 1 (/3) 0). unfold ex_good. cbn [map].
    assert (C : forall a b, a = b -> congr1 a b) by (intros a b ->; exists 0%Z; lra).
    repeat constructor; apply C; cbn; ring.
Qed.
(** One sample's missing direction leaks into the others of the sub-batch. *)
Lemma f_C72_independent_refuted : ~ (forall lattice numbers g0 cast ps k p rs, built lattice numbers g0 -> mdet (cast_m cast lattice) <> 0 ->
  snd (calc_polarizabilities cast g0 [List.length ps; List.length numbers; 3%nat] ps) = Ok rs -> nth_error ps k = Some p -> apart cast (List.length numbers) p ->
  exists r, nth_error rs k = Some r /\ snd (calc_polarizabilities cast g0 [1; List.length numbers; 3]%nat [p]) = Ok [r]).
Proof.
  intros H. destruct (ex_built ex_weights eq_refl) as (g0 & E & HB & HI & HM & HS).
  destruct (f_C72_spoiled _ _ g0 g0 (fun x => x) [ex_good; ex_bad] HB (h_new g0)) as (rs & Hrs & _ & Hbad).
  destruct (H _ _ g0 (fun x => x) [ex_good; ex_bad] 0%nat ex_good rs HB ex_det Hrs eq_refl ex_apart) as (r & Hr & H1).
  rewrite (Hbad 0%nat 1%nat ex_bad eq_refl (ex_collapsed g0 HI) ltac:(cbn; lia) eq_refl) in Hr. injection Hr as <-.
  destruct (f_C72 _ _ g0 g0 (fun x => x) [ex_good] HB (h_new g0) ex_det ltac:(constructor; [apply ex_apart|constructor])) as (rs1 & Hrs1 & Hl & Hk). change (List.length [ex_good]) with 1%nat in Hrs1. rewrite H1 in Hrs1. injection Hrs1 as <-.
  destruct (Hk 0%nat ex_good None eq_refl eq_refl) as [_ HF]. apply HF; [intros F; rewrite F in HI; destruct HI|reflexivity].
Qed.
(** ** C70 *)
Lemma ex_C70 : List.length [map (vmap (fun x => x)) ex_positions] = List.length [cast_m (fun x => x) ex_lattice] /\ Forall (fun p => List.length p = 3%nat) [map (vmap (fun x => x)) ex_positions] /\
  In (0, 0, 1)%nat (fst (fst (radius_graph_pbc [cast_m (fun x => x) ex_lattice] 3 [map (vmap (fun x => x)) ex_positions] (3/10)))) /\
  (forall s p i j pi pj, nth_error [map (vmap (fun x => x)) ex_positions] s = Some p -> nth_error p i = Some pi -> nth_error p j = Some pj -> i <> j ->
    vall (fun x => ~ congr1 x (/ 2)) (vsub pj pi)).
Proof.
  split; [reflexivity|]. split; [constructor; [reflexivity|constructor]|]. split; [exact ex_edge_in|].
  assert (NC : forall x, -1/2 < x < /2 -> ~ congr1 x (/2)). { intros x H [k K]. assert (H1 : -1 < IZR k < 0) by lra. destruct H1 as [H1 H2]. apply lt_IZR in H1, H2. lia. }
  intros [|s] p i j pi pj Hp Hi Hj N; [|destruct s; discriminate]. rewrite map_vmap_id in Hp. injection Hp as <-.
  destruct i as [|[|[|i]]], j as [|[|[|j]]]; try (exfalso; apply N; reflexivity); try (destruct i; discriminate); try (destruct j; discriminate);
    cbn in Hi, Hj; injection Hi as <-; injection Hj as <-; unfold vall, vsub; cbn [vx vy vz]; repeat split; apply NC; lra.
Qed.
