(** Proofs about the radius graph *)
From Coq Require Import ZArith Reals Bool Arith List Lia Lra Sorted.
From Verif Require Import Base LinAlg M_Validate M_StructUtils S_Lattice P_StructUtils M_Torch S_Torch P_Torch.
Import ListNotations.
Local Open Scope R_scope.

Lemma sorted_app {A} (R : A -> A -> Prop) l m : StronglySorted R l -> StronglySorted R m -> (forall a b, In a l -> In b m -> R a b) -> StronglySorted R (l ++ m).
Proof.
  induction l as [|a l IH]; intros H1 H2 H; cbn; [exact H2|]. inversion H1 as [|? ? S F]; subst. constructor.
  - apply IH; [exact S|exact H2|]. intros; apply H; [right|]; assumption.
  - apply Forall_app. split; [exact F|]. apply Forall_forall. intros b Hb. apply H; [left; reflexivity|exact Hb].
Qed.
Lemma sorted_map {A B} (R : A -> A -> Prop) (S : B -> B -> Prop) f l : (forall a b, In a l -> In b l -> R a b -> S (f a) (f b)) -> StronglySorted R l -> StronglySorted S (map f l).
Proof.
  induction l as [|a l IH]; intros H HS; cbn; [constructor|]. inversion HS as [|? ? S' F]; subst. constructor.
  - apply IH; [|exact S']. intros; apply H; try right; assumption.
  - rewrite Forall_forall in F |- *. intros b Hb. apply in_map_iff in Hb. destruct Hb as (c & <- & Hc). apply H; [left; reflexivity|right; exact Hc|]. apply F, Hc.
Qed.
Lemma sorted_filter {A} (R : A -> A -> Prop) f l : StronglySorted R l -> StronglySorted R (filter f l).
Proof.
  induction l as [|a l IH]; intros HS; cbn; [constructor|]. inversion HS as [|? ? S' F]; subst. destruct (f a); [|apply IH, S'].
  constructor; [apply IH, S'|]. rewrite Forall_forall in F |- *. intros b Hb. apply filter_In in Hb. apply F, Hb.
Qed.
Lemma sorted_seq s n : StronglySorted lt (seq s n).
Proof. revert s. induction n as [|n IH]; intros s; cbn; constructor; [apply IH|]. apply Forall_forall. intros x H. apply in_seq in H. lia. Qed.
Lemma sorted_flat_map {A B} (R : A -> A -> Prop) (S : B -> B -> Prop) (f : A -> list B) l :
  (forall a, In a l -> StronglySorted S (f a)) -> (forall a b x y, R a b -> In x (f a) -> In y (f b) -> S x y) -> StronglySorted R l -> StronglySorted S (flat_map f l).
Proof.
  induction l as [|a l IH]; intros H1 H2 HS; cbn; [constructor|]. inversion HS as [|? ? S' F]; subst. apply sorted_app.
  - apply H1. left. reflexivity.
  - apply IH; [intros; apply H1; right; assumption|exact H2|exact S'].
  - intros x y Hx Hy. apply in_flat_map in Hy. destruct Hy as (b & Hb & Hy). rewrite Forall_forall in F. eapply H2; [apply F, Hb|exact Hx|exact Hy].
Qed.

Section Graph.
Context (lattice : list M3) (n : nat) (positions : list (list V3)) (cutoff : R).
Definition plain_edges : list edge := flat_map (fun s => flat_map (fun i => map (fun j => (s, i, j))
      (filter (fun j => Rleb (cart_distance lattice positions s i j) cutoff && negb (Nat.eqb i j)) (seq 0 n))) (seq 0 n)) (seq 0 (List.length lattice)).
Definition shift_edge : edge -> edge := fun '(s, i, j) => (s, (i + s * n)%nat, (j + s * n)%nat).
Lemma graph_eq : radius_graph_pbc lattice n positions cutoff =
  (map shift_edge plain_edges, map (fun '(s, i, j) => normalized (cart_displacement lattice positions s i j)) plain_edges, map (fun '(s, i, j) => cart_distance lattice positions s i j) plain_edges).
Proof. reflexivity. Qed.
Lemma plain_sorted : StronglySorted edge_before plain_edges.
Proof.
  unfold plain_edges. apply (sorted_flat_map lt); [|intros a b x y H Hx Hy|apply sorted_seq].
  - intros s _. apply (sorted_flat_map lt); [|intros a b x y H Hx Hy|apply sorted_seq].
    + intros i _. apply (sorted_map lt); [|apply sorted_filter, sorted_seq]. intros a b _ _ H. cbn. lia.
    + apply in_map_iff in Hx, Hy. destruct Hx as (? & <- & _), Hy as (? & <- & _). cbn. lia.
  - apply in_flat_map in Hx, Hy. destruct Hx as (? & _ & Hx), Hy as (? & _ & Hy). apply in_map_iff in Hx, Hy. destruct Hx as (? & <- & _), Hy as (? & <- & _). cbn. lia.
Qed.
Context (Hlen : List.length positions = List.length lattice) (Hpos : Forall (fun p => List.length p = n) positions).
Lemma plain_in s i j : In (s, i, j) plain_edges <->
  exists L p v, nth_error lattice s = Some L /\ nth_error positions s = Some p /\ i <> j /\ half_cell_vector L p i j v /\ vnorm v <= cutoff.
Proof.
  unfold plain_edges. rewrite in_edges. split.
  - intros (Hs & Hi & Hj & N & H). destruct (nth_error lattice s) as [L|] eqn:EL; [|apply nth_error_None in EL; lia].
    destruct (nth_error positions s) as [p|] eqn:EP; [|apply nth_error_None in EP; lia].
    assert (Lp : List.length p = n) by (rewrite Forall_forall in Hpos; apply Hpos; eapply nth_error_In; exact EP).
    exists L, p, (vmul (vmap wrapd (vsub (nth j p v0) (nth i p v0))) L). split; [reflexivity|]. split; [reflexivity|]. split; [exact N|].
    split; [apply half_vector_exists; lia|]. rewrite distance_norm in H. unfold cart_displacement in H. rewrite (nth_error_nth _ _ _ EL), (nth_error_nth _ _ _ EP) in H. exact H.
  - intros (L & p & v & EL & EP & N & Hv & H). assert (Lp : List.length p = n) by (rewrite Forall_forall in Hpos; apply Hpos; eapply nth_error_In; exact EP).
    pose proof (half_vector_eq _ _ _ _ _ Hv) as Ev. destruct Hv as (a & b & _ & Ha & Hb & _).
    assert (i < List.length p)%nat by (apply nth_error_Some; congruence). assert (j < List.length p)%nat by (apply nth_error_Some; congruence).
    split; [apply nth_error_Some; congruence|]. split; [lia|]. split; [lia|]. split; [exact N|]. rewrite distance_norm. unfold cart_displacement.
    rewrite (nth_error_nth _ _ _ EL), (nth_error_nth _ _ _ EP). rewrite <- Ev. exact H.
Qed.
Lemma shift_inj s i j s' i' j' : shift_edge (s, i, j) = (s', i', j') -> s = s' /\ i' = (i + s * n)%nat /\ j' = (j + s * n)%nat.
Proof. cbn. intros H. injection H as -> <- <-. auto. Qed.
Lemma f_C70_edges s a b : In (s, a, b) (fst (fst (radius_graph_pbc lattice n positions cutoff))) <->
  exists L p i j v, nth_error lattice s = Some L /\ nth_error positions s = Some p /\ a = (s * n + i)%nat /\ b = (s * n + j)%nat /\ i <> j /\
    half_cell_vector L p i j v /\ vnorm v <= cutoff.
Proof.
  rewrite graph_eq. cbn [fst]. rewrite in_map_iff. split.
  - intros ([[s' i] j] & E & H). apply shift_inj in E. destruct E as (-> & -> & ->). apply plain_in in H. destruct H as (L & p & v & H). exists L, p, i, j, v. intuition lia.
  - intros (L & p & i & j & v & H1 & H2 & -> & -> & H3 & H4 & H5). exists (s, i, j). split; [cbn; f_equal; [f_equal|]; lia|]. apply plain_in. exists L, p, v. auto.
Qed.
Lemma f_C70_order : StronglySorted edge_before (fst (fst (radius_graph_pbc lattice n positions cutoff))) /\ NoDup (fst (fst (radius_graph_pbc lattice n positions cutoff))).
Proof.
  assert (S : StronglySorted edge_before (fst (fst (radius_graph_pbc lattice n positions cutoff)))).
  { rewrite graph_eq. cbn [fst]. apply (sorted_map edge_before); [|exact plain_sorted]. intros [[s i] j] [[s' i'] j'] _ _ H. cbn in *. destruct H as [H | (-> & H)]; [left; exact H|right; split; [reflexivity|lia]]. }
  split; [exact S|]. induction S as [|x l S IH F]; constructor; [|exact IH]. intros H. rewrite Forall_forall in F. specialize (F _ H). destruct x as [[s i] j]. cbn in F. lia.
Qed.
Lemma f_C70_attributes k s a b : let '(es, us, ds) := radius_graph_pbc lattice n positions cutoff in
  List.length us = List.length es /\ List.length ds = List.length es /\
  (nth_error es k = Some (s, a, b) ->
   exists L p i j v, nth_error lattice s = Some L /\ nth_error positions s = Some p /\ a = (s * n + i)%nat /\ b = (s * n + j)%nat /\
    half_cell_vector L p i j v /\ nth_error ds k = Some (vnorm v) /\
    exists u, nth_error us k = Some u /\ (v <> v0 -> exists w, u = Some w /\ v = vscale (vnorm v) w /\ vnorm w = 1) /\ (v = v0 -> u = None)).
Proof.
  rewrite graph_eq. rewrite !map_length. split; [reflexivity|]. split; [reflexivity|]. intros H. rewrite nth_error_map in H. destruct (nth_error plain_edges k) as [[[s' i] j]|] eqn:E; [|discriminate].
  cbn [option_map] in H. injection H as -> <- <-. pose proof (nth_error_In _ _ E) as HI. apply plain_in in HI. destruct HI as (L & p & v & EL & EP & N & Hv & _).
  exists L, p, i, j, v. split; [exact EL|]. split; [exact EP|]. split; [lia|]. split; [lia|]. split; [exact Hv|].
  assert (Ev : cart_displacement lattice positions s i j = v).
  { unfold cart_displacement. rewrite (nth_error_nth _ _ _ EL), (nth_error_nth _ _ _ EP). symmetry. apply half_vector_eq, Hv. }
  split; [rewrite <- Ev, <- distance_norm; exact (map_nth_error (fun '(s, i, j) => cart_distance lattice positions s i j) _ _ E)|].
  exists (normalized v). split; [rewrite <- Ev; exact (map_nth_error (fun '(s, i, j) => normalized (cart_displacement lattice positions s i j)) _ _ E)|]. split.
  - intros Hn. destruct (normalized_spec v Hn) as (w & E1 & E2 & E3). exists w. split; [exact E1|]. split; [exact E2|]. unfold vnorm, vnorm2. rewrite E3. apply sqrt_1.
  - intros ->. unfold normalized. destruct (Reqb (vnorm v0) 0) eqn:E0; [reflexivity|]. apply Reqb_false in E0. exfalso. apply E0, norm_zero. reflexivity.
Qed.
Lemma wrapd_opp x : ~ congr1 x (/ 2) -> wrapd (- x) = - wrapd x.
Proof.
  intros H. symmetry. apply wrapd_unique. destruct (wrapd_image x) as [C B]. split; [apply congr1_opp, C|]. split; [|lra].
  destruct (Rtotal_order (wrapd x) (/ 2)) as [L | [E | G]]; [lra| |lra]. exfalso. apply H. rewrite <- E. exact C.
Qed.
Lemma f_C70_symmetric : (forall s p i j pi pj, nth_error positions s = Some p -> nth_error p i = Some pi -> nth_error p j = Some pj -> i <> j ->
    vall (fun x => ~ congr1 x (/ 2)) (vsub pj pi)) ->
  forall s a b, In (s, a, b) (fst (fst (radius_graph_pbc lattice n positions cutoff))) -> In (s, b, a) (fst (fst (radius_graph_pbc lattice n positions cutoff))).
Proof.
  intros HH s a b H. apply f_C70_edges in H. apply f_C70_edges. destruct H as (L & p & i & j & v & EL & EP & -> & -> & N & Hv & HC).
  destruct Hv as (pi & pj & d & Ei & Ej & Hd & ->). destruct (HH s p i j pi pj EP Ei Ej N) as (X1 & X2 & X3). exists L, p, j, i, (vmul (vopp d) L).
  split; [exact EL|]. split; [exact EP|]. split; [reflexivity|]. split; [reflexivity|]. split; [congruence|]. split.
  - exists pj, pi, (vopp d). split; [exact Ej|]. split; [exact Ei|]. split; [|reflexivity].
    assert (Ed : d = vmap wrapd (vsub pj pi)) by (destruct Hd as (D1 & D2 & D3); apply V3_eq; cbn; apply wrapd_unique; assumption). subst d.
    assert (G : forall x y, ~ congr1 (y - x) (/ 2) -> half_image (x - y) (- wrapd (y - x))).
    { intros x y Hn. rewrite <- wrapd_opp by exact Hn. replace (- (y - x)) with (x - y) by ring. apply wrapd_image. }
    repeat split; cbn; apply G; assumption.
  - replace (vnorm (vmul (vopp d) L)) with (vnorm (vmul d L)); [exact HC|]. unfold vnorm. f_equal. unfold vnorm2. clear. vring.
Qed.
End Graph.

(** A skewed cell in which the wrapped displacement has a component equal to 1/2 *)
Definition skew : M3 := mkM (mkV 2 0 0) (mkV 2 2 0) (mkV 0 0 2).
Definition skew_pos : list V3 := [mkV 0 0 0; mkV (/ 2) (/ 4) 0].
Lemma half_img x r : x = r -> - / 2 < r <= / 2 -> half_image x r.
Proof. intros -> H. split; [exists 0%Z; cbn; ring|exact H]. Qed.
Lemma half_img1 x r k : x - r = IZR k -> - / 2 < r <= / 2 -> half_image x r.
Proof. intros E H. split; [exists k; exact E|exact H]. Qed.
Lemma f_C70_symmetric_refuted : ~ (forall lattice n positions cutoff s a b,
  List.length positions = List.length lattice -> Forall (fun p => List.length p = n) positions ->
  In (s, a, b) (fst (fst (radius_graph_pbc lattice n positions cutoff))) -> In (s, b, a) (fst (fst (radius_graph_pbc lattice n positions cutoff)))).
Proof.
  intros H. specialize (H [skew] 2%nat [skew_pos] 1%R 0%nat 1%nat 0%nat eq_refl (Forall_cons skew_pos (eq_refl : List.length skew_pos = 2%nat) (Forall_nil _))).
  rewrite !f_C70_edges in H by (reflexivity || (constructor; [reflexivity|constructor])).
  assert (P : exists L p i j v, nth_error [skew] 0 = Some L /\ nth_error [skew_pos] 0 = Some p /\ 1%nat = (0 * 2 + i)%nat /\ 0%nat = (0 * 2 + j)%nat /\ i <> j /\ half_cell_vector L p i j v /\ vnorm v <= 1).
  { exists skew, skew_pos, 1%nat, 0%nat, (vmul (mkV (/ 2) (- / 4) 0) skew). repeat split; try reflexivity; try discriminate.
    - exists (mkV (/ 2) (/ 4) 0), (mkV 0 0 0), (mkV (/ 2) (- / 4) 0). split; [reflexivity|]. split; [reflexivity|]. split; [|reflexivity].
      split; [|split]; cbn; [apply (half_img1 _ _ (-1)); lra|apply half_img; lra|apply half_img; lra].
    - unfold vnorm. rewrite <- sqrt_1. apply sqrt_le_1_alt. unfold vnorm2, skew. vunf. cbn [vx vy vz r0 r1 r2]. lra. }
  specialize (H P). destruct H as (L & p & i & j & v & EL & EP & Ei & Ej & N & Hv & HC). injection EL as <-. injection EP as <-. cbn in Ei, Ej. subst i j.
  apply half_vector_eq in Hv. subst v. cbn [nth skew_pos] in HC.
  replace (vmap wrapd (vsub (mkV (/ 2) (/ 4) 0) (mkV 0 0 0))) with (mkV (/ 2) (/ 4) 0) in HC.
  - assert (vnorm2 (vmul (mkV (/ 2) (/ 4) 0) skew) <= 1).
    { rewrite <- norm_sq. pose proof (sqrt_pos (vnorm2 (vmul (mkV (/ 2) (/ 4) 0) skew))) as Q. fold (vnorm (vmul (mkV (/ 2) (/ 4) 0) skew)) in Q. nra. }
    unfold vnorm2, skew in H. revert H. vunf. cbn [vx vy vz r0 r1 r2]. lra.
  - apply V3_eq; cbn; apply wrapd_unique, half_img; lra.
Qed.
