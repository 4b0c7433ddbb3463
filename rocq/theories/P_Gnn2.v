(** Predictions for a batch are the predictions for its samples *)
From Coq Require Import ZArith Reals Bool Arith List Lia Lra.
From Verif Require Import Base LinAlg M_Validate M_StructUtils S_Lattice P_StructUtils M_Torch S_Torch P_Torch P_Torch2 M_Gnn S_Gnn P_Gnn.
Import ListNotations.
Local Open Scope R_scope.

Lemma combine_concat {P A B} (f : P -> list A) (g : P -> list B) prs : Forall (fun p => List.length (f p) = List.length (g p)) prs ->
  combine (concat (map f prs)) (concat (map g prs)) = concat (map (fun p => combine (f p) (g p)) prs).
Proof.
  assert (C : forall (l1 l2 : list A) (m1 m2 : list B), List.length l1 = List.length m1 -> combine (l1 ++ l2) (m1 ++ m2) = combine l1 m1 ++ combine l2 m2).
  { induction l1 as [|a l1 IH]; intros l2 [|b m1] m2 E; try discriminate; [reflexivity|]. cbn. f_equal. apply IH. cbn in E. lia. }
  induction 1 as [|p prs H _ IH]; cbn; [reflexivity|]. rewrite C by exact H. rewrite IH. reflexivity.
Qed.
Lemma concat_repeat_map {P A} (l : list A) (prs : list P) : concat (repeat l (List.length prs)) = concat (map (fun _ => l) prs).
Proof. induction prs as [|p prs IH]; cbn; [reflexivity|]. rewrite IH. reflexivity. Qed.

(** ** Edge polarizabilities *)
Definition epv (e : vec) (u : option V3) : option vec := match get_edge_polarizability_vector e u with Ok r => r | Err _ => None end.
Lemma epv_ok e u : get_edge_polarizability_vector e u = Ok (epv e u).
Proof.
  unfold epv, get_edge_polarizability_vector. destruct (get_rotation u) as [m|] eqn:E; [|reflexivity].
  apply rotation_or_identity in E. destruct E as (_ & _ & D). destruct (minv_exists m ltac:(lra)) as [i ->]. reflexivity.
Qed.
Lemma epv_some e u : u <> v0 -> exists r, epv e (Some u) = Some r /\ List.length r = 6%nat.
Proof.
  intros H. unfold epv, get_edge_polarizability_vector. destruct (get_rotation (Some u)) as [m|] eqn:E.
  - apply rotation_or_identity in E. destruct E as (_ & _ & D). destruct (minv_exists m ltac:(lra)) as [i ->]. cbn [rbind]. eexists. split; reflexivity.
  - exfalso. unfold get_rotation in E. rewrite normalized_e1 in E. destruct (normalized_spec u H) as (b & Eb & _). rewrite Eb in E. destruct (Reqb _ 0); discriminate.
Qed.
Lemma epv_none e : epv e None = None.
Proof. reflexivity. Qed.
Lemma epv_length e u r : epv e u = Some r -> List.length r = 6%nat.
Proof.
  unfold epv, get_edge_polarizability_vector. destruct (get_rotation u) as [m|]; [|discriminate]. destruct (minv m); cbn [rbind]; [|discriminate]. intros H. injection H as <-. reflexivity.
Qed.

(** ** Means over the edges of a structure *)
Lemma all_some_app l m : all_some (l ++ m) = match all_some l, all_some m with Some a, Some b => Some (a ++ b) | _, _ => None end.
Proof. induction l as [|[v|] l IH]; cbn; [destruct (all_some m); reflexivity| |reflexivity]. rewrite IH. destruct (all_some l), (all_some m); reflexivity. Qed.
Lemma all_some_in_none l : In None l -> all_some l = None.
Proof. induction l as [|[v|] l IH]; cbn; intros H; [contradiction| |reflexivity]. destruct H as [H | H]; [discriminate|]. rewrite IH by exact H. reflexivity. Qed.
Lemma all_some_some l : Forall (fun x => x <> None) l -> exists r, all_some l = Some r.
Proof. induction 1 as [|x l H _ IH]; cbn; [eexists; reflexivity|]. destruct x as [v|]; [|contradiction]. destruct IH as [r ->]. eexists; reflexivity. Qed.
Lemma all_some_length l r : all_some l = Some r -> List.length r = List.length l.
Proof. revert r. induction l as [|[v|] l IH]; cbn; intros r H; [injection H as <-; reflexivity| |discriminate]. destruct (all_some l) as [r'|]; [|discriminate]. injection H as <-. cbn. f_equal. apply IH. reflexivity. Qed.
Lemma all_some_Forall (Q : vec -> Prop) l r : all_some l = Some r -> Forall (fun x => forall v, x = Some v -> Q v) l -> Forall Q r.
Proof.
  revert r. induction l as [|[v|] l IH]; cbn; intros r H F; [injection H as <-; constructor| |discriminate]. destruct (all_some l) as [r'|]; [|discriminate]. injection H as <-.
  inversion F; subst. constructor; [auto|]. apply IH; auto.
Qed.
Lemma all_some_blocks {P} (f : P -> list (option vec)) prs : Forall (fun p => all_some (f p) <> None) prs ->
  all_some (concat (map f prs)) = Some (concat (map (fun p => match all_some (f p) with Some r => r | None => [] end) prs)).
Proof. induction 1 as [|p prs H _ IH]; cbn; [reflexivity|]. rewrite all_some_app, IH. destruct (all_some (f p)); [reflexivity|contradiction]. Qed.

Definition scale_rows (rows : list vec) (mask : list R) : list vec := map2 (fun r m => map (fun x => x * m) r) rows mask.
Definition sum6 (rows : list vec) : vec := fold_right vplus (repeat 0 6) rows.
Lemma vplus_zero v w : List.length v = List.length w -> Forall (fun x => x = 0) v -> vplus v w = w.
Proof. revert w. induction v as [|x v IH]; intros [|y w] E F; try discriminate; [reflexivity|]. inversion F; subst. cbn. f_equal; [ring|]. apply IH; [cbn in E; lia|assumption]. Qed.
Lemma sum6_length rows : Forall (fun r => List.length r = 6%nat) rows -> List.length (sum6 rows) = 6%nat.
Proof. induction 1 as [|r rows H _ IH]; [reflexivity|]. change (sum6 (r :: rows)) with (map2 Rplus r (sum6 rows)). rewrite map2_length, H, IH. reflexivity. Qed.
Lemma sum6_zero_block rows k acc : Forall (fun r => List.length r = 6%nat) rows -> List.length acc = 6%nat -> fold_right vplus acc (scale_rows rows (repeat 0 k)) = acc.
Proof.
  intros H Ha. revert k. induction H as [|r rows H _ IH]; intros [|k]; cbn; try reflexivity. rewrite IH. apply vplus_zero; [rewrite map_length; lia|].
  apply Forall_map. apply Forall_forall. intros; ring.
Qed.
Lemma scale_length rows mask : Forall (fun r => List.length r = 6%nat) rows -> Forall (fun r => List.length r = 6%nat) (scale_rows rows mask).
Proof. intros H. revert mask. induction H as [|r rows H _ IH]; intros [|m mask]; cbn; constructor; [rewrite map_length; exact H|apply IH]. Qed.
Lemma vplus_0_r v : List.length v = 6%nat -> vplus v (repeat 0 6) = v.
Proof. do 7 (destruct v as [|? v]; try discriminate). intros _. cbn. repeat (f_equal; try ring). Qed.
Definition delta (c s : nat) : R := if Nat.eqb c s then 1 else 0.
Lemma sum6_blocks {P} (f : P -> list vec) prs e s0 s : Forall (fun p => List.length (f p) = e /\ Forall (fun r => List.length r = 6%nat) (f p)) prs ->
  sum6 (scale_rows (concat (map f prs)) (flat_map (fun c => repeat (delta c s) e) (seq s0 (List.length prs)))) =
  if Nat.ltb s s0 then repeat 0 6 else match nth_error prs (s - s0) with Some p => sum6 (scale_rows (f p) (repeat 1 e)) | None => repeat 0 6 end.
Proof.
  intros H. revert s0. induction H as [|p prs [H1 H2] HF IH]; intros s0; cbn [map concat List.length seq flat_map].
  - destruct (Nat.ltb s s0); [reflexivity|]. destruct (s - s0)%nat; reflexivity.
  - unfold scale_rows at 1. rewrite map2_app by (rewrite repeat_length; exact H1). unfold sum6 at 1. rewrite fold_right_app.
    match goal with |- fold_right _ (fold_right _ _ ?X) _ = _ => change (fold_right vplus (repeat 0 6) X) with (sum6 (scale_rows (concat (map f prs)) (flat_map (fun c => repeat (delta c s) e) (seq (S s0) (List.length prs))))) end.
    rewrite IH. unfold delta. destruct (Nat.eqb_spec s0 s) as [-> | N].
    + destruct (Nat.ltb_spec s (S s)); [|lia]. destruct (Nat.ltb_spec s s); [lia|]. rewrite Nat.sub_diag. reflexivity.
    + set (acc := if Nat.ltb s (S s0) then _ else _). assert (Ha : List.length acc = 6%nat).
      { unfold acc. destruct (Nat.ltb s (S s0)); [reflexivity|]. destruct (nth_error prs (s - S s0)) as [q|] eqn:E; [|reflexivity]. apply sum6_length, scale_length. rewrite Forall_forall in HF. apply (HF q). eapply nth_error_In, E. }
      transitivity acc; [apply (sum6_zero_block (f p) e acc H2 Ha)|]. unfold acc. destruct (Nat.ltb_spec s (S s0)), (Nat.ltb_spec s s0); try lia; try reflexivity.
      replace (s - s0)%nat with (S (s - S s0)) by lia. reflexivity.
Qed.
Lemma total_app l m : total (l ++ m) = total l + total m.
Proof.
  induction l as [|x l IH]; [change (total []) with 0; cbn [app]; ring|]. change (total ((x :: l) ++ m)) with (x + total (l ++ m)). change (total (x :: l)) with (x + total l). rewrite IH. ring.
Qed.
Lemma total_zeros k : total (repeat 0 k) = 0.
Proof. induction k as [|k IH]; [reflexivity|]. change (total (repeat 0 (S k))) with (0 + total (repeat 0 k)). rewrite IH. ring. Qed.
Lemma total_mask m e s0 s : total (flat_map (fun c => repeat (delta c s) e) (seq s0 m)) = if (Nat.leb s0 s && Nat.ltb s (s0 + m))%bool then total (repeat 1 e) else 0.
Proof.
  revert s0. induction m as [|m IH]; intros s0; cbn [seq flat_map].
  - destruct (Nat.leb_spec s0 s), (Nat.ltb_spec s (s0 + 0)); try reflexivity; lia.
  - rewrite total_app, IH. unfold delta. destruct (Nat.eqb_spec s0 s) as [-> | N].
    + destruct (Nat.leb_spec (S s) s); [lia|]. destruct (Nat.leb_spec s s); [|lia]. destruct (Nat.ltb_spec s (s + S m)); [|lia]. cbn [andb]. ring.
    + rewrite total_zeros. destruct (Nat.leb_spec (S s0) s), (Nat.leb_spec s0 s), (Nat.ltb_spec s (S s0 + m)), (Nat.ltb_spec s (s0 + S m)); cbn [andb]; try lia; ring.
Qed.

(** ** The forward pass *)
Definition set_triplets (g : potgnn) (st : batch_triplets) : potgnn :=
  mkGnn (g_lattice g) (g_atomic_numbers g) (g_mean g) (g_stddev g) (g_ref_edges g) st (g_atom_type_map g)
    (g_embedding g) (g_node_linear_1 g) (g_node_linear_2 g) (g_gaussian g) (g_node_blocks g) (g_edge_blocks g)
    (g_pol_linear_1 g) (g_batch_norm g) (g_pol_linear_2 g) (g_pol_linear_3 g) (g_training g).

Section Forward.
Context (g : potgnn) (L : M3) (ne : list vec).
Let n := List.length (g_atomic_numbers g).
Let e := List.length (g_ref_edges g).
Let ref := bt_ref (g_triplets g).
Context (HC : coherent (g_triplets g)) (HN : bt_num_nodes (g_triplets g) = n) (HE : bt_num_edges (g_triplets g) = e)
  (HM : mapM (node_embedding g) (g_atomic_numbers g) = Ok ne) (Htr : g_training g = false).

Definition sample_vectors (p : list V3) : list (option V3) := map (fun '(_, i, j) => normalized (cart_displacement [L] [p] 0 i j)) (g_ref_edges g).
Definition sample_distances (p : list V3) : list R := map (fun '(_, i, j) => cart_distance [L] [p] 0 i j) (g_ref_edges g).
Definition row_embedding (r : vec) : vec := nth 0 (to_polarizability_embedding g [r]) [].
Definition sample_embedding (p : list V3) : list vec :=
  map row_embedding (snd (message_passing (g_node_blocks g) (g_edge_blocks g) ref ne (apply_gaussian (g_gaussian g) (sample_distances p)))).
Definition sample_pols (p : list V3) : list (option vec) := map (fun '(x, u) => epv x u) (combine (sample_embedding p) (sample_vectors p)).
Definition sample_edges : list edge := map (fun '(_, i, j) => (0%nat, i, j)) (g_ref_edges g).
Definition sample_result (p : list V3) : option vec := structure_mean sample_edges (sample_pols p) 0.

Lemma embedding_rows x : to_polarizability_embedding g x = map row_embedding x.
Proof. unfold row_embedding, to_polarizability_embedding, apply_batch_norm. rewrite Htr. rewrite !map_map. apply map_ext. reflexivity. Qed.
Lemma ref_ok : triplets_for n e ref.
Proof. destruct HC as (H & _). rewrite HN, HE in H. exact H. Qed.
Lemma ne_length : List.length ne = n.
Proof. apply mapM_length in HM. exact HM. Qed.
Lemma edge_at ps s p i j : nth_error ps s = Some p -> cart_displacement (repeat L (List.length ps)) ps s i j = cart_displacement [L] [p] 0 i j.
Proof.
  intros H. unfold cart_displacement. rewrite (nth_error_nth _ _ _ H). cbn [nth]. f_equal. assert (s < List.length ps)%nat by (apply nth_error_Some; congruence).
  apply (nth_error_nth _ _ m0). rewrite nth_error_repeat by assumption. reflexivity.
Qed.
Lemma sample_flat {B} (F : nat -> nat -> nat -> B) (G : list V3 -> nat -> nat -> B) ps : (forall s p i j, nth_error ps s = Some p -> F s i j = G p i j) ->
  map (fun '(s, i, j) => F s i j) (flat_map (fun s => map (fun '(_, i, j) => (s, i, j)) (g_ref_edges g)) (seq 0 (List.length ps))) =
  concat (map (fun p => map (fun '(_, i, j) => G p i j) (g_ref_edges g)) ps).
Proof.
  intros H. rewrite concat_map_seq, !flat_map_concat_map, concat_map, map_map. f_equal. apply map_ext_in. intros s Hs. apply in_seq in Hs.
  destruct (nth_error ps s) as [p|] eqn:E; [|apply nth_error_None in E; lia]. rewrite map_map. apply map_ext. intros [[? i] j]. apply H, E.
Qed.
Lemma graph_samples ps m : batch_graph g (repeat L (List.length ps)) m ps =
  (fst (fst (batch_graph g (repeat L (List.length ps)) m ps)), concat (map sample_vectors ps), concat (map sample_distances ps)).
Proof.
  unfold batch_graph, get_graph_info. cbn [fst]. rewrite repeat_length. f_equal; [f_equal|].
  - apply (sample_flat (fun s i j => normalized (cart_displacement (repeat L (List.length ps)) ps s i j)) (fun p i j => normalized (cart_displacement [L] [p] 0 i j))).
    intros s p i j H. rewrite (edge_at ps s p) by exact H. reflexivity.
  - apply (sample_flat (fun s i j => cart_distance (repeat L (List.length ps)) ps s i j) (fun p i j => cart_distance [L] [p] 0 i j)).
    intros s p i j H. unfold cart_distance. rewrite (edge_at ps s p) by exact H. reflexivity.
Qed.
Lemma mask_samples ps m s : map (fun '(g', _, _) => if Nat.eqb g' s then 1 else 0) (fst (fst (batch_graph g (repeat L (List.length ps)) m ps))) =
  flat_map (fun c => repeat (delta c s) e) (seq 0 (List.length ps)).
Proof.
  unfold batch_graph, get_graph_info. cbn [fst]. rewrite repeat_length. rewrite map_map. rewrite !flat_map_concat_map, concat_map, map_map. f_equal. apply map_ext. intros c. rewrite map_map. unfold e. clear.
  induction (g_ref_edges g) as [|[[a i] j] l IH]; [reflexivity|]. cbn [map List.length repeat]. f_equal. exact IH.
Qed.
Lemma sample_pols_length p : List.length (sample_pols p) = e.
Proof.
  unfold sample_pols. rewrite map_length, combine_length. unfold sample_embedding, sample_vectors. rewrite !map_length.
  assert (sized n e (message_passing (g_node_blocks g) (g_edge_blocks g) ref ne (apply_gaussian (g_gaussian g) (sample_distances p)))) as [_ ->]; [|apply Nat.min_id].
  apply (message_len n e ref ref_ok _ _ (ne, apply_gaussian (g_gaussian g) (sample_distances p))). split; cbn; [apply ne_length|]. unfold apply_gaussian, sample_distances. rewrite !map_length. reflexivity.
Qed.
Lemma forward_samples ps : ps <> [] ->
  forward g (repeat L (List.length ps)) (repeat (g_atomic_numbers g) (List.length ps)) n ps =
  (set_triplets g (fst (get_triplets (g_triplets g) (Z.of_nat (List.length ps)))),
   Ok (map (structure_mean (fst (fst (batch_graph g (repeat L (List.length ps)) n ps))) (concat (map sample_pols ps))) (seq 0 (List.length ps)))).
Proof.
  intros Hps. unfold forward. rewrite graph_samples. rewrite repeat_length.
  assert (EM : mapM (node_embedding g) (concat (repeat (g_atomic_numbers g) (List.length ps))) = Ok (concat (repeat ne (List.length ps)))).
  { generalize (List.length ps) as k. induction k as [|k IH]; [reflexivity|]. cbn [repeat concat]. rewrite mapM_app, HM, IH. reflexivity. }
  rewrite EM. destruct (get_triplets_eq (g_triplets g) (Z.of_nat (List.length ps)) HC) as (ET & _).
  destruct (get_triplets (g_triplets g) (Z.of_nat (List.length ps))) as [st r]. cbn [fst snd] in *. f_equal. rewrite ET.
  assert (Hlen : (0 < List.length ps)%nat) by (destruct ps; [contradiction|cbn; lia]). destruct (Z.leb_spec (Z.of_nat (List.length ps)) 0); [lia|]. cbn [rbind].
  unfold fresh. rewrite Nat2Z.id, HN, HE. fold ref.
  change (each_triplet (shifted_copies (List.length ps) n) (shifted_copies (List.length ps) n) (shifted_copies (List.length ps) e) ref) with (batched n e ref (List.length ps)).
  set (prs := map (fun p => (ne, apply_gaussian (g_gaussian g) (sample_distances p))) ps).
  assert (E1 : concat (repeat ne (List.length ps)) = concat (map fst prs)) by (rewrite concat_repeat_map; unfold prs; rewrite map_map; reflexivity).
  assert (E2 : apply_gaussian (g_gaussian g) (concat (map sample_distances ps)) = concat (map snd prs)) by (unfold apply_gaussian; rewrite map_concat; unfold prs; rewrite map_map; reflexivity).
  assert (E3 : List.length ps = List.length prs) by (unfold prs; rewrite map_length; reflexivity).
  rewrite E1, E2. rewrite E3 at 1. rewrite (message_batch n e ref ref_ok).
  2: { unfold prs. apply Forall_map. apply Forall_forall. intros p _. split; cbn; [apply ne_length|]. unfold apply_gaussian, sample_distances. rewrite !map_length. reflexivity. }
  cbv beta iota zeta. rewrite embedding_rows. unfold prs. rewrite !map_map, map_concat. cbn [fst snd].
  change (fun p => map row_embedding (snd (message_passing (g_node_blocks g) (g_edge_blocks g) ref ne (apply_gaussian (g_gaussian g) (sample_distances p))))) with sample_embedding.
  rewrite combine_concat.
  2: { apply Forall_forall. intros p _. unfold sample_vectors, sample_embedding. rewrite !map_length.
    assert (sized n e (message_passing (g_node_blocks g) (g_edge_blocks g) ref ne (apply_gaussian (g_gaussian g) (sample_distances p)))) as [_ ->]; [|reflexivity].
    apply (message_len n e ref ref_ok _ _ (ne, apply_gaussian (g_gaussian g) (sample_distances p))). split; cbn; [apply ne_length|]. unfold apply_gaussian, sample_distances. rewrite !map_length. reflexivity. }
  rewrite (mapM_all_ok _ (fun '(x, u) => epv x u)) by (intros [x u] _; apply epv_ok). cbn [rbind]. rewrite map_concat. reflexivity.
Qed.
Lemma mean_samples ps m s p : nth_error ps s = Some p -> Forall (fun q => all_some (sample_pols q) <> None) ps ->
  structure_mean (fst (fst (batch_graph g (repeat L (List.length ps)) m ps))) (concat (map sample_pols ps)) s = sample_result p.
Proof.
  intros Hs HA. unfold sample_result, structure_mean. rewrite mask_samples. rewrite all_some_blocks by exact HA.
  assert (Hp : all_some (sample_pols p) <> None) by (rewrite Forall_forall in HA; apply HA; eapply nth_error_In, Hs).
  destruct (all_some (sample_pols p)) as [rows|] eqn:Er; [|contradiction].
  replace (map (fun '(g', _, _) => if Nat.eqb g' 0 then 1 else 0) sample_edges) with (repeat 1 e).
  2: { unfold sample_edges, e. rewrite map_map. clear. induction (g_ref_edges g) as [|[[a i] j] l IH]; [reflexivity|]. cbn [map List.length repeat]. f_equal. exact IH. }
  rewrite total_mask. assert (s < List.length ps)%nat by (apply nth_error_Some; congruence). destruct (Nat.leb_spec 0 s); [|lia]. destruct (Nat.ltb_spec s (0 + List.length ps)); [|lia]. cbn [andb].
  destruct (Reqb (total (repeat 1 e)) 0); [reflexivity|]. do 2 f_equal.
  match goal with |- fold_right vplus (repeat 0 6) (map2 _ (concat (map ?f ps)) _) = _ => pose proof (sum6_blocks f ps e 0 s) as SB end.
  unfold sum6, scale_rows in SB. rewrite SB.
  - destruct (Nat.ltb_spec s 0); [lia|]. rewrite Nat.sub_0_r, Hs, Er. reflexivity.
  - eapply Forall_impl; [|exact HA]. intros q Hq. destruct (all_some (sample_pols q)) as [r|] eqn:E; [|contradiction]. split.
    + apply all_some_length in E. rewrite E. apply sample_pols_length.
    + eapply all_some_Forall; [exact E|]. apply Forall_map. apply Forall_forall. intros [x u] _ v Hv. eapply epv_length, Hv.
Qed.
Definition sub_result (ps : list (list V3)) : list (option vec) :=
  match all_some (concat (map sample_pols ps)) with Some _ => map sample_result ps | None => map (fun _ => None) ps end.
Lemma map_seq_nth {A B} (l : list A) (f : nat -> B) (h : A -> B) : (forall k a, nth_error l k = Some a -> f k = h a) -> map f (seq 0 (List.length l)) = map h l.
Proof.
  revert f. induction l as [|a l IH]; intros f H; [reflexivity|]. cbn [List.length seq map]. f_equal; [apply (H 0%nat); reflexivity|]. rewrite <- seq_shift, map_map. apply IH. intros k b Hk. apply (H (S k)). exact Hk.
Qed.
Lemma forward_result ps : ps <> [] ->
  forward g (repeat L (List.length ps)) (repeat (g_atomic_numbers g) (List.length ps)) n ps =
  (set_triplets g (fst (get_triplets (g_triplets g) (Z.of_nat (List.length ps)))), Ok (sub_result ps)).
Proof.
  intros H. rewrite forward_samples by exact H. do 2 f_equal. unfold sub_result. destruct (all_some (concat (map sample_pols ps))) as [r|] eqn:E.
  - apply map_seq_nth. intros k p Hk. apply mean_samples; [exact Hk|]. apply Forall_forall. intros q Hq HN'. apply in_split in Hq. destruct Hq as (l1 & l2 & ->). rewrite map_app, concat_app in E. cbn [map concat] in E. rewrite !all_some_app, HN' in E. destruct (all_some (concat (map sample_pols l1))); discriminate.
  - apply map_seq_nth. intros k p _. unfold structure_mean. rewrite E. reflexivity.
Qed.
Lemma sub_good ps : Forall (fun q => all_some (sample_pols q) <> None) ps -> sub_result ps = map sample_result ps.
Proof. intros H. unfold sub_result. rewrite all_some_blocks by exact H. reflexivity. Qed.
Lemma sub_bad ps q : In q ps -> all_some (sample_pols q) = None -> sub_result ps = map (fun _ => None) ps.
Proof.
  intros Hq HN'. unfold sub_result. apply in_split in Hq. destruct Hq as (l1 & l2 & ->). rewrite map_app, concat_app. cbn [map concat]. rewrite !all_some_app, HN'. destruct (all_some (concat (map sample_pols l1))); reflexivity.
Qed.
End Forward.
