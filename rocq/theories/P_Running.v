(** Proofs about running statistics *)
From Coq Require Import ZArith Reals Bool Arith List Lia Lra Permutation.
From Verif Require Import Base LinAlg M_Validate M_StructUtils S_Lattice P_StructUtils M_Torch S_Torch P_Torch P_Torch2 M_Gnn S_Gnn P_Gnn P_Gnn2 P_Gnn3 P_Gnn4 M_Train S_Train P_Train P_Train2 M_Running S_Running.
Import ListNotations.
Local Open Scope R_scope.

(** ** Moving averages *)
Lemma moving_nil x : moving x [] = x.
Proof. unfold moving. cbn. ring. Qed.
Lemma moving_cons x y l : moving x (y :: l) = moving (9 / 10 * x + / 10 * y) l.
Proof.
  unfold moving. cbn [List.length seq map fold_right]. rewrite <- seq_shift, map_map. cbn [nth].
  rewrite (map_ext_in (fun i => / 10 * (9 / 10) ^ (S (List.length l) - 1 - S i) * nth i l 0) (fun i => / 10 * (9 / 10) ^ (List.length l - 1 - i) * nth i l 0)).
  - replace (S (List.length l) - 1 - 0)%nat with (List.length l) by lia. cbn [pow]. ring.
  - intros i _. do 2 f_equal. f_equal. lia.
Qed.
Lemma updated_nth v f c : (c < List.length v)%nat -> nth c (updated v f) 0 = 9 / 10 * nth c v 0 + / 10 * f c.
Proof.
  intros H. unfold updated. set (h := fun p : R * nat => (1 - momentum) * fst p + momentum * f (snd p)).
  rewrite (nth_indep _ 0 (h (0, 0%nat))) by (rewrite map_length, combine_length, seq_length; lia).
  rewrite (map_nth h), combine_nth by (rewrite seq_length; reflexivity). rewrite seq_nth by exact H. unfold h, momentum. cbn [fst snd Nat.add]. lra.
Qed.
Lemma updated_length v f : List.length (updated v f) = List.length v.
Proof. unfold updated. rewrite map_length, combine_length, seq_length. lia. Qed.
Lemma average_is c rows : mean (column rows c) = column_average c rows.
Proof. unfold mean, total, column, column_average. rewrite map_length. reflexivity. Qed.
Lemma variance_is c rows : unbiased (column rows c) = column_variance c rows.
Proof. unfold unbiased. rewrite average_is. unfold total, column, column_variance. rewrite map_map, map_length. reflexivity. Qed.
Lemma update_mean b rows c : (c < List.length (bn_mean b))%nat -> rows <> [] -> nth c (bn_mean (running_update b rows)) 0 = 9 / 10 * nth c (bn_mean b) 0 + / 10 * column_average c rows.
Proof. intros H R. destruct rows as [|r rows]; [contradiction|]. cbn [running_update bn_mean]. rewrite updated_nth by exact H. rewrite average_is. reflexivity. Qed.
Lemma update_var b rows c : (c < List.length (bn_var b))%nat -> rows <> [] -> nth c (bn_var (running_update b rows)) 0 = 9 / 10 * nth c (bn_var b) 0 + / 10 * column_variance c rows.
Proof. intros H R. destruct rows as [|r rows]; [contradiction|]. cbn [running_update bn_var]. rewrite updated_nth by exact H. rewrite variance_is. reflexivity. Qed.
Lemma update_lengths b rows : List.length (bn_mean (running_update b rows)) = List.length (bn_mean b) /\ List.length (bn_var (running_update b rows)) = List.length (bn_var b).
Proof. destruct rows; [split; reflexivity|]. cbn [running_update bn_mean bn_var]. rewrite !updated_length. split; reflexivity. Qed.
Lemma variance_nonneg c rows : 0 <= column_variance c rows.
Proof.
  unfold column_variance. assert (S : 0 <= fold_right Rplus 0 (map (fun r => (nth c r 0 - column_average c rows) ^ 2) rows)).
  { generalize (column_average c rows). intros m. induction rows as [|r l IH]; cbn [map fold_right]; [lra|]. pose proof (pow2_ge_0 (nth c r 0 - m)). lra. }
  destruct (List.length rows - 1)%nat as [|n] eqn:E.
  - assert (Z : fold_right Rplus 0 (map (fun r => (nth c r 0 - column_average c rows) ^ 2) rows) = 0).
    { destruct rows as [|r [|r' l]]; [reflexivity| |cbn in E; lia]. unfold column_average. cbn. field. }
    rewrite Z. unfold Rdiv. rewrite Rmult_0_l. lra.
  - apply Rmult_le_pos; [exact S|]. left. apply Rinv_0_lt_compat. apply lt_0_INR. lia.
Qed.

(** ** The rows *)
Lemma f_C82_rows g b : snd (forward_batch g b) =
  let* rows := norm_input g b in
  let '(edges, units, _) := batch_graph g (map s_lattice b) (match b with [] => 0%nat | x :: _ => List.length (s_positions x) end) (map s_positions b) in
  let* polarizability := mapM (fun '(e, u) => get_edge_polarizability_vector e u)
    (combine (map (fun r => apply_linear (g_pol_linear_3 g) (map shifted_softplus (apply_linear (g_pol_linear_2 g) (map shifted_softplus r)))) (apply_batch_norm (g_training g) (g_batch_norm g) rows)) units) in
  Ok (map (structure_mean edges polarizability) (seq 0 (List.length b))).
Proof.
  unfold forward_batch, forward, norm_input. destruct (batch_graph _ _ _ _) as [[ei uv] di]. destruct (mapM (node_embedding g) _) as [ne|x]; [|reflexivity]. cbn [rbind].
  destruct (get_triplets (g_triplets g) _) as [s [t|x]]; [|reflexivity]. cbn [snd rbind]. destruct (message_passing _ _ _ _ _) as [n1 e1]. cbn [rbind]. unfold to_polarizability_embedding. rewrite map_length. reflexivity.
Qed.
Lemma rows_exist g b out : snd (apply_model g b) = Ok out -> exists rows, norm_input g b = Ok rows.
Proof. intros H. apply apply_snd in H. rewrite f_C82_rows in H. destruct (norm_input g b) as [rows|]; [exists rows; reflexivity|discriminate]. Qed.

(** ** Steps *)
Lemma steps_trace {O} (e : env O) stale g o bs g' o' ls : steps e stale g o bs g' o' ls -> exists gs, trace e stale g o bs gs g' o'.
Proof.
  induction 1 as [|stale g o b out w' o' bs g' o'' ls H1 H2 H3 (gs & IH)]; [exists []; constructor|]. exists (g :: gs). eapply t_step; eassumption.
Qed.
Lemma trace_statistics {O} (e : env O) stale g o bs gs g' o' : (forall g b, e_track e g b = norm_after g b) -> keeps_statistics e -> trace e stale g o bs gs g' o' ->
  exists rows, Forall2 (fun gb r => norm_input (fst gb) (snd gb) = Ok r) (combine gs bs) rows /\ List.length rows = List.length bs /\
    List.length (bn_mean (g_batch_norm g')) = List.length (bn_mean (g_batch_norm g)) /\ List.length (bn_var (g_batch_norm g')) = List.length (bn_var (g_batch_norm g)) /\
    (forall c, (c < List.length (bn_mean (g_batch_norm g)))%nat -> nth c (bn_mean (g_batch_norm g')) 0 = moving (nth c (bn_mean (g_batch_norm g)) 0) (map (column_average c) (with_rows rows))) /\
    (forall c, (c < List.length (bn_var (g_batch_norm g)))%nat -> nth c (bn_var (g_batch_norm g')) 0 = moving (nth c (bn_var (g_batch_norm g)) 0) (map (column_variance c) (with_rows rows))).
Proof.
  intros HT HK. induction 1 as [stale g o|stale g o b out w' o' bs gs g' o'' H1 H2 H3 IH].
  - exists []. split; [constructor|]. split; [reflexivity|]. split; [reflexivity|]. split; [reflexivity|]. split; intros c _; cbn; rewrite moving_nil; reflexivity.
  - destruct IH as (rows & F & L & L1 & L2 & M & V). destruct (rows_exist g b out H1) as (r & Er).
    destruct (HK (put_batch_norm (weights_of g) (e_track e g b)) o (vplus stale (e_gradient e g b))) as [K1 K2]. rewrite H2 in K1, K2. cbn [fst w_batch_norm put_batch_norm] in K1, K2. rewrite HT in K1, K2. unfold norm_after in K1, K2. rewrite Er in K1, K2.
    change (g_batch_norm (with_weights (fst (apply_model g b)) w' true)) with (w_batch_norm w') in *. destruct (update_lengths (g_batch_norm g) r) as [U1 U2]. rewrite K1 in *. rewrite K2 in *. rewrite U1 in *. rewrite U2 in *.
    exists (r :: rows). split; [constructor; [exact Er|exact F]|]. split; [cbn; congruence|]. split; [exact L1|]. split; [exact L2|].
    unfold with_rows in *. cbn [filter]. destruct r as [|r0 r].
    + cbn [List.length Nat.eqb negb]. cbn [running_update] in M, V. split; [exact M|exact V].
    + cbn [List.length Nat.eqb negb map]. split; intros c Hc; rewrite moving_cons.
      * rewrite (M c Hc), update_mean by (exact Hc || discriminate). reflexivity.
      * rewrite (V c Hc), update_var by (exact Hc || discriminate). reflexivity.
Qed.
Lemma moving_pos x l : 0 < x -> Forall (fun y => 0 <= y) l -> 0 < moving x l.
Proof. intros H F. revert x H. induction F as [|y l Hy _ IH]; intros x H; [rewrite moving_nil; exact H|]. rewrite moving_cons. apply IH. lra. Qed.
Lemma used_norm g g' : coherent (g_triplets g) -> used g g' -> g_batch_norm g' = g_batch_norm g.
Proof. intros C U. destruct (used_cache g g' C U) as (s & t & -> & _). reflexivity. Qed.

Lemma f_C82_statistics O (e : env O) shuffle lattice numbers g0 st tset vset bs :
  built lattice numbers g0 -> history g0 (tr_model st) -> keeps_sizes e -> (forall l, Permutation (shuffle l) l) ->
  (forall g b, List.length (e_gradient e g b) = List.length (tr_grad st)) ->
  (forall g b, e_track e g b = norm_after g b) -> keeps_statistics e ->
  forall st' v, train_single_epoch e shuffle st tset vset bs = (st', Ok v) ->
  let before := g_batch_norm (tr_model st) in let after := g_batch_norm (tr_model st') in
  exists batches gs g rows, cut_in (Z.to_nat bs) (shuffle tset) batches /\
    trace e (tr_grad st) (set_mode (tr_model st) true) (tr_opt st) batches gs g (tr_opt st') /\
    Forall2 (fun gb r => norm_input (fst gb) (snd gb) = Ok r) (combine gs batches) rows /\ List.length rows = List.length batches /\
    (forall c, (c < List.length (bn_mean before))%nat -> nth c (bn_mean after) 0 = moving (nth c (bn_mean before) 0) (map (column_average c) (with_rows rows))) /\
    (forall c, (c < List.length (bn_var before))%nat -> nth c (bn_var after) 0 = moving (nth c (bn_var before) 0) (map (column_variance c) (with_rows rows))).
Proof.
  intros HB HH HK HS HN HT HKS st' [[tl vl] vv] H before after. destruct (f_C82_epoch e shuffle lattice numbers g0 st tset vset bs HB HH HK HS HN _ _ _ _ H) as (batches & g & losses & _ & _ & HC & HST & _ & U & _).
  assert (H1 : history g0 g) by (eapply steps_history; [exact HK|exact HST|apply (built_ok _ _ _ HB)|apply mode_history; [apply (built_ok _ _ _ HB)|exact HH]]).
  destruct (reachable _ _ _ _ HB H1) as ((C & _) & _).
  assert (EN : after = g_batch_norm g) by (unfold after; rewrite (used_norm (set_mode g false) _ C U); reflexivity).
  destruct (steps_trace _ _ _ _ _ _ _ _ HST) as (gs & TR). destruct (trace_statistics e _ _ _ _ _ _ _ HT HKS TR) as (rows & F & L & _ & _ & M & V).
  exists batches, gs, g, rows. rewrite EN. repeat (split; [assumption|]). exact V.
Qed.
Lemma f_C82_variances O (e : env O) shuffle lattice numbers g0 st tset vset bs :
  built lattice numbers g0 -> history g0 (tr_model st) -> keeps_sizes e -> (forall l, Permutation (shuffle l) l) ->
  (forall g b, List.length (e_gradient e g b) = List.length (tr_grad st)) ->
  (forall g b, e_track e g b = norm_after g b) -> keeps_statistics e ->
  forall st' v, train_single_epoch e shuffle st tset vset bs = (st', Ok v) ->
  Forall (fun x => 0 < x) (bn_var (g_batch_norm (tr_model st))) -> Forall (fun x => 0 < x) (bn_var (g_batch_norm (tr_model st'))).
Proof.
  intros HB HH HK HS HN HT HKS st' [[tl vl] vv] H P. destruct (f_C82_epoch e shuffle lattice numbers g0 st tset vset bs HB HH HK HS HN _ _ _ _ H) as (batches & g & losses & _ & _ & HC & HST & _ & U & _).
  assert (H1 : history g0 g) by (eapply steps_history; [exact HK|exact HST|apply (built_ok _ _ _ HB)|apply mode_history; [apply (built_ok _ _ _ HB)|exact HH]]).
  destruct (reachable _ _ _ _ HB H1) as ((C & _) & _). rewrite (used_norm (set_mode g false) _ C U). change (g_batch_norm (set_mode g false)) with (g_batch_norm g).
  destruct (steps_trace _ _ _ _ _ _ _ _ HST) as (gs & TR). destruct (trace_statistics e _ _ _ _ _ _ _ HT HKS TR) as (rows & F & L & _ & L2 & _ & V).
  change (g_batch_norm (set_mode (tr_model st) true)) with (g_batch_norm (tr_model st)) in *.
  apply Forall_forall. intros x Hx. apply (In_nth _ _ 0) in Hx. destruct Hx as (c & Hc & <-). rewrite L2 in Hc. rewrite (V c Hc). apply moving_pos.
  - rewrite Forall_forall in P. apply P, nth_In, Hc.
  - apply Forall_forall. intros y Hy. apply in_map_iff in Hy. destruct Hy as (r & <- & _). apply variance_nonneg.
Qed.
