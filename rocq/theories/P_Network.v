(** The forward pass follows the equations of the network: C81. *)
From Coq Require Import ZArith Reals Bool Arith List Lia Lra Permutation.
From Verif Require Import Base LinAlg M_StructUtils M_Torch S_Dataset S_Lattice S_Torch M_Gnn S_Gnn S_Edge S_Relabel S_Network
  P_Torch P_Gnn P_Gnn2 P_Gnn3 P_Gnn4 P_Edge P_Edge2 P_Relabel P_Relabel2 P_Relabel3 P_Relabel4.
Import ListNotations.
Local Open Scope R_scope.

Lemma map2_combine {A B C} (f : A -> B -> C) a b : map2 f a b = map (fun p => f (fst p) (snd p)) (combine a b).
Proof. revert b. induction a as [|x a IH]; intros [|y b]; cbn; try reflexivity. rewrite IH. reflexivity. Qed.
Lemma add_is x y : vplus x y = add x y. Proof. apply map2_combine. Qed.
Lemma times_is x y : vtimes x y = times x y. Proof. apply map2_combine. Qed.
Lemma affine_is l x : apply_linear l x = affine l x.
Proof. unfold apply_linear, affine. rewrite map2_combine. apply map_ext. intros [w b]. cbn. rewrite times_is. reflexivity. Qed.
Lemma normalised_is n x : apply_norm n x = normalised n x.
Proof. unfold apply_norm, normalised. rewrite add_is, times_is. reflexivity. Qed.
Lemma logistic_is x : sigmoid x = logistic x. Proof. unfold sigmoid, logistic, Rdiv. rewrite Rmult_1_l. reflexivity. Qed.
Lemma hyperbolic_is x : M_Gnn.tanh x = hyperbolic x.
Proof.
  unfold M_Gnn.tanh, hyperbolic, sinh, cosh. pose proof (exp_pos x). pose proof (exp_pos (- x)). field. lra.
Qed.
Lemma activation_is x : shifted_softplus x = activation x.
Proof. unfold shifted_softplus, activation, Rltb. destruct (Rlt_dec 20 x); reflexivity. Qed.
Lemma gated_is x : gate x = gated x.
Proof. unfold gate, chunk2, gated. rewrite times_is. f_equal; apply map_ext; auto using logistic_is, hyperbolic_is. Qed.
Lemma batch_is b x : apply_batch_norm false b [x] = [batch_normalised b x].
Proof.
  unfold apply_batch_norm, batch_normalised. cbn [map]. f_equal. rewrite add_is, times_is. f_equal. f_equal. rewrite !map2_combine.
  generalize (bn_mean b) (bn_var b). clear b. induction x as [|a x IH]; intros [|m ms] [|v vs]; cbn; try reflexivity. rewrite IH. reflexivity.
Qed.
Lemma channels_is g r : g_training g = false -> row_embedding g r = channels g r.
Proof.
  intros H. rewrite row_is by exact H. unfold hidden_row, channels. rewrite !affine_is, batch_is. cbn [nth]. f_equal. rewrite !(map_ext _ _ activation_is). reflexivity.
Qed.
Lemma sum_is w l : fold_right vplus (repeat 0 w) l = sum_rows w l.
Proof. induction l as [|x l IH]; [reflexivity|]. cbn [fold_right]. rewrite IH. apply add_is. Qed.
Lemma sum_perm w l l' : Permutation l l' -> sum_rows w l = sum_rows w l'.
Proof. intros H. rewrite <- !sum_is. apply fold_perm, H. Qed.

Lemma combine_map_l {A B C} (f : A -> C) (a : list A) (b : list B) : combine (map f a) b = map (fun p => (f (fst p), snd p)) (combine a b).
Proof. revert b. induction a as [|x a IH]; intros [|y b]; cbn; try reflexivity. rewrite IH. reflexivity. Qed.
Lemma seq_rows {A B} (f : A -> B) (l : list A) d : map f l = map (fun k => f (nth k l d)) (seq 0 (List.length l)).
Proof.
  induction l as [|x l IH]; [reflexivity|]. cbn [map List.length seq nth]. f_equal. rewrite IH, <- seq_shift, map_map. reflexivity.
Qed.
Lemma map2_seq {A B C} (f : A -> B -> C) (a : list A) (g : nat -> B) d : map2 f a (map g (seq 0 (List.length a))) = map (fun k => f (nth k a d) (g k)) (seq 0 (List.length a)).
Proof.
  revert g. induction a as [|x a IH]; intros g; [reflexivity|]. cbn [List.length seq map map2 nth]. f_equal. rewrite <- seq_shift, !map_map. apply (IH (fun k => g (S k))).
Qed.

Section Layers.
Context (first : bool) (E : list (nat * nat)) (T : triplets) (n : nat).
Context (HT : lists_triplets first E T) (HR : Forall (fun p => fst p < n /\ snd p < n)%nat E).

Lemma combine_self {A B C} (f : A -> B) (g : A -> C) l : combine (map f l) (map g l) = map (fun x => (f x, g x)) l.
Proof. induction l as [|x l IH]; [reflexivity|]. cbn. rewrite IH. reflexivity. Qed.
Lemma targets : map snd E = map (target E) (edges E).
Proof. exact (seq_rows snd E (0, 0)%nat). Qed.
Lemma sources : map fst E = map (source E) (edges E).
Proof. exact (seq_rows fst E (0, 0)%nat). Qed.
Lemma rows_seq (F : list vec) : List.length F = List.length E -> F = map (row F) (edges E).
Proof. intros H. unfold edges. rewrite <- H. rewrite <- (map_id F) at 1. exact (seq_rows (fun x => x) F []). Qed.

Lemma node_is b N F : List.length F = List.length E -> node_forward b N F (t_i T) = node_layer E b N F.
Proof.
  intros LF. unfold node_forward, node_layer. destruct HT as (-> & _). unfold scatter. rewrite map_map.
  rewrite (map2_seq (fun a c => map M_Gnn.tanh (vplus a c)) N _ []). apply map_ext. intros a. rewrite add_is, (map_ext _ _ hyperbolic_is), normalised_is. f_equal. f_equal. f_equal.
  rewrite sum_is. f_equal. rewrite targets. rewrite (rows_seq F LF) at 1. unfold rows_at. rewrite map_map, map2_combine, combine_self, !map_map. cbn [fst snd].
  rewrite combine_self, filter_map_comm, map_map. cbn [fst snd]. 
  apply map_ext_in. intros q Hq. apply filter_In in Hq. destruct Hq as [_ H]. apply Nat.eqb_eq in H. rewrite gated_is, normalised_is, affine_is, H. reflexivity.
Qed.
Lemma pair_is b N : get_c2_embedding b N (t_i T) (t_j T) = map (fun q => normalised (eb_c2_norm_2 b) (gated (normalised (eb_c2_norm_1 b)
                  (affine (eb_c2_linear b) (times (row N (target E q)) (row N (source E q))))))) (edges E).
Proof.
  unfold get_c2_embedding. destruct HT as (-> & -> & _). rewrite targets, sources. unfold rows_at. rewrite !map_map, map2_combine, combine_self, !map_map. apply map_ext. intros q. cbn [fst snd].
  rewrite normalised_is, gated_is, normalised_is, affine_is, times_is. reflexivity.
Qed.
(** the rows of triplets that belong to an edge *)
Definition triplet_of (q r : nat) : nat * (nat * (nat * (nat * nat))) :=
  if first then (target E r, (target E q, (source E q, (q, r)))) else (target E q, (source E q, (source E r, (q, r)))).
Lemma nth_edge q x : nth_error E q = Some x -> In q (edges E) /\ source E q = fst x /\ target E q = snd x.
Proof.
  intros H. unfold source, target. rewrite (nth_error_nth _ _ _ H). split; [|auto]. apply in_seq. assert (q < List.length E)%nat by (apply nth_error_Some; congruence). lia.
Qed.
Lemma edge_nth q : In q (edges E) -> nth_error E q = Some (source E q, target E q).
Proof.
  intros H. apply in_seq in H. destruct (nth_error E q) as [[s t]|] eqn:Q; [|apply nth_error_None in Q; lia]. unfold source, target. rewrite (nth_error_nth _ _ _ Q). reflexivity.
Qed.
Lemma rows_of q : In q (edges E) -> Permutation (filter (fun x => Nat.eqb (fst (snd (snd (snd x)))) q) (triplet_rows T)) (map (triplet_of q) (filter (joins first E q) (edges E))).
Proof.
  intros Hq. destruct HT as (_ & _ & _ & ND & HI). apply NoDup_Permutation.
  - apply NoDup_filter, ND.
  - apply FinFun.Injective_map_NoDup; [|apply NoDup_filter, seq_NoDup]. intros r r' H. unfold triplet_of in H. destruct first; congruence.
  - assert (JE : forall r, joins first E q r = if first then Nat.eqb (source E r) (target E q) && negb (Nat.eqb (target E r) (source E q)) else Nat.eqb (target E r) (source E q) && negb (Nat.eqb (source E r) (target E q))) by reflexivity.
    unfold triplet_of. intros (i & j & k & a & b). rewrite filter_In, HI, in_map_iff. cbn [fst snd]. rewrite Nat.eqb_eq. pose proof (edge_nth q Hq) as Eq. split.
    + intros ((N & H1 & H2) & ->). destruct first.
      * destruct (nth_edge _ _ H1) as (I1 & S1 & T1). destruct (nth_edge _ _ H2) as (_ & S2 & T2). cbn [fst snd] in *. exists b. split; [congruence|]. apply filter_In. split; [exact I1|].
        rewrite JE, S1, T1, S2, T2, Nat.eqb_refl. cbn. apply negb_true_iff, Nat.eqb_neq. congruence.
      * destruct (nth_edge _ _ H1) as (_ & S1 & T1). destruct (nth_edge _ _ H2) as (I2 & S2 & T2). cbn [fst snd] in *. exists b. split; [congruence|]. apply filter_In. split; [exact I2|].
        rewrite JE, S1, T1, S2, T2, Nat.eqb_refl. cbn. apply negb_true_iff, Nat.eqb_neq. congruence.
    + intros (r & H & Hr). apply filter_In in Hr. destruct Hr as [Hr J]. pose proof (edge_nth r Hr) as Er. rewrite JE in J. destruct first.
      * apply andb_true_iff in J. destruct J as [J1 J2]. apply Nat.eqb_eq in J1. apply negb_true_iff, Nat.eqb_neq in J2. injection H as <- <- <- <- <-. split; [|reflexivity]. split; [exact J2|]. split; [congruence|exact Eq].
      * apply andb_true_iff in J. destruct J as [J1 J2]. apply Nat.eqb_eq in J1. apply negb_true_iff, Nat.eqb_neq in J2. injection H as <- <- <- <- <-. split; [|reflexivity]. split; [congruence|]. split; [exact Eq|congruence].
Qed.
Lemma heard_is b N F : List.length F = List.length E ->
  get_c3_embedding b N F (t_index_i T) (t_index_j T) (t_index_k T) (t_index_ji T) (t_index_kj T) =
  map (fun q => normalised (eb_c3_norm_2 b) (sum_rows (eb_size b) (map (fun r => gated (normalised (eb_c3_norm_1 b) (affine (eb_c3_linear b) (path_row first E N F q r)))) (filter (joins first E q) (edges E))))) (edges E).
Proof.
  intros LF. destruct (rows_columns _ (proj1 (proj2 (proj2 HT)))) as (X1 & X2 & X3 & X4 & X5). unfold get_c3_embedding, scatter. rewrite LF, map_map. fold (edges E). apply map_ext_in. intros q Hq.
  rewrite normalised_is. f_equal. rewrite sum_is. 
  rewrite X1, X2, X3, X4, X5 at 1. unfold rows_at. rewrite !map_map. rewrite !map2_combine, !combine_self. rewrite !map_map, !combine_self. rewrite !map_map, !combine_self. rewrite !map_map, !combine_self. rewrite !map_map. cbn [fst snd].
  rewrite X4, combine_self, filter_map_comm, map_map. cbn [fst snd].
  rewrite (sum_perm _ _ _ (Permutation_map _ (rows_of q Hq))). rewrite map_map. f_equal. apply map_ext. intros r. rewrite gated_is, normalised_is, affine_is. do 3 f_equal.
  unfold triplet_of, path_row, row. destruct first; cbn [fst snd]; rewrite <- !app_assoc; reflexivity.
Qed.
Lemma edge_is b N F : List.length F = List.length E -> edge_forward b N F T = edge_layer first E b N F.
Proof.
  intros LF. unfold edge_forward, edge_layer. rewrite pair_is, (heard_is b N F LF).
  replace (map2 vplus F) with (map2 vplus (map (row F) (edges E))) by (rewrite <- (rows_seq F LF); reflexivity).
  rewrite !map2_combine, combine_self, map_map, combine_self, map_map. apply map_ext. intros q. cbn [fst snd]. rewrite !add_is. apply map_ext, hyperbolic_is.
Qed.
Lemma passes_is nbs : forall ebs N F, List.length F = List.length E -> snd (message_passing nbs ebs T N F) = passes first E nbs ebs N F.
Proof.
  induction nbs as [|nb nbs IH]; intros [|eb ebs] N F LF; cbn [message_passing passes snd]; try reflexivity.
  rewrite node_is by exact LF. rewrite edge_is by exact LF. apply IH. unfold edge_layer, edges. rewrite map_length, seq_length. reflexivity.
Qed.
End Layers.
