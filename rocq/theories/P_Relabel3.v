(** PotGNN: predictions do not depend on the order of the atoms (networks) *)
From Coq Require Import ZArith Reals Bool Arith List Permutation FinFun Lia Lra.
From Verif Require Import Base LinAlg M_Validate M_StructUtils S_Lattice P_StructUtils M_Torch S_Torch P_Torch P_Torch2 M_Gnn S_Gnn P_Gnn P_Gnn2 P_Gnn3 P_Gnn4 S_Relabel P_Relabel P_Relabel2.
Import ListNotations.
Local Open Scope nat_scope.

Lemma mapM_at {A B} (f : A -> res B) l r : mapM f l = Ok r -> List.length r = List.length l /\ forall k x, nth_error l k = Some x -> exists y, f x = Ok y /\ nth_error r k = Some y.
Proof.
  revert r. induction l as [|a l IH]; intros r H; cbn in H.
  - injection H as <-. split; [reflexivity|]. intros [|k] x E; discriminate.
  - destruct (f a) as [b|] eqn:Ea; [|discriminate]. cbn in H. destruct (mapM f l) as [r'|]; [|discriminate]. injection H as <-. destruct (IH _ eq_refl) as [IL IH']. split; [cbn; congruence|].
    intros [|k] x E; cbn in E; [injection E as <-; exists b; split; [exact Ea|reflexivity]|apply IH', E].
Qed.
Lemma carried_then_in {A B C} u (h : A -> B) (f : A -> C) (f' : B -> C) l l' : (forall x, In x l -> f' (h x) = f x) -> carried u h l l' -> moved u (map f l) (map f' l').
Proof.
  intros Hf (HL & HR & H). split; [rewrite !map_length; exact HL|]. split; [rewrite map_length; exact HR|].
  intros k x E. rewrite nth_error_map in E. destruct (nth_error l k) as [y|] eqn:Ey; [|discriminate]. injection E as <-. rewrite nth_error_map, (H _ _ Ey). cbn. f_equal. apply Hf. eapply nth_error_In, Ey.
Qed.
Lemma moved_perm {A} u (l l' : list A) : moved u l l' -> Permutation l l'.
Proof. intros H. apply carried_perm in H. rewrite map_id in H. exact H. Qed.
Lemma moved_combine {A B} u (a a' : list A) (b b' : list B) : List.length a = List.length b -> moved u a a' -> moved u b b' -> moved u (combine a b) (combine a' b').
Proof.
  intros HL Ha Hb. pose proof (carried_combine u _ _ _ _ _ _ HL Ha Hb) as (H1 & H2 & H3). split; [exact H1|]. split; [exact H2|]. intros k [x y] E. apply H3 in E. exact E.
Qed.

(** ** Means *)
Lemma all_some_perm l l' : Permutation l l' -> match all_some l, all_some l' with Some a, Some b => Permutation a b | None, None => True | _, _ => False end.
Proof.
  induction 1 as [|x l l' H IH|x y l|l l' l'' H1 IH1 H2 IH2].
  - cbn. constructor.
  - cbn. destruct x; [|exact I]. destruct (all_some l), (all_some l'); try contradiction; try exact I. constructor. exact IH.
  - cbn. destruct x, y, (all_some l); try exact I. constructor.
  - destruct (all_some l) eqn:X1, (all_some l') eqn:X2, (all_some l'') eqn:X3; try contradiction; try exact I. eapply Permutation_trans; eassumption.
Qed.
Lemma mask_ones g : map (fun '((s, _, _) : edge) => if Nat.eqb s 0 then 1%R else 0%R) (sample_edges g) = repeat 1%R (List.length (g_ref_edges g)).
Proof. unfold sample_edges. rewrite map_map. induction (g_ref_edges g) as [|[[a i] j] l IH]; [reflexivity|]. cbn [map List.length repeat]. f_equal. exact IH. Qed.
Lemma scaled_ones (rows : list vec) : map2 (fun r m => map (fun x => (x * m)%R) r) rows (repeat 1%R (List.length rows)) = rows.
Proof.
  induction rows as [|r rows IH]; [reflexivity|]. cbn [List.length repeat map2]. f_equal; [|exact IH]. rewrite <- (map_id r) at 2. apply map_ext. intros x. lra.
Qed.
Lemma mean_of g pols : List.length pols = List.length (g_ref_edges g) ->
  structure_mean (sample_edges g) pols 0 = match all_some pols with
    | None => None
    | Some rows => if Reqb (INR (List.length pols)) 0 then None else Some (map (fun x => (x / INR (List.length pols))%R) (fold_right vplus (repeat 0%R 6) rows)) end.
Proof.
  intros H. unfold structure_mean. rewrite mask_ones, total_ones, H. destruct (all_some pols) as [rows|] eqn:E; [|reflexivity]. apply all_some_length in E. rewrite <- H, <- E, scaled_ones. reflexivity.
Qed.
Lemma mean_perm g g' pols pols' : List.length pols = List.length (g_ref_edges g) -> List.length pols' = List.length (g_ref_edges g') -> Permutation pols pols' ->
  structure_mean (sample_edges g) pols 0 = structure_mean (sample_edges g') pols' 0.
Proof.
  intros L L' H. rewrite (mean_of g pols L), (mean_of g' pols' L'). rewrite (Permutation_length H). apply all_some_perm in H.
  destruct (all_some pols) as [a|], (all_some pols') as [b|]; try contradiction; [|reflexivity]. rewrite (fold_perm _ _ _ H). reflexivity.
Qed.

(** ** Two networks *)
Definition twins (swap : bool) (s : nat -> nat) (g g' : potgnn) : Prop :=
  g_lattice g' = g_lattice g /\ g_mean g' = g_mean g /\ g_stddev g' = g_stddev g /\ (forall z, In z (g_atomic_numbers g) -> embed g' z = embed g z) /\ g_gaussian g' = g_gaussian g /\
  same_layers g g' /\ reordered s (g_atomic_numbers g) (g_atomic_numbers g') /\
  Permutation (map (both s) (pairs_of (g_ref_edges g))) (pairs_of (g_ref_edges g')) /\
  lists_triplets swap (pairs_of (g_ref_edges g)) (bt_ref (g_triplets g)) /\ lists_triplets swap (pairs_of (g_ref_edges g')) (bt_ref (g_triplets g')).

Section Twins.
Context (swap : bool) (s : nat -> nat) (g g' : potgnn) (ne ne' : list vec) (L : M3).
Context (HG : net_ok g) (HG' : net_ok g') (HS : reordering (List.length (g_atomic_numbers g)) s) (HW : twins swap s g g')
  (HM : mapM (node_embedding g) (g_atomic_numbers g) = Ok ne) (HM' : mapM (node_embedding g') (g_atomic_numbers g') = Ok ne')
  (Tr : g_training g = false) (Tr' : g_training g' = false).
Let n := List.length (g_atomic_numbers g).

Lemma twin_embed z : In z (g_atomic_numbers g) -> node_embedding g' z = node_embedding g z.
Proof. intros Hz. destruct HW as (_ & _ & _ & ET & _ & (E2 & E3 & _) & _). unfold node_embedding. rewrite (ET z Hz), E2, E3. reflexivity. Qed.
Lemma twin_nodes : moved s ne ne'.
Proof.
  destruct (mapM_at _ _ _ HM) as [L1 A1]. destruct (mapM_at _ _ _ HM') as [L2 A2]. destruct HW as (_ & _ & _ & _ & _ & _ & (RL & R) & _).
  split; [congruence|]. split; [rewrite L1; exact HS|]. intros k x E. pose proof (some_lt _ _ _ E) as Hk. rewrite L1 in Hk. destruct (lt_some _ _ Hk) as [z Ez]. destruct (A1 _ _ Ez) as (y & Ey & Ey2).
  assert (Ez' : nth_error (g_atomic_numbers g') (s k) = Some z) by (rewrite R; assumption). destruct (A2 _ _ Ez') as (y' & Ey' & Ey2'). rewrite (twin_embed z (nth_error_In _ _ Ez)), Ey in Ey'. injection Ey' as <-. congruence.
Qed.
Lemma edges_range : Forall (fun p => fst p < n /\ snd p < n) (pairs_of (g_ref_edges g)).
Proof.
  destruct HG as (_ & _ & _ & HE & _). unfold edges_ok in HE. unfold pairs_of. apply Forall_map. eapply Forall_impl; [|exact HE]. intros [[a i] j] (_ & H1 & H2). split; assumption.
Qed.
Lemma pairs_map {B} (f : nat -> nat -> B) (es : list edge) : map (fun '(_, i, j) => f i j) es = map (fun p => f (fst p) (snd p)) (pairs_of es).
Proof. unfold pairs_of. rewrite map_map. apply map_ext. intros [[a i] j]. reflexivity. Qed.

Lemma twin_pols p q : List.length p = n -> reordered s p q -> Permutation (sample_pols g L ne p) (sample_pols g' L ne' q).
Proof.
  intros Lp Hq. pose proof (reordered_moved s p q ltac:(rewrite Lp; exact HS) Hq) as Mp. pose proof twin_nodes as Mn. pose proof edges_range as HR.
  destruct HW as (_ & _ & _ & _ & EG & (_ & _ & EN & EE & E1 & E2 & E3 & E4) & HN & HP & HT & HT').
  destruct (perm_carried _ _ _ HP) as [t Ct]. pose proof (lists_for swap n _ _ HR HT) as HF.
  pose proof (rows_perm swap n s t _ _ _ _ HS HR Ct HT HT') as RP. destruct (perm_carried _ _ _ RP) as [u Cu].
  destruct (rows_columns _ (proj1 (proj2 (proj2 HT)))) as (X1 & X2 & X3 & X4 & X5). destruct (rows_columns _ (proj1 (proj2 (proj2 HT')))) as (Y1 & Y2 & Y3 & Y4 & Y5).
  set (T := bt_ref (g_triplets g)) in *. set (T' := bt_ref (g_triplets g')) in *. set (e := List.length (pairs_of (g_ref_edges g))) in *.
  assert (HEt : reordering e t) by apply Ct.
  assert (Ci : carried t s (t_i T) (t_i T')) by (rewrite (proj1 HT), (proj1 HT'); apply (carried_proj t (both s)); [reflexivity|exact Ct]).
  assert (Cj : carried t s (t_j T) (t_j T')) by (rewrite (proj1 (proj2 HT)), (proj1 (proj2 HT')); apply (carried_proj t (both s)); [reflexivity|exact Ct]).
  assert (C1 : carried u s (t_index_i T) (t_index_i T')) by (rewrite X1, Y1; apply (carried_proj u (shift_row s t)); [intros [? [? [? [? ?]]]]; reflexivity|exact Cu]).
  assert (C2 : carried u s (t_index_j T) (t_index_j T')) by (rewrite X2, Y2; apply (carried_proj u (shift_row s t)); [intros [? [? [? [? ?]]]]; reflexivity|exact Cu]).
  assert (C3 : carried u s (t_index_k T) (t_index_k T')) by (rewrite X3, Y3; apply (carried_proj u (shift_row s t)); [intros [? [? [? [? ?]]]]; reflexivity|exact Cu]).
  assert (C4 : carried u t (t_index_ji T) (t_index_ji T')) by (rewrite X4, Y4; apply (carried_proj u (shift_row s t)); [intros [? [? [? [? ?]]]]; reflexivity|exact Cu]).
  assert (C5 : carried u t (t_index_kj T) (t_index_kj T')) by (rewrite X5, Y5; apply (carried_proj u (shift_row s t)); [intros [? [? [? [? ?]]]]; reflexivity|exact Cu]).
  assert (HD : forall i j, i < n -> j < n -> cart_displacement [L] [q] 0 (s i) (s j) = cart_displacement [L] [p] 0 i j).
  { assert (HA : forall i, i < n -> nth (s i) q v0 = nth i p v0). { intros i Hi. rewrite <- Lp in Hi. destruct (lt_some _ _ Hi) as [x Ex]. destruct Mp as (_ & _ & M3). rewrite (nth_error_nth _ _ _ Ex). apply nth_error_nth. apply M3, Ex. }
    intros i j Hi Hj. unfold cart_displacement. cbn [nth]. rewrite !HA by assumption. reflexivity. }
  rewrite Forall_forall in HR.
  assert (MV : moved t (sample_vectors g L p) (sample_vectors g' L q)).
  { unfold sample_vectors. rewrite !(pairs_map (fun i j => normalized (cart_displacement [L] _ 0 i j))). apply (carried_then_in t (both s)); [|exact Ct]. intros x Hx. unfold both. cbn [fst snd]. destruct (HR _ Hx). rewrite HD by assumption. reflexivity. }
  assert (MD : moved t (sample_distances g L p) (sample_distances g' L q)).
  { unfold sample_distances. rewrite !(pairs_map (fun i j => cart_distance [L] _ 0 i j)). apply (carried_then_in t (both s)); [|exact Ct]. intros x Hx. unfold both, cart_distance. cbn [fst snd]. destruct (HR _ Hx). rewrite HD by assumption. reflexivity. }
  assert (Ln : List.length ne = n) by apply (mapM_at _ _ _ HM).
  assert (Ld : List.length (apply_gaussian (g_gaussian g) (sample_distances g L p)) = e) by (unfold apply_gaussian, sample_distances, e, pairs_of; rewrite !map_length; reflexivity).
  assert (ME : moved t (sample_embedding g L ne p) (sample_embedding g' L ne' q)).
  { unfold sample_embedding. rewrite EN, EE, EG. fold T T'.
    replace (map (row_embedding g')) with (map (row_embedding g)).
    2: { replace (row_embedding g') with (row_embedding g); [reflexivity|]. unfold row_embedding, to_polarizability_embedding. rewrite E1, E2, E3, E4, Tr, Tr'. reflexivity. }
    apply moved_map. apply (moved_message n e s t u T T' HF HS HEt Ci Cj C1 C2 C3 C4 C5); [exact Ln|exact Ld|exact Mn|]. unfold apply_gaussian. apply moved_map. exact MD. }
  unfold sample_pols. apply moved_perm with t. apply moved_map. apply moved_combine; [|exact ME|exact MV].
  pose proof (sample_pols_length g L ne (proj1 HG) (proj1 (proj2 HG)) (proj1 (proj2 (proj2 HG))) HM p) as SL. unfold sample_pols in SL. rewrite map_length, combine_length in SL.
  unfold sample_vectors. rewrite map_length. unfold sample_embedding. rewrite map_length.
  destruct (message_len n e T HF (g_node_blocks g) (g_edge_blocks g) (ne, apply_gaussian (g_gaussian g) (sample_distances g L p))) as [_ ML]; [split; [exact Ln|exact Ld]|]. cbn [fst snd] in ML. fold T. unfold vec in *. rewrite ML. unfold e, pairs_of. apply map_length.
Qed.
Lemma twin_result p q : List.length p = n -> reordered s p q ->
  sample_result g' L ne' q = sample_result g L ne p /\ (all_some (sample_pols g' L ne' q) = None <-> all_some (sample_pols g L ne p) = None).
Proof.
  intros Lp Hq. pose proof (twin_pols p q Lp Hq) as HP. split.
  - unfold sample_result. symmetry. apply mean_perm; [| |exact HP].
    + apply sample_pols_length; try apply HG. exact HM.
    + apply sample_pols_length; try apply HG'. exact HM'.
  - apply all_some_perm in HP. destruct (all_some (sample_pols g L ne p)), (all_some (sample_pols g' L ne' q)); try contradiction; split; congruence.
Qed.
End Twins.

Definition on_eval (swap : bool) s g g' : twins swap s g g' -> twins swap s (eval_mode g) (eval_mode g') := fun H => H.
Lemma twin_answers swap s g g' cast ps qs : net_ok g -> net_ok g' -> reordering (List.length (g_atomic_numbers g)) s -> twins swap s g g' ->
  Forall2 (fun p q => List.length p = List.length (g_atomic_numbers g) /\ reordered s p q) ps qs ->
  snd (calc_polarizabilities cast g' [List.length qs; List.length (g_atomic_numbers g'); 3%nat] qs) = snd (calc_polarizabilities cast g [List.length ps; List.length (g_atomic_numbers g); 3%nat] ps).
Proof.
  intros HG HG' HS HW HF. destruct (embed_ok g (proj2 (proj2 (proj2 (proj2 HG))))) as [ne HM]. destruct (embed_ok g' (proj2 (proj2 (proj2 (proj2 HG'))))) as [ne' HM'].
  rewrite (calc_eq cast g' qs ne' HG' HM'), (calc_eq cast g ps ne HG HM). f_equal. f_equal.
  assert (HL : List.length ps = List.length qs) by (clear - HF; induction HF; cbn; congruence). rewrite HL, !map_map. apply map_ext. intros b.
  assert (EF : finish g' = finish g). { destruct HW as (_ & E1 & E2 & _). unfold finish. rewrite E1, E2. reflexivity. }
  rewrite EF. f_equal. unfold block. f_equal. rewrite !chop_firstn.
  assert (HP : Forall2 (fun p q => List.length p = List.length (g_atomic_numbers g) /\ reordered s p q) (firstn 100 (skipn (b * 100) ps)) (firstn 100 (skipn (b * 100) qs))).
  { assert (S1 : forall n, Forall2 (fun p q => List.length p = List.length (g_atomic_numbers g) /\ reordered s p q) (skipn n ps) (skipn n qs)) by (clear - HF; intros n; revert n; induction HF; intros [|n]; cbn; auto).
    specialize (S1 (b * 100)). revert S1. generalize (skipn (b * 100) ps) (skipn (b * 100) qs). clear. intros u v H. generalize 100 as n. induction H; intros [|n]; cbn; auto. }
  revert HP. generalize (firstn 100 (skipn (b * 100) ps)) (firstn 100 (skipn (b * 100) qs)). clear HF HL ps qs. intros u v H.
  change (g_lattice (eval_mode g')) with (g_lattice g'). change (g_lattice (eval_mode g)) with (g_lattice g). replace (g_lattice g') with (g_lattice g) by (symmetry; apply HW). set (L := cast_m cast (g_lattice g)).
  assert (H2 : Forall2 (fun p q => sample_result (eval_mode g') L ne' q = sample_result (eval_mode g) L ne p /\ (all_some (sample_pols (eval_mode g') L ne' q) = None <-> all_some (sample_pols (eval_mode g) L ne p) = None)) (map (map (vmap cast)) u) (map (map (vmap cast)) v)).
  { induction H as [|p q u v [Lp Hq] _ IH]; cbn [map]; constructor; [|exact IH].
    apply (twin_result swap s (eval_mode g) (eval_mode g') ne ne' L HG HG' HS (on_eval _ _ _ _ HW) HM HM' eq_refl eq_refl); [rewrite map_length; exact Lp|].
    destruct Hq as [Q1 Q2]. split; [rewrite !map_length; exact Q1|]. intros i Hi. rewrite map_length in Hi. rewrite !nth_error_map, Q2 by exact Hi. reflexivity. }
  generalize dependent (map (map (vmap cast)) v). generalize (map (map (vmap cast)) u). clear H u v. intros u v H.
  assert (ND : (exists q, In q v /\ all_some (sample_pols (eval_mode g') L ne' q) = None) <-> (exists p, In p u /\ all_some (sample_pols (eval_mode g) L ne p) = None)).
  { induction H as [|p q u v [_ [A1 A2]] _ [I1 I2]]; [split; intros (x & [] & _)|]. split.
    - intros (x & [<- | Hx] & Ex); [exists p; split; [left; reflexivity|apply A1, Ex]|]. destruct I1 as (y & Hy & Ey); [exists x; split; assumption|]. exists y. split; [right|]; assumption.
    - intros (x & [<- | Hx] & Ex); [exists q; split; [left; reflexivity|apply A2, Ex]|]. destruct I2 as (y & Hy & Ey); [exists x; split; assumption|]. exists y. split; [right|]; assumption. }
  assert (EM : map (sample_result (eval_mode g') L ne') v = map (sample_result (eval_mode g) L ne) u) by (clear ND; induction H as [|p q u v [E _] _ IH]; cbn [map]; congruence).
  assert (LU : List.length v = List.length u) by (apply (f_equal (@List.length _)) in EM; rewrite !map_length in EM; exact EM).
  assert (BD : forall (h : potgnn) nn (w : list (list V3)), (exists q, In q w /\ all_some (sample_pols h L nn q) = None) \/ Forall (fun q => all_some (sample_pols h L nn q) <> None) w).
  { intros h nn w. induction w as [|x w [ (q & Hq & Eq) | IH]]; [right; constructor|left; exists q; split; [right|]; assumption|]. destruct (all_some (sample_pols h L nn x)) eqn:E; [right; constructor; [congruence|exact IH]|left; exists x; split; [left; reflexivity|exact E]]. }
  destruct (BD (eval_mode g) ne u) as [Hb | Hg].
  - pose proof (proj2 ND Hb) as Hb'. destruct Hb as (p & Hp & Ep). destruct Hb' as (q & Hq & Eq). rewrite (sub_bad _ _ _ v q Hq Eq), (sub_bad _ _ _ u p Hp Ep). clear - LU. revert v LU. induction u as [|a u IH]; intros [|c v] E; cbn in *; try discriminate; [reflexivity|]. f_equal. apply IH. congruence.
  - destruct (BD (eval_mode g') ne' v) as [Hb' | Hg']; [exfalso; apply ND in Hb'; destruct Hb' as (p & Hp & Ep); rewrite Forall_forall in Hg; exact (Hg p Hp Ep)|].
    rewrite (sub_good _ _ _ v Hg'), (sub_good _ _ _ u Hg). exact EM.
Qed.

(** ** Networks made from reordered structures *)
Lemma new_parts dimenet order w cast lattice numbers positions cutoff node edge passes start stop ms ss mean stddev g :
  potgnn_new dimenet order w cast lattice numbers positions cutoff node edge passes start stop ms ss mean stddev = Ok g ->
  g_lattice g = lattice /\ g_atomic_numbers g = numbers /\ g_mean g = mean /\ g_stddev g = stddev /\
  g_ref_edges g = fst (fst (radius_graph_pbc [cast_m cast lattice] (List.length positions) [map (vmap cast) positions] cutoff)) /\
  bt_ref (g_triplets g) = dimenet (pairs_of (g_ref_edges g)) (List.length numbers) /\
  assign_types order 0 (repeat (-1)%Z 119) = Ok (g_atom_type_map g) /\ gaussian_new start stop (Z.to_nat edge) = Ok (g_gaussian g).
Proof.
  intros H. unfold potgnn_new in H. repeat match type of H with (if ?c then _ else _) = _ => destruct c; [discriminate|] end.
  destruct (verify_ndarray_shape ms _); [|discriminate]. destruct (verify_ndarray_shape ss _); [|discriminate]. cbn [rbind] in H. fold (cast_m cast lattice) in H.
  destruct (radius_graph_pbc [cast_m cast lattice] (List.length positions) [map (vmap cast) positions] cutoff) as [[es us] ds] eqn:ER.
  destruct (assign_types order 0 (repeat (-1)%Z 119)) as [tm|]; [|discriminate]. cbn [rbind] in H. destruct (gaussian_new start stop (Z.to_nat edge)) as [gf|]; [|discriminate]. cbn [rbind] in H. injection H as <-.
  repeat split; reflexivity.
Qed.
Lemma reordered_inv {A} (s : nat -> nat) (l l' : list A) k x : reordering (List.length l) s -> reordered s l l' -> nth_error l' k = Some x -> exists i, i < List.length l /\ s i = k /\ nth_error l i = Some x.
Proof.
  intros HS HR E. pose proof (reordered_moved s l l' HS HR) as M. apply carried_perm in M as P. pose proof (some_lt _ _ _ E) as Hk. rewrite (proj1 HR) in Hk.
  assert (SJ : exists i, i < List.length l /\ s i = k).
  { assert (IN : incl (seq 0 (List.length l)) (map s (seq 0 (List.length l)))).
    { apply NoDup_length_incl; [apply map_nodup_in; [|apply seq_NoDup]; intros x0 y0 X Y; apply in_seq in X, Y; apply (proj2 HS); lia|rewrite map_length; lia|]. intros y Hy. apply in_map_iff in Hy. destruct Hy as (z & <- & Hz). apply in_seq in Hz. apply in_seq. pose proof (proj1 HS z). lia. }
    assert (Hin : In k (map s (seq 0 (List.length l)))) by (apply IN, in_seq; lia). apply in_map_iff in Hin. destruct Hin as (i & <- & Hi). apply in_seq in Hi. exists i. split; [lia|reflexivity]. }
  destruct SJ as (i & Hi & Ei). exists i. split; [exact Hi|]. split; [exact Ei|]. rewrite <- (proj2 HR i Hi), Ei. exact E.
Qed.
