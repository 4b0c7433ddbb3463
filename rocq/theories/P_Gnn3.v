(** PotGNN: invariants over histories, predictions *)
From Coq Require Import ZArith Reals Bool Arith List Lia Lra.
From Verif Require Import Base LinAlg M_Validate M_StructUtils S_Lattice P_StructUtils M_Torch S_Torch P_Torch P_Torch2 M_Gnn S_Gnn P_Gnn P_Gnn2.
Import ListNotations.
Local Open Scope R_scope.

(** ** Invariant *)
Definition types_ok (g : potgnn) : Prop := forall z, In z (g_atomic_numbers g) ->
  exists k, py_index (List.length (g_atom_type_map g)) z = Some k /\ (0 <= nth k (g_atom_type_map g) (-1) < Z.of_nat (List.length (g_embedding g)))%Z.
Definition edges_ok (g : potgnn) : Prop := Forall (fun '(s, i, j) => i <> j /\ i < List.length (g_atomic_numbers g) /\ j < List.length (g_atomic_numbers g))%nat (g_ref_edges g).
Definition net_ok (g : potgnn) : Prop :=
  coherent (g_triplets g) /\ bt_num_nodes (g_triplets g) = List.length (g_atomic_numbers g) /\ bt_num_edges (g_triplets g) = List.length (g_ref_edges g) /\
  edges_ok g /\ types_ok g.
Lemma embed_ok g : types_ok g -> exists ne, mapM (node_embedding g) (g_atomic_numbers g) = Ok ne.
Proof.
  unfold types_ok. generalize (g_atomic_numbers g) as zs. induction zs as [|z zs IH]; intros H; [eexists; reflexivity|].
  destruct IH as [ne E]; [intros; apply H; right; assumption|]. destruct (H z (or_introl eq_refl)) as (k & K1 & K2). cbn [mapM]. rewrite E.
  assert (exists v, node_embedding g z = Ok v) as [v ->]; [|eexists; reflexivity]. unfold node_embedding, embed. rewrite K1.
  destruct (Z.ltb_spec (nth k (g_atom_type_map g) (-1)%Z) 0); [lia|]. destruct (nth_error (g_embedding g) (Z.to_nat (nth k (g_atom_type_map g) (-1)%Z))) eqn:E'; [eexists; reflexivity|].
  apply nth_error_None in E'. lia.
Qed.
(** What histories leave alone *)
Definition same_net (g0 g : potgnn) : Prop :=
  g_lattice g = g_lattice g0 /\ g_atomic_numbers g = g_atomic_numbers g0 /\ g_mean g = g_mean g0 /\ g_stddev g = g_stddev g0 /\ g_ref_edges g = g_ref_edges g0 /\
  g_atom_type_map g = g_atom_type_map g0 /\ g_gaussian g = g_gaussian g0 /\ List.length (g_embedding g) = List.length (g_embedding g0) /\
  same_graph (g_triplets g) (g_triplets g0) /\ coherent (g_triplets g).
Lemma same_net_refl g : net_ok g -> same_net g g.
Proof. intros (H & _). repeat (split; [reflexivity|]). split; [repeat split|exact H]. Qed.
Lemma same_net_ok g0 g : net_ok g0 -> same_net g0 g -> net_ok g.
Proof.
  intros (C & N & E & R & T) (S1 & S2 & S3 & S4 & S5 & S6 & S7 & S8 & (G1 & G2 & G3 & G4) & C'). unfold net_ok, edges_ok, types_ok in *. rewrite S2, S5, S6, S8.
  repeat (split; [congruence || assumption|]). exact T.
Qed.
Lemma same_net_triplets g0 g st : same_net g0 g -> same_graph st (g_triplets g) -> coherent st -> same_net g0 (set_triplets g st).
Proof.
  intros (S1 & S2 & S3 & S4 & S5 & S6 & S7 & S8 & (G1 & G2 & G3 & G4) & C') (T1 & T2 & T3 & T4) C. repeat (split; [assumption|]). split; [|exact C]. repeat split; cbn; congruence.
Qed.
Lemma forward_state g lattice numbers n ps : fst (forward g lattice numbers n ps) = g \/
  fst (forward g lattice numbers n ps) = set_triplets g (fst (get_triplets (g_triplets g) (Z.of_nat (List.length lattice)))).
Proof.
  unfold forward. destruct (batch_graph g lattice n ps) as [[a b] c]. destruct (mapM (node_embedding g) (concat numbers)); [|left; reflexivity]. right.
  destruct (get_triplets (g_triplets g) (Z.of_nat (List.length lattice))). reflexivity.
Qed.
Lemma same_net_forward g0 g lattice numbers n ps : same_net g0 g -> same_net g0 (fst (forward g lattice numbers n ps)).
Proof.
  intros H. destruct (forward_state g lattice numbers n ps) as [-> | ->]; [exact H|]. destruct H as (S1 & S2 & S3 & S4 & S5 & S6 & S7 & S8 & G & C).
  destruct (get_triplets_eq (g_triplets g) (Z.of_nat (List.length lattice)) C) as (_ & G' & C'). apply same_net_triplets; [|exact G'|exact C'].
  repeat (split; [assumption|]). assumption.
Qed.
Lemma same_net_eval g0 g : same_net g0 g -> same_net g0 (eval_mode g).
Proof. intros H. exact H. Qed.
Lemma same_net_predict cast g0 subs : forall g start acc, same_net g0 g -> same_net g0 (fst (predict cast g subs start acc)).
Proof.
  induction subs as [|sub subs IH]; intros g start acc H; [exact H|]. cbn [predict].
  match goal with |- context [forward g ?a ?b ?c ?d] => pose proof (same_net_forward g0 g a b c d H) as HF; destruct (forward g a b c d) as [g' [p|er]] end; cbn [fst] in *; [|exact HF].
  apply IH. exact HF.
Qed.
Lemma same_net_calc cast g0 g shape ps : same_net g0 g -> same_net g0 (fst (calc_polarizabilities cast g shape ps)).
Proof.
  intros H. unfold calc_polarizabilities. destruct (verify_ndarray_shape _ _); [|exact H]. destruct (batch_positions _ _ _); [|exact H].
  match goal with |- context [predict cast ?a ?b ?c ?d] => pose proof (same_net_predict cast g0 b a c d (same_net_eval g0 g H)) as HP; destruct (predict cast a b c d) end. exact HP.
Qed.
Lemma history_same g0 g : net_ok g0 -> history g0 g -> same_net g0 g.
Proof.
  intros H0. induction 1 as [|g w tr _ IH Hw|g lat zs n ps _ IH|g cast sh ps _ IH].
  - apply same_net_refl, H0.
  - destruct IH as (S1 & S2 & S3 & S4 & S5 & S6 & S7 & S8 & G & C). split; [exact S1|]. split; [exact S2|]. split; [exact S3|]. split; [exact S4|]. split; [exact S5|]. split; [exact S6|]. split; [exact S7|]. split; [exact Hw|]. split; assumption.
  - apply same_net_forward, IH.
  - apply same_net_calc, IH.
Qed.

(** ** Construction *)
Lemma set_nth_nth {A} (l : list A) k j x d : (k < List.length l)%nat -> nth j (set_nth k x l) d = if Nat.eqb j k then x else nth j l d.
Proof.
  intros H. destruct (Nat.eqb_spec j k) as [-> | N].
  - apply nth_error_nth. rewrite set_nth_nth_error. destruct (Nat.eqb_spec k k); [|contradiction]. destruct (Nat.ltb_spec k (List.length l)); [reflexivity|lia].
  - rewrite !nth_default_eq || idtac. assert (E : nth_error (set_nth k x l) j = nth_error l j) by (rewrite set_nth_nth_error; destruct (Nat.eqb_spec j k); [contradiction|reflexivity]).
    destruct (nth_error l j) as [y|] eqn:El; [rewrite (nth_error_nth _ _ _ E), (nth_error_nth _ _ _ El); reflexivity|]. apply nth_error_None in E, El. rewrite !nth_overflow by assumption. reflexivity.
Qed.
Lemma assign_types_spec order : forall t m m', assign_types order t m = Ok m' -> (0 <= t)%Z ->
  List.length m' = List.length m /\
  (forall z, In z order -> exists k, py_index (List.length m) z = Some k /\ (t <= nth k m' (-1) < t + Z.of_nat (List.length order))%Z) /\
  (forall k, nth k m' (-1)%Z = nth k m (-1)%Z \/ (t <= nth k m' (-1) < t + Z.of_nat (List.length order))%Z).
Proof.
  induction order as [|z order IH]; intros t m m' H Ht; cbn [assign_types] in H.
  - injection H as <-. split; [reflexivity|]. split; [intros ? []|]. left. reflexivity.
  - destruct (py_index (List.length m) z) as [k|] eqn:Ek; [|discriminate]. apply IH in H; [|lia]. destruct H as (H1 & H2 & H3). rewrite set_nth_length in *.
    assert (Hk : (k < List.length m)%nat) by (apply py_index_Some in Ek; lia).
    split; [exact H1|]. cbn [List.length]. split.
    + intros z' [<- | Hz].
      * exists k. split; [exact Ek|]. destruct (H3 k) as [E | E]; [|lia]. rewrite E. rewrite set_nth_nth by exact Hk. rewrite Nat.eqb_refl. lia.
      * destruct (H2 z' Hz) as (k' & E1 & E2). exists k'. split; [exact E1|]. lia.
    + intros k'. destruct (H3 k') as [E | E]; [|right; lia]. rewrite set_nth_nth in E by exact Hk. destruct (Nat.eqb_spec k' k); [right; lia|left; exact E].
Qed.
Lemma built_ok lattice numbers g0 : built lattice numbers g0 -> net_ok g0 /\ g_lattice g0 = lattice /\ g_atomic_numbers g0 = numbers.
Proof.
  intros (dn & order & w & cast & pos & cutoff & sn & se & nm & gs & ge & ms & ss & mean & std & H & Hl & (Hnd & Hset) & Hw & HT). unfold potgnn_new in H.
  repeat match type of H with (if ?c then _ else _) = _ => destruct c; [discriminate|] end.
  destruct (verify_ndarray_shape ms _); [|discriminate]. destruct (verify_ndarray_shape ss _); [|discriminate]. cbn [rbind] in H.
  fold (cast_m cast lattice) in H.
  pose proof (f_C70_edges [cast_m cast lattice] (List.length pos) [map (vmap cast) pos] cutoff eq_refl ltac:(constructor; [apply map_length|constructor])) as HE.
  destruct (radius_graph_pbc [cast_m cast lattice] (List.length pos) [map (vmap cast) pos] cutoff) as [[es us] ds] eqn:ER. cbn [fst] in HE.
  destruct (assign_types order 0 (repeat (-1)%Z 119)) as [tm|] eqn:ET; [|discriminate]. cbn [rbind] in H. destruct (gaussian_new gs ge (Z.to_nat se)) as [gf|]; [|discriminate]. cbn [rbind] in H. injection H as <-.
  cbn [g_ref_edges g_lattice g_atomic_numbers] in *. split; [|split; reflexivity]. unfold net_ok. cbn [g_triplets g_atomic_numbers g_ref_edges]. split; [apply new_coherent, HT|]. split; [reflexivity|]. split; [reflexivity|]. split.
  - unfold edges_ok. cbn [g_ref_edges g_atomic_numbers]. apply Forall_forall. intros [[s0 ia] ib] Hin. apply HE in Hin. destruct Hin as (L & p & i & j & v & EL & EP & -> & -> & N & Hv & _).
    destruct s0 as [|s0]; [|destruct s0; discriminate]. cbn in EP. injection EP as <-. destruct Hv as (pi & pj & _ & Ei & Ej & _).
    assert (i < List.length (map (vmap cast) pos))%nat by (apply nth_error_Some; congruence). assert (j < List.length (map (vmap cast) pos))%nat by (apply nth_error_Some; congruence). rewrite map_length in *. cbn. lia.
  - unfold types_ok. cbn [g_atomic_numbers g_atom_type_map g_embedding]. intros z Hz. apply Hset in Hz. apply assign_types_spec in ET; [|lia]. destruct ET as (E1 & E2 & _). destruct (E2 z Hz) as (k & K1 & K2). rewrite E1. exists k. split; [exact K1|]. rewrite Hw. lia.
Qed.

(** ** Predictions *)
Section Predict.
Context (cast : R -> R) (g : potgnn) (ne : list vec).
Context (HG : net_ok g) (HM : mapM (node_embedding g) (g_atomic_numbers g) = Ok ne) (Htr : g_training g = false).
Let L := cast_m cast (g_lattice g).
Let cs : list V3 -> list V3 := map (vmap cast).
Definition block (sub : list (list V3)) : list (option M3) := map (option_map to_tensor) (sub_result g L ne (map cs sub)).
Lemma sub_result_length l : List.length (sub_result g L ne l) = List.length l.
Proof. unfold sub_result. destruct (all_some _); rewrite map_length; reflexivity. Qed.
Lemma block_length sub : List.length (block sub) = List.length sub.
Proof. unfold block. rewrite map_length, sub_result_length, map_length. reflexivity. Qed.
Lemma predict_eq subs : Forall (fun s => s <> []) subs -> forall st start acc, coherent st -> same_graph st (g_triplets g) -> (start + List.length (concat subs) <= List.length acc)%nat ->
  snd (predict cast (set_triplets g st) subs start acc) = Ok (firstn start acc ++ concat (map block subs) ++ skipn (start + List.length (concat subs)) acc).
Proof.
  induction 1 as [|sub subs Hs _ IH]; intros st start acc HC HS HL.
  - cbn. rewrite Nat.add_0_r, firstn_skipn. reflexivity.
  - cbn [predict]. fold (cast_m cast (g_lattice (set_triplets g st))). change (cast_m cast (g_lattice (set_triplets g st))) with L.
    destruct HG as (C0 & N0 & E0 & _ & _). destruct HS as (G1 & G2 & G3 & G4).
    pose proof (forward_result (set_triplets g st) L ne HC (eq_trans G1 N0) (eq_trans G2 E0) HM Htr (map cs sub) ltac:(destruct sub; [contradiction|discriminate])) as HF.
    rewrite map_length in HF. unfold cs in HF at 1. rewrite HF.
    change (fst (get_triplets (g_triplets (set_triplets g st)) (Z.of_nat (List.length sub)))) with (fst (get_triplets st (Z.of_nat (List.length sub)))).
    set (st' := fst (get_triplets st (Z.of_nat (List.length sub)))). change (set_triplets (set_triplets g st) st') with (set_triplets g st').
    destruct (get_triplets_eq st (Z.of_nat (List.length sub)) HC) as (_ & (S1 & S2 & S3 & S4) & HC'). fold st' in S1, S2, S3, S4, HC'.
    assert (EB : map (option_map to_tensor) (sub_result (set_triplets g st) L ne (map cs sub)) = block sub).
    { unfold block. f_equal. unfold sub_result, sample_result, sample_pols, sample_embedding. cbn [set_triplets g_triplets g_node_blocks g_edge_blocks g_gaussian g_ref_edges]. rewrite G3. reflexivity. }
    rewrite EB. cbn [concat map] in *. rewrite app_length in *.
    rewrite IH; [|exact HC'|repeat split; congruence|].
    + f_equal. unfold set_slice. pose proof (block_length sub) as BL.
      assert (F : List.length (firstn start acc) = start) by (rewrite firstn_length; lia).
      rewrite (app_assoc (firstn start acc)). rewrite firstn_app. rewrite app_length, F, BL, Nat.sub_diag. cbn [firstn]. rewrite app_nil_r. rewrite firstn_all2 by (rewrite app_length, F, BL; lia).
      rewrite <- !app_assoc. do 3 f_equal. rewrite app_assoc, skipn_app. rewrite skipn_all2 by (rewrite app_length, F, BL; lia). cbn [app]. rewrite app_length, F, BL. rewrite skip_skip. f_equal. lia.
    + unfold set_slice. rewrite !app_length, firstn_length, skipn_length, block_length. lia.
Qed.
End Predict.

Definition finish (g : potgnn) (r : option M3) : option M3 := option_map (fun t => madd (hadamard t (g_stddev g)) (g_mean g)) r.
Lemma chops_nonempty {A} (l : list A) k : (0 < k)%nat -> Forall (fun s => s <> []) (map (chop k l) (seq 0 ((List.length l + k - 1) / k))).
Proof.
  intros H. pose proof (ceil_spec (List.length l) k H) as [H1 H2]. apply Forall_map. apply Forall_forall. intros b Hb. apply in_seq in Hb. rewrite chop_firstn. intros E.
  apply (f_equal (@List.length A)) in E. rewrite firstn_length, skipn_length in E. cbn in E. nia.
Qed.
Lemma calc_eq cast g ps ne : net_ok g -> mapM (node_embedding g) (g_atomic_numbers g) = Ok ne ->
  snd (calc_polarizabilities cast g [List.length ps; List.length (g_atomic_numbers g); 3%nat] ps) =
  Ok (concat (map (fun sub => map (finish g) (block cast (eval_mode g) ne sub)) (map (chop 100 ps) (seq 0 ((List.length ps + 99) / 100))))).
Proof.
  intros HG HM. unfold calc_polarizabilities. replace (verify_ndarray_shape [List.length ps; List.length (g_atomic_numbers g); 3%nat] [None; Some (List.length (g_atomic_numbers g)); Some 3%nat]) with (@Ok unit tt)
    by (unfold verify_ndarray_shape; cbn; rewrite Nat.eqb_refl; reflexivity).
  change 100%Z with (Z.of_nat 100). rewrite (batches_eq (List.length ps) (List.length (g_atomic_numbers g)) ps 100) by lia. replace (List.length ps + 100 - 1)%nat with (List.length ps + 99)%nat by lia.
  set (subs := map (chop 100 ps) (seq 0 ((List.length ps + 99) / 100))).
  assert (HM' : mapM (node_embedding (eval_mode g)) (g_atomic_numbers (eval_mode g)) = Ok ne) by exact HM.
  assert (Hc : List.length (concat subs) = List.length ps). { unfold subs. rewrite chop_concat; [reflexivity|lia|]. pose proof (ceil_spec (List.length ps) 100 ltac:(lia)) as [H1 _]. replace (List.length ps + 100 - 1)%nat with (List.length ps + 99)%nat in H1 by lia. cbn [Nat.add]. exact H1. }
  pose proof (predict_eq cast (eval_mode g) ne HG HM' eq_refl subs) as HP. specialize (HP ltac:(unfold subs; replace (List.length ps + 99)%nat with (List.length ps + 100 - 1)%nat by lia; apply chops_nonempty; lia) (g_triplets g) 0%nat (repeat (Some m0) (List.length ps)) (proj1 HG) ltac:(repeat split)).
  rewrite repeat_length in HP. specialize (HP ltac:(rewrite Hc; lia)). change (set_triplets (eval_mode g) (g_triplets g)) with (eval_mode g) in HP.
  destruct (predict cast (eval_mode g) subs 0 (repeat (Some m0) (List.length ps))) as [g' r]. cbn [snd] in *. rewrite HP. cbn [rbind firstn app Nat.add]. f_equal.
  rewrite Hc, skipn_all2 by (rewrite repeat_length; lia). rewrite app_nil_r. rewrite map_concat. reflexivity.
Qed.

(** ** Which samples give NaN *)
Lemma good_sample cast g ne p : net_ok g -> mapM (node_embedding g) (g_atomic_numbers g) = Ok ne -> mdet (cast_m cast (g_lattice g)) <> 0 -> apart cast (List.length (g_atomic_numbers g)) p ->
  all_some (sample_pols g (cast_m cast (g_lattice g)) ne (map (vmap cast) p)) <> None.
Proof.
  intros (HC & HN & HE & HR & HT) HM HD (Hl & HA). destruct (all_some_some (sample_pols g (cast_m cast (g_lattice g)) ne (map (vmap cast) p))) as [r ->]; [|discriminate].
  unfold sample_pols. apply Forall_map. apply Forall_forall. intros [x u] Hin. apply in_combine_r in Hin. unfold sample_vectors in Hin. apply in_map_iff in Hin. destruct Hin as ([[s i] j] & Hu & Hij).
  unfold edges_ok in HR. rewrite Forall_forall in HR. specialize (HR _ Hij). cbn in HR. destruct HR as (Nij & Hi & Hj).
  assert (Hv : cart_displacement [cast_m cast (g_lattice g)] [map (vmap cast) p] 0 i j <> v0).
  { unfold cart_displacement. cbn [nth]. intros E. destruct (nth_error p i) as [pi|] eqn:Ei; [|apply nth_error_None in Ei; lia]. destruct (nth_error p j) as [pj|] eqn:Ej; [|apply nth_error_None in Ej; lia].
    rewrite (nth_error_nth (map (vmap cast) p) i v0 (map_nth_error _ _ _ Ei)), (nth_error_nth (map (vmap cast) p) j v0 (map_nth_error _ _ _ Ej)) in E.
    destruct (minv_exists _ HD) as [inv Einv]. apply minv_Ok in Einv. destruct Einv as (I1 & _).
    assert (E0 : vmap wrapd (vsub (vmap cast pj) (vmap cast pi)) = v0).
    { rewrite <- (vmul_mI (vmap wrapd _)), <- I1, vmul_mmul, E. apply vmul_v0. }
    apply (HA i j pi pj Nij Ei Ej). apply vcongr_sym. assert (C : forall a b, wrapd (a - b) = 0 -> congr1 a b). { intros a b Ew. pose proof (wrapd_congr (a - b)) as [k K]. rewrite Ew in K. exists k. lra. }
    unfold vcongr, vall2. injection E0. cbn [vx vy vz vmap vsub]. intros Z3 Z2 Z1. repeat split; apply C; assumption. }
  destruct (normalized_spec _ Hv) as (b & Eb & _ & Db). rewrite Eb in Hu. subst u. destruct (epv_some x b) as (r & -> & _); [|discriminate]. intros ->. rewrite vdot_v0_l in Db. lra.
Qed.
Lemma bad_sample cast g ne p : net_ok g -> mapM (node_embedding g) (g_atomic_numbers g) = Ok ne -> collapsed cast g p ->
  all_some (sample_pols g (cast_m cast (g_lattice g)) ne (map (vmap cast) p)) = None.
Proof.
  intros (HC & HN & HE & HR & HT) HM (s & i & j & pi & pj & Hij & Ei & Ej & Hcg). apply all_some_in_none.
  apply In_nth_error in Hij. destruct Hij as [k Hk].
  assert (Hu : nth_error (sample_vectors g (cast_m cast (g_lattice g)) (map (vmap cast) p)) k = Some None).
  { unfold sample_vectors. etransitivity; [exact (map_nth_error (fun '(_, i, j) => normalized (cart_displacement [cast_m cast (g_lattice g)] [map (vmap cast) p] 0 i j)) _ _ Hk)|]. f_equal. cbv beta iota.
    replace (cart_displacement [cast_m cast (g_lattice g)] [map (vmap cast) p] 0 i j) with v0.
    - unfold normalized. destruct (Reqb (vnorm v0) 0) eqn:E; [reflexivity|]. apply Reqb_false in E. exfalso. apply E, norm_zero. reflexivity.
    - unfold cart_displacement. cbn [nth]. rewrite (nth_error_nth (map (vmap cast) p) i v0 (map_nth_error _ _ _ Ei)), (nth_error_nth (map (vmap cast) p) j v0 (map_nth_error _ _ _ Ej)).
      replace (vmap wrapd (vsub (vmap cast pj) (vmap cast pi))) with v0; [symmetry; apply vmul_v0|]. assert (W : forall a b, congr1 a b -> 0 = wrapd (b - a)). { intros a b [z Hz]. apply wrapd_unique. split; [exists (- z)%Z; rewrite opp_IZR; lra|lra]. }
      destruct Hcg as (Q1 & Q2 & Q3). apply V3_eq; cbn [vx vy vz vmap vsub v0]; apply W; assumption. }
  pose proof (sample_pols_length g (cast_m cast (g_lattice g)) ne HC HN HE HM (map (vmap cast) p)) as HL.
  assert (Hk2 : (k < List.length (g_ref_edges g))%nat) by (apply nth_error_Some; intros E; pose proof (eq_trans (eq_sym Hk) E); discriminate).
  unfold sample_pols in *. rewrite map_length, combine_length in HL.
  destruct (nth_error (sample_embedding g (cast_m cast (g_lattice g)) ne (map (vmap cast) p)) k) as [x|] eqn:Ex; [|apply nth_error_None in Ex; lia].
  apply in_map_iff. exists (x, None). split; [apply epv_none|].
  apply (nth_error_In _ k). clear - Ex Hu. revert Ex Hu. generalize (sample_embedding g (cast_m cast (g_lattice g)) ne (map (vmap cast) p)) as a. generalize (sample_vectors g (cast_m cast (g_lattice g)) (map (vmap cast) p)) as b.
  revert k. induction k as [|k IH]; intros [|y b] [|z a] E1 E2; cbn in *; try discriminate; [congruence|]. apply IH; assumption.
Qed.
