(** PotGNN: predictions do not depend on the order of the atoms (structures) *)
From Coq Require Import ZArith Reals Bool Arith List Permutation FinFun Lia Lra.
From Verif Require Import Base LinAlg M_Validate M_StructUtils S_Lattice P_StructUtils M_Torch S_Torch P_Torch P_Torch2 M_Gnn S_Gnn P_Gnn P_Gnn2 P_Gnn3 P_Gnn4 S_Relabel P_Relabel P_Relabel2 P_Relabel3.
Import ListNotations.
Local Open Scope nat_scope.

Definition graph_pairs L p c := pairs_of (fst (fst (radius_graph_pbc [L] (List.length p) [p] c))).
Lemma pairs_in L p c i j : In (i, j) (graph_pairs L p c) <-> i <> j /\ exists v, half_cell_vector L p i j v /\ (vnorm v <= c)%R.
Proof.
  unfold graph_pairs, pairs_of. rewrite in_map_iff. split.
  - intros ([[s a] b] & E & H). injection E as -> ->. apply f_C70_edges in H; [|reflexivity|constructor; [reflexivity|constructor]]. destruct H as (L' & p' & i' & j' & v & EL & EP & -> & -> & N & H & HC).
    destruct s as [|s]; [|destruct s; discriminate]. cbn in EL, EP. injection EL as <-. injection EP as <-. cbn. split; [exact N|]. exists v. split; assumption.
  - intros (N & v & H & HC). exists (0, i, j). split; [reflexivity|]. apply f_C70_edges; [reflexivity|constructor; [reflexivity|constructor]|]. exists L, p, i, j, v. repeat split; assumption.
Qed.
Lemma pairs_nodup L p c : NoDup (graph_pairs L p c).
Proof.
  unfold graph_pairs, pairs_of. apply map_nodup_in.
  - intros [[s a] b] [[s' a'] b'] H H' E. injection E as -> ->. f_equal. f_equal. pose proof (f_C70_edges [L] (List.length p) [p] c eq_refl ltac:(constructor; [reflexivity|constructor])) as HE.
    apply HE in H. apply HE in H'. destruct H as (? & ? & ? & ? & ? & EL & _). destruct H' as (? & ? & ? & ? & ? & EL' & _). destruct s as [|s]; [|destruct s; discriminate]. destruct s' as [|s']; [reflexivity|destruct s'; discriminate].
  - exact (proj2 (f_C70_order [L] (List.length p) [p] c eq_refl)).
Qed.
Lemma pairs_lt L p c i j : In (i, j) (graph_pairs L p c) -> i < List.length p /\ j < List.length p.
Proof. intros H. apply pairs_in in H. destruct H as (_ & v & (pi & pj & d & Ei & Ej & _) & _). split; eapply some_lt; eassumption. Qed.
Lemma pairs_perm s L p q c : reordering (List.length p) s -> reordered s p q -> Permutation (map (both s) (graph_pairs L p c)) (graph_pairs L q c).
Proof.
  intros HS HR. apply NoDup_Permutation; [|apply pairs_nodup|].
  - apply map_nodup_in; [|apply pairs_nodup]. intros [i j] [i' j'] H H' E. unfold both in E. cbn in E. injection E as E1 E2. apply pairs_lt in H, H'. destruct H, H'. f_equal; apply (proj2 HS); assumption.
  - intros [a b]. rewrite in_map_iff. split.
    + intros ([i j] & E & H). unfold both in E. cbn in E. injection E as <- <-. pose proof (pairs_lt _ _ _ _ _ H) as [Hi Hj]. apply pairs_in in H. apply pairs_in. destruct H as (N & v & (pi & pj & d & Ei & Ej & Hd) & HC).
      split; [intros E; apply N; apply (proj2 HS); assumption|]. exists v. split; [|exact HC]. exists pi, pj, d. rewrite !(proj2 HR) by assumption. split; [exact Ei|]. split; [exact Ej|exact Hd].
    + intros H. apply pairs_in in H. destruct H as (N & v & (pi & pj & d & Ei & Ej & Hd) & HC).
      destruct (reordered_inv s p q a pi HS HR Ei) as (i & Hi & <- & Ei'). destruct (reordered_inv s p q b pj HS HR Ej) as (j & Hj & <- & Ej').
      exists (i, j). split; [reflexivity|]. apply pairs_in. split; [congruence|]. exists v. split; [|exact HC]. exists pi, pj, d. split; [exact Ei'|]. split; [exact Ej'|exact Hd].
Qed.
Lemma reordered_map {A B} (f : A -> B) s l l' : reordered s l l' -> reordered s (map f l) (map f l').
Proof. intros [H1 H2]. split; [rewrite !map_length; exact H1|]. intros i Hi. rewrite map_length in Hi. rewrite !nth_error_map, H2 by exact Hi. reflexivity. Qed.

Section Main.
Context (swap : bool) (dimenet : list (nat * nat) -> nat -> triplets) (HD : triplet_finder swap dimenet).
Lemma new_triplets order w cast lattice numbers positions cutoff node edge passes start stop ms ss mean stddev g :
  potgnn_new dimenet order w cast lattice numbers positions cutoff node edge passes start stop ms ss mean stddev = Ok g ->
  List.length positions = List.length numbers ->
  lists_triplets swap (pairs_of (g_ref_edges g)) (bt_ref (g_triplets g)) /\ triplets_for (List.length numbers) (List.length (g_ref_edges g)) (dimenet (pairs_of (g_ref_edges g)) (List.length numbers)).
Proof.
  intros H HL. destruct (new_parts _ _ _ _ _ _ _ _ _ _ _ _ _ _ _ _ _ _ H) as (_ & _ & _ & _ & EE & ET & _ & _).
  assert (EP : pairs_of (g_ref_edges g) = graph_pairs (cast_m cast lattice) (map (vmap cast) positions) cutoff) by (rewrite EE; unfold graph_pairs; rewrite map_length; reflexivity).
  assert (HR : forall e, In e (pairs_of (g_ref_edges g)) -> fst e <> snd e /\ fst e < List.length numbers /\ snd e < List.length numbers).
  { intros [i j] Hin. rewrite EP in Hin. pose proof (pairs_lt _ _ _ _ _ Hin) as HX. rewrite map_length, HL in HX. apply pairs_in in Hin. cbn. tauto. }
  assert (HT : lists_triplets swap (pairs_of (g_ref_edges g)) (dimenet (pairs_of (g_ref_edges g)) (List.length numbers))).
  { apply HD; [rewrite EP; apply pairs_nodup|]. apply Forall_forall. exact HR. }
  split; [rewrite ET; exact HT|]. replace (List.length (g_ref_edges g)) with (List.length (pairs_of (g_ref_edges g))) by apply map_length. eapply lists_for; [|exact HT]. apply Forall_forall. intros e He. apply HR in He. tauto.
Qed.
Lemma f_C90_embeddings order order' w w' cast cast' lattice numbers numbers' positions positions' cutoff node edge passes start stop ms ss mean stddev g0 g0' g g' move ps qs :
  potgnn_new dimenet order w cast lattice numbers positions cutoff node edge passes start stop ms ss mean stddev = Ok g0 ->
  potgnn_new dimenet order' w' cast lattice numbers' positions' cutoff node edge passes start stop ms ss mean stddev = Ok g0' ->
  List.length positions = List.length numbers -> iterates_set order numbers -> iterates_set order' numbers' ->
  List.length (w_embedding w) = List.length order -> List.length (w_embedding w') = List.length order' ->
  reordering (List.length numbers) move -> reordered move numbers numbers' -> reordered move positions positions' ->
  history g0 g -> history g0' g' -> same_layers g g' -> (forall z, In z numbers -> embed g' z = embed g z) ->
  Forall2 (fun p q => List.length p = List.length numbers /\ reordered move p q) ps qs ->
  snd (calc_polarizabilities cast' g' [List.length qs; List.length numbers'; 3] qs) =
  snd (calc_polarizabilities cast' g [List.length ps; List.length numbers; 3] ps).
Proof.
  intros N N' HL HO HO' HW HW' HS RN RP H H' SL EM HF.
  assert (HL' : List.length positions' = List.length numbers') by (rewrite (proj1 RN), (proj1 RP); exact HL).
  destruct (new_triplets _ _ _ _ _ _ _ _ _ _ _ _ _ _ _ _ _ N HL) as [T1 T2]. destruct (new_triplets _ _ _ _ _ _ _ _ _ _ _ _ _ _ _ _ _ N' HL') as [T1' T2'].
  assert (B : built lattice numbers g0) by (do 15 eexists; split; [exact N|]; split; [exact HL|]; split; [exact HO|]; split; [exact HW|exact T2]).
  assert (B' : built lattice numbers' g0') by (do 15 eexists; split; [exact N'|]; split; [exact HL'|]; split; [exact HO'|]; split; [exact HW'|exact T2']).
  destruct (built_ok _ _ _ B) as (K & _ & EN). destruct (built_ok _ _ _ B') as (K' & _ & EN').
  pose proof (history_same g0 g K H) as S. pose proof (history_same g0' g' K' H') as S'. pose proof (same_net_ok _ _ K S) as G. pose proof (same_net_ok _ _ K' S') as G'.
  destruct (new_parts _ _ _ _ _ _ _ _ _ _ _ _ _ _ _ _ _ _ N) as (P1 & P2 & P3 & P4 & P5 & P6 & P7 & P8). destruct (new_parts _ _ _ _ _ _ _ _ _ _ _ _ _ _ _ _ _ _ N') as (P1' & P2' & P3' & P4' & P5' & P6' & P7' & P8').
  destruct S as (S1 & S2 & S3 & S4 & S5 & S6 & S7 & S8 & (_ & _ & S9 & _) & _). destruct S' as (S1' & S2' & S3' & S4' & S5' & S6' & S7' & S8' & (_ & _ & S9' & _) & _).
  assert (EN2 : g_atomic_numbers g = numbers) by congruence. assert (EN2' : g_atomic_numbers g' = numbers') by congruence.
  pose proof (twin_answers swap move g g' cast' ps qs G G') as TA. rewrite EN2, EN2' in TA. apply TA; [exact HS| |exact HF].
  unfold twins. rewrite S1, S1', S3, S3', S4, S4', S5, S5', S7, S7', S9, S9', EN2, EN2'. split; [congruence|]. split; [congruence|]. split; [congruence|]. split; [exact EM|]. split; [congruence|]. split; [exact SL|]. split; [exact RN|]. split; [|split; [exact T1|exact T1']].
  rewrite P5, P5'. pose proof (pairs_perm move (cast_m cast lattice) (map (vmap cast) positions) (map (vmap cast) positions') cutoff) as PP. unfold graph_pairs in PP. rewrite !map_length, HL in PP. rewrite HL. apply PP; [exact HS|apply reordered_map, RP].
Qed.
Lemma f_C90_order order w w' cast cast' lattice numbers numbers' positions positions' cutoff node edge passes start stop ms ss mean stddev g0 g0' g g' move ps qs :
  potgnn_new dimenet order w cast lattice numbers positions cutoff node edge passes start stop ms ss mean stddev = Ok g0 ->
  potgnn_new dimenet order w' cast lattice numbers' positions' cutoff node edge passes start stop ms ss mean stddev = Ok g0' ->
  List.length positions = List.length numbers -> iterates_set order numbers ->
  List.length (w_embedding w) = List.length order -> List.length (w_embedding w') = List.length order ->
  reordering (List.length numbers) move -> reordered move numbers numbers' -> reordered move positions positions' ->
  history g0 g -> history g0' g' -> same_weights g g' ->
  Forall2 (fun p q => List.length p = List.length numbers /\ reordered move p q) ps qs ->
  snd (calc_polarizabilities cast' g' [List.length qs; List.length numbers'; 3] qs) =
  snd (calc_polarizabilities cast' g [List.length ps; List.length numbers; 3] ps).
Proof.
  intros N N' HL HO HW HW' HS RN RP H H' [SE SL] HF.
  assert (HO' : iterates_set order numbers').
  { destruct HO as [O1 O2]. split; [exact O1|]. intros z. rewrite O2. pose proof (moved_perm _ _ _ (reordered_moved move numbers numbers' HS RN)) as PM. split; apply Permutation_in; [exact PM|apply Permutation_sym, PM]. }
  refine (f_C90_embeddings _ _ _ _ _ _ _ _ _ _ _ _ _ _ _ _ _ _ _ _ _ _ _ _ _ _ _ _ N N' HL HO HO' HW HW' HS RN RP H H' SL _ HF). intros z _.
  assert (HL' : List.length positions' = List.length numbers') by (rewrite (proj1 RN), (proj1 RP); exact HL).
  destruct (new_triplets _ _ _ _ _ _ _ _ _ _ _ _ _ _ _ _ _ N HL) as [T1 T2]. destruct (new_triplets _ _ _ _ _ _ _ _ _ _ _ _ _ _ _ _ _ N' HL') as [T1' T2'].
  assert (B : built lattice numbers g0) by (do 15 eexists; split; [exact N|]; split; [exact HL|]; split; [exact HO|]; split; [exact HW|exact T2]).
  assert (B' : built lattice numbers' g0') by (do 15 eexists; split; [exact N'|]; split; [exact HL'|]; split; [exact HO'|]; split; [exact HW'|exact T2']).
  pose proof (history_same g0 g (proj1 (built_ok _ _ _ B)) H) as (_ & _ & _ & _ & _ & S6 & _). pose proof (history_same g0' g' (proj1 (built_ok _ _ _ B')) H') as (_ & _ & _ & _ & _ & S6' & _).
  destruct (new_parts _ _ _ _ _ _ _ _ _ _ _ _ _ _ _ _ _ _ N) as (_ & _ & _ & _ & _ & _ & P7 & _). destruct (new_parts _ _ _ _ _ _ _ _ _ _ _ _ _ _ _ _ _ _ N') as (_ & _ & _ & _ & _ & _ & P7' & _).
  unfold embed. rewrite SE, S6, S6'. replace (g_atom_type_map g0') with (g_atom_type_map g0) by congruence. reflexivity.
Qed.
Lemma f_C90_exchange order w cast cast' lattice numbers positions cutoff node edge passes start stop ms ss mean stddev g0 g move ps qs :
  potgnn_new dimenet order w cast lattice numbers positions cutoff node edge passes start stop ms ss mean stddev = Ok g0 ->
  List.length positions = List.length numbers -> iterates_set order numbers -> List.length (w_embedding w) = List.length order ->
  reordering (List.length numbers) move -> reordered move numbers numbers ->
  (forall i j, i < List.length numbers -> j < List.length numbers -> In (0, i, j) (g_ref_edges g0) <-> In (0, move i, move j) (g_ref_edges g0)) ->
  history g0 g ->
  Forall2 (fun p q => List.length p = List.length numbers /\ reordered move p q) ps qs ->
  snd (calc_polarizabilities cast' g [List.length qs; List.length numbers; 3] qs) =
  snd (calc_polarizabilities cast' g [List.length ps; List.length numbers; 3] ps).
Proof.
  intros N HL HO HW HS RN HE H HF. destruct (new_triplets _ _ _ _ _ _ _ _ _ _ _ _ _ _ _ _ _ N HL) as [T1 T2].
  assert (B : built lattice numbers g0) by (do 15 eexists; split; [exact N|]; split; [exact HL|]; split; [exact HO|]; split; [exact HW|exact T2]).
  destruct (built_ok _ _ _ B) as (K & _ & EN). pose proof (history_same g0 g K H) as S. pose proof (same_net_ok _ _ K S) as G.
  destruct (new_parts _ _ _ _ _ _ _ _ _ _ _ _ _ _ _ _ _ _ N) as (_ & _ & _ & _ & P5 & _).
  destruct S as (S1 & S2 & S3 & S4 & S5 & S6 & S7 & S8 & (_ & _ & S9 & _) & _). assert (EN2 : g_atomic_numbers g = numbers) by congruence.
  pose proof (twin_answers swap move g g cast' ps qs G G) as TA. rewrite EN2 in TA. apply TA; [exact HS| |exact HF].
  unfold twins. rewrite EN2, S5, S9. do 5 (split; [reflexivity || (intros; reflexivity)|]). split; [repeat split|]. split; [exact RN|]. split; [|split; exact T1].
  assert (EP : pairs_of (g_ref_edges g0) = graph_pairs (cast_m cast lattice) (map (vmap cast) positions) cutoff) by (rewrite P5; unfold graph_pairs; rewrite map_length; reflexivity).
  assert (IN : forall i j, In (i, j) (pairs_of (g_ref_edges g0)) <-> In (0, i, j) (g_ref_edges g0)).
  { intros i j. unfold pairs_of. rewrite in_map_iff. split; [|intros X; exists (0, i, j); split; [reflexivity|exact X]]. intros ([[z a] b] & E & X). injection E as -> ->. pose proof X as X'. rewrite P5 in X'.
    apply f_C70_edges in X'; [|reflexivity|constructor; [apply map_length|constructor]]. destruct X' as (L & p & i0 & j0 & v & EL & _). destruct z as [|z]; [exact X|destruct z; discriminate]. }
  assert (LT : forall i j, In (i, j) (pairs_of (g_ref_edges g0)) -> i < List.length numbers /\ j < List.length numbers).
  { intros i j X. rewrite EP in X. apply pairs_lt in X. rewrite map_length, HL in X. exact X. }
  assert (ND : NoDup (pairs_of (g_ref_edges g0))) by (rewrite EP; apply pairs_nodup).
  apply NoDup_Permutation_bis.
  - apply map_nodup_in; [|exact ND]. intros [i j] [i' j'] X X' E. unfold both in E. cbn in E. injection E as E1 E2. apply LT in X, X'. destruct X, X'. f_equal; apply (proj2 HS); assumption.
  - rewrite map_length. lia.
  - intros [a b] X. apply in_map_iff in X. destruct X as ([i j] & E & X). unfold both in E. cbn in E. injection E as <- <-. pose proof (LT _ _ X) as [Li Lj]. apply IN. apply (proj1 (HE i j Li Lj)). apply IN, X.
Qed.
End Main.
