(** The layers of the network commute with reordering of nodes, edges and triplets *)
From Coq Require Import ZArith Reals Bool Arith List Permutation FinFun Lia Lra.
From Verif Require Import Base LinAlg M_Torch S_Torch M_Gnn S_Gnn P_Gnn P_Gnn2 S_Relabel.
Import ListNotations.
Local Open Scope nat_scope.

(** [l'] is [map h l], moved by [u] *)
Definition carried {A B} (u : nat -> nat) (h : A -> B) (l : list A) (l' : list B) : Prop :=
  List.length l' = List.length l /\ reordering (List.length l) u /\
  forall k x, nth_error l k = Some x -> nth_error l' (u k) = Some (h x).
Definition moved {A} (u : nat -> nat) (l l' : list A) : Prop := carried u (fun x => x) l l'.

Lemma some_lt {A} (l : list A) k x : nth_error l k = Some x -> k < List.length l.
Proof. intros H. apply nth_error_Some. congruence. Qed.
Lemma lt_some {A} (l : list A) k : k < List.length l -> exists x, nth_error l k = Some x.
Proof. intros H. apply nth_error_Some in H. destruct (nth_error l k); [eexists; reflexivity|contradiction]. Qed.

Lemma reordered_moved {A} u (l l' : list A) : reordering (List.length l) u -> reordered u l l' -> moved u l l'.
Proof. intros H (H1 & H2). split; [exact H1|]. split; [exact H|]. intros k x E. rewrite H2; [exact E|]. eapply some_lt, E. Qed.

Lemma nth_error_ext' {A} (l l' : list A) : (forall k, nth_error l k = nth_error l' k) -> l = l'.
Proof.
  revert l'. induction l as [|a l IH]; intros [|b l'] H; [reflexivity|specialize (H 0); discriminate|specialize (H 0); discriminate|].
  f_equal; [specialize (H 0); cbn in H; congruence|]. apply IH. intros k. exact (H (S k)).
Qed.

Lemma carried_perm {A B} u (h : A -> B) l l' : carried u h l l' -> Permutation (map h l) l'.
Proof.
  intros (HL & (H1 & H2) & H3). destruct l as [|a l]; [destruct l'; [constructor|discriminate]|].
  apply Permutation_sym. apply (Permutation_nth l' (map h (a :: l)) (h a)). cbv zeta. rewrite map_length, HL. split; [reflexivity|].
  exists u. split; [exact H1|]. split; [exact H2|]. intros x Hx. destruct (lt_some _ _ Hx) as [y Ey].
  rewrite (nth_error_nth _ _ (h a) (map_nth_error h _ _ Ey)). symmetry. apply nth_error_nth. apply H3, Ey.
Qed.
Lemma perm_carried {A B} (h : A -> B) l l' : Permutation (map h l) l' -> exists u, carried u h l l'.
Proof.
  intros H. destruct l as [|a l].
  - exists (fun x => x). apply Permutation_nil in H. subst. split; [reflexivity|]. split; [split; cbn; intros; lia|]. intros [|k] x E; discriminate.
  - pose proof (Permutation_length H) as HL. rewrite map_length in HL. apply Permutation_sym in H. apply (Permutation_nth _ _ (h a)) in H. cbv zeta in H. destruct H as (_ & u & H1 & H2 & H3).
    exists u. rewrite <- HL in H1, H2, H3. split; [symmetry; exact HL|]. split; [split; assumption|]. intros k x E. pose proof (some_lt _ _ _ E) as Hk.
    specialize (H3 k Hk). rewrite (nth_error_nth _ _ (h a) (map_nth_error h _ _ E)) in H3. specialize (H1 k Hk). rewrite H3. apply nth_error_nth'. lia.
Qed.

(** ** Lists *)
Lemma carried_then {A B C} u (h : A -> B) (f : A -> C) (f' : B -> C) l l' : (forall x, f' (h x) = f x) -> carried u h l l' -> moved u (map f l) (map f' l').
Proof.
  intros Hf (HL & HR & H). split; [rewrite !map_length; exact HL|]. split; [rewrite map_length; exact HR|].
  intros k x E. rewrite nth_error_map in E. destruct (nth_error l k) as [y|] eqn:Ey; [|discriminate]. injection E as <-. rewrite nth_error_map, (H _ _ Ey). cbn. f_equal. apply Hf.
Qed.
Lemma moved_map {A B} u (f : A -> B) l l' : moved u l l' -> moved u (map f l) (map f l').
Proof. apply (carried_then u (fun x => x)). reflexivity. Qed.
Lemma carried_proj {A B C D} u (h : A -> B) (p : A -> C) (q : B -> D) (h' : C -> D) l l' : (forall x, q (h x) = h' (p x)) -> carried u h l l' -> carried u h' (map p l) (map q l').
Proof.
  intros Hf (HL & HR & H). split; [rewrite !map_length; exact HL|]. split; [rewrite map_length; exact HR|].
  intros k x E. rewrite nth_error_map in E. destruct (nth_error l k) as [y|] eqn:Ey; [|discriminate]. injection E as <-. rewrite nth_error_map, (H _ _ Ey). cbn. f_equal. apply Hf.
Qed.
Lemma map2_some {A B C} (f : A -> B -> C) a b k x : nth_error (map2 f a b) k = Some x -> exists y z, nth_error a k = Some y /\ nth_error b k = Some z /\ x = f y z.
Proof.
  revert b k. induction a as [|y a IH]; intros [|z b] [|k] H; try discriminate; cbn in H.
  - injection H as <-. exists y, z. repeat split.
  - apply IH in H. exact H.
Qed.
Lemma map2_at {A B C} (f : A -> B -> C) a b k y z : nth_error a k = Some y -> nth_error b k = Some z -> nth_error (map2 f a b) k = Some (f y z).
Proof.
  revert b k. induction a as [|y' a IH]; intros [|z' b] [|k] Ha Hb; try discriminate; cbn in *; [congruence|]. apply IH; assumption.
Qed.
Lemma map2_length' {A B C} (f : A -> B -> C) a b : List.length a = List.length b -> List.length (map2 f a b) = List.length a.
Proof. intros H. apply (map2_len f a b (List.length a)); congruence. Qed.
Lemma moved_map2 {A B C} u (f : A -> B -> C) a a' b b' : List.length a = List.length b -> moved u a a' -> moved u b b' -> moved u (map2 f a b) (map2 f a' b').
Proof.
  intros HAB (L1 & R1 & H1) (L2 & _ & H2). split; [rewrite !map2_length' by congruence; exact L1|]. split; [rewrite map2_length' by exact HAB; exact R1|].
  intros k x E. apply map2_some in E. destruct E as (y & z & Ey & Ez & ->). apply map2_at; [apply H1, Ey|apply H2, Ez].
Qed.
Lemma carried_combine {A B A' B'} u (h : A -> A') (h' : B -> B') a a' b b' : List.length a = List.length b -> carried u h a a' -> carried u h' b b' ->
  carried u (fun p => (h (fst p), h' (snd p))) (combine a b) (combine a' b').
Proof.
  intros HAB (L1 & R1 & H1) (L2 & _ & H2). split; [rewrite !combine_length; lia|]. split; [rewrite combine_length, <- HAB, Nat.min_id; exact R1|].
  assert (CS : forall {X Y} (p : list X) (q : list Y) k x y, nth_error (combine p q) k = Some (x, y) <-> nth_error p k = Some x /\ nth_error q k = Some y).
  { clear. intros X Y. induction p as [|x0 p IH]; intros [|y0 q] [|k] x y; cbn; try (split; [discriminate|intros [? ?]; discriminate]); [|apply IH]. split; [intros E; injection E as <- <-; split; reflexivity|intros [E1 E2]; congruence]. }
  intros k [x y] E. apply CS in E. destruct E as [E1 E2]. apply CS. split; [apply H1, E1|apply H2, E2].
Qed.

(** ** Gathering and scattering *)
Lemma moved_rows u s rows rows' idx idx' : moved s rows rows' -> carried u s idx idx' -> Forall (fun x => x < List.length rows) idx -> moved u (rows_at rows idx) (rows_at rows' idx').
Proof.
  intros (L1 & R1 & H1) (L2 & R2 & H2) HF. unfold rows_at. split; [rewrite !map_length; exact L2|]. split; [rewrite map_length; exact R2|].
  intros k x E. rewrite nth_error_map in E. destruct (nth_error idx k) as [y|] eqn:Ey; [|discriminate]. injection E as <-. rewrite nth_error_map, (H2 _ _ Ey). cbn. f_equal.
  rewrite Forall_forall in HF. pose proof (HF _ (nth_error_In _ _ Ey)) as Hy. destruct (lt_some _ _ Hy) as [v Ev]. rewrite (nth_error_nth _ _ _ (H1 _ _ Ev)), (nth_error_nth _ _ _ Ev). reflexivity.
Qed.
Lemma vplus_swap a b c : vplus a (vplus b c) = vplus b (vplus a c).
Proof.
  unfold vplus. revert b c. induction a as [|x a IH]; intros [|y b] [|z c]; cbn; try reflexivity. f_equal; [lra|apply IH].
Qed.
Lemma fold_perm (z : vec) l l' : Permutation l l' -> fold_right vplus z l = fold_right vplus z l'.
Proof. induction 1; cbn; congruence || apply vplus_swap || idtac. Qed.
Lemma filter_perm {A} (f : A -> bool) l l' : Permutation l l' -> Permutation (filter f l) (filter f l').
Proof. induction 1; cbn; try destruct (f x); try destruct (f y); try constructor; auto. eapply Permutation_trans; eassumption. Qed.
Lemma filter_map_comm {A B} (f : B -> bool) (h : A -> B) l : filter f (map h l) = map h (filter (fun x => f (h x)) l).
Proof. induction l as [|a l IH]; [reflexivity|]. cbn. destruct (f (h a)); cbn; rewrite IH; reflexivity. Qed.
Lemma moved_scatter w u s n src src' idx idx' : reordering n s -> moved u src src' -> carried u s idx idx' -> List.length src = List.length idx -> Forall (fun x => x < n) idx ->
  moved s (scatter w src idx n) (scatter w src' idx' n).
Proof.
  intros (R1 & R2) HS HI HL HF. split; [rewrite !scatter_len; reflexivity|]. split; [rewrite scatter_len; split; assumption|].
  intros r x E. unfold scatter in *. rewrite nth_error_map in E. destruct (nth_error (seq 0 n) r) as [r'|] eqn:Er; [|discriminate]. injection E as <-.
  pose proof (some_lt _ _ _ Er) as Hr. rewrite seq_length in Hr. assert (r' = r) as -> by (rewrite (nth_error_nth' _ 0) in Er by (rewrite seq_length; exact Hr); rewrite seq_nth in Er by exact Hr; injection Er as <-; reflexivity).
  rewrite nth_error_map. rewrite (nth_error_nth' _ 0) by (rewrite seq_length; apply R1, Hr). rewrite seq_nth by (apply R1, Hr). cbn [option_map Nat.add]. f_equal. apply fold_perm.
  pose proof (carried_perm _ _ _ _ (carried_combine u _ _ _ _ _ _ HL HS HI)) as HP. apply (filter_perm (fun p => Nat.eqb (snd p) (s r))) in HP. apply (Permutation_map fst) in HP.
  apply Permutation_sym. eapply Permutation_trans; [|exact HP]. rewrite filter_map_comm, map_map. cbn [fst snd].
  replace (filter (fun x => Nat.eqb (s (snd x)) (s r)) (combine src idx)) with (filter (fun x => Nat.eqb (snd x) r) (combine src idx)); [apply Permutation_refl|].
  apply filter_ext_in. intros [v i] Hin. cbn. apply in_combine_r in Hin. rewrite Forall_forall in HF. specialize (HF _ Hin). destruct (Nat.eqb_spec i r) as [-> | N]; [rewrite Nat.eqb_refl; reflexivity|].
  symmetry. apply Nat.eqb_neq. intros E. apply N. apply R2; assumption.
Qed.

(** ** The layers *)
Lemma moved_cat u m (a a' b b' : list (list R)) : List.length a = m -> List.length b = m -> moved u a a' -> moved u b b' ->
  moved u (map2 (fun x y => x ++ y) a b) (map2 (fun x y => x ++ y) a' b') /\ List.length (map2 (fun x y => x ++ y) a b) = m.
Proof. intros La Lb Ma Mb. split; [apply moved_map2; congruence || assumption|]. rewrite map2_length'; congruence. Qed.
Ltac lens := unfold vec in *; congruence.
Section Layers.
Context (n e : nat) (s t u : nat -> nat) (T T' : triplets).
Context (HT : triplets_for n e T).
Context (HS : reordering n s) (HE : reordering e t).
Context (Ci : carried t s (t_i T) (t_i T')) (Cj : carried t s (t_j T) (t_j T')).
Context (C1 : carried u s (t_index_i T) (t_index_i T')) (C2 : carried u s (t_index_j T) (t_index_j T')) (C3 : carried u s (t_index_k T) (t_index_k T'))
  (C4 : carried u t (t_index_ji T) (t_index_ji T')) (C5 : carried u t (t_index_kj T) (t_index_kj T')).

Let len_i : List.length (t_i T) = e. Proof. apply HT. Qed.
Let len_j : List.length (t_j T) = e. Proof. apply HT. Qed.
Let in_i : Forall (fun x => x < n) (t_i T). Proof. destruct HT as (_ & _ & _ & H & _). rewrite !Forall_app in H. apply H. Qed.
Let in_j : Forall (fun x => x < n) (t_j T). Proof. destruct HT as (_ & _ & _ & H & _). rewrite !Forall_app in H. apply H. Qed.
Let in_1 : Forall (fun x => x < n) (t_index_i T). Proof. destruct HT as (_ & _ & _ & H & _). rewrite !Forall_app in H. apply H. Qed.
Let in_2 : Forall (fun x => x < n) (t_index_j T). Proof. destruct HT as (_ & _ & _ & H & _). rewrite !Forall_app in H. apply H. Qed.
Let in_3 : Forall (fun x => x < n) (t_index_k T). Proof. destruct HT as (_ & _ & _ & H & _). rewrite !Forall_app in H. apply H. Qed.
Let in_4 : Forall (fun x => x < e) (t_index_ji T). Proof. destruct HT as (_ & _ & _ & _ & H). rewrite !Forall_app in H. apply H. Qed.
Let in_5 : Forall (fun x => x < e) (t_index_kj T). Proof. destruct HT as (_ & _ & _ & _ & H). rewrite !Forall_app in H. apply H. Qed.
Let rows_in {x : list vec} idx m : List.length x = m -> Forall (fun k => k < m) idx -> Forall (fun k => k < List.length x) idx. Proof. intros ->. exact (fun H => H). Qed.

Lemma moved_length {A} v (l l' : list A) : moved v l l' -> List.length l' = List.length l.
Proof. intros [H _]. exact H. Qed.

Lemma moved_node b node node' edge edge' : List.length node = n -> List.length edge = e -> moved s node node' -> moved t edge edge' ->
  moved s (node_forward b node edge (t_i T)) (node_forward b node' edge' (t_i T')).
Proof.
  intros Ln Le Mn Me. unfold node_forward. apply moved_map2; [rewrite map_length, scatter_len; reflexivity|exact Mn|]. apply moved_map.
  rewrite (moved_length _ _ _ Mn), Ln. apply (moved_scatter _ t); [exact HS| |exact Ci| |exact in_i].
  - apply moved_map, moved_map2; [rewrite rows_at_len; lens| |exact Me]. apply (moved_rows t s); [exact Mn|exact Ci|]. exact (rows_in _ _ Ln in_i).
  - rewrite map_length, map2_length'; rewrite rows_at_len; lens.
Qed.
Lemma moved_c2 b node node' : List.length node = n -> moved s node node' ->
  moved t (get_c2_embedding b node (t_i T) (t_j T)) (get_c2_embedding b node' (t_i T') (t_j T')).
Proof.
  intros Ln Mn. unfold get_c2_embedding. apply moved_map, moved_map2; [rewrite !rows_at_len; lens| |]; apply (moved_rows t s); try assumption; rewrite Ln; assumption.
Qed.
Lemma moved_c3 b node node' edge edge' : List.length node = n -> List.length edge = e -> moved s node node' -> moved t edge edge' ->
  moved t (get_c3_embedding b node edge (t_index_i T) (t_index_j T) (t_index_k T) (t_index_ji T) (t_index_kj T))
          (get_c3_embedding b node' edge' (t_index_i T') (t_index_j T') (t_index_k T') (t_index_ji T') (t_index_kj T')).
Proof.
  intros Ln Le Mn Me. destruct HT as (_ & _ & (m & L1 & L2 & L3 & L4 & L5) & _). unfold get_c3_embedding. apply moved_map. rewrite (moved_length _ _ _ Me), Le.
  assert (M1 : moved u (rows_at node (t_index_i T)) (rows_at node' (t_index_i T'))) by (apply (moved_rows u s); try assumption; rewrite Ln; assumption).
  assert (M2 : moved u (rows_at node (t_index_j T)) (rows_at node' (t_index_j T'))) by (apply (moved_rows u s); try assumption; rewrite Ln; assumption).
  assert (M3 : moved u (rows_at node (t_index_k T)) (rows_at node' (t_index_k T'))) by (apply (moved_rows u s); try assumption; rewrite Ln; assumption).
  assert (M4 : moved u (rows_at edge (t_index_ji T)) (rows_at edge' (t_index_ji T'))) by (apply (moved_rows u t); try assumption; rewrite Le; assumption).
  assert (M5 : moved u (rows_at edge (t_index_kj T)) (rows_at edge' (t_index_kj T'))) by (apply (moved_rows u t); try assumption; rewrite Le; assumption).
  assert (len_at : forall (x : list vec) idx, List.length idx = m -> List.length (rows_at x idx) = m) by (intros x idx <-; apply rows_at_len).
  pose proof (moved_cat u m _ _ _ _ (len_at node _ L1) (proj2 (moved_cat u m _ _ _ _ (len_at node _ L2) (proj2 (moved_cat u m _ _ _ _ (len_at node _ L3) (proj2 (moved_cat u m _ _ _ _ (len_at edge _ L4) (len_at edge _ L5) M4 M5)) M3 (proj1 (moved_cat u m _ _ _ _ (len_at edge _ L4) (len_at edge _ L5) M4 M5)))) M2
      (proj1 (moved_cat u m _ _ _ _ (len_at node _ L3) (proj2 (moved_cat u m _ _ _ _ (len_at edge _ L4) (len_at edge _ L5) M4 M5)) M3 (proj1 (moved_cat u m _ _ _ _ (len_at edge _ L4) (len_at edge _ L5) M4 M5)))))) M1
      (proj1 (moved_cat u m _ _ _ _ (len_at node _ L2) (proj2 (moved_cat u m _ _ _ _ (len_at node _ L3) (proj2 (moved_cat u m _ _ _ _ (len_at edge _ L4) (len_at edge _ L5) M4 M5)) M3 (proj1 (moved_cat u m _ _ _ _ (len_at edge _ L4) (len_at edge _ L5) M4 M5)))) M2
      (proj1 (moved_cat u m _ _ _ _ (len_at node _ L3) (proj2 (moved_cat u m _ _ _ _ (len_at edge _ L4) (len_at edge _ L5) M4 M5)) M3 (proj1 (moved_cat u m _ _ _ _ (len_at edge _ L4) (len_at edge _ L5) M4 M5))))))) as K.
  apply (moved_scatter _ u); [exact HE| |exact C4| |exact in_4].
  - apply moved_map, K.
  - rewrite map_length. etransitivity; [apply K|symmetry; exact L4].
Qed.
Lemma moved_edge b node node' edge edge' : List.length node = n -> List.length edge = e -> moved s node node' -> moved t edge edge' ->
  moved t (edge_forward b node edge T) (edge_forward b node' edge' T').
Proof.
  intros Ln Le Mn Me. unfold edge_forward.
  assert (L2 : List.length (get_c2_embedding b node (t_i T) (t_j T)) = e) by (unfold get_c2_embedding; rewrite map_length, map2_length'; rewrite rows_at_len; [exact len_i|rewrite rows_at_len; lens]).
  assert (L3 : forall a1 a2 a3 a4 a5, List.length (get_c3_embedding b node edge a1 a2 a3 a4 a5) = e) by (intros; unfold get_c3_embedding; rewrite map_length, scatter_len; exact Le).
  apply moved_map2; [rewrite map2_length', L3; lens| |apply moved_c3; assumption]. apply moved_map2; [lens|exact Me|apply moved_c2; assumption].
Qed.
Lemma moved_message nbs ebs : forall node node' edge edge', List.length node = n -> List.length edge = e -> moved s node node' -> moved t edge edge' ->
  let r := message_passing nbs ebs T node edge in let r' := message_passing nbs ebs T' node' edge' in
  moved s (fst r) (fst r') /\ moved t (snd r) (snd r').
Proof.
  revert ebs. induction nbs as [|nb nbs IH]; intros [|eb ebs] node node' edge edge' Ln Le Mn Me; cbn [message_passing fst snd]; try (split; assumption).
  pose proof (moved_node nb _ _ _ _ Ln Le Mn Me) as Mn'. assert (Ln' : List.length (node_forward nb node edge (t_i T)) = n) by (apply node_len; exact Ln).
  apply IH; [exact Ln'| |exact Mn'|apply moved_edge; assumption].
  unfold edge_forward. rewrite map2_length'.
  - rewrite map2_length'; [exact Le|]. unfold get_c2_embedding. rewrite map_length, map2_length'; rewrite rows_at_len; [lens|rewrite rows_at_len; lens].
  - unfold get_c3_embedding at 1. rewrite map_length, scatter_len. rewrite map2_length'; [reflexivity|]. unfold get_c2_embedding. rewrite map_length, map2_length'; rewrite rows_at_len; [lens|rewrite rows_at_len; lens].
Qed.
End Layers.
