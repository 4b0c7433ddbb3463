(** A batch is processed sample by sample: lemmas about the layers *)
From Coq Require Import ZArith Reals Bool Arith List Lia Lra.
From Verif Require Import Base LinAlg M_Validate M_StructUtils S_Lattice P_StructUtils M_Torch S_Torch P_Torch P_Torch2 M_Gnn S_Gnn.
Import ListNotations.
Local Open Scope R_scope.

Section Blocks.
Context {P : Type}.
Lemma concat_map_length {B} (f : P -> list B) prs n : Forall (fun p => List.length (f p) = n) prs -> List.length (concat (map f prs)) = (List.length prs * n)%nat.
Proof. induction 1 as [|p prs H _ IH]; cbn; [reflexivity|]. rewrite app_length, IH, H. lia. Qed.
Lemma map2_concat {A B C} (h : A -> B -> C) (f : P -> list A) (g : P -> list B) prs : Forall (fun p => List.length (f p) = List.length (g p)) prs ->
  map2 h (concat (map f prs)) (concat (map g prs)) = concat (map (fun p => map2 h (f p) (g p)) prs).
Proof. induction 1 as [|p prs H _ IH]; cbn; [reflexivity|]. rewrite map2_app by exact H. rewrite IH. reflexivity. Qed.
Lemma map_concat {A B} (h : A -> B) (f : P -> list A) prs : map h (concat (map f prs)) = concat (map (fun p => map h (f p)) prs).
Proof. rewrite concat_map, map_map. reflexivity. Qed.
Lemma rows_at_from (f : P -> list vec) prs idx n s pre : List.length pre = (s * n)%nat -> Forall (fun p => List.length (f p) = n) prs -> Forall (fun x => x < n)%nat idx ->
  rows_at (pre ++ concat (map f prs)) (flat_map (fun b => map (fun x => (x + b * n)%nat) idx) (seq s (List.length prs))) = concat (map (fun p => rows_at (f p) idx) prs).
Proof.
  intros Hp H Hi. revert s pre Hp. induction H as [|p prs H _ IH]; intros s pre Hp; cbn; [reflexivity|]. unfold rows_at at 1. rewrite map_app. f_equal.
  - rewrite map_map. apply map_ext_in. intros x Hx. rewrite Forall_forall in Hi. specialize (Hi x Hx). rewrite app_nth2 by lia. rewrite app_nth1 by lia. f_equal. lia.
  - fold (rows_at (pre ++ f p ++ concat (map f prs)) (flat_map (fun b => map (fun x => (x + b * n)%nat) idx) (seq (S s) (List.length prs)))).
    rewrite app_assoc. apply IH. rewrite app_length. lia.
Qed.
Lemma rows_at_concat (f : P -> list vec) prs idx n : Forall (fun p => List.length (f p) = n) prs -> Forall (fun x => x < n)%nat idx ->
  rows_at (concat (map f prs)) (shifted_copies (List.length prs) n idx) = concat (map (fun p => rows_at (f p) idx) prs).
Proof. intros H1 H2. apply (rows_at_from f prs idx n 0 []); [reflexivity|exact H1|exact H2]. Qed.

Lemma concat_map_seq {B} (f : P -> list B) prs : concat (map f prs) = flat_map (fun c => match nth_error prs c with Some p => f p | None => [] end) (seq 0 (List.length prs)).
Proof.
  rewrite flat_map_concat_map. f_equal. induction prs as [|p prs IH]; [reflexivity|]. cbn [map List.length seq]. cbn [nth_error]. f_equal. rewrite IH, <- seq_shift, map_map. reflexivity.
Qed.
Lemma seq_blocks n m : seq 0 (m * n) = flat_map (fun c => map (fun r => (c * n + r)%nat) (seq 0 n)) (seq 0 m).
Proof.
  assert (G : forall k s, seq (s * n) (k * n) = flat_map (fun c => map (fun r => (c * n + r)%nat) (seq 0 n)) (seq s k)).
  { induction k as [|k IH]; intros s; [reflexivity|]. cbn [Nat.mul seq flat_map]. rewrite seq_app, <- IH. f_equal; [|f_equal; lia].
    clear. generalize (s * n)%nat as a. intros a. transitivity (seq (a + 0) n); [f_equal; lia|]. generalize 0%nat as b. induction n as [|n IH]; intros b; [reflexivity|]. cbn [seq map]. f_equal. rewrite <- IH. f_equal. lia. }
  apply (G m 0%nat).
Qed.

Definition hits {A} (src : list A) (idx : list nat) (r : nat) : list A := map fst (filter (fun p => Nat.eqb (snd p) r) (combine src idx)).
Lemma hits_app {A} (s1 s2 : list A) i1 i2 r : List.length s1 = List.length i1 -> hits (s1 ++ s2) (i1 ++ i2) r = hits s1 i1 r ++ hits s2 i2 r.
Proof.
  intros H. unfold hits. rewrite <- map_app, <- filter_app. do 2 f_equal. revert i1 H. induction s1 as [|a s1 IH]; intros [|b i1] H; try discriminate; [reflexivity|]. cbn. f_equal. apply IH. cbn in H. lia.
Qed.
Lemma hits_shift {A} (src : list A) idx n s c r : (r < n)%nat -> Forall (fun x => x < n)%nat idx ->
  hits src (map (fun x => (x + s * n)%nat) idx) (c * n + r) = if Nat.eqb c s then hits src idx r else [].
Proof.
  intros Hr H. revert src. induction H as [|x idx Hx _ IH]; intros [|a src]; unfold hits; cbn [map combine filter fst snd]; try (destruct (Nat.eqb c s); reflexivity).
  fold (hits src idx r) in *. specialize (IH src). unfold hits in IH. destruct (Nat.eqb_spec c s) as [-> | N].
  - replace (Nat.eqb (x + s * n) (s * n + r)) with (Nat.eqb x r) by (destruct (Nat.eqb_spec x r), (Nat.eqb_spec (x + s * n) (s * n + r)); try reflexivity; lia).
    destruct (Nat.eqb x r); cbn [map fst]; [f_equal|]; exact IH.
  - destruct (Nat.eqb_spec (x + s * n) (c * n + r)) as [E | _]; [exfalso; nia|]. exact IH.
Qed.
Lemma hits_blocks {A} (f : P -> list A) prs idx n s c r : Forall (fun p => List.length (f p) = List.length idx) prs -> (r < n)%nat -> Forall (fun x => x < n)%nat idx ->
  hits (concat (map f prs)) (flat_map (fun b => map (fun x => (x + b * n)%nat) idx) (seq s (List.length prs))) (c * n + r) =
  if Nat.ltb c s then [] else match nth_error prs (c - s) with Some p => hits (f p) idx r | None => [] end.
Proof.
  intros H Hr Hi. revert s. induction H as [|p prs H _ IH]; intros s; cbn [map concat List.length seq flat_map].
  - destruct (Nat.ltb c s); [reflexivity|]. destruct (c - s)%nat; reflexivity.
  - rewrite hits_app by (rewrite map_length; exact H). rewrite hits_shift by assumption. rewrite IH. destruct (Nat.eqb_spec c s) as [-> | N].
    + destruct (Nat.ltb_spec s (S s)); [|lia]. destruct (Nat.ltb_spec s s); [lia|]. rewrite Nat.sub_diag. cbn. apply app_nil_r.
    + cbn [app]. destruct (Nat.ltb_spec c (S s)), (Nat.ltb_spec c s); try lia; try reflexivity. replace (c - s)%nat with (S (c - S s)) by lia. reflexivity.
Qed.
Lemma scatter_concat w (f : P -> list vec) prs idx n : Forall (fun p => List.length (f p) = List.length idx) prs -> Forall (fun x => x < n)%nat idx ->
  scatter w (concat (map f prs)) (shifted_copies (List.length prs) n idx) (List.length prs * n) = concat (map (fun p => scatter w (f p) idx n) prs).
Proof.
  intros H Hi. rewrite (concat_map_seq (fun p => scatter w (f p) idx n)). unfold scatter at 1. rewrite seq_blocks. rewrite !flat_map_concat_map. rewrite concat_map, map_map. f_equal. apply map_ext_in. intros c Hc. apply in_seq in Hc.
  destruct (nth_error prs c) as [p|] eqn:E; [|apply nth_error_None in E; lia]. rewrite map_map. unfold scatter. apply map_ext_in. intros r Hr. apply in_seq in Hr. f_equal.
  pose proof (hits_blocks f prs idx n 0 c r H ltac:(lia) Hi) as G. unfold hits in G. unfold shifted_copies. rewrite G. rewrite Nat.sub_0_r, E. reflexivity.
Qed.
End Blocks.

Lemma map2_len {A B C} (f : A -> B -> C) l m n : List.length l = n -> List.length m = n -> List.length (map2 f l m) = n.
Proof. intros H1 H2. rewrite map2_length. lia. Qed.
Lemma rows_at_len rows idx : List.length (rows_at rows idx) = List.length idx.
Proof. apply map_length. Qed.
Lemma scatter_len w src idx n : List.length (scatter w src idx n) = n.
Proof. unfold scatter. rewrite map_length. apply seq_length. Qed.
Lemma node_len b node edge i n : List.length node = n -> List.length (node_forward b node edge i) = n.
Proof. intros H. unfold node_forward. apply map2_len; [exact H|]. rewrite map_length, scatter_len. exact H. Qed.

Section Net.
Context (n e : nat) (t : triplets) (HT : triplets_for n e t).
Definition batched (k : nat) : triplets := each_triplet (shifted_copies k n) (shifted_copies k n) (shifted_copies k e) t.
Definition sized (p : list vec * list vec) : Prop := List.length (fst p) = n /\ List.length (snd p) = e.

Lemma node_batch b prs : Forall sized prs ->
  node_forward b (concat (map fst prs)) (concat (map snd prs)) (t_i (batched (List.length prs))) = concat (map (fun p => node_forward b (fst p) (snd p) (t_i t)) prs).
Proof.
  intros H. destruct HT as (Hi & Hj & HK & HN & HE). rewrite !Forall_app in HN. destruct HN as (Ni & _). 
  assert (H1 : Forall (fun p : list vec * list vec => List.length (fst p) = n) prs) by (eapply Forall_impl; [|exact H]; intros ? [? _]; assumption).
  assert (H2 : Forall (fun p : list vec * list vec => List.length (snd p) = e) prs) by (eapply Forall_impl; [|exact H]; intros ? [_ ?]; assumption).
  unfold node_forward at 1. cbn [batched each_triplet t_i]. rewrite rows_at_concat by assumption.
  rewrite map2_concat by (eapply Forall_impl; [|exact H2]; cbn; intros p Ep; etransitivity; [apply rows_at_len|]; rewrite Hi; symmetry; exact Ep).
  rewrite map_concat. rewrite (concat_map_length fst prs n H1). rewrite scatter_concat; [| |exact Ni].
  - rewrite map_concat. rewrite map2_concat by (eapply Forall_impl; [|exact H1]; cbn; intros p Ep; etransitivity; [exact Ep|]; rewrite map_length, scatter_len; reflexivity).
    f_equal. apply map_ext_in. intros p Hp. rewrite Forall_forall in H1. unfold node_forward. rewrite (H1 p Hp). reflexivity.
  - eapply Forall_impl; [|exact H2]. cbn. intros p Ep. rewrite map_length. rewrite (map2_len _ _ _ e); [lia|rewrite rows_at_len; exact Hi|exact Ep].
Qed.

Lemma c2_batch b prs : Forall (fun p => List.length p = n) prs ->
  get_c2_embedding b (concat prs) (t_i (batched (List.length prs))) (t_j (batched (List.length prs))) = concat (map (fun p => get_c2_embedding b p (t_i t) (t_j t)) prs).
Proof.
  intros H. destruct HT as (Hi & Hj & HK & HN & HE). rewrite !Forall_app in HN. destruct HN as (Ni & Nj & _).
  unfold get_c2_embedding. cbn [batched each_triplet t_i t_j]. rewrite <- (map_id prs) at 1 3. rewrite !rows_at_concat by assumption.
  rewrite map2_concat by (apply Forall_forall; intros; rewrite !rows_at_len; lia). rewrite map_concat. reflexivity.
Qed.
Lemma c3_batch b prs : Forall sized prs -> let bt := batched (List.length prs) in
  get_c3_embedding b (concat (map fst prs)) (concat (map snd prs)) (t_index_i bt) (t_index_j bt) (t_index_k bt) (t_index_ji bt) (t_index_kj bt) =
  concat (map (fun p => get_c3_embedding b (fst p) (snd p) (t_index_i t) (t_index_j t) (t_index_k t) (t_index_ji t) (t_index_kj t)) prs).
Proof.
  intros H bt. unfold bt. clear bt. destruct HT as (Hi & Hj & (k & K1 & K2 & K3 & K4 & K5) & HN & HE). rewrite !Forall_app in HN. rewrite Forall_app in HE. destruct HN as (Ni & Nj & N1 & N2 & N3), HE as (E1 & E2).
  assert (H1 : Forall (fun p : list vec * list vec => List.length (fst p) = n) prs) by (eapply Forall_impl; [|exact H]; intros ? [? _]; assumption).
  assert (H2 : Forall (fun p : list vec * list vec => List.length (snd p) = e) prs) by (eapply Forall_impl; [|exact H]; intros ? [_ ?]; assumption).
  unfold get_c3_embedding at 1. cbn [batched each_triplet t_index_i t_index_j t_index_k t_index_ji t_index_kj]. rewrite !rows_at_concat by assumption.
  assert (A : forall f g : list vec * list vec -> list vec, (forall p, List.length (f p) = k) -> (forall p, List.length (g p) = k) -> Forall (fun p => List.length (f p) = List.length (g p)) prs)
    by (intros f g Ef Eg; apply Forall_forall; intros p _; rewrite Ef, Eg; reflexivity).
  rewrite !map2_concat; repeat (apply A; intros); repeat (apply map2_len); rewrite ?rows_at_len; try assumption.
  rewrite map_concat, (concat_map_length snd prs e H2). rewrite scatter_concat; [| |exact E1].
  - rewrite map_concat. f_equal. apply map_ext_in. intros p Hp. rewrite Forall_forall in H2. unfold get_c3_embedding. rewrite (H2 p Hp). reflexivity.
  - apply Forall_forall. intros p _. rewrite map_length, K4. repeat apply map2_len; rewrite ?rows_at_len; assumption.
Qed.
Lemma c2_len b node : List.length (get_c2_embedding b node (t_i t) (t_j t)) = e.
Proof. destruct HT as (Hi & Hj & _). unfold get_c2_embedding. rewrite map_length. apply map2_len; rewrite rows_at_len; assumption. Qed.
Lemma c3_len b node edge a1 a2 a3 a4 a5 : List.length edge = e -> List.length (get_c3_embedding b node edge a1 a2 a3 a4 a5) = e.
Proof. intros H. unfold get_c3_embedding. rewrite map_length, scatter_len. exact H. Qed.
Lemma edge_batch b prs : Forall sized prs ->
  edge_forward b (concat (map fst prs)) (concat (map snd prs)) (batched (List.length prs)) = concat (map (fun p => edge_forward b (fst p) (snd p) t) prs).
Proof.
  intros H. unfold edge_forward at 1. rewrite c3_batch by exact H. pose proof (c2_batch b (map fst prs)) as C2. rewrite map_length in C2. rewrite C2 by (apply Forall_map; eapply Forall_impl; [|exact H]; intros ? [? _]; assumption).
  rewrite map_map. rewrite map2_concat. 2: { eapply Forall_impl; [|exact H]. intros p [_ E]. rewrite c2_len. exact E. }
  rewrite map2_concat. 2: { eapply Forall_impl; [|exact H]. intros p [_ E]. rewrite c3_len by exact E. apply map2_len; [exact E|apply c2_len]. }
  reflexivity.
Qed.
Lemma edge_len b node edge : List.length edge = e -> List.length (edge_forward b node edge t) = e.
Proof. intros H. unfold edge_forward. apply map2_len; [apply map2_len; [exact H|apply c2_len]|apply c3_len, H]. Qed.
Lemma message_batch nbs ebs prs : Forall sized prs ->
  message_passing nbs ebs (batched (List.length prs)) (concat (map fst prs)) (concat (map snd prs)) =
  let out := map (fun p => message_passing nbs ebs t (fst p) (snd p)) prs in (concat (map fst out), concat (map snd out)).
Proof.
  revert ebs prs. induction nbs as [|nb nbs IH]; intros [|eb ebs] prs H; cbn [message_passing]; cbv zeta; try (rewrite !map_map; reflexivity).
  rewrite node_batch by exact H. set (step := fun p : list vec * list vec => (node_forward nb (fst p) (snd p) (t_i t), edge_forward eb (node_forward nb (fst p) (snd p) (t_i t)) (snd p) t)).
  set (mid := map (fun p : list vec * list vec => (node_forward nb (fst p) (snd p) (t_i t), snd p)) prs).
  assert (M : Forall sized mid). { apply Forall_map. eapply Forall_impl; [|exact H]. intros p [E1 E2]. split; cbn; [apply node_len, E1|exact E2]. }
  pose proof (edge_batch eb mid M) as EB. unfold mid in EB. rewrite !map_map, map_length in EB. cbn [fst snd] in EB. change (fun x : list vec * list vec => snd x) with (@snd (list vec) (list vec)) in EB. rewrite EB.
  assert (S : Forall sized (map step prs)). { apply Forall_map. eapply Forall_impl; [|exact H]. intros p [E1 E2]. split; cbn; [apply node_len, E1|apply edge_len, E2]. }
  specialize (IH ebs (map step prs) S). rewrite !map_map, map_length in IH. cbn [step fst snd] in IH. cbv zeta in IH. rewrite IH. rewrite !map_map. reflexivity.
Qed.
Lemma message_len nbs ebs p : sized p -> sized (message_passing nbs ebs t (fst p) (snd p)).
Proof.
  revert ebs p. induction nbs as [|nb nbs IH]; intros [|eb ebs] p H; cbn [message_passing]; try exact H; try (destruct p; exact H).
  apply (IH ebs (node_forward nb (fst p) (snd p) (t_i t), edge_forward eb (node_forward nb (fst p) (snd p) (t_i t)) (snd p) t)).
  destruct H. split; cbn; [apply node_len; assumption|apply edge_len; assumption].
Qed.
End Net.
