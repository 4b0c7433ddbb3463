(** PotGNN: predictions do not depend on the order of the atoms *)
From Coq Require Import ZArith Reals Bool Arith List Permutation FinFun Lia Lra.
From Verif Require Import Base LinAlg M_Validate M_StructUtils S_Lattice P_StructUtils M_Torch S_Torch P_Torch P_Torch2 M_Gnn S_Gnn P_Gnn P_Gnn2 P_Gnn3 P_Gnn4 S_Relabel P_Relabel.
Import ListNotations.
Local Open Scope nat_scope.

Definition pairs_of (es : list edge) : list (nat * nat) := map (fun '(_, i, j) => (i, j)) es.
Definition both (s : nat -> nat) (p : nat * nat) : nat * nat := (s (fst p), s (snd p)).

Lemma map_nodup_in {A B} (f : A -> B) l : (forall x y, In x l -> In y l -> f x = f y -> x = y) -> NoDup l -> NoDup (map f l).
Proof.
  intros H. induction 1 as [|a l Ha _ IH]; [constructor|]. cbn. constructor.
  - intros Hin. apply in_map_iff in Hin. destruct Hin as (b & Eb & Hb). apply Ha. replace a with b; [exact Hb|]. apply H; [right; exact Hb|left; reflexivity|exact Eb].
  - apply IH. intros x y Hx Hy. apply H; right; assumption.
Qed.
(** ** Triplets *)
Section Triplets.
Context (swap : bool) (n : nat) (s t : nat -> nat) (E E' : list (nat * nat)) (T T' : triplets).
Context (HS : reordering n s) (HE : Forall (fun p => fst p < n /\ snd p < n) E) (HC : carried t (both s) E E')
  (HT : lists_triplets swap E T) (HT' : lists_triplets swap E' T').
Definition shift_row (r : nat * (nat * (nat * (nat * nat)))) : nat * (nat * (nat * (nat * nat))) :=
  let '(i, (j, (k, (a, b)))) := r in (s i, (s j, (s k, (t a, t b)))).
Lemma in_range p : In p E -> fst p < n /\ snd p < n.
Proof. rewrite Forall_forall in HE. apply HE. Qed.
Lemma sent a i j : nth_error E a = Some (i, j) -> nth_error E' (t a) = Some (s i, s j) /\ i < n /\ j < n /\ a < List.length E.
Proof. intros H. split; [apply HC in H; exact H|]. apply nth_error_In in H as H'. apply in_range in H'. split; [apply H'|]. split; [apply H'|]. eapply some_lt, H. Qed.
Lemma reached a' i' j' : nth_error E' a' = Some (i', j') -> exists a i j, t a = a' /\ s i = i' /\ s j = j' /\ nth_error E a = Some (i, j).
Proof.
  intros H. destruct HC as (HL & (R1 & R2) & H3). pose proof (some_lt _ _ _ H) as Ha. rewrite HL in Ha. pose proof (proj1 (bInjective_bSurjective R1) R2) as Sur.
  destruct (Sur a' Ha) as (a & Ha2 & Ea). destruct (lt_some _ _ Ha2) as [[i j] Eij]. exists a, i, j. pose proof (H3 _ _ Eij) as E2. rewrite Ea, H in E2. injection E2 as -> ->. repeat split; assumption.
Qed.
Lemma rows_perm : Permutation (map shift_row (triplet_rows T)) (triplet_rows T').
Proof.
  destruct HS as (S1 & S2). destruct HC as (HL & (R1 & R2) & H3).
  destruct HT as (_ & _ & _ & ND & HIn). destruct HT' as (_ & _ & _ & ND' & HIn').
  apply NoDup_Permutation.
  - apply map_nodup_in; [|exact ND]. intros [i [j [k [a b]]]] [i2 [j2 [k2 [a2 b2]]]] H1 H2 E0. apply HIn in H1, H2. unfold shift_row in E0. injection E0. intros Eb Ea Ek Ej Ei.
    destruct H1 as (_ & A1 & B1), H2 as (_ & A2 & B2). apply sent in A1, B1, A2, B2. destruct A1 as (_ & ? & ? & ?), B1 as (_ & ? & ? & ?), A2 as (_ & ? & ? & ?), B2 as (_ & ? & ? & ?).
    assert (a < List.length E /\ b < List.length E /\ a2 < List.length E /\ b2 < List.length E) as (? & ? & ? & ?) by (destruct swap; repeat split; assumption).
    apply S2 in Ei; [|assumption|assumption]. apply S2 in Ej; [|assumption|assumption]. apply S2 in Ek; [|assumption|assumption]. apply R2 in Ea; [|assumption|assumption]. apply R2 in Eb; [|assumption|assumption]. subst. reflexivity.
  - exact ND'.
  - intros [i' [j' [k' [a' b']]]]. split.
    + intros H. apply in_map_iff in H. destruct H as ([i [j [k [a b]]]] & E0 & H). apply HIn in H. destruct H as (N & A & B). apply sent in A, B. destruct A as (A & ? & ? & ?), B as (B & ? & ? & ?). unfold shift_row in E0. injection E0 as <- <- <- <- <-.
      apply HIn'. split; [intros E0; apply S2 in E0; [contradiction|assumption|assumption]|]. destruct swap; split; assumption.
    + intros H. apply HIn' in H. destruct H as (N & A & B). apply reached in A, B. destruct A as (x & j & i & E1 & E2 & E3 & A), B as (y & k & j2 & E4 & E5 & E6 & B).
      pose proof (sent _ _ _ A) as (_ & Hj & Hi & _). pose proof (sent _ _ _ B) as (_ & Hk & Hj2 & _). assert (j2 = j) as -> by (apply S2; congruence).
      apply in_map_iff. exists (i, (j, (k, if swap then (y, x) else (x, y)))). split; [destruct swap; unfold shift_row; congruence|].
      destruct swap; apply HIn; (split; [intros ->; congruence|split; assumption]).
Qed.
End Triplets.

Lemma map_fst_combine {A B} (a : list A) (b : list B) : List.length a = List.length b -> map fst (combine a b) = a.
Proof. revert b. induction a as [|x a IH]; intros [|y b] H; try discriminate; [reflexivity|]. cbn. f_equal. apply IH. injection H as H. exact H. Qed.
Lemma map_snd_combine {A B} (a : list A) (b : list B) : List.length a = List.length b -> map snd (combine a b) = b.
Proof. revert b. induction a as [|x a IH]; intros [|y b] H; try discriminate; [reflexivity|]. cbn. f_equal. apply IH. injection H as H. exact H. Qed.
Lemma rows_columns t : (exists k, List.length (t_index_i t) = k /\ List.length (t_index_j t) = k /\ List.length (t_index_k t) = k /\ List.length (t_index_ji t) = k /\ List.length (t_index_kj t) = k) ->
  t_index_i t = map fst (triplet_rows t) /\ t_index_j t = map (fun r => fst (snd r)) (triplet_rows t) /\ t_index_k t = map (fun r => fst (snd (snd r))) (triplet_rows t) /\
  t_index_ji t = map (fun r => fst (snd (snd (snd r)))) (triplet_rows t) /\ t_index_kj t = map (fun r => snd (snd (snd (snd r)))) (triplet_rows t).
Proof.
  intros (k & L1 & L2 & L3 & L4 & L5). unfold triplet_rows.
  assert (K1 : List.length (combine (t_index_ji t) (t_index_kj t)) = k) by (rewrite combine_length; lia).
  assert (K2 : List.length (combine (t_index_k t) (combine (t_index_ji t) (t_index_kj t))) = k) by (rewrite combine_length; lia).
  assert (K3 : List.length (combine (t_index_j t) (combine (t_index_k t) (combine (t_index_ji t) (t_index_kj t)))) = k) by (rewrite combine_length; lia).
  split; [rewrite map_fst_combine by lia; reflexivity|].
  split; [rewrite <- (map_map snd fst), map_snd_combine, map_fst_combine by lia; reflexivity|].
  split; [rewrite <- (map_map snd (fun r => fst (snd r))), map_snd_combine by lia; rewrite <- (map_map snd fst), map_snd_combine, map_fst_combine by lia; reflexivity|].
  split; (rewrite <- (map_map snd (fun r => _ (snd (snd r)))), map_snd_combine by lia; rewrite <- (map_map snd (fun r => _ (snd r))), map_snd_combine by lia; rewrite <- (map_map snd _), map_snd_combine by lia); [rewrite map_fst_combine by lia|rewrite map_snd_combine by lia]; reflexivity.
Qed.
Lemma lists_for swap n E t : Forall (fun p => fst p < n /\ snd p < n) E -> lists_triplets swap E t -> triplets_for n (List.length E) t.
Proof.
  intros HE (Hi & Hj & HL & _ & HIn). pose proof (rows_columns t HL) as (E1 & E2 & E3 & E4 & E5). rewrite Forall_forall in HE.
  assert (HR : forall r, In r (triplet_rows t) -> fst r < n /\ fst (snd r) < n /\ fst (snd (snd r)) < n /\ fst (snd (snd (snd r))) < List.length E /\ snd (snd (snd (snd r))) < List.length E).
  { intros [i [j [k [a b]]]] H. apply HIn in H. destruct H as (_ & A & B). cbn. pose proof (HE _ (nth_error_In _ _ A)) as X. pose proof (HE _ (nth_error_In _ _ B)) as Y. cbn in X, Y. apply some_lt in A, B. destruct swap; lia. }
  split; [rewrite Hi; apply map_length|]. split; [rewrite Hj; apply map_length|]. split; [exact HL|].
  rewrite Hi, Hj. split; rewrite !Forall_app; repeat split; try (apply Forall_map, Forall_forall; intros p Hp; apply HE, Hp).
  - rewrite E1. apply Forall_map, Forall_forall. intros r Hr. apply HR, Hr.
  - rewrite E2. apply Forall_map, Forall_forall. intros r Hr. apply HR, Hr.
  - rewrite E3. apply Forall_map, Forall_forall. intros r Hr. apply HR, Hr.
  - rewrite E4. apply Forall_map, Forall_forall. intros r Hr. apply HR, Hr.
  - rewrite E5. apply Forall_map, Forall_forall. intros r Hr. apply HR, Hr.
Qed.
