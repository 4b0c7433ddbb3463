(** The equivalent-atom dictionary as a partition, and its failure case. *)
From Coq Require Import String ZArith Reals Lia Bool List.
From Verif Require Import Base LinAlg Constants M_Validate M_StructUtils M_Symmetry M_Reference
  S_Lattice P_StructUtils P_Reference.
Import ListNotations.

Lemma skipn_cons {A} n (l : list A) x rest : skipn n l = x :: rest -> nth_error l n = Some x /\ skipn (S n) l = rest.
Proof. revert l; induction n; intros [|a l] H; simpl in *; try discriminate; [injection H as -> ->; auto|apply IHn in H; auto]. Qed.

Lemma equivalent_atom_loop_err n rest d e : equivalent_atom_loop n rest d = Err e -> e = KeyError.
Proof.
  revert n d; induction rest as [|l rest IH]; intros n d; simpl; [discriminate|].
  destruct (Nat.eqb n l); [apply IH|]. unfold dict_append. destruct (dict_get d l); simpl; [apply IH|congruence].
Qed.

Definition keys_inv (labels : list nat) (n : nat) (d : idict) : Prop :=
  forall k, In k (dict_keys d) <-> (k < n)%nat /\ nth_error labels k = Some k.

Lemma equivalent_atom_loop_orbit labels rest n d d' :
  skipn n labels = rest -> keys_inv labels n d ->
  equivalent_atom_loop n rest d = Ok d' ->
  forall i l, (n <= i)%nat -> nth_error labels i = Some l -> (l <= i)%nat /\ nth_error labels l = Some l.
Proof.
  revert n d. induction rest as [|x rest IH]; intros n d Hs Hk.
  - intros _ i l Hi Hl. assert (List.length labels <= n)%nat.
    { pose proof (skipn_length n labels). rewrite Hs in H. simpl in H. lia. }
    assert (i < List.length labels)%nat by (apply nth_error_Some; congruence). lia.
  - apply skipn_cons in Hs as [Hx Hs]. simpl. destruct (Nat.eqb_spec n x) as [<-|N].
    + intros H i l Hi Hl. destruct (Nat.eq_dec i n) as [->|].
      * rewrite Hx in Hl. injection Hl as <-. auto.
      * eapply (IH (S n)); eauto; [|lia].
        intros k. rewrite dict_keys_set. specialize (Hk k).
        destruct (existsb _ d) eqn:E.
        -- apply existsb_key in E. split; [intros G; apply Hk in G; split; [lia|tauto]|].
           intros [G1 G2]. destruct (Nat.eq_dec k n); [subst; auto|]. apply Hk; split; [lia|auto].
        -- rewrite in_app_iff. simpl. split.
           ++ intros [G|[<-|[]]]; [apply Hk in G; split; [lia|tauto]|auto].
           ++ intros [G1 G2]. destruct (Nat.eq_dec k n); [right; auto|]. left. apply Hk; split; [lia|auto].
    + unfold dict_append. destruct (dict_get d x) as [v|] eqn:E; simpl; [|discriminate].
      assert (Hin: In x (dict_keys d)).
      { destruct (in_dec Nat.eq_dec x (dict_keys d)) as [|Nin]; auto. apply dict_get_none in Nin. congruence. }
      pose proof (proj1 (Hk x) Hin) as [Hlt Hlab].
      intros H i l Hi Hl. destruct (Nat.eq_dec i n) as [->|].
      * rewrite Hx in Hl. injection Hl as <-. split; [lia|auto].
      * eapply (IH (S n)); eauto; [|lia].
        intros k. rewrite dict_keys_set. apply existsb_key in Hin. rewrite Hin. rewrite (Hk k : In k (dict_keys d) <-> _).
        split; intros [G1 G2]; split; auto; try lia. destruct (Nat.eq_dec k n); [subst; congruence|lia].
Qed.

Lemma equivalent_atom_dict_iff r :
  ((exists d, get_equivalent_atom_dict r = Ok d) <-> orbit_labels (rs_equiv r)) /\
  (forall e, get_equivalent_atom_dict r = Err e -> e = KeyError).
Proof.
  split; [split|].
  - intros [d H] i l Hl. eapply (equivalent_atom_loop_orbit (rs_equiv r) _ 0 []); eauto; [|lia].
    intros k; simpl. split; [tauto|lia].
  - intros H. destruct (equivalent_atom_dict_ok r H) as (d & Hd & _). eauto.
  - intros e. apply equivalent_atom_loop_err.
Qed.

Lemma equivalent_atom_dict_partition r d :
  orbit_labels (rs_equiv r) -> get_equivalent_atom_dict r = Ok d ->
  NoDup (map fst d) /\
  (forall k v, In (k, v) d -> NoDup v /\
     forall i, (i = k \/ In i v) <-> nth_error (rs_equiv r) i = Some k) /\
  (forall i, (i < List.length (rs_equiv r))%nat -> exists k v, In (k, v) d /\ (i = k \/ In i v)) /\
  (forall k v i, In (k, v) d -> In i v -> (k < i)%nat) /\
  List.length d = num_nonequivalent_atoms r.
Proof.
  intros Horb Hd. destruct (equivalent_atom_dict_ok r Horb) as (d' & Hd' & Hinv). rewrite Hd in Hd'. injection Hd' as <-.
  pose proof (num_nonequivalent_keys _ _ Horb Hinv) as Hnum. destruct Hinv as (A & B & C).
  assert (D: forall k v, In (k, v) d -> nth_error (rs_equiv r) k = Some k /\
     forall i, In i v <-> nth_error (rs_equiv r) i = Some k /\ i <> k).
  { intros k v Hkv. assert (Hk: In k (dict_keys d)) by (apply in_map_iff; exists (k, v); auto).
    apply B in Hk as [_ Hk]. split; auto. apply dict_get_In in Hkv; auto. rewrite (C k v Hkv).
    intros i. rewrite filter_In, in_seq. split.
    - intros [Hi Hf]. destruct (nth_error (rs_equiv r) i) as [l|] eqn:E; [|discriminate].
      apply andb_true_iff in Hf as [H1 H2]. apply Nat.eqb_eq in H1. apply negb_true_iff, Nat.eqb_neq in H2. subst; auto.
    - intros [Hi Hne]. split; [split; [lia|]|].
      + simpl. apply nth_error_Some. congruence.
      + rewrite Hi, Nat.eqb_refl. apply Nat.eqb_neq in Hne. rewrite Hne. auto. }
  split; [auto|split; [|split; [|split]]].
  - intros k v Hkv. destruct (D k v Hkv) as [D1 D2]. split.
    + pose proof Hkv as G. apply dict_get_In in G; auto. rewrite (C k v G). apply NoDup_filter, seq_NoDup.
    + intros i. rewrite D2. destruct (Nat.eq_dec i k) as [->|]; tauto.
  - intros i Hi. destruct (nth_error (rs_equiv r) i) as [l|] eqn:E; [|apply nth_error_None in E; lia].
    destruct (Horb i l E) as [H1 H2].
    assert (Hk: In l (dict_keys d)) by (apply B; split; auto; apply nth_error_Some; congruence).
    apply in_map_iff in Hk as ([k v] & <- & Hkv). simpl in *. exists k, v. split; auto.
    destruct (D k v Hkv) as [_ D2]. destruct (Nat.eq_dec i k); auto. right. apply D2; auto.
  - intros k v i Hkv Hi. destruct (D k v Hkv) as [_ D2]. apply D2 in Hi as [Hi Hne]. apply Horb in Hi. lia.
  - unfold num_nonequivalent_atoms. rewrite Hnum. unfold dict_keys. rewrite map_length. auto.
Qed.
