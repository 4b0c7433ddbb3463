(** Proof of C30. *)
From Coq Require Import String ZArith Reals Lra Lia Psatz Bool Arith List.
From Verif Require Import Base LinAlg M_Validate M_StructUtils M_Symmetry M_Reference M_Interp
  S_Lattice S_Vec S_Symmetry S_Equivalent S_Interp P_StructUtils P_Symmetry P_Equivalent P_Equiv2 P_Equiv3 P_EquivTotal
  P_Interp P_Interp2 P_InterpEval P_Interp3 P_Interp4 P_Interp5 P_Interp6.
Import ListNotations.
Local Open Scope R_scope.

Lemma bdim_cases a b x : bdim a b = Some x -> (a = b /\ x = a) \/ (a = 1%nat /\ x = b) \/ (b = 1%nat /\ x = a).
Proof.
  unfold bdim. destruct (Nat.eqb_spec a b); [intros [= <-]; auto|].
  destruct (Nat.eqb_spec a 1); [intros [= <-]; auto|]. destruct (Nat.eqb_spec b 1); [intros [= <-]; auto|discriminate].
Qed.
Lemma bdim_ok a b : b = a \/ b = 1%nat -> bdim a b = Some a.
Proof.
  unfold bdim. intros [->| ->]; [rewrite Nat.eqb_refl; auto|].
  destruct (Nat.eqb_spec a 1); auto.
Qed.

Lemma repeated_bix d i : repeated d i = bix d i. Proof. reflexivity. Qed.

Lemma broadcast_displacements r b ns n c : let N := List.length (rs_positions r) in
  (0 < N)%nat -> b_shape b = [ns; n; c] -> (n = N \/ n = 1)%nat -> (c = 3 \/ c = 1)%nat ->
  batch_displacements r b = batch_displacements r (batch_of N (broadcast_samples b ns n c N)).
Proof.
  intros N HN E Hn Hc. unfold batch_displacements. rewrite E. cbn [b_shape batch_of]. fold N.
  rewrite (bdim_ok N n) by auto. rewrite (bdim_ok N N) by auto. rewrite (bdim_ok 3 c) by auto.
  rewrite (bdim_ok 3 3) by auto. f_equal. f_equal.
  assert (Ls: List.length (broadcast_samples b ns n c N) = ns).
  { unfold broadcast_samples. rewrite map_length, seq_length. auto. }
  rewrite Ls. apply map_ext_in. intros s Hs. apply in_seq in Hs. f_equal. apply map_ext_in. intros i Hi. apply in_seq in Hi.
  f_equal. unfold bdisp. cbn [b_at batch_of]. f_equal. f_equal. f_equal.
  assert (Bi: bix N i = i) by (unfold bix; destruct (Nat.eqb_spec N 1); lia).
  rewrite Bi. change (bix 3 0) with 0%nat. change (bix 3 1) with 1%nat. change (bix 3 2) with 2%nat.
  assert (En: nth i (nth s (broadcast_samples b ns n c N) []) v0 =
    mkV (b_at b s (repeated n i) (repeated c 0)) (b_at b s (repeated n i) (repeated c 1)) (b_at b s (repeated n i) (repeated c 2))).
  { unfold broadcast_samples. rewrite (nth_map_lt _ (seq 0 ns) s 0%nat) by (rewrite seq_length; lia).
    rewrite (nth_map_lt _ (seq 0 N) i 0%nat) by (rewrite seq_length; lia). rewrite !seq_nth by lia. auto. }
  rewrite En. auto.
Qed.

Lemma broadcast_shape b ns n c N : sample_shape N (broadcast_samples b ns n c N).
Proof.
  unfold sample_shape, broadcast_samples. apply Forall_forall. intros p Hp. apply in_map_iff in Hp as (s & <- & _).
  rewrite map_length, seq_length. auto.
Qed.

Lemma f_C30_ok spl m b ns n c : reachable m ->
  let N := List.length (rs_positions (im_ref m)) in
  b_shape b = [ns; n; c] -> (n = N \/ n = 1)%nat -> (c = 3 \/ c = 1)%nat ->
  calc_polarizabilities spl m b = calc_polarizabilities spl m (batch_of N (broadcast_samples b ns n c N)) /\
  (im_dummy m = false -> exists out, calc_polarizabilities spl m b = Ok out /\ List.length out = ns).
Proof.
  intros Hr N E Hn Hc. apply reachable_inv in Hr. pose proof Hr as (Wf & _). destruct Wf as (_ & HN & _).
  assert (Eq: calc_polarizabilities spl m b = calc_polarizabilities spl m (batch_of N (broadcast_samples b ns n c N))).
  { unfold calc_polarizabilities, N. rewrite <- (broadcast_displacements (im_ref m) b ns n c); auto. }
  split; auto. intros Hd. rewrite Eq. unfold N. rewrite calc_regular; auto using broadcast_shape.
  eexists. split; eauto. unfold broadcast_samples. rewrite !map_length, seq_length. auto.
Qed.

(** All extents positive *)
Lemma prod_pos l : Forall (fun d => (0 < d)%nat) l -> (0 < prod_list l)%nat.
Proof. unfold prod_list. induction 1; simpl; lia. Qed.
Lemma prod_app l m : prod_list (l ++ m) = (prod_list l * prod_list m)%nat.
Proof. unfold prod_list. induction l; simpl; [lia|]. rewrite IHl. lia. Qed.

Lemma f_C30_err spl m b : reachable m -> im_dummy m = false -> im_basis m <> [] ->
  let N := List.length (rs_positions (im_ref m)) in
  (forall ns n c, b_shape b = [ns; n; c] -> ~ ((n = N \/ n = 1)%nat /\ (c = 3 \/ c = 1)%nat)) ->
  (List.length (b_shape b) = 3%nat \/ Forall (fun d => (0 < d)%nat) (b_shape b)) ->
  calc_polarizabilities spl m b = Err ValueError.
Proof.
  intros Hr Hd Hb N Hsh Hpos. apply reachable_inv in Hr. destruct Hr as (Wf & (C1 & C2 & C3) & Hbo & _).
  specialize (C2 Hd). destruct Wf as (_ & HN & _).
  unfold calc_polarizabilities.
  destruct (batch_displacements (im_ref m) b) as [[width rows]|e] eqn:E.
  2: { unfold batch_displacements in E. cbn [rbind].
       destruct (b_shape b) as [|ns [|a [|x [|y l]]]]; try congruence.
       - simpl in E. congruence.
       - destruct (bdim _ a) as [n'|], (bdim 3 x) as [[|[|[|[|k]]]]|]; congruence.
       - revert E. destruct (rev (x :: y :: l)) as [|c [|n mid]]; try congruence.
         destruct (bdim _ n) as [n'|], (bdim 3 c) as [[|[|[|[|k]]]]|]; try congruence.
         cbv zeta. destruct (Nat.eqb _ _); congruence. }
  cbn [rbind].
  assert (Hw: width <> (3 * N)%nat /\ width <> 1%nat).
  { unfold batch_displacements in E. fold N in E, HN. destruct (b_shape b) as [|ns [|a [|x [|y l]]]] eqn:Es; try discriminate.
    - destruct (bdim N a) as [n'|] eqn:B1; [|discriminate].
      destruct (bdim 3 x) as [[|[|[|[|k]]]]|] eqn:B2; try discriminate. injection E as <- <-.
      apply bdim_cases in B1. apply bdim_cases in B2. specialize (Hsh ns a x eq_refl). lia.
    - destruct Hpos as [Hpos|Hpos]; [simpl in Hpos; lia|].
      assert (K: exists c n mid, x :: y :: l = rev mid ++ [n; c] /\ rev (x :: y :: l) = c :: n :: mid).
      { destruct (rev (x :: y :: l)) as [|c [|n mid]] eqn:R.
        - apply (f_equal (@List.length _)) in R. rewrite rev_length in R. discriminate.
        - apply (f_equal (@List.length _)) in R. rewrite rev_length in R. discriminate.
        - exists c, n, mid. split; auto. rewrite <- (rev_involutive (x :: y :: l)), R. simpl. rewrite <- app_assoc. auto. }
      destruct K as (c & n & mid & K1 & K2). rewrite K2 in E. rewrite K1 in Hpos.
      destruct (bdim N n) as [n'|] eqn:B1; [|discriminate].
      destruct (bdim 3 c) as [[|[|[|[|k]]]]|] eqn:B2; try discriminate.
      inversion Hpos as [|? ? P1 Hp]; subst. inversion Hp as [|? ? P2 Hp2]; subst.
      apply Forall_app in Hp2 as [P3 P4]. inversion P4; subst. inversion H2; subst.
      exfalso. revert E. cbv zeta. destruct (Nat.eqb_spec (prod_list (ns :: a :: rev mid ++ [n'; 3%nat]))
        (ns * (a * nth 2 (ns :: a :: rev mid ++ [n'; 3%nat]) 0%nat))%nat) as [Eq|]; [|discriminate]. intros _.
      assert (Pn: (0 < n')%nat) by (apply bdim_cases in B1; lia).
      change (prod_list (ns :: a :: rev mid ++ [n'; 3%nat])) with (ns * (a * prod_list (rev mid ++ [n'; 3%nat])))%nat in Eq.
      cbn [nth] in Eq.
      assert (Eq': prod_list (rev mid ++ [n'; 3%nat]) = nth 0 (rev mid ++ [n'; 3%nat]) 0%nat).
      { apply Nat.mul_cancel_l in Eq; [|lia]. apply Nat.mul_cancel_l in Eq; lia. }
      rewrite prod_app in Eq'. simpl in Eq'.
      destruct (rev mid) as [|t mid']; simpl in Eq'; [lia|]. inversion P3; subst.
      pose proof (prod_pos _ H6) as Hq. clear - Eq' H5 Pn Hq. generalize dependent (prod_list mid'). intros q E Hq. assert (1 <= q * n')%nat by nia. nia. }
  destruct (im_basis m) as [|v vs] eqn:Ev; [tauto|]. destruct (im_interp m) as [|i is]; [discriminate|].
  destruct (im_mask m) as [|k ks]; [discriminate|]. simpl.
  unfold basis_ok in Hbo. rewrite Ev in Hbo. inversion Hbo as [|? ? [L _] _]; subst.
  assert (Lf: List.length (flatten_rows v) = (3 * N)%nat) by (rewrite flatten_rows_length; unfold N; lia).
  rewrite Lf. destruct (Nat.eqb_spec (3 * N) width); [lia|]. destruct (Nat.eqb_spec width 1); [lia|].
  destruct (Nat.eqb_spec (3 * N) 1); [lia|]. simpl. rewrite Hd. auto.
Qed.
