From Coq Require Import String ZArith Reals Lra Lia Psatz Bool List Sorted.
From Verif Require Import Base LinAlg Constants M_Validate M_StructUtils M_Symmetry M_Reference
  S_Lattice P_StructUtils P_Minimal.
Import ListNotations.
Local Open Scope R_scope.

(** ** Construction *)
Lemma make_reference_bad_positions numbers lattice positions op ops equiv :
  positions_ok positions = false ->
  make_reference numbers lattice positions (Some (op :: ops, equiv)) = Err ValueError.
Proof.
  intros H. unfold make_reference. simpl.
  destruct (verify_ndarray_shape_spec [List.length positions; 3%nat] [Some (List.length numbers); Some 3%nat]) as [_ H2].
  destruct (verify_ndarray_shape _ _) as [[]|e]; simpl.
  - unfold compute_permutation_matrices; simpl. unfold permutation_matrix_of.
    rewrite displace_positions_one. simpl. unfold transform_positions. rewrite H. reflexivity.
  - specialize (H2 ltac:(discriminate)). inversion H2; reflexivity.
Qed.

Lemma make_reference_ok_positions numbers lattice positions ops equiv :
  positions_ok positions = true -> List.length positions = List.length numbers ->
  exists r, make_reference numbers lattice positions (Some (ops, equiv)) = Ok r /\
    rs_numbers r = numbers /\ rs_lattice r = lattice /\ rs_positions r = positions /\
    rs_ops r = ops /\ rs_equiv r = equiv /\ List.length (rs_perms r) = List.length ops.
Proof.
  intros H Hlen. unfold make_reference. simpl.
  destruct (verify_ndarray_shape_spec [List.length positions; 3%nat] [Some (List.length numbers); Some 3%nat]) as [H1 _].
  rewrite (proj2 H1) by (repeat constructor; auto). simpl.
  assert (G: exists perms, compute_permutation_matrices ops positions = Ok perms).
  { unfold compute_permutation_matrices. induction ops as [|op ops IH]; simpl; eauto.
    unfold permutation_matrix_of at 1. rewrite displace_positions_one. simpl.
    unfold transform_positions at 1. rewrite H, displace_positions_one. simpl.
    destruct IH as [perms ->]. simpl; eauto. }
  destruct G as [perms G]. rewrite G. simpl. eexists; split; [reflexivity|]. simpl.
  repeat split; auto. apply mapM_length in G; auto.
Qed.

(** ** Cartesian / fractional conversions *)
Lemma frac_of_cart r d li : minv (rs_lattice r) = Ok li ->
  get_frac_displacement r (get_cart_displacement r d) = Ok (apply_pbc_displacement d).
Proof.
  intros H. unfold get_frac_displacement. rewrite H; simpl. f_equal.
  unfold get_cart_displacement. rewrite <- rows_mul_mmul.
  apply minv_Ok in H as (H & _). rewrite H, rows_mul_mI.
  apply apply_pbc_displacement_proper, same_sym, same_apply_pbc_displacement.
Qed.

Lemma frac_displacement_ok r c : mdet (rs_lattice r) <> 0 ->
  exists d, get_frac_displacement r c = Ok d /\ List.length d = List.length c.
Proof.
  intros H. destruct (minv_exists _ H) as [li Hli]. unfold get_frac_displacement. rewrite Hli. simpl.
  eexists; split; eauto. rewrite apply_pbc_displacement_length. apply map_length.
Qed.

Lemma frac_displacement_singular r c : mdet (rs_lattice r) = 0 ->
  get_frac_displacement r c = Err LinAlgError.
Proof. intros H. unfold get_frac_displacement. rewrite minv_singular; auto. Qed.

(** Cartesian vectors differing by an integer combination of lattice vectors *)
Definition cart_congr (L : M3) (a b : V3) : Prop :=
  exists n, integer_vector n /\ vsub a b = vmul n L.

Lemma vcongr_int a b : vcongr a b -> integer_vector (vsub a b).
Proof. intros ((k & Hk) & (l & Hl) & (m & Hm)). repeat split; simpl; eexists; eauto. Qed.

Lemma cart_of_frac r c d : get_frac_displacement r c = Ok d ->
  Forall2 (cart_congr (rs_lattice r)) c (get_cart_displacement r d).
Proof.
  unfold get_frac_displacement. destruct (minv (rs_lattice r)) as [li|] eqn:Hli; simpl; [|discriminate].
  intros [= <-]. apply minv_Ok in Hli as (_ & Hli & _).
  unfold get_cart_displacement, rows_mul, apply_pbc_displacement. rewrite !map_map.
  induction c as [|v c IH]; simpl; constructor; auto.
  set (u := vmul v li).
  exists (vsub u (vmap wrapd (vmap wrapd u))). split.
  - apply vcongr_int. eapply vcongr_trans; apply vcongr_wrapd.
  - rewrite vmul_vsub. f_equal. unfold u. rewrite <- vmul_mmul, Hli, vmul_mI; auto.
Qed.

Lemma wrapd_wrapd x : wrapd (wrapd x) = wrapd x.
Proof. apply wrapd_id, wrapd_range. Qed.

Lemma vmul_inj L li a b : mmul L li = mI -> vmul a L = vmul b L -> a = b.
Proof. intros H E. rewrite <- (vmul_mI a), <- (vmul_mI b), <- H, !vmul_mmul, E; auto. Qed.

Lemma cart_of_frac_exact r c d li :
  minv (rs_lattice r) = Ok li -> get_frac_displacement r c = Ok d ->
  (get_cart_displacement r d = c <->
   Forall (fun v => vall (fun x => - / 2 < x <= / 2) (vmul v li)) c).
Proof.
  intros Hli Hd. unfold get_frac_displacement in Hd. rewrite Hli in Hd. simpl in Hd. injection Hd as <-.
  apply minv_Ok in Hli as (H1 & H2 & _).
  unfold get_cart_displacement, rows_mul, apply_pbc_displacement. rewrite !map_map.
  induction c as [|v c IH]; simpl; [split; auto|].
  split.
  - intros [= E1 E2]. constructor; [|apply IH; auto].
    assert (E: vmap wrapd (vmap wrapd (vmul v li)) = vmul v li).
    { apply (vmul_inj (rs_lattice r) li); auto. rewrite E1, <- vmul_mmul, H2, vmul_mI; auto. }
    rewrite <- E. apply vall_wrapd.
  - intros H. inversion H; subst. apply IH in H5. rewrite H5. f_equal.
    rewrite !vmap_wrapd_id; auto. 2: rewrite vmap_wrapd_id; auto.
    rewrite <- vmul_mmul, H2, vmul_mI; auto.
Qed.

(** ** get_atom_indexes *)
Lemma atom_index_loop_spec k syms wanted i :
  In i (atom_index_loop k syms wanted) <->
  exists j s, i = (k + j)%nat /\ nth_error syms j = Some s /\ In s wanted.
Proof.
  revert k; induction syms as [|s syms IH]; intros k; simpl.
  - split; [intros []|]. intros (j & s & _ & H & _). destruct j; discriminate.
  - assert (E: existsb (String.eqb s) wanted = true <-> In s wanted).
    { rewrite existsb_exists. split.
      - intros (x & Hx & Ex). apply String.eqb_eq in Ex. subst; auto.
      - intros H; exists s; split; auto. apply String.eqb_refl. }
    destruct (existsb (String.eqb s) wanted) eqn:X.
    + simpl. rewrite IH. split.
      * intros [<-|(j & t & -> & H & Ht)].
        -- exists 0%nat, s. split; [lia|]. split; auto. apply E; auto.
        -- exists (S j), t. split; [lia|]. auto.
      * intros (j & t & -> & H & Ht). destruct j; [left; lia|].
        right. exists j, t. split; [lia|auto].
    + rewrite IH. split.
      * intros (j & t & -> & H & Ht). exists (S j), t. split; [lia|auto].
      * intros (j & t & -> & H & Ht). destruct j.
        -- simpl in H. injection H as <-. apply E in Ht. discriminate.
        -- exists j, t. split; [lia|auto].
Qed.

Lemma atom_index_loop_sorted k syms wanted :
  StronglySorted lt (atom_index_loop k syms wanted).
Proof.
  revert k; induction syms as [|s syms IH]; intros k; simpl; [constructor|].
  destruct (existsb _ _); auto. constructor; auto.
  apply Forall_forall. intros i Hi. apply atom_index_loop_spec in Hi as (j & t & -> & _). lia.
Qed.

(** ** get_equivalent_atom_dict *)
Definition dict_keys (d : idict) := map fst d.

Lemma dict_get_In d k v : NoDup (dict_keys d) -> (dict_get d k = Some v <-> In (k, v) d).
Proof.
  unfold dict_get, dict_keys. induction d as [|[k' v'] d IH]; simpl; intros H.
  - split; [discriminate|tauto].
  - inversion H; subst. destruct (Nat.eqb_spec k' k) as [->|N].
    + simpl. split; [intros [= <-]; auto|]. intros [[= <-]|G]; auto.
      exfalso; apply H2. apply in_map_iff. exists (k, v); auto.
    + rewrite IH by auto. split; auto. intros [[= ? ?]|]; [tauto|auto].
Qed.

Lemma dict_get_none d k : dict_get d k = None <-> ~ In k (dict_keys d).
Proof.
  unfold dict_get, dict_keys. induction d as [|[k' v'] d IH]; simpl; [tauto|].
  destruct (Nat.eqb_spec k' k) as [->|N]; simpl.
  - split; [discriminate|tauto].
  - rewrite IH. split; [intros H [|]; auto|tauto].
Qed.

Lemma dict_get_set d k v k' : dict_get (dict_set d k v) k' = if Nat.eqb k' k then Some v else dict_get d k'.
Proof.
  unfold dict_set, dict_get. destruct (existsb (fun e => Nat.eqb (fst e) k) d) eqn:E.
  - induction d as [|[a b] d IH]; simpl in *; [discriminate|].
    destruct (Nat.eqb_spec a k) as [->|N]; simpl.
    + destruct (Nat.eqb_spec k k') as [->|N'].
      * rewrite Nat.eqb_refl. auto.
      * destruct (Nat.eqb_spec k' k); [congruence|].
        clear E IH. induction d as [|[a' b'] d IH]; simpl; auto.
        destruct (Nat.eqb_spec a' k) as [->|N'']; simpl.
        -- destruct (Nat.eqb_spec k k'); [congruence|]. auto.
        -- destruct (Nat.eqb_spec a' k'); auto.
    + destruct (Nat.eqb_spec a k') as [->|N'].
      * destruct (Nat.eqb_spec k' k); [congruence|auto].
      * apply IH; auto.
  - induction d as [|[a b] d IH]; simpl in *.
    + rewrite (Nat.eqb_sym k k'). destruct (k' =? k)%nat; auto.
    + apply orb_false_iff in E as [E1 E2]. apply Nat.eqb_neq in E1.
      destruct (Nat.eqb_spec a k') as [->|N'].
      * destruct (Nat.eqb_spec k' k); [congruence|auto].
      * apply IH; auto.
Qed.

Lemma dict_keys_set d k v :
  dict_keys (dict_set d k v) = if existsb (fun e => Nat.eqb (fst e) k) d then dict_keys d else dict_keys d ++ [k].
Proof.
  unfold dict_set, dict_keys. destruct (existsb (fun e => Nat.eqb (fst e) k) d).
  - rewrite map_map. apply map_ext. intros [a b]; simpl. destruct (Nat.eqb_spec a k); auto.
  - rewrite map_app. auto.
Qed.

Lemma existsb_key d k : existsb (fun e => Nat.eqb (fst e) k) d = true <-> In k (dict_keys d).
Proof.
  rewrite existsb_exists. unfold dict_keys. rewrite in_map_iff. split.
  - intros ([a b] & H & E). apply Nat.eqb_eq in E. simpl in E. exists (a, b); auto.
  - intros ([a b] & E & H). exists (a, b). split; auto. apply Nat.eqb_eq; auto.
Qed.

(** What the dictionary must be after the first [n] labels of [labels]. *)
Definition dict_inv (labels : list nat) (n : nat) (d : idict) : Prop :=
  NoDup (dict_keys d) /\
  (forall k, In k (dict_keys d) <-> (k < n)%nat /\ nth_error labels k = Some k) /\
  (forall k v, dict_get d k = Some v ->
     v = filter (fun i => match nth_error labels i with Some l => Nat.eqb l k && negb (Nat.eqb i k) | None => false end) (seq 0 n)).

Lemma filter_seq_S f n : filter f (seq 0 (S n)) = filter f (seq 0 n) ++ (if f n then [n] else []).
Proof. rewrite seq_S, filter_app. simpl. destruct (f n); auto. Qed.

Lemma equivalent_atom_loop_ok labels rest n d :
  orbit_labels labels -> skipn n labels = rest -> dict_inv labels n d ->
  exists d', equivalent_atom_loop n rest d = Ok d' /\ dict_inv labels (List.length labels) d'.
Proof.
  intros Horb. revert n d. induction rest as [|l rest IH]; intros n d Hs Hinv; simpl.
  - exists d; split; auto.
    assert (Hn: (List.length labels <= n)%nat).
    { pose proof (skipn_length n labels). rewrite Hs in H. simpl in H. lia. }
    destruct Hinv as (A & B & C). split; [auto|split].
    + intros k. rewrite B. split; intros [H1 H2]; split; auto; try lia.
      apply nth_error_Some. congruence.
    + intros k v Hv. rewrite (C k v Hv).
      replace n with (List.length labels + (n - List.length labels))%nat by lia.
      rewrite seq_app, filter_app.
      assert (G: forall m s, (List.length labels <= s)%nat ->
        filter (fun i => match nth_error labels i with Some l => Nat.eqb l k && negb (Nat.eqb i k) | None => false end) (seq s m) = []).
      { clear. induction m; simpl; intros s Hs; auto.
        rewrite (proj2 (nth_error_None labels s)) by lia. apply IHm; lia. }
      rewrite (G (n - List.length labels)%nat) by lia. rewrite app_nil_r; auto.
  - assert (Hl: nth_error labels n = Some l).
    { rewrite <- (firstn_skipn n labels), Hs.
      assert (n < List.length labels)%nat.
      { destruct (Nat.lt_ge_cases n (List.length labels)); auto. rewrite skipn_all2 in Hs by auto. discriminate. }
      rewrite nth_error_app2; rewrite firstn_length_le by lia; try lia. rewrite Nat.sub_diag. auto. }
    assert (Hs': skipn (S n) labels = rest).
    { clear - Hs. revert labels Hs. induction n; intros [|a labels] Hs; simpl in *; try discriminate;
      [injection Hs; auto | apply IHn in Hs; auto]. }
    destruct Hinv as (A & B & C). destruct (Nat.eqb_spec n l) as [<-|N].
    + apply IH; auto.
      assert (Hnk: existsb (fun e => Nat.eqb (fst e) n) d = false).
      { destruct (existsb _ d) eqn:X; auto. apply existsb_key, B in X. lia. }
      split; [|split].
      * rewrite dict_keys_set, Hnk.
        apply NoDup_rev in A. rewrite <- (rev_involutive (dict_keys d ++ [n])). apply NoDup_rev.
        rewrite rev_app_distr. simpl. constructor; auto. rewrite <- in_rev. rewrite B. lia.
      * intros k. rewrite dict_keys_set, Hnk. rewrite in_app_iff, B. simpl. split.
        -- intros [[H1 H2]|[<-|[]]]; split; auto; lia.
        -- intros [H1 H2]. destruct (Nat.eq_dec k n); [right; auto|left; split; auto; lia].
      * intros k v. rewrite dict_get_set. destruct (Nat.eqb_spec k n) as [->|Nk].
        -- intros [= <-]. symmetry. rewrite filter_seq_S, Hl, Nat.eqb_refl. simpl. rewrite app_nil_r.
           assert (G: forall i, In i (filter (fun i => match nth_error labels i with Some l => Nat.eqb l n && negb (Nat.eqb i n) | None => false end) (seq 0 n)) -> False).
           { intros i Hi. apply filter_In in Hi as [Hi Hf]. apply in_seq in Hi.
             destruct (nth_error labels i) as [l'|] eqn:E; [|discriminate].
             apply andb_true_iff in Hf as [Hf _]. apply Nat.eqb_eq in Hf. subst l'.
             apply Horb in E. lia. }
           destruct (filter _ _) as [|x t]; auto. exfalso. apply (G x). left; auto.
        -- intros Hv. rewrite (C k v Hv), filter_seq_S, Hl.
           destruct (Nat.eqb_spec n k); [congruence|]. simpl. rewrite app_nil_r; auto.
    + destruct (Horb n l Hl) as [Hle Hll].
      assert (Hkey: In l (dict_keys d)) by (apply B; split; [lia|auto]).
      unfold dict_append. destruct (dict_get d l) as [v|] eqn:E.
      2: { apply dict_get_none in E. tauto. }
      simpl. apply IH; auto. apply existsb_key in Hkey.
      split; [|split].
      * rewrite dict_keys_set, Hkey; auto.
      * intros k. rewrite dict_keys_set, Hkey, B. split; intros [H1 H2]; split; auto; try lia.
        destruct (Nat.eq_dec k n); [subst; congruence|lia].
      * intros k w. rewrite dict_get_set. destruct (Nat.eqb_spec k l) as [->|Nk].
        -- intros [= <-]. rewrite (C l v E), filter_seq_S, Hl, Nat.eqb_refl.
           destruct (Nat.eqb_spec n l); [congruence|]. auto.
        -- intros Hw. rewrite (C k w Hw), filter_seq_S, Hl.
           destruct (Nat.eqb_spec l k); [congruence|]. simpl. rewrite app_nil_r; auto.
Qed.

Lemma equivalent_atom_dict_ok r :
  orbit_labels (rs_equiv r) ->
  exists d, get_equivalent_atom_dict r = Ok d /\ dict_inv (rs_equiv r) (List.length (rs_equiv r)) d.
Proof.
  intros H. apply (equivalent_atom_loop_ok (rs_equiv r) (rs_equiv r) 0 []); auto.
  split; [constructor|split].
  - intros k; simpl. split; [tauto|lia].
  - discriminate.
Qed.

Lemma num_nonequivalent_keys labels d :
  orbit_labels labels -> dict_inv labels (List.length labels) d ->
  List.length (nodup Nat.eq_dec labels) = List.length (dict_keys d).
Proof.
  intros Horb (A & B & _). apply Nat.le_antisymm.
  - apply NoDup_incl_length; [apply NoDup_nodup|].
    intros k Hk. apply nodup_In, In_nth_error in Hk as [i Hi].
    apply B. apply Horb in Hi as [H1 H2]. split; auto. apply nth_error_Some. congruence.
  - apply NoDup_incl_length; auto.
    intros k Hk. apply nodup_In. apply B in Hk as [_ Hk]. eapply nth_error_In; eauto.
Qed.
