(** Proofs of C34, C35 and the add_art half of C29. *)
From Coq Require Import String ZArith Reals Lra Lia Psatz Bool Arith List.
From Verif Require Import Base LinAlg Constants M_Validate M_StructUtils M_Symmetry M_Reference M_Interp M_Art
  S_Lattice S_Vec S_Symmetry S_Equivalent S_Interp S_Art P_StructUtils P_Reference P_Reference2 P_Symmetry P_Equivalent P_Equiv2 P_Equiv3 P_EquivTotal
  P_StructFinal P_Interp P_Interp2 P_InterpEval P_Interp3 P_Interp4 P_Interp5 P_Interp6 P_InterpFinal P_Examples2 P_Art.
Import ListNotations.
Local Open Scope R_scope.

Lemma Forall2_length' {A B} (P : A -> B -> Prop) l m : Forall2 P l m -> List.length l = List.length m.
Proof. induction 1; simpl; auto. Qed.

(** ** Tolerance tests *)
Lemma isclose_zero tol x : isclose_at tol x 0 = true <-> Rabs x <= tol.
Proof. unfold isclose_at. rewrite Rleb_true, Rminus_0_r, Rabs_R0, Rmult_0_r, Rplus_0_r. tauto. Qed.
Lemma small_rows tol v : isclose_at tol (vx v) 0 && isclose_at tol (vy v) 0 && isclose_at tol (vz v) 0 = true <-> ~ exceeds tol v.
Proof.
  rewrite !andb_true_iff, !isclose_zero. unfold exceeds. split.
  - intros [[H1 H2] H3] [H|[H|H]]; lra.
  - intros H. repeat split; apply Rnot_lt_le; intros C; apply H; auto.
Qed.

(** ** C34 *)
Lemma requested_spec r items : (forall n, In n (rs_numbers r) -> exists s, atom_symbol n = Ok s) ->
  exists l, requested r items = Ok l /\ forall i, In i l <-> asked_for r items i.
Proof.
  intros H. unfold requested. induction items as [|it items IH]; simpl.
  - exists []. split; auto. intros i. split; [intros []|]. intros [[]|(s & z & k & [] & _)].
  - destruct IH as (l & E & IH).
    destruct (mapM _ items) as [ls|] eqn:M; [|discriminate]. simpl in E. injection E as <-.
    destruct it as [j|s]; simpl.
    + eexists. split; [reflexivity|]. intros i. simpl. rewrite IH. unfold asked_for. simpl. split.
      * intros [->|[Hi|(s & z & k & Hs & Hz)]]; auto. right. exists s, z, k. auto.
      * intros [[[= ->]|Hi]|(s & z & k & [Hs|Hs] & Hz)]; auto; [discriminate|]. right. right. exists s, z, k. auto.
    + destruct (f_C13 r [s] H) as (l & -> & _ & Hl). simpl. eexists. split; [reflexivity|]. intros i. simpl.
      rewrite in_app_iff, IH. unfold asked_for. simpl. split.
      * intros [Hi|[Hi|(t & z & k & Hs & Hz)]].
        -- apply in_map_iff in Hi as (k & <- & Hk). apply Hl in Hk as (z & t & Z1 & Z2 & [<-|[]]). right. exists s, z, k. auto.
        -- auto.
        -- right. exists t, z, k. auto.
      * intros [[Hi|Hi]|(t & z & k & [Hs|Hs] & Z1 & Z2 & ->)]; auto; try discriminate.
        -- injection Hs as <-. left. apply in_map. apply Hl. exists z, s. simpl. auto.
        -- right. right. exists t, z, k. auto.
Qed.

Lemma dofs_of_atom_spec N a k0 basis : Forall (fun b => List.length b = N) basis ->
  (forall k, names_atom N a k -> exists l, dofs_of_atom a k0 basis = Ok l /\
     NoDup l /\ forall i, In i l <-> exists j b, i = (k0 + j)%nat /\ nth_error basis j = Some b /\ exceeds (/ 100000) (nth k b v0)) /\
  ((forall k, ~ names_atom N a k) -> basis <> [] -> dofs_of_atom a k0 basis = Err IndexError).
Proof.
  intros H. split.
  - intros k Hk. revert k0. induction H as [|b basis Hb H IH]; intros k0; simpl.
    + exists []. split; [auto|split; [constructor|]]. intros i. split; [intros []|]. intros (j & b & _ & E & _). destruct j; discriminate.
    + rewrite Hb. rewrite (proj2 (py_index_Some N a k) Hk). destruct (IH (S k0)) as (l & -> & Hn & Hl). simpl.
      assert (F: ~ In k0 l). { intros C. apply Hl in C as (j & b' & E & _). lia. }
      assert (R: row_zero (nth k b v0) = true <-> ~ exceeds (/ 100000) (nth k b v0)) by apply small_rows.
      assert (T: forall i, In i l <-> exists j b', i = (k0 + S j)%nat /\ nth_error basis j = Some b' /\ exceeds (/ 100000) (nth k b' v0)).
      { intros i. rewrite Hl. split; intros (j & b' & -> & X); exists j, b'; split; auto; lia. }
      destruct (row_zero (nth k b v0)); simpl; eexists; (split; [reflexivity|]).
      * split; auto. intros i. rewrite T. split.
        -- intros (j & b' & -> & X). exists (S j), b'. auto.
        -- intros ([|j] & b' & -> & X1 & X2); [|exists j, b'; auto]. simpl in X1. injection X1 as <-. exfalso. apply R; auto.
      * split; [constructor; auto|]. intros i. simpl. rewrite T. split.
        -- intros [<-|(j & b' & -> & X)].
           ++ exists 0%nat, b. split; [lia|split; [auto|]].
              assert (~ ~ exceeds (/ 100000) (nth k b v0)) by (intros C; apply R in C; discriminate).
              unfold exceeds in *. destruct (Rlt_dec (/ 100000) (Rabs (vx (nth k b v0)))); auto.
              destruct (Rlt_dec (/ 100000) (Rabs (vy (nth k b v0)))); auto.
              destruct (Rlt_dec (/ 100000) (Rabs (vz (nth k b v0)))); auto. exfalso. apply H0. intros [?|[?|?]]; auto.
           ++ exists (S j), b'. auto.
        -- intros ([|j] & b' & -> & X1 & X2); [left; lia|right; exists j, b'; auto].
  - intros Hk Hne. destruct H as [|b basis Hb H]; [tauto|]. simpl. rewrite Hb.
    destruct (py_index N a) as [k|] eqn:E; auto. apply py_index_Some in E. destruct (Hk k E).
Qed.

Lemma basis_lengths m : inv m -> Forall (fun b => List.length b = List.length (rs_positions (im_ref m))) (im_basis m).
Proof. intros (_ & _ & B & _). eapply Forall_impl; [|exact B]. intros b [L _]; auto. Qed.

Lemma f_C34 set m items : lists_set set -> reachable m ->
  (forall n, In n (rs_numbers (im_ref m)) -> exists s, atom_symbol n = Ok s) ->
  let N := List.length (rs_positions (im_ref m)) in
  ((forall a, asked_for (im_ref m) items a -> exists k, names_atom N a k) ->
    exists l, get_dof_indexes set m items = Ok l /\
      (forall i, In i l <-> exists a k b, asked_for (im_ref m) items a /\ names_atom N a k /\
         nth_error (im_basis m) i = Some b /\ exceeds (/ 100000) (nth k b v0)) /\
      ((forall a a' k, asked_for (im_ref m) items a -> asked_for (im_ref m) items a' ->
          names_atom N a k -> names_atom N a' k -> a = a') ->
       Forall (fun b => exists k, moves_only b k) (im_basis m) -> NoDup l)) /\
  ((exists a, asked_for (im_ref m) items a /\ forall k, ~ names_atom N a k) ->
     im_basis m <> [] -> get_dof_indexes set m items = Err IndexError).
Proof.
  intros Hset Hr Hsym N. apply reachable_inv in Hr. pose proof (basis_lengths m Hr) as HB. fold N in HB.
  destruct (requested_spec (im_ref m) items Hsym) as (atoms & Ha & Hat).
  unfold get_dof_indexes. rewrite Ha. simpl. destruct (Hset atoms) as [Hnd Hs]. split.
  - intros Hin. assert (G: forall al, (forall a, In a al -> exists k, names_atom N a k) ->
      exists ls, mapM (fun a => dofs_of_atom a 0 (im_basis m)) al = Ok ls /\
        (forall i, In i (List.concat ls) <-> exists a k b, In a al /\ names_atom N a k /\
           nth_error (im_basis m) i = Some b /\ exceeds (/ 100000) (nth k b v0)) /\
        ((forall a a' k, In a al -> In a' al -> names_atom N a k -> names_atom N a' k -> a = a') ->
         NoDup al -> Forall (fun b => exists k, moves_only b k) (im_basis m) -> NoDup (List.concat ls))).
    { induction al as [|a al IH]; intros Hn; simpl.
      - exists []. split; [auto|split; [|constructor]]. simpl. intros i. split; [intros []|]. intros (a & k & b & [] & _).
      - destruct IH as (ls & -> & IH & IHn); [intros; apply Hn; simpl; auto|].
        destruct (Hn a (or_introl eq_refl)) as (k & Hk).
        destruct (dofs_of_atom_spec N a 0 _ HB) as [D _]. destruct (D k Hk) as (l & -> & Hnl & Hl). simpl.
        assert (U: forall k', names_atom N a k' -> k' = k).
        { intros k' (K1 & K2). destruct Hk as (K3 & K4). lia. }
        eexists. split; [reflexivity|]. split.
        + intros i. simpl. rewrite in_app_iff, IH, Hl. split.
          * intros [(j & b & -> & X1 & X2)|(a' & k' & b & X)]; [exists a, k, b; auto|exists a', k', b; tauto].
          * intros (a' & k' & b & [<-|X1] & X2 & X3 & X4); [|right; exists a', k', b; auto].
            left. exists i, b. rewrite (U k' X2) in X4. auto.
        + intros Hinj Hnd' Hm. simpl. inversion Hnd'; subst.
          assert (NoDup (List.concat ls)) by (apply IHn; auto; intros; eapply Hinj; simpl; eauto).
          clear IHn. assert (Dj: forall i, In i l -> ~ In i (List.concat ls)).
          { intros i Hi C. apply Hl in Hi as (j & b & E & X1 & X2). simpl in E. subst j.
            apply IH in C as (a' & k' & b' & Y1 & Y2 & Y3 & Y4). rewrite Y3 in X1. injection X1 as ->.
            rewrite Forall_forall in Hm. destruct (Hm b) as (q & _ & _ & Q); [eapply nth_error_In; eauto|].
            assert (Z: ~ exceeds (/ 100000) v0). { unfold exceeds, v0. simpl. rewrite Rabs_R0. lra. }
            assert (k = q). { destruct (Nat.eq_dec k q); auto. rewrite Q in X2 by auto. tauto. }
            assert (k' = q). { destruct (Nat.eq_dec k' q); auto. rewrite Q in Y4 by auto. tauto. }
            subst. assert (a = a') by (eapply Hinj; simpl; eauto). subst. tauto. }
          clear - Hnl H Dj. induction l as [|x l IH]; simpl; auto. inversion Hnl; subst. constructor.
          * rewrite in_app_iff. intros [?|?]; auto. apply (Dj x); simpl; auto.
          * apply IH; auto. intros; apply Dj; simpl; auto. }
    destruct (G (set atoms)) as (ls & -> & G1 & G2).
    { intros a Hx. apply Hin, Hat, Hs; auto. }
    simpl. eexists. split; [reflexivity|]. split.
    + intros i. rewrite G1. split; intros (a & k & b & X1 & X); exists a, k, b; split; auto.
      * apply Hat, Hs; auto.
      * apply Hs, Hat; auto.
    + intros Hinj Hm. apply G2; auto. intros a a' k A1 A2. apply Hinj; apply Hat, Hs; auto.
  - intros (a & A1 & A2) Hne. apply Hat, Hs in A1.
    assert (E: mapM (fun a => dofs_of_atom a 0 (im_basis m)) (set atoms) = Err IndexError); [|rewrite E; auto].
    clear Hnd Hs. induction (set atoms) as [|x al IH]; [destruct A1|]. simpl.
    destruct (dofs_of_atom_spec N x 0 _ HB) as [D1 D2].
    destruct (py_index N x) as [k|] eqn:E.
    + apply py_index_Some in E. destruct (D1 k E) as (l & -> & _). simpl. destruct A1 as [->|A1]; [destruct (A2 k E)|].
      rewrite IH by auto. auto.
    + rewrite D2; auto. intros k Hk. apply py_index_Some in Hk. congruence.
Qed.

Lemma set_singleton set a : lists_set set -> set [a] = [a].
Proof.
  intros H. destruct (H [a]) as [N I].
  assert (X: forall x, In x (set [a]) -> x = a) by (intros x Hx; apply I in Hx as [<-|[]]; auto).
  assert (In a (set [a])) by (apply I; simpl; auto).
  destruct (set [a]) as [|x [|y l]].
  - destruct H0.
  - rewrite (X x); simpl; auto.
  - exfalso. assert (x = a) by (apply X; simpl; auto). assert (y = a) by (apply X; simpl; auto). subst.
    inversion N; subst. apply H3. simpl; auto.
Qed.

Lemma art_directions_spec set m atom : lists_set set -> inv m -> (atom < List.length (rs_positions (im_ref m)))%nat ->
  exists dirs, art_cart_directions set m atom = Ok dirs /\
    selects (exceeds (/ 100000)) (map (fun b => nth atom b v0) (im_basis m)) dirs.
Proof.
  intros Hset Hi Ha. pose proof (basis_lengths m Hi) as HB.
  unfold art_cart_directions, get_dof_indexes, requested. simpl. rewrite set_singleton by auto. simpl.
  assert (G: forall k0 basis pre, im_basis m = pre ++ basis -> List.length pre = k0 ->
    exists l dirs, dofs_of_atom (Z.of_nat atom) k0 basis = Ok l /\
      mapM (fun i => match nth_error (im_basis m) i with
                 | None => Err IndexError
                 | Some b => match nth_error b atom with None => Err IndexError | Some v => Ok v end
                 end) l = Ok dirs /\
      selects (exceeds (/ 100000)) (map (fun b => nth atom b v0) basis) dirs).
  { intros k0 basis. revert k0. induction basis as [|b basis IH]; intros k0 pre E L.
    - exists [], []. split; [auto|split; [auto|constructor]].
    - destruct (IH (S k0) (pre ++ [b])) as (l & dirs & D1 & D2 & D3).
      { rewrite <- app_assoc. auto. }
      { rewrite app_length. simpl. lia. }
      assert (Lb: List.length b = List.length (rs_positions (im_ref m))).
      { rewrite Forall_forall in HB. apply HB. rewrite E. apply in_or_app. simpl; auto. }
      simpl. rewrite (proj2 (py_index_Some (List.length b) (Z.of_nat atom) atom)) by (split; [lia|auto]).
      rewrite D1. simpl.
      assert (R: row_zero (nth atom b v0) = true <-> ~ exceeds (/ 100000) (nth atom b v0)) by apply small_rows.
      destruct (row_zero (nth atom b v0)); simpl.
      + exists l, dirs. split; [auto|split; [auto|]]. apply sel_drop; auto. apply R; auto.
      + exists (k0 :: l), (nth atom b v0 :: dirs). split; [auto|]. split.
        * simpl. rewrite E, nth_error_app2, L, Nat.sub_diag by lia. simpl.
          rewrite (nth_error_nth_lt b atom v0) by lia. simpl. rewrite E in D2. rewrite D2. auto.
        * apply sel_keep; auto. 
          assert (~ ~ exceeds (/ 100000) (nth atom b v0)) by (intros C; apply R in C; discriminate).
          unfold exceeds in *. destruct (Rlt_dec (/ 100000) (Rabs (vx (nth atom b v0)))); auto.
          destruct (Rlt_dec (/ 100000) (Rabs (vy (nth atom b v0)))); auto.
          destruct (Rlt_dec (/ 100000) (Rabs (vz (nth atom b v0)))); auto. exfalso. apply H. intros [?|[?|?]]; auto. }
  destruct (G 0%nat (im_basis m) [] eq_refl eq_refl) as (l & dirs & D1 & D2 & D3).
  rewrite D1. simpl. rewrite app_nil_r. exists dirs. auto.
Qed.

Lemma f_C34_tuples set m d : lists_set set -> reachable m ->
  List.length (rs_equiv (im_ref m)) = List.length (rs_positions (im_ref m)) ->
  get_equivalent_atom_dict (im_ref m) = Ok d ->
  exists l, get_specification_tuples set m = Ok l /\
    Forall2 (fun kv t => fst t = kv /\
      selects (exceeds (/ 100000)) (map (fun b => nth (fst kv) b v0) (im_basis m)) (snd t)) d l.
Proof.
  intros Hset Hr Hlen Hd. apply reachable_inv in Hr. unfold get_specification_tuples. rewrite Hd. simpl.
  assert (K: forall kv, In kv d -> (fst kv < List.length (rs_positions (im_ref m)))%nat).
  { assert (O: orbit_labels (rs_equiv (im_ref m))) by (apply equivalent_atom_dict_iff; eauto).
    destruct (equivalent_atom_dict_partition _ _ O Hd) as (_ & P & _). intros [k v] Hkv. simpl.
    destruct (P k v Hkv) as [_ P']. rewrite <- Hlen. apply nth_error_Some. rewrite (proj1 (P' k)); auto. discriminate. }
  clear Hd. induction d as [|kv d IH]; simpl.
  - exists []. split; auto.
  - destruct IH as (l & -> & IH); [intros; apply K; simpl; auto|].
    destruct (art_directions_spec set m (fst kv) Hset Hr (K kv (or_introl eq_refl))) as (dirs & -> & Hs). simpl.
    eexists. split; [reflexivity|]. constructor; auto. split; auto. destruct kv; auto.
Qed.

(** ** C35 *)
Lemma f_C35_shapes atom dir amps pols s :
  (List.length dir <> 3%nat -> add_art atom dir amps pols s = ((s, []), Err ValueError)) /\
  (List.length dir = 3%nat -> mdet (rs_lattice (im_ref s)) <> 0 ->
    (ra_shape amps <> [1%nat] -> ra_shape amps <> [2%nat] -> add_art atom dir amps pols s = ((s, []), Err ValueError)) /\
    (forall n, n = 1%nat \/ n = 2%nat -> ra_shape amps = [n] -> rarr_wf amps ->
       (im_dummy s = false -> ra_shape pols <> [n; 3%nat; 3%nat] -> add_art atom dir amps pols s = ((s, []), Err ValueError)) /\
       ((im_dummy s = false -> ra_shape pols = [n; 3%nat; 3%nat]) ->
          (forall k, ~ names_atom (List.length (rs_positions (im_ref s))) atom k) ->
          add_art atom dir amps pols s = ((s, []), Err IndexError)))).
Proof.
  split; [|intros Hl HL; split].
  - intros H. unfold add_art, bind at 1, get at 1. unfold bind at 1, lift at 1. rewrite f_C12_shape by auto. auto.
  - intros H1 H2. unfold add_art, bind at 1, get at 1. unfold bind at 1, lift at 1.
    destruct dir as [|x [|y [|z [|]]]]; try discriminate. simpl get_frac_direction.
    destruct (minv_exists _ HL) as (li & ->). cbn [rbind]. unfold bind at 1, lift at 1.
    destruct (ra_shape amps) as [|[|[|[|]]] []]; simpl; auto; tauto.
  - intros n Hn Hs Hw. unfold rarr_wf in Hw. rewrite Hs in Hw. simpl in Hw. rewrite Nat.mul_1_r in Hw.
    assert (E: (match ra_shape amps with [1%nat] | [2%nat] => Ok tt | _ => Err ValueError end) = Ok tt).
    { rewrite Hs. destruct Hn as [-> | ->]; auto. }
    assert (F: exists f, get_frac_direction (im_ref s) dir = Ok f).
    { destruct dir as [|x [|y [|z [|]]]]; try discriminate. simpl. destruct (minv_exists _ HL) as (li & ->). simpl. eauto. }
    destruct F as (f & F). split.
    + intros Hd Hp. unfold add_art, bind at 1, get at 1. unfold bind at 1, lift at 1. rewrite F.
      unfold bind at 1, lift at 1. rewrite E. unfold bind at 1, lift at 1. rewrite Hd.
      assert (V: verify_ndarray_shape (ra_shape pols) [Some (List.length (ra_data amps)); Some 3%nat; Some 3%nat] = Err ValueError).
      { apply verify_ndarray_shape_spec. intros C. apply verify_ndarray_shape_spec in C. apply Hp.
        inversion C as [|a ? l ? E1 C1]; subst. inversion C1 as [|b ? l1 ? E2 C2]; subst. inversion C2 as [|c ? l2 ? E3 C3]; subst.
        inversion C3; subst. auto. }
      rewrite V. auto.
    + intros Hp Hk. unfold add_art, bind at 1, get at 1. unfold bind at 1, lift at 1. rewrite F.
      unfold bind at 1, lift at 1. rewrite E. unfold bind at 1, lift at 1.
      assert (V: verify_ndarray_shape (ra_shape (if im_dummy s then mats_arr (repeat m0 (List.length (ra_data amps))) else pols))
         [Some (List.length (ra_data amps)); Some 3%nat; Some 3%nat] = Ok tt).
      { apply verify_ndarray_shape_spec. destruct (im_dummy s); simpl.
        - rewrite repeat_length. repeat constructor.
        - rewrite Hp by auto. rewrite Hw. repeat constructor. }
      rewrite V. destruct (py_index _ atom) as [k|] eqn:K; auto. apply py_index_Some in K. destruct (Hk k K).
Qed.

Lemma argmax_from_first l : forall best bi k, (bi < k)%nat ->
  let j := argmax_from best bi k l in
  (j = bi /\ (forall x, In x l -> x <= best)) \/
  (exists i x, j = (k + i)%nat /\ nth_error l i = Some x /\ best < x /\ (forall y, In y l -> y <= x) /\
     forall i' y, (i' < i)%nat -> nth_error l i' = Some y -> y < x).
Proof.
  induction l as [|a l IH]; intros best bi k Hb; simpl.
  - left. split; auto. intros x [].
  - destruct (Rltb best a) eqn:E.
    + apply Rltb_true in E. destruct (IH a k (S k) ltac:(lia)) as [(-> & H)|(i & x & -> & H1 & H2 & H3 & H4)].
      * right. exists 0%nat, a. split; [lia|split; [auto|split; [auto|split]]].
        -- intros y [<-|Hy]; [lra|auto].
        -- intros; lia.
      * right. exists (S i), x. split; [lia|split; [auto|split; [lra|split]]].
        -- intros y [<-|Hy]; [lra|auto].
        -- intros [|i'] y Hi Hy; simpl in Hy; [injection Hy as <-; lra|]. apply (H4 i'); auto; lia.
    + apply Rltb_false in E. destruct (IH best bi (S k) ltac:(lia)) as [(-> & H)|(i & x & -> & H1 & H2 & H3 & H4)].
      * left. split; auto. intros x [<-|Hx]; auto.
      * right. exists (S i), x. split; [lia|split; [auto|split; [lra|split]]].
        -- intros y [<-|Hy]; [lra|auto].
        -- intros [|i'] y Hi Hy; simpl in Hy; [injection Hy as <-; lra|]. apply (H4 i'); auto; lia.
Qed.

Lemma argmax_displaced d k : most_displaced d k -> argmax (map vnorm2 d) = Ok k.
Proof.
  intros (K1 & K2 & K3). destruct d as [|v d]; [simpl in K1; lia|]. simpl.
  destruct (argmax_from_first (map vnorm2 d) (vnorm2 v) 0%nat 1%nat ltac:(lia)) as [(-> & H)|(i & x & -> & H1 & H2 & H3 & H4)].
  - destruct k; auto. specialize (K3 0%nat ltac:(lia)). simpl in K3. simpl in K1.
    assert (C: vnorm2 (nth k d v0) <= vnorm2 v) by (apply H, in_map, nth_In; lia). lra.
  - rewrite nth_error_map in H1. destruct (nth_error d i) as [u|] eqn:U; [|discriminate]. simpl in H1. injection H1 as <-.
    f_equal. simpl. pose proof (nth_error_nth d i v0 U) as Nu. assert (Ui: (i < List.length d)%nat) by (apply nth_error_Some; congruence).
    pose proof (K2 (S i)) as Q1. simpl in Q1. rewrite Nu in Q1.
    destruct k as [|k].
    + simpl in Q1. lra.
    + simpl in Q1, K1. f_equal. destruct (lt_eq_lt_dec k i) as [[L|L]|L]; auto.
      * assert (C: vnorm2 (nth k d v0) < vnorm2 u).
        { apply (H4 k); auto. rewrite nth_error_map, (nth_error_nth_lt d k v0) by lia. auto. }
        lra.
      * specialize (K3 (S i) ltac:(lia)). simpl in K3. rewrite Nu in K3.
        assert (C: vnorm2 (nth k d v0) <= vnorm2 u) by (apply H3, in_map, nth_In; lia). lra.
Qed.

Lemma one_atom_check d k : (k < List.length d)%nat ->
  (forallb row_small (set_nth k v0 d) = true <-> forall j, j <> k -> ~ exceeds (/ 1000000) (nth j d v0)).
Proof.
  intros Hk. rewrite forallb_forall.
  assert (Z: ~ exceeds (/ 1000000) v0). { unfold exceeds, v0. simpl. rewrite Rabs_R0. lra. }
  split.
  - intros H j Hj. destruct (le_lt_dec (List.length d) j) as [L|L]; [rewrite nth_overflow; auto|].
    assert (I: In (nth j (set_nth k v0 d) v0) (set_nth k v0 d)) by (apply nth_In; rewrite set_nth_length; auto).
    apply H in I. rewrite nth_set_nth in I. destruct (Nat.eqb_spec j k); [tauto|].
    apply (small_rows (/ 1000000)). exact I.
  - intros H v Hv. apply (small_rows (/ 1000000)). apply In_nth with (d := v0) in Hv as (j & Hj & <-).
    rewrite nth_set_nth. rewrite set_nth_length in Hj. destruct (Nat.eqb_spec j k); [|auto].
    destruct (Nat.ltb_spec j (List.length d)); auto.
Qed.

Lemma rows_mul_regular L d : mdet L <> 0 -> rows_norm (rows_mul d L) = 0 -> Forall (fun v => v = v0) d.
Proof.
  intros HL H. destruct (minv_exists _ HL) as (li & Li). rewrite <- (cart_frac _ _ d Li).
  apply rows_norm_eq_0, rows_norm2_0 in H. clear - H. unfold rows_mul at 1.
  apply Forall_map. eapply Forall_impl; [|exact H]. intros v ->. destruct li as [[a b c] [d' e f] [g h i]]. vunf. f_equal; ring.
Qed.

Lemma displacements_ok (s : imodel) p : List.length p = List.length (rs_positions (im_ref s)) ->
  calc_displacement (rs_positions (im_ref s)) p = Ok (apply_pbc_displacement (rows_sub p (rs_positions (im_ref s)))).
Proof. intros H. apply calc_displacement_eq. auto. Qed.

Lemma amplitudes_tail s d0 ds : mdet (rs_lattice (im_ref s)) <> 0 -> apply_pbc_displacement d0 = d0 ->
  (forall d, In d (d0 :: ds) -> List.length d = List.length d0) -> ~ Forall (fun v => v = v0) d0 ->
  (exists amps, amplitudes_of s (d0 :: ds) = Ok (d0, amps)) \/ amplitudes_of s (d0 :: ds) = Err InvalidDOFException.
Proof.
  intros HL Hp Hl Hz. unfold amplitudes_of.
  destruct (f_C10_total (flatten_rows d0) (map flatten_rows (d0 :: ds))) as (z1 & z2 & z3 & _ & E & _).
  { intros C. apply Hz. destruct d0; [constructor|]. apply (f_equal (@List.length _)) in C. rewrite flatten_rows_length in C. simpl in C. lia. }
  { intros w Hw. apply in_map_iff in Hw as (d & <- & Hd). rewrite !flatten_rows_length, (Hl d) by auto. auto. }
  replace (map (fun d => flatten (Fin d)) (d0 :: ds)) with (map Fin (map flatten_rows (d0 :: ds))) by (rewrite map_map; auto).
  cbn [flatten]. rewrite E. cbn [rbind]. destruct (z2 =? -1)%Z; cbn [negb]; auto.
  unfold get_cart_displacement at 1. rewrite Hp.
  destruct (rows_mul d0 (rs_lattice (im_ref s))) as [|v c] eqn:R.
  - exfalso. apply Hz. destruct d0; [constructor|discriminate].
  - rewrite <- R. unfold over_norm. rewrite R, <- R, rows_scale_1.
    destruct (Reqb _ 0) eqn:Q; [|left; eauto].
    apply Reqb_true in Q. exfalso. apply Hz. eapply rows_mul_regular; eauto.
Qed.

Lemma exceeds_nonzero tol d j : 0 < tol -> exceeds tol (nth j d v0) -> ~ Forall (fun v => v = v0) d.
Proof.
  intros Ht H C. rewrite Forall_forall in C.
  assert (E: nth j d v0 = v0).
  { destruct (le_lt_dec (List.length d) j); [apply nth_overflow; auto|apply C, nth_In; auto]. }
  rewrite E in H. unfold exceeds, v0 in H. simpl in H. rewrite Rabs_R0 in H. lra.
Qed.

Lemma wrapped_wrapped p q : half_images p q -> apply_pbc_displacement q = q.
Proof.
  intros H. apply apply_pbc_displacement_spec in H. subst.
  apply pbc_half_cell. unfold half_cell, apply_pbc_displacement. apply Forall_map, Forall_forall. intros [x y z] _.
  unfold vall. simpl. pose proof (wrapd_image x) as [_ X]. pose proof (wrapd_image y) as [_ Y]. pose proof (wrapd_image z) as [_ Z].
  auto.
Qed.
Lemma half_images_len p q : half_images p q -> List.length q = List.length p.
Proof. intros H. symmetry. eapply Forall2_length'; eauto. Qed.

Lemma one_atom_rejects d0 k j amps pols s : most_displaced d0 k -> j <> k -> exceeds (/ 1000000) (nth j d0 v0) ->
  add_one_atom d0 amps pols s = ((s, []), Err InvalidDOFException).
Proof.
  intros Hm Hj He. unfold add_one_atom. unfold bind at 1, get at 1. unfold bind at 1, lift at 1.
  rewrite (argmax_displaced _ _ Hm).
  destruct (forallb row_small (set_nth k v0 d0)) eqn:F; [|auto].
  exfalso. pose proof (proj1 (one_atom_check d0 k (proj1 Hm)) F) as F'. apply (F' j); auto.
Qed.

Lemma one_atom_success d0 amps pols s s' w : add_one_atom d0 amps pols s = ((s', w), Ok tt) ->
  (forall k, most_displaced d0 k -> forall j, j <> k -> ~ exceeds (/ 1000000) (nth j d0 v0)) /\
  exists bs sp sps, bs <> [] /\ im_basis s' = im_basis s ++ bs /\
    im_interp s' = (if im_dummy s then im_interp s else im_interp s ++ sp :: sps) /\ List.length (sp :: sps) = List.length bs /\
    sp_order sp = 1%nat /\ List.length (sp_pts sp) = 2%nat.
Proof.
  intros H. apply add_one_atom_cases in H as [(e & [=] & _)|(_ & (k & K1 & K2) & (d & dofs & G1 & G2) & A)].
  split.
  - intros k' Hk. pose proof (argmax_displaced _ _ Hk) as K. rewrite K1 in K. injection K as ->.
    exact (proj1 (one_atom_check d0 k' (proj1 Hk)) K2).
  - destruct A as (dofs' & bs & pss & A1 & A2 & A3 & -> & A5 & ->). rewrite G1 in A1. injection A1 as <-.
    inversion A3 as [|? ps ? pss' P1 P2]; subst. exists bs, (mkSpline 1 (sort_pts ps)), (map (fun ps => mkSpline 1 (sort_pts ps)) pss').
    assert (Lb: List.length (ps :: pss') = List.length bs).
    { apply (f_equal (@List.length _)) in A2. rewrite !map_length in A2. rewrite <- A2. symmetry. eapply Forall2_length'; eauto. }
    split; [intros ->; discriminate|]. split; [auto|]. split; [simpl; destruct (im_dummy s); auto|].
    split; [simpl in *; rewrite map_length; auto|]. split; auto. simpl. rewrite sort_pts_length.
    rewrite P1, map_length in G2. auto.
Qed.

Lemma f_C35_pymatgen p0 poss pols s s' w d0 : List.length p0 = List.length (rs_positions (im_ref s)) ->
  half_images (rows_sub p0 (rs_positions (im_ref s))) d0 ->
  add_art_from_pymatgen (p0 :: poss) pols s = ((s', w), Ok tt) ->
  (forall k, most_displaced d0 k -> forall j, j <> k -> ~ exceeds (/ 1000000) (nth j d0 v0)) /\
  exists bs sp sps, bs <> [] /\ im_basis s' = im_basis s ++ bs /\
    im_interp s' = (if im_dummy s then im_interp s else im_interp s ++ sp :: sps) /\ List.length (sp :: sps) = List.length bs /\
    sp_order sp = 1%nat /\ List.length (sp_pts sp) = 2%nat.
Proof.
  intros L H. unfold add_art_from_pymatgen. unfold bind at 1, get at 1. unfold bind at 1, lift at 1.
  unfold displacement_amplitudes. cbn [mapM]. rewrite displacements_ok by auto.
  apply apply_pbc_displacement_spec in H. rewrite <- H.
  cbn [rbind]. destruct (mapM _ poss) as [ds|e]; [|discriminate]. cbn [rbind].
  destruct (amplitudes_of s (d0 :: ds)) as [[d amps]|e] eqn:A; [|discriminate].
  assert (d = d0) as ->.
  { unfold amplitudes_of in A. destruct (is_collinear_with_all _ _); [|discriminate]. cbn [rbind] in A.
    destruct (negb _); [discriminate|]. destruct (over_norm _ _); [|discriminate]. congruence. }
  destruct (add_one_atom d0 amps pols s) as [[s1 w1] r1] eqn:O. simpl. rewrite O. simpl. intros [= <- <- ->].
  eapply one_atom_success; eauto.
Qed.

Lemma f_C35_files p0 pol0 rds s s' w d0 : List.length p0 = List.length (rs_positions (im_ref s)) ->
  half_images (rows_sub p0 (rs_positions (im_ref s))) d0 ->
  add_art_from_files (Ok (p0, pol0) :: rds) s = ((s', w), Ok tt) ->
  (forall k, most_displaced d0 k -> forall j, j <> k -> ~ exceeds (/ 1000000) (nth j d0 v0)) /\
  exists bs sp sps, bs <> [] /\ im_basis s' = im_basis s ++ bs /\
    im_interp s' = (if im_dummy s then im_interp s else im_interp s ++ sp :: sps) /\ List.length (sp :: sps) = List.length bs /\
    sp_order sp = 1%nat /\ List.length (sp_pts sp) = 2%nat.
Proof.
  intros L H. unfold add_art_from_files. unfold bind at 1, get at 1. unfold bind at 1, lift at 1.
  unfold read_dof. cbn [mapM read_one rbind fst]. rewrite displacements_ok by auto.
  apply apply_pbc_displacement_spec in H. rewrite <- H.
  cbn [rbind]. destruct (mapM _ rds) as [ds|e]; [|discriminate]. cbn [rbind map fst].
  destruct (amplitudes_of s (d0 :: map fst ds)) as [[d amps]|e] eqn:A; [|discriminate].
  assert (d = d0) as ->.
  { unfold amplitudes_of in A. destruct (is_collinear_with_all _ _); [|discriminate]. cbn [rbind] in A.
    destruct (negb _); [discriminate|]. destruct (over_norm _ _); [|discriminate]. congruence. }
  cbn [rbind]. intros O. eapply one_atom_success. 
  match type of O with context [add_one_atom d0 amps ?p s] => destruct (add_one_atom d0 amps p s) as [[s1 w1] r1] eqn:O' end.
  simpl in O. injection O as <- <- ->. exact O'.
Qed.

(** Several atoms move: InvalidDOFException, nothing changes. *)
Lemma f_C35_pymatgen_rejects p0 poss pols s d0 k j : mdet (rs_lattice (im_ref s)) <> 0 ->
  Forall (fun p => List.length p = List.length (rs_positions (im_ref s))) (p0 :: poss) ->
  half_images (rows_sub p0 (rs_positions (im_ref s))) d0 -> most_displaced d0 k -> j <> k ->
  exceeds (/ 1000000) (nth j d0 v0) ->
  add_art_from_pymatgen (p0 :: poss) pols s = ((s, []), Err InvalidDOFException).
Proof.
  intros HL Hl H Hm Hj He. unfold add_art_from_pymatgen. unfold bind at 1, get at 1. unfold bind at 1, lift at 1.
  unfold displacement_amplitudes.
  rewrite (mapM_all_ok _ (fun p => apply_pbc_displacement (rows_sub p (rs_positions (im_ref s))))).
  2: { intros p Hp. rewrite Forall_forall in Hl. rewrite displacements_ok by auto. auto. }
  cbn [rbind map]. pose proof (wrapped_wrapped _ _ H) as W. pose proof (half_images_len _ _ H) as L0.
  apply apply_pbc_displacement_spec in H. rewrite <- H.
  assert (Len: forall p, In p (p0 :: poss) -> List.length (apply_pbc_displacement (rows_sub p (rs_positions (im_ref s)))) = List.length (rs_positions (im_ref s))).
  { intros p Hp. rewrite Forall_forall in Hl. unfold apply_pbc_displacement. rewrite map_length, rows_sub_length; auto. }
  edestruct (amplitudes_tail s d0) as [(amps & ->)| ->]; eauto.
  - intros d [<-|Hd]; auto. apply in_map_iff in Hd as (p & <- & Hp). rewrite Len by (simpl; auto). rewrite H. symmetry. apply Len. simpl; auto.
  - apply (exceeds_nonzero (/ 1000000) d0 j); auto. lra.
  - cbn [fst snd]. rewrite (one_atom_rejects d0 k j) by auto. auto.
Qed.

Lemma f_C35_files_rejects p0 pol0 rds s d0 k j : mdet (rs_lattice (im_ref s)) <> 0 ->
  Forall (fun rd => exists p pol, rd = Ok (p, pol) /\ List.length p = List.length (rs_positions (im_ref s))) (Ok (p0, pol0) :: rds) ->
  half_images (rows_sub p0 (rs_positions (im_ref s))) d0 -> most_displaced d0 k -> j <> k ->
  exceeds (/ 1000000) (nth j d0 v0) ->
  add_art_from_files (Ok (p0, pol0) :: rds) s = ((s, []), Err InvalidDOFException).
Proof.
  intros HL Hl H Hm Hj He. unfold add_art_from_files. unfold bind at 1, get at 1. unfold bind at 1, lift at 1.
  unfold read_dof. cbn [mapM]. inversion Hl as [|? ? (p0' & pol0' & E0 & L0) Hl']; subst. injection E0 as <- <-.
  unfold read_one at 1. cbn [rbind fst snd]. rewrite displacements_ok by auto.
  pose proof (wrapped_wrapped _ _ H) as W. pose proof (half_images_len _ _ H) as L1.
  apply apply_pbc_displacement_spec in H. rewrite <- H. cbn [rbind].
  assert (M: exists ds, mapM (read_one s) rds = Ok ds /\ Forall (fun d => List.length (fst d) = List.length (rs_positions (im_ref s))) ds).
  { clear - Hl'. induction Hl' as [|rd rds (p & pol & -> & L) _ (ds & E & IH)]; [exists []; auto|].
    cbn [mapM]. unfold read_one at 1. cbn [rbind fst snd]. rewrite displacements_ok by auto. rewrite E. cbn [rbind].
    eexists. split; [reflexivity|]. constructor; auto. cbn [fst]. unfold apply_pbc_displacement. rewrite map_length, rows_sub_length; auto. }
  destruct M as (ds & -> & M). cbn [rbind map fst].
  edestruct (amplitudes_tail s d0 (map fst ds)) as [(amps & ->)| ->]; eauto.
  - intros d [<-|Hd]; auto. apply in_map_iff in Hd as (p & <- & Hp). rewrite Forall_forall in M. rewrite M by auto.
    rewrite L1, rows_sub_length; auto.
  - apply (exceeds_nonzero (/ 1000000) d0 j); auto. lra.
  - cbn [rbind]. rewrite (one_atom_rejects d0 k j) by auto. auto.
Qed.

(** ** C29, add_art *)
Lemma f_C29_art c v atom amps pols s : 0 < c -> half_cell [v] -> half_cell [vscale c v] ->
  let d := vmul v (rs_lattice (im_ref s)) in
  add_art atom [c * vx d; c * vy d; c * vz d] amps pols s = add_art atom [vx d; vy d; vz d] amps pols s.
Proof.
  intros Hc H1 H2 d. unfold add_art, bind, get, lift, get_frac_direction.
  destruct (minv (rs_lattice (im_ref s))) as [li|] eqn:E; cbn [rbind]; auto.
  assert (F: forall u, half_cell [u] -> vmap wrapd (vmul (vmul u (rs_lattice (im_ref s))) li) = u).
  { intros u Hu. pose proof (cart_frac _ _ [u] E) as G. simpl in G. injection G as G. rewrite G. apply pbc_half_cell in Hu. simpl in Hu. congruence. }
  replace (mkV (c * vx d) (c * vy d) (c * vz d)) with (vmul (vscale c v) (rs_lattice (im_ref s))).
  2: { unfold d. destruct (rs_lattice (im_ref s)) as [[] [] []], v. vunf. f_equal; ring. }
  replace (mkV (vx d) (vy d) (vz d)) with d by (destruct d; auto).
  rewrite F by auto. unfold d. rewrite F by auto.
  destruct (match ra_shape amps with [1%nat] | [2%nat] => Ok tt | _ => Err ValueError end); auto.
  destruct (verify_ndarray_shape _ _); auto. destruct (py_index _ _); auto.
  replace (art_displacement (im_ref s) n (vscale c v)) with (art_displacement (im_ref s) n v); auto.
  unfold art_displacement.
  assert (N: sqrt (vnorm2 (vscale 10 (vscale c v))) = c * sqrt (vnorm2 (vscale 10 v))).
  { replace (vnorm2 (vscale 10 (vscale c v))) with (c * c * vnorm2 (vscale 10 v)) by (destruct v; vunf; ring).
    rewrite sqrt_mult_alt, sqrt_square by nra. auto. }
  rewrite N. destruct (Reqb (sqrt (vnorm2 (vscale 10 v))) 0) eqn:Q.
  - apply Reqb_true in Q. rewrite Q, Rmult_0_r. destruct (Reqb 0 0) eqn:Z; auto. apply Reqb_false in Z. tauto.
  - apply Reqb_false in Q. destruct (Reqb (c * _) 0) eqn:Z; [apply Reqb_true in Z; apply Rmult_integral in Z as [Z|Z]; [lra|tauto]|].
    f_equal. f_equal. clear N Z. revert Q. generalize (sqrt (vnorm2 (vscale 10 v))). intros q Q.
    destruct v. unfold vscale; simpl. f_equal; field; split; auto; lra.
Qed.
