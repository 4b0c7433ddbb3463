(** Proofs about models in memory: directions are views; programs that do not write see values (C87). *)
From Coq Require Import String ZArith Reals Bool Arith List Lia.
From Verif Require Import Base LinAlg M_Validate M_StructUtils M_Reference M_Interp M_Art M_Alias S_Interp
  P_Interp P_Interp2 P_Art M_Shared S_Alias S_Shared P_Alias P_Alias3 P_Shared P_Shared2 P_Shared3 P_Shared4.
Import ListNotations.

#[local] Arguments load _ _ : simpl never.
#[local] Arguments buffer _ _ : simpl never.
#[local] Arguments np_row _ _ : simpl never.

Lemma f_C87_write spl w i sh old q x : reached spl w -> array_at w i = Some (sh, old) -> q < length old ->
  outcome spl w (WriteTo i q x) = Ok tt /\
  array_at (after spl w (WriteTo i q x)) i = Some (sh, set_nth q x old).
Proof.
  intros Rw A L. apply reached_sound in Rw as [S _]. apply array_at_inv in A as (a & A & -> & ->).
  unfold outcome, after. cbn [perform]. rewrite (held_of _ _ _ A). cbn [rbind].
  rewrite load_length in L. destruct (Nat.ltb_spec q (length (a_cells a))); [|lia]. split; auto.
  unfold array_at. cbn [w_held w_mem]. rewrite A. cbn [option_map]. f_equal. f_equal.
  destruct (nth_error (a_cells a) q) as [p|] eqn:E; [|apply nth_error_None in E; lia].
  eapply load_store; eauto. apply (nth_good _ _ _ _ S A).
Qed.

(** ** Directions *)
Lemma rows_of_nth n : forall x p, length x = n * 3 -> p < n -> exists c0 c1 c2,
  firstn 3 (skipn (p * 3) x) = [c0; c1; c2] /\ nth_error (rows_of x) p = Some (mkV (real c0) (real c1) (real c2)).
Proof.
  induction n as [|n IH]; intros x p L Hp; [lia|].
  destruct x as [|a [|b [|c x]]]; cbn [length] in L; try lia. destruct p as [|p].
  - exists a, b, c. auto.
  - destruct (IH x p) as (c0 & c1 & c2 & H1 & H2); try lia. exists c0, c1, c2. auto.
Qed.

Lemma f_C87_directions spl w j i : reached spl w -> outcome spl w (GetDirections j) = Ok tt ->
  length (w_held w) <= i < length (w_held (after spl w (GetDirections j))) ->
  exists k p, forall cs, exists v b c0 c1 c2,
    model_at (history spl (after spl w (GetDirections j)) cs) j = Some v /\
    nth_error (im_basis v) k = Some b /\ nth_error b p = Some (mkV (real c0) (real c1) (real c2)) /\
    array_at (history spl (after spl w (GetDirections j)) cs) i = Some ([3], [c0; c1; c2]).
Proof.
  intros Rw O Li. apply reached_sound in Rw as S. pose proof (after_sound spl w (GetDirections j) S) as S1.
  apply outcome_ok in O as (w' & P & E). cbn [perform] in P.
  destruct (model w j) as [o|] eqn:M; [|discriminate]. apply model_ok in M. cbn [rbind] in P.
  destruct (pm_art o); [|discriminate]. destruct (direction_views _ _) as [l|] eqn:D; [|discriminate]. cbn in P. injection P as <-.
  rewrite E in *. unfold give in *. cbn [w_held] in Li. rewrite app_length in Li.
  destruct (nth_error l (i - length (w_held w))) as [a|] eqn:A; [|apply nth_error_None in A; lia].
  assert (Go : good_model (w_mem w) o) by (destruct S; eapply nth_good; eauto).
  apply direction_views_in in D; [|constructor; auto].
  destruct (nth_good _ _ _ _ D A) as (Ga & b & p & Hb & ->). apply In_nth_error in Hb as (k & Hk).
  pose proof Go as (_ & _ & G3 & _). destruct (nth_good _ _ _ _ G3 Hk) as (Gb & n & Sb).
  assert (Hp : p < n).
  { destruct Ga as [_ Ga]. destruct Gb as [_ Gb]. rewrite Sb in Gb. cbn in Gb.
    unfold np_row, row_cells, row_size in Ga. cbn [a_cells a_shape] in Ga. rewrite Sb in Ga. cbn [tl prod_list fold_right] in Ga.
    rewrite firstn_length, skipn_length in Ga. change (3 * 1) with 3 in Ga. lia. }
  exists k, p. intros cs.
  set (w1 := mkWorld (w_mem w) (w_held w ++ l) (w_models w)) in *.
  destruct (history_basis spl cs j w1 o S1 M) as (o' & Ho' & bs & Hbs).
  assert (A1 : nth_error (w_held w1) i = Some (np_row b p)) by (cbn [w1 w_held]; rewrite nth_error_app2 by lia; auto).
  pose proof (history_held spl cs i _ w1 S1 A1) as A2.
  set (w2 := history spl w1 cs) in *.
  destruct (rows_of_nth n (load (w_mem w2) b) p) as (c0 & c1 & c2 & R1 & R2); auto.
  { rewrite load_length. destruct Gb as [_ Gb]. rewrite Sb in Gb. cbn in Gb. lia. }
  exists (contents (w_mem w2) o'), (rows_of (load (w_mem w2) b)), c0, c1, c2.
  split; [unfold model_at; rewrite Ho'; auto|]. split.
  - cbn [contents im_basis]. rewrite nth_error_map, Hbs, nth_error_app1 by (eapply nth_lt; eauto). rewrite Hk. auto.
  - split; [auto|]. unfold array_at. rewrite A2. cbn [option_map]. rewrite load_row.
    unfold row_size, np_row. cbn [a_shape]. rewrite Sb. cbn [tl prod_list fold_right]. change (3 * 1) with 3. rewrite R1. auto.
Qed.

(** ** Programs that do not write into arrays *)
Definition masks_private (w : world) : Prop := forall j o, nth_error (w_models w) j = Some o ->
  (forall i a, nth_error (w_held w) i = Some a -> a_buf a <> a_buf (pm_mask o)) /\
  (forall k o', nth_error (w_models w) k = Some o' -> (k <> j -> a_buf (pm_mask o') <> a_buf (pm_mask o)) /\
     a_buf (pm_pol o') <> a_buf (pm_mask o) /\ forall b, In b (pm_basis o') -> a_buf b <> a_buf (pm_mask o)).

Lemma private_held w c m l : sound w -> masks_private w -> no_writes c ->
  Forall (fun a => hands w c a) l -> masks_private (mkWorld m (w_held w ++ l) (w_models w)).
Proof.
  intros [S1 S2] I N F j o H. cbn [w_models w_held] in *. destruct (I j o H) as [I1 I2]. split; auto.
  intros i a Hi. destruct (lt_dec i (length (w_held w))) as [L|L].
  - rewrite nth_error_app1 in Hi by auto. eauto.
  - rewrite nth_error_app2 in Hi by lia. apply (nth_good _ _ _ _ F) in Hi as [Hi|Hi].
    + destruct (nth_good _ _ _ _ S2 H) as (_ & _ & _ & G & _). apply good_in in G. lia.
    + destruct c; try contradiction.
      * destruct Hi as (a' & H1 & ->). eauto.
      * destruct Hi as (o1 & b & k & H1 & H2 & ->). cbn [np_row a_buf]. destruct (I2 _ _ H1) as (_ & _ & Q). exact (Q b H2).
Qed.

Lemma private_models w m ms k0 o0 : sound w -> masks_private w ->
  (forall k o, nth_error ms k = Some o -> (nth_error (w_models w) k = Some o /\ k <> k0) \/ (k = k0 /\ o = o0)) ->
  length (w_mem w) <= a_buf (pm_mask o0) -> a_buf (pm_pol o0) <> a_buf (pm_mask o0) ->
  (forall b, In b (pm_basis o0) -> a_buf b <> a_buf (pm_mask o0)) ->
  (length (w_mem w) <= a_buf (pm_pol o0) \/ (exists i, nth_error (w_held w) i = Some (pm_pol o0)) \/
   (exists k o, nth_error (w_models w) k = Some o /\ pm_pol o = pm_pol o0)) ->
  (forall b, In b (pm_basis o0) -> length (w_mem w) <= a_buf b \/
     exists k o, nth_error (w_models w) k = Some o /\ In b (pm_basis o)) ->
  masks_private (mkWorld m (w_held w) ms).
Proof.
  intros [S1 S2] I Hms Fm Np Nb Hp Hb.
  assert (Old : forall k o, nth_error (w_models w) k = Some o -> a_buf (pm_mask o) < length (w_mem w) /\
     a_buf (pm_pol o) < length (w_mem w) /\ forall b, In b (pm_basis o) -> a_buf b < length (w_mem w)).
  { intros k o H. destruct (nth_good _ _ _ _ S2 H) as (G1 & _ & G3 & G4 & _). apply good_in in G1, G4. split; [auto|]. split; [auto|].
    intros b Hb'. rewrite Forall_forall in G3. apply good_in, G3; auto. }
  intros j o H. cbn [w_models w_held] in *. split.
  - intros i a Hi. apply Hms in H as [[H _]|[-> ->]].
    + apply (I j o H) in Hi. auto.
    + apply (nth_good _ _ _ _ S1), good_in in Hi. lia.
  - intros k o' H'. apply Hms in H as [[H Nj]|[-> ->]]; apply Hms in H' as [[H' Nk]|[-> ->]].
    + apply (I j o H); auto.
    + destruct (Old _ _ H) as (L1 & _). destruct (I j o H) as [I1 I2]. split; [intros _; lia|]. split.
      * destruct Hp as [Hp|[(i & Hp)|(k & o1 & Hp & <-)]]; [lia|eauto|]. destruct (I2 k o1 Hp) as (_ & Q & _). exact Q.
      * intros b Ib. destruct (Hb b Ib) as [L|(k & o1 & Hk & Ik)]; [lia|]. destruct (I2 k o1 Hk) as (_ & _ & Q). auto.
    + destruct (Old _ _ H') as (L1 & L2 & L3). split; [intros _; lia|]. split; [lia|]. intros b Ib. specialize (L3 b Ib). lia.
    + split; [congruence|]. auto.
Qed.

Lemma private_step spl w c : sound w -> masks_private w -> no_writes c -> masks_private (after spl w c).
Proof.
  intros S I N. unfold after. destruct (perform spl w c) as [w'|e] eqn:P; auto.
  pose proof (perform_effect _ _ _ _ S P) as Ef.
  assert (Same : w_models w' = w_models w -> masks_private w').
  { intros E. destruct (ef_held _ _ _ Ef) as (l & Hl & F). destruct w' as [m' h' ms']. cbn [w_models w_held] in *. subst.
    eapply private_held; eauto. eapply Forall_impl; [|exact F]. intros a (_ & Q). exact Q. }
  assert (Ou : outcome spl w c = Ok tt) by (unfold outcome; rewrite P; auto).
  assert (Ea : after spl w c = w') by (unfold after; rewrite P; auto).
  destruct c as [sh data|i els sh|i k x|art r i dummy|j a|j i|j|j|j|j|j|j b|j idx]; try contradiction; cbn [perform] in P.
  - destruct (_ =? _); [|discriminate]. injection P as <-. apply Same; auto.
  - destruct (held w i); [|discriminate]. cbn [rbind] in P. destruct (_ && _); [|discriminate]. injection P as <-. apply Same; auto.
  - clear Same. pose proof Ou as Q.
    destruct (held w i) as [a|] eqn:A; [|discriminate]. apply held_ok in A. cbn [rbind] in P.
    assert (exists pol m1 x mk, w' = give_model w m1 (mkPm art r pol dummy [] [] mk) /\ m1 = w_mem w ++ x /\
      length (w_mem w) <= a_buf mk /\ a_buf pol <> a_buf mk /\ (length (w_mem w) <= a_buf pol \/ pol = a))
      as (pol & m1 & x & mk & -> & -> & L1 & L2 & L3).
    { destruct dummy; unfold np_new in P; cbn in P.
      - injection P as <-. do 4 eexists. split; [reflexivity|]. split; [rewrite <- app_assoc; reflexivity|].
        cbn [a_buf]. rewrite app_length. cbn. split; [lia|]. split; [lia|]. left; lia.
      - destruct (verify_ndarray_shape _ _); [|discriminate]. cbn in P. injection P as <-. do 4 eexists. split; [reflexivity|].
        split; [reflexivity|]. cbn [a_buf]. split; [lia|]. split; [|auto]. destruct S as [S _]. apply (nth_good _ _ _ _ S), good_in in A. lia. }
    unfold give_model. eapply (private_models w _ _ (length (w_models w))); auto.
    + intros k o Hk. apply app_one_nth in Hk as [Hk|[-> ->]]; [left; split; auto; apply nth_lt in Hk; lia|right; split; reflexivity].
    + auto.
    + auto.
    + cbn [pm_basis]. intros b [].
    + cbn [pm_pol]. destruct L3 as [L3| ->]; eauto.
    + cbn [pm_basis]. intros b [].
  - clear P. destruct (add_done _ _ _ _ Ou) as (o & l & data & rs & sps & sh & Ho & F & E). rewrite <- Ea, E.
    assert (Go : good_model (w_mem w) o) by (destruct S; eapply nth_good; eauto).
    destruct Go as (G1 & _ & G3 & _). apply good_in in G1.
    assert (Q : Forall (fun b => length (w_mem w) <= a_buf b < length (w_mem w ++ l)) rs).
    { eapply Forall2_right; [exact F|]. intros x y (_ & Q & _) _. auto. }
    rewrite Forall_forall in Q, G3. unfold put_model. eapply (private_models w _ _ j); auto; cbn [pm_pol pm_mask pm_basis a_buf].
    + intros k o1 Hk. rewrite set_nth_nth in Hk. destruct (Nat.eqb_spec j k) as [->|Nk]; auto.
      destruct (k <? _); [|discriminate]. injection Hk as <-. right. split; reflexivity.
    + cbn [pm_mask a_buf]. rewrite app_length. lia.
    + cbn [pm_pol pm_mask a_buf]. rewrite app_length. lia.
    + cbn [pm_basis pm_mask a_buf]. intros b Hb. apply in_app_or in Hb as [Hb|Hb].
      * destruct (G3 b Hb) as [G _]. apply good_in in G. rewrite app_length. lia.
      * specialize (Q b Hb). lia.
    + cbn [pm_pol]. right; right. exists j, o. auto.
    + cbn [pm_basis]. intros b Hb. apply in_app_or in Hb as [Hb|Hb]; [right; eauto|left; apply Q; auto].
  - destruct (model w j); [|discriminate]. cbn in P. injection P as <-. apply Same; auto.
  - destruct (model w j); [|discriminate]. cbn in P. injection P as <-. apply Same; auto.
  - destruct (model w j); [|discriminate]. cbn in P. injection P as <-. apply Same; auto.
  - destruct (model w j); [|discriminate]. cbn [rbind] in P. destruct (new_arrays _ _). injection P as <-. apply Same; auto.
  - destruct (model w j) as [o|]; [|discriminate]. cbn [rbind] in P. destruct (pm_art o); [|discriminate].
    destruct (direction_views _ _); [|discriminate]. cbn in P. injection P as <-. apply Same; auto.
  - destruct (model w j); [|discriminate]. cbn [rbind] in P. destruct (calc_polarizabilities _ _ _); [|discriminate].
    cbn in P. injection P as <-. apply Same; auto.
  - clear Same. destruct (model w j) as [o|] eqn:M; [|discriminate]. apply model_ok in M. cbn [rbind] in P.
    assert (Go : good_model (w_mem w) o) by (destruct S; eapply nth_good; eauto).
    destruct (deepcopy_spec (w_mem w) o) as (x & o' & D & D1 & D2 & D3 & D4 & D5 & D6 & D7). rewrite D in P.
    unfold np_copy, np_new in P. destruct (mask_indexes _ _); [|discriminate]. cbn [rbind] in P. injection P as <-.
    assert (Q : Forall (fun b => length (w_mem w) <= a_buf b < length (w_mem w ++ x)) (pm_basis o')).
    { eapply Forall2_right; [exact D6|]. intros y z (_ & Q & _) _. auto. }
    rewrite Forall_forall in Q. destruct D5 as (_ & D5 & _).
    unfold give_model. eapply (private_models w _ _ (length (w_models w))); auto.
    + intros k o1 Hk. apply app_one_nth in Hk as [Hk|[-> ->]]; [left; split; auto; apply nth_lt in Hk; lia|right; split; reflexivity].
    + cbn [pm_mask a_buf]. rewrite app_length. lia.
    + cbn [pm_pol pm_mask a_buf]. lia.
    + cbn [pm_basis pm_mask a_buf]. intros b Hb. specialize (Q b Hb). lia.
    + cbn [pm_pol]. left; lia.
    + cbn [pm_basis]. intros b Hb. left. apply Q; auto.
Qed.

Lemma private_history spl cs : Forall no_writes cs -> forall w, sound w -> masks_private w -> masks_private (history spl w cs).
Proof.
  induction 1 as [|c cs N _ IH]; intros w S I; simpl; auto. apply IH; [apply after_sound|apply private_step]; auto.
Qed.

Lemma value_step spl w c j v art : sound w -> masks_private w -> no_writes c ->
  model_at w j = Some v -> class_at w j = Some art ->
  model_at (after spl w c) j = Some (alone art v (own_call j c)) /\ class_at (after spl w c) j = Some art.
Proof.
  intros S I N V C. pose proof V as V0. apply model_at_inv in V0 as (o & Ho & ->).
  unfold class_at in C. rewrite Ho in C. injection C as <-.
  assert (Cl : class_at (after spl w c) j = Some (pm_art o)).
  { destruct (history_pol spl [c] j w o S Ho) as (o' & H' & _ & A). unfold class_at. cbn in H'. rewrite H'. cbn. congruence. }
  split; auto.
  assert (Keep : (forall a, c <> Add j a) -> c <> Unmask j -> model_at (after spl w c) j = model_at w j).
  { intros Na Nu. destruct (after_cases spl w c S) as [->|Ef]; auto.
    destruct (after_model spl w c j o S Ho) as (o' & H' & [->|[(a & bs & -> & _)|(i & a & -> & _)]]); [|exfalso; eapply Na; eauto|contradiction].
    unfold model_at. rewrite H', Ho. cbn [option_map]. f_equal. apply contents_same. intros b Hb.
    destruct S as [_ S2]. destruct (ef_memory _ _ _ Ef b) as [E|E]; auto; [eapply uses_in; [eapply nth_good; eauto|auto]|].
    exfalso. destruct c; try contradiction. destruct E as (o1 & H1 & <-).
    destruct (I _ _ H1) as [_ I2]. destruct (I2 _ _ Ho) as (Q1 & Q2 & Q3).
    assert (j <> j0) by congruence. destruct Hb as [Hb|[Hb|(x & Hx & Hb)]].
    - apply Q2. auto.
    - apply Q1; auto.
    - apply (Q3 x Hx). auto. }
  destruct c; cbn [own_call]; try (rewrite Keep by (intros; discriminate); exact V); try contradiction.
  - destruct (Nat.eqb_spec j0 j) as [->|Nj].
    + pose proof (add_agrees spl w j o a S Ho) as A. cbn [alone fold_left own_step].
      destruct (run_adding _ _ _) as [[v' ws] r]. apply A.
    + rewrite Keep; [exact V| |discriminate]. intros a' E. injection E as E. contradiction.
  - destruct (Nat.eqb_spec j0 j) as [->|Nj].
    + cbn [alone fold_left own_step]. destruct (unmask_agrees spl w j o S Ho) as [U1 U2].
      assert (E : after spl w (Unmask j) = mkWorld (fill (w_mem w) (pm_mask o) (bool_cell false)) (w_held w) (w_models w)).
      { unfold after. cbn [perform]. rewrite (model_of _ _ _ Ho). auto. }
      unfold mask_at, model_at in *. rewrite E in *. cbn [w_models w_mem] in *. rewrite Ho in *. cbn [option_map] in *.
      injection U2 as U2. unfold unmask, bind, get, put. cbn [fst]. f_equal.
      destruct (I _ _ Ho) as [_ I2]. destruct (I2 _ _ Ho) as (_ & Q2 & Q3).
      set (m1 := fill _ _ _) in *.
      assert (B : forall b, b <> a_buf (pm_mask o) -> buffer m1 b = buffer (w_mem w) b).
      { intros b Hb. unfold m1. rewrite fill_stores. apply stores_other; auto. }
      unfold contents in *. cbn [im_ref im_refpol im_dummy im_basis im_interp im_mask] in *. f_equal.
      * f_equal. apply load_buffer, B. auto.
      * apply map_ext_in. intros b Hb. f_equal. apply load_buffer, B. auto.
      * auto.
    + rewrite Keep; [exact V|intros; discriminate|]. intros E. injection E as E. contradiction.
Qed.

Lemma value_history spl cs j : Forall no_writes cs -> forall w v art, sound w -> masks_private w ->
  model_at w j = Some v -> class_at w j = Some art ->
  model_at (history spl w cs) j = Some (alone art v (flat_map (own_call j) cs)).
Proof.
  induction 1 as [|c cs N F IH]; intros w v art S I V C; [auto|]. cbn [history fold_left flat_map].
  destruct (value_step spl w c j v art S I N V C) as [V1 C1].
  change (fold_left (after spl) cs ?z) with (history spl z cs).
  rewrite (IH _ _ _ (after_sound spl w c S) (private_step spl w c S I N) V1 C1).
  unfold alone. rewrite fold_left_app. auto.
Qed.

Lemma f_C87_values spl cs1 cs2 j v art : Forall no_writes (cs1 ++ cs2) ->
  model_at (history spl empty_world cs1) j = Some v -> class_at (history spl empty_world cs1) j = Some art ->
  model_at (history spl empty_world (cs1 ++ cs2)) j = Some (alone art v (flat_map (own_call j) cs2)).
Proof.
  intros F V C. apply Forall_app in F as [F1 F2]. rewrite history_app.
  apply value_history; auto.
  - apply history_sound, empty_sound.
  - apply private_history; auto; [apply empty_sound|]. intros k o H. destruct k; discriminate.
Qed.
