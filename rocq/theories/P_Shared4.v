(** Proofs about models in memory: independence (C87). *)
From Coq Require Import String ZArith Reals Bool Arith List Lia.
From Verif Require Import Base LinAlg M_Validate M_StructUtils M_Reference M_Interp M_Art M_Alias S_Interp
  P_Interp P_Interp2 P_Art M_Shared S_Alias S_Shared P_Alias P_Alias3 P_Shared P_Shared2 P_Shared3.
Import ListNotations.

#[local] Arguments load _ _ : simpl never.
#[local] Arguments buffer _ _ : simpl never.
#[local] Arguments np_row _ _ : simpl never.

Lemma nth_lt {A} (l : list A) i a : nth_error l i = Some a -> i < length l.
Proof. intros H. apply nth_error_Some. congruence. Qed.

(** ** Adding DOFs *)
Lemma add_done spl w j a : outcome spl w (Add j a) = Ok tt -> exists o l data rs sps sh,
  nth_error (w_models w) j = Some o /\
  Forall2 (made (w_mem w) (w_mem w ++ l)) rs (map (fun d => (([length d; 3]), rows_data d)) (skipn (length (pm_basis o)) (im_basis (fst (fst (run_adding (pm_art o) a (contents (w_mem w) o))))))) /\
  after spl w (Add j a) = put_model w ((w_mem w ++ l) ++ [data]) j
    (mkPm (pm_art o) (pm_ref o) (pm_pol o) (pm_dummy o) (pm_basis o ++ rs) sps (mkAref (length (w_mem w ++ l)) (seq 0 (length data)) sh)).
Proof.
  intros H. apply outcome_ok in H as (w' & H & ->). cbn [perform] in H.
  destruct (model w j) as [o|] eqn:E; [|discriminate]. apply model_ok in E. cbn [rbind] in H.
  destruct (run_adding _ _ _) as [[v' ws] r] eqn:R. destruct r as [[]|]; [|discriminate]. cbn [rbind] in H.
  destruct (new_arrays_spec (map basis_array (skipn (length (pm_basis o)) (im_basis v'))) (w_mem w)) as (bs & N & F).
  rewrite N in H. unfold np_new in H. injection H as <-.
  exists o. do 5 eexists. rewrite R. split; [auto|]. split; [exact F|]. reflexivity.
Qed.

Lemma f_C87_add_detaches spl w j a v v' : reached spl w -> model_at w j = Some v ->
  outcome spl w (Add j a) = Ok tt -> model_at (after spl w (Add j a)) j = Some v' ->
  im_mask v' = im_mask v ++ repeat false (length (im_basis v') - length (im_basis v)) /\
  forall cs, Forall (fun c => match c with Add k _ | SetMask k _ | Unmask k => k <> j | _ => True end) cs ->
    mask_at (history spl (after spl w (Add j a)) cs) j = Some (im_mask v').
Proof.
  intros Rw V O V'. pose proof Rw as Rw0. apply reached_sound in Rw. pose proof (after_sound spl w (Add j a) Rw) as S1.
  destruct (add_done _ _ _ _ O) as (o & l & data & rs & sps & sh & Ho & F & E).
  pose proof V as V0. apply model_at_inv in V0 as (o0 & Ho0 & ->). rewrite Ho in Ho0. injection Ho0 as <-.
  split.
  - pose proof (add_agrees spl w j o a Rw Ho) as A. destruct (run_adding _ _ _) as [[v1 ws] r] eqn:R. destruct A as [A1 A2].
    rewrite V' in A2. injection A2 as <-. rewrite O in A1. subst r.
    apply run_adding_cases in R as [(e & X & _)|(_ & bs & sps' & ->)]; [discriminate|].
    unfold appended. cbn [im_mask im_basis]. rewrite app_length. f_equal. f_equal. lia.
  - intros cs Hcs.
    assert (H1 : nth_error (w_models (after spl w (Add j a))) j = Some
      (mkPm (pm_art o) (pm_ref o) (pm_pol o) (pm_dummy o) (pm_basis o ++ rs) sps (mkAref (length (w_mem w ++ l)) (seq 0 (length data)) sh))).
    { rewrite E. unfold put_model. cbn [w_models]. eapply set_nth_at; eauto. }
    assert (Hcs' : Forall (fun c => match c with Add k _ | SetMask k _ => k <> j | _ => True end) cs).
    { eapply Forall_impl; [|exact Hcs]. intros [] Hc; auto. }
    destruct (history_mask spl cs j _ _ S1 H1 Hcs') as (o' & H' & M). cbn [pm_mask] in M.
    set (b := length (w_mem w ++ l)) in *.
    destruct (reached_used spl w b Rw0) as [U1 U2]; [unfold b; rewrite app_length; lia|].
    assert (Hrs : forall r, In r rs -> a_buf r <> b).
    { intros r Hr. assert (Q : Forall (fun r => a_buf r < b) rs).
      { eapply Forall2_right; [exact F|]. intros x y (_ & Q & _) _. unfold b. lia. }
      rewrite Forall_forall in Q. specialize (Q r Hr). lia. }
    destruct (frame (eq b) (fun _ => False) (eq j) (fun _ => False) spl cs _ S1) as [_ B].
    + rewrite E. unfold put_model. split; [|split; [|split]]; cbn [w_mem w_held w_models].
      * intros x <-. rewrite app_length. cbn. fold b. lia.
      * intros i x Hi Hx. exact (U1 i x Hi (eq_sym Hx)).
      * intros k o1 Hk Hx. rewrite set_nth_nth in Hk. destruct (Nat.eqb_spec j k) as [->|N]; auto.
        destruct (U2 _ _ Hk) as (Q & _). congruence.
      * intros k o1 x Hk Ix Hx. rewrite set_nth_nth in Hk. destruct (Nat.eqb_spec j k) as [->|N].
        -- destruct (k <? length (w_models w)); [|discriminate]. injection Hk as <-. cbn [pm_basis] in Ix.
           apply in_app_or in Ix as [Ix|Ix]; [|exact (Hrs x Ix (eq_sym Hx))].
           destruct (U2 _ _ Ho) as (_ & _ & Q). exact (Q x Ix (eq_sym Hx)).
        -- destruct (U2 _ _ Hk) as (_ & _ & Q). exact (Q x Ix (eq_sym Hx)).
    + eapply Forall_impl; [|exact Hcs]. intros [] Hc; split; simpl; auto.
    + unfold model_at in V'. rewrite H1 in V'. injection V' as <-. unfold mask_at, model_at. rewrite H'. cbn [option_map contents im_mask pm_mask].
      rewrite M. f_equal. f_equal. apply load_buffer. apply B. auto.
Qed.

(** ** New things cannot reach old ones *)
Lemma f_C87_old_untouched spl w cs : reached spl w ->
  Forall (leaves_model (fun j => j < length (w_models w))) cs ->
  Forall (leaves_array (fun i => i < length (w_held w))) cs ->
  (forall j, j < length (w_models w) -> model_at (history spl w cs) j = model_at w j) /\
  (forall i, i < length (w_held w) -> array_at (history spl w cs) i = array_at w i).
Proof.
  intros Rw Hm Ha. apply reached_sound in Rw as S.
  destruct (frame (fun b => b < length (w_mem w)) (fun i => i < length (w_held w)) (fun j => j < length (w_models w))
    (fun j => j < length (w_models w)) spl cs w S) as [_ B].
  - split; [auto|]. split; [intros i a Hi _; eapply nth_lt; eauto|]. split; [intros j o Hj _; eapply nth_lt; eauto|].
    intros j o b Hj _ _. eapply nth_lt; eauto.
  - rewrite Forall_forall in *. intros c Hc. specialize (Hm c Hc). specialize (Ha c Hc). split; auto. destruct c; auto.
  - split.
    + intros j Hj. destruct (nth_error (w_models w) j) as [o|] eqn:E; [|apply nth_error_None in E; lia].
      assert (H' : nth_error (w_models (history spl w cs)) j = Some o).
      { apply history_same; auto. eapply Forall_impl; [|exact Hm]. intros [] Hc; simpl in Hc; auto; intros ->; auto. }
      unfold model_at. rewrite H', E. cbn [option_map]. f_equal. apply contents_same. intros b Hb. apply B.
      destruct S as [_ S]. eapply uses_in; [eapply nth_good; eauto|auto].
    + intros i Hi. destruct (nth_error (w_held w) i) as [a|] eqn:E; [|apply nth_error_None in E; lia].
      unfold array_at. rewrite (history_held spl cs i a w S E), E. cbn [option_map]. f_equal. f_equal.
      apply load_buffer, B. destruct S as [S _]. apply good_in. eapply nth_good; eauto.
Qed.

(** ** A masked copy is on its own *)
Lemma get_masked_done spl w j idx : sound w -> outcome spl w (GetMasked j idx) = Ok tt -> exists m o',
  after spl w (GetMasked j idx) = give_model w m o' /\
  length (w_mem w) <= a_buf (pm_pol o') < length m /\ length (w_mem w) <= a_buf (pm_mask o') < length m /\
  Forall (fun b => length (w_mem w) <= a_buf b < length m) (pm_basis o').
Proof.
  intros S O. pose proof (after_sound spl w (GetMasked j idx) S) as S1. destruct S1 as [_ S1].
  pose proof O as O'. apply outcome_ok in O' as (w' & P & E). pose proof (perform_effect _ _ _ _ S P) as Ef.
  assert (exists m o', w' = give_model w m o') as (m & o' & ->).
  { cbn [perform] in P. destruct (model w j) as [o|]; [|discriminate]. cbn [rbind] in P.
    destruct (deepcopy _ _) as [m1 o']. unfold np_copy, np_new in P. destruct (mask_indexes _ _); [|discriminate].
    cbn [rbind] in P. injection P as <-. eauto. }
  exists m, o'. split; auto.
  pose proof (ef_models _ _ _ Ef (length (w_models w)) o') as B. unfold give_model in B. cbn [w_models] in B.
  specialize (B (last_nth _ _)). cbn in B. destruct B as [B|(_ & B1 & B2 & B3)]; [apply nth_lt in B; lia|].
  rewrite E in S1. unfold give_model in S1. cbn [w_mem w_models] in S1. apply Forall_app in S1 as [_ S1]. inversion S1; subst.
  destruct H1 as (G1 & _ & G3 & G4 & _). apply good_in in G1. apply good_in in G4. split; [lia|]. split; [lia|].
  rewrite Forall_forall in *. intros b Hb. specialize (B1 b Hb). destruct (G3 b Hb) as [G _]. apply good_in in G. lia.
Qed.

Lemma f_C87_masked_model spl w j idx cs : reached spl w -> outcome spl w (GetMasked j idx) = Ok tt ->
  Forall (leaves_model (eq (length (w_models w)))) cs ->
  model_at (history spl (after spl w (GetMasked j idx)) cs) (length (w_models w))
  = model_at (after spl w (GetMasked j idx)) (length (w_models w)).
Proof.
  intros Rw O Hc. pose proof (reached_sound _ _ Rw) as S. pose proof (after_sound spl w (GetMasked j idx) S) as S1.
  destruct (get_masked_done _ _ _ _ S O) as (m & o' & E & L1 & L2 & L3).
  set (n := length (w_models w)) in *. set (F := fun b => length (w_mem w) <= b < length m).
  assert (H1 : nth_error (w_models (after spl w (GetMasked j idx))) n = Some o').
  { rewrite E. unfold give_model. cbn [w_models]. apply last_nth. }
  destruct (frame F (fun _ => False) (eq n) (eq n) spl cs _ S1) as [_ B].
  - rewrite E. unfold give_model. split; [|split; [|split]]; cbn [w_mem w_held w_models]; unfold F.
    + intros b Hb. lia.
    + intros i a Hi Ha. destruct (reached_used spl w (a_buf a) Rw (proj1 Ha)) as [U _]. exact (U i a Hi eq_refl).
    + intros k o Hk Ho. apply app_one_nth in Hk as [Hk|[-> _]]; auto. destruct (reached_used spl w _ Rw (proj1 Ho)) as [_ U].
      exfalso. destruct (U k o Hk) as (U' & _). apply U'; auto.
    + intros k o b Hk Ib Hb. apply app_one_nth in Hk as [Hk|[-> _]]; auto. destruct (reached_used spl w _ Rw (proj1 Hb)) as [_ U].
      exfalso. destruct (U k o Hk) as (_ & _ & U'). exact (U' b Ib eq_refl).
  - eapply Forall_impl; [|exact Hc]. intros [] Hx; split; simpl in *; auto.
  - assert (H' : nth_error (w_models (history spl (after spl w (GetMasked j idx)) cs)) n = Some o').
    { apply history_same; auto. eapply Forall_impl; [|exact Hc]. intros [] Hx; simpl in Hx; auto. }
    unfold model_at. rewrite H', H1. cbn [option_map]. f_equal. apply contents_same. intros b Hb. apply B.
    destruct Hb as [->|[->|(x & Hx & ->)]]; unfold F; auto. rewrite Forall_forall in L3. auto.
Qed.

(** ** Returned arrays are copies *)
Lemma new_arrays_distinct q : forall m r mm, new_arrays m q = (mm, r) ->
  NoDup (map a_buf r) /\ Forall (fun b => length m <= b) (map a_buf r).
Proof.
  induction q as [|[sh d] q IH]; intros m r mm; cbn [new_arrays].
  - intros [= <- <-]. split; constructor.
  - unfold np_new. destruct (new_arrays (m ++ [d]) q) as [m2 rest] eqn:N2. intros [= <- <-]. apply IH in N2 as [N2 L2].
    rewrite app_length in L2. cbn in L2 |- *. split.
    + constructor; auto. intros C. rewrite Forall_forall in L2. apply L2 in C. lia.
    + constructor; auto. eapply Forall_impl; [|exact L2]. intros b Hb. simpl in Hb. lia.
Qed.
Lemma copying_done spl w c w' : copying c -> perform spl w c = Ok w' -> exists x l data,
  w' = give w (w_mem w ++ x) l /\ Forall2 (made (w_mem w) (w_mem w ++ x)) l data /\
  NoDup (map a_buf l).
Proof.
  assert (One : forall sh data, exists x l d, give w (w_mem w ++ [data]) [mkAref (length (w_mem w)) (seq 0 (length data)) sh] =
    give w (w_mem w ++ x) l /\ Forall2 (made (w_mem w) (w_mem w ++ x)) l d /\ NoDup (map a_buf l)).
  { intros sh data. exists [data]. do 2 eexists. split; [reflexivity|]. split; [constructor; [apply made_new|constructor]|].
    simpl. constructor; auto. constructor. }
  destruct c; try contradiction; intros _ H; cbn [perform] in H.
  - destruct (_ =? _); [|discriminate]. injection H as <-. apply One.
  - destruct (model w j) as [o|]; [|discriminate]. cbn in H. injection H as <-. apply One.
  - destruct (model w j) as [o|]; [|discriminate]. cbn in H. injection H as <-. apply One.
  - destruct (model w j) as [o|]; [|discriminate]. cbn [rbind] in H.
    set (q := map _ _) in H. destruct (new_arrays_spec q (w_mem w)) as (r & N & F). rewrite N in H. injection H as <-.
    exists (map snd q), r, q. split; [auto|]. split; [auto|].
    apply new_arrays_distinct in N. apply N.
  - destruct (model w j) as [o|]; [|discriminate]. cbn [rbind] in H.
    destruct (calc_polarizabilities _ _ _) as [ms|]; [|discriminate]. cbn [rbind] in H. injection H as <-. apply One.
Qed.

Lemma f_C87_copies spl w c i cs : reached spl w -> copying c -> outcome spl w c = Ok tt ->
  length (w_held w) <= i < length (w_held (after spl w c)) -> Forall (leaves_array (eq i)) cs ->
  array_at (history spl (after spl w c) cs) i = array_at (after spl w c) i.
Proof.
  intros Rw Hc O [Li Li'] Hcs. pose proof (reached_sound _ _ Rw) as S. pose proof (after_sound spl w c S) as S1.
  apply outcome_ok in O as (w' & P & E). destruct (copying_done _ _ _ _ Hc P) as (x & l & data & -> & F & ND).
  rewrite E in *. unfold give in *. destruct (nth_error (w_held w ++ l) i) as [a|] eqn:A.
  2: { apply nth_error_None in A. cbn [w_held] in Li'. lia. }
  rewrite nth_error_app2 in A by lia.
  assert (La : length (w_mem w) <= a_buf a < length (w_mem w ++ x)).
  { assert (Q : Forall (fun a => length (w_mem w) <= a_buf a < length (w_mem w ++ x)) l).
    { eapply Forall2_right; [exact F|]. intros a' p (_ & Q & _) _. auto. }
    exact (nth_good _ _ _ _ Q A). }
  destruct (frame (eq (a_buf a)) (eq i) (fun _ => False) (fun _ => False) spl cs _ S1) as [_ B].
  - destruct (reached_used spl w (a_buf a) Rw (proj1 La)) as [U1 U2].
    split; [|split; [|split]]; cbn [w_mem w_held w_models].
    + intros b <-. lia.
    + intros k a' Hk Hb. destruct (lt_dec k (length (w_held w))) as [L|L].
      * rewrite nth_error_app1 in Hk by auto. exfalso. exact (U1 k a' Hk (eq_sym Hb)).
      * rewrite nth_error_app2 in Hk by lia.
        assert (i - length (w_held w) = k - length (w_held w)); [|lia].
        eapply (proj1 (NoDup_nth_error (map a_buf l)) ND).
        -- rewrite map_length. eapply nth_lt; eauto.
        -- rewrite !nth_error_map, A, Hk. simpl. congruence.
    + intros k o Hk Hb. destruct (U2 k o Hk) as (Q & _). congruence.
    + intros k o b Hk Ib Hb. destruct (U2 k o Hk) as (_ & _ & Q). exact (Q b Ib (eq_sym Hb)).
  - eapply Forall_impl; [|exact Hcs]. intros y Hy. split; auto. destruct y; auto.
  - assert (A' : nth_error (w_held w ++ l) i = Some a) by (rewrite nth_error_app2 by lia; auto).
    unfold array_at. rewrite (history_held spl cs i a _ S1 A'). cbn [w_held w_mem]. rewrite A'. cbn [option_map]. f_equal. f_equal.
    apply load_buffer. rewrite B; auto.
Qed.
