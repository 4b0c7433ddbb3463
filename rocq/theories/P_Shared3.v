(** Proofs about models in memory: histories (C87). *)
From Coq Require Import String ZArith Reals Bool Arith List Lia.
From Verif Require Import Base LinAlg M_Validate M_StructUtils M_Reference M_Interp M_Art M_Alias S_Interp
  P_Interp P_Interp2 P_Art M_Shared S_Alias S_Shared P_Alias P_Alias3 P_Shared P_Shared2.
Import ListNotations.

#[local] Arguments load _ _ : simpl never.
#[local] Arguments buffer _ _ : simpl never.
#[local] Arguments np_row _ _ : simpl never.

(** ** What survives a history *)
Lemma history_model spl cs j (P : pmodel -> pmodel -> Prop) (ok : call -> Prop) :
  (forall o, P o o) -> (forall a b c, P a b -> P b c -> P a c) ->
  (forall w c o o', ok c -> evolves w c j o o' -> P o o') ->
  forall w o, sound w -> Forall ok cs -> nth_error (w_models w) j = Some o ->
  exists o', nth_error (w_models (history spl w cs)) j = Some o' /\ P o o'.
Proof.
  intros R T E. induction cs as [|c cs IH]; intros w o S F H; simpl; [eauto|]. inversion F; subst.
  destruct (after_model spl w c j o S H) as (o1 & H1 & E1).
  destruct (IH (after spl w c) o1) as (o2 & H4 & P2); auto using after_sound. exists o2. split; eauto.
Qed.
Lemma history_pol spl cs j w o : sound w -> nth_error (w_models w) j = Some o ->
  exists o', nth_error (w_models (history spl w cs)) j = Some o' /\ pm_pol o' = pm_pol o /\ pm_art o' = pm_art o.
Proof.
  intros S H. eapply (history_model spl cs j (fun o o' => pm_pol o' = pm_pol o /\ pm_art o' = pm_art o) (fun _ => True)); eauto.
  - intros a b c [-> ->] [-> ->]; auto.
  - intros w' c o1 o2 _ [->|[(a & bs & _ & -> & _ & -> & _)|(i & a & _ & _ & ->)]]; auto.
  - apply Forall_forall. auto.
Qed.
Lemma history_basis spl cs j w o : sound w -> nth_error (w_models w) j = Some o ->
  exists o', nth_error (w_models (history spl w cs)) j = Some o' /\ exists bs, pm_basis o' = pm_basis o ++ bs.
Proof.
  intros S H. eapply (history_model spl cs j (fun o o' => exists bs, pm_basis o' = pm_basis o ++ bs) (fun _ => True)); eauto.
  - intros a. exists []. rewrite app_nil_r. auto.
  - intros a b c [b1 H1] [b2 H2]. exists (b1 ++ b2). rewrite H2, H1, app_assoc. auto.
  - intros w' c o1 o2 _ [->|[(a & bs & _ & _ & _ & _ & _ & -> & _)|(i & a & _ & _ & ->)]]; [exists []; rewrite app_nil_r; auto|eauto|].
    exists []. rewrite app_nil_r. auto.
  - apply Forall_forall. auto.
Qed.
Lemma history_mask spl cs j w o : sound w -> nth_error (w_models w) j = Some o ->
  Forall (fun c => match c with Add k _ | SetMask k _ => k <> j | _ => True end) cs ->
  exists o', nth_error (w_models (history spl w cs)) j = Some o' /\ pm_mask o' = pm_mask o.
Proof.
  intros S H F. eapply (history_model spl cs j (fun o o' => pm_mask o' = pm_mask o)); eauto.
  - intros a b c Hab Hbc. congruence.
  - intros w' c o1 o2 K [->|[(a & bs & -> & _)|(i & a & -> & _)]]; simpl in K; auto; contradiction.
Qed.
Lemma history_same spl cs j w o : sound w -> nth_error (w_models w) j = Some o ->
  Forall (fun c => match c with Add k _ | SetMask k _ => k <> j | _ => True end) cs ->
  nth_error (w_models (history spl w cs)) j = Some o.
Proof.
  intros S H F. destruct (history_model spl cs j (fun o o' => o' = o) (fun c => match c with Add k _ | SetMask k _ => k <> j | _ => True end))
    with (w := w) (o := o) as (o' & H' & E); auto.
  - intros a b c -> ->; auto.
  - intros w' c o1 o2 K [->|[(a & bs & -> & _)|(i & a & -> & _)]]; simpl in K; auto; contradiction.
  - congruence.
Qed.

(** ** Sharing *)
Lemma outcome_ok spl w c : outcome spl w c = Ok tt -> exists w', perform spl w c = Ok w' /\ after spl w c = w'.
Proof. unfold outcome, after. destruct (perform spl w c) as [w'|]; [eauto|discriminate]. Qed.

Lemma set_mask_done spl w j i : outcome spl w (SetMask j i) = Ok tt -> exists o a,
  nth_error (w_models w) j = Some o /\ nth_error (w_held w) i = Some a /\ a_shape a = a_shape (pm_mask o) /\
  after spl w (SetMask j i) = put_model w (w_mem w) j (mkPm (pm_art o) (pm_ref o) (pm_pol o) (pm_dummy o) (pm_basis o) (pm_interp o) a).
Proof.
  intros H. apply outcome_ok in H as (w' & H & ->). cbn [perform] in H.
  destruct (model w j) as [o|] eqn:E; [|discriminate]. apply model_ok in E. cbn [rbind] in H.
  destruct (held w i) as [a|] eqn:A; [|discriminate]. apply held_ok in A. cbn [rbind] in H.
  destruct (verify_ndarray_shape _ _) as [[]|] eqn:V; [|discriminate]. apply verify_same in V. cbn [rbind] in H.
  injection H as <-. exists o, a. auto.
Qed.

Lemma f_C87_mask_shared spl w j i cs : reached spl w -> outcome spl w (SetMask j i) = Ok tt ->
  Forall (fun c => match c with Add k _ | SetMask k _ => k <> j | _ => True end) cs ->
  exists sh x, array_at (history spl (after spl w (SetMask j i)) cs) i = Some (sh, x) /\
               mask_at (history spl (after spl w (SetMask j i)) cs) j = Some (map flag x).
Proof.
  intros Rw O F. apply reached_sound in Rw. pose proof (after_sound spl w (SetMask j i) Rw) as S1.
  destruct (set_mask_done _ _ _ _ O) as (o & a & H & A & _ & E).
  assert (H1 : nth_error (w_models (after spl w (SetMask j i))) j =
    Some (mkPm (pm_art o) (pm_ref o) (pm_pol o) (pm_dummy o) (pm_basis o) (pm_interp o) a)).
  { rewrite E. unfold put_model. cbn [w_models]. eapply set_nth_at; eauto. }
  destruct (history_mask spl cs j _ _ S1 H1 F) as (o' & H' & M). cbn [pm_mask] in M.
  pose proof (history_held spl cs i a _ S1 (after_held spl w _ _ _ Rw A)) as A'.
  unfold array_at, mask_at, model_at. rewrite A', H'. cbn [option_map contents im_mask]. rewrite M. eauto.
Qed.

Lemma f_C87_unmask_reaches spl w j k i cs : reached spl w -> j <> k ->
  outcome spl w (SetMask j i) = Ok tt ->
  outcome spl (after spl w (SetMask j i)) (SetMask k i) = Ok tt ->
  Forall (fun c => match c with Add l _ | SetMask l _ => l <> j /\ l <> k | _ => True end) cs ->
  exists mask sh x,
    mask_at (history spl w (SetMask j i :: SetMask k i :: cs ++ [Unmask j])) k = Some mask /\
    Forall (fun b => b = false) mask /\
    array_at (history spl w (SetMask j i :: SetMask k i :: cs ++ [Unmask j])) i = Some (sh, x) /\
    Forall (fun c => flag c = false) x.
Proof.
  intros Rw N O1 O2 F.
  assert (Fj : Forall (fun c => match c with Add l _ | SetMask l _ => l <> j | _ => True end) (SetMask k i :: cs ++ [Unmask j])).
  { constructor; [auto|]. apply Forall_app. split; [|constructor; auto]. eapply Forall_impl; [|exact F]. intros [] Hc; tauto. }
  destruct (f_C87_mask_shared spl w j i (SetMask k i :: cs ++ [Unmask j]) Rw O1 Fj) as (sh & x & A1 & M1).
  assert (Rw1 : reached spl (after spl w (SetMask j i))).
  { destruct Rw as (c0 & ->). exists (c0 ++ [SetMask j i]). rewrite history_app. auto. }
  assert (Fk : Forall (fun c => match c with Add l _ | SetMask l _ => l <> k | _ => True end) (cs ++ [Unmask j])).
  { apply Forall_app. split; [|constructor; auto]. eapply Forall_impl; [|exact F]. intros [] Hc; tauto. }
  destruct (f_C87_mask_shared spl _ k i (cs ++ [Unmask j]) Rw1 O2 Fk) as (sh2 & x2 & A2 & M2).
  change (history spl (after spl w (SetMask j i)) (SetMask k i :: cs ++ [Unmask j]))
    with (history spl (after spl (after spl w (SetMask j i)) (SetMask k i)) (cs ++ [Unmask j])) in A1, M1.
  change (history spl w (SetMask j i :: SetMask k i :: cs ++ [Unmask j]))
    with (history spl (after spl (after spl w (SetMask j i)) (SetMask k i)) (cs ++ [Unmask j])).
  rewrite A1 in A2. injection A2 as <- <-.
  exists (map flag x), sh, x. split; [auto|].
  rewrite history_app in *. set (w2 := history spl (after spl (after spl w (SetMask j i)) (SetMask k i)) cs) in *.
  assert (S2 : sound w2). { unfold w2. apply history_sound, after_sound, reached_sound with (spl := spl); auto. }
  change (history spl w2 [Unmask j]) with (after spl w2 (Unmask j)) in *.
  assert (exists o, nth_error (w_models w2) j = Some o) as (o & Ho).
  { destruct (set_mask_done _ _ _ _ O1) as (o & a & Ho & _ & _ & E).
    destruct (history_pol spl (SetMask j i :: SetMask k i :: cs) j w o (reached_sound _ _ Rw) Ho) as (o' & Ho' & _). eauto. }
  destruct (unmask_agrees spl w2 j o S2 Ho) as [_ U]. rewrite U in M1. injection M1 as M1.
  assert (Z : Forall (fun b => b = false) (map flag x)).
  { rewrite <- M1. apply Forall_forall. intros b Hb. apply in_map_iff in Hb as (? & <- & _). auto. }
  split; [auto|]. split; auto. rewrite Forall_map in Z. auto.
Qed.

Lemma make_model_done spl w art r i d : outcome spl w (MakeModel art r i d) = Ok tt -> exists a pol m1 x,
  nth_error (w_held w) i = Some a /\ a_shape pol = [3; 3] /\
  m1 = w_mem w ++ x /\ (d = false -> pol = a) /\
  (d = true -> length (w_mem w) <= a_buf pol < length m1 /\ load m1 pol = matrix_data m0) /\
  after spl w (MakeModel art r i d) =
    give_model w m1 (mkPm art r pol d [] [] (mkAref (length m1 - 1) [] [0])).
Proof.
  intros H. apply outcome_ok in H as (w' & H & ->). cbn [perform] in H.
  destruct (held w i) as [a|] eqn:A; [|discriminate]. apply held_ok in A. cbn [rbind] in H. exists a.
  destruct d.
  - unfold np_new in H. cbn in H. injection H as <-.
    set (pol := mkAref (length (w_mem w)) [0;1;2;3;4;5;6;7;8] [3;3]).
    exists pol, ((w_mem w ++ [matrix_data m0]) ++ [[]]), [matrix_data m0; []].
    split; [auto|]. split; [auto|]. split; [rewrite <- app_assoc; auto|]. split; [discriminate|]. split.
    + intros _. pose proof (made_ext _ _ [[]] _ _ (made_new (w_mem w) [3;3] (matrix_data m0))) as M. split; apply M.
    + rewrite !app_length. cbn [length]. replace (length (w_mem w) + 1 + 1 - 1) with (length (w_mem w) + 1) by lia. auto.
  - unfold np_new in H. destruct (verify_ndarray_shape _ _) as [[]|] eqn:V; [|discriminate]. apply verify_33 in V. cbn in H.
    injection H as <-. exists a, (w_mem w ++ [[]]), [[]]. split; [auto|]. split; [auto|]. split; [auto|]. split; [auto|]. split; [discriminate|].
    rewrite app_length. cbn [length]. replace (length (w_mem w) + 1 - 1) with (length (w_mem w)) by lia. auto.
Qed.

Lemma f_C87_polarizability_shared spl w art r i cs : reached spl w ->
  outcome spl w (MakeModel art r i false) = Ok tt ->
  exists x v, array_at (history spl w (MakeModel art r i false :: cs)) i = Some ([3; 3], x) /\
    model_at (history spl w (MakeModel art r i false :: cs)) (length (w_models w)) = Some v /\
    im_refpol v = matrix_of x.
Proof.
  intros Rw O. apply reached_sound in Rw. pose proof (after_sound spl w (MakeModel art r i false) Rw) as S1.
  destruct (make_model_done _ _ _ _ _ _ O) as (a & pol & m1 & x & A & Hp & -> & Hf & _ & E). specialize (Hf eq_refl) as ->.
  cbn [history fold_left]. change (fold_left (after spl) cs ?z) with (history spl z cs).
  assert (H1 : nth_error (w_models (after spl w (MakeModel art r i false))) (length (w_models w)) =
    Some (mkPm art r a false [] [] (mkAref (length (w_mem w ++ x) - 1) [] [0]))).
  { rewrite E. unfold give_model. cbn [w_models]. apply last_nth. }
  destruct (history_pol spl cs _ _ _ S1 H1) as (o' & H' & P & _). cbn [pm_pol] in P.
  pose proof (history_held spl cs i a _ S1 (after_held spl w _ _ _ Rw A)) as A'.
  unfold array_at, model_at. rewrite A', H'. cbn [option_map]. rewrite Hp. do 2 eexists. split; [reflexivity|]. split; [reflexivity|].
  cbn [contents im_refpol]. rewrite P. auto.
Qed.

Lemma reached_used spl w b : reached spl w -> length (w_mem w) <= b ->
  (forall i a, nth_error (w_held w) i = Some a -> a_buf a <> b) /\
  (forall j o, nth_error (w_models w) j = Some o -> a_buf (pm_mask o) <> b /\
     a_buf (pm_pol o) <> b /\ forall a, In a (pm_basis o) -> a_buf a <> b).
Proof.
  intros Rw L. apply reached_sound in Rw as [S1 S2]. split.
  - intros i a H. apply (nth_good _ _ _ _ S1), good_in in H. lia.
  - intros j o H. apply (nth_good _ _ _ _ S2) in H as (G1 & _ & G3 & G4 & _). apply good_in in G1. apply good_in in G4.
    split; [lia|]. split; [lia|]. intros a Ha. rewrite Forall_forall in G3. destruct (G3 a Ha) as [G _]. apply good_in in G. lia.
Qed.

Lemma f_C87_dummy_zero spl w art r i cs : reached spl w ->
  outcome spl w (MakeModel art r i true) = Ok tt ->
  exists v, model_at (history spl w (MakeModel art r i true :: cs)) (length (w_models w)) = Some v /\ im_refpol v = m0.
Proof.
  intros Rw O. pose proof Rw as Rw0. apply reached_sound in Rw. pose proof (after_sound spl w (MakeModel art r i true) Rw) as S1.
  destruct (make_model_done _ _ _ _ _ _ O) as (a & pol & m1 & x & A & Hp & -> & _ & Ht & E). specialize (Ht eq_refl) as (Lp & Ep).
  cbn [history fold_left]. change (fold_left (after spl) cs ?z) with (history spl z cs).
  assert (H1 : nth_error (w_models (after spl w (MakeModel art r i true))) (length (w_models w)) =
    Some (mkPm art r pol true [] [] (mkAref (length (w_mem w ++ x) - 1) [] [0]))).
  { rewrite E. unfold give_model. cbn [w_models]. apply last_nth. }
  destruct (history_pol spl cs _ _ _ S1 H1) as (o' & H' & P & _). cbn [pm_pol] in P.
  destruct (reached_used spl w (a_buf pol) Rw0 (proj1 Lp)) as [U1 U2].
  assert (Lx : length (w_mem w ++ x) = length (w_mem w) + 2).
  { pose proof O as O'. apply outcome_ok in O' as (w' & O' & Ew). rewrite E in Ew. cbn [perform] in O'.
    rewrite (held_of _ _ _ A) in O'. cbn in O'. injection O' as O'. rewrite <- O' in Ew.
    apply (f_equal (fun z => length (w_mem z))) in Ew. cbn in Ew. rewrite Ew, !app_length. cbn. lia. }
  destruct (frame (eq (a_buf pol)) (fun _ => False) (fun _ => False) (fun _ => False) spl cs _ S1) as [_ B].
  - rewrite E. unfold give_model. split; [|split; [|split]]; cbn [w_mem w_held w_models].
    + intros b <-. lia.
    + intros k a' Hk Hb. eapply U1; eauto.
    + intros k o Hk Hb. apply app_one_nth in Hk as [Hk|[-> ->]]; [destruct (U2 _ _ Hk) as (N & _); auto|].
      cbn [pm_mask a_buf] in Hb.
      assert (a_buf pol = length (w_mem w)) as Ea; [|rewrite Lx in Hb; lia].
      pose proof O as O'. apply outcome_ok in O' as (w' & O' & Ew). rewrite E in Ew. cbn [perform] in O'.
      rewrite (held_of _ _ _ A) in O'. cbn in O'. injection O' as O'. rewrite <- O' in Ew. unfold give_model in Ew.
      injection Ew as _ Ew. apply app_inj_tail in Ew as [_ Ew]. injection Ew as ->. auto.
    + intros k o b Hk Hb Hf. apply app_one_nth in Hk as [Hk|[-> ->]]; [destruct (U2 _ _ Hk) as (_ & _ & N); exact (N b Hb (eq_sym Hf))|destruct Hb].
  - apply Forall_forall. intros [] _; split; simpl; auto.
  - unfold model_at. rewrite H'. cbn [option_map]. eexists. split; [reflexivity|]. cbn [contents im_refpol]. rewrite P.
    replace (load _ pol) with (matrix_data m0); [apply matrix_of_data|].
    rewrite <- Ep. replace (w_mem w ++ x) with (w_mem (after spl w (MakeModel art r i true))) by (rewrite E; auto).
    apply load_buffer. symmetry. apply B; auto.
Qed.
